(** C71: cached blocks are arrays of bytes. *)
From stdpp Require Import prelude.
From Coq Require Import ZArith Lia.
From Verif Require Import EntryModel EntrySpec.

Lemma read_spec l off n : is_read l off n (take n (drop off l)).
Proof. intros k. destruct (decide (k < n)); [rewrite lookup_take by done; apply lookup_drop|apply lookup_take_ge; lia]. Qed.
Lemma is_read_all l off : is_read l off (length l) (drop off l).
Proof. intros k. rewrite lookup_drop. destruct (decide (k < length l)); [done|]. apply lookup_ge_None. lia. Qed.
Lemma is_read_inj l off n r r' : is_read l off n r -> is_read l off n r' -> r = r'. Proof. intros H H'. apply list_eq. intros k. by rewrite H, H'. Qed.
Lemma put_length off buf l : length (put off buf l) = match buf with [] => length l | _ => Nat.max (off + length buf) (length l) end.
Proof. destruct buf as [|b buf]; [done|]. unfold put. rewrite !app_length, replicate_length, take_length, drop_length. cbn [length]. lia. Qed.
Lemma put_spec off buf l : is_written l off buf (put off buf l).
Proof.
  intros k. destruct buf as [|b0 buf0] eqn:Eb; [cbn [put length]; destruct (decide (off <= k < off + 0)); [lia|]; destruct (l !! k); [done|]; destruct (decide (k < off /\ [] <> [])) as [[_ ?]|]; done|]. rewrite <- Eb. assert (buf <> []) as Hn by (by subst). clear Eb b0 buf0. unfold put. destruct buf as [|b buf0]; [done|]. set (buf := b :: buf0) in *. clearbody buf.
  destruct (decide (k < off)) as [Hk|Hk].
  - destruct (decide (off <= k < _)); [lia|]. destruct (decide (k < length l)) as [Hl|Hl].
    + rewrite lookup_app_l by (rewrite take_length; lia). rewrite lookup_take by done. destruct (l !! k) eqn:E; [done|]. apply lookup_ge_None in E. lia.
    + rewrite lookup_app_r by (rewrite take_length; lia). rewrite take_length. rewrite lookup_app_l by (rewrite replicate_length; lia). rewrite lookup_replicate_2 by lia. rewrite (lookup_ge_None_2 l k) by lia. by rewrite decide_True by done.
  - rewrite lookup_app_r by (rewrite take_length; lia). rewrite take_length. rewrite lookup_app_r by (rewrite replicate_length; lia). rewrite replicate_length. replace (k - off `min` length l - (off - length l)) with (k - off) by lia. destruct (decide (off <= k < off + length buf)).
    + by rewrite lookup_app_l by lia.
    + rewrite lookup_app_r by lia. rewrite lookup_drop. replace (off + length buf + (k - off - length buf)) with k by lia. destruct (l !! k); [done|]. rewrite decide_False by lia. done.
Qed.
Lemma cut_spec n f : is_cut (bytes f) n (bytes (os_truncate n f)).
Proof.
  intros k. cbn. destruct (decide (k < n)).
  - destruct (decide (k < length (bytes f))).
    + rewrite lookup_app_l by (rewrite take_length; lia). rewrite lookup_take by done. destruct (lookup_lt_is_Some_2 (bytes f) k) as [x E]; [done|]. by rewrite E.
    + rewrite lookup_app_r by (rewrite take_length; lia). rewrite take_length. rewrite lookup_replicate_2 by lia. by rewrite (lookup_ge_None_2 (bytes f) k) by lia.
  - apply lookup_ge_None. rewrite app_length, take_length, replicate_length. lia.
Qed.
Lemma cut_length n f : length (bytes (os_truncate n f)) = n. Proof. cbn. rewrite app_length, take_length, replicate_length. lia. Qed.

(** ** One entry, any sequence of accesses *)
Theorem entry_exact o e r e' : step o e = (r, e') -> true_ e -> whole o e -> true_ e' /\ allowed o (bytes (fh e)) (pos e) r (bytes (fh e')) (pos e').
Proof.
  intros E [Hp Hs] Hw. destruct e as [[l p'] p s d]. cbn in Hp, Hs. subst p' s. destruct o as [n|off|z|z| |n|w buf]; cbn in E.
  - destruct n as [n|]; injection E as <- <-; (split; [done|]); eexists; (split; [reflexivity|]); (split; [|done]); [apply read_spec|apply is_read_all].
  - unfold seek in E. cbn in E. destruct (Nat.eqb_spec p off) as [-> |]; injection E as <- <-; done.
  - unfold seek_cur, seek_to in E. cbn in E. destruct (Z.ltb_spec (Z.of_nat p + z) 0); injection E as <- <-; (split; [done|]); (split; [done|]); [by right|left; cbn; repeat split; lia].
  - unfold seek_end, seek_to in E. cbn in E. destruct (Z.ltb_spec (Z.of_nat (length l) + z) 0); injection E as <- <-; (split; [done|]); (split; [done|]); [by right|left; cbn; repeat split; lia].
  - injection E as <- <-. done.
  - destruct n as [n|]; cbn [truncate fh at_ pos] in E; injection E as <- <-; (split; [split; [done|symmetry; apply (cut_length _ (File l p))]|]); (split; [done|]); (split; [apply (cut_spec _ (File l p))|done]).
  - unfold write in E. cbn in E. destruct w as [k|]; cbn in E; injection E as <- <-; [|done]. cbn in Hw. destruct Hw as [Hk He]. rewrite take_ge by done. split.
    + split; [done|]. cbn. rewrite put_length. destruct buf; [cbn; specialize (He eq_refl); lia|done].
    + split; [done|]. split; [apply put_spec|done].
Qed.
Lemma opened_true c : true_ (opened c). Proof. done. Qed.
Theorem history_true l e : true_ e -> wholes l e -> true_ (run l e).
Proof. revert e. induction l as [|o l IH]; intros e He Hw; [done|]. destruct Hw as [H Hw]. cbn. apply IH; [|done]. destruct (step o e) as [r e1] eqn:E. by eapply entry_exact. Qed.
(** It is dirty exactly if something was written or cut since it was opened. *)
Definition modifies (o : op) : bool := match o with Write _ _ | Truncate _ => true | _ => false end.
Theorem dirty_exact l c : dirty (run l (opened c)) = existsb modifies l.
Proof.
  cut (forall l e, dirty (run l e) = dirty e || existsb modifies l); [by intros ->|]. clear l. induction l as [|o l IH]; intros e; [cbn; by rewrite orb_false_r|]. cbn [run fold_left existsb]. unfold run in IH. rewrite IH, orb_assoc. f_equal.
  destruct o as [n|off|z|z| |n|w buf]; cbn; rewrite ?orb_false_r, ?orb_true_r; try done.
  - unfold seek. by destruct (_ =? _).
  - unfold seek_cur, seek_to. by destruct (_ <? _)%Z.
  - unfold seek_end, seek_to. by destruct (_ <? _)%Z.
  - by destruct n.
  - unfold write. by destruct (os_write _ _ _).
Qed.
(** An entry that is not dirty has the contents with which it was opened. *)
Theorem clean_same l c : dirty (run l (opened c)) = false -> bytes (fh (run l (opened c))) = c.
Proof.
  rewrite dirty_exact. cut (forall l e, existsb modifies l = false -> bytes (fh (run l e)) = bytes (fh e)); [intros H ?; by rewrite H|]. clear l. induction l as [|o l IH]; intros e H; [done|]. cbn in H. apply orb_false_iff in H as [Ho H]. cbn. rewrite (IH _ H). destruct o as [n|off|z|z| |n|w buf]; try done; cbn.
  - unfold seek. by destruct (_ =? _).
  - unfold seek_cur, seek_to. by destruct (_ <? _)%Z.
  - unfold seek_end, seek_to. by destruct (_ <? _)%Z.
Qed.

(** ** Accesses by requests, wherever the position was left *)
Lemma seek_true off e : true_ e -> true_ (seek off e) /\ bytes (fh (seek off e)) = bytes (fh e) /\ at_ (fh (seek off e)) = off /\ size (seek off e) = size e.
Proof. intros [Hp Hs]. unfold seek. destruct (Nat.eqb_spec (pos e) off); [|done]. repeat split; [done|done|congruence]. Qed.
Theorem block_read_exact off len e r e' : block_read off len e = (r, e') -> true_ e -> true_ e' /\ bytes (fh e') = bytes (fh e) /\ length r = len /\ forall k, k < len -> r !! k = Some (default 0%N (bytes (fh e) !! (off + k))).
Proof.
  unfold block_read. intros E He. destruct (seek_true off e He) as ([Ht1 Ht2] & Hb & Ha & Hs). set (e1 := seek off e) in *. clearbody e1. unfold read in E. cbn in E. injection E as <- <-. rewrite Ha, Hb in *. set (l := bytes (fh e)) in *. clearbody l. split; [split; [cbn; by rewrite Ht1|by cbn; rewrite Ht2]|]. split; [done|]. assert (length (take len (drop off l)) = len `min` (length l - off)) as Hl by (rewrite take_length, drop_length; lia).
  split; [rewrite app_length, replicate_length; lia|]. intros k Hk. destruct (decide (off + k < length l)).
  - rewrite lookup_app_l by lia. rewrite lookup_take by done. rewrite lookup_drop. destruct (lookup_lt_is_Some_2 l (off + k)) as [x ->]; done.
  - rewrite lookup_app_r by lia. rewrite lookup_replicate_2 by lia. by rewrite (lookup_ge_None_2 l (off + k)) by lia.
Qed.
Theorem block_write_exact k off buf e e' : block_write (Some k) off buf e = (true, e') -> true_ e -> length buf <= k -> buf <> [] -> true_ e' /\ is_written (bytes (fh e)) off buf (bytes (fh e')) /\ dirty e' = true.
Proof.
  unfold block_write. intros E He Hk Hn. destruct (seek_true off e He) as ([Ht1 Ht2] & Hb & Ha & Hs). set (e1 := seek off e) in *. clearbody e1. unfold write in E. cbn in E. injection E as <-. rewrite take_ge by done. split; [|by rewrite <- Hb, <- Ha; split; [apply put_spec|]].
  split; [cbn; by rewrite Ht1|]. cbn. rewrite put_length. destruct buf; [done|]. by rewrite Ht1, Ht2.
Qed.
Theorem block_truncate_exact n e : true_ e -> true_ (block_truncate n e) /\ is_cut (bytes (fh e)) n (bytes (fh (block_truncate n e))) /\ dirty (block_truncate n e) = true.
Proof. intros [Hp Hs]. split; [split; [done|symmetry; apply (cut_length n (fh e))]|]. split; [apply cut_spec|done]. Qed.

(** ** Reading for upload *)
Lemma read_true n e : true_ e -> true_ (read n e).2 /\ bytes (fh (read n e).2) = bytes (fh e) /\ size (read n e).2 = size e.
Proof. intros [Hp Hs]. unfold read. cbn. repeat split; [by rewrite Hp|done]. Qed.
Lemma chunks_spec B fuel e : 0 < B -> length (bytes (fh e)) - at_ (fh e) < fuel -> true_ e -> concat (chunks B fuel e).1 = drop (at_ (fh e)) (bytes (fh e)) /\ true_ (chunks B fuel e).2 /\ bytes (fh (chunks B fuel e).2) = bytes (fh e) /\ size (chunks B fuel e).2 = size e /\ Forall (fun b => b <> [] /\ length b <= B) (chunks B fuel e).1.
Proof.
  intros HB. revert e. induction fuel as [|fuel IH]; intros e Hf He; [lia|]. cbn [chunks]. pose proof (read_true (Some B) e He) as (Ht & Hb & Hs). destruct (read (Some B) e) as [b e1] eqn:E. cbn [snd] in *. assert (b = take B (drop (at_ (fh e)) (bytes (fh e))) /\ at_ (fh e1) = at_ (fh e) + length b) as [Eb Ea] by (unfold read in E; cbn in E; by injection E as <- <-).
  destruct b as [|x b].
  - cbn [concat fst snd]. split; [|split; [done|split; [done|split; [done|constructor]]]]. destruct (drop _ _) eqn:Ed; [done|]. destruct B; [lia|done].
  - assert (length (x :: b) = B `min` (length (bytes (fh e)) - at_ (fh e))) as Hl by (rewrite Eb, take_length, drop_length; lia). assert (0 < length (x :: b)) as Hpos by (cbn; lia). destruct (IH e1) as (I1 & I2 & I3 & I4 & I5); [rewrite Hb, Ea; lia|done|]. destruct (chunks B fuel e1) as [l e2]. cbn [fst snd concat] in *. split; [|split; [done|split; [congruence|split; [congruence|constructor; [split; [done|lia]|done]]]]].
    rewrite I1, Ea, Hb, <- drop_drop. rewrite Hl. rewrite Eb. destruct (decide (B <= length (bytes (fh e)) - at_ (fh e))).
    + rewrite Nat.min_l by done. apply take_drop.
    + rewrite Nat.min_r by lia. set (c := drop (at_ (fh e)) (bytes (fh e))). assert (length c = length (bytes (fh e)) - at_ (fh e)) as Hc by apply drop_length. rewrite take_ge by lia. rewrite drop_ge by lia. apply app_nil_r.
Qed.
Lemma take_self (n : nat) (c : list N) : take n c = take (length (take n c)) c.
Proof. rewrite take_length. destruct (decide (n <= length c)); [by rewrite Nat.min_l by done|]. rewrite Nat.min_r by lia. by rewrite !take_ge by lia. Qed.
Lemma chunks_len_spec B fuel len e : 0 < B -> len < fuel -> true_ e -> concat (chunks_len B fuel len e).1 = take len (drop (at_ (fh e)) (bytes (fh e))) /\ true_ (chunks_len B fuel len e).2 /\ bytes (fh (chunks_len B fuel len e).2) = bytes (fh e) /\ size (chunks_len B fuel len e).2 = size e.
Proof.
  intros HB. revert len e. induction fuel as [|fuel IH]; intros len e Hf He; [lia|]. cbn [chunks_len]. destruct (Nat.eqb_spec len 0) as [-> |Hn]; [done|]. pose proof (read_true (Some (B `min` len)) e He) as (Ht & Hb & Hs). destruct (read (Some (B `min` len)) e) as [b e1] eqn:E. cbn [snd] in *. assert (b = take (B `min` len) (drop (at_ (fh e)) (bytes (fh e))) /\ at_ (fh e1) = at_ (fh e) + length b) as [Eb Ea] by (unfold read in E; cbn in E; by injection E as <- <-).
  destruct b as [|x b].
  - cbn [concat fst snd]. split; [|done]. destruct (drop _ _) eqn:Ed; [by rewrite take_nil|]. destruct (B `min` len) eqn:Em; [lia|done].
  - assert (length (x :: b) = B `min` len `min` (length (bytes (fh e)) - at_ (fh e))) as Hl by (rewrite Eb, take_length, drop_length; lia). assert (0 < length (x :: b)) as Hpos by (cbn; lia). destruct (IH (len - length (x :: b)) e1) as (I1 & I2 & I3 & I4); [lia|done|]. destruct (chunks_len B fuel (len - length (x :: b)) e1) as [l e2]. cbn [fst snd concat] in *. split; [|split; [done|split; congruence]].
    rewrite I1, Ea, Hb, <- drop_drop. set (c := drop (at_ (fh e)) (bytes (fh e))) in *. assert (x :: b = take (length (x :: b)) c) as Ec. { rewrite Eb. apply take_self. } set (m := length (x :: b)) in *. rewrite Ec. rewrite <- (take_drop m (take len c)). rewrite take_take, skipn_firstn_comm. rewrite Nat.min_l by lia. done.
Qed.
Theorem hashed_exact B e : 0 < B -> true_ e -> (hashed B e).1 = bytes (fh e) /\ true_ (hashed B e).2 /\ bytes (fh (hashed B e).2) = bytes (fh e).
Proof.
  intros HB He. unfold hashed. destruct (seek_true 0 e He) as (H1 & H2 & H3 & H4). destruct (seek_true 0 _ H1) as (H5 & H6 & H7 & H8). set (e0 := seek 0 e) in *. set (e1 := seek 0 e0) in *. destruct (chunks_spec B (fuel e0) e1 HB) as (C1 & C2 & C3 & C4 & _); [unfold fuel; rewrite H6; lia|done|]. destruct (chunks B (fuel e0) e1) as [l e2]. cbn [fst snd] in *. rewrite C1, C3, H7, H6, H2. by rewrite drop_0.
Qed.
Theorem packed_exact B e : 0 < B -> true_ e -> (packed B e).1 = bytes (fh e) /\ true_ (packed B e).2 /\ bytes (fh (packed B e).2) = bytes (fh e).
Proof.
  intros HB He. unfold packed. destruct (seek_true 0 e He) as (H1 & H2 & H3 & H4). set (e0 := seek 0 e) in *. destruct (chunks_len_spec B (S (size e0)) (size e0) e0 HB) as (C1 & C2 & C3 & C4); [lia|done|]. destruct (chunks_len B (S (size e0)) (size e0) e0) as [l e2]. cbn [fst snd] in *. rewrite C1, C3, H3, H2, H4. destruct He as [_ Hs]. rewrite Hs, drop_0, take_ge by done. done.
Qed.
Theorem plain_exact B e : 0 < B -> true_ e -> concat (plain B e).1 = bytes (fh e) /\ true_ (plain B e).2 /\ bytes (fh (plain B e).2) = bytes (fh e).
Proof.
  intros HB He. unfold plain. destruct (seek_true 0 e He) as (H1 & H2 & H3 & H4). set (e0 := seek 0 e) in *. destruct H1 as [Hp Hs]. assert (tell e0 = 0) as Ht0 by (unfold tell; congruence). rewrite Ht0. cbn [Nat.eqb]. unfold seek_end, seek_to. replace (Z.of_nat (length (bytes (fh e0))) + 0 <? 0)%Z with false by (symmetry; apply Z.ltb_ge; lia). set (e1 := Entry _ _ _ _).
  assert (true_ e1 /\ bytes (fh e1) = bytes (fh e) /\ tell e1 = length (bytes (fh e))) as (T1 & T2 & T3) by (unfold e1, true_, tell; cbn; rewrite Hs, H2; repeat split; lia). rewrite T3. rewrite Hs, H2, Nat.eqb_refl. cbn [negb]. destruct (seek_true 0 _ T1) as (S1 & S2 & S3 & S4). set (e2 := seek 0 e1) in *. destruct (chunks_spec B (fuel e2) e2 HB) as (C1 & C2 & C3 & C4 & _); [unfold fuel; lia|done|].
  rewrite C1, S3, S2, T2, drop_0. split; [done|]. split; [done|].
  by rewrite C3, S2.
Qed.

(** ** The file of a local backend *)
Lemma put_end buf l : put (length l) buf l = l ++ buf.
Proof. destruct buf; [by rewrite app_nil_r|]. unfold put. rewrite take_ge by done. rewrite Nat.sub_diag. cbn [replicate app]. rewrite drop_ge by lia. by rewrite app_nil_r. Qed.
Lemma dump_spec ws parts f g : dump ws parts f = Some g -> at_ f = length (bytes f) -> exists rs, bytes g = bytes f ++ concat rs /\ at_ g = length (bytes g) /\ Forall2 (fun r p => r `prefix_of` p) rs parts /\ (Forall2 (fun w p => match w with Some k => length p <= k | None => True end) (take (length parts) ws) parts -> rs = parts).
Proof.
  revert ws f. induction parts as [|p parts IH]; intros ws f E Hf; cbn in E; [injection E as ->; exists []; cbn; rewrite app_nil_r; repeat split; [done|constructor]|]. destruct ws as [|[k|] ws]; [done| |done]. cbn in E. apply IH in E as (rs & Hb & Ha & Hr & Hw); [|cbn; rewrite Hf, put_end, app_length; lia]. exists (take k p :: rs). cbn in Hb. rewrite Hf, put_end in Hb. cbn [concat]. rewrite Hb. rewrite <- app_assoc. repeat split.
  - by rewrite Ha, Hb, app_assoc.
  - constructor; [|done]. exists (drop k p). symmetry. apply take_drop.
  - intros H. cbn [take length] in H. inversion H; subst. rewrite take_ge by done. f_equal. auto.
Qed.
(** What is stored if the call succeeds: exactly what was given if no write was cut short; and the size that is returned always tells whether it is. *)
Theorem local_file_exact ws head parts l n : local_write ws head parts = Some (l, n) -> Forall2 (fun w p => match w with Some k => length p <= k | None => True end) (take (length (head ++ parts)) ws) (head ++ parts) -> l = concat head ++ concat parts /\ n = length l.
Proof.
  unfold local_write. intros E H. destruct (dump ws (head ++ parts) (File [] 0)) as [g|] eqn:Ed; [|done]. cbn in E. injection E as <- <-. apply dump_spec in Ed as (rs & Hb & Ha & _ & Hw); [|done]. rewrite (Hw H), concat_app in Hb. done.
Qed.
Lemma prefix_total (rs parts : list (list N)) : Forall2 (fun r p => r `prefix_of` p) rs parts -> length (concat rs) <= length (concat parts) /\ (length (concat rs) = length (concat parts) -> rs = parts).
Proof.
  induction 1 as [|r p rs parts Hr _ [IH1 IH2]]; [done|]. cbn [concat]. rewrite !app_length. pose proof (prefix_length _ _ Hr). split; [lia|]. intros E. rewrite IH2 by lia. f_equal. destruct Hr as [x ->]. rewrite app_length in *. destruct x; [by rewrite app_nil_r|cbn in *; lia].
Qed.
Theorem local_size ws head parts l n : local_write ws head parts = Some (l, n) -> n <= length (concat head ++ concat parts) /\ (n = length (concat head ++ concat parts) <-> l = concat head ++ concat parts).
Proof.
  unfold local_write. intros E. destruct (dump ws (head ++ parts) (File [] 0)) as [g|] eqn:Ed; [|done]. cbn in E. injection E as <- <-. apply dump_spec in Ed as (rs & Hb & Ha & Hr & _); [|done]. cbn in Hb. rewrite <- concat_app, Ha, Hb. destruct (prefix_total _ _ Hr) as [H1 H2]. split; [done|]. split; [intros E; by rewrite (H2 E)|by intros ->].
Qed.

(** ** Where this does not hold *)
(** The system accepts a part of the data: the caller is not told, size and position are wrong, and the next write goes elsewhere. *)
Theorem entry_short_refuted : ~ (forall k buf e e', true_ e -> buf <> [] -> step (Write (Some k) buf) e = (RNone, e') -> is_written (bytes (fh e)) (pos e) buf (bytes (fh e'))).
Proof. intros H. specialize (H 1 [1; 2; 3]%N (opened []) (step (Write (Some 1) [1; 2; 3]%N) (opened [])).2 (opened_true []) ltac:(done) eq_refl 2). by vm_compute in H. Qed.
Theorem after_short_refuted : ~ (forall k buf off buf2 e e1 e2, true_ e -> buf <> [] -> write (Some k) buf e = (true, e1) -> block_write (Some (length buf2)) off buf2 e1 = (true, e2) -> block_read off (length buf2) e2 = (buf2, (block_read off (length buf2) e2).2)).
Proof.
  intros H. set (e1 := (write (Some 1) [1; 2; 3]%N (opened [])).2). set (e2 := (block_write (Some 2) 3 [8; 9]%N e1).2). specialize (H 1 [1; 2; 3]%N 3 [8; 9]%N (opened []) e1 e2 (opened_true []) ltac:(done) eq_refl eq_refl). by vm_compute in H.
Qed.
(** A local backend stores a truncated object, and reports success. *)
Theorem local_short_refuted : ~ (forall ws head parts l n, local_write ws head parts = Some (l, n) -> l = concat head ++ concat parts).
Proof. intros H. specialize (H [Some 2; Some 1] [[7; 7]]%N [[1; 2; 3]]%N _ _ eq_refl). by vm_compute in H. Qed.
(** Nothing written behind the end: the size is wrong, the file is not. *)
Theorem empty_write_refuted : ~ (forall o e, true_ e -> (forall w buf, o = Write w buf -> w = Some (length buf)) -> true_ (step o e).2).
Proof. intros H. destruct (H (Write (Some 0) []) (seek 3 (opened []))) as [_ Q]; [by vm_compute|by intros w buf [= <- <-]|by vm_compute in Q]. Qed.

(** ** Examples *)
Definition ops : list op := [Write (Some 9) [1; 2; 3]%N; Seek 5; Write (Some 2) [8; 9]%N; Read (Some 4); SeekCur (-3); Read None; SeekEnd 0; Write None [4]%N; Truncate (Some 6); Tell].
Example ops_whole : wholes ops (opened [5; 5]%N). Proof. cbn. repeat split; try lia; done. Qed.
Example ops_run : run ops (opened [5; 5]%N) = Entry (File [1; 2; 3; 0; 0; 8]%N 7) 7 6 true. Proof. by vm_compute. Qed.
Example ops_true : true_ (run ops (opened [5; 5]%N)). Proof. apply history_true; [done|apply ops_whole]. Qed.
Example ops_hashed : (hashed 4 (run ops (opened [5; 5]%N))).1 = [1; 2; 3; 0; 0; 8]%N. Proof. by vm_compute. Qed.
Example ops_plain : (plain 4 (run ops (opened [5; 5]%N))).1 = [[1; 2; 3; 0]; [0; 8]]%N. Proof. by vm_compute. Qed.
Example ops_block : (block_read 4 4 (run ops (opened [5; 5]%N))).1 = [0; 8; 0; 0]%N. Proof. by vm_compute. Qed.
Example clean_example : dirty (run [Read (Some 1); Seek 0; SeekEnd (-1)] (opened [5; 6]%N)) = false. Proof. by vm_compute. Qed.
Example local_example : local_write [Some 7; Some 9; Some 4; Some 2] [[7; 7]]%N [[1; 2; 3; 0]; [0; 8]]%N = Some ([7; 7; 1; 2; 3; 0; 0; 8]%N, 8) /\ Forall2 (fun w p => match w with Some k => length p <= k | None => True end) (take 3 [Some 7; Some 9; Some 4; Some 2]) ([[7; 7]; [1; 2; 3; 0]; [0; 8]]%N).
Proof. split; [by vm_compute|]. repeat constructor. Qed.

Print Assumptions entry_exact.
Print Assumptions history_true.
Print Assumptions dirty_exact.
Print Assumptions clean_same.
Print Assumptions block_read_exact.
Print Assumptions block_write_exact.
Print Assumptions block_truncate_exact.
Print Assumptions hashed_exact.
Print Assumptions packed_exact.
Print Assumptions plain_exact.
Print Assumptions local_file_exact.
Print Assumptions local_size.
Print Assumptions entry_short_refuted.
Print Assumptions after_short_refuted.
Print Assumptions local_short_refuted.
Print Assumptions empty_write_refuted.
