(** Escaped names and paths of the local backend. *)
From stdpp Require Import prelude.
From Verif Require Import Text LocalModel.

Definition esc (c : nat) : str := if decide (c = EQ) then X3D else if decide (c = SLASH) then X2F else if decide (c = HASH) then X23 else [c].
Lemma replace_app (c : nat) w (l1 l2 : str) : replace c w (l1 ++ l2) = replace c w l1 ++ replace c w l2.
Proof. unfold replace. apply bind_app. Qed.
Lemma replace_one (c : nat) w x : replace c w [x] = if decide (x = c) then w else [x].
Proof. unfold replace. cbn. by rewrite app_nil_r. Qed.
Lemma escape_app s1 s2 : escape (s1 ++ s2) = escape s1 ++ escape s2.
Proof. unfold escape. by rewrite !replace_app. Qed.
Lemma escape_one c : escape [c] = esc c.
Proof.
  unfold escape, esc. rewrite replace_one. destruct (decide (c = EQ)) as [->|H1]; [reflexivity|]. rewrite replace_one. destruct (decide (c = SLASH)) as [->|H2]; [reflexivity|].
  rewrite replace_one. done.
Qed.
Lemma escape_cons c s : escape (c :: s) = esc c ++ escape s.
Proof. change (c :: s) with ([c] ++ s). by rewrite escape_app, escape_one. Qed.
Lemma escape_nil : escape [] = [].
Proof. reflexivity. Qed.
(** The stages of [unescape] on an escaped text. *)
Lemma replace3_skip a b c x p s : p <> a -> replace3 a b c x (p :: s) = p :: replace3 a b c x s.
Proof. intros H. cbn. destruct s as [|q [|r s]]; [done|done|]. rewrite decide_False; [done|]. tauto. Qed.
Lemma replace3_hit a b c x s : replace3 a b c x (a :: b :: c :: s) = x :: replace3 a b c x s.
Proof. cbn. by rewrite decide_True. Qed.
Lemma replace3_miss a b c x q r s : (q <> b \/ r <> c) -> replace3 a b c x (a :: q :: r :: s) = a :: replace3 a b c x (q :: r :: s).
Proof. intros H. change (replace3 a b c x (a :: q :: r :: s)) with (if decide (a = a /\ q = b /\ r = c) then x :: replace3 a b c x s else a :: replace3 a b c x (q :: r :: s)). rewrite decide_False; [done|]. tauto. Qed.
Definition esc1 (c : nat) : str := if decide (c = EQ) then X3D else if decide (c = HASH) then X23 else [c].
Definition esc2 (c : nat) : str := if decide (c = EQ) then X3D else [c].
Lemma stage1 s r : replace3 61 50 70 SLASH (escape s ++ r) = (s ≫= esc1) ++ replace3 61 50 70 SLASH r.
Proof.
  induction s as [|c s IH]; [done|]. rewrite escape_cons, bind_cons, <- !app_assoc, <- IH. clear IH. generalize (escape s ++ r). intros l. unfold esc, esc1, X3D, X2F, X23, EQ, SLASH, HASH.
  destruct (decide (c = 61)) as [->|H1]. { cbn [app]. rewrite replace3_miss by (left; lia). by rewrite !replace3_skip by lia. }
  destruct (decide (c = 47)) as [->|H2]. { cbn [app]. rewrite replace3_hit. rewrite (decide_False (P := 47 = 35)) by lia. done. }
  destruct (decide (c = 35)) as [->|H3]. { cbn [app]. rewrite replace3_miss by (right; lia). by rewrite !replace3_skip by lia. }
  cbn [app]. by rewrite replace3_skip by lia.
Qed.
Lemma stage2 s r : replace3 61 50 51 HASH ((s ≫= esc1) ++ r) = (s ≫= esc2) ++ replace3 61 50 51 HASH r.
Proof.
  induction s as [|c s IH]; [done|]. rewrite !bind_cons, <- !app_assoc, <- IH. clear IH. generalize ((s ≫= esc1) ++ r). intros l. unfold esc2, esc1, X3D, X2F, X23, EQ, SLASH, HASH.
  destruct (decide (c = 61)) as [->|H1]. { cbn [app]. rewrite replace3_miss by (left; lia). by rewrite !replace3_skip by lia. }
  destruct (decide (c = 35)) as [->|H3]. { cbn [app]. by rewrite replace3_hit. }
  cbn [app]. by rewrite replace3_skip by lia.
Qed.
Lemma stage3 s r : replace3 61 51 68 EQ ((s ≫= esc2) ++ r) = s ++ replace3 61 51 68 EQ r.
Proof.
  induction s as [|c s IH]; [done|]. rewrite !bind_cons, <- !app_assoc. cbn [app]. rewrite <- IH. clear IH. generalize ((s ≫= esc2) ++ r). intros l. unfold esc2, X3D, EQ.
  destruct (decide (c = 61)) as [->|H1]. { cbn [app]. by rewrite replace3_hit. }
  cbn [app]. by rewrite replace3_skip by lia.
Qed.
Lemma unescape_escape_app s r : unescape (escape s ++ r) = s ++ unescape r.
Proof. unfold unescape. by rewrite stage1, stage2, stage3. Qed.
Lemma unescape_escape s : unescape (escape s) = s.
Proof. pose proof (unescape_escape_app s []) as H. rewrite !app_nil_r in H. exact H. Qed.
Lemma escape_inj s1 s2 : escape s1 = escape s2 -> s1 = s2.
Proof. intros H%(f_equal unescape). by rewrite !unescape_escape in H. Qed.
Lemma escape_safe s c : c ∈ escape s -> c <> SLASH /\ c <> HASH.
Proof.
  induction s as [|x s IH]; [by intros ?%elem_of_nil|]. rewrite escape_cons, elem_of_app. intros [H|H]; [|by apply IH]. revert H. unfold esc, X3D, X2F, X23, EQ, SLASH, HASH.
  repeat case_decide; rewrite ?elem_of_cons, ?elem_of_nil; intros Hin; decompose [or] Hin; subst; try lia; done.
Qed.
Lemma starts_with_spec p s : starts_with p s = true <-> exists r, s = p ++ r.
Proof.
  unfold starts_with. rewrite bool_decide_eq_true. split.
  - intros H. exists (drop (length p) s). by rewrite <- H at 1; rewrite take_drop.
  - intros [r ->]. by rewrite take_app.
Qed.
(** A prefix of names is a prefix of escaped names, and the other way round. *)
Lemma escape_prefix p s : starts_with p s = true <-> starts_with (escape p) (escape s) = true.
Proof.
  rewrite !starts_with_spec. split.
  - intros [r ->]. exists (escape r). by rewrite escape_app.
  - intros [r Hr]. exists (unescape r). apply (f_equal unescape) in Hr. by rewrite unescape_escape, unescape_escape_app in Hr.
Qed.
Lemma data_escaped : escape DATA = DATA.
Proof. reflexivity. Qed.
Lemma cuts_spec n i : i ∈ cuts n <-> exists j, i = 3 * S j /\ i < n.
Proof.
  unfold cuts. rewrite elem_of_list_fmap. split.
  - intros (j & -> & Hj%elem_of_seq). exists j. split; [done|]. pose proof (Nat.div_mod_eq (n - 1) 3). pose proof (Nat.mod_upper_bound (n - 1) 3). lia.
  - intros (j & -> & Hj). exists j. split; [done|]. apply elem_of_seq. pose proof (Nat.div_mod_eq (n - 1) 3). pose proof (Nat.mod_upper_bound (n - 1) 3). lia.
Qed.
Definition is_data (key : str) : Prop := starts_with DATA key = true.
Global Instance is_data_dec key : Decision (is_data key).
Proof. unfold is_data. apply _. Qed.
Definition number (key : str) : str := drop 10 (escape key).
Lemma path_data key : is_data key -> key_to_path key = DATA :: ((fun i => take i (number key)) <$> cuts (length (number key))) ++ [escape key] /\ escape key = DATA ++ number key.
Proof.
  intros H. unfold key_to_path, number. assert (starts_with DATA (escape key) = true) as E by (apply escape_prefix in H; by rewrite data_escaped in H). rewrite E. split; [done|].
  apply starts_with_spec in E as [r ->]. done.
Qed.
Lemma path_other key : ~ is_data key -> key_to_path key = [escape key].
Proof. intros H. unfold key_to_path. assert (starts_with DATA (escape key) <> true) as E by (intros E; apply H, escape_prefix; by rewrite data_escaped). by destruct (starts_with DATA (escape key)). Qed.
Lemma last_path key : last (key_to_path key) = Some (escape key).
Proof. destruct (decide (is_data key)) as [H|H]; [destruct (path_data key H) as [-> _]|by rewrite path_other]. rewrite app_comm_cons. apply last_snoc. Qed.
Lemma path_not_nil key : key_to_path key <> [].
Proof. intros H. pose proof (last_path key) as E. by rewrite H in E. Qed.
Lemma dirname_snoc p n : dirname (p ++ [n]) = p.
Proof. unfold dirname. apply removelast_last. Qed.
Lemma path_split key : key_to_path key = dirname (key_to_path key) ++ [escape key].
Proof.
  destruct (decide (is_data key)) as [H|H]; [destruct (path_data key H) as [-> _]|by rewrite path_other]. rewrite app_comm_cons. by rewrite dirname_snoc.
Qed.
Lemma path_inj k1 k2 : key_to_path k1 = key_to_path k2 -> k1 = k2.
Proof. intros H. apply escape_inj. apply (f_equal last) in H. rewrite !last_path in H. by injection H. Qed.
(** The directories on the way: the first is 's3ql_data_', the others are parts of the number, of lengths 3, 6, ... *)
Lemma cuts_lookup n j i : cuts n !! j = Some i -> i = 3 * S j.
Proof. unfold cuts. rewrite list_lookup_fmap. destruct (seq 0 ((n - 1) / 3) !! j) as [x|] eqn:E; [|done]. cbn. intros [= <-]. apply lookup_seq in E as [-> _]. done. Qed.
Lemma cuts_length n : length (cuts n) = (n - 1) / 3.
Proof. unfold cuts. by rewrite fmap_length, seq_length. Qed.
Lemma number_dirs (no : str) j c : ((fun i => take i no) <$> cuts (length no)) !! j = Some c -> c = take (3 * S j) no /\ 3 * S j < length no.
Proof.
  rewrite list_lookup_fmap. destruct (cuts (length no) !! j) as [i|] eqn:E; [|done]. cbn -[Nat.mul]. intros [= <-]. pose proof (cuts_lookup _ _ _ E) as ->. split; [done|].
  apply elem_of_list_lookup_2, cuts_spec in E as (? & ? & ?). lia.
Qed.
Lemma number_dirs_length (no : str) : length ((fun i => take i no) <$> cuts (length no)) = (length no - 1) / 3.
Proof. by rewrite fmap_length, cuts_length. Qed.
(** No object lies in the place of a directory of another. *)
Lemma path_no_conflict k1 k2 q n : key_to_path k2 = key_to_path k1 ++ n :: q -> False.
Proof.
  intros H. destruct (decide (is_data k2)) as [D2|D2].
  2: { rewrite (path_other k2) in H by done. rewrite (path_split k1) in H. destruct (dirname (key_to_path k1)) as [|? [|]]; done. }
  destruct (path_data k2 D2) as [E2 _]. rewrite E2 in H. clear E2. destruct (decide (is_data k1)) as [D1|D1].
  - destruct (path_data k1 D1) as [E1 E1']. rewrite E1 in H. clear E1. rewrite <- app_comm_cons in H. injection H as H. rewrite <- app_assoc in H. cbn [app] in H.
    set (no1 := number k1) in *. set (no2 := number k2) in *. set (j := length ((fun i => take i no1) <$> cuts (length no1))).
    assert ((((fun i => take i no2) <$> cuts (length no2)) ++ [escape k2]) !! j = Some (escape k1)) as Hj. { rewrite H, lookup_app_r by done. unfold j. by rewrite Nat.sub_diag. }
    assert (length (((fun i => take i no2) <$> cuts (length no2)) ++ [escape k2]) = j + S (S (length q))) as Hl. { rewrite H, app_length. done. }
    rewrite app_length in Hl. cbn [length] in Hl. rewrite lookup_app_l in Hj by lia. apply number_dirs in Hj as [Hj _]. apply (f_equal length) in Hj. rewrite E1', app_length, take_length in Hj. cbn [length DATA] in Hj.
    unfold j in Hj. rewrite number_dirs_length in Hj. pose proof (Nat.div_mod_eq (length no1 - 1) 3). pose proof (Nat.mod_upper_bound (length no1 - 1) 3). lia.
  - rewrite (path_other k1) in H by done. cbn in H. injection H as H _. apply D1. unfold is_data. apply escape_prefix. rewrite <- H, data_escaped. done.
Qed.
(** Temporary files. *)
Definition good_ident (ident : str) : Prop := exists r, ident = HASH :: r /\ SLASH ∉ r.
Lemma tmp_path_key ident key : tmp_path ident (key_to_path key) = dirname (key_to_path key) ++ [escape key ++ ident].
Proof. unfold tmp_path. by rewrite last_path. Qed.
Lemma split_hash s1 s2 r1 r2 : escape s1 ++ HASH :: r1 = escape s2 ++ HASH :: r2 -> s1 = s2.
Proof.
  intros H. apply escape_inj. apply (f_equal (split HASH)) in H. rewrite !split_app_sep in H; [by injection H|..]; intros Hin%escape_safe; naive_solver.
Qed.
Lemma tmp_inj ident k1 k2 : good_ident ident -> tmp_path ident (key_to_path k1) = tmp_path ident (key_to_path k2) -> k1 = k2.
Proof.
  intros (r & -> & _) H. rewrite !tmp_path_key in H. apply app_inj_tail in H as [_ H]. by eapply split_hash.
Qed.
(** A component of a path contains no '#'. *)
Lemma path_no_hash key n : n ∈ key_to_path key -> HASH ∉ n.
Proof.
  intros Hn Hh.
  assert (HASH ∉ escape key) as He by (intros Hx%escape_safe; naive_solver).
  destruct (decide (is_data key)) as [D|D].
  - destruct (path_data key D) as [E E']. rewrite E in Hn. rewrite E' in He. apply elem_of_cons in Hn as [->|Hn]. { apply He, elem_of_app. by left. }
    apply elem_of_app in Hn as [Hn|Hn].
    + apply elem_of_list_fmap in Hn as (i & -> & _). apply He, elem_of_app. right. by apply elem_of_take in Hh as (? & Hh%elem_of_list_lookup_2 & _).
    + apply elem_of_list_singleton in Hn as ->. by rewrite E' in Hh.
  - rewrite path_other in Hn by done. apply elem_of_list_singleton in Hn as ->. done.
Qed.
Lemma path_no_slash key n : n ∈ key_to_path key -> SLASH ∉ n.
Proof.
  intros Hn Hh. assert (SLASH ∉ escape key) as He by (intros Hx%escape_safe; naive_solver).
  destruct (decide (is_data key)) as [D|D].
  - destruct (path_data key D) as [E E']. rewrite E in Hn. rewrite E' in He. apply elem_of_cons in Hn as [->|Hn]. { apply He, elem_of_app. by left. }
    apply elem_of_app in Hn as [Hn|Hn].
    + apply elem_of_list_fmap in Hn as (i & -> & _). apply He, elem_of_app. right. by apply elem_of_take in Hh as (? & Hh%elem_of_list_lookup_2 & _).
    + apply elem_of_list_singleton in Hn as ->. by rewrite E' in Hh.
  - rewrite path_other in Hn by done. apply elem_of_list_singleton in Hn as ->. done.
Qed.
Lemma tmp_not_path ident key k2 : good_ident ident -> forall n, n ∈ key_to_path k2 -> n <> escape key ++ ident.
Proof. intros (r & -> & _) n Hn ->. eapply path_no_hash; [exact Hn|]. apply elem_of_app. right. left. Qed.
(** Paths mean what they say, except for three names. *)
Definition regular (key : str) : Prop := key <> [] /\ key <> DOT /\ key <> DOTDOT.
Definition special (n : str) : Prop := n = [] \/ n = DOT \/ n = DOTDOT.
Lemma resolve_from p acc : Forall (fun n => ~ special n) p ->
  foldl (fun acc n => if decide (n = [] \/ n = DOT) then acc else if decide (n = DOTDOT) then removelast acc else acc ++ [n]) acc p = acc ++ p.
Proof.
  unfold special. intros H. revert acc. induction H as [|n p Hn _ IH]; intros acc; [by rewrite app_nil_r|]. cbn [foldl].
  rewrite decide_False by tauto. rewrite decide_False by tauto. rewrite IH. by rewrite <- app_assoc.
Qed.
Lemma resolve_regular p : Forall (fun n => ~ special n) p -> resolve p = p.
Proof. intros H. unfold resolve. by rewrite resolve_from. Qed.
Lemma escape_special key : special (escape key) <-> special key.
Proof.
  assert (escape [] = [] /\ escape DOT = DOT /\ escape DOTDOT = DOTDOT) as (E1 & E2 & E3) by done.
  unfold special. split; intros [H|[H|H]].
  - left. by apply escape_inj.
  - right. left. apply escape_inj. by rewrite E2.
  - right. right. apply escape_inj. by rewrite E3.
  - subst. by left.
  - subst. right. by left.
  - subst. right. by right.
Qed.
Lemma path_regular key : regular key -> Forall (fun n => ~ special n) (key_to_path key).
Proof.
  intros (H1 & H2 & H3). assert (~ special (escape key)) as He. { rewrite escape_special. unfold special. tauto. }
  destruct (decide (is_data key)) as [D|D]; [|rewrite path_other by done; by repeat constructor].
  destruct (path_data key D) as [E E']. rewrite E. constructor. { unfold special. intros [?|[?|?]]; done. }
  apply Forall_app. split; [|by repeat constructor]. apply Forall_forall. intros n Hn. apply elem_of_list_fmap in Hn as (i & -> & Hi). apply cuts_spec in Hi as (j & -> & Hj).
  unfold special. intros [H|[H|H]]; apply (f_equal length) in H; rewrite take_length in H; cbn [length DOT DOTDOT] in H; lia.
Qed.
