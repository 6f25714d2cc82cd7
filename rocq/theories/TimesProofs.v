(** C70: lemmas about single requests. *)
From stdpp Require Import prelude gmap.
From Coq Require Import NArith ZArith Lia.
From Verif Require Import TimesModel TimesSpec.
Local Open Scope N_scope.

(** ** Unaffected inodes *)
(** Nothing at all changes *)
Definition keep (i : N) (s s' : state) : Prop :=
  inodes s !! i = inodes s' !! i /\ (forall n, contents s !! (i, n) = contents s' !! (i, n)) /\ (forall o, data s !! (i, o) = data s' !! (i, o)) /\
  (forall n, xattrs s !! (i, n) = xattrs s' !! (i, n)) /\ targets s !! i = targets s' !! i.
Lemma keep_same i s s' : keep i s s' -> same i s s'. Proof. intros (H & H1). split; [by rewrite H|done]. Qed.
Lemma keep_refl i s : keep i s s. Proof. done. Qed.
Lemma keep_trans i s1 s2 s3 : keep i s1 s2 -> keep i s2 s3 -> keep i s1 s3.
Proof. intros (A & C & D & X & T) (A' & C' & D' & X' & T'). repeat split; intros; etrans; eauto. Qed.
Lemma keep_upd i j f s : i <> j -> keep i s (upd j f s). Proof. intros H. repeat split. cbn. by rewrite lookup_alter_ne. Qed.
Lemma keep_contents i f s : (forall n, f (contents s) !! (i, n) = contents s !! (i, n)) -> keep i s (set_contents f s). Proof. intros H. repeat split. intros n. cbn. by rewrite H. Qed.
Lemma keep_data i f s : (forall n, f (data s) !! (i, n) = data s !! (i, n)) -> keep i s (set_data f s). Proof. intros H. repeat split. intros n. cbn. by rewrite H. Qed.
Lemma keep_xattrs i f s : (forall n, f (xattrs s) !! (i, n) = xattrs s !! (i, n)) -> keep i s (set_xattrs f s). Proof. intros H. repeat split. intros n. cbn. by rewrite H. Qed.
Lemma keep_targets i f s : f (targets s) !! i = targets s !! i -> keep i s (set_targets f s). Proof. intros H. repeat split. cbn. by rewrite H. Qed.
Lemma keep_inodes i f s : f (inodes s) !! i = inodes s !! i -> keep i s (set_inodes f s). Proof. intros H. repeat split. cbn. by rewrite H. Qed.
Lemma keep_opened i f s : keep i s (set_opened f s). Proof. done. Qed.
Lemma keep_failsafe i s : keep i s (fail_safe s). Proof. done. Qed.
Lemma lookup_filter_key {A} (m : gmap (N * N) A) (k : N * N) (P : N * N * A -> Prop) (D : forall x, Decision (P x)) : (forall v, P (k, v)) -> filter P m !! k = m !! k.
Proof. intros HP. destruct (m !! k) as [v|] eqn:E; [by apply map_filter_lookup_Some|]. apply map_filter_lookup_None. by left. Qed.
Lemma keep_purge i j s : i <> j -> keep i s (purge j s).
Proof.
  intros H. repeat split; cbn; intros; [by rewrite lookup_delete_ne| | |by rewrite lookup_delete_ne]; symmetry; (apply lookup_filter_key); cbn; done.
Qed.
Lemma keep_forget i j n s : is_Some (inodes (forget1 j n s) !! i) -> keep i s (forget1 j n s).
Proof.
  unfold forget1. destruct (_ =? 0); [|intros; apply keep_opened]. destruct (inodes _ !! j) as [a|]; [|intros; apply keep_opened]. destruct (refs a =? 0); [|intros; apply keep_opened].
  destruct (decide (i = j)) as [-> |]; [|intros; eapply keep_trans; [apply (keep_opened i (delete j))|by apply keep_purge]]. cbn. rewrite lookup_delete. by intros [].
Qed.
Lemma keep_open_plus i j s : keep i s (open_plus j s). Proof. apply keep_opened. Qed.
Lemma keep_cut i j len s : i <> j -> keep i s (cut j len s).
Proof. intros H. apply keep_data. intros o. apply lookup_filter_key. cbn. congruence. Qed.
Lemma keep_opt {A} (f : A -> attrs -> attrs) x i j s : i <> j -> keep i s (opt f x j s). Proof. destruct x; [by apply keep_upd|done]. Qed.
Lemma lookup_put_bytes i j off buf d o : i <> j -> put_bytes j off buf d !! (i, o) = d !! (i, o).
Proof. intros H. revert off d. induction buf as [|b buf IH]; intros off d; [done|]. cbn. rewrite IH. apply lookup_insert_ne. congruence. Qed.
Lemma keep_write_blocks B fuel bad i j off buf s : i <> j -> keep i s (write_blocks B fuel bad j off buf s).2.
Proof.
  intros H. revert off buf s. induction fuel as [|fuel IH]; intros off buf s; [done|]. cbn [write_blocks]. destruct buf as [|b buf]; [done|]. destruct (bad _); [done|]. eapply keep_trans; [|apply IH]. apply keep_data. intros o. by apply lookup_put_bytes.
Qed.
Lemma write_blocks_inodes B fuel bad j off buf s : inodes (write_blocks B fuel bad j off buf s).2 = inodes s /\ contents (write_blocks B fuel bad j off buf s).2 = contents s /\ xattrs (write_blocks B fuel bad j off buf s).2 = xattrs s /\ next (write_blocks B fuel bad j off buf s).2 = next s.
Proof. revert off buf s. induction fuel as [|fuel IH]; intros off buf s; [done|]. cbn [write_blocks]. destruct buf as [|b buf]; [done|]. destruct (bad _); [done|]. match goal with |- context [write_blocks B fuel bad j ?o ?b ?x] => exact (IH o b x) end. Qed.
Lemma write_blocks_targets B fuel bad j off buf s : targets (write_blocks B fuel bad j off buf s).2 = targets s.
Proof. revert off buf s. induction fuel as [|fuel IH]; intros off buf s; [done|]. cbn [write_blocks]. destruct buf as [|b buf]; [done|]. destruct (bad _); [done|]. match goal with |- context [write_blocks B fuel bad j ?o ?b ?x] => exact (IH o b x) end. Qed.

Lemma keep_new t p n i x s f k : i <> p -> i <> n -> keep i s (State (<[n := x]> (alter f p (inodes s))) (<[(p, t) := n]> (contents s)) (data s) (xattrs s) (targets s) (opened s) (failsafe s) k).
Proof. intros. repeat split; cbn; intros; rewrite ?lookup_insert_ne, ?lookup_alter_ne by congruence; done. Qed.
Local Opaque keep.
Ltac kp := repeat first [apply keep_refl | apply keep_open_plus | apply keep_failsafe | apply keep_upd; congruence | apply keep_opt; congruence | apply keep_cut; congruence
  | apply keep_contents; intros; cbn; repeat first [rewrite lookup_insert_ne by congruence | rewrite lookup_delete_ne by congruence]; reflexivity
  | apply keep_xattrs; intros; cbn; repeat first [rewrite lookup_insert_ne by congruence | rewrite lookup_delete_ne by congruence]; reflexivity
  | apply keep_targets; cbn; rewrite lookup_insert_ne by congruence; reflexivity
  | eapply keep_trans; [|first [apply keep_open_plus | apply keep_failsafe | apply keep_upd; congruence | apply keep_opt; congruence | apply keep_cut; congruence
      | apply keep_contents; intros; cbn; repeat first [rewrite lookup_insert_ne by congruence | rewrite lookup_delete_ne by congruence]; reflexivity
      | apply keep_xattrs; intros; cbn; repeat first [rewrite lookup_insert_ne by congruence | rewrite lookup_delete_ne by congruence]; reflexivity
      | apply keep_targets; cbn; rewrite lookup_insert_ne by congruence; reflexivity ]]].

Lemma keep_remove t i p n j s r s' : remove t p n j s = (r, s') -> i <> p -> i <> j -> keep i s s'.
Proof. unfold remove. intros E Hp Hj. destruct (children j s); [injection E as <- <-; apply keep_refl|]. destruct (inodes s !! p) as [a|]; [|injection E as <- <-; apply keep_refl]. destruct (locked a); injection E as <- <-; kp. Qed.
Lemma keep_create t i p n m u g dev sz s r j s' : create_inode t p n m u g dev sz s = (r, j, s') -> i <> p -> i <> next s -> keep i s s' /\ (r = Ok -> j = next s).
Proof.
  unfold create_inode. intros E Hp Hj. destruct (n =? CTRL); [by injection E as <- <- <-; split; [apply keep_refl|]|]. destruct (inodes s !! p) as [a|]; [|by injection E as <- <- <-; split; [apply keep_refl|]]. destruct (locked a); [by injection E as <- <- <-; split; [apply keep_refl|]|]. destruct (refs a =? 0); [by injection E as <- <- <-; split; [apply keep_refl|]|].
  destruct (contents s !! (p, n)); [by injection E as <- <- <-; split; [apply keep_refl|]|]. destruct (if negb _ then _ else _) as [g' m']. injection E as <- <- <-. split; [|done]. by apply keep_new.
Qed.
Lemma keep_setattr B t bad i j f s r s' : setattr B t bad j f s = (r, s') -> i <> j -> keep i s s'.
Proof.
  unfold setattr. intros E H. destruct (inodes s !! j) as [a|]; [|injection E as <- <-; apply keep_refl]. destruct (failsafe s || locked a); [injection E as <- <-; apply keep_refl|]. destruct (match f_atime f with Some z => too_big z | None => false end); [injection E as <- <-; kp|].
  destruct (match f_mtime f with Some z => too_big z | None => false end); [injection E as <- <-; kp|]. destruct (f_size f) as [len|]; [|injection E as <- <-; kp]. destruct (len mod B =? 0); [injection E as <- <-; kp|]. destruct (bad _); injection E as <- <-; kp.
Qed.
Definition reads (o : op) : option N := match o with Readlink i | Readdir i | Read i _ _ => Some i | _ => None end.
Lemma same_accessed t i j s : same i s (accessed t j s).
Proof.
  repeat split; cbn. destruct (decide (j = i)) as [-> |]; [|by rewrite lookup_alter_ne]. rewrite lookup_alter. destruct (inodes s !! i) as [a|]; [|done]. cbn. f_equal. by destruct (_ || _)%Z.
Qed.
Lemma keep_accessed t i j s : i <> j -> keep i s (accessed t j s). Proof. apply keep_upd. Qed.
Lemma in_cons_1 {A} (x : A) l : x ∈ x :: l. Proof. left. Qed.
Lemma keep_opening B t bad j i wr trunc s r s' : open B t bad j wr trunc s = (r, s') -> (forall b, (i, b) ∉ opening j trunc s) -> keep i s s'.
Proof.
  unfold open, opening. intros E Hm. destruct (inodes s !! j) as [a|]; [|injection E as <- <-; apply keep_refl]. destruct (wr && _); [injection E as <- <-; apply keep_refl|]. destruct trunc; [|injection E as <- <-; apply keep_refl].
  destruct (negb wr); [injection E as <- <-; apply keep_refl|]. unfold is_reg, fmt in E. cbn [andb] in Hm. destruct (N.land (mode a) 0xf000 =? 0x8000); [|destruct (_ || _); injection E as <- <-; apply keep_refl].
  eapply keep_setattr; [exact E|]. intros ->. apply (Hm true). left.
Qed.
Lemma keep_step B t bad o s r s' i : step B t bad o s = (r, s') -> is_Some (inodes s' !! i) -> i <> next s -> (forall b, (i, b) ∉ marks o s) -> reads o <> Some i -> keep i s s'.
Proof.
  intros E Hs Hn Hm Hr. destruct o as [p n|j|j n|j|j|j|j off len|p n|p n|p n m u g dev|p n u g tg|p n p' n' fl|j p n|j n v|j n|j f|j wr tr|p n m u g wr tr|j off buf]; cbn [step marks reads] in *.
  - destruct (look p n s) as [[j a]|]; injection E as <- <-; kp.
  - injection E as <- <-. apply keep_refl.
  - injection E as <- <-. by apply keep_forget.
  - injection E as <- <-. apply keep_refl.
  - unfold readlink in E. destruct (inodes s !! j); [|injection E as <- <-; apply keep_refl]. destruct (targets _ !! j); injection E as <- <-; apply keep_accessed; congruence.
  - unfold readdir in E. destruct (inodes s !! j); injection E as <- <-; [apply keep_accessed; congruence|apply keep_refl].
  - unfold read in E. destruct (inodes s !! j); [|injection E as <- <-; apply keep_refl]. destruct (blocks_bad _ _ _ _ _); injection E as <- <-; [apply keep_failsafe|apply keep_accessed; congruence].
  - unfold unlink, look, entry in *. destruct (failsafe s); [injection E as <- <-; apply keep_refl|]. destruct (contents s !! (p, n)) as [j|]; cbn [mbind option_bind] in E; [|injection E as <- <-; apply keep_refl]. destruct (inodes s !! j) as [a|]; cbn [mbind option_bind] in E; [|injection E as <- <-; apply keep_refl].
    assert (i <> p) by (intros ->; apply (Hm true); left). assert (i <> j) by (intros ->; apply (Hm false); right; left).
    destruct (is_dir a); [injection E as <- <-; kp|]. destruct (remove t p n j (open_plus j s)) as [r0 s0] eqn:Er. apply (keep_remove _ i) in Er; [|done|done]. eapply keep_trans; [apply (keep_open_plus i j)|]. eapply keep_trans; [exact Er|]. destruct r0; injection E as <- <-; [by apply keep_forget|apply keep_refl].
  - unfold rmdir, look, entry in *. destruct (failsafe s); [injection E as <- <-; apply keep_refl|]. destruct (contents s !! (p, n)) as [j|]; cbn [mbind option_bind] in E; [|injection E as <- <-; apply keep_refl]. destruct (inodes s !! j) as [a|]; cbn [mbind option_bind] in E; [|injection E as <- <-; apply keep_refl].
    assert (i <> p) by (intros ->; apply (Hm true); left). assert (i <> j) by (intros ->; apply (Hm false); right; left).
    destruct (inodes (open_plus j s) !! p) as [b|]; [|injection E as <- <-; kp]. destruct (locked b); [injection E as <- <-; kp|]. destruct (negb (is_dir a)); [injection E as <- <-; kp|].
    destruct (remove t p n j (open_plus j s)) as [r0 s0] eqn:Er. apply (keep_remove _ i) in Er; [|done|done]. eapply keep_trans; [apply (keep_open_plus i j)|]. eapply keep_trans; [exact Er|]. destruct r0; injection E as <- <-; [by apply keep_forget|apply keep_refl].
  - unfold mknod in E. assert (i <> p) by (intros ->; apply (Hm true); left). destruct (failsafe s); [injection E as <- <-; apply keep_refl|]. destruct (create_inode t p n m u g dev 0 s) as [[r0 j] s0] eqn:Er. apply (keep_create _ i) in Er as [Er _]; [|done|done]. destruct r0; injection E as <- <-; [|done]. kp; done.
  - unfold symlink in E. assert (i <> p) by (intros ->; apply (Hm true); left). destruct (failsafe s); [injection E as <- <-; apply keep_refl|]. destruct (create_inode t p n _ u g 0 _ s) as [[r0 j] s0] eqn:Er. apply (keep_create _ i) in Er as [Er Hj]; [|done|done].
    destruct r0; injection E as <- <-; [|done]. specialize (Hj eq_refl). subst j. eapply keep_trans; [exact Er|]. kp.
  - unfold rename in E. assert (i <> p) by (intros ->; apply (Hm true); left). assert (i <> p') by (intros ->; apply (Hm true); right; left). destruct fl; [injection E as <- <-; apply keep_refl|]. destruct (_ || _); [injection E as <- <-; apply keep_refl|].
    destruct (inodes s !! p) as [a|]; [|injection E as <- <-; apply keep_refl]. destruct (inodes s !! p') as [a'|]; [|injection E as <- <-; apply keep_refl]. destruct (failsafe s || locked a || locked a'); [injection E as <- <-; apply keep_refl|].
    destruct (look p n s) as [[k b]|]; [|injection E as <- <-; apply keep_refl]. destruct (look p' n' (open_plus k s)) as [[j c]|] eqn:El.
    + assert (i <> j). { intros ->. apply (Hm false). right. right. unfold look in El. change (contents (open_plus k s)) with (contents s) in El. unfold entry. destruct (contents s !! (p', n')) as [x|]; [|done]. cbn [mbind option_bind] in El. destruct (inodes _ !! x); [|done]. injection El as -> ->. left. }
      destruct (children j _); [injection E as <- <-; kp|]. injection E as <- <-. pose proof (keep_forget i _ _ _ Hs) as K1. assert (is_Some (inodes (forget1 k 1 (upd p' (fun a0 => with_mtime t (with_ctime t a0)) (upd p (fun a0 => with_mtime t (with_ctime t a0)) (upd j (fun a0 => with_ctime t (with_refs (refs a0 - 1) a0)) (set_contents (delete (p, n)) (set_contents <[(p', n'):=k]> (open_plus j (open_plus k s)))))))) !! i)) as Hs'.
      { Local Transparent keep. destruct K1 as [-> _]. done. Local Opaque keep. }
      eapply keep_trans; [|exact K1]. eapply keep_trans; [|by apply keep_forget]. kp.
    + injection E as <- <-. eapply keep_trans; [|by apply keep_forget]. kp.
  - unfold link in E. assert (i <> p) by (intros ->; apply (Hm true); left). assert (i <> j) by (intros ->; apply (Hm false); right; left). destruct (n =? CTRL); [injection E as <- <-; apply keep_refl|].
    destruct (inodes s !! p) as [a|]; [|injection E as <- <-; apply keep_refl]. destruct (inodes s !! j) as [a'|]; [|injection E as <- <-; apply keep_refl]. destruct (refs a =? 0); [injection E as <- <-; apply keep_refl|]. destruct (failsafe s || locked a); [injection E as <- <-; apply keep_refl|].
    destruct (contents s !! (p, n)); injection E as <- <-; kp.
  - unfold setxattr in E. assert (i <> j) by (intros ->; apply (Hm false); left). destruct (inodes s !! j) as [a|]; [|injection E as <- <-; apply keep_refl]. destruct (failsafe s || locked a); injection E as <- <-; kp.
  - unfold removexattr in E. assert (i <> j) by (intros ->; apply (Hm false); left). destruct (inodes s !! j) as [a|]; [|injection E as <- <-; apply keep_refl]. destruct (failsafe s || locked a); [injection E as <- <-; apply keep_refl|]. destruct (xattrs s !! (j, n)); injection E as <- <-; kp.
  - eapply keep_setattr; [exact E|]. intros ->. apply (Hm false). left.
  - by eapply keep_opening.
  - unfold create in E. destruct (failsafe s); [injection E as <- <-; apply keep_refl|]. destruct (contents s !! (p, n)) as [j|].
    + destruct (open B t bad j wr tr s) as [r0 s0] eqn:Eo. apply (keep_opening _ _ _ _ i) in Eo; [|done]. destruct r0; injection E as <- <-; [|done]. kp; done.
    + assert (i <> p) by (intros ->; apply (Hm true); left). destruct (create_inode t p n m u g 0 0 s) as [[r0 j] s0] eqn:Er. apply (keep_create _ i) in Er as [Er _]; [|done|done]. destruct r0; injection E as <- <-; [|done]. kp; done.
  - unfold write in E. assert (i <> j) by (intros ->; apply (Hm true); left). destruct (inodes s !! j) as [a|]; [|injection E as <- <-; apply keep_refl]. destruct (failsafe s || locked a); [injection E as <- <-; apply keep_refl|].
    pose proof (keep_write_blocks B (S (length buf)) bad i j off buf s) as K. destruct (write_blocks B (S (length buf)) bad j off buf s) as [[] s0]; injection E as <- <-; cbn [snd] in K; [kp|]; auto.
Qed.

(** ** Affected inodes *)
Definition all (P : attrs -> Prop) (i : N) (s : state) : Prop := forall a, inodes s !! i = Some a -> P a.
Lemma all_set (P : attrs -> Prop) i f s : (forall a, P (f a)) -> all P i (upd i f s).
Proof. intros H a. cbn. rewrite lookup_alter. intros (b & _ & ->)%fmap_Some. apply H. Qed.
Lemma all_upd (P : attrs -> Prop) i j f s : (forall a, P a -> P (f a)) -> all P i s -> all P i (upd j f s).
Proof. intros H Hs a. cbn. destruct (decide (j = i)) as [-> |]; [|rewrite lookup_alter_ne by done; apply Hs]. rewrite lookup_alter. intros (b & Hb & ->)%fmap_Some. apply H, Hs, Hb. Qed.
Lemma all_inodes (P : attrs -> Prop) i s s' : inodes s' = inodes s -> all P i s -> all P i s'. Proof. intros E H a. rewrite E. apply H. Qed.
Lemma all_forget (P : attrs -> Prop) i j n s : all P i s -> all P i (forget1 j n s).
Proof.
  intros H. unfold forget1. destruct (_ =? 0); [|exact H]. destruct (inodes (set_opened _ s) !! j) as [a|]; [|exact H]. destruct (refs a =? 0); [|exact H]. intros b. cbn. destruct (decide (j = i)) as [-> |]; [by rewrite lookup_delete|]. rewrite lookup_delete_ne by done. apply H.
Qed.
Lemma all_opt {A} (P : attrs -> Prop) i j (f : A -> attrs -> attrs) x s : (forall x a, P a -> P (f x a)) -> all P i s -> all P i (opt f x j s). Proof. intros H Hs. destruct x; [|done]. apply all_upd; auto. Qed.
Lemma remove_marks t p n j s r s' : remove t p n j s = (r, s') ->
  (r <> Ok /\ s' = s) \/ (all (fun a => ctime a = t /\ mtime a = t) p s' /\ all (fun a => ctime a = t) j s').
Proof.
  unfold remove. intros E. destruct (children j s); [left; by injection E as <- <-|]. destruct (inodes s !! p) as [a|]; [|left; by injection E as <- <-]. destruct (locked a); injection E as <- <-; [by left|right]. split; [by apply all_set|]. apply all_upd; [done|]. by apply all_set.
Qed.
Lemma create_marks t p n m u g dev sz s r j s' : create_inode t p n m u g dev sz s = (r, j, s') -> (r <> Ok /\ s' = s) \/ (all (fun a => ctime a = t /\ mtime a = t) p s' /\ all (fun a => ctime a = t) j s' /\ j = next s /\ next s' = j + 1 /\ r = Ok).
Proof.
  unfold create_inode. intros E. destruct (n =? CTRL); [left; by injection E as <- <- <-|]. destruct (inodes s !! p) as [a|]; [|left; by injection E as <- <- <-]. destruct (locked a); [left; by injection E as <- <- <-|]. destruct (refs a =? 0); [left; by injection E as <- <- <-|].
  destruct (contents s !! (p, n)); [left; by injection E as <- <- <-|]. right. destruct (if negb _ then _ else _) as [g' m']. injection E as <- <- <-. split; [|split; [|done]].
  - intros b. cbn. destruct (decide (next s = p)) as [-> |]; [rewrite lookup_insert; by intros [= <-]|]. rewrite lookup_insert_ne by done. by apply (all_set (fun a => ctime a = t /\ mtime a = t) p (fun a => with_ctime t (with_mtime t a)) s).
  - intros b. cbn. rewrite lookup_insert. by intros [= <-].
Qed.
Lemma setattr_marks B t bad j f s r s' : setattr B t bad j f s = (r, s') -> r <> Err EINVAL -> (r <> Ok /\ s' = s) \/ (all (fun a => ctime a = t /\ (f_mtime f = Some t -> mtime a = t)) j s').
Proof.
  unfold setattr. intros E He. destruct (inodes s !! j) as [a|]; [|left; by injection E as <- <-]. destruct (failsafe s || locked a); [left; by injection E as <- <-|]. right. destruct (match f_atime f with Some z => too_big z | None => false end); [by injection E as <- <-|].
  destruct (match f_mtime f with Some z => too_big z | None => false end); [by injection E as <- <-|].
  set (P := fun a => ctime a = t /\ (f_mtime f = Some t -> mtime a = t)).
  assert (all P j (upd j (with_ctime t) (opt with_mtime (f_mtime f) j (opt with_atime (f_atime f) j (opt with_gid (f_gid f) j (opt with_uid (f_uid f) j (opt with_mode (f_mode f) j s))))))) as Hx.
  { unfold opt at 1. destruct (f_mtime f) as [z|] eqn:Ef; [|by apply all_set; intros b; unfold P; rewrite ?Ef]. intros b. cbn. rewrite lookup_alter, lookup_alter. intros (c & H & ->)%fmap_Some. apply fmap_Some in H as (d & _ & ->). unfold P. split; [done|]. rewrite ?Ef. cbn. congruence. }
  assert (forall len, all P j (upd j (with_size len) (upd j (with_ctime t) (opt with_mtime (f_mtime f) j (opt with_atime (f_atime f) j (opt with_gid (f_gid f) j (opt with_uid (f_uid f) j (opt with_mode (f_mode f) j s)))))))) as Hx' by (intros len; by apply all_upd).
  destruct (f_size f) as [len|]; [|by injection E as <- <-]. destruct (len mod B =? 0); [injection E as <- <-; exact (Hx' len)|]. destruct (bad _); injection E as <- <-; exact (Hx' len).
Qed.
#[local] Instance errno_dec : EqDecision errno. Proof. solve_decision. Defined.
Lemma open_marks B t bad j wr trunc s r s' i b : open B t bad j wr trunc s = (r, s') -> (i, b) ∈ opening j trunc s -> (r <> Ok /\ s' = s) \/ all (fun a => ctime a = t /\ mtime a = t) i s'.
Proof.
  unfold open, opening. intros E Hi. destruct (inodes s !! j) as [a|]; [|by apply elem_of_nil in Hi]. destruct trunc; [|by apply elem_of_nil in Hi]. cbn [andb] in Hi. unfold is_reg, fmt in E. destruct (N.land (mode a) 0xf000 =? 0x8000) eqn:Er; [|by apply elem_of_nil in Hi].
  apply elem_of_list_singleton in Hi as [= -> ->]. destruct (wr && _); [left; by injection E as <- <-|]. destruct (negb wr); [left; by injection E as <- <-|].
  destruct r as [|e]; [|destruct (decide (e = EINVAL)) as [-> |]].
  - apply setattr_marks in E as [[? _]|E]; [done| |done]. right. intros c Hc. specialize (E c Hc). cbn in E. naive_solver.
  - (* the time of the clock can be stored, or nothing was changed *)
    unfold setattr in E. destruct (inodes s !! j) as [a'|]; [|done]. destruct (failsafe s || locked a'); [done|]. cbn in E. destruct (too_big t); [|done]. left. by injection E as <-.
  - apply setattr_marks in E as [?|E]; [by left| |congruence]. right. intros c Hc. specialize (E c Hc). cbn in E. naive_solver.
Qed.
Lemma marked_step B t bad o s r s' i b : step B t bad o s = (r, s') -> (i, b) ∈ marks o s -> is_Some (inodes s' !! i) -> ~ exempt o r ->
  (r <> Ok /\ keep i s s') \/ all (fun a => ctime a = t /\ (b = true -> mtime a = t)) i s'.
Proof.
  intros E Hm Hs Hx. destruct o as [p n|j|j n|j|j|j|j off len|p n|p n|p n m u g dev|p n u g tg|p n p' n' fl|j p n|j n v|j n|j f|j wr tr|p n m u g wr tr|j off buf]; cbn [step marks exempt] in *; try by apply elem_of_nil in Hm.
  - unfold unlink, look, entry in *. destruct (failsafe s); [left; injection E as <- <-; split; [done|apply keep_refl]|]. destruct (contents s !! (p, n)) as [j|]; cbn [mbind option_bind] in E; [|left; injection E as <- <-; split; [done|apply keep_refl]]. destruct (inodes s !! j) as [a|]; cbn [mbind option_bind] in E; [|left; injection E as <- <-; split; [done|apply keep_refl]].
    destruct (is_dir a); [left; injection E as <- <-; split; [done|kp]|]. destruct (remove t p n j (open_plus j s)) as [r0 s0] eqn:Er. apply remove_marks in Er as [[Hr ->]|[H1 H2]]; [left; destruct r0; [done|]; injection E as <- <-; split; [done|kp]|]. right.
    assert (inodes s' = inodes (forget1 j 1 s0) \/ inodes s' = inodes s0) as Hi by (destruct r0; injection E as <- <-; auto).
    apply elem_of_cons in Hm as [[= -> ->]|[= -> ->]%elem_of_list_singleton].
    + destruct Hi as [Hi|Hi]; apply (all_inodes _ _ _ _ Hi); [apply all_forget|]; intros c Hc; specialize (H1 c Hc); naive_solver.
    + destruct Hi as [Hi|Hi]; apply (all_inodes _ _ _ _ Hi); [apply all_forget|]; intros c Hc; specialize (H2 c Hc); naive_solver.
  - unfold rmdir, look, entry in *. destruct (failsafe s); [left; injection E as <- <-; split; [done|apply keep_refl]|]. destruct (contents s !! (p, n)) as [j|]; cbn [mbind option_bind] in E; [|left; injection E as <- <-; split; [done|apply keep_refl]]. destruct (inodes s !! j) as [a|]; cbn [mbind option_bind] in E; [|left; injection E as <- <-; split; [done|apply keep_refl]].
    destruct (inodes (open_plus j s) !! p) as [c|]; [|left; injection E as <- <-; split; [done|kp]]. destruct (locked c); [left; injection E as <- <-; split; [done|kp]|]. destruct (negb (is_dir a)); [left; injection E as <- <-; split; [done|kp]|].
    destruct (remove t p n j (open_plus j s)) as [r0 s0] eqn:Er. apply remove_marks in Er as [[Hr ->]|[H1 H2]]; [left; destruct r0; [done|]; injection E as <- <-; split; [done|kp]|]. right.
    assert (inodes s' = inodes (forget1 j 1 s0) \/ inodes s' = inodes s0) as Hi by (destruct r0; injection E as <- <-; auto).
    apply elem_of_cons in Hm as [[= -> ->]|[= -> ->]%elem_of_list_singleton].
    + destruct Hi as [Hi|Hi]; apply (all_inodes _ _ _ _ Hi); [apply all_forget|]; intros d Hd; specialize (H1 d Hd); naive_solver.
    + destruct Hi as [Hi|Hi]; apply (all_inodes _ _ _ _ Hi); [apply all_forget|]; intros d Hd; specialize (H2 d Hd); naive_solver.
  - apply elem_of_list_singleton in Hm as [= -> ->]. unfold mknod in E. destruct (failsafe s); [left; injection E as <- <-; split; [done|apply keep_refl]|]. destruct (create_inode t p n m u g dev 0 s) as [[r0 j] s0] eqn:Er. apply create_marks in Er as [[Hr ->]|(H1 & _ & _ & _ & ->)].
    + left. destruct r0; [done|]. injection E as <- <-. split; [done|apply keep_refl].
    + right. injection E as <- <-. intros c Hc. specialize (H1 c Hc). naive_solver.
  - apply elem_of_list_singleton in Hm as [= -> ->]. unfold symlink in E. destruct (failsafe s); [left; injection E as <- <-; split; [done|apply keep_refl]|]. destruct (create_inode t p n _ u g 0 _ s) as [[r0 j] s0] eqn:Er. apply create_marks in Er as [[Hr ->]|(H1 & _ & _ & _ & ->)].
    + left. destruct r0; [done|]. injection E as <- <-. split; [done|apply keep_refl].
    + right. injection E as <- <-. intros c Hc. specialize (H1 c Hc). naive_solver.
  - unfold rename in E. destruct fl; [left; injection E as <- <-; split; [done|apply keep_refl]|]. destruct (_ || _); [left; injection E as <- <-; split; [done|apply keep_refl]|].
    destruct (inodes s !! p) as [a|]; [|left; injection E as <- <-; split; [done|apply keep_refl]]. destruct (inodes s !! p') as [a'|]; [|left; injection E as <- <-; split; [done|apply keep_refl]]. destruct (failsafe s || locked a || locked a'); [left; injection E as <- <-; split; [done|apply keep_refl]|].
    destruct (look p n s) as [[k c]|]; [|left; injection E as <- <-; split; [done|apply keep_refl]]. destruct (look p' n' (open_plus k s)) as [[j d]|] eqn:El.
    + destruct (children j _); [left; injection E as <- <-; split; [done|kp]|]. right. injection E as <- <-. apply all_forget, all_forget.
      apply elem_of_cons in Hm as [[= -> ->]|Hm]; [apply all_upd; [by intros ? [? ?]|]; by apply all_set|]. apply elem_of_cons in Hm as [[= -> ->]|Hm]; [by apply all_set|].
      unfold look in El. change (contents (open_plus k s)) with (contents s) in El. unfold entry in Hm. destruct (contents s !! (p', n')) as [x|]; [|done]. cbn [mbind option_bind] in El. destruct (inodes _ !! x); [|done]. injection El as -> ->. apply elem_of_list_singleton in Hm as [= -> ->].
      apply all_upd; [by intros ? [? ?]|]. apply all_upd; [by intros ? [? ?]|]. by apply all_set.
    + right. injection E as <- <-. apply all_forget. apply elem_of_cons in Hm as [[= -> ->]|Hm]; [apply all_upd; [by intros ? [? ?]|]; by apply all_set|]. apply elem_of_cons in Hm as [[= -> ->]|Hm]; [by apply all_set|].
      exfalso. unfold look in El. change (contents (open_plus k s)) with (contents s) in El. unfold entry in Hm. destruct (contents s !! (p', n')) as [x|] eqn:Ec; [|by apply elem_of_nil in Hm]. apply elem_of_list_singleton in Hm as [= -> ->]. cbn [mbind option_bind] in El. destruct (inodes (open_plus k s) !! x) eqn:Ex; [done|].
      change (inodes (open_plus k s)) with (inodes s) in Ex. destruct Hs as [y Hy]. revert Hy. unfold forget1. destruct (_ =? 0).
      * match goal with |- context [match inodes (set_opened ?f ?z) !! k with _ => _ end] => destruct (inodes (set_opened f z) !! k) as [w|] end; [destruct (refs w =? 0)|]; cbn; try (destruct (decide (k = x)) as [-> |]; [rewrite lookup_delete; done|rewrite lookup_delete_ne by done]);
          (destruct (decide (p' = x)) as [-> |]; [rewrite lookup_alter|rewrite lookup_alter_ne by done]); (destruct (decide (p = x)) as [-> |]; [rewrite lookup_alter|rewrite lookup_alter_ne by done]); rewrite Ex; done.
      * cbn. (destruct (decide (p' = x)) as [-> |]; [rewrite lookup_alter|rewrite lookup_alter_ne by done]); (destruct (decide (p = x)) as [-> |]; [rewrite lookup_alter|rewrite lookup_alter_ne by done]); rewrite Ex; done.
  - unfold link in E. destruct (n =? CTRL); [left; injection E as <- <-; split; [done|apply keep_refl]|].
    destruct (inodes s !! p) as [a|]; [|left; injection E as <- <-; split; [done|apply keep_refl]]. destruct (inodes s !! j) as [a'|]; [|left; injection E as <- <-; split; [done|apply keep_refl]]. destruct (refs a =? 0); [left; injection E as <- <-; split; [done|apply keep_refl]|]. destruct (failsafe s || locked a); [left; injection E as <- <-; split; [done|apply keep_refl]|].
    destruct (contents s !! (p, n)); [left; injection E as <- <-; split; [done|apply keep_refl]|]. right. injection E as <- <-. apply elem_of_cons in Hm as [[= -> ->]|[= -> ->]%elem_of_list_singleton].
    + apply (all_upd _ p j); [by intros ? [? ?]|]. apply (all_set (fun a0 => ctime a0 = t /\ (true = true -> mtime a0 = t)) p (fun a0 => with_mtime t (with_ctime t a0)) s). done.
    + match goal with |- all ?P j (open_plus j (upd j ?f ?x)) => apply (all_set P j f x) end. done.
  - apply elem_of_list_singleton in Hm as [= -> ->]. unfold setxattr in E. destruct (inodes s !! j) as [a|]; [|left; injection E as <- <-; split; [done|apply keep_refl]]. destruct (failsafe s || locked a); injection E as <- <-; [left; split; [done|apply keep_refl]|right; by apply all_set].
  - apply elem_of_list_singleton in Hm as [= -> ->]. unfold removexattr in E. destruct (inodes s !! j) as [a|]; [|left; injection E as <- <-; split; [done|apply keep_refl]]. destruct (failsafe s || locked a); [left; injection E as <- <-; split; [done|apply keep_refl]|]. destruct (xattrs s !! (j, n)); injection E as <- <-; [right; by apply all_set|left; split; [done|apply keep_refl]].
  - apply elem_of_list_singleton in Hm as [= -> ->]. apply setattr_marks in E as [[H ->]|E]; [left; split; [done|apply keep_refl]|right|destruct r as [|[]]; try done; by intros _]. intros c Hc. specialize (E c Hc). naive_solver.
  - eapply open_marks in E as [[H ->]|E]; [left; split; [done|apply keep_refl]|right|exact Hm]. intros c Hc. specialize (E c Hc). naive_solver.
  - unfold create in E. destruct (failsafe s); [left; injection E as <- <-; split; [done|apply keep_refl]|]. destruct (contents s !! (p, n)) as [j|].
    + destruct (open B t bad j wr tr s) as [r0 s0] eqn:Eo. eapply open_marks in Eo as [[H ->]|Eo]; [left; destruct r0; [done|]; injection E as <- <-; split; [done|apply keep_refl]|right|exact Hm].
      assert (inodes s' = inodes s0) as Hi by (destruct r0; by injection E as <- <-). apply (all_inodes _ _ _ _ Hi). intros c Hc. specialize (Eo c Hc). naive_solver.
    + apply elem_of_list_singleton in Hm as [= -> ->]. destruct (create_inode t p n m u g 0 0 s) as [[r0 j] s0] eqn:Er. apply create_marks in Er as [[Hr ->]|(H1 & _ & _ & _ & ->)].
      * left. destruct r0; [done|]. injection E as <- <-. split; [done|apply keep_refl].
      * right. injection E as <- <-. intros c Hc. specialize (H1 c Hc). naive_solver.
  - apply elem_of_list_singleton in Hm as [= -> ->]. unfold write in E. destruct (inodes s !! j) as [a|]; [|left; injection E as <- <-; split; [done|apply keep_refl]]. destruct (failsafe s || locked a); [left; injection E as <- <-; split; [done|apply keep_refl]|].
    destruct (write_blocks B (S (length buf)) bad j off buf s) as [[] s0]; injection E as <- <-; [right; by apply all_set|]. by destruct Hx.
Qed.

(** ** Changes of the status that leave the contents alone *)
Definition keepc (i : N) (s s' : state) : Prop :=
  ((fun a => (size a, mtime a)) <$> inodes s !! i) = ((fun a => (size a, mtime a)) <$> inodes s' !! i) /\
  (forall n, contents s !! (i, n) = contents s' !! (i, n)) /\ (forall o, data s !! (i, o) = data s' !! (i, o)) /\ targets s !! i = targets s' !! i.
Lemma keepc_refl i s : keepc i s s. Proof. done. Qed.
Lemma keepc_trans i s1 s2 s3 : keepc i s1 s2 -> keepc i s2 s3 -> keepc i s1 s3.
Proof. intros (A & C & D & T) (A' & C' & D' & T'). repeat split; intros; etrans; eauto. Qed.
Local Transparent keep.
Lemma keep_keepc i s s' : keep i s s' -> keepc i s s'. Proof. intros (A & C & D & _ & T). split; [by rewrite A|done]. Qed.
Lemma keep_is_Some i s s' : keep i s s' -> inodes s !! i = inodes s' !! i. Proof. by intros (A & _). Qed.
Local Opaque keep.
Lemma same_keepc i s s' : same i s s' -> keepc i s s'.
Proof.
  intros (A & C & D & _ & T). split; [|done]. destruct (inodes s !! i) as [a|], (inodes s' !! i) as [a'|]; try done. cbn in *. unfold seen in A. injection A; intros; congruence.
Qed.
Lemma keepc_contents_same i s s' : keepc i s s' -> same_contents i s s'.
Proof. intros (A & C & D & T). split; [|done]. destruct (inodes s !! i) as [a|], (inodes s' !! i) as [a'|]; try done. cbn in *. by injection A as -> _. Qed.
Lemma keepc_upd i j f s : (forall a, size (f a) = size a /\ mtime (f a) = mtime a) -> keepc i s (upd j f s).
Proof. intros H. split; [|done]. cbn. destruct (decide (j = i)) as [-> |]; [|by rewrite lookup_alter_ne]. rewrite lookup_alter. destruct (inodes s !! i) as [a|]; [|done]. cbn. destruct (H a) as [-> ->]. done. Qed.
Lemma keepc_xattrs i f s : keepc i s (set_xattrs f s). Proof. done. Qed.
Lemma keepc_opt {A} (f : A -> attrs -> attrs) x i j s : (forall x a, size (f x a) = size a /\ mtime (f x a) = mtime a) -> keepc i s (opt f x j s). Proof. intros H. destruct x; [by apply keepc_upd|done]. Qed.
Local Opaque keepc.
Lemma keepc_remove t p n i s r s' : remove t p n i s = (r, s') -> i <> p -> keepc i s s'.
Proof.
  unfold remove. intros E Hp. destruct (children i s); [injection E as <- <-; apply keepc_refl|]. destruct (inodes s !! p) as [a|]; [|injection E as <- <-; apply keepc_refl]. destruct (locked a); injection E as <- <-; [apply keepc_refl|].
  eapply keepc_trans; [|by apply keep_keepc, keep_upd]. eapply keepc_trans; [|by apply keepc_upd]. apply keep_keepc, keep_contents. intros m. rewrite lookup_delete_ne by congruence. done.
Qed.
Lemma content_step B t bad o s r s' i : step B t bad o s = (r, s') -> is_Some (inodes s' !! i) -> i <> next s -> (i, true) ∉ marks o s ->
  (forall f, o = Setattr i f -> f_size f = None /\ f_mtime f = None) -> keepc i s s'.
Proof.
  intros E Hs Hn Ht Hf. destruct (decide ((i, false) ∈ marks o s)) as [Hm|Hm].
  2:{ destruct (decide (reads o = Some i)) as [Hr|Hr]; [|apply keep_keepc; eapply keep_step; [exact E|done|done| |done]; intros []; done].
      destruct o; try done; injection Hr as ->; cbn [step] in E.
      - unfold readlink in E. destruct (inodes s !! i); [|injection E as <- <-; apply keepc_refl]. destruct (targets _ !! i); injection E as <- <-; apply same_keepc, same_accessed.
      - unfold readdir in E. destruct (inodes s !! i); injection E as <- <-; [apply same_keepc, same_accessed|apply keepc_refl].
      - unfold read in E. destruct (inodes s !! i); [|injection E as <- <-; apply keepc_refl]. destruct (blocks_bad _ _ _ _ _); injection E as <- <-; [apply keep_keepc, keep_failsafe|apply same_keepc, same_accessed]. }
  assert (forall x, (i, false) ∈ [(x, true)] -> False) as Hb by (intros x [=]%elem_of_list_singleton).
  destruct o as [p n|j|j n|j|j|j|j off len|p n|p n|p n m u g dev|p n u g tg|p n p' n' fl|j p n|j n v|j n|j f|j wr tr|p n m u g wr tr|j off buf]; cbn [step marks] in *; try by apply elem_of_nil in Hm.
  - assert (i <> p) as Hip by (intros ->; apply Ht; left). unfold unlink, look, entry in *. destruct (failsafe s); [injection E as <- <-; apply keepc_refl|]. destruct (contents s !! (p, n)) as [j|]; cbn [mbind option_bind] in E; [|injection E as <- <-; apply keepc_refl]. destruct (inodes s !! j) as [a|]; cbn [mbind option_bind] in E; [|injection E as <- <-; apply keepc_refl].
    apply elem_of_cons in Hm as [[=]|[= ->]%elem_of_list_singleton]. destruct (is_dir a); [injection E as <- <-; apply keep_keepc; kp|]. destruct (remove t p n j (open_plus j s)) as [r0 s0] eqn:Er. apply keepc_remove in Er; [|done]. eapply keepc_trans; [apply keep_keepc, (keep_open_plus j j)|]. eapply keepc_trans; [exact Er|]. destruct r0; injection E as <- <-; [by apply keep_keepc, keep_forget|apply keepc_refl].
  - assert (i <> p) as Hip by (intros ->; apply Ht; left). unfold rmdir, look, entry in *. destruct (failsafe s); [injection E as <- <-; apply keepc_refl|]. destruct (contents s !! (p, n)) as [j|]; cbn [mbind option_bind] in E; [|injection E as <- <-; apply keepc_refl]. destruct (inodes s !! j) as [a|]; cbn [mbind option_bind] in E; [|injection E as <- <-; apply keepc_refl].
    apply elem_of_cons in Hm as [[=]|[= ->]%elem_of_list_singleton]. destruct (inodes (open_plus j s) !! p) as [b|]; [|injection E as <- <-; apply keep_keepc; kp]. destruct (locked b); [injection E as <- <-; apply keep_keepc; kp|]. destruct (negb (is_dir a)); [injection E as <- <-; apply keep_keepc; kp|].
    destruct (remove t p n j (open_plus j s)) as [r0 s0] eqn:Er. apply keepc_remove in Er; [|done]. eapply keepc_trans; [apply keep_keepc, (keep_open_plus j j)|]. eapply keepc_trans; [exact Er|]. destruct r0; injection E as <- <-; [by apply keep_keepc, keep_forget|apply keepc_refl].
  - by apply Hb in Hm.
  - by apply Hb in Hm.
  - assert (i <> p) by (intros ->; apply Ht; left). assert (i <> p') by (intros ->; apply Ht; right; left). unfold rename in E. destruct fl; [injection E as <- <-; apply keepc_refl|]. destruct (_ || _); [injection E as <- <-; apply keepc_refl|].
    destruct (inodes s !! p) as [a|]; [|injection E as <- <-; apply keepc_refl]. destruct (inodes s !! p') as [a'|]; [|injection E as <- <-; apply keepc_refl]. destruct (failsafe s || locked a || locked a'); [injection E as <- <-; apply keepc_refl|].
    destruct (look p n s) as [[k b]|]; [|injection E as <- <-; apply keepc_refl]. destruct (look p' n' (open_plus k s)) as [[j c]|] eqn:El.
    + destruct (children j _); [injection E as <- <-; apply keep_keepc; kp|]. injection E as <- <-. pose proof (keep_forget i _ _ _ Hs) as K1. pose proof (keep_is_Some _ _ _ K1) as Q. eapply keepc_trans; [|apply keep_keepc; exact K1]. rewrite <- Q in Hs. eapply keepc_trans; [|apply keep_keepc, keep_forget; exact Hs].
      do 2 (eapply keepc_trans; [|by apply keep_keepc, keep_upd]). eapply keepc_trans; [|by apply keepc_upd]. apply keep_keepc. kp.
    + injection E as <- <-. eapply keepc_trans; [|by apply keep_keepc, keep_forget]. apply keep_keepc. kp.
  - assert (i <> p) by (intros ->; apply Ht; left). unfold link in E. destruct (n =? CTRL); [injection E as <- <-; apply keepc_refl|].
    destruct (inodes s !! p) as [a|]; [|injection E as <- <-; apply keepc_refl]. destruct (inodes s !! j) as [a'|]; [|injection E as <- <-; apply keepc_refl]. destruct (refs a =? 0); [injection E as <- <-; apply keepc_refl|]. destruct (failsafe s || locked a); [injection E as <- <-; apply keepc_refl|].
    destruct (contents s !! (p, n)); injection E as <- <-; [apply keepc_refl|]. eapply keepc_trans; [|apply keep_keepc, keep_open_plus]. eapply keepc_trans; [|by apply keepc_upd]. apply keep_keepc. kp.
  - unfold setxattr in E. destruct (inodes s !! j) as [a|]; [|injection E as <- <-; apply keepc_refl]. destruct (failsafe s || locked a); injection E as <- <-; [apply keepc_refl|]. eapply keepc_trans; [|by apply keepc_upd]. apply keepc_xattrs.
  - unfold removexattr in E. destruct (inodes s !! j) as [a|]; [|injection E as <- <-; apply keepc_refl]. destruct (failsafe s || locked a); [injection E as <- <-; apply keepc_refl|]. destruct (xattrs s !! (j, n)); injection E as <- <-; [|apply keepc_refl]. eapply keepc_trans; [|by apply keepc_upd]. apply keepc_xattrs.
  - apply elem_of_list_singleton in Hm as [= ->]. destruct (Hf f eq_refl) as [Hz Hmt]. unfold setattr in E. rewrite Hz, Hmt in E. destruct (inodes s !! j) as [a|]; [|injection E as <- <-; apply keepc_refl]. destruct (failsafe s || locked a); [injection E as <- <-; apply keepc_refl|].
    assert (keepc j s (opt with_gid (f_gid f) j (opt with_uid (f_uid f) j (opt with_mode (f_mode f) j s)))) as K by (do 2 (eapply keepc_trans; [|by apply keepc_opt]); by apply keepc_opt).
    destruct (match f_atime f with Some z => too_big z | None => false end); injection E as <- <-; [done|]. eapply keepc_trans; [|by apply keepc_upd]. unfold opt at 1. eapply keepc_trans; [|by apply keepc_opt]. done.
  - unfold opening in Hm. destruct (inodes s !! j) as [a|]; [|by apply elem_of_nil in Hm]. destruct (_ && _); [by apply Hb in Hm|by apply elem_of_nil in Hm].
  - destruct (contents s !! (p, n)) as [j|]; [|by apply Hb in Hm]. unfold opening in Hm. destruct (inodes s !! j) as [a|]; [|by apply elem_of_nil in Hm]. destruct (_ && _); [by apply Hb in Hm|by apply elem_of_nil in Hm].
  - by apply Hb in Hm.
Qed.

(** ** New inodes *)
Definition sub (s s' : state) : Prop := (forall i, is_Some (inodes s' !! i) -> is_Some (inodes s !! i)) /\ next s' = next s.
Lemma sub_refl s : sub s s. Proof. done. Qed.
Lemma sub_trans s1 s2 s3 : sub s1 s2 -> sub s2 s3 -> sub s1 s3. Proof. intros [A B] [A' B']. split; [auto|congruence]. Qed.
Lemma sub_upd j f s : sub s (upd j f s).
Proof. split; [|done]. intros i. cbn. destruct (decide (j = i)) as [-> |]; [|by rewrite lookup_alter_ne]. rewrite lookup_alter. by rewrite fmap_is_Some. Qed.
Lemma sub_eq s s' : inodes s' = inodes s -> next s' = next s -> sub s s'. Proof. intros A B. split; [by rewrite A|done]. Qed.
Lemma sub_opt {A} (f : A -> attrs -> attrs) x j s : sub s (opt f x j s). Proof. destruct x; [apply sub_upd|apply sub_refl]. Qed.
Lemma sub_forget j n s : sub s (forget1 j n s).
Proof.
  unfold forget1. destruct (_ =? 0); [|by apply sub_eq]. destruct (inodes (set_opened _ s) !! j) as [a|]; [|by apply sub_eq]. destruct (refs a =? 0); [|by apply sub_eq]. split; [|done]. intros i. cbn. destruct (decide (j = i)) as [-> |]; [rewrite lookup_delete; by intros []|by rewrite lookup_delete_ne].
Qed.
Local Opaque sub.
Ltac sb := repeat first [apply sub_refl | by apply sub_eq | apply sub_upd | apply sub_opt | apply sub_forget | eapply sub_trans; [|first [apply sub_upd | apply sub_opt | apply sub_forget]] | eapply sub_trans; [|match goal with |- sub _ (?f ?s) => unify s s; apply (sub_eq s (f s)); reflexivity end]].
Lemma sub_remove t p n j s r s' : remove t p n j s = (r, s') -> sub s s'.
Proof. unfold remove. intros E. destruct (children j s); [injection E as <- <-; sb|]. destruct (inodes s !! p) as [a|]; [|injection E as <- <-; sb]. destruct (locked a); injection E as <- <-; sb. Qed.
Lemma sub_setattr B t bad j f s r s' : setattr B t bad j f s = (r, s') -> sub s s'.
Proof.
  unfold setattr. intros E. destruct (inodes s !! j) as [a|]; [|injection E as <- <-; sb]. destruct (failsafe s || locked a); [injection E as <- <-; sb|]. destruct (match f_atime f with Some z => too_big z | None => false end); [injection E as <- <-; sb|].
  destruct (match f_mtime f with Some z => too_big z | None => false end); [injection E as <- <-; sb|]. destruct (f_size f) as [len|]; [|injection E as <- <-; sb].
  assert (forall s1, sub s s1 -> forall s2, inodes s2 = inodes s1 -> next s2 = next s1 -> sub s s2) as Hx by (intros s1 H1 s2 H2 H3; eapply sub_trans; [exact H1|by apply sub_eq]).
  destruct (len mod B =? 0); [injection E as <- <-|destruct (bad _); injection E as <- <-]; (eapply Hx; [|reflexivity|reflexivity]; sb).
Qed.
Lemma sub_open B t bad j wr trunc s r s' : open B t bad j wr trunc s = (r, s') -> sub s s'.
Proof.
  unfold open. intros E. destruct (inodes s !! j) as [a|]; [|injection E as <- <-; sb]. destruct (wr && _); [injection E as <- <-; sb|]. destruct trunc; [|injection E as <- <-; sb]. destruct (negb wr); [injection E as <- <-; sb|].
  destruct (is_reg a); [by eapply sub_setattr|]. destruct (_ || _); injection E as <- <-; sb.
Qed.
Definition fresh (t : Z) (s s' : state) : Prop := next s' = next s + 1 /\ forall i a, inodes s' !! i = Some a -> is_Some (inodes s !! i) \/ (i = next s /\ ctime a = t /\ mtime a = t).
Lemma create_fresh t p n m u g dev sz s r j s' : create_inode t p n m u g dev sz s = (r, j, s') -> sub s s' \/ fresh t s s'.
Proof.
  unfold create_inode. intros E. destruct (n =? CTRL); [left; injection E as <- <- <-; sb|]. destruct (inodes s !! p) as [a|]; [|left; injection E as <- <- <-; sb]. destruct (locked a); [left; injection E as <- <- <-; sb|]. destruct (refs a =? 0); [left; injection E as <- <- <-; sb|].
  destruct (contents s !! (p, n)); [left; injection E as <- <- <-; sb|]. right. destruct (if negb _ then _ else _) as [g' m']. injection E as <- <- <-. split; [done|]. intros i b. cbn. destruct (decide (next s = i)) as [<- |]; [rewrite lookup_insert; intros [= <-]; by right|]. rewrite lookup_insert_ne by done. intros H. left.
  destruct (decide (p = i)) as [-> |]; [|rewrite lookup_alter_ne in H by done; eauto]. rewrite lookup_alter in H. apply fmap_Some in H as (c & H & _). eauto.
Qed.
Lemma fresh_eq t s s1 s2 : fresh t s s1 -> inodes s2 = inodes s1 -> next s2 = next s1 -> fresh t s s2. Proof. intros [A B] E1 E2. split; [by rewrite E2|]. by rewrite E1. Qed.
Lemma sub_eq_r s s1 s2 : sub s s1 -> inodes s2 = inodes s1 -> next s2 = next s1 -> sub s s2. Proof. intros. eapply sub_trans; [done|by apply sub_eq]. Qed.
Lemma dom_step B t bad o s r s' : step B t bad o s = (r, s') -> sub s s' \/ fresh t s s'.
Proof.
  intros E. destruct o as [p n|j|j n|j|j|j|j off len|p n|p n|p n m u g dev|p n u g tg|p n p' n' fl|j p n|j n v|j n|j f|j wr tr|p n m u g wr tr|j off buf]; cbn [step] in *.
  - left. destruct (look p n s) as [[j a]|]; injection E as <- <-; sb.
  - left. injection E as <- <-. sb.
  - left. injection E as <- <-. sb.
  - left. injection E as <- <-. sb.
  - left. unfold readlink in E. destruct (inodes s !! j); [|injection E as <- <-; sb]. destruct (targets _ !! j); injection E as <- <-; apply sub_upd.
  - left. unfold readdir in E. destruct (inodes s !! j); injection E as <- <-; [apply sub_upd|sb].
  - left. unfold read in E. destruct (inodes s !! j); [|injection E as <- <-; sb]. destruct (blocks_bad _ _ _ _ _); injection E as <- <-; [sb|apply sub_upd].
  - left. unfold unlink in E. destruct (failsafe s); [injection E as <- <-; sb|]. destruct (look p n s) as [[j a]|]; [|injection E as <- <-; sb]. destruct (is_dir a); [injection E as <- <-; sb|]. destruct (remove t p n j (open_plus j s)) as [r0 s0] eqn:Er. apply sub_remove in Er. eapply (sub_trans s (open_plus j s)); [by apply sub_eq|]. destruct r0; injection E as <- <-; [|done]. eapply sub_trans; [exact Er|apply sub_forget].
  - left. unfold rmdir in E. destruct (failsafe s); [injection E as <- <-; sb|]. destruct (look p n s) as [[j a]|]; [|injection E as <- <-; sb]. destruct (inodes (open_plus j s) !! p) as [b|]; [|injection E as <- <-; sb]. destruct (locked b); [injection E as <- <-; sb|]. destruct (negb (is_dir a)); [injection E as <- <-; sb|].
    destruct (remove t p n j (open_plus j s)) as [r0 s0] eqn:Er. apply sub_remove in Er. eapply (sub_trans s (open_plus j s)); [by apply sub_eq|]. destruct r0; injection E as <- <-; [|done]. eapply sub_trans; [exact Er|apply sub_forget].
  - unfold mknod in E. destruct (failsafe s); [left; injection E as <- <-; sb|]. destruct (create_inode t p n m u g dev 0 s) as [[r0 j] s0] eqn:Er. apply create_fresh in Er as [Er|Er]; [left|right]; (destruct r0; injection E as <- <-; [|done]); [by eapply sub_eq_r|by eapply fresh_eq].
  - unfold symlink in E. destruct (failsafe s); [left; injection E as <- <-; sb|]. destruct (create_inode t p n _ u g 0 _ s) as [[r0 j] s0] eqn:Er. apply create_fresh in Er as [Er|Er]; [left|right]; (destruct r0; injection E as <- <-; [|done]); [by eapply sub_eq_r|by eapply fresh_eq].
  - left. unfold rename in E. destruct fl; [injection E as <- <-; sb|]. destruct (_ || _); [injection E as <- <-; sb|].
    destruct (inodes s !! p) as [a|]; [|injection E as <- <-; sb]. destruct (inodes s !! p') as [a'|]; [|injection E as <- <-; sb]. destruct (failsafe s || locked a || locked a'); [injection E as <- <-; sb|].
    destruct (look p n s) as [[k b]|]; [|injection E as <- <-; sb]. destruct (look p' n' (open_plus k s)) as [[j c]|].
    + destruct (children j _); injection E as <- <-; sb.
    + injection E as <- <-; sb.
  - left. unfold link in E. destruct (n =? CTRL); [injection E as <- <-; sb|].
    destruct (inodes s !! p) as [a|]; [|injection E as <- <-; sb]. destruct (inodes s !! j) as [a'|]; [|injection E as <- <-; sb]. destruct (refs a =? 0); [injection E as <- <-; sb|]. destruct (failsafe s || locked a); [injection E as <- <-; sb|].
    destruct (contents s !! (p, n)); injection E as <- <-; [sb|]. match goal with |- sub s (open_plus j ?x) => apply (sub_eq_r s x); [|reflexivity|reflexivity] end. eapply sub_trans; [|apply sub_upd]. match goal with |- sub s (set_contents _ ?x) => apply (sub_eq_r s x); [|reflexivity|reflexivity] end. apply sub_upd.
  - left. unfold setxattr in E. destruct (inodes s !! j) as [a|]; [|injection E as <- <-; sb]. destruct (failsafe s || locked a); injection E as <- <-; sb.
  - left. unfold removexattr in E. destruct (inodes s !! j) as [a|]; [|injection E as <- <-; sb]. destruct (failsafe s || locked a); [injection E as <- <-; sb|]. destruct (xattrs s !! (j, n)); injection E as <- <-; sb.
  - left. by eapply sub_setattr.
  - left. by eapply sub_open.
  - unfold create in E. destruct (failsafe s); [left; injection E as <- <-; sb|]. destruct (contents s !! (p, n)) as [j|].
    + left. destruct (open B t bad j wr tr s) as [r0 s0] eqn:Eo. apply sub_open in Eo. destruct r0; injection E as <- <-; [|done]. by eapply sub_eq_r.
    + destruct (create_inode t p n m u g 0 0 s) as [[r0 j] s0] eqn:Er. apply create_fresh in Er as [Er|Er]; [left|right]; (destruct r0; injection E as <- <-; [|done]); [by eapply sub_eq_r|by eapply fresh_eq].
  - left. unfold write in E. destruct (inodes s !! j) as [a|]; [|injection E as <- <-; sb]. destruct (failsafe s || locked a); [injection E as <- <-; sb|].
    destruct (write_blocks_inodes B (S (length buf)) bad j off buf s) as (W1 & _ & _ & W2). destruct (write_blocks B (S (length buf)) bad j off buf s) as [[] s0]; injection E as <- <-; cbn [snd] in *; [eapply sub_trans; [|apply sub_upd]|]; by apply sub_eq.
Qed.

(** ** Time of last access *)
Definition ak (i : N) (s s' : state) : Prop := forall a', inodes s' !! i = Some a' -> exists a, inodes s !! i = Some a /\ atime a' = atime a.
Lemma ak_refl i s : ak i s s. Proof. intros a Ha. by exists a. Qed.
Lemma ak_trans i s1 s2 s3 : ak i s1 s2 -> ak i s2 s3 -> ak i s1 s3.
Proof. intros H1 H2 a Ha. destruct (H2 a Ha) as (b & Hb & E). destruct (H1 b Hb) as (c & Hc & E'). exists c. split; [done|congruence]. Qed.
Lemma ak_upd i j f s : (j = i -> forall a, atime (f a) = atime a) -> ak i s (upd j f s).
Proof. intros H a'. cbn. destruct (decide (j = i)) as [-> |]; [|rewrite lookup_alter_ne by done; eauto]. rewrite lookup_alter. intros (a & Ha & ->)%fmap_Some. exists a. auto. Qed.
Lemma ak_eq i s s' : inodes s' = inodes s -> next s' = next s -> ak i s s'. Proof. intros A _ a. rewrite A. eauto. Qed.
Lemma ak_opt {A} (f : A -> attrs -> attrs) x i j s : (j = i -> forall x a, atime (f x a) = atime a) -> ak i s (opt f x j s). Proof. intros H. destruct x; [apply ak_upd; auto|apply ak_refl]. Qed.
Lemma ak_opt' {A} (f : A -> attrs -> attrs) x i j s : (j = i -> x = None) -> ak i s (opt f x j s). Proof. intros H. destruct x; [|apply ak_refl]. apply ak_upd. intros E. by specialize (H E). Qed.
Lemma ak_forget i j n s : ak i s (forget1 j n s).
Proof.
  unfold forget1. destruct (_ =? 0); [|by apply ak_eq]. destruct (inodes (set_opened _ s) !! j) as [a|]; [|by apply ak_eq]. destruct (refs a =? 0); [|by apply ak_eq]. intros b. cbn. destruct (decide (j = i)) as [-> |]; [by rewrite lookup_delete|]. rewrite lookup_delete_ne by done. eauto.
Qed.
Lemma ak_eq_r i s s1 s2 : ak i s s1 -> inodes s2 = inodes s1 -> next s2 = next s1 -> ak i s s2. Proof. intros. eapply ak_trans; [done|by apply ak_eq]. Qed.
Local Opaque ak.
Ltac au := first [apply ak_upd; reflexivity | apply ak_opt; reflexivity | apply ak_opt'; assumption | apply ak_forget].
Ltac sa := repeat first [apply ak_refl | by apply ak_eq | au | eapply ak_trans; [|au] | eapply ak_trans; [|match goal with |- ak ?i _ (?f ?s) => unify s s; apply (ak_eq i s (f s)); reflexivity end]].
Lemma ak_remove i t p n j s r s' : remove t p n j s = (r, s') -> ak i s s'.
Proof. unfold remove. intros E. destruct (children j s); [injection E as <- <-; sa|]. destruct (inodes s !! p) as [a|]; [|injection E as <- <-; sa]. destruct (locked a); injection E as <- <-; sa. Qed.
Lemma ak_setattr i B t bad j f s r s' : setattr B t bad j f s = (r, s') -> (j = i -> f_atime f = None) -> ak i s s'.
Proof.
  unfold setattr. intros E Hf. destruct (inodes s !! j) as [a|]; [|injection E as <- <-; sa]. destruct (failsafe s || locked a); [injection E as <- <-; sa|]. destruct (match f_atime f with Some z => too_big z | None => false end); [injection E as <- <-; sa|].
  destruct (match f_mtime f with Some z => too_big z | None => false end); [injection E as <- <-; sa|]. destruct (f_size f) as [len|]; [|injection E as <- <-; sa].
  assert (forall s1, ak i s s1 -> forall s2, inodes s2 = inodes s1 -> next s2 = next s1 -> ak i s s2) as Hx by (intros s1 H1 s2 H2 H3; eapply ak_trans; [exact H1|by apply ak_eq]).
  destruct (len mod B =? 0); [injection E as <- <-|destruct (bad _); injection E as <- <-]; (eapply Hx; [|reflexivity|reflexivity]; sa).
Qed.
Lemma ak_open i B t bad j wr trunc s r s' : open B t bad j wr trunc s = (r, s') -> ak i s s'.
Proof.
  unfold open. intros E. destruct (inodes s !! j) as [a|]; [|injection E as <- <-; sa]. destruct (wr && _); [injection E as <- <-; sa|]. destruct trunc; [|injection E as <- <-; sa]. destruct (negb wr); [injection E as <- <-; sa|].
  destruct (is_reg a); [eapply ak_setattr; [done|done]|]. destruct (_ || _); injection E as <- <-; sa.
Qed.
Lemma ak_create i t p n m u g dev sz s r j s' : create_inode t p n m u g dev sz s = (r, j, s') -> i <> next s -> ak i s s'.
Proof.
  unfold create_inode. intros E Hi. destruct (n =? CTRL); [injection E as <- <- <-; sa|]. destruct (inodes s !! p) as [a|]; [|injection E as <- <- <-; sa]. destruct (locked a); [injection E as <- <- <-; sa|]. destruct (refs a =? 0); [injection E as <- <- <-; sa|].
  destruct (contents s !! (p, n)); [injection E as <- <- <-; sa|]. destruct (if negb _ then _ else _) as [g' m']. injection E as <- <- <-. apply (ak_trans i s (upd p (fun a => with_ctime t (with_mtime t a)) s)); [sa|]. Local Transparent ak. intros b. cbn. rewrite lookup_insert_ne by done. eauto. Local Opaque ak.
Qed.
Lemma access_step i B t bad o s r s' : step B t bad o s = (r, s') -> i <> next s -> reads o <> Some i -> (forall f, o = Setattr i f -> f_atime f = None) -> ak i s s'.
Proof.
  intros E Hn Hr Hf. destruct o as [p n|j|j n|j|j|j|j off len|p n|p n|p n m u g dev|p n u g tg|p n p' n' fl|j p n|j n v|j n|j f|j wr tr|p n m u g wr tr|j off buf]; cbn [step] in *.
  - destruct (look p n s) as [[j a]|]; injection E as <- <-; sa.
  - injection E as <- <-. sa.
  - injection E as <- <-. sa.
  - injection E as <- <-. sa.
  - unfold readlink in E. destruct (inodes s !! j); [|injection E as <- <-; sa]. destruct (targets _ !! j); injection E as <- <-; (apply ak_upd; intros ->; by cbn in Hr).
  - unfold readdir in E. destruct (inodes s !! j); injection E as <- <-; [(apply ak_upd; intros ->; by cbn in Hr)|sa].
  - unfold read in E. destruct (inodes s !! j); [|injection E as <- <-; sa]. destruct (blocks_bad _ _ _ _ _); injection E as <- <-; [sa|(apply ak_upd; intros ->; by cbn in Hr)].
  - unfold unlink in E. destruct (failsafe s); [injection E as <- <-; sa|]. destruct (look p n s) as [[j a]|]; [|injection E as <- <-; sa]. destruct (is_dir a); [injection E as <- <-; sa|]. destruct (remove t p n j (open_plus j s)) as [r0 s0] eqn:Er. apply (ak_remove i) in Er. eapply (ak_trans i s (open_plus j s)); [by apply ak_eq|]. destruct r0; injection E as <- <-; [|done]. eapply ak_trans; [exact Er|apply ak_forget].
  - unfold rmdir in E. destruct (failsafe s); [injection E as <- <-; sa|]. destruct (look p n s) as [[j a]|]; [|injection E as <- <-; sa]. destruct (inodes (open_plus j s) !! p) as [b|]; [|injection E as <- <-; sa]. destruct (locked b); [injection E as <- <-; sa|]. destruct (negb (is_dir a)); [injection E as <- <-; sa|].
    destruct (remove t p n j (open_plus j s)) as [r0 s0] eqn:Er. apply (ak_remove i) in Er. eapply (ak_trans i s (open_plus j s)); [by apply ak_eq|]. destruct r0; injection E as <- <-; [|done]. eapply ak_trans; [exact Er|apply ak_forget].
  - unfold mknod in E. destruct (failsafe s); [injection E as <- <-; sa|]. destruct (create_inode t p n m u g dev 0 s) as [[r0 j] s0] eqn:Er. apply (ak_create i) in Er; [|done]. destruct r0; injection E as <- <-; [|done]. by eapply ak_eq_r.
  - unfold symlink in E. destruct (failsafe s); [injection E as <- <-; sa|]. destruct (create_inode t p n _ u g 0 _ s) as [[r0 j] s0] eqn:Er. apply (ak_create i) in Er; [|done]. destruct r0; injection E as <- <-; [|done]. by eapply ak_eq_r.
  - unfold rename in E. destruct fl; [injection E as <- <-; sa|]. destruct (_ || _); [injection E as <- <-; sa|].
    destruct (inodes s !! p) as [a|]; [|injection E as <- <-; sa]. destruct (inodes s !! p') as [a'|]; [|injection E as <- <-; sa]. destruct (failsafe s || locked a || locked a'); [injection E as <- <-; sa|].
    destruct (look p n s) as [[k b]|]; [|injection E as <- <-; sa]. destruct (look p' n' (open_plus k s)) as [[j c]|].
    + destruct (children j _); injection E as <- <-; sa.
    + injection E as <- <-; sa.
  - unfold link in E. destruct (n =? CTRL); [injection E as <- <-; sa|].
    destruct (inodes s !! p) as [a|]; [|injection E as <- <-; sa]. destruct (inodes s !! j) as [a'|]; [|injection E as <- <-; sa]. destruct (refs a =? 0); [injection E as <- <-; sa|]. destruct (failsafe s || locked a); [injection E as <- <-; sa|].
    destruct (contents s !! (p, n)); injection E as <- <-; [sa|]. match goal with |- ak i s (open_plus j ?x) => apply (ak_eq_r i s x); [|reflexivity|reflexivity] end. eapply ak_trans; [|by apply ak_upd]. match goal with |- ak i s (set_contents _ ?x) => apply (ak_eq_r i s x); [|reflexivity|reflexivity] end. by apply ak_upd.
  - unfold setxattr in E. destruct (inodes s !! j) as [a|]; [|injection E as <- <-; sa]. destruct (failsafe s || locked a); injection E as <- <-; sa.
  - unfold removexattr in E. destruct (inodes s !! j) as [a|]; [|injection E as <- <-; sa]. destruct (failsafe s || locked a); [injection E as <- <-; sa|]. destruct (xattrs s !! (j, n)); injection E as <- <-; sa.
  - eapply ak_setattr; [done|]. intros ->. by eapply Hf.
  - by eapply ak_open.
  - unfold create in E. destruct (failsafe s); [injection E as <- <-; sa|]. destruct (contents s !! (p, n)) as [j|].
    + destruct (open B t bad j wr tr s) as [r0 s0] eqn:Eo. apply (ak_open i) in Eo. destruct r0; injection E as <- <-; [|done]. by eapply ak_eq_r.
    + destruct (create_inode t p n m u g 0 0 s) as [[r0 j] s0] eqn:Er. apply (ak_create i) in Er; [|done]. destruct r0; injection E as <- <-; [|done]. by eapply ak_eq_r.
  - unfold write in E. destruct (inodes s !! j) as [a|]; [|injection E as <- <-; sa]. destruct (failsafe s || locked a); [injection E as <- <-; sa|].
    destruct (write_blocks_inodes B (S (length buf)) bad j off buf s) as (W1 & _ & _ & W2). destruct (write_blocks B (S (length buf)) bad j off buf s) as [[] s0]; injection E as <- <-; cbn [snd] in *; [eapply ak_trans; [|by apply ak_upd]|]; by apply ak_eq.
Qed.

(** ** Targets and extended attributes *)
Definition tk (i : N) (s s' : state) : Prop := is_Some (inodes s' !! i) -> is_Some (inodes s !! i) /\ targets s' !! i = targets s !! i /\ forall n, xattrs s' !! (i, n) = xattrs s !! (i, n).
Lemma tk_refl i s : tk i s s. Proof. done. Qed.
Lemma tk_trans i s1 s2 s3 : tk i s1 s2 -> tk i s2 s3 -> tk i s1 s3.
Proof. intros H1 H2 H. destruct (H2 H) as (A & B & C). destruct (H1 A) as (A' & B' & C'). split; [done|]. split; [congruence|]. intros n. by rewrite C. Qed.
Lemma tk_upd i j f s : tk i s (upd j f s).
Proof. intros H. split; [|done]. cbn in H. destruct (decide (j = i)) as [-> |]; [by rewrite lookup_alter, fmap_is_Some in H|by rewrite lookup_alter_ne in H]. Qed.
Lemma tk_eq i s s' : inodes s' = inodes s -> targets s' = targets s -> xattrs s' = xattrs s -> tk i s s'. Proof. intros A B C. unfold tk. by rewrite A, B, C. Qed.
Lemma tk_opt {A} (f : A -> attrs -> attrs) x i j s : tk i s (opt f x j s). Proof. destruct x; [apply tk_upd|apply tk_refl]. Qed.
Lemma tk_forget i j n s : tk i s (forget1 j n s).
Proof.
  unfold forget1. destruct (_ =? 0); [|by apply tk_eq]. destruct (inodes (set_opened _ s) !! j) as [a|]; [|by apply tk_eq]. destruct (refs a =? 0); [|by apply tk_eq]. intros H. cbn in H. destruct (decide (j = i)) as [-> |]; [rewrite lookup_delete in H; by destruct H|]. rewrite lookup_delete_ne in H by done. split; [done|]. cbn. rewrite lookup_delete_ne by done. split; [done|].
  intros m. apply lookup_filter_key. cbn. congruence.
Qed.
Lemma tk_eq_r i s s1 s2 : tk i s s1 -> inodes s2 = inodes s1 -> targets s2 = targets s1 -> xattrs s2 = xattrs s1 -> tk i s s2. Proof. intros. eapply tk_trans; [done|by apply tk_eq]. Qed.
Local Opaque tk.
Ltac tu := first [apply tk_upd | apply tk_opt | apply tk_forget].
Ltac ta := repeat first [apply tk_refl | by apply tk_eq | tu | eapply tk_trans; [|tu] | eapply tk_trans; [|match goal with |- tk ?i _ (?f ?s) => unify s s; apply (tk_eq i s (f s)); reflexivity end]].
Lemma tk_remove i t p n j s r s' : remove t p n j s = (r, s') -> tk i s s'.
Proof. unfold remove. intros E. destruct (children j s); [injection E as <- <-; ta|]. destruct (inodes s !! p) as [a|]; [|injection E as <- <-; ta]. destruct (locked a); injection E as <- <-; ta. Qed.
Lemma tk_setattr i B t bad j f s r s' : setattr B t bad j f s = (r, s') -> tk i s s'.
Proof.
  unfold setattr. intros E. destruct (inodes s !! j) as [a|]; [|injection E as <- <-; ta]. destruct (failsafe s || locked a); [injection E as <- <-; ta|]. destruct (match f_atime f with Some z => too_big z | None => false end); [injection E as <- <-; ta|].
  destruct (match f_mtime f with Some z => too_big z | None => false end); [injection E as <- <-; ta|]. destruct (f_size f) as [len|]; [|injection E as <- <-; ta].
  assert (forall s1, tk i s s1 -> forall s2, inodes s2 = inodes s1 -> targets s2 = targets s1 -> xattrs s2 = xattrs s1 -> tk i s s2) as Hx by (intros s1 H1 s2 H2 H3 H4; eapply tk_trans; [exact H1|by apply tk_eq]).
  destruct (len mod B =? 0); [injection E as <- <-|destruct (bad _); injection E as <- <-]; (eapply Hx; [|reflexivity|reflexivity|reflexivity]; ta).
Qed.
Lemma tk_open i B t bad j wr trunc s r s' : open B t bad j wr trunc s = (r, s') -> tk i s s'.
Proof.
  unfold open. intros E. destruct (inodes s !! j) as [a|]; [|injection E as <- <-; ta]. destruct (wr && _); [injection E as <- <-; ta|]. destruct trunc; [|injection E as <- <-; ta]. destruct (negb wr); [injection E as <- <-; ta|].
  destruct (is_reg a); [by eapply tk_setattr|]. destruct (_ || _); injection E as <- <-; ta.
Qed.
Lemma tk_create i t p n m u g dev sz s r j s' : create_inode t p n m u g dev sz s = (r, j, s') -> i <> next s -> tk i s s'.
Proof.
  unfold create_inode. intros E Hi. destruct (n =? CTRL); [injection E as <- <- <-; ta|]. destruct (inodes s !! p) as [a|]; [|injection E as <- <- <-; ta]. destruct (locked a); [injection E as <- <- <-; ta|]. destruct (refs a =? 0); [injection E as <- <- <-; ta|].
  destruct (contents s !! (p, n)); [injection E as <- <- <-; ta|]. destruct (if negb _ then _ else _) as [g' m']. injection E as <- <- <-. apply (tk_trans i s (upd p (fun a => with_ctime t (with_mtime t a)) s)); [ta|]. Local Transparent tk. intros H. split; [|done]. cbn in H. by rewrite lookup_insert_ne in H. Local Opaque tk.
Qed.
Lemma target_step i B t bad o s r s' : step B t bad o s = (r, s') -> i <> next s -> (forall n v, o <> Setxattr i n v) -> (forall n, o <> Removexattr i n) -> tk i s s'.
Proof.
  intros E Hn H1 H2. destruct o as [p n|j|j n|j|j|j|j off len|p n|p n|p n m u g dev|p n u g tg|p n p' n' fl|j p n|j n v|j n|j f|j wr tr|p n m u g wr tr|j off buf]; cbn [step] in *.
  - destruct (look p n s) as [[j a]|]; injection E as <- <-; ta.
  - injection E as <- <-. ta.
  - injection E as <- <-. ta.
  - injection E as <- <-. ta.
  - unfold readlink in E. destruct (inodes s !! j); [|injection E as <- <-; ta]. destruct (targets _ !! j); injection E as <- <-; apply tk_upd.
  - unfold readdir in E. destruct (inodes s !! j); injection E as <- <-; [apply tk_upd|ta].
  - unfold read in E. destruct (inodes s !! j); [|injection E as <- <-; ta]. destruct (blocks_bad _ _ _ _ _); injection E as <- <-; [ta|apply tk_upd].
  - unfold unlink in E. destruct (failsafe s); [injection E as <- <-; ta|]. destruct (look p n s) as [[j a]|]; [|injection E as <- <-; ta]. destruct (is_dir a); [injection E as <- <-; ta|]. destruct (remove t p n j (open_plus j s)) as [r0 s0] eqn:Er. apply (tk_remove i) in Er. eapply (tk_trans i s (open_plus j s)); [by apply tk_eq|]. destruct r0; injection E as <- <-; [|done]. eapply tk_trans; [exact Er|apply tk_forget].
  - unfold rmdir in E. destruct (failsafe s); [injection E as <- <-; ta|]. destruct (look p n s) as [[j a]|]; [|injection E as <- <-; ta]. destruct (inodes (open_plus j s) !! p) as [b|]; [|injection E as <- <-; ta]. destruct (locked b); [injection E as <- <-; ta|]. destruct (negb (is_dir a)); [injection E as <- <-; ta|].
    destruct (remove t p n j (open_plus j s)) as [r0 s0] eqn:Er. apply (tk_remove i) in Er. eapply (tk_trans i s (open_plus j s)); [by apply tk_eq|]. destruct r0; injection E as <- <-; [|done]. eapply tk_trans; [exact Er|apply tk_forget].
  - unfold mknod in E. destruct (failsafe s); [injection E as <- <-; ta|]. destruct (create_inode t p n m u g dev 0 s) as [[r0 j] s0] eqn:Er. apply (tk_create i) in Er; [|done]. destruct r0; injection E as <- <-; [|done]. by eapply tk_eq_r.
  - unfold symlink in E. destruct (failsafe s); [injection E as <- <-; ta|]. destruct (create_inode t p n _ u g 0 _ s) as [[r0 j] s0] eqn:Er. pose proof (create_marks _ _ _ _ _ _ _ _ _ _ _ _ Er) as Hj. apply (tk_create i) in Er; [|done]. destruct r0; injection E as <- <-; [|done]. destruct Hj as [[? _]|(_ & _ & -> & _)]; [done|].
    eapply tk_trans; [exact Er|]. Local Transparent tk. intros Hi. split; [done|]. split; [|done]. cbn. by rewrite lookup_insert_ne. Local Opaque tk.
  - unfold rename in E. destruct fl; [injection E as <- <-; ta|]. destruct (_ || _); [injection E as <- <-; ta|].
    destruct (inodes s !! p) as [a|]; [|injection E as <- <-; ta]. destruct (inodes s !! p') as [a'|]; [|injection E as <- <-; ta]. destruct (failsafe s || locked a || locked a'); [injection E as <- <-; ta|].
    destruct (look p n s) as [[k b]|]; [|injection E as <- <-; ta]. destruct (look p' n' (open_plus k s)) as [[j c]|].
    + destruct (children j _); injection E as <- <-; ta.
    + injection E as <- <-; ta.
  - unfold link in E. destruct (n =? CTRL); [injection E as <- <-; ta|].
    destruct (inodes s !! p) as [a|]; [|injection E as <- <-; ta]. destruct (inodes s !! j) as [a'|]; [|injection E as <- <-; ta]. destruct (refs a =? 0); [injection E as <- <-; ta|]. destruct (failsafe s || locked a); [injection E as <- <-; ta|].
    destruct (contents s !! (p, n)); injection E as <- <-; [ta|]. match goal with |- tk i s (open_plus j ?x) => apply (tk_eq_r i s x); [|reflexivity|reflexivity|reflexivity] end. eapply tk_trans; [|apply tk_upd]. match goal with |- tk i s (set_contents _ ?x) => apply (tk_eq_r i s x); [|reflexivity|reflexivity|reflexivity] end. apply tk_upd.
  - unfold setxattr in E. destruct (inodes s !! j) as [a|]; [|injection E as <- <-; ta]. destruct (failsafe s || locked a); injection E as <- <-; [ta|]. eapply tk_trans; [|apply tk_upd]. Local Transparent tk. intros Hi. split; [done|]. split; [done|]. intros m. cbn. rewrite lookup_insert_ne; [done|]. intros [= -> ->]. by eapply H1. Local Opaque tk.
  - unfold removexattr in E. destruct (inodes s !! j) as [a|]; [|injection E as <- <-; ta]. destruct (failsafe s || locked a); [injection E as <- <-; ta|]. destruct (xattrs s !! (j, n)); injection E as <- <-; [|ta]. eapply tk_trans; [|apply tk_upd]. Local Transparent tk. intros Hi. split; [done|]. split; [done|]. intros m. cbn. rewrite lookup_delete_ne; [done|]. intros [= -> ->]. by eapply H2. Local Opaque tk.
  - by eapply tk_setattr.
  - by eapply tk_open.
  - unfold create in E. destruct (failsafe s); [injection E as <- <-; ta|]. destruct (contents s !! (p, n)) as [j|].
    + destruct (open B t bad j wr tr s) as [r0 s0] eqn:Eo. apply (tk_open i) in Eo. destruct r0; injection E as <- <-; [|done]. by eapply tk_eq_r.
    + destruct (create_inode t p n m u g 0 0 s) as [[r0 j] s0] eqn:Er. apply (tk_create i) in Er; [|done]. destruct r0; injection E as <- <-; [|done]. by eapply tk_eq_r.
  - unfold write in E. destruct (inodes s !! j) as [a|]; [|injection E as <- <-; ta]. destruct (failsafe s || locked a); [injection E as <- <-; ta|].
    destruct (write_blocks_inodes B (S (length buf)) bad j off buf s) as (W1 & _ & W3 & _). pose proof (write_blocks_targets B (S (length buf)) bad j off buf s) as W2. destruct (write_blocks B (S (length buf)) bad j off buf s) as [[] s0]; injection E as <- <-; cbn [snd] in *; [eapply tk_trans; [|apply tk_upd]|]; by apply tk_eq.
Qed.
