(** Locked inodes and fail-safe mode. *)
From stdpp Require Import prelude gmap strings sorting.
From Coq Require Import ZArith String.
From Verif Require Import FsModel FsSpec FsLemmas FsInv FsOps FsSteps FsHist.
Local Close Scope string_scope.
Local Open Scope Z_scope.

(** * What happens to one inode *)
Definition kp (i : nat) (s s' : fs) : Prop := is_Some (inodes s' !! i) ->
  (exists a a', inodes s !! i = Some a /\ inodes s' !! i = Some a' /\ same_file a a') /\
  symlinks s' !! i = symlinks s !! i /\ forall b, blocks s' !! (i, b) = blocks s !! (i, b).
Lemma same_file_refl a : same_file a a.
Proof. by repeat split. Qed.
Lemma same_file_trans a b c : same_file a b -> same_file b c -> same_file a c.
Proof. unfold same_file. intuition congruence. Qed.
Lemma kp_same i s s' : inodes s' = inodes s -> symlinks s' = symlinks s -> blocks s' = blocks s -> kp i s s'.
Proof. intros E1 E2 E3 [a Ha]. rewrite E1, E2, E3 in *. split; [|done]. exists a, a. split; [done|]. split; [done|apply same_file_refl]. Qed.
Lemma kp_refl i s : kp i s s.
Proof. by apply kp_same. Qed.
Lemma kp_trans i s s1 s2 : kp i s s1 -> kp i s1 s2 -> kp i s s2.
Proof.
  intros H1 H2 Hs. destruct (H2 Hs) as ((a1 & a2 & Ha1 & Ha2 & Hf) & Hl & Hb). destruct H1 as ((a & a1' & Ha & Ha1' & Hf1) & Hl1 & Hb1); [by eexists|].
  rewrite Ha1 in Ha1'. injection Ha1' as <-. split; [|split; [congruence|intros b; by rewrite Hb]]. exists a, a2. split; [done|]. split; [done|]. by eapply same_file_trans.
Qed.
Lemma kp_upd i s s' j f : kp i s s' -> (j = i -> forall a, same_file a (f a)) -> kp i s (upd_inode j f s').
Proof.
  intros H Hf. apply (kp_trans _ _ _ _ H). intros [a' Ha']. cbn in Ha'. split; [|done]. apply lookup_alter_Some in Ha' as [(-> & a & Ha & ->)|[Hne Ha]].
  - exists a, (f a). cbn. rewrite lookup_alter, Ha. split; [done|]. split; [done|]. by apply Hf.
  - exists a', a'. cbn. rewrite lookup_alter_ne by done. split; [done|]. split; [done|]. apply same_file_refl.
Qed.
Lemma kp_remove_blocks i s s' j a b : kp i s s' -> j <> i -> kp i s (remove_blocks j a b s').
Proof.
  intros H Hj. apply (kp_trans _ _ _ _ H). intros [a' Ha']. cbn in Ha'. split; [exists a', a'; split; [done|]; split; [done|apply same_file_refl]|]. split; [done|].
  intros c. apply option_eq. intros o. rewrite remove_blocks_lookup. naive_solver.
Qed.
Lemma kp_put i s s' j b o : kp i s s' -> j <> i -> kp i s (put_block j b o s').
Proof.
  intros H Hj. unfold put_block. eapply kp_trans; [by apply (kp_remove_blocks i s s' j (Z.of_nat b) (Z.of_nat b + 1))|].
  intros [a' Ha']. cbn in Ha'. split; [exists a', a'; split; [done|]; split; [done|apply same_file_refl]|]. split; [done|].
  intros c. cbn. rewrite lookup_insert_ne by congruence. done.
Qed.
Lemma kp_contents i s s' x : kp i s s' -> kp i s (set_contents x s').
Proof. intros H. apply (kp_trans _ _ _ _ H). by apply kp_same. Qed.
Lemma kp_names i s s' x : kp i s s' -> kp i s (set_names x s').
Proof. intros H. apply (kp_trans _ _ _ _ H). by apply kp_same. Qed.
Lemma kp_xattrs i s s' x : kp i s s' -> kp i s (set_xattrs x s').
Proof. intros H. apply (kp_trans _ _ _ _ H). by apply kp_same. Qed.
Lemma kp_opens i s s' x : kp i s s' -> kp i s (set_opens x s').
Proof. intros H. apply (kp_trans _ _ _ _ H). by apply kp_same. Qed.
Lemma kp_failsafe i s s' x : kp i s s' -> kp i s (set_failsafe x s').
Proof. intros H. apply (kp_trans _ _ _ _ H). by apply kp_same. Qed.
Lemma kp_incr i s s' j : kp i s s' -> kp i s (incr_open j s').
Proof. apply kp_opens. Qed.
Lemma kp_symlinks i s s' j t : kp i s s' -> j <> i -> kp i s (set_symlinks (<[j := t]> (symlinks s')) s').
Proof.
  intros H Hj. apply (kp_trans _ _ _ _ H). intros [a' Ha']. cbn in Ha'. split; [exists a', a'; split; [done|]; split; [done|apply same_file_refl]|]. cbn. by rewrite lookup_insert_ne.
Qed.
Lemma kp_insert i s s' j a z : kp i s s' -> j <> i -> kp i s (set_seq z (set_inodes (<[j := a]> (inodes s')) s')).
Proof.
  intros H Hj. apply (kp_trans _ _ _ _ H). intros [a' Ha']. cbn in Ha'. rewrite lookup_insert_ne in Ha' by done. split; [|done].
  exists a', a'. cbn. rewrite lookup_insert_ne by done. split; [done|]. split; [done|apply same_file_refl].
Qed.
Lemma kp_add_name i s s' n s1 k : add_name n s' = (s1, k) -> kp i s s' -> kp i s s1.
Proof. unfold add_name. destruct (names s' !! n) as [[? ?]|]; intros [= <- <-] H; by apply kp_names. Qed.
Lemma kp_del_name i s s' n s1 k : del_name n s' = Some (s1, k) -> kp i s s' -> kp i s s1.
Proof. unfold del_name. destruct (names s' !! n) as [[? ?]|]; [|done]. intros [= <- <-] H. by apply kp_names. Qed.

Section lock.
Context (max_obj_size : Z) (Hmax : 0 < max_obj_size) (exact : bool).
Local Notation consistent := (consistent max_obj_size exact).
Local Notation allowed := (allowed max_obj_size exact).
Lemma kp_purge i s s' j z : kp i s s' -> kp i s (purge_inode max_obj_size j z s').
Proof.
  intros H. apply (kp_trans _ _ _ _ H). intros [a Ha]. rewrite purge_inodes in Ha. apply lookup_delete_Some in Ha as [Hj Ha].
  assert (kp i s' (remove_blocks j 0 (ceil_blocks max_obj_size z) s')) as [_ [_ Hb]]; [|by eexists|].
  { apply kp_remove_blocks; [apply kp_refl|done]. }
  split; [|split].
  - exists a, a. rewrite purge_inodes, lookup_delete_ne by done. split; [done|]. split; [done|apply same_file_refl].
  - rewrite purge_symlinks. by rewrite lookup_delete_ne.
  - exact Hb.
Qed.
Lemma kp_forget1 i s s' j n s1 r : forget1 max_obj_size j n s' = (s1, r) -> kp i s s' -> kp i s s1.
Proof.
  unfold forget1. intros Hf H. case_decide; [|injection Hf as <- <-; by apply kp_opens]. cbn in Hf.
  destruct (inodes s' !! j); [|injection Hf as <- <-; by apply kp_opens]. case_decide; injection Hf as <- <-; [apply kp_purge|]; by apply kp_opens.
Qed.
Lemma kp_forget i s l s' s1 r : forget max_obj_size l s' = (s1, r) -> kp i s s' -> kp i s s1.
Proof.
  revert s'. induction l as [|[j n] l IH]; intros s' Hf H; [by injection Hf as <- <-|]. cbn in Hf. destruct (forget1 max_obj_size j n s') as [s2 r2] eqn:E.
  apply (kp_forget1 i s) in E; [|done]. destruct r2; try by injection Hf as <- <-. by apply (IH s2).
Qed.
Lemma kp_lookup_ i s p n s' s1 x : lookup_ p n s' = (s1, x) -> kp i s s' -> kp i s s1.
Proof. unfold lookup_. intros Hl H. repeat case_match; simplify_eq; try done; by apply kp_incr. Qed.
Lemma kp_remove i s p n j force now s' s1 r : remove max_obj_size p n j force now s' = (s1, r) -> (forall ap, inodes s' !! p = Some ap -> locked ap = false -> p <> i) ->
  force = false -> kp i s s' -> kp i s s1.
Proof.
  unfold remove. intros Hr Hp -> H. destruct (has_children s' j); [by injection Hr as <- <-|]. destruct (inodes s' !! p) as [ap|]; [|by injection Hr as <- <-].
  rewrite andb_true_r in Hr. destruct (locked ap) eqn:El; [by injection Hr as <- <-|]. specialize (Hp _ eq_refl El).
  destruct (del_name n s') as [[s2 k]|] eqn:Hd; [|by injection Hr as <- <-]. apply (kp_del_name i s) in Hd; [|done]. cbv zeta in Hr.
  destruct (inodes (set_contents _ s2) !! j); [|injection Hr as <- <-; by apply kp_contents].
  case_decide; injection Hr as <- <-; [apply kp_purge|]; (apply kp_upd; [|done]); (apply kp_upd; [|intros _ ?; by repeat split]); by apply kp_contents.
Qed.
Lemma kp_create_ i p n m c rd sz now s s1 x : create_ p n m c rd sz now s = (s1, x) -> (forall ap, inodes s !! p = Some ap -> locked ap = false -> p <> i) -> i <> seq s -> kp i s s1.
Proof.
  unfold create_. intros Hr Hp Hi. case_decide; [injection Hr as <- <-; apply kp_refl|]. destruct (inodes s !! p) as [ap|] eqn:Hap; [|injection Hr as <- <-; apply kp_refl].
  destruct (locked ap) eqn:El; [injection Hr as <- <-; apply kp_refl|]. specialize (Hp _ eq_refl El). case_decide; [injection Hr as <- <-; apply kp_refl|]. cbv zeta in Hr.
  destruct (add_name n _) as [s2 k] eqn:Ha. apply (kp_add_name i s) in Ha; [|apply kp_insert; [apply kp_upd; [apply kp_refl|done]|done]].
  destruct (contents s2 !! (p, k)); injection Hr as <- <-; [done|by apply kp_contents].
Qed.
Lemma kp_setattr i j rq bad o now s s1 r : setattr max_obj_size j rq bad o now s = (s1, r) -> (forall a, inodes s !! j = Some a -> locked a = false -> j <> i) -> kp i s s1.
Proof.
  unfold setattr. intros Hr Hp. destruct (inodes s !! j) as [a|] eqn:Ha; [|injection Hr as <- <-; apply kp_refl].
  destruct (failsafe s); [injection Hr as <- <-; apply kp_refl|]. cbn [orb] in Hr. destruct (locked a) eqn:El; [injection Hr as <- <-; apply kp_refl|]. specialize (Hp _ eq_refl El).
  cbv zeta in Hr. assert (forall b, kp i s (upd_inode j (fun _ => b) s)) as Hu by (intros b; apply kp_upd; [apply kp_refl|done]).
  destruct (match r_atime rq with None => _ | Some _ => _ end) as [a1|]; [|by injection Hr as <- <-].
  destruct (match r_mtime rq with None => _ | Some _ => _ end) as [a2|]; [|by injection Hr as <- <-].
  destruct (r_size rq); [|by injection Hr as <- <-]. case_decide; [injection Hr as <- <-; by apply kp_remove_blocks|].
  destruct bad as [[]|]; injection Hr as <- <-.
  - apply kp_failsafe. by apply kp_remove_blocks.
  - by apply kp_remove_blocks.
  - apply kp_put; [|done]. by apply kp_remove_blocks.
Qed.
Lemma kp_open i j w t now s s1 r : open_ max_obj_size j w t now s = (s1, r) -> (forall a, inodes s !! j = Some a -> locked a = false -> j <> i) -> kp i s s1.
Proof.
  unfold open_. intros Hr Hp. destruct (w && failsafe s); [injection Hr as <- <-; apply kp_refl|].
  destruct (inodes s !! j) as [a|] eqn:Ha; [|destruct (w || t); injection Hr as <- <-; apply kp_refl].
  destruct (w && locked a); [injection Hr as <- <-; apply kp_refl|]. destruct t; [|injection Hr as <- <-; apply kp_refl].
  destruct (negb w); [injection Hr as <- <-; apply kp_refl|]. destruct (S_ISREG _).
  - destruct (setattr _ _ _ _ _ _ _) as [s2 r2] eqn:Hs. apply (kp_setattr i) in Hs; [|by intros a' E; rewrite Ha in E; injection E as <-; apply Hp].
    destruct r2; by injection Hr as <- <-.
  - destruct (_ || _); injection Hr as <- <-; apply kp_refl.
Qed.
Lemma kp_touch i j now s s' : kp i s s' -> kp i s (touch j now s').
Proof. intros H. apply kp_upd; [done|]. intros _ a. case_decide; by repeat split. Qed.
Lemma kp_reply i s l s' s1 r : reply l s' = (s1, r) -> kp i s s' -> kp i s s1.
Proof.
  revert s' s1 r. induction l as [|[[k n] j] l IH]; intros s' s1 r Hr H; cbn in Hr; [by injection Hr as <- <-|].
  destruct (inodes s' !! j); [|by injection Hr as <- <-]. destruct (reply l (incr_open j s')) as [s2 r2] eqn:E. apply (IH (incr_open j s')) in E; [|by apply kp_incr].
  destruct r2; by injection Hr as <- <-.
Qed.
Lemma kp_puts i s j l s' : kp i s s' -> j <> i -> kp i s (foldl (fun s '(b, o) => put_block j b o s) s' l).
Proof. intros H Hj. revert s' H. induction l as [|[b o] l IH]; intros s' H; [done|]. cbn. apply IH. by apply kp_put. Qed.

Lemma step_kp i s c s' r : consistent s -> is_locked_in s i -> forced c = false -> exec max_obj_size c s = (s', r) -> r <> Crash -> kp i s s'.
Proof.
  intros Hc (ai & Hai & Hli) Hfc Hr Hn.
  assert (forall (s1 : fs) p ap, inodes s1 = inodes s -> inodes s1 !! p = Some ap -> locked ap = false -> p <> i) as Hp by (intros s1 p ap -> Hp El ->; congruence).
  assert (i <> seq s) as Hseq by (intros ->; apply (c_seq _ _ _ Hc) in Hai; lia).
  destruct c; cbn in Hr.
  - unfold lookup in Hr. destruct (lookup_ p n s) as [s1 x] eqn:Hl. apply (kp_lookup_ i s) in Hl; [|apply kp_refl]. by destruct x; injection Hr as <- <-.
  - injection Hr as <- <-. apply kp_refl.
  - unfold readlink in Hr. destruct (inodes s !! i0); injection Hr as <- <-; [apply kp_touch|]; apply kp_refl.
  - unfold readdir in Hr. destruct (inodes s !! i0); [|injection Hr as <- <-; apply kp_refl]. eapply kp_reply; [exact Hr|]. apply kp_touch, kp_refl.
  - injection Hr as <- <-. apply kp_refl.
  - injection Hr as <- <-. apply kp_refl.
  - unfold setxattr in Hr. destruct (is_acl n); [injection Hr as <- <-; apply kp_refl|]. destruct (failsafe s); [injection Hr as <- <-; apply kp_refl|].
    destruct (inodes s !! i0) as [a0|]; [|injection Hr as <- <-; apply kp_refl]. destruct (locked a0); [injection Hr as <- <-; apply kp_refl|].
    destruct (add_name n s) as [s1 k] eqn:Ha. apply (kp_add_name i s) in Ha; [|apply kp_refl]. injection Hr as <- <-. apply kp_upd; [|intros _ ?; by repeat split]. by apply kp_xattrs.
  - unfold removexattr in Hr. destruct (failsafe s); [injection Hr as <- <-; apply kp_refl|].
    destruct (inodes s !! i0) as [a0|]; [|injection Hr as <- <-; apply kp_refl]. destruct (locked a0); [injection Hr as <- <-; apply kp_refl|].
    destruct (del_name n s) as [[s1 k]|] eqn:Ha; [|injection Hr as <- <-; apply kp_refl]. apply (kp_del_name i s) in Ha; [|apply kp_refl].
    destruct (xattrs s1 !! (i0, k)); injection Hr as <- <-; [|done]. apply kp_upd; [|intros _ ?; by repeat split]. by apply kp_xattrs.
  - unfold unlink in Hr. destruct (failsafe s); [injection Hr as <- <-; apply kp_refl|]. destruct (lookup_ p n s) as [s1 x] eqn:Hl.
    assert (inodes s1 = inodes s) as E1 by (unfold lookup_ in Hl; repeat case_match; by simplify_eq).
    apply (kp_lookup_ i s) in Hl; [|apply kp_refl]. destruct x; [by injection Hr as <- <-|]. destruct (S_ISDIR _); [by injection Hr as <- <-|].
    destruct (remove _ _ _ _ _ _ _) as [s2 r2] eqn:Hrm. apply (kp_remove i s) in Hrm; [|eauto|done|done]. destruct r2; try by injection Hr as <- <-. by eapply kp_forget1.
  - unfold rmdir in Hr. destruct (failsafe s); [injection Hr as <- <-; apply kp_refl|]. destruct (lookup_ p n s) as [s1 x] eqn:Hl.
    assert (inodes s1 = inodes s) as E1 by (unfold lookup_ in Hl; repeat case_match; by simplify_eq).
    apply (kp_lookup_ i s) in Hl; [|apply kp_refl]. destruct x; [by injection Hr as <- <-|]. destruct (inodes s1 !! p) as [ap|]; [|by injection Hr as <- <-].
    destruct (locked ap); [by injection Hr as <- <-|]. destruct (negb _); [by injection Hr as <- <-|].
    destruct (remove _ _ _ _ _ _ _) as [s2 r2] eqn:Hrm. apply (kp_remove i s) in Hrm; [|eauto|done|done]. destruct r2; try by injection Hr as <- <-. by eapply kp_forget1.
  - unfold mknod in Hr. destruct (failsafe s); [injection Hr as <- <-; apply kp_refl|]. destruct (create_ _ _ _ _ _ _ _ _) as [s1 x] eqn:Hcr.
    apply (kp_create_ i) in Hcr; [|eauto|done]. destruct x; injection Hr as <- <-; [done|by apply kp_incr].
  - unfold symlink in Hr. destruct (failsafe s); [injection Hr as <- <-; apply kp_refl|]. destruct (create_ _ _ _ _ _ _ _ _) as [s1 x] eqn:Hcr.
    assert (forall j, x = inr j -> j = seq s) as Hx. { intros j ->. unfold create_ in Hcr. repeat case_match; by simplify_eq. }
    apply (kp_create_ i) in Hcr; [|eauto|done]. destruct x as [|j]; injection Hr as <- <-; [done|]. apply kp_incr, kp_symlinks; [done|]. rewrite (Hx j eq_refl). done.
  - unfold rename in Hr. destruct fl; [injection Hr as <- <-; apply kp_refl|]. case_decide; [injection Hr as <- <-; apply kp_refl|]. destruct (failsafe s); [injection Hr as <- <-; apply kp_refl|].
    destruct (inodes s !! po) as [ao|] eqn:Hao; [|injection Hr as <- <-; apply kp_refl]. destruct (inodes s !! pn) as [an|] eqn:Han; [|injection Hr as <- <-; apply kp_refl].
    destruct (locked ao || locked an) eqn:El; [injection Hr as <- <-; apply kp_refl|]. apply orb_false_iff in El as [El1 El2].
    assert (po <> i) as Hpo by (by apply (Hp s po ao)). assert (pn <> i) as Hpn by (by apply (Hp s pn an)).
    destruct (lookup_ po no s) as [s1 x] eqn:Hl. apply (kp_lookup_ i s) in Hl; [|apply kp_refl]. destruct x as [|io]; [by injection Hr as <- <-|].
    destruct (lookup_ pn nn s1) as [s2 x] eqn:Hl2. apply (kp_lookup_ i s) in Hl2; [|done]. destruct x as [e|iw].
    + assert (kp i s s' \/ (exists r2 s3, rename_ po no pn nn now s2 = (s3, r2) /\ (s3 = s' \/ exists rr, forget max_obj_size [(io, 1)] s3 = (s', rr)))) as [?|(r2 & s3 & Hrn & Hf)]; [|done|].
      { destruct e as [| | | | | |[]|]; try (left; by injection Hr as <- <-). right. destruct (rename_ po no pn nn now s2) as [s3 r2]. exists r2, s3. split; [done|]. destruct r2; try (left; by injection Hr). right. by exists r. }
      assert (kp i s s3) as H3.
      { unfold rename_ in Hrn. destruct (add_name nn s2) as [s4 kn] eqn:Ha. apply (kp_add_name i s) in Ha; [|done]. destruct (del_name no s4) as [[s5 ko]|] eqn:Hd; [|by injection Hrn as <- <-].
        apply (kp_del_name i s) in Hd; [|done]. destruct (contents s5 !! (po, ko)); [destruct (delete _ _ !! _); [by injection Hrn as <- <-|]|]; injection Hrn as <- <-; apply kp_upd; try done; apply kp_upd; try done. }
      destruct Hf as [<-|[rr Hf]]; [done|]. by eapply kp_forget.
    + destruct (replace _ _ _ _ _ _ _ _ _) as [s3 r3] eqn:Hrp.
      assert (kp i s s3) as H3.
      { unfold replace in Hrp. destruct (has_children s2 iw); [by injection Hrp as <- <-|]. destruct (names s2 !! nn) as [[kn ?]|]; [|by injection Hrp as <- <-]. cbv zeta in Hrp.
        destruct (del_name no _) as [[s5 ko]|] eqn:Hd; [|injection Hrp as <- <-; by apply kp_contents]. apply (kp_del_name i s) in Hd; [|by apply kp_contents].
        destruct (inodes (set_contents _ s5) !! iw); [|injection Hrp as <- <-; by apply kp_contents].
        case_decide; injection Hrp as <- <-; [apply kp_purge|]; (apply kp_upd; [|done]); (apply kp_upd; [|done]); (apply kp_upd; [|intros _ ?; by repeat split]); by apply kp_contents. }
      destruct r3; try by injection Hr as <- <-. by eapply kp_forget.
  - unfold link in Hr. case_decide; [injection Hr as <- <-; apply kp_refl|]. destruct (inodes s !! p) as [ap|] eqn:Hap; [|injection Hr as <- <-; apply kp_refl].
    case_decide; [injection Hr as <- <-; apply kp_refl|]. destruct (failsafe s); [injection Hr as <- <-; apply kp_refl|]. cbn [orb] in Hr. destruct (locked ap) eqn:El; [injection Hr as <- <-; apply kp_refl|].
    assert (p <> i) as Hpi by (by apply (Hp s p ap)). cbv zeta in Hr. destruct (add_name n _) as [s1 k] eqn:Ha. apply (kp_add_name i s) in Ha; [|apply kp_upd; [apply kp_refl|done]].
    destruct (contents s1 !! (p, k)); [by injection Hr as <- <-|]. destruct (inodes (set_contents _ s1) !! i0); injection Hr as <- <-; [|by apply kp_contents].
    apply kp_incr, kp_upd; [|intros _ ?; by repeat split]. by apply kp_contents.
  - eapply kp_setattr; [exact Hr|eauto].
  - eapply kp_open; [exact Hr|eauto].
  - unfold create in Hr. destruct (failsafe s); [injection Hr as <- <-; apply kp_refl|]. destruct (entry s p n) as [j|].
    + destruct (open_ _ _ _ _ _ _) as [s1 r1] eqn:Ho. apply (kp_open i) in Ho; [|eauto]. destruct r1; by injection Hr as <- <-.
    + destruct (create_ _ _ _ _ _ _ _ _) as [s1 x] eqn:Hcr. apply (kp_create_ i) in Hcr; [|eauto|done]. destruct x; injection Hr as <- <-; [done|by apply kp_incr].
  - unfold read in Hr. destruct (inodes s !! i0); [|injection Hr as <- <-; apply kp_refl]. destruct bad; injection Hr as <- <-; [apply kp_failsafe|apply kp_touch]; apply kp_refl.
  - unfold write in Hr. destruct (failsafe s); [injection Hr as <- <-; apply kp_refl|]. destruct (inodes s !! i0) as [a|] eqn:Ha; [|injection Hr as <- <-; apply kp_refl].
    destruct (locked a) eqn:El; [injection Hr as <- <-; apply kp_refl|]. assert (i0 <> i) as Hi0 by (by apply (Hp s i0 a)). cbv zeta in Hr.
    pose proof (kp_puts i s i0 l s (kp_refl i s) Hi0) as Hk. destruct bad; injection Hr as <- <-; [by apply kp_failsafe|]. by apply kp_upd.
  - by eapply kp_forget; [exact Hr|apply kp_refl].
  - unfold lock in Hr. destruct (inodes s !! i0) as [a0|] eqn:Ha0; injection Hr as <- <-; [|apply kp_refl]. destruct (decide (i0 = i)) as [->|Hne]; [|by apply kp_upd; [apply kp_refl|]].
    assert (set_locked ai = ai) as El by (unfold set_locked; rewrite <- Hli; by destruct ai). intros _. split; [|done]. exists ai, ai. cbn. rewrite lookup_alter, Hai. cbn. rewrite El. split; [done|]. split; [done|apply same_file_refl].
  - done.
Qed.

Lemma locked_entries i s c s' r : is_locked_in s i -> forced c = false -> exec max_obj_size c s = (s', r) -> forall n, entries_after c r (entry s) i n = entry s i n.
Proof.
  intros (ai & Hai & Hli) Hfc Hr m.
  assert (forall p n v, (p <> i \/ v = entry s p n) -> bind (entry s) p n v i m = entry s i m) as Hb.
  { intros p n v Hv. unfold bind. case_decide as D; [|done]. injection D as -> ->. by destruct Hv as [Hv| ->]. }
  assert (forall p n m0 c0 rd sz now s1 j, create_ p n m0 c0 rd sz now s = (s1, inr j) -> p <> i) as Hcr.
  { intros p n m0 c0 rd sz now s1 j Hcr ->. unfold create_ in Hcr. rewrite Hai, Hli in Hcr. by destruct (decide _). }
  assert (forall p n j now s1, remove max_obj_size p n j false now s1 = (s', Done) -> inodes s1 = inodes s -> p <> i) as Hrm.
  { intros p n j now s1 Hx E ->. unfold remove in Hx. destruct (has_children s1 j); [done|]. rewrite E, Hai, Hli in Hx. done. }
  assert (forall p n s1 j, lookup_ p n s = (s1, inr j) -> inodes s1 = inodes s) as Hlk.
  { intros p n s1 j Hl. unfold lookup_ in Hl. repeat case_match; by simplify_eq. }
  destruct c, r; cbn [entries_after]; try done; cbn in Hr; apply Hb || idtac.
  - left. intros ->. unfold unlink in Hr. destruct (failsafe s); [done|]. destruct (lookup_ i n s) as [s1 [e|j]] eqn:Hl; [by unfold lookup_ in Hl; repeat case_match; simplify_eq|]. destruct (S_ISDIR _); [done|].
    pose proof (Hlk _ _ _ _ Hl) as E. unfold remove in Hr. destruct (has_children s1 j); [done|]. by rewrite E, Hai, Hli in Hr.
  - left. intros ->. unfold rmdir in Hr. destruct (failsafe s); [done|]. destruct (lookup_ i n s) as [s1 [e|j]] eqn:Hl; [by unfold lookup_ in Hl; repeat case_match; simplify_eq|].
    pose proof (Hlk _ _ _ _ Hl) as E. by rewrite E, Hai, Hli in Hr.
  - left. unfold mknod in Hr. destruct (failsafe s); [done|]. destruct (create_ _ _ _ _ _ _ _ _) as [s1 [e|j]] eqn:Hx; [injection Hr as <- ->; by apply create__inl in Hx|]. by eapply Hcr.
  - left. unfold symlink in Hr. destruct (failsafe s); [done|]. destruct (create_ _ _ _ _ _ _ _ _) as [s1 [e|j]] eqn:Hx; [injection Hr as <- ->; by apply create__inl in Hx|]. by eapply Hcr.
  - assert (po <> i /\ pn <> i) as [H1 H2].
    { unfold rename in Hr. destruct fl; [done|]. case_decide; [done|]. destruct (failsafe s); [done|]. 
      destruct (inodes s !! po) as [ao|] eqn:Hao; [|done]. destruct (inodes s !! pn) as [an|] eqn:Han; [|done]. destruct (locked ao || locked an) eqn:El; [done|].
      apply orb_false_iff in El as [? ?]. split; intros ->; congruence. }
    unfold bind. rewrite !decide_False by congruence. done.
  - left. intros ->. unfold link in Hr. case_decide; [done|]. rewrite Hai, Hli, orb_true_r in Hr. by case_decide.
  - unfold create in Hr. destruct (failsafe s); [done|]. destruct (entry s p n) as [j|] eqn:He.
    + right. destruct (open_ _ _ _ _ _ _) as [s1 r1] eqn:Ho. destruct r1; try done; [|injection Hr as <- <- <-; by apply open__not_entry in Ho]. destruct (inodes s1 !! j); [|done]. by injection Hr as <- <- <-.
    + left. destruct (create_ _ _ _ _ _ _ _ _) as [s1 [e|j]] eqn:Hx; [injection Hr as <- ->; by apply create__inl in Hx|]. by eapply Hcr.
Qed.
Lemma locked_xattrs i s c s' r : is_locked_in s i -> exec max_obj_size c s = (s', r) -> forall n, xattrs_after c r (xattr s) i n = xattr s i n.
Proof.
  intros (ai & Hai & Hli) Hr m. destruct c, r; cbn [xattrs_after]; try done; cbn in Hr; unfold bind; (case_decide as D; [|done]); injection D as -> ->.
  - unfold setxattr in Hr. rewrite Hai, Hli in Hr. by repeat case_match.
  - unfold removexattr in Hr. rewrite Hai, Hli in Hr. by repeat case_match.
Qed.
Lemma step_intact i s c s' r : consistent s -> allowed s c -> is_locked_in s i -> forced c = false -> exec max_obj_size c s = (s', r) -> r <> Crash -> is_Some (inodes s' !! i) ->
  intact s s' i /\ is_locked_in s' i.
Proof.
  intros Hc Ha Hl Hfc Hr Hn Hi. destruct (step_good max_obj_size Hmax exact s c s' r Hc Ha Hr Hn) as (_ & He & Hx & _).
  destruct (step_kp i s c s' r Hc Hl Hfc Hr Hn Hi) as ((a & a' & Ha1 & Ha2 & Hf) & Hsl & Hb). split.
  - split; [eauto 6|]. split; [intros n; rewrite He; by eapply locked_entries|]. split; [|done].
    intros n. rewrite Hx by done. by eapply locked_xattrs.
  - destruct Hl as (a0 & Ha0 & Hl0). exists a'. split; [done|]. destruct Hf as (_ & _ & _ & _ & _ & _ & ->). congruence.
Qed.
Lemma intact_trans s s1 s2 i : intact s s1 i -> intact s1 s2 i -> intact s s2 i.
Proof.
  intros ((a & a1 & H1 & H2 & H3) & H4 & H5 & H6 & H7) ((b & b1 & G1 & G2 & G3) & G4 & G5 & G6 & G7). rewrite H2 in G1. injection G1 as <-. split; [|split; [|split; [|split]]].
  - exists a, b1. split; [done|]. split; [done|]. by eapply same_file_trans.
  - intros n. by rewrite G4.
  - intros n. by rewrite G5.
  - congruence.
  - intros n. by rewrite G7.
Qed.
Lemma intact_refl s i : is_Some (inodes s !! i) -> intact s s i.
Proof. intros [a Ha]. split; [|done]. exists a, a. split; [done|]. split; [done|apply same_file_refl]. Qed.
(** Inodes that exist at the end existed all the time. *)
Lemma calls_exist s h s' i : consistent s -> calls max_obj_size exact s h s' -> unforced h -> is_locked_in s i -> is_Some (inodes s' !! i) -> intact s s' i /\ is_locked_in s' i.
Proof.
  intros Hc Hh. revert Hc. induction Hh as [s|s c s1 r h s' Ha Hr Hn Hh IH]; intros Hc Hfc Hl Hi; [split; [|done]; by apply intact_refl|]. apply Forall_cons in Hfc as [Hfc Hfh]. cbn in Hfc.
  destruct (step_good max_obj_size Hmax exact s c s1 r Hc Ha Hr Hn) as (Hc1 & _).
  assert (is_Some (inodes s1 !! i)) as Hi1.
  { clear IH. assert (i < seq s1)%nat as Hlt.
    { destruct Hl as (a & Ha' & _). destruct (step_good max_obj_size Hmax exact s c s1 r Hc Ha Hr Hn) as (_ & _ & _ & _ & Hseq & _). apply (c_seq _ _ _ Hc) in Ha'. lia. }
    clear -Hh Hc1 Hi Hlt Hmax. induction Hh as [s|s c s2 r h s' Ha Hr Hn Hh IH]; [done|].
    destruct (step_good max_obj_size Hmax exact s c s2 r Hc1 Ha Hr Hn) as (Hc2 & _ & _ & Hnew & Hseq & _). specialize (IH Hi Hc2 ltac:(lia)). destruct (Hnew _ IH) as [?|?]; [done|lia]. }
  destruct (step_intact i s c s1 r Hc Ha Hl Hfc Hr Hn Hi1) as [H1 Hl1]. destruct (IH Hc1 Hfh Hl1 Hi) as [H2 ?]. split; [|done]. by eapply intact_trans.
Qed.
(** A locked directory that is not empty cannot be removed. *)
Lemma calls_nonempty s h s' i n j : consistent s -> calls max_obj_size exact s h s' -> unforced h -> is_locked_in s i -> entry s i n = Some j ->
  intact s s' i /\ is_locked_in s' i /\ is_Some (inodes s' !! j).
Proof.
  intros Hc Hh. revert Hc. induction Hh as [s|s c s1 r h s' Ha Hr Hn Hh IH]; intros Hc Hfc Hl He.
  - split; [|split; [done|]]. { apply intact_refl. destruct Hl as (a & ? & _). by eexists. } apply entry_Some in He as (k & rc & _ & Hk). by destruct (c_entries _ _ _ Hc _ _ _ Hk) as (_ & _ & _ & _ & ?).
  - apply Forall_cons in Hfc as [Hfc Hfh]. cbn in Hfc. destruct (step_good max_obj_size Hmax exact s c s1 r Hc Ha Hr Hn) as (Hc1 & HE & _). assert (entry s1 i n = Some j) as He1 by (rewrite HE, <- He; by eapply locked_entries).
    assert (is_Some (inodes s1 !! i)) as Hi1. { apply entry_Some in He1 as (k & rc & _ & Hk). destruct (c_entries _ _ _ Hc1 _ _ _ Hk) as (_ & (a & ? & _) & _). by eexists. }
    destruct (step_intact i s c s1 r Hc Ha Hl Hfc Hr Hn Hi1) as [H1 Hl1]. destruct (IH Hc1 Hfh Hl1 He1) as (H2 & ? & ?). split; [|done]. by eapply intact_trans.
Qed.
Lemma forget1_res j n s s' r : forget1 max_obj_size j n s = (s', r) -> r = Done \/ r = Crash.
Proof. unfold forget1. intros. repeat case_match; simplify_eq; auto. Qed.
Lemma forget_res l s s' r : forget max_obj_size l s = (s', r) -> r = Done \/ r = Crash.
Proof.
  revert s. induction l as [|[j n] l IH]; intros s H; cbn in H; [injection H as <- <-; auto|]. destruct (forget1 _ _ _ _) as [s1 r1] eqn:E.
  destruct (forget1_res _ _ _ _ _ E) as [-> | ->]; [eauto|]. injection H as <- <-. auto.
Qed.
Lemma reply_res l s s' r : reply l s = (s', r) -> r = Crash \/ exists x, r = Listing x.
Proof.
  revert s s' r. induction l as [|[[k n] i] l IH]; intros s s' r H; cbn in H; [injection H as <- <-; eauto|]. destruct (inodes s !! i); [|injection H as <- <-; auto].
  destruct (reply l _) as [s1 r1] eqn:E. destruct (IH _ _ _ E) as [-> |[x ->]]; injection H as <- <-; eauto.
Qed.
Lemma setattr_eperm i rq bad o now s s' : setattr max_obj_size i rq bad o now s = (s', Err EPERM) -> s' = s.
Proof.
  unfold setattr. destruct (inodes s !! i); [|done]. destruct (_ || _); [by intros [= <-]|]. cbv zeta.
  destruct (match r_atime rq with None => _ | Some _ => _ end); [|done]. destruct (match r_mtime rq with None => _ | Some _ => _ end); [|done].
  destruct (r_size rq); [|done]. destruct (decide _); [done|]. by destruct bad as [[]|].
Qed.
Lemma open_eperm i w t now s s' : open_ max_obj_size i w t now s = (s', Err EPERM) -> s' = s.
Proof.
  unfold open_. destruct (_ && _); [by intros [= <-]|]. destruct (inodes s !! i); [|by destruct (_ || _)]. destruct (_ && _); [by intros [= <-]|]. destruct t; [|done].
  destruct (negb w); [done|]. destruct (S_ISREG _); [|by destruct (_ || _)]. destruct (setattr _ _ _ _ _ _ _) as [s1 r1] eqn:E. destruct r1; try done; intros [= <- ->]; by eapply setattr_eperm.
Qed.
Lemma create__eperm p n m c rd sz now s s' : create_ p n m c rd sz now s = (s', inl (Err EPERM)) -> s' = s.
Proof. unfold create_. cbv zeta. intros. repeat case_match; by simplify_eq. Qed.
Lemma remove_eperm p n i f now s s' : remove max_obj_size p n i f now s = (s', Err EPERM) -> s' = s.
Proof. unfold remove. cbv zeta. intros. repeat case_match; by simplify_eq. Qed.
Lemma lookup__shape p n s s1 x : lookup_ p n s = (s1, x) -> match x with inl e => s1 = s /\ (e = Crash \/ e = Err ENOENT) | inr i => s1 = incr_open i s end.
Proof. unfold lookup_. intros. repeat case_match; simplify_eq; auto. Qed.
Lemma rejected s c s' : exec max_obj_size c s = (s', Err EPERM) -> s' = s \/ fails_late (c, Err EPERM) = true /\ exists i, s' = incr_open i s.
Proof.
  intros Hr. destruct c; cbn in Hr.
  all: try (left; unfold lookup, lookup_, getattr, readlink, getxattr, listxattr, setxattr, removexattr, link, read, write in Hr; cbv zeta in Hr; repeat case_match; by simplify_eq).
  - unfold readdir in Hr. destruct (inodes s !! i); [|done]. by apply reply_res in Hr as [?|[x ?]].
  - unfold unlink in Hr. destruct (failsafe s); [injection Hr as <-; by left|]. destruct (lookup_ p n s) as [s1 x] eqn:Hl. apply lookup__shape in Hl. destruct x as [e|i].
    { destruct Hl as [-> [-> | ->]]; done. } subst s1. destruct (S_ISDIR _); [done|]. destruct (remove _ _ _ _ _ _ _) as [s2 r2] eqn:Hrm.
    destruct r2; try done; [by apply forget1_res in Hr as [? | ?]|]. injection Hr as <- ->. apply remove_eperm in Hrm as ->. right. eauto.
  - unfold rmdir in Hr. destruct (failsafe s); [injection Hr as <-; by left|]. destruct (lookup_ p n s) as [s1 x] eqn:Hl. apply lookup__shape in Hl. destruct x as [e|i].
    { destruct Hl as [-> [-> | ->]]; done. } subst s1. destruct (inodes _ !! p); [|done]. destruct (locked _); [injection Hr as <-; right; eauto|]. destruct (negb _); [done|]. destruct (remove _ _ _ _ _ _ _) as [s2 r2] eqn:Hrm.
    destruct r2; try done; [by apply forget1_res in Hr as [? | ?]|]. injection Hr as <- ->. apply remove_eperm in Hrm as ->. right. eauto.
  - left. unfold mknod in Hr. destruct (failsafe s); [by injection Hr as <-|]. destruct (create_ _ _ _ _ _ _ _ _) as [s1 [e|i]] eqn:E; [injection Hr as <- ->; by apply create__eperm in E|]. by destruct (inodes s1 !! i).
  - left. unfold symlink in Hr. destruct (failsafe s); [by injection Hr as <-|]. destruct (create_ _ _ _ _ _ _ _ _) as [s1 [e|i]] eqn:E; [injection Hr as <- ->; by apply create__eperm in E|]. by destruct (inodes s1 !! i).
  - left. unfold rename in Hr. destruct fl; [done|]. case_decide; [done|]. destruct (failsafe s); [by injection Hr as <-|]. destruct (inodes s !! po); [|done]. destruct (inodes s !! pn); [|done].
    destruct (_ || _); [by injection Hr as <-|]. destruct (lookup_ po no s) as [s1 x] eqn:Hl. apply lookup__shape in Hl. destruct x as [e|i]. { by destruct Hl as [-> [-> | ->]]. }
    destruct (lookup_ pn nn s1) as [s2 x] eqn:Hl2. apply lookup__shape in Hl2. exfalso. destruct x as [e|iw].
    + destruct Hl2 as [-> [-> | ->]]; [done|]. destruct (rename_ _ _ _ _ _ _) as [s3 r3] eqn:E. assert (r3 = Done \/ r3 = Crash) as [-> | ->]; [|by apply forget_res in Hr as [? | ?]|done].
      unfold rename_ in E. repeat case_match; simplify_eq; auto.
    + destruct (replace _ _ _ _ _ _ _ _ _) as [s3 r3] eqn:E. assert (r3 = Done \/ r3 = Crash \/ r3 = Err EINVAL) as [-> |[-> | ->]]; [|by apply forget_res in Hr as [? | ?]|done|done].
      unfold replace in E. cbv zeta in E. repeat case_match; simplify_eq; auto.
  - left. by apply setattr_eperm in Hr.
  - left. by apply open_eperm in Hr.
  - left. unfold create in Hr. destruct (failsafe s); [by injection Hr as <-|]. destruct (entry s p n) as [j|].
    + destruct (open_ _ _ _ _ _ _) as [s1 r1] eqn:E. destruct r1; try done; [by destruct (inodes s1 !! j)|]. injection Hr as <- ->. by apply open_eperm in E.
    + destruct (create_ _ _ _ _ _ _ _ _) as [s1 [e|i]] eqn:E; [injection Hr as <- ->; by apply create__eperm in E|]. by destruct (inodes s1 !! i).
  - by apply forget_res in Hr as [? | ?].
  - unfold lock in Hr. by destruct (inodes s !! i).
  - left. by apply remove_eperm in Hr.
Qed.

(** * Fail-safe mode *)
Lemma failsafe_rejects s c s' r : failsafe s = true -> modifies c = true -> exec max_obj_size c s = (s', r) -> r <> Crash ->
  s' = s /\ r = Err (default EPERM (early_error s c)).
Proof.
  intros Hf Hm Hr Hn. destruct c; try done; cbn in Hr, Hm |- *.
  - unfold setxattr in Hr. rewrite Hf in Hr. by destruct (is_acl n); injection Hr as <- <-.
  - unfold removexattr in Hr. rewrite Hf in Hr. by injection Hr as <- <-.
  - unfold unlink in Hr. rewrite Hf in Hr. by injection Hr as <- <-.
  - unfold rmdir in Hr. rewrite Hf in Hr. by injection Hr as <- <-.
  - unfold mknod in Hr. rewrite Hf in Hr. by injection Hr as <- <-.
  - unfold symlink in Hr. rewrite Hf in Hr. by injection Hr as <- <-.
  - unfold rename in Hr. rewrite Hf in Hr. destruct fl; [by injection Hr as <- <-|]. by case_decide; injection Hr as <- <-.
  - unfold link in Hr. rewrite Hf in Hr. case_decide; [by injection Hr as <- <-|]. destruct (inodes s !! p); [|by injection Hr as <- <-]. by case_decide; injection Hr as <- <-.
  - unfold setattr in Hr. rewrite Hf in Hr. destruct (inodes s !! i); by injection Hr as <- <-.
  - unfold open_ in Hr. rewrite Hf, andb_true_r in Hr. destruct w; [by injection Hr as <- <-|]. cbn in Hm. subst t. destruct (inodes s !! i); by injection Hr as <- <-.
  - unfold create in Hr. rewrite Hf in Hr. by injection Hr as <- <-.
  - unfold write in Hr. rewrite Hf in Hr. by injection Hr as <- <-.
Qed.
Lemma sba_refl s : same_but_atime s s.
Proof. by repeat split. Qed.
Lemma sba_trans s s1 s2 : same_but_atime s s1 -> same_but_atime s1 s2 -> same_but_atime s s2.
Proof.
  intros (A1 & A2 & A3 & A4 & A5 & A6 & A7 & A8) (B1 & B2 & B3 & B4 & B5 & B6 & B7 & B8). repeat split; try congruence.
Qed.
Lemma sba_touch i now s : same_but_atime s (touch i now s).
Proof.
  repeat split. intros j. cbn. destruct (decide (j = i)) as [->|Hne]; [|by rewrite lookup_alter_ne]. rewrite lookup_alter. destruct (inodes s !! i); [|done]. cbn. by case_decide.
Qed.
Lemma sba_incr i s : same_but_atime s (incr_open i s).
Proof. by repeat split. Qed.
Lemma reply_sba l s s' r : reply l s = (s', r) -> same_but_atime s s' /\ failsafe s' = failsafe s.
Proof.
  revert s s' r. induction l as [|[[k n] i] l IH]; intros s s' r H; cbn in H; [injection H as <- <-; split; [apply sba_refl|done]|]. destruct (inodes s !! i); [|injection H as <- <-; split; [apply sba_refl|done]].
  destruct (reply l _) as [s1 r1] eqn:E. destruct (IH _ _ _ E) as [H1 H2]. assert (s1 = s') as -> by (destruct r1; by injection H). split; [|done]. eapply sba_trans; [apply (sba_incr i)|done].
Qed.
Lemma failsafe_frame s c s' r : failsafe s = true -> exec max_obj_size c s = (s', r) -> r <> Crash -> deferred c = false -> same_but_atime s s' /\ failsafe s' = true.
Proof.
  intros Hf Hr Hn Hc. destruct (modifies c) eqn:Hm. { destruct (failsafe_rejects _ _ _ _ Hf Hm Hr Hn) as [-> _]. split; [apply sba_refl|done]. }
  destruct c; try done; cbn in Hr, Hm.
  - unfold lookup in Hr. destruct (lookup_ p n s) as [s1 x] eqn:Hl. apply lookup__shape in Hl. destruct x; [destruct Hl as [-> _]|subst s1]; injection Hr as <- <-; (split; [|done]); [apply sba_refl|apply sba_incr].
  - injection Hr as <- <-. split; [apply sba_refl|done].
  - unfold readlink in Hr. destruct (inodes s !! i); injection Hr as <- <-; (split; [|done]); [apply sba_touch|apply sba_refl].
  - unfold readdir in Hr. destruct (inodes s !! i); [|by injection Hr as <- <-]. destruct (reply_sba _ _ _ _ Hr) as [H1 H2]. split; [|by rewrite H2]. eapply sba_trans; [apply sba_touch|done].
  - injection Hr as <- <-. split; [apply sba_refl|done].
  - injection Hr as <- <-. split; [apply sba_refl|done].
  - apply orb_false_iff in Hm as [-> ->]. unfold open_ in Hr. cbn in Hr. destruct (inodes s !! i); injection Hr as <- <-; (split; [apply sba_refl|done]).
  - unfold read in Hr. destruct (inodes s !! i); [|by injection Hr as <- <-]. destruct bad; injection Hr as <- <-; (split; [|done]); [by repeat split|apply sba_touch].
Qed.
(** forget deletes inodes that are in no directory, whatever the mode. *)
Lemma forget_frame l s s' r : forget max_obj_size l s = (s', r) -> failsafe s' = failsafe s /\ contents s' = contents s /\
  forall i a, inodes s !! i = Some a -> refcount a <> 0 -> inodes s' !! i = Some a /\ symlinks s' !! i = symlinks s !! i /\ forall b, blocks s' !! (i, b) = blocks s !! (i, b).
Proof.
  revert s. induction l as [|[j n] l IH]; intros s H; cbn in H; [by injection H as <- <-|]. destruct (forget1 _ _ _ _) as [s1 r1] eqn:E.
  assert (failsafe s1 = failsafe s /\ contents s1 = contents s /\ forall i a, inodes s !! i = Some a -> refcount a <> 0 -> inodes s1 !! i = Some a /\ symlinks s1 !! i = symlinks s !! i /\ forall b, blocks s1 !! (i, b) = blocks s !! (i, b)) as (H1 & H2 & H3).
  { unfold forget1 in E. case_decide; [|by injection E as <- <-]. cbn in E. destruct (inodes s !! j) as [aj|] eqn:Hj; [|by injection E as <- <-]. case_decide as Hz; [|by injection E as <- <-].
    injection E as <- <-. split; [done|]. split; [done|]. intros i a Hi Ha. assert (j <> i) as Hne by congruence.
    rewrite purge_inodes, purge_symlinks. cbn [inodes symlinks set_opens]. rewrite !lookup_delete_ne by done. split; [done|]. split; [done|].
    intros b. assert (kp i s (purge_inode max_obj_size j (size aj) (set_opens (delete j (opens s)) s))) as Hk by (apply kp_purge, kp_opens, kp_refl).
    apply Hk. rewrite purge_inodes. cbn [inodes set_opens]. rewrite lookup_delete_ne by done. by eexists. }
  destruct (forget1_res _ _ _ _ _ E) as [-> | ->].
  - destruct (IH _ H) as (G1 & G2 & G3). split; [congruence|]. split; [congruence|]. intros i a Hi Ha. destruct (H3 _ _ Hi Ha) as (A1 & A2 & A3). destruct (G3 _ _ A1 Ha) as (B1 & B2 & B3).
    split; [done|]. split; [congruence|]. intros b. by rewrite B3.
  - by injection H as <- <-.
Qed.
End lock.
