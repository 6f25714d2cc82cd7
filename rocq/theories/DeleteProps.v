(** C38: the list of keys after deleting several objects. *)
From stdpp Require Import prelude gmap.
From Verif Require Import DeleteModel.

(** Keys that are no longer in the list are gone, other objects are untouched. *)
Record sound (keys : list key) (objs : gset key) (keys' : list key) (objs' : gset key) : Prop := {
  left_from_list : forall k, k ∈ keys' -> k ∈ keys; left_are_gone : forall k, k ∈ keys -> k ∉ keys' -> k ∉ objs'; others_stay : forall k, k ∉ keys -> k ∈ objs' <-> k ∈ objs }.
(** Keys in the list are as before. *)
Definition exact keys objs keys' objs' : Prop := sound keys objs keys' objs' /\ forall k, k ∈ keys' -> k ∈ objs' <-> k ∈ objs.

(** For examples: the list, the outcome, and whether [k] is still there *)
Definition gives (r : option (list key * gset key * bool)) (l : list key) (ok : bool) (k : key) (there : bool) : bool := match r with
  | Some (l', o, ok') => bool_decide (l' = l) && eqb ok' ok && eqb (bool_decide (k ∈ o)) there | None => false end.
Lemma gives_spec r l ok k there : gives r l ok k there = true -> exists o, r = Some (l, o, ok) /\ if there then k ∈ o else k ∉ o.
Proof.
  unfold gives. destruct r as [[[l' o] ok']|]; [|done]. intros H. apply andb_true_iff in H as [[->%bool_decide_eq_true ->%eqb_prop]%andb_true_iff H%eqb_prop]. exists o. split; [done|]. destruct there; [by apply bool_decide_eq_true in H|by apply bool_decide_eq_false in H].
Qed.

(** * Local *)
Lemma local_loop_spec fails keys rest i objs0 objs keys' objs' ok : NoDup keys -> rest = drop i keys -> i <= length keys -> (forall k, k ∈ objs <-> k ∈ objs0 /\ k ∉ take i keys) ->
  local_loop fails keys rest i objs = (keys', objs', ok) -> exact keys objs0 keys' objs' /\ (ok = true -> keys' = []).
Proof.
  intros Nd. revert i objs. induction rest as [|k rest IH]; intros i objs Hr Hi Ho E; cbn [local_loop] in E.
  - injection E as <- <- <-. assert (length keys - i = 0) as L by (rewrite <- drop_length, <- Hr; done). rewrite take_ge in Ho by lia. split; [|done]. split; [split|].
    + by intros k ?%elem_of_nil.
    + intros k Hk _. rewrite Ho. tauto.
    + intros k Hk. rewrite Ho. tauto.
    + by intros k ?%elem_of_nil.
  - destruct (fails i).
    + injection E as <- <- <-. split; [|done]. rewrite <- (take_drop i keys) in Nd. apply NoDup_app in Nd as (_ & Nd & _). assert (forall k, k ∈ keys <-> k ∈ take i keys \/ k ∈ drop i keys) as Hk by (intros x; rewrite <- elem_of_app, take_drop; done).
      split; [split|].
      * intros x Hx. apply Hk. by right.
      * intros x Hx N. rewrite Ho. apply Hk in Hx. tauto.
      * intros x Hx. rewrite Ho. rewrite Hk in Hx. tauto.
      * intros x Hx. rewrite Ho. split; [tauto|]. intros H. split; [done|]. intros Q. by apply (Nd x).
    + assert (keys !! i = Some k) as Hki by (rewrite <- (Nat.add_0_r i), <- lookup_drop, <- Hr; done). apply IH in E; [done| | |].
      * rewrite <- (Nat.add_1_r i), <- drop_drop, <- Hr. by rewrite skipn_cons, drop_0.
      * apply lookup_lt_Some in Hki. lia.
      * intros x. rewrite elem_of_difference, elem_of_singleton, Ho, (take_S_r _ _ _ Hki), elem_of_app, elem_of_list_singleton. tauto.
Qed.
Theorem local_exact fails keys objs keys' objs' ok : NoDup keys -> local_delete fails keys objs = (keys', objs', ok) -> exact keys objs keys' objs' /\ (ok = true -> keys' = []).
Proof. intros Nd E. apply (local_loop_spec fails keys keys 0 objs objs); [done|by rewrite drop_0|lia| |done]. intros k. cbn. set_solver. Qed.
Example local_case : exists o, Some (local_delete (fun i => bool_decide (i = 2)) [5; 6; 7; 8] {[5; 6; 7; 8; 9]}) = Some ([7; 8], o, false) /\ 6 ∉ o.
Proof. apply (gives_spec _ _ _ _ false). vm_compute. reflexivity. Qed.

(** * Parallel deletion *)
Lemma remove_first_perm k l l' : l ≡ₚ k :: l' -> remove_first k l ≡ₚ l'.
Proof.
  revert l'. induction l as [|x l IH]; intros l' H; [by apply Permutation_nil in H|]. cbn [remove_first]. case_decide as D; [subst; by apply (Permutation_cons_inv (a := k))|].
  assert (x ∈ l') as Hx by (assert (x ∈ k :: l') as Q by (rewrite <- H; left); apply elem_of_cons in Q as [?|?]; [congruence|done]). apply elem_of_Permutation in Hx as [m Hm]. rewrite Hm. constructor. apply IH.
  rewrite Hm in H. apply (Permutation_cons_inv (a := x)). rewrite H. apply perm_swap.
Qed.
Definition par_inv keys (objs : gset key) (p : par) : Prop :=
  pkeys p ≡ₚ queue p ++ flight p /\ (forall k, k ∈ pkeys p -> k ∈ keys) /\ (forall k, k ∈ keys -> k ∉ pkeys p -> k ∉ pobjs p) /\ (forall k, k ∉ keys -> k ∈ pobjs p <-> k ∈ objs) /\
  (NoDup keys -> NoDup (pkeys p) /\ forall k, k ∈ queue p -> k ∈ pobjs p <-> k ∈ objs).
Lemma par_step_inv keys objs w p p' : par_inv keys objs p -> par_step w p p' -> par_inv keys objs p'.
Proof.
  intros (P & I1 & I2 & I3 & I4) S. inversion S as [k q f l o Hf E1 E2|k q f l o Hf E1 E2|k q f1 f2 l o E1 E2]; subst; cbn in *.
  - split_and!; [|done..|].
    + cbn. rewrite P. apply Permutation_middle.
    + intros Nd. destruct (I4 Nd) as [A B]. cbn. split; [done|]. intros x Hx. apply B. by right.
  - assert (k ∈ keys) as Hk by (apply I1; rewrite P; apply elem_of_app; by right). split_and!; cbn; [done|done| | |].
    + intros x Hx N. rewrite elem_of_difference. intros [Q _]. by apply (I2 x).
    + intros x Hx. rewrite elem_of_difference, elem_of_singleton, I3 by done. split; [tauto|]. intros H. split; [done|]. by intros ->.
    + intros Nd. destruct (I4 Nd) as [A B]. split; [done|]. intros x Hx. rewrite elem_of_difference, elem_of_singleton, B by done. split; [tauto|]. intros H. split; [done|]. intros ->.
      rewrite P in A. apply NoDup_app in A as (_ & A & _). by apply (A k).
  - assert (l ≡ₚ k :: (q ++ f1 ++ f2)) as P' by (rewrite P; rewrite !app_assoc; symmetry; apply Permutation_middle). pose proof (remove_first_perm _ _ _ P') as R.
    assert (forall x, x ∈ l <-> x = k \/ x ∈ remove_first k l) as Hl by (intros x; rewrite R, P'; apply elem_of_cons). assert (k ∈ keys) as Hk by (apply I1; rewrite P'; left). split_and!; cbn.
    + done.
    + intros x Hx. apply I1, Hl. by right.
    + intros x Hx N. rewrite elem_of_difference, elem_of_singleton. intros [Q N']. apply (I2 x Hx); [|done]. rewrite Hl. tauto.
    + intros x Hx. rewrite elem_of_difference, elem_of_singleton, I3 by done. split; [tauto|]. intros H. split; [done|]. by intros ->.
    + intros Nd. destruct (I4 Nd) as [A B]. rewrite P' in A. apply NoDup_cons in A as [A1 A2]. rewrite R. split; [done|]. intros x Hx. rewrite elem_of_difference, elem_of_singleton, B by done.
      split; [tauto|]. intros H. split; [done|]. intros ->. apply A1. apply elem_of_app. by left.
Qed.
Lemma par_inv_run keys objs w p : rtc (par_step w) (par_start keys objs) p -> par_inv keys objs p.
Proof.
  intros H. revert H; generalize (eq_refl (par_start keys objs)); generalize (par_start keys objs) at 1 3; intros p0 E0 H; apply (rtc_ind_r (R := par_step w) (fun p => par_inv keys objs p) p0); [subst p0| |done].
  - split_and!; cbn; [by rewrite app_nil_r|done|done|done|done].
  - intros y z _ Hs Hi. by apply (par_step_inv keys objs w y).
Qed.
(** Whatever the workers do: the list has exactly the keys whose deletion was not confirmed. *)
Theorem parallel_sound keys objs w p : rtc (par_step w) (par_start keys objs) p -> sound keys objs (pkeys p) (pobjs p) /\ (par_returns p -> pkeys p = []).
Proof.
  intros H. apply (par_inv_run keys objs) in H as (P & I1 & I2 & I3 & _). split; [by split|]. intros [E1 E2]. rewrite E1, E2 in P. by apply Permutation_nil_r in P.
Qed.
(** After an exception only objects whose deletion was under way can be gone although they are in the list. *)
Theorem parallel_exact keys objs w p : NoDup keys -> rtc (par_step w) (par_start keys objs) p -> forall k, k ∈ pkeys p -> (k ∈ pobjs p <-> k ∈ objs) \/ k ∈ flight p.
Proof.
  intros Nd H k Hk. apply (par_inv_run keys objs) in H as (P & _ & _ & _ & I). rewrite P in Hk. apply elem_of_app in Hk as [Hk|Hk]; [left|by right]. by apply (I Nd).
Qed.
Example parallel_case : exists p, rtc (par_step 2) (par_start [5; 6; 7] {[5; 6; 7]}) p /\ par_raises p /\ pkeys p = [5; 7] /\ 6 ∉ pobjs p.
Proof.
  exists (Par [7] [5] [5; 7] ({[5; 6; 7]} ∖ {[6]})). split_and!; [|done|done|set_solver].
  eapply rtc_l; [apply Take; cbn; lia|]. eapply rtc_l; [apply Take; cbn; lia|]. eapply rtc_l; [apply (Done _ 6 [7] [] [5])|]. cbn. reflexivity.
Qed.

(** * s3c4 *)
(** The server removes what it reports as deleted, and answers for each key; a request without answer may have removed some of the keys. *)
Definition s3_honest (server : nat -> list key -> gset key -> answer) : Prop := forall n batch objs, match server n batch objs with
  | Answer d e => d ++ e.*1 ≡ₚ batch | Broken d _ => forall k, k ∈ d -> k ∈ batch end.
Definition s3_quiet (server : nat -> list key -> gset key -> answer) : Prop := forall n batch objs d t, server n batch objs = Broken d t -> d = [].
Lemma remove_all_perm d l r : l ≡ₚ d ++ r -> exists l', remove_all d l = Some l' /\ l' ≡ₚ r.
Proof.
  revert l. induction d as [|k d IH]; intros l H; cbn [remove_all]; [by exists l|]. rewrite decide_True by (rewrite H; left). apply IH. by apply remove_first_perm.
Qed.
(** An answer with errors that claims to have deleted an object nobody asked to delete: the call fails, and the list is as it was. *)
Theorem s3_unknown_key d k0 c e batch k : k ∈ d -> k ∉ batch -> s3_attempt (Answer d ((k0, c) :: e)) batch = (batch, Raise).
Proof.
  intros Hk N. cbn [s3_attempt]. assert (remove_all d batch = None) as ->; [|done]. revert batch N. induction Hk as [k d|k k' d _ IH]; intros batch N; cbn [remove_all]; [by rewrite decide_False|].
  destruct (decide (k' ∈ batch)) as [H|]; [|done]. apply IH. intros X. apply N. apply elem_of_Permutation in H as [r H]. pose proof (remove_first_perm k' batch r H) as P. rewrite H. right. by rewrite <- P.
Qed.
Lemma sound_trans keys objs keys1 objs1 keys2 objs2 : sound keys objs keys1 objs1 -> sound keys1 objs1 keys2 objs2 -> sound keys objs keys2 objs2.
Proof.
  intros [A1 A2 A3] [B1 B2 B3]. split.
  - auto.
  - intros k Hk N. destruct (decide (k ∈ keys1)); [by apply B2|]. rewrite B3 by done. by apply A2.
  - intros k Hk. rewrite B3; [by apply A3|]. auto.
Qed.
Lemma s3_attempt_sound server n batch objs b o : s3_honest server -> s3_attempt (server n batch objs) batch = (b, o) -> sound batch objs b (s3_effect (server n batch objs) objs) /\
  (NoDup batch -> s3_quiet server -> forall k, k ∈ b -> k ∈ s3_effect (server n batch objs) objs <-> k ∈ objs) /\ (NoDup batch -> NoDup b).
Proof.
  intros Hh E. specialize (Hh n batch objs). destruct (server n batch objs) as [d e|d t] eqn:Es; cbn [s3_attempt s3_effect] in *.
  - destruct e as [|[k0 c] e].
    + injection E as <- <-. rewrite app_nil_r in Hh. split; [split|split].
      * by intros k ?%elem_of_nil.
      * intros k Hk _. rewrite elem_of_difference, elem_of_list_to_set, Hh. tauto.
      * intros k Hk. rewrite elem_of_difference, elem_of_list_to_set, Hh. tauto.
      * by intros _ _ k ?%elem_of_nil.
      * constructor.
    + destruct (remove_all_perm d batch (((k0, c) :: e).*1)) as (l' & El & Pl); [by symmetry|]. rewrite El in E. injection E as <- _.
      assert (forall k, k ∈ batch <-> k ∈ d \/ k ∈ l') as Hb by (intros k; rewrite <- Hh, Pl; apply elem_of_app). split; [split|split].
      * intros k Hk. apply Hb. by right.
      * intros k Hk N. rewrite elem_of_difference, elem_of_list_to_set. apply Hb in Hk. tauto.
      * intros k Hk. rewrite elem_of_difference, elem_of_list_to_set. rewrite Hb in Hk. tauto.
      * intros Nd _ k Hk. rewrite elem_of_difference, elem_of_list_to_set. split; [tauto|]. intros H. split; [done|]. intros Q. rewrite <- Hh, <- Pl in Nd. apply NoDup_app in Nd as (_ & Nd & _). by apply (Nd k).
      * intros Nd. rewrite <- Hh, <- Pl in Nd. by apply NoDup_app in Nd as (_ & _ & Nd).
  - injection E as <- <-. split; [split|split].
    + done.
    + intros k Hk N. done.
    + intros k Hk. rewrite elem_of_difference, elem_of_list_to_set. split; [tauto|]. intros H. split; [done|]. intros Q. by apply Hk, Hh.
    + intros _ Hq k Hk. rewrite (Hq _ _ _ _ _ Es). cbn. set_solver.
    + done.
Qed.
Lemma s3_batch_sound server fuel n batch objs lft objs' ok n' : s3_honest server -> s3_batch server fuel n batch objs = Some (lft, objs', ok, n') -> sound batch objs lft objs' /\
  (NoDup batch -> s3_quiet server -> forall k, k ∈ lft -> k ∈ objs' <-> k ∈ objs) /\ (NoDup batch -> NoDup lft).
Proof.
  intros Hh. revert n batch objs. induction fuel as [|fuel IH]; intros n batch objs E; [done|]. cbn [s3_batch] in E. destruct (s3_attempt _ batch) as [b o] eqn:Ea.
  apply s3_attempt_sound in Ea as (A1 & A2 & A3); [|done]. destruct o; [injection E as <- <- _ _; done| |injection E as <- <- _ _; done].
  apply IH in E as (B1 & B2 & B3). split; [by eapply sound_trans|]. split; [|auto]. intros Nd Hq k Hk. rewrite B2 by auto. apply A2; auto. by apply B1.
Qed.
Lemma chunked_join fuel n l : length l <= fuel -> 0 < n -> concat (chunked fuel n l) = l.
Proof.
  revert l. induction fuel as [|fuel IH]; intros l Hl Hn; [destruct l; [done|cbn in Hl; lia]|]. destruct l as [|x l]; [done|]. cbn [chunked concat]. rewrite IH; [apply take_drop|rewrite drop_length; cbn in *; lia|done].
Qed.
Lemma s3_loop_sound server fuel n batches fl objs keys' objs' ok : s3_honest server -> s3_loop server fuel n batches fl objs = Some (keys', objs', ok) -> ok = true -> NoDup (concat batches) ->
  exists r, keys' = fl ++ r /\ sound (concat batches) objs r objs' /\ (s3_quiet server -> forall k, k ∈ r -> k ∈ objs' <-> k ∈ objs) /\ NoDup r.
Proof.
  intros Hh. revert n fl objs. induction batches as [|b bs IH]; intros n fl objs E -> Nd; cbn [s3_loop] in E.
  - injection E as <- <-. exists []. rewrite app_nil_r. cbn. split_and!; [done| |by intros _ k ?%elem_of_nil|constructor]. split; [done|by intros k ?%elem_of_nil|done].
  - destruct (s3_batch server fuel n b objs) as [[[[lft o1] []] n']|] eqn:Eb; [|done..]. cbn [concat] in *. apply NoDup_app in Nd as (Nd1 & Nd2 & Nd3).
    apply s3_batch_sound in Eb as (A1 & A2 & A3); [|done]. apply IH in E as (r & -> & B1 & B2 & B3); [|done..]. exists (lft ++ r). split_and!.
    + by rewrite app_assoc.
    + destruct A1 as [A11 A12 A13], B1 as [B11 B12 B13]. split.
      * intros k. rewrite !elem_of_app. intros [?|?]; auto.
      * intros k. rewrite !elem_of_app. intros Hk N. destruct (decide (k ∈ concat bs)); [apply B12; tauto|]. rewrite B13 by done. apply A12; tauto.
      * intros k. rewrite !elem_of_app. intros N. rewrite B13 by tauto. apply A13. tauto.
    + intros Hq k. rewrite elem_of_app. destruct A1 as [A11 A12 A13], B1 as [B11 B12 B13]. intros [Hk|Hk].
      * rewrite B13; [by apply A2|]. apply Nd2. auto.
      * rewrite B2 by done. apply A13. intros Q. apply (Nd2 k Q). auto.
    + apply NoDup_app. split_and!; [auto| |done]. intros k Hk Q. apply (Nd2 k); [by apply A1|by apply B1].
Qed.
(** When it returns, the keys that are no longer in the list are gone, and the others are as before unless an answer was lost. *)
Theorem s3_returns server fuel max_keys keys objs keys' objs' : s3_honest server -> 0 < max_keys -> NoDup keys -> s3_delete server fuel max_keys keys objs = Some (keys', objs', true) ->
  sound keys objs keys' objs' /\ (s3_quiet server -> exact keys objs keys' objs').
Proof.
  intros Hh Hm Nd E. unfold s3_delete in E. destruct (s3_loop _ _ _ _ _ _) as [[[f o] []]|] eqn:El; [|done..]. injection E as -> ->. pose proof (chunked_join (length keys) max_keys keys) as C.
  apply s3_loop_sound in El as (r & -> & A & B & _); [|done|done|by rewrite C]. rewrite C in A by (lia || done). cbn. split; [done|]. intros Hq. split; auto.
Qed.
(** After an exception the list is as before, even if objects were deleted. *)
Theorem s3_raises server fuel max_keys keys objs keys' objs' : s3_delete server fuel max_keys keys objs = Some (keys', objs', false) -> keys' = keys.
Proof. unfold s3_delete. destruct (s3_loop _ _ _ _ _ _) as [[[f o] []]|]; intros E; try done. by injection E as <- _. Qed.
Definition all_ok (batch : list key) : answer := Answer batch [].
Definition refuse (c : code) (batch : list key) : answer := Answer [] ((fun k => (k, c)) <$> batch).
Lemma refuse_keys (c : code) (batch : list key) : ((fun k => (k, c)) <$> batch).*1 = batch.
Proof. rewrite <- list_fmap_compose. apply list_fmap_id. Qed.
Theorem s3_exception_refuted : ~ forall server fuel max_keys keys objs keys' objs', s3_honest server -> s3_quiet server -> 0 < max_keys -> NoDup keys ->
  s3_delete server fuel max_keys keys objs = Some (keys', objs', false) -> forall k, k ∈ keys -> k ∈ objs -> k ∈ keys' <-> k ∈ objs'.
Proof.
  intros Q. set (sv := fun n batch (_ : gset key) => if decide (n = 0) then all_ok batch else refuse (Code false) batch).
  assert (s3_honest sv) as Hh by (intros n batch objs; unfold sv; case_decide; cbn; [by rewrite app_nil_r|by rewrite refuse_keys]).
  assert (s3_quiet sv) as Hq by (intros n batch objs d t; unfold sv; case_decide; done).
  destruct (gives_spec (s3_delete sv 3 1 [5; 6] {[5; 6]}) [5; 6] false 5 false) as (o & E & Hn); [vm_compute; reflexivity|].
  apply Hn, (Q sv 3 1 [5; 6] {[5; 6]} _ _ Hh Hq ltac:(lia) ltac:(repeat constructor; set_solver) E 5); set_solver.
Qed.
(** A key that does not exist stays in the list, and hides another error. *)
Theorem s3_missing_refuted : ~ forall server fuel max_keys keys objs keys' objs', s3_honest server -> s3_quiet server -> 0 < max_keys -> NoDup keys ->
  s3_delete server fuel max_keys keys objs = Some (keys', objs', true) -> forall k, k ∈ keys' -> k ∈ objs'.
Proof.
  intros Q. set (sv := fun (n : nat) batch (_ : gset key) => refuse NoSuchKey batch).
  assert (s3_honest sv) as Hh by (intros n batch objs; unfold sv; cbn; by rewrite refuse_keys). assert (s3_quiet sv) as Hq by (intros n batch objs d t; unfold sv; done).
  destruct (gives_spec (s3_delete sv 3 1000 [5] {[6]}) [5] true 5 false) as (o & E & Hn); [vm_compute; reflexivity|].
  apply Hn, (Q sv 3 1000 [5] {[6]} _ _ Hh Hq ltac:(lia) ltac:(repeat constructor; set_solver) E 5). set_solver.
Qed.
Theorem s3_hidden_error_refuted : ~ forall server fuel max_keys keys objs keys' objs', s3_honest server -> s3_quiet server -> 0 < max_keys -> NoDup keys ->
  s3_delete server fuel max_keys keys objs = Some (keys', objs', true) -> forall k, k ∈ keys -> k ∉ objs'.
Proof.
  intros Q. set (sv := fun (n : nat) (batch : list key) (_ : gset key) => Answer [] (imap (fun i k => (k, if decide (i = 0) then NoSuchKey else Code false)) batch)).
  assert (s3_honest sv) as Hh.
  { intros n batch objs. unfold sv. cbn. assert (forall f : nat -> code, (imap (fun i k => (k, f i)) batch).*1 = batch) as Hi by (induction batch as [|k b IH]; intros f; cbn; [done|]; f_equal; apply (IH (fun i => f (S i)))). by rewrite (Hi (fun i => if decide (i = 0) then NoSuchKey else Code false)). }
  assert (s3_quiet sv) as Hq by (intros n batch objs d t; unfold sv; done).
  destruct (gives_spec (s3_delete sv 3 1000 [5; 6] {[6]}) [5; 6] true 6 true) as (o & E & Hn); [vm_compute; reflexivity|].
  refine (Q sv 3 1000 [5; 6] {[6]} _ _ Hh Hq ltac:(lia) ltac:(repeat constructor; set_solver) E 6 _ Hn). set_solver.
Qed.

(** * swift *)
(** The server goes through all keys: what it neither removes nor has an error for is not there. *)
Definition sw_complete (server : nat -> list key -> gset key -> sw_answer) : Prop := forall n batch objs, match server n batch objs with
  | SwAnswer d _ e st _ => (forall k, k ∈ d \/ k ∈ e -> k ∈ batch) /\ (forall k, k ∈ batch -> k ∉ e -> k ∉ objs \/ k ∈ d) /\ (st = 200 -> e = [])
  | SwBroken d _ => forall k, k ∈ d -> k ∈ batch end.
Definition sw_quiet (server : nat -> list key -> gset key -> sw_answer) : Prop := forall n batch objs, match server n batch objs with SwAnswer d _ e _ _ => forall k, k ∈ d -> k ∉ e | SwBroken d _ => d = [] end.
Lemma sw_attempt_sound server n batch objs b o : sw_complete server -> sw_attempt (server n batch objs) batch = (b, o) -> sound batch objs b (sw_effect (server n batch objs) objs) /\
  (sw_quiet server -> forall k, k ∈ b -> k ∈ sw_effect (server n batch objs) objs <-> k ∈ objs) /\ (NoDup batch -> NoDup b) /\ (o = Ok -> b = []).
Proof.
  intros Hh E. specialize (Hh n batch objs). destruct (server n batch objs) as [d m e st t|d t] eqn:Es; cbn [sw_attempt sw_effect] in *.
  - destruct Hh as (H1 & H2 & H3). case_decide as D.
    + injection E as <- <-. assert (e = []) as -> by (destruct D as [?|(_ & ? & _)]; auto). split; [split|split_and!].
      * by intros k ?%elem_of_nil.
      * intros k Hk _. rewrite elem_of_difference, elem_of_list_to_set. destruct (H2 k Hk); [apply not_elem_of_nil|tauto|tauto].
      * intros k Hk. rewrite elem_of_difference, elem_of_list_to_set. split; [tauto|]. intros H. split; [done|]. intros Q. apply Hk, H1. by left.
      * by intros _ k ?%elem_of_nil.
      * constructor.
      * done.
    + injection E as <- Eo. split; [split|split_and!].
      * by intros k [_ Hk]%elem_of_list_filter.
      * intros k Hk N. rewrite elem_of_difference, elem_of_list_to_set. rewrite elem_of_list_filter in N. destruct (H2 k Hk); [tauto..|tauto].
      * intros k Hk. rewrite elem_of_difference, elem_of_list_to_set. split; [tauto|]. intros H. split; [done|]. intros Q. apply Hk, H1. by left.
      * intros Hq k [Hk1 Hk2]%elem_of_list_filter. specialize (Hq n batch objs). rewrite Es in Hq. rewrite elem_of_difference, elem_of_list_to_set. split; [tauto|]. intros H. split; [done|]. intros Q. by apply (Hq k).
      * intros Nd. by apply NoDup_filter.
      * intros ->. by destruct t.
  - injection E as <- Eo. split; [split|split_and!].
    + done.
    + intros k Hk N. done.
    + intros k Hk. rewrite elem_of_difference, elem_of_list_to_set. split; [tauto|]. intros H. split; [done|]. intros Q. by apply Hk, Hh.
    + intros Hq k Hk. specialize (Hq n batch objs). rewrite Es in Hq. rewrite Hq. cbn. set_solver.
    + done.
    + intros ->. by destruct t.
Qed.
Lemma sw_batch_sound server fuel n batch objs lft objs' ok n' : sw_complete server -> sw_batch server fuel n batch objs = Some (lft, objs', ok, n') -> sound batch objs lft objs' /\
  (sw_quiet server -> forall k, k ∈ lft -> k ∈ objs' <-> k ∈ objs) /\ (NoDup batch -> NoDup lft) /\ (ok = true -> lft = []).
Proof.
  intros Hh. revert n batch objs. induction fuel as [|fuel IH]; intros n batch objs E; [done|]. cbn [sw_batch] in E. destruct (sw_attempt _ batch) as [b o] eqn:Ea.
  apply sw_attempt_sound in Ea as (A1 & A2 & A3 & A4); [|done]. destruct o; [injection E as <- <- <- _; by split_and!; auto| |injection E as <- <- <- _; by split_and!; auto].
  apply IH in E as (B1 & B2 & B3 & B4). split; [by eapply sound_trans|]. split_and!; [|auto|done]. intros Hq k Hk. rewrite B2 by auto. apply A2; auto. by apply B1.
Qed.
(** If the server goes through all keys the list is right in any case, and empty when the method returns. *)
Theorem swift_exact server fuel max_deletes keys objs keys' objs' ok : sw_complete server -> NoDup keys -> sw_delete server fuel max_deletes keys objs = Some (keys', objs', ok) ->
  sound keys objs keys' objs' /\ (sw_quiet server -> exact keys objs keys' objs') /\ (ok = true -> keys' = []).
Proof.
  intros Hh Nd. unfold sw_delete. generalize (length keys). intros rounds. generalize 0. intros n E.
  assert (sound keys objs keys' objs' /\ (sw_quiet server -> forall k, k ∈ keys' -> k ∈ objs' <-> k ∈ objs) /\ (ok = true -> keys' = [])) as (A & B & C); [|split_and!; [done| |done]; intros Hq; split; auto].
  revert rounds n keys Nd objs E. induction rounds as [|rounds IH]; intros n keys Nd objs E.
  { destruct keys as [|k keys]; cbn in E; [|done]. injection E as <- <- <-. split_and!; [split; done| |done]. by intros _ k ?%elem_of_nil. }
  destruct keys as [|k0 keys0]; cbn [sw_loop] in E.
  { injection E as <- <- <-. split_and!; [split; done| |done]. by intros _ k ?%elem_of_nil. }
  set (keys := k0 :: keys0) in *. destruct (sw_batch _ _ _ _ _) as [[[[lft o1] ok1] n']|] eqn:Eb; [|done]. apply sw_batch_sound in Eb as (A1 & A2 & A3 & A4); [|done].
  rewrite <- (take_drop max_deletes keys) in Nd. pose proof Nd as Nd0. apply NoDup_app in Nd as (Nd1 & Nd2 & Nd3). specialize (A3 Nd1).
  assert (forall k, k ∈ keys <-> k ∈ take max_deletes keys \/ k ∈ drop max_deletes keys) as Hk by (intros x; rewrite <- elem_of_app, take_drop; done).
  assert (sound keys objs (lft ++ drop max_deletes keys) o1) as S1.
  { destruct A1 as [A11 A12 A13]. split.
    - intros k. rewrite elem_of_app, Hk. intros [?|?]; auto.
    - intros k. rewrite Hk, elem_of_app. intros [H|H] N; [apply A12; tauto|tauto].
    - intros k. rewrite Hk. intros N. apply A13. tauto. }
  assert (sw_quiet server -> forall k, k ∈ lft ++ drop max_deletes keys -> k ∈ o1 <-> k ∈ objs) as S2.
  { intros Hq k. rewrite elem_of_app. intros [H|H]; [by apply A2|]. apply A1. intros Q. by apply (Nd2 k). }
  assert (NoDup (lft ++ drop max_deletes keys)) as S3.
  { apply NoDup_app. split_and!; [done| |done]. intros k Hl Hd. apply (Nd2 k); [by apply A1|done]. }
  destruct ok1.
  - apply IH in E as (B1 & B2 & B3); [|done]. split; [by eapply sound_trans|]. split; [|done]. intros Hq k Hl. rewrite B2 by done. apply S2; [done|]. by apply B1.
  - injection E as <- <- <-. split_and!; done.
Qed.
(** A server that stops half-way (expired authorization: 401, with the key in question as error) makes keys disappear from the list, and after
    the retry the method returns as if all were deleted. *)
Theorem swift_abort_refuted : ~ forall server fuel max_deletes keys objs keys' objs', NoDup keys -> sw_delete server fuel max_deletes keys objs = Some (keys', objs', true) -> forall k, k ∈ keys -> k ∉ objs'.
Proof.
  intros Q. set (sv := fun (n : nat) (batch : list key) (_ : gset key) => if decide (n = 0) then SwAnswer [] 0 (take 1 batch) 401 true else SwAnswer batch 0 [] 200 false).
  destruct (gives_spec (sw_delete sv 3 1000 [5; 6] {[5; 6]}) [] true 6 true) as (o & E & Hn); [vm_compute; reflexivity|].
  apply (Q sv 3 1000 [5; 6] {[5; 6]} [] o) with (k := 6); [|exact E|right; left|exact Hn]. apply NoDup_cons. split; [by intros [=]%elem_of_list_singleton|apply NoDup_singleton].
Qed.
(** Two batches, an error in the second *)
Example swift_case : let sv := fun n (batch : list key) (_ : gset key) => if decide (n = 0) then SwAnswer batch 0 [] 200 false else SwAnswer (drop 1 batch) 0 (take 1 batch) 403 false in
  exists o, sw_delete sv 3 2 [5; 6; 7; 8] {[5; 6; 7; 8]} = Some ([7], o, false) /\ 8 ∉ o.
Proof. intros sv. apply (gives_spec _ _ _ _ false). vm_compute. reflexivity. Qed.
(** Two requests of s3c4, an error in a later key of the second *)
Example s3_case : let sv := fun n (batch : list key) (_ : gset key) => if decide (n = 0) then all_ok batch else Answer (drop 1 batch) ((fun k => (k, NoSuchKey)) <$> take 1 batch) in
  exists o, s3_delete sv 3 2 [5; 6; 7; 8] {[5; 6; 8]} = Some ([7], o, true) /\ 8 ∉ o.
Proof. intros sv. apply (gives_spec _ _ _ _ false). vm_compute. reflexivity. Qed.
Print Assumptions local_exact. Print Assumptions parallel_sound. Print Assumptions parallel_exact. Print Assumptions s3_returns. Print Assumptions s3_raises. Print Assumptions s3_exception_refuted.
Print Assumptions s3_missing_refuted. Print Assumptions s3_hidden_error_refuted. Print Assumptions swift_exact. Print Assumptions swift_abort_refuted.
Print Assumptions s3_unknown_key.
