(** C63: the counter of temporary errors counts those in the window. *)
From stdpp Require Import prelude.
From Coq Require Import ZArith Lia.
From Verif Require Import RetryModel.
Close Scope Q_scope.
Open Scope Z_scope.

(** What happens to a tracker: an error, or a question for the number of errors *)
Inductive op := Register (t : Z) | Count (t : Z).
Definition op_time (o : op) : Z := match o with Register t | Count t => t end.
Definition act (t : tracker) (o : op) : tracker := match o with Register now => register now t | Count now => (get_count now t).2 end.
Definition runs (t : tracker) (l : list op) : tracker := foldl act t l.
(** The times of the errors *)
Definition errors (l : list op) : list Z := omap (fun o => match o with Register t => Some t | Count _ => None end) l.
(** Times do not go backwards. *)
Fixpoint ordered (from : Z) (l : list op) : Prop := match l with [] => True | o :: l => from <= op_time o /\ ordered (op_time o) l end.
Definition latest (from : Z) (l : list op) : Z := foldl (fun _ o => op_time o) from l.

Definition at_ (ev : list Z) (s : Z) : nat := length (filter (fun t => t = s) ev).
Lemma slot_lt n t : (0 < n)%nat -> (slot n t < n)%nat.
Proof. intros H. unfold slot. pose proof (Z.mod_pos_bound t (Z.of_nat n)). lia. Qed.
Lemma slot_inj n now s s' : (0 < n)%nat -> now - Z.of_nat n < s <= now -> now - Z.of_nat n < s' <= now -> slot n s = slot n s' -> s = s'.
Proof.
  intros Hn H1 H2 E. unfold slot in E. pose proof (Z.mod_pos_bound s (Z.of_nat n)). pose proof (Z.mod_pos_bound s' (Z.of_nat n)). assert (s mod Z.of_nat n = s' mod Z.of_nat n) as E' by lia.
  pose proof (Z.div_mod s (Z.of_nat n)). pose proof (Z.div_mod s' (Z.of_nat n)). assert (s / Z.of_nat n = s' / Z.of_nat n) by nia. lia.
Qed.
Lemma wipe_length i now l : length (wipe i now l) = length l.
Proof. induction i as [|i IH]; cbn; [done|]. by rewrite insert_length. Qed.
(** The wiped seconds are zero, the others as before. *)
Lemma wipe_lookup i now l s : (0 < length l)%nat -> (i <= length l)%nat -> now - Z.of_nat (length l) < s <= now ->
  wipe i now l !! slot (length l) s = if decide (now - Z.of_nat i < s) then Some O else l !! slot (length l) s.
Proof.
  intros Hl. induction i as [|i IH]; intros Hi Hs; cbn [wipe]; [rewrite decide_False by lia; done|]. specialize (IH ltac:(lia) Hs). destruct (decide (s = now - Z.of_nat i)) as [->|N].
  - rewrite decide_True by lia. rewrite list_lookup_insert; [done|]. rewrite wipe_length. by apply slot_lt.
  - rewrite list_lookup_insert_ne; [|intros E; apply N; symmetry; apply (slot_inj (length l) now); [done|lia|lia|done]]. rewrite IH. destruct (decide (now - Z.of_nat i < s)), (decide (now - Z.of_nat (S i) < s)); try done; lia.
Qed.
Definition right_ (n : nat) (ev : list Z) (upto : Z) (t : tracker) : Prop :=
  length (buckets t) = n /\ last_update t <= upto /\ Forall (fun e => e <= last_update t) ev /\
  forall s, upto - Z.of_nat n < s <= upto -> buckets t !! slot n s = Some (at_ ev s).
Lemma at_zero ev b s : Forall (fun e => e <= b) ev -> b < s -> at_ ev s = O.
Proof.
  intros H Hs. unfold at_. induction ev as [|e ev IH]; [done|]. apply Forall_cons in H as [H1 H]. rewrite filter_cons_False by lia. auto.
Qed.
Lemma age_right n ev upto t now : (0 < n)%nat -> right_ n ev upto t -> upto <= now -> length (age now t) = n /\ forall s, now - Z.of_nat n < s <= now -> age now t !! slot n s = Some (at_ ev s).
Proof.
  intros Hn (H1 & H2 & H3 & H4) Hu. unfold age. rewrite wipe_length. split; [done|]. intros s Hs. rewrite <- H1 at 1. rewrite wipe_lookup by lia. rewrite H1. case_decide as D.
  - f_equal. symmetry. apply (at_zero _ _ _ H3). lia.
  - apply H4. lia.
Qed.
Lemma register_right n ev upto t now : (0 < n)%nat -> right_ n ev upto t -> upto <= now -> right_ n (ev ++ [now]) now (register now t).
Proof.
  intros Hn R Hu. pose proof (age_right n ev upto t now Hn R Hu) as [L A]. destruct R as (H1 & H2 & H3 & H4). unfold register. split_and!; cbn [buckets last_update].
  - by rewrite alter_length.
  - lia.
  - apply Forall_app. split; [|by constructor; [lia|]]. eapply Forall_impl; [exact H3|]. cbn. intros. lia.
  - intros s Hs. rewrite L. unfold at_. rewrite filter_app, app_length. destruct (decide (s = now)) as [->|N].
    + rewrite list_lookup_alter, A by lia. rewrite filter_cons_True by done. cbn [fmap option_fmap option_map length]. f_equal. unfold at_. rewrite filter_nil. cbn [length]. lia.
    + rewrite list_lookup_alter_ne; [|intros E; apply N; symmetry; apply (slot_inj n now); [done|lia|lia|done]]. rewrite A by lia. rewrite filter_cons_False by lia. rewrite filter_nil. cbn [length]. f_equal. unfold at_. lia.
Qed.
Lemma count_right n ev upto t now : (0 < n)%nat -> right_ n ev upto t -> upto <= now -> right_ n ev now (get_count now t).2.
Proof.
  intros Hn R Hu. pose proof (age_right n ev upto t now Hn R Hu) as [L A]. destruct R as (H1 & H2 & H3 & H4). unfold get_count. split_and!; cbn [buckets last_update snd]; [done|lia|done|done].
Qed.
Lemma runs_right n l : (0 < n)%nat -> forall ev upto t, right_ n ev upto t -> ordered upto l -> right_ n (ev ++ errors l) (latest upto l) (runs t l).
Proof.
  intros Hn. induction l as [|o l IH]; intros ev upto t R O; [cbn; by rewrite app_nil_r|]. cbn [ordered] in O. destruct O as [O1 O2]. cbn [runs latest foldl].
  destruct o as [now|now]; cbn [op_time errors omap list_omap] in *.
  - rewrite (app_assoc ev [now] (errors l)) || idtac. change (now :: omap (fun o => match o with Register t0 => Some t0 | Count _ => None end) l) with ([now] ++ errors l). rewrite app_assoc. apply (IH (ev ++ [now])); [|done]. cbn [act]. by apply (register_right n ev upto).
  - apply (IH ev); [|done]. cbn [act]. by apply (count_right n ev upto).
Qed.
(** The sum over the slots is the sum over the seconds of the window. *)
Lemma sum_perm (l l' : list nat) : l ≡ₚ l' -> foldr Nat.add O l = foldr Nat.add O l'.
Proof. induction 1; cbn; lia. Qed.
Lemma sum_window n now (l : list nat) (f : Z -> nat) : (0 < n)%nat -> length l = n -> (forall s, now - Z.of_nat n < s <= now -> l !! slot n s = Some (f s)) ->
  foldr Nat.add O l = foldr Nat.add O ((fun j => f (now - Z.of_nat j)) <$> seq 0 n).
Proof.
  intros Hn Hl H. set (sl := (fun j => slot n (now - Z.of_nat j)) <$> seq 0 n).
  assert (NoDup sl) as Nd. { apply NoDup_fmap_2_strong; [|apply NoDup_seq]. intros i j Hi Hj E. apply elem_of_seq in Hi, Hj. apply (slot_inj n now) in E; lia. }
  assert (sl ≡ₚ seq 0 n) as P.
  { apply submseteq_Permutation_length_eq; [unfold sl; by rewrite fmap_length, !seq_length|]. apply NoDup_submseteq; [done|]. intros x Hx. apply elem_of_list_fmap in Hx as (j & -> & _). apply elem_of_seq. pose proof (slot_lt n (now - Z.of_nat j) Hn). lia. }
  assert (l = (fun k => default O (l !! k)) <$> seq 0 n) as E.
  { apply list_eq. intros k. rewrite list_lookup_fmap. destruct (decide (k < n)%nat).
    - rewrite lookup_seq_lt by done. cbn. destruct (lookup_lt_is_Some_2 l k) as [x Hx]; [lia|]. by rewrite Hx.
    - rewrite lookup_ge_None_2 by lia. by rewrite lookup_seq_ge by lia. }
  rewrite E at 1. rewrite <- (sum_perm _ _ (fmap_Permutation _ _ _ P)). unfold sl. rewrite <- list_fmap_compose. f_equal. apply list_fmap_ext. intros k j Hk. apply lookup_seq in Hk as [-> Hk]. cbn.
  rewrite H by lia. done.
Qed.
Lemma sum_at ev now n : foldr Nat.add O ((fun j => at_ ev (now - Z.of_nat j)) <$> seq 0 n) = length (filter (fun e => now - Z.of_nat n < e <= now) ev).
Proof.
  induction n as [|n IH].
  - cbn. induction ev as [|e ev IH]; [done|]. rewrite filter_cons_False by lia. done.
  - rewrite seq_S, fmap_app. assert (forall a b, foldr Nat.add O (a ++ b) = (foldr Nat.add O a + foldr Nat.add O b)%nat) as Ha by (induction a as [|x a IHa]; intros b; cbn; [done|rewrite IHa; lia]).
    rewrite Ha, IH. cbn [fmap list_fmap foldr Nat.add]. rewrite Nat.add_0_r. unfold at_. clear. induction ev as [|e ev IH]; [done|]. rewrite !filter_cons. repeat case_decide; cbn [length]; lia.
Qed.
(** get_count gives the number of errors in the last [n] seconds. *)
Theorem count_exact n start l now : (0 < n)%nat -> ordered start l -> latest start l <= now ->
  (get_count now (runs (new_tracker n start) l)).1 = length (filter (fun e => now - Z.of_nat n < e <= now) (errors l)).
Proof.
  intros Hn O Hl. assert (right_ n [] start (new_tracker n start)) as R0.
  { split_and!; cbn; [by rewrite replicate_length|lia|constructor|]. intros s Hs. apply lookup_replicate_2, slot_lt. done. }
  pose proof (runs_right n l Hn [] start _ R0 O) as R. cbn [app] in R. pose proof (age_right n _ _ _ now Hn R Hl) as [L A]. unfold get_count. cbn [fst]. rewrite <- sum_at. by apply sum_window.
Qed.
(** Errors at 100, 101 and 103 seconds: at 104 seconds a window of three seconds holds one. *)
Example count_case : let l := [Register 100; Count 100; Register 101; Count 102; Register 103] in
  ordered 99 l /\ (get_count 104 (runs (new_tracker 3 99) l)).1 = 1%nat /\ (get_count 103 (runs (new_tracker 3 99) l)).1 = 2%nat.
Proof. cbn. split_and!; try lia; done. Qed.
Print Assumptions count_exact.
