(** The connection pool (C44). *)
From stdpp Require Import prelude gmap.
From Verif Require Import PoolModel PoolProofs.

Section props.
Context {C : Type} (is_idle : C -> bool) (fresh : C) (max : nat).
Local Notation reachable := (reachable is_idle fresh max).
Local Notation step := (step is_idle fresh max).
(** A connection is in the hands of a task. *)
Definition user (s : pool C) (t c : nat) : Prop := tasks s !! t = Some (Using c).
(** No connection has two users, and one that is in use is not offered to others. *)
Theorem not_shared s t t' c : reachable s -> user s t c -> user s t' c -> t = t'.
Proof. intros Hr H1 H2. by eapply (i_inj _ _ _ (reachable_inv _ _ _ s Hr)). Qed.
Theorem not_idle_while_used s t c : reachable s -> user s t c -> c ∉ idle s.
Proof. intros Hr H. by eapply (i_held _ _ _ (reachable_inv _ _ _ s Hr)). Qed.
(** At most [max] connections exist - in use, idle or being closed. *)
Theorem not_overcommitted s : reachable s -> size (conns s) <= max.
Proof. intros Hr. apply (i_max _ _ _ (reachable_inv _ _ _ s Hr)). Qed.
Theorem users_bounded s (l : list (nat * nat)) : reachable s -> NoDup l -> (forall t c, (t, c) ∈ l -> user s t c) -> length l <= max.
Proof.
  intros Hr Hnd Hl. pose proof (reachable_inv _ _ _ s Hr) as HI. pose proof (i_max _ _ _ HI) as Hm. etransitivity; [|exact Hm].
  assert (NoDup l.*2) as Hnd2.
  { clear Hm. induction l as [|[t c] l IH]; [constructor|]. apply NoDup_cons in Hnd as [Hn Hnd]. cbn. apply NoDup_cons. split; [|apply IH; [done|intros; apply Hl; by right]].
    intros Hin. apply elem_of_list_fmap in Hin as ([t' c'] & E & Hin). cbn in E. subst c'. assert (t = t') as ->; [|done].
    eapply (not_shared s); [done|apply Hl; left|apply Hl; by right]. }
  rewrite <- (fmap_length snd l), <- (size_list_to_set (C := gset nat) l.*2 Hnd2), <- (size_dom (D := gset nat)). apply subseteq_size.
  intros c. rewrite elem_of_list_to_set, elem_of_list_fmap, elem_of_dom. intros ([t c'] & -> & Hin). by eapply (i_held _ _ _ HI); [apply Hl|].
Qed.
(** A connection that is handed out is new or idle. *)
Theorem handed_out_idle s t s' c : reachable s -> step (Pop t) s = Some s' -> user s' t c ->
  (c ∈ idle s /\ exists x, conns s !! c = Some x /\ is_idle x = true /\ conns s' !! c = Some x) \/ (conns s !! c = None /\ conns s' !! c = Some fresh).
Proof.
  intros Hr. cbn. unfold user. destruct (tasks s !! t) as [[]|]; try done. destruct (last (idle s)) as [d|] eqn:El.
  - apply last_snoc_inv in El as (l & El & _). cbn. destruct (conns s !! d) as [x|] eqn:Ex; [|done]. intros [= <-]. cbn. rewrite lookup_insert. destruct (is_idle x) eqn:Ei; [|done].
    intros [= <-]. left. split; [rewrite El; apply elem_of_app; right; by left|]. by exists x.
  - intros [= <-]. cbn. rewrite lookup_insert. intros [= <-]. right. split; [|apply lookup_insert]. destruct (conns s !! next s) eqn:E; [|done].
    pose proof (i_next _ _ _ (reachable_inv _ _ _ s Hr) (next s) ltac:(by eexists)). lia.
Qed.
(** No connection is forgotten: it is idle or a task has it; when the pool has been closed and the last borrower has left, none is open. *)
Theorem no_leak s c : reachable s -> is_Some (conns s !! c) -> c ∈ idle s \/ exists t p, tasks s !! t = Some p /\ conn_of p = Some c.
Proof. intros Hr. apply (i_conn _ _ _ (reachable_inv _ _ _ s Hr)). Qed.
Theorem closed_pool_is_empty s : reachable s -> closed s = true -> tasks s = ∅ -> conns s = ∅.
Proof.
  intros Hr Hc Ht. apply map_empty. intros c. destruct (conns s !! c) eqn:E; [|done]. destruct (no_leak s c Hr ltac:(by eexists)) as [Hin|(t & p & H & _)].
  - rewrite (i_closed _ _ _ (reachable_inv _ _ _ s Hr) Hc) in Hin. by apply elem_of_nil in Hin.
  - by rewrite Ht in H.
Qed.
Theorem closed_pool_refuses s t : closed s = true -> step (Get t) s = None.
Proof. intros Hc. cbn. rewrite decide_False; [done|]. intros [_ ?]. congruence. Qed.
(** A borrower that has a token is never stuck, and one that waits gets a token as soon as one is free. *)
Theorem borrower_proceeds s t p : reachable s -> tasks s !! t = Some p ->
  match p with
  | Waiting => count holds (tasks s) < max -> is_Some (step (Acquire t) s)
  | Popping => is_Some (step (Pop t) s)
  | Closing _ => is_Some (step (Closed t) s)
  | Using _ => is_Some (step (Exit t) s)
  | Leaving _ => is_Some (step (Left_ t) s)
  end.
Proof.
  intros Hr Ht. pose proof (reachable_inv _ _ _ s Hr) as HI. destruct p; cbn; rewrite Ht.
  - intros H. rewrite decide_True by done. by eexists.
  - destruct (last (idle s)) as [d|] eqn:El; [|by eexists]. destruct (i_idle _ _ _ HI d) as [x Hx]; [by apply last_Some_elem_of|]. cbn. rewrite Hx. by eexists.
  - by eexists.
  - destruct (i_held _ _ _ HI t _ c Ht eq_refl) as [[x Hx] _]. rewrite Hx. destruct (_ && _); by eexists.
  - by eexists.
Qed.
End props.

(** Three borrowers of a pool for two connections; the first leaves its connection unfinished, the second reuses nothing,
    the third reuses the connection of the second. *)
Fixpoint steps {C} (is_idle : C -> bool) fresh max (l : list (event C)) (s : pool C) : option (pool C) :=
  match l with [] => Some s | e :: l => match step is_idle fresh max e s with Some s => steps is_idle fresh max l s | None => None end end.
Lemma steps_reachable {C} (is_idle : C -> bool) fresh max l s s' : reachable is_idle fresh max s -> steps is_idle fresh max l s = Some s' -> reachable is_idle fresh max s'.
Proof. revert s. induction l as [|e l IH]; intros s Hr; cbn; [by intros [= <-]|]. destruct (step is_idle fresh max e s) eqn:E; [|done]. apply IH. by eapply reach_step. Qed.
Definition story : list (event bool) := [Get 1; Get 2; Get 3; Acquire 1; Acquire 2; Pop 1; Pop 2; Use 1 false; Use 2 true; Exit 1; Exit 2; Acquire 3; Pop 3].
Example pool_story : exists s, steps (fun b => b) false 2 story init = Some s /\ tasks s !! 3 = Some (Using 1) /\ tasks s !! 1 = Some (Leaving 0) /\ size (conns s) = 2.
Proof. eexists. split; [vm_compute; reflexivity|done]. Qed.
Example pool_full : steps (fun b : bool => b) false 2 [Get 1; Get 2; Get 3; Acquire 1; Acquire 2; Acquire 3] init = None.
Proof. done. Qed.

Print Assumptions not_shared.
Print Assumptions not_idle_while_used.
Print Assumptions not_overcommitted.
Print Assumptions users_bounded.
Print Assumptions handed_out_idle.
Print Assumptions no_leak.
Print Assumptions closed_pool_is_empty.
Print Assumptions closed_pool_refuses.
Print Assumptions borrower_proceeds.
