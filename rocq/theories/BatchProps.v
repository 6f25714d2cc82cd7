(** Batching neither loses nor duplicates (C52). *)
From stdpp Require Import prelude.
From Coq Require Import ZArith.
From Verif Require Import BatchModel.
Local Open Scope Z_scope.

(** * split_by_n *)
(** The batches are not empty and not longer than [n], all but the last have [n] elements, and together they are the sequence. *)
Fixpoint full {A} (n : nat) (bs : list (list A)) : Prop :=
  match bs with [] => True | [b] => (0 < length b <= n)%nat | b :: bs => length b = n /\ full n bs end.
Theorem split_exact {A} n (l : list A) bs : (0 < n)%nat -> yields n l bs -> concat bs = l /\ full n bs.
Proof.
  intros Hn H. induction H as [|l bs Hl H [IH1 IH2]]; [done|]. split; [cbn; by rewrite IH1, take_drop|].
  cbn [full]. destruct bs as [|b bs].
  - inversion H as [E|]; subst. rewrite take_length. destruct l; [done|]. cbn [length]. lia.
  - split; [|done]. inversion H as [|? ? Hne]; subst. rewrite take_length.
    assert (length (drop n l) <> 0)%nat as Hd by (by destruct (drop n l)). rewrite drop_length in Hd. lia.
Qed.
Theorem split_ends {A} n (l : list A) : (0 < n)%nat -> exists bs, yields n l bs.
Proof.
  intros Hn. enough (forall k l, (length l <= k)%nat -> exists bs : list (list A), yields n l bs) as H by (by apply (H (length l))).
  clear l. induction k as [|k IH]; intros [|x l] Hk; cbn in Hk; try lia; try (exists []; constructor).
  destruct (IH (drop n (x :: l))) as [bs Hbs]; [rewrite drop_length; cbn; lia|]. eexists. by constructor.
Qed.
Theorem split_deterministic {A} n (l : list A) bs bs' : yields n l bs -> yields n l bs' -> bs = bs'.
Proof. intros H. revert bs'. induction H; inversion 1; subst; try done. f_equal. auto. Qed.
(** With [n = 0] the loop does not end: it yields empty batches for ever. *)
Theorem split_zero_refuted {A} (l : list A) : l <> [] -> ~ (exists bs, yields 0 l bs) /\ forall k, batches k 0 l = replicate k [].
Proof.
  intros Hl. split.
  - intros [bs H]. induction H as [|l bs ? H IH]; [done|]. by apply IH.
  - intros k. induction k as [|k IH]; [done|]. cbn. destruct l; [done|]. f_equal. exact IH.
Qed.
Example split_example : yields 4 [1; 2; 3; 4; 5; 6; 7; 8; 9] [[1; 2; 3; 4]; [5; 6; 7; 8]; [9]].
Proof.
  apply (yields_next 4 [1; 2; 3; 4; 5; 6; 7; 8; 9]); [done|]. apply (yields_next 4 [5; 6; 7; 8; 9]); [done|]. apply (yields_next 4 [9]); [done|]. constructor.
Qed.

(** * Transactions *)
(** The work that has been committed, if every transaction was ended and none was begun within another. *)
Fixpoint committed {W} (open : option (list W)) (l : list (stmt W)) : option (list W) :=
  match l, open with
  | [], None => Some []
  | Begin :: l, None => committed (Some []) l
  | Work w :: l, Some ws => committed (Some (ws ++ [w])) l
  | Commit :: l, Some ws => (fun r => ws ++ r) <$> committed None l
  | Checkpoint :: l, None => committed None l
  | _, _ => None
  end.
(** What the body has done before it was left. *)
Fixpoint executed {W} (quot : Z -> Z -> option Z) (l : list (action W)) : list W :=
  match l with
  | [] | Raise :: _ => []
  | Do w :: l => w :: executed quot l
  | Next p dt f :: l => if f then [] else match quot p dt with Some _ => executed quot l | None => [] end
  end.
(** [pending o l]: the state after the statements [l]. *)
Fixpoint pending {W} (open : option (list W)) (l : list (stmt W)) : option (list W * option (list W)) :=
  match l, open with
  | [], _ => Some ([], open)
  | Begin :: l, None => pending (Some []) l
  | Work w :: l, Some ws => pending (Some (ws ++ [w])) l
  | Commit :: l, Some ws => (fun r => (ws ++ r.1, r.2)) <$> pending None l
  | Checkpoint :: l, None => pending None l
  | _, _ => None
  end.
Lemma pending_app {W} (l l' : list (stmt W)) o ws o' : pending o l = Some (ws, o') -> pending o (l ++ l') = (fun r => (ws ++ r.1, r.2)) <$> pending o' l'.
Proof.
  revert o ws. induction l as [|x l IH]; intros o ws H; cbn in H.
  - injection H as <- <-. cbn. by destruct (pending o l') as [[]|].
  - destruct x, o as [ws'|]; try done; cbn.
    + by apply IH.
    + destruct (pending None l) as [[r p]|] eqn:E; [|done]. injection H as <- <-. rewrite (IH None r E). destruct (pending _ l') as [[]|]; [|done]. cbn. by rewrite app_assoc.
    + by apply IH.
    + by apply IH.
Qed.
Lemma pending_committed {W} (l : list (stmt W)) o ws : pending o l = Some (ws, None) -> committed o l = Some ws.
Proof.
  revert o ws. induction l as [|x l IH]; intros o ws H; cbn in H; [by injection H as <- ->|]. destruct x, o as [ws'|]; try done; cbn; try by apply IH.
  destruct (pending None l) as [[r p]|] eqn:E; [|done]. cbn in H. injection H as <- ->. by rewrite (IH None r E).
Qed.
(** However the block is left: no transaction stays open, and everything that was done is committed, in order. *)
Theorem everything_committed {W} quot (l : list (action W)) :
  in_tx (run quot l).1 = false /\ committed None (log (run quot l).1) = Some (executed quot l).
Proof.
  enough (forall (m : mgr W) ws o, pending None (log m) = Some (ws, Some o) -> in_tx m = true ->
    in_tx (aexit (body quot l m).1) = false /\ pending None (log (aexit (body quot l m).1)) = Some (ws ++ o ++ executed quot l, None)) as H.
  { unfold run. specialize (H (start_batch init) ([] : list W) [] eq_refl eq_refl). destruct (body quot l (start_batch init)). cbn in *. destruct H as [? H]. split; [done|]. by apply pending_committed in H. }
  assert (forall (m : mgr W) ws o, pending None (log m) = Some (ws, Some o) -> in_tx m = true -> in_tx (aexit m) = false /\ pending None (log (aexit m)) = Some (ws ++ o ++ ([] : list W), None)) as Hend.
  { intros m ws o Hp Hi. unfold aexit. rewrite Hi. split; [done|]. cbn. rewrite (pending_app _ _ _ _ _ Hp). done. }
  induction l as [|[w|p dt f|] l IH]; intros m ws o Hp Hi; cbn; [by apply Hend| | |by apply Hend].
  - replace (ws ++ o ++ w :: executed quot l) with (ws ++ (o ++ [w]) ++ executed quot l) by (by rewrite <- app_assoc). apply IH; [|done].
    cbn. rewrite (pending_app _ _ _ _ _ Hp). cbn. by rewrite app_nil_r.
  - unfold finish_batch. rewrite Hi. assert (pending None (log m ++ [Commit]) = Some (ws ++ o, None)) as Hc by (rewrite (pending_app _ _ _ _ _ Hp); cbn; by rewrite app_nil_r).
    assert (pending None ((log m ++ [Commit]) ++ [Checkpoint]) = Some (ws ++ o, None)) as Hc' by (rewrite (pending_app _ _ _ _ _ Hc); cbn; by rewrite app_nil_r).
    destruct f; [cbn; by rewrite app_nil_r|]. cbn. destruct (quot p dt) as [q|]; cbn; [|by rewrite app_nil_r].
    replace (ws ++ o ++ executed quot l) with ((ws ++ o) ++ [] ++ executed quot l) by (by rewrite <- app_assoc). apply IH; [|done].
    cbn. rewrite (pending_app _ _ _ _ _ Hc'). cbn. by rewrite app_nil_r.
Qed.
(** A batch has at least 100 elements, however long the one before has taken. *)
Theorem batch_size_bound {W} quot (l : list (action W)) : 100 <= batch_size (run quot l).1.
Proof.
  enough (forall m : mgr W, 100 <= batch_size m -> 100 <= batch_size (body quot l m).1) as H.
  { unfold run. specialize (H (start_batch init)). destruct (body _ _ _) as [m ok]. cbn in *. unfold aexit. destruct (in_tx m); cbn; apply H; done. }
  induction l as [|[w|p dt f|] l IH]; intros m Hm; cbn; try done; [by apply IH|]. unfold finish_batch. destruct (in_tx m); [|done]. destruct f; [done|]. cbn.
  destruct (quot p dt) as [q|]; [|done]. apply IH. cbn. lia.
Qed.
(** If the clock shows the same time at the end of a batch as at its beginning, the division fails and the operation is given up. *)
Theorem still_clock_refuted {W} quot (p : Z) (w : W) : quot p 0 = None -> (run quot [Next p 0 false; Do w]).2 = false /\ executed quot [Next p 0 false; Do w] = [].
Proof. intros H. unfold run. cbn. by rewrite H. Qed.
Example batch_example : log (run (fun p dt => if dt =? 0 then None else Some (p / dt)) [Do 1; Do 2; Next 2 1 false; Do 3; Raise; Do 4]).1 =
  [Begin; Work 1; Work 2; Commit; Checkpoint; Begin; Work 3; Commit].
Proof. done. Qed.

Print Assumptions split_exact.
Print Assumptions split_ends.
Print Assumptions split_deterministic.
Print Assumptions split_zero_refuted.
Print Assumptions everything_committed.
Print Assumptions batch_size_bound.
Print Assumptions still_clock_refuted.
