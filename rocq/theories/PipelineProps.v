(** Parallel pipelines (C45). *)
From stdpp Require Import prelude.
From Verif Require Import PipelineModel.

Section props.
Context {A : Type} (n b : nat).
Local Notation reachable := (reachable (A := A) n b).
Local Notation step := (step (A := A) b).
Definition item (x : worker A) : option A := match x with Busy x => Some x | _ => None end.
Lemma insert_split {B} (l : list B) i x : l !! i = Some x -> exists l1 l2, l = l1 ++ x :: l2 /\ forall y, <[i := y]> l = l1 ++ y :: l2.
Proof.
  intros H. exists (take i l), (drop (S i) l). split; [symmetry; by apply take_drop_middle|]. intros y. apply insert_take_drop. by eapply lookup_lt_Some.
Qed.
Lemma perm_fin {B} (l1 l2 f l : list B) x : (l1 ++ x :: l2) ++ f ++ l ≡ₚ (l1 ++ l2) ++ (f ++ [x]) ++ l.
Proof. rewrite <- (Permutation_middle l1), <- (app_assoc f). cbn. rewrite <- (Permutation_middle f), <- Permutation_middle. done. Qed.
Lemma perm_lost {B} (l1 l2 f l : list B) x : (l1 ++ x :: l2) ++ f ++ l ≡ₚ (l1 ++ l2) ++ f ++ l ++ [x].
Proof. rewrite (Permutation_app_comm l [x]), <- (Permutation_middle l1). cbn. rewrite <- (Permutation_middle f), <- Permutation_middle. done. Qed.
Record inv (sized : bool) (jobs : list A) (s : state A) : Prop := Inv {
  i_order : started s ++ queue s ++ todo s = jobs;
  i_started : started s ≡ₚ omap item (workers s) ++ finished s ++ lost s;
  i_lost : failing s = false -> lost s = [];
  i_queue : length (queue s) <= S b;
  i_closed : closed s = true -> failing s = false -> todo s = [];
  i_ended : failing s = false -> Ended ∈ workers s -> queue s = [] /\ closed s = true;
  i_none : failing s = false -> workers s = [] -> queue s = [];
  i_workers : length (workers s) <= n;
  i_result : forall r, result s = Some r -> closed s = true /\ forallb ended (workers s) = true /\ r = negb (failing s) }.
Lemma inv_step sized jobs s e s' : inv sized jobs s -> step e s = Some s' -> inv sized jobs s'.
Proof.
  intros [H1 H2 H3 H4 H5 H6 H7 H8 H9]. unfold PipelineModel.step. destruct (running s) eqn:Hrun; [|done]. unfold running in Hrun. destruct (result s) eqn:Hres; [done|].
  destruct e as [| |w|w|w|w| |w|].
  - destruct (closed s || failing s) eqn:E; [done|]. apply orb_false_iff in E as [Ec Ef]. destruct (todo s) as [|x l] eqn:Et; [done|]. destruct (forallb ended (workers s)) eqn:Ew.
    + intros [= <-]. constructor; cbn; rewrite ?Hres; try done. by rewrite Et.
    + case_decide as D; [|done]. intros [= <-]. constructor; cbn; rewrite ?Hres; try done.
      * by rewrite <- app_assoc.
      * rewrite app_length. cbn. lia.
      * congruence.
      * intros _ Hin. destruct (H6 Ef Hin). congruence.
      * intros _ E. by rewrite E in Ew.
  - destruct (closed s) eqn:Ec; [done|]. destruct (failing s) eqn:Ef.
    + intros [= <-]. constructor; cbn; rewrite ?Hres; try done.
    + case_decide as D; [|done]. destruct D as [Dt Dq]. intros [= <-]. constructor; cbn; rewrite ?Hres; try done.
      * intros _ Hin. destruct (H6 eq_refl Hin). done.
  - destruct (failing s) eqn:Ef; [done|]. destruct (workers s !! w) as [[]|] eqn:Hw; try done. destruct (queue s) as [|x q] eqn:Eq; [done|]. intros [= <-].
    destruct (insert_split _ _ _ Hw) as (l1 & l2 & El & Ei). rewrite Ei. rewrite El in *. constructor; cbn; rewrite ?Hres; try done.
    + rewrite <- H1. by rewrite <- !app_assoc.
    + rewrite omap_app in *. cbn in *. rewrite H2, (Permutation_app_comm _ [x]). cbn. rewrite <- !app_assoc. cbn. apply Permutation_middle.
    + cbn in H4. lia.
    + intros _ Hin. assert (Ended ∈ l1 ++ Idle :: l2) as Hin'. { apply elem_of_app in Hin as [?|Hin]; [apply elem_of_app; by left|]. apply elem_of_cons in Hin as [?|?]; [done|]. apply elem_of_app. right. by right. }
      destruct (H6 eq_refl Hin'). done.
    + intros _ E. by destruct l1.
    + rewrite app_length in *. cbn in *. lia.
  - destruct (workers s !! w) as [[| |]|] eqn:Hw; try done. intros [= <-]. destruct (insert_split _ _ _ Hw) as (l1 & l2 & El & Ei). rewrite Ei. rewrite El in *. constructor; cbn; rewrite ?Hres; try done.
    + rewrite omap_app in *. cbn in *. rewrite H2. apply perm_fin.
    + intros Ef Hin. apply H6; [done|]. apply elem_of_app in Hin as [?|Hin]; [apply elem_of_app; by left|]. apply elem_of_cons in Hin as [?|?]; [done|]. apply elem_of_app. right. by right.
    + intros _ E. by destruct l1.
    + rewrite app_length in *. cbn in *. lia.
  - destruct (workers s !! w) as [[| |]|] eqn:Hw; try done. destruct (queue s) eqn:Eq; [|done]. destruct (closed s) eqn:Ec; [|done]. intros [= <-]. destruct (insert_split _ _ _ Hw) as (l1 & l2 & El & Ei).
    constructor; cbn; rewrite ?Hres, ?Eq, ?Ei, ?Ec; try done.
    + rewrite H2, El, !omap_app. done.
    + rewrite El in H8. rewrite app_length in *. cbn in *. lia.
  - destruct (workers s !! w) as [[| |]|] eqn:Hw; try done. intros [= <-]. destruct (insert_split _ _ _ Hw) as (l1 & l2 & El & Ei). rewrite Ei. rewrite El in *. constructor; cbn; rewrite ?Hres; try done.
    + rewrite omap_app in *. cbn in *. rewrite H2. apply perm_lost.
    + rewrite app_length in *. cbn in *. lia.
  - destruct (closed s) eqn:Ec; [done|]. intros [= <-]. constructor; cbn; rewrite ?Hres, ?Ec; done.
  - destruct (failing s) eqn:Ef; [|done]. destruct (workers s !! w) as [[| |]|] eqn:Hw; try done; intros [= <-]; destruct (insert_split _ _ _ Hw) as (l1 & l2 & El & Ei).
    + constructor; cbn; rewrite ?Hres, ?Ei, ?Ef; try done.
      * rewrite H2, El, !omap_app. done.
      * rewrite El in H8. rewrite app_length in *. cbn in *. lia.
    + rewrite Ei. rewrite El in *. constructor; cbn; rewrite ?Hres; try done.
      * rewrite omap_app in *. cbn in *. rewrite H2. apply perm_lost.
      * rewrite app_length in *. cbn in *. lia.
  - destruct (closed s && forallb ended (workers s)) eqn:E; [|done]. apply andb_true_iff in E as [Ec Ew]. intros [= <-]. constructor; cbn; try done. intros r [= <-]. done.
Qed.
Lemma reachable_inv sized jobs s : reachable sized jobs s -> inv sized jobs s.
Proof.
  induction 1 as [|s e s' _ IH Hs]; [|by eapply inv_step]. constructor; cbn; try done; try lia.
  - induction (if sized then _ else _); [done|]. done.
  - intros _ Hin. apply elem_of_replicate_inv in Hin. done.
  - rewrite replicate_length. destruct sized; lia.
Qed.
(** A pipeline that returns has handled every item exactly once. *)
Theorem every_item_once sized jobs s : reachable sized jobs s -> result s = Some true -> finished s ≡ₚ jobs.
Proof.
  intros Hr Hres. destruct (reachable_inv _ _ _ Hr) as [H1 H2 H3 H4 H5 H6 H7 H8 H9]. destruct (H9 _ Hres) as (Hc & Hw & Hf). symmetry in Hf. apply negb_true_iff in Hf.
  assert (omap item (workers s) = []) as E. { clear -Hw. induction (workers s) as [|x l IH]; [done|]. cbn in *. apply andb_true_iff in Hw as [Hx Hl]. destruct x; try done. by apply IH. }
  assert (queue s = []) as Eq. { destruct (workers s) as [|x l] eqn:Ew; [by apply H7|]. apply H6; [done|]. cbn in Hw. apply andb_true_iff in Hw as [Hx _]. destruct x; try done. left. }
  rewrite E, (H3 Hf), app_nil_r in H2. cbn in H2. rewrite <- H2, <- H1, Eq, (H5 Hc Hf). by rewrite app_nil_r.
Qed.
(** At any time: items are begun in their order, each once; at most [n] are in progress; and at most [n + b + 1] have been produced and not finished. *)
Theorem at_most_once sized jobs s : reachable sized jobs s -> exists rest, busy s ++ finished s ++ lost s ++ queue s ++ rest ≡ₚ jobs.
Proof.
  intros Hr. destruct (reachable_inv _ _ _ Hr) as [H1 H2 _ _ _ _ _ _ _]. exists (todo s). rewrite <- H1, H2. unfold busy. fold item. rewrite <- !app_assoc. done.
Qed.
Theorem in_order sized jobs s : reachable sized jobs s -> started s `prefix_of` jobs.
Proof. intros Hr. destruct (reachable_inv _ _ _ Hr) as [H1 _ _ _ _ _ _ _ _]. rewrite <- H1. by eexists. Qed.
Theorem in_progress_bounded sized jobs s : reachable sized jobs s -> length (busy s) <= n /\ length (queue s) <= S b.
Proof.
  intros Hr. destruct (reachable_inv _ _ _ Hr) as [_ _ _ H4 _ _ _ H8 _]. split; [|done]. etransitivity; [|exact H8]. unfold busy.
  clear. induction (workers s) as [|[] l IH]; cbn; lia.
Qed.
(** A failure of a consumer or of the producer is reported: the pipeline cannot return normally any more. *)
Theorem failure_reported e s s' : step e s = Some s' -> (e = ProducerFails \/ exists w, e = Fail w) -> failing s' = true.
Proof.
  unfold PipelineModel.step. destruct (running s); [|done]. intros H [->|[w ->]].
  - destruct (closed s); [done|]. by injection H as <-.
  - destruct (workers s !! w) as [[]|]; try done. by injection H as <-.
Qed.
Theorem failure_stays e s s' : step e s = Some s' -> failing s = true -> failing s' = true /\ result s' <> Some true.
Proof.
  unfold PipelineModel.step. destruct (running s) eqn:Hr; [|done]. unfold running in Hr. intros H Hf. rewrite Hf in H.
  assert (result s = None) as Hn by (by destruct (result s)).
  destruct e as [| |w|w|w|w| |w|]; cbn in H; repeat case_match; simplify_eq/=; rewrite ?Hn, ?Hf; try done; split; congruence.
Qed.
Lemma workers_cases (l : list (worker A)) : (exists w x, l !! w = Some (Busy x)) \/ (exists w, l !! w = Some Idle) \/ forallb ended l = true.
Proof.
  induction l as [|[|x|] l IH]; [by right; right|by right; left; exists 0|by left; exists 0, x|].
  destruct IH as [(w & x & H)|[(w & H)|H]]; [left; by exists (S w), x|right; left; by exists (S w)|by right; right].
Qed.
(** It is not stuck: as long as it has not returned, something can happen. *)
Theorem pipeline_proceeds sized jobs s : reachable sized jobs s -> result s = None -> exists e, is_Some (step e s).
Proof.
  intros Hr Hn. destruct (reachable_inv _ _ _ Hr) as [H1 H2 H3 H4 H5 H6 H7 H8 H9]. unfold PipelineModel.step, running. rewrite Hn.
  destruct (workers_cases (workers s)) as [(w & x & Hw)|[(w & Hw)|Ew]]. { exists (Finish w). rewrite Hw. by eexists. }
  - destruct (failing s) eqn:Ef. { exists (Cancel w). rewrite Hw. by eexists. }
    destruct (queue s) as [|x q] eqn:Eq; [|exists (Recv w); rewrite Hw; by eexists].
    destruct (closed s) eqn:Ec; [exists (End w); rewrite Hw; by eexists|]. destruct (todo s) as [|x l] eqn:Et.
    + exists CloseSend. rewrite decide_True; [by eexists|]. split; [done|]. cbn. lia.
    + exists Send. cbn. destruct (forallb ended (workers s)); [by eexists|]. by eexists.
  - destruct (closed s) eqn:Ec; [exists Return; cbn; rewrite ?Ew; by eexists|]. destruct (failing s) eqn:Ef; [exists CloseSend; by eexists|].
    destruct (todo s) as [|x l] eqn:Et; [|exists Send; cbn; rewrite ?Ew; by eexists]. exists CloseSend. rewrite decide_True; [by eexists|]. split; [done|].
    destruct (workers s) as [|y l] eqn:E; [rewrite H7 by done; cbn; lia|]. cbn in Ew. apply andb_true_iff in Ew as [Ey _]. destruct y; try done. destruct (H6 eq_refl ltac:(left)) as [-> _]. cbn. lia.
Qed.
(** It ends: every step but a repeated failure of the producer decreases a number. *)
Definition cost (x : worker A) : nat := match x with Busy _ => 2 | Idle => 1 | Ended => 0 end.
Fixpoint costs (l : list (worker A)) : nat := match l with [] => 0 | x :: l => cost x + costs l end.
Definition weight (s : state A) : nat :=
  4 * length (todo s) + 3 * length (queue s) + costs (workers s) +
  (if closed s then 0 else 1) + (if failing s then 0 else 1) + (match result s with None => 1 | Some _ => 0 end).
Lemma costs_insert (l : list (worker A)) w x y : l !! w = Some x -> costs (<[w := y]> l) + cost x = costs l + cost y.
Proof.
  revert w. induction l as [|z l IH]; intros [|w] Hw; [done..| |].
  - injection Hw as ->. change (cost y + costs l + cost x = cost x + costs l + cost y). lia.
  - specialize (IH w Hw). change (cost z + costs (<[w := y]> l) + cost x = cost z + costs l + cost y). lia.
Qed.
Theorem pipeline_ends e s s' : step e s = Some s' -> (e = ProducerFails -> failing s = false) -> weight s' < weight s.
Proof.
  unfold PipelineModel.step, weight. destruct (running s) eqn:Hr; [|done]. unfold running in Hr. destruct (result s) eqn:Hn; [done|]. intros H Hp.
  destruct e as [| |w|w|w|w| |w|].
  all: try (destruct (workers s !! w) as [x0|] eqn:Hw; [|by repeat case_match]; pose proof (fun y => costs_insert (workers s) w x0 y Hw) as Hy).
  all: destruct (closed s) eqn:Ec, (failing s) eqn:Ef; cbn in H; try done.
  all: try (by discriminate (Hp eq_refl)).
  all: try (destruct (todo s) as [|y l] eqn:Et; cbn in H; try done).
  all: try (destruct (queue s) as [|z q] eqn:Eq; cbn in H; try done).
  all: try (destruct x0; cbn in H; try done).
  all: try (destruct (forallb ended (workers s)) eqn:Ew; cbn in H; try done).
  all: try (case_decide; try done).
  all: injection H as <-; cbn [todo queue workers closed failing result set_worker set_failing]; rewrite ?Hn, ?Et, ?Eq, ?Ec, ?Ef, ?app_length; cbn [length].
  all: try (specialize (Hy Idle) as Hy1; specialize (Hy Ended) as Hy2; try (specialize (Hy (Busy z)) as Hy3); cbn in Hy1, Hy2; try (cbn in Hy3)); try lia.
  rewrite app_length. cbn. lia.
Qed.
End props.

(** Three items, two workers, no buffer: a run to the end, and one in which the second item fails. *)
Definition run (es : list event) (s : state nat) : option (state nat) := foldl (fun o e => o ≫= step 0 e) (Some s) es.
Lemma run_reachable n sized jobs es s0 s : reachable n 0 sized jobs s0 -> run es s0 = Some s -> reachable n 0 sized jobs s.
Proof.
  unfold run. revert s0. induction es as [|e es IH]; cbn; intros s0 H0 H. { by injection H as <-. }
  destruct (step 0 e s0) as [s1|] eqn:E; [|exfalso; clear -H; by induction es]. eapply IH; [|exact H]. by eapply reach_step.
Qed.
Example pipeline_run : exists s, reachable 2 0 true [7; 8; 9] s /\ result s = Some true /\ finished s = [8; 7; 9].
Proof.
  eexists. split; [|split].
  - eapply (run_reachable 2 true [7; 8; 9] [Send; Recv 0; Send; Recv 1; Finish 1; Send; Recv 1; CloseSend; Finish 0; Finish 1; End 0; End 1; Return]); [apply reach_init|]. vm_compute. reflexivity.
  - reflexivity.
  - reflexivity.
Qed.
Example pipeline_fails : exists s, reachable 2 0 true [7; 8; 9] s /\ result s = Some false /\ finished s = [7] /\ lost s = [8] /\ todo s = [9].
Proof.
  eexists. split; [|split; [|split; [|split]]].
  - eapply (run_reachable 2 true [7; 8; 9] [Send; Recv 0; Send; Recv 1; Fail 1; Finish 0; CloseSend; Cancel 0; Return]); [apply reach_init|]. vm_compute. reflexivity.
  - reflexivity.
  - reflexivity.
  - reflexivity.
  - reflexivity.
Qed.
Print Assumptions every_item_once.
Print Assumptions at_most_once.
Print Assumptions in_order.
Print Assumptions in_progress_bounded.
Print Assumptions failure_stays.
Print Assumptions pipeline_proceeds.
Print Assumptions pipeline_ends.
