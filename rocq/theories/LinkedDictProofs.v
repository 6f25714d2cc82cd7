(** Consequences of the refinement of LinkedDictAbs. *)
From stdpp Require Import prelude list gmap.
From Verif Require Import LinkedDictModel LinkedDictSpec LinkedDictChain LinkedDictAbs.

Section proofs.
Context {V : Type}.
Implicit Types (is : list (item V)) (l : list (nat * V)).

Lemma NoDup_keys (s : state V) (l : list nat) is fin : R s l is fin -> NoDup (map fst (entries is)).
Proof.
  intros HR.
  assert (forall is' (l' : list nat), Forall2 (rel s) l' is' -> NoDup l' -> NoDup (map fst (entries is'))) as Hnd.
  { clear. intros is' l' HF. induction HF as [|x i l is Hx HF IH]; intros Hnd; simpl; [constructor|].
    apply NoDup_cons in Hnd as [Hn Hnd]. destruct i as [k v|g]; simpl; [|by apply IH].
    constructor; [|by apply IH]. intros ([k' v'] & Hk & Hin)%elem_of_list_fmap. simpl in Hk. subst k'.
    rewrite elem_of_entries in Hin. by eapply rel_key_absent. }
  apply (Hnd is l (r_rel _ _ _ _ HR)).
  pose proof (dl_nodup _ _ (r_dl _ _ _ _ HR)) as Hn. apply NoDup_cons in Hn as [_ Hn]. by apply NoDup_app in Hn as (? & _).
Qed.

(** ** The spec functions on split lists *)
Lemma find_None k l : (forall v, (k, v) ∉ l) -> find k l = None.
Proof.
  induction l as [|[k' v'] l IH]; intros H; simpl; [done|]. destruct (decide (k' = k)) as [->|].
  - destruct (H v'). by left.
  - apply IH. intros v Hv. apply (H v). by right.
Qed.
Lemma find_elem k v l : NoDup (map fst l) -> (k, v) ∈ l -> find k l = Some v.
Proof.
  induction l as [|[k' v'] l IH]; simpl; intros Hnd Hin; [by apply elem_of_nil in Hin|].
  apply NoDup_cons in Hnd as [Hn Hnd]. apply elem_of_cons in Hin as [[= -> ->]|Hin]; [by rewrite decide_True|].
  rewrite decide_False; [by apply IH|]. intros ->. apply Hn. apply elem_of_list_fmap. by exists (k, v).
Qed.
Lemma remove_absent k l : (forall v, (k, v) ∉ l) -> remove k l = l.
Proof.
  unfold remove. induction l as [|[k' v'] l IH]; intros H; [done|].
  rewrite filter_cons_True by (simpl; intros ->; destruct (H v'); by left).
  rewrite IH; [done|]. intros v Hv. apply (H v). by right.
Qed.
Lemma split_absent k v l1 l2 : NoDup (map fst (l1 ++ (k, v) :: l2)) ->
  forall v', (k, v') ∉ l1 /\ (k, v') ∉ l2.
Proof.
  rewrite map_app. simpl. rewrite <- Permutation_middle. intros [Hn _]%NoDup_cons v'.
  rewrite elem_of_app, !elem_of_list_fmap in Hn. split; intros Hin; apply Hn; [left|right]; by exists (k, v').
Qed.
Lemma remove_split k v l1 l2 : NoDup (map fst (l1 ++ (k, v) :: l2)) -> remove k (l1 ++ (k, v) :: l2) = l1 ++ l2.
Proof.
  intros Hnd. pose proof (split_absent _ _ _ _ Hnd) as Ha. unfold remove.
  rewrite filter_app, filter_cons_False by (simpl; intros []; done).
  f_equal; apply remove_absent; intros v'; apply (Ha v').
Qed.
Lemma map_absent k v l : (forall v', (k, v') ∉ l) -> map (fun e => if decide (e.1 = k) then (k, v) else e) l = l.
Proof.
  induction l as [|[k' v'] l IH]; intros H; simpl; [done|].
  rewrite decide_False by (intros ->; destruct (H v'); by left).
  rewrite IH; [done|]. intros v'' Hv. apply (H v''). by right.
Qed.
Lemma update_split k v0 v l1 l2 : NoDup (map fst (l1 ++ (k, v0) :: l2)) ->
  update k v (l1 ++ (k, v0) :: l2) = l1 ++ (k, v) :: l2.
Proof.
  intros Hnd. unfold update. rewrite (find_elem k v0); [|done|apply elem_of_app; right; by left].
  pose proof (split_absent _ _ _ _ Hnd) as Ha.
  rewrite map_app. simpl. rewrite decide_True by done. f_equal; [|f_equal]; apply map_absent; intros v'; apply (Ha v').
Qed.

(** ** One step *)
Lemma next_entries is is0 g : is0 = is \/ Cur g ∉ is /\ is0 = Cur g :: is -> entries is0 = entries is.
Proof. intros [->|[_ ->]]; done. Qed.

Lemma astep_reply is fin o is' fin' a :
  astep is fin o is' fin' a -> NoDup (map fst (entries is)) ->
  reply (entries is) o a /\ entries is' = effect (entries is) o.
Proof.
  intros Hs Hnd.
  assert (forall k v, E k v ∈ is -> find k (entries is) = Some v) as Hin.
  { intros k v H. apply find_elem; [done|]. by apply elem_of_entries. }
  assert (forall k, (forall v, E k v ∉ is) -> find k (entries is) = None) as Hout.
  { intros k H. apply find_None. intros v. rewrite elem_of_entries. apply H. }
  assert (forall k, (forall v, E k v ∉ is) -> remove k (entries is) = entries is) as Hrem.
  { intros k H. apply remove_absent. intros v. rewrite elem_of_entries. apply H. }
  assert (forall i1 k v i2, is = i1 ++ E k v :: i2 -> find k (entries is) = Some v /\
            remove k (entries is) = entries (i1 ++ i2)) as Hsp.
  { intros i1 k v i2 ->. split; [apply Hin, elem_of_app; right; by left|].
    rewrite entries_app in Hnd |- *. simpl in *. rewrite remove_split by done. by rewrite entries_app. }
  destruct Hs; simpl.
  - done.
  - erewrite Hin by done. by rewrite bool_decide_eq_true_2.
  - rewrite Hout by done. rewrite bool_decide_eq_false_2; [done|by intros [? ?]].
  - by erewrite Hin.
  - by rewrite Hout.
  - by erewrite Hin.
  - by rewrite Hout.
  - split; [done|]. subst is. rewrite entries_app in Hnd |- *. simpl in *. rewrite entries_app. simpl.
    by rewrite update_split.
  - split; [done|]. unfold update. rewrite Hout by done. by rewrite entries_app.
  - destruct (Hsp _ _ _ _ H) as [-> ->]. done.
  - rewrite Hout, Hrem by done. done.
  - destruct (Hsp _ _ _ _ H) as [-> ->]. done.
  - rewrite Hout, Hrem by done. done.
  - destruct (Hsp _ _ _ _ H) as [-> ->]. split; [done|]. by rewrite (entries_app _ [_]).
  - rewrite Hout by done. done.
  - split; [by eexists|done].
  - split; [by left|done].
  - apply next_entries in H2. subst is0. rewrite <- H2. rewrite !entries_app. simpl. rewrite !entries_app. simpl.
    split; [|done]. right. exists k, v. split; [done|]. rewrite <- H2 in Hnd.
    rewrite entries_app in Hnd. simpl in Hnd. rewrite entries_app in Hnd. simpl in Hnd.
    apply find_elem; [done|]. rewrite !elem_of_app. right; right. by left.
  - apply next_entries in H2. subst is0. rewrite <- H2. rewrite !entries_app. simpl. split; [by left|done].
  - done.
  - done.
  - split; [done|]. subst is. by rewrite !entries_app.
Qed.

(** ** Runs *)
Lemma run_app (s : state V) os1 os2 :
  run s (os1 ++ os2) = let r1 := run s os1 in let r2 := run r1.1 os2 in (r2.1, r1.2 ++ r2.2).
Proof.
  revert s. induction os1 as [|o os1 IH]; intros s; simpl; [by destruct (run s os2)|].
  destruct (step s o) as [s1 a]. rewrite IH. simpl. destruct (run s1 os1) as [s2 l2]. simpl.
  destruct (run s2 os2). done.
Qed.
Lemma run_cons (s : state V) o os : run s (o :: os) = ((run (step s o).1 os).1, (step s o).2 :: (run (step s o).1 os).2).
Proof. simpl. destruct (step s o) as [s1 a]. simpl. by destruct (run s1 os). Qed.
Lemma run_length (s : state V) os : length (run s os).2 = length os.
Proof. revert s. induction os as [|o os IH]; intros s; [done|]. rewrite run_cons. simpl. by rewrite IH. Qed.

Lemma run_replies (s : state V) (l : list nat) is fin os : R s l is fin ->
  replies (entries is) os (run s os).2 /\
  exists (l' : list nat) is' fin', R (run s os).1 l' is' fin' /\ entries is' = contents (entries is) os.
Proof.
  revert s l is fin. induction os as [|o os IH]; intros s l is fin HR.
  - simpl. split; [done|]. by exists l, is, fin.
  - rewrite run_cons. destruct (step_sim _ _ _ _ o HR) as (l' & is' & fin' & Hs & HR').
    destruct (astep_reply _ _ _ _ _ _ Hs (NoDup_keys _ _ _ _ HR)) as [Hr He].
    destruct (IH _ _ _ _ HR') as (H1 & l2 & is2 & fin2 & HR2 & He2).
    cbn [snd fst replies]. rewrite <- He. split; [done|]. exists l2, is2, fin2. split; [done|].
    rewrite He2. unfold contents. simpl. by rewrite He.
Qed.

Lemma answers_ok os : replies [] os (run (V := V) init os).2.
Proof. apply (run_replies _ _ _ _ os init_R). Qed.

(** ** Iterations *)
Fixpoint passed (g : nat) is : option (list (nat * V)) :=
  match is with
  | [] => None
  | Cur g' :: r => if decide (g' = g) then Some [] else passed g r
  | E k v :: r => (cons (k, v)) <$> passed g r
  end.
Lemma passed_app g i1 i2 : passed g (i1 ++ i2) =
  match passed g i1 with Some x => Some x | None => (app (entries i1)) <$> passed g i2 end.
Proof.
  induction i1 as [|[k v|g'] i1 IH]; simpl.
  - destruct (passed g i2); done.
  - rewrite IH. destruct (passed g i1); simpl; [done|]. destruct (passed g i2); done.
  - rewrite IH. by destruct (decide (g' = g)).
Qed.
Lemma passed_None g is : passed g is = None <-> Cur g ∉ is.
Proof.
  induction is as [|[k v|g'] is IH]; simpl.
  - split; [intros _ H; by apply elem_of_nil in H|done].
  - rewrite fmap_None, IH, elem_of_cons. naive_solver.
  - rewrite elem_of_cons. destruct (decide (g' = g)) as [->|]; [naive_solver|]. rewrite IH. naive_solver.
Qed.
Lemma passed_here g i1 i2 : Cur g ∉ i1 -> passed g (i1 ++ Cur g :: i2) = Some (entries i1).
Proof. intros H. rewrite passed_app, (proj2 (passed_None _ _) H). simpl. rewrite decide_True by done. simpl. by rewrite app_nil_r. Qed.

Definition cnt (k : nat) l : nat := length (filter (fun e => e.1 = k) l).
Lemma cnt_app k l1 l2 : cnt k (l1 ++ l2) = cnt k l1 + cnt k l2.
Proof. unfold cnt. by rewrite filter_app, app_length. Qed.
Lemma cnt_cons k k' v l : cnt k ((k', v) :: l) = (if decide (k' = k) then 1 else 0) + cnt k l.
Proof. unfold cnt. destruct (decide (k' = k)); [by rewrite filter_cons_True|by rewrite filter_cons_False]. Qed.
Lemma cnt_find k l : NoDup (map fst l) -> cnt k l = match find k l with Some _ => 1 | None => 0 end.
Proof.
  induction l as [|[k' v] l IH]; simpl; intros Hnd; [done|]. apply NoDup_cons in Hnd as [Hn Hnd].
  rewrite cnt_cons, IH by done. destruct (decide (k' = k)) as [->|]; [|done].
  rewrite find_None; [done|]. intros v' Hv. apply Hn. apply elem_of_list_fmap. by exists (k, v').
Qed.

(** Number of times the running iteration [g] has passed key [k]. *)
Definition seen (g k : nat) is : nat := match passed g is with Some p => cnt k p | None => 0 end.

Definition yielded (g k : nat) (o : op V) (a : answer V) : nat :=
  match o, a with Next g', AYield k' _ => if decide (g' = g /\ k' = k) then 1 else 0 | _, _ => 0 end.

(** Running iteration: one step of anything but its end. *)
Lemma step_seen (s : state V) (l : list nat) is fin g k o is' fin' :
  R s l is fin -> astep is fin o is' fin' (step s o).2 ->
  g ∉ fin -> stays k o -> o <> Close g -> ~ (o = Next g /\ (step s o).2 = AStop) ->
  g ∉ fin' /\ seen g k is' = seen g k is + yielded g k o (step s o).2.
Proof.
  intros HR Hs Hg Hst Hcl Hnx. revert Hs Hnx. generalize (step s o).2. intros a Hs Hnx.
  destruct Hs; simpl; rewrite ?Nat.add_0_r; try done.
  - split; [done|]. subst is. unfold seen. rewrite !passed_app. destruct (passed g i1) as [p|]; [done|]. simpl.
    destruct (passed g i2) as [p|]; simpl; [|done]. rewrite !cnt_app, !cnt_cons. done.
  - split; [done|]. unfold seen. rewrite passed_app. destruct (passed g is); done.
  - split; [done|]. subst is. simpl in Hst. unfold seen. rewrite !passed_app. destruct (passed g i1) as [p|]; [done|]. simpl.
    destruct (passed g i2) as [p|]; simpl; [|done]. rewrite !cnt_app, !cnt_cons, decide_False by done. done.
  - split; [done|]. subst is. simpl in Hst. unfold seen. rewrite !passed_app. destruct (passed g i1) as [p|]; [done|]. simpl.
    destruct (passed g i2) as [p|]; simpl; [|done]. rewrite !cnt_app, !cnt_cons, decide_False by done. done.
  - split; [done|]. subst is. simpl in Hst. unfold seen. rewrite !passed_app. destruct (passed g i1) as [p|]; [done|]. simpl.
    destruct (passed g i2) as [p|]; simpl; [|done]. rewrite !cnt_app, !cnt_cons, decide_False by done. done.
  - (* yield *)
    split; [done|].
    assert (seen g k is = seen g k is0) as ->.
    { destruct H2 as [->|[Hno ->]]; [done|]. unfold seen. simpl. destruct (decide (g0 = g)) as [->|]; [|done].
      by rewrite (proj2 (passed_None _ _) Hno). }
    subst is0. destruct (decide (g0 = g)) as [->|Hne].
    + assert (Cur g ∉ i1 /\ Cur g ∉ cs) as [Hn1 Hn2].
      { destruct H2 as [H2|[Hno H2]].
        - rewrite <- H2 in HR. pose proof (R_cur_once _ _ _ _ _ _ HR) as Ho. rewrite !elem_of_app in Ho. tauto.
        - destruct i1 as [|i1' i1]; simpl in H2; [injection H2 as H2b|injection H2 as H2a H2b].
          + split; [intros Hx; by apply elem_of_nil in Hx|]. rewrite <- H2b in Hno. rewrite elem_of_app in Hno. tauto.
          + exfalso. apply Hno. rewrite <- H2b. rewrite elem_of_app, elem_of_cons. tauto. }
      unfold seen. rewrite passed_here by done.
      replace (i1 ++ cs ++ E k0 v :: Cur g :: i2) with ((i1 ++ cs ++ [E k0 v]) ++ Cur g :: i2)
        by (by rewrite <- !app_assoc).
      rewrite passed_here.
      2:{ rewrite !elem_of_app, elem_of_list_singleton. naive_solver. }
      rewrite !entries_app, (entries_cursors cs) by done. simpl. rewrite cnt_app, cnt_cons. simpl.
      rewrite Nat.add_0_r. f_equal. destruct (decide (k0 = k)), (decide (g = g /\ k0 = k)); tauto.
    + rewrite (decide_False (P := g0 = g /\ k0 = k)) by tauto. rewrite Nat.add_0_r. unfold seen. f_equal.
      rewrite !passed_app. destruct (passed g i1) as [p|]; [done|]. simpl.
      rewrite !(decide_False (P := g0 = g)) by done. rewrite !passed_app. simpl. done.
  - (* another iteration ends *)
    assert (g0 <> g) as Hne by (intros ->; tauto). split; [set_solver|].
    assert (seen g k is = seen g k is0) as ->.
    { destruct H2 as [->|[Hno ->]]; [done|]. unfold seen. simpl. by rewrite decide_False. }
    subst is0. unfold seen. rewrite !passed_app. simpl. by rewrite decide_False.
  - assert (g0 <> g) as Hne by (intros ->; tauto). split; [set_solver|done].
  - assert (g0 <> g) as Hne by (intros ->; tauto). split; [set_solver|].
    subst is. unfold seen. rewrite !passed_app. simpl. by rewrite decide_False.
Qed.

Lemma yields_cons g k (o : op V) os a ans : yields g k (o :: os) (a :: ans) = yielded g k o a + yields g k os ans.
Proof. destruct o, a; done. Qed.

Lemma run_seen g k (s : state V) (l : list nat) is fin os :
  R s l is fin -> g ∉ fin -> Forall (stays k) os -> Close g ∉ os ->
  (Next g, AStop) ∉ zip os (run s os).2 ->
  exists (l' : list nat) is' fin', R (run s os).1 l' is' fin' /\ entries is' = contents (entries is) os /\ g ∉ fin' /\
    seen g k is' = seen g k is + yields g k os (run s os).2.
Proof.
  revert s l is fin. induction os as [|o os IH]; intros s l is fin HR Hg Hst Hcl Hnx.
  - simpl. exists l, is, fin. rewrite Nat.add_0_r. done.
  - rewrite run_cons in Hnx |- *. cbn [fst snd zip zip_with] in Hnx |- *.
    apply Forall_cons in Hst as [Hs1 Hst]. rewrite elem_of_cons in Hnx. rewrite elem_of_cons in Hcl.
    destruct (step_sim _ _ _ _ o HR) as (l' & is' & fin' & Hs & HR').
    destruct (astep_reply _ _ _ _ _ _ Hs (NoDup_keys _ _ _ _ HR)) as [_ He].
    destruct (step_seen _ _ _ _ g k _ _ _ HR Hs Hg Hs1) as [Hg' Hse].
    { intros ->. tauto. }
    { intros [-> Ha]. rewrite Ha in Hnx. tauto. }
    destruct (IH _ _ _ _ HR' Hg' Hst) as (l2 & is2 & fin2 & HR2 & He2 & Hg2 & Hse2); [tauto|tauto|].
    exists l2, is2, fin2. split; [done|]. split; [rewrite He2; unfold contents; simpl; by rewrite He|].
    split; [done|]. rewrite yields_cons. lia.
Qed.

(** A generator that was never touched. *)
Lemma run_untouched g (s : state V) (l : list nat) is fin os :
  R s l is fin -> g ∉ fin -> Cur g ∉ is -> Next g ∉ os -> Close g ∉ os ->
  exists (l' : list nat) is' fin', R (run s os).1 l' is' fin' /\ entries is' = contents (entries is) os /\ g ∉ fin' /\ Cur g ∉ is'.
Proof.
  revert s l is fin. induction os as [|o os IH]; intros s l is fin HR Hg Hc Hn Hcl.
  - by exists l, is, fin.
  - rewrite run_cons. cbn [fst]. rewrite elem_of_cons in Hn. rewrite elem_of_cons in Hcl.
    destruct (step_sim _ _ _ _ o HR) as (l' & is' & fin' & Hs & HR').
    destruct (astep_reply _ _ _ _ _ _ Hs (NoDup_keys _ _ _ _ HR)) as [_ He].
    assert (g ∉ fin' /\ Cur g ∉ is') as [Hg' Hc'].
    { clear IH HR'. revert Hs He. generalize (step s o).2. intros a Hs He.
      destruct Hs; try done.
      - subst is. rewrite elem_of_app in Hc. rewrite elem_of_cons in Hc. rewrite elem_of_app, elem_of_cons. split; [done|]. intros [?|[[=]|?]]; tauto.
      - rewrite elem_of_app, elem_of_list_singleton. split; [done|]. intros [?|[=]]; tauto.
      - subst is. rewrite elem_of_app in Hc. rewrite elem_of_cons in Hc. rewrite elem_of_app. tauto.
      - subst is. rewrite elem_of_app in Hc. rewrite elem_of_cons in Hc. rewrite elem_of_app. tauto.
      - subst is. rewrite elem_of_app in Hc. rewrite elem_of_cons in Hc. rewrite !elem_of_app, elem_of_list_singleton. split; [done|]. intros [[?|?]|[=]]; tauto.
      - assert (g0 <> g) as Hne by (intros ->; tauto). split; [done|].
        assert (Cur g ∉ is0) as Hc0. { destruct H2 as [->|[_ ->]]; [done|]. rewrite elem_of_cons. intros [[=]|?]; congruence. }
        subst is0. intros Hin. apply Hc0. revert Hin. rewrite !elem_of_app, !elem_of_cons, elem_of_app, elem_of_cons.
        intros [?|[?|[[=]|[?|?]]]]; tauto.
      - assert (g0 <> g) as Hne by (intros ->; tauto). split; [set_solver|].
        assert (Cur g ∉ is0) as Hc0. { destruct H2 as [->|[_ ->]]; [done|]. rewrite elem_of_cons. intros [[=]|?]; congruence. }
        subst is0. intros Hin. apply Hc0. revert Hin. rewrite !elem_of_app, elem_of_cons. tauto.
      - assert (g0 <> g) as Hne by (intros ->; tauto). split; [set_solver|done].
      - assert (g0 <> g) as Hne by (intros ->; tauto). split; [set_solver|].
        subst is. rewrite elem_of_app in Hc. rewrite elem_of_cons in Hc. rewrite elem_of_app. tauto. }
    destruct (IH _ _ _ _ HR' Hg' Hc') as (l2 & is2 & fin2 & HR2 & He2 & H3); [tauto|tauto|].
    exists l2, is2, fin2. split; [done|]. split; [|done]. rewrite He2. unfold contents. simpl. by rewrite He.
Qed.

(** The end of an iteration. *)
Lemma stop_seen (s : state V) (l : list nat) is fin g k :
  R s l is fin -> g ∉ fin -> (step s (Next g)).2 = AStop ->
  seen g k is = match find k (entries is) with Some _ => 1 | None => 0 end.
Proof.
  intros HR Hg Ha. pose proof (NoDup_keys _ _ _ _ HR) as Hnd.
  destruct (step_sim _ _ _ _ (Next g) HR) as (l' & is' & fin' & Hs & HR'). rewrite Ha in Hs.
  inversion Hs as [| | | | | | | | | | | | | | | | | |g0 is0 i1 cs Hn0 Heq0 Hcs Hor| | |]; subst; [done|].
  rewrite <- cnt_find by done. destruct Hor as [<-|[Hno Heq]].
  - pose proof (R_cur_once _ _ _ _ _ _ HR) as Ho. rewrite elem_of_app in Ho.
    unfold seen. rewrite passed_here by tauto. rewrite entries_app. simpl. rewrite (entries_cursors cs) by done.
    by rewrite app_nil_r.
  - unfold seen. rewrite (proj2 (passed_None _ _) Hno).
    destruct i1 as [|i1' i1]; simpl in Heq; [injection Heq as Heq2|injection Heq as Heq1 Heq2].
    + subst is. rewrite entries_cursors by done. done.
    + exfalso. apply Hno. rewrite <- Heq2. rewrite elem_of_app, elem_of_cons. tauto.
Qed.

Lemma iteration_complete_pf (pre mid : list (op V)) (g k : nat) :
  let r := run init (pre ++ mid) in
  let ans := drop (length pre) r.2 in
  Next g ∉ pre -> Close g ∉ pre -> Close g ∉ mid ->
  (Next g, AStop) ∉ zip mid ans -> (step r.1 (Next g)).2 = AStop ->
  Forall (stays k) mid ->
  yields g k mid ans = match find k (contents [] (pre ++ mid)) with Some _ => 1 | None => 0 end.
Proof.
  cbv zeta. rewrite run_app. cbn [fst snd]. rewrite drop_app_alt by (by rewrite run_length).
  intros H1 H2 H3 H4 H5 H6.
  destruct (run_untouched g _ _ _ _ pre (init_R (V := V))) as (l1 & is1 & fin1 & HR1 & He1 & Hg1 & Hc1); [set_solver|apply not_elem_of_nil|done|done|].
  destruct (run_seen g k _ _ _ _ mid HR1 Hg1 H6 H3 H4) as (l2 & is2 & fin2 & HR2 & He2 & Hg2 & Hse).
  rewrite (stop_seen _ _ _ _ g k HR2 Hg2 H5) in Hse.
  unfold seen in Hse at 1. rewrite (proj2 (passed_None _ _) Hc1) in Hse. simpl in Hse. rewrite <- Hse.
  rewrite He2, He1. simpl. unfold contents. by rewrite foldl_app.
Qed.

(** ** No cursor stays behind *)
Lemma run_cursors (s : state V) (l : list nat) is fin os :
  R s l is fin ->
  exists (l' : list nat) is' fin', R (run s os).1 l' is' fin' /\ entries is' = contents (entries is) os /\
    fin ⊆ fin' /\ forall g, (Close g ∈ os \/ (Next g, AStop) ∈ zip os (run s os).2 -> g ∈ fin') /\
    (Cur g ∈ is' -> Cur g ∈ is \/ Next g ∈ os).
Proof.
  revert s l is fin. induction os as [|o os IH]; intros s l is fin HR.
  - exists l, is, fin. split; [done|]. split; [done|]. split; [done|]. intros g. simpl.
    split; [intros [H|H]; by apply elem_of_nil in H|tauto].
  - rewrite run_cons. cbn [fst snd zip zip_with].
    destruct (step_sim _ _ _ _ o HR) as (l' & is' & fin' & Hs & HR').
    destruct (astep_reply _ _ _ _ _ _ Hs (NoDup_keys _ _ _ _ HR)) as [_ He].
    destruct (IH _ _ _ _ HR') as (l2 & is2 & fin2 & HR2 & He2 & Hsub & Hall).
    exists l2, is2, fin2. split; [done|]. split; [rewrite He2; unfold contents; simpl; by rewrite He|].
    assert (fin ⊆ fin' /\ forall g, (o = Close g \/ (o = Next g /\ (step s o).2 = AStop) -> g ∈ fin') /\
            (Cur g ∈ is' -> Cur g ∈ is \/ o = Next g)) as [Hf Hg].
    { clear -Hs. revert Hs. generalize (step s o).2. intros a Hs.
      destruct Hs; (split; [set_solver|]); intros g'; (split; [naive_solver set_solver|]); try tauto; try (subst is).
      - rewrite !elem_of_app, !elem_of_cons. intros [?|[[=]|?]]; tauto.
      - rewrite !elem_of_app, elem_of_list_singleton. intros [?|[=]]; tauto.
      - rewrite !elem_of_app, !elem_of_cons. tauto.
      - rewrite !elem_of_app, !elem_of_cons. tauto.
      - rewrite !elem_of_app, !elem_of_cons, elem_of_nil. intros [?|[[=]|?]]; tauto.
      - destruct (decide (g' = g)) as [->|Hne]; [by right|]. left.
        assert (Cur g' ∈ is0) as Hin.
        { subst is0. revert H3. rewrite !elem_of_app, !elem_of_cons, elem_of_app, elem_of_cons.
          intros [?|[?|[[=]|[?|?]]]]; tauto. }
        destruct H2 as [->|[_ ->]]; [done|]. apply elem_of_cons in Hin as [[=]|?]; done.
      - destruct (decide (g' = g)) as [->|Hne]; [by right|]. left.
        assert (Cur g' ∈ is0) as Hin.
        { subst is0. revert H3. rewrite !elem_of_app, !elem_of_cons. tauto. }
        destruct H2 as [->|[_ ->]]; [done|]. apply elem_of_cons in Hin as [[=]|?]; done.
      - rewrite !elem_of_app, !elem_of_cons. tauto. }
    split; [set_solver|]. intros g. destruct (Hall g) as [Ha1 Ha2]. destruct (Hg g) as [Hg1 Hg2].
    rewrite !elem_of_cons. split.
    + intros [[Heq|Hin]|[Heq|Hin]]; [apply Hsub, Hg1; by left|apply Ha1; by left| |apply Ha1; by right].
      injection Heq as <- Hst. apply Hsub, Hg1. by right.
    + intros Hin. destruct (Ha2 Hin) as [Hin'|Hin']; [|by right; right]. destruct (Hg2 Hin') as [?| ->]; [by left|right; by left].
Qed.

Lemma no_cursor_left_pf (os : list (op V)) :
  let r := run init os in
  (forall g, Next g ∈ os -> Close g ∈ os \/ (Next g, AStop) ∈ zip os r.2) ->
  (step r.1 LinkLen).2 = ANum (length (contents [] os)).
Proof.
  cbv zeta. intros H. destruct (run_cursors _ _ _ _ os (init_R (V := V))) as (l & is & fin & HR & He & _ & Hg).
  destruct (step_sim _ _ _ _ LinkLen HR) as (l' & is' & fin' & Hs & _).
  remember (step (run init os).1 LinkLen).2 as a eqn:Ha. clear Ha.
  inversion Hs; subst.
  f_equal. simpl in He. rewrite <- He.
  assert (forall g, Cur g ∉ is') as Hno.
  { intros g Hin. destruct (Hg g) as [H1 H2]. destruct (H2 Hin) as [Hb|Hb]; [by apply elem_of_nil in Hb|].
    specialize (H1 (H g Hb)). destruct (R_gen _ _ _ _ g HR) as [(_ & _ & ?)|[(? & _)|(? & _)]]; done. }
  clear -Hno. induction is' as [|[k v|g] is IH]; simpl; [done| |].
  - rewrite IH; [done|]. intros g Hin. apply (Hno g). by right.
  - destruct (Hno g). by left.
Qed.

(** ** An undisturbed iteration *)
Lemma quiet_running (s : state V) (l : list nat) i1 g i2 fin :
  R s l (i1 ++ Cur g :: i2) fin -> g ∉ fin ->
  (run s (replicate (S (length (entries i2))) (Next g))).2 = map (fun e => AYield e.1 e.2) (entries i2) ++ [AStop].
Proof.
  remember (entries i2) as es eqn:Hes. revert s l i1 i2 Hes. induction es as [|[k v] es IH]; intros s l i1 i2 Hes HR Hg.
  - destruct (step_sim _ _ _ _ (Next g) HR) as (l' & is' & fin' & Hs & HR').
    cbn [length replicate]. rewrite run_cons. cbn [snd run map app]. f_equal.
    pose proof (R_cur_once _ _ _ _ _ _ HR) as Ho.
    inversion Hs as [| | | | | | | | | | | | | | | | |g0 is0 j1 cs k v j2 Hn0 Heq Hcs Hor| | | |]; subst; try done.
    exfalso. destruct Hor as [Hor|[Hno _]]; [|apply Hno; rewrite elem_of_app, elem_of_cons; tauto].
    assert (j1 = i1 /\ cs ++ E k v :: j2 = i2) as [-> <-].
    { rewrite elem_of_app in Ho. assert (Cur g ∉ j1 ++ cs ++ E k v :: j2) as Ho2.
      { rewrite <- Hor in HR. by apply (R_cur_once _ _ _ _ _ _ HR). }
      rewrite elem_of_app in Ho2. clear -Hor Ho Ho2. revert i1 Hor Ho.
      induction j1 as [|x j1 IH]; intros [|y i1] Hor Ho; simpl in *.
      - by injection Hor as ->.
      - injection Hor as <- Hor. exfalso. apply Ho. left. by left.
      - injection Hor as -> Hor. exfalso. apply Ho2. left. by left.
      - injection Hor as -> Hor. rewrite elem_of_cons in Ho. rewrite elem_of_cons in Ho2.
        destruct (IH ltac:(tauto) i1 Hor ltac:(tauto)) as [-> ->]. done. }
    rewrite entries_app in Hes. simpl in Hes. by destruct (entries cs).
  - destruct (step_sim _ _ _ _ (Next g) HR) as (l' & is' & fin' & Hs & HR').
    cbn [length replicate]. rewrite run_cons. cbn [snd map app].
    pose proof (R_cur_once _ _ _ _ _ _ HR) as Ho.
    assert (forall j1 r, j1 ++ Cur g :: r = i1 ++ Cur g :: i2 -> j1 = i1 /\ r = i2) as Huniq.
    { intros j1 r Hor. rewrite elem_of_app in Ho. assert (Cur g ∉ j1 ++ r) as Ho2.
      { rewrite <- Hor in HR. by apply (R_cur_once _ _ _ _ _ _ HR). }
      rewrite elem_of_app in Ho2. clear -Hor Ho Ho2. revert i1 Hor Ho.
      induction j1 as [|x j1 IH]; intros [|y i1] Hor Ho; simpl in *.
      - by injection Hor as ->.
      - injection Hor as <- Hor. exfalso. apply Ho. left. by left.
      - injection Hor as -> Hor. exfalso. apply Ho2. left. by left.
      - injection Hor as -> Hor. rewrite elem_of_cons in Ho. rewrite elem_of_cons in Ho2.
        destruct (IH ltac:(tauto) i1 Hor ltac:(tauto)) as [-> ->]. done. }
    assert (Cur g ∈ i1 ++ Cur g :: i2) as Hin by (rewrite elem_of_app, elem_of_cons; tauto).
    remember (step s (Next g)).2 as a eqn:Ha. revert HR'.
    inversion Hs as [| | | | | | | | | | | | | | | | |g0 is0 j1 cs k' v' j2 Hn0 Heq Hcs Hor|g0 is0 j1 cs Hn0 Heq Hcs Hor| | |]; subst; [done| |]; intros HR'.
    + destruct Hor as [Hor|[Hno _]]; [|done]. destruct (Huniq _ _ Hor) as [-> <-].
      rewrite entries_app in Hes. rewrite (entries_cursors cs) in Hes by done. simpl in Hes. injection Hes as <- <- Hes.
      f_equal. apply (IH _ l' (i1 ++ cs ++ [E k v]) j2); [done| |done].
      by rewrite <- !app_assoc.
    + destruct Hor as [Hor|[Hno _]]; [|done]. destruct (Huniq _ _ Hor) as [-> <-].
      rewrite entries_cursors in Hes by done. done.
Qed.

Lemma quiet_iteration_pf (pre : list (op V)) (g : nat) :
  Next g ∉ pre -> Close g ∉ pre ->
  (run (run init pre).1 (replicate (S (length (contents [] pre))) (Next g))).2 =
  map (fun e => AYield e.1 e.2) (contents [] pre) ++ [AStop].
Proof.
  intros H1 H2.
  destruct (run_untouched g _ _ _ _ pre (init_R (V := V))) as (l & is & fin & HR & He & Hg & Hc);
    [set_solver|apply not_elem_of_nil|done|done|].
  simpl in He. rewrite <- He. clear He H1 H2. revert HR. generalize (run (V := V) init pre).1. intros s HR.
  destruct (step_sim _ _ _ _ (Next g) HR) as (l' & is' & fin' & Hs & HR').
  cbn [replicate]. rewrite run_cons. cbn [snd].
  remember (step s (Next g)).2 as a eqn:Ha. revert HR'.
  inversion Hs as [| | | | | | | | | | | | | | | | |g0 is0 j1 cs k v j2 Hn0 Heq Hcs Hor|g0 is0 j1 cs Hn0 Heq Hcs Hor| | |]; subst; [done| |]; intros HR'.
  - destruct Hor as [<-|[_ Hor]]; [exfalso; apply Hc; rewrite elem_of_app, elem_of_cons; tauto|].
    destruct j1 as [|j0 j1]; simpl in Hor; [injection Hor as Hor|injection Hor as Hj Hor].
    2:{ exfalso. apply Hc. rewrite <- Hor, elem_of_app, elem_of_cons. tauto. }
    subst is. rewrite entries_app, (entries_cursors cs) by done. simpl.
    replace (cs ++ E k v :: Cur g :: j2) with ((cs ++ [E k v]) ++ Cur g :: j2) in HR' by (by rewrite <- app_assoc).
    f_equal. apply (quiet_running _ _ _ _ _ _ HR' Hg).
  - destruct Hor as [<-|[_ Hor]]; [exfalso; apply Hc; rewrite elem_of_app, elem_of_cons; tauto|].
    destruct j1 as [|j0 j1]; simpl in Hor; [injection Hor as Hor|injection Hor as Hj Hor].
    2:{ exfalso. apply Hc. rewrite <- Hor, elem_of_app, elem_of_cons. tauto. }
    subst is. rewrite entries_cursors by done. done.
Qed.
End proofs.
