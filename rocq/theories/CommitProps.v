(** Modified blocks are uploaded after the delay (C67). *)
From stdpp Require Import prelude.
From Coq Require Import Sorting.Sorted.
From Verif Require Import CommitModel.

(** * Invariant: distinct keys, in the order of the last access, and modified no later than accessed *)
Definition inv (s : state) : Prop :=
  NoDup (key <$> entries s) /\ StronglySorted (fun a b => la a <= la b) (entries s) /\ Forall (fun e => lw e <= la e /\ la e <= now s) (entries s) /\
  match pc s with Sleep _ => before s = [] | Scan stamp _ | Wait _ stamp => stamp <= now s end.

Lemma find_spec k s e : inv s -> find k s = Some e <-> e ∈ entries s /\ key e = k.
Proof.
  intros [Hn _]. unfold find. split.
  - destruct (list_find _ _) as [[i x]|] eqn:E; [|done]. cbn. intros [= <-]. apply list_find_Some in E as (E1 & E2 & _). split; [by apply elem_of_list_lookup_2 in E1|done].
  - intros [H1 H2]. destruct (list_find_elem_of (fun e => key e = k) _ _ H1 H2) as [[i x] E]. rewrite E. cbn. f_equal. apply list_find_Some in E as (E1 & E2 & _).
    apply elem_of_list_lookup in H1 as [j H1]. assert (i = j) as ->; [|congruence]. eapply NoDup_lookup; [exact Hn| |]; rewrite list_lookup_fmap; [rewrite E1|rewrite H1]; cbn; [reflexivity|]. congruence.
Qed.
Lemma find_none k s : find k s = None <-> forall e, e ∈ entries s -> key e <> k.
Proof.
  unfold find. destruct (list_find _ _) as [[i x]|] eqn:E; cbn.
  - apply list_find_Some in E as (E1 & E2 & _). split; [done|]. intros H. by destruct (H x (elem_of_list_lookup_2 _ _ _ E1)).
  - apply list_find_None in E. rewrite Forall_forall in E. split; [intros _ e He; by apply E|done].
Qed.
Lemma without_app k a b : without k (a ++ b) = without k a ++ without k b.
Proof. apply filter_app. Qed.
Lemma elem_without k l e : e ∈ without k l <-> key e <> k /\ e ∈ l.
Proof. unfold without. by rewrite elem_of_list_filter. Qed.
Lemma sorted_without k l : StronglySorted (fun a b => la a <= la b) l -> StronglySorted (fun a b => la a <= la b) (without k l).
Proof.
  induction 1 as [|x l Hs IH Hf]; [constructor|]. unfold without. rewrite filter_cons. case_decide; [|done]. constructor; [done|]. apply Forall_forall. intros y Hy. apply elem_without in Hy as [_ Hy]. rewrite Forall_forall in Hf. by apply Hf.
Qed.
Lemma sorted_snoc l x : StronglySorted (fun a b => la a <= la b) l -> Forall (fun e => la e <= la x) l -> StronglySorted (fun a b => la a <= la b) (l ++ [x]).
Proof.
  induction 1 as [|y l Hs IH Hf]; intros F; [repeat constructor|]. apply Forall_cons in F as [F1 F2]. cbn. constructor; [by apply IH|]. apply Forall_app. split; [done|]. by repeat constructor.
Qed.
Lemma nodup_without k l : NoDup (key <$> l) -> NoDup (key <$> without k l) /\ k ∉ key <$> without k l.
Proof.
  intros H. split.
  - induction l as [|x l IH]; [constructor|]. cbn in H. apply NoDup_cons in H as [H1 H2]. unfold without. rewrite filter_cons. case_decide; [|by apply IH]. cbn. constructor; [|by apply IH].
    intros (y & E & Hy)%elem_of_list_fmap. apply elem_without in Hy as [_ Hy]. apply H1. rewrite E. by apply elem_of_list_fmap_1.
  - intros (y & E & Hy)%elem_of_list_fmap. apply elem_without in Hy as [Hy _]. congruence.
Qed.
Lemma touched_key t o e : key (touched t o e) = key e /\ la (touched t o e) = t.
Proof. by destruct o. Qed.
(** Changes that keep key, times *)
Definition keeps (f : entry -> entry) : Prop := forall e, key (f e) = key e /\ lw (f e) = lw e /\ la (f e) = la e.
Lemma change_entries k f s : entries (change k f s) = (fun e => if decide (key e = k) then f e else e) <$> entries s.
Proof. unfold change, entries. cbn. by rewrite fmap_app. Qed.
Lemma change_inv k f s : keeps f -> inv s -> inv (change k f s).
Proof.
  intros Hf (H1 & H2 & H3 & H4). unfold inv. rewrite change_entries. set (g := fun e => if decide (key e = k) then f e else e).
  assert (keeps g) as Hg by (intros e; unfold g; case_decide; [apply Hf|done]). split_and!.
  - rewrite <- list_fmap_compose. rewrite (list_fmap_ext (key ∘ g) key (entries s)); [done|]. intros i e _. apply Hg.
  - clear -H2 Hg. induction H2 as [|x l Hs IH Hl]; [constructor|]. rewrite fmap_cons. constructor; [done|]. apply Forall_fmap. eapply Forall_impl; [exact Hl|]. intros y Hy. cbn. destruct (Hg x) as (_ & _ & ->), (Hg y) as (_ & _ & ->). done.
  - apply Forall_fmap. eapply Forall_impl; [exact H3|]. intros e He. cbn. destruct (Hg e) as (_ & -> & ->). done.
  - destruct s as [n b a p]. cbn in *. destruct p; [by rewrite H4|done..].
Qed.
Lemma keeps_mark : keeps mark. Proof. done. Qed.
Lemma keeps_ended ok : keeps (ended ok). Proof. done. Qed.

Section delay.
Context (delay : nat).
Lemma step_inv s e s' : inv s -> step delay s e = Some s' -> inv s'.
Proof.
  intros HI. pose proof HI as (H1 & H2 & H3 & H4). destruct e as [d|k|k o|k|k|k ok| | |]; cbn [step].
  - intros [= <-]. unfold inv, entries in *. cbn. split_and!; try done; [eapply Forall_impl; [exact H3|]; cbn; lia|]. destruct (pc s); [done|lia..].
  - destruct (find k s) as [|] eqn:E; [done|]. rewrite find_none in E. intros [= <-]. unfold inv, entries. cbn. rewrite app_assoc. fold (entries s). split_and!; [| | |done].
    + rewrite fmap_app. cbn. apply NoDup_app. split_and!; [done| |repeat constructor; by intros ?%elem_of_nil]. intros x (e & Ex & He)%elem_of_list_fmap Hx%elem_of_list_singleton. apply E in He. congruence.
    + apply sorted_snoc; [done|]. eapply Forall_impl; [exact H3|]. cbn. lia.
    + apply Forall_app. split; [done|]. repeat constructor; cbn; lia.
  - destruct (find k s) as [e|] eqn:E; [|done]. apply find_spec in E as [E1 E2]; [|done]. destruct (transit e); [done|]. intros [= <-]. unfold inv, entries. cbn. rewrite app_assoc, <- without_app. fold (entries s).
    destruct (nodup_without k (entries s) H1) as [N1 N2]. destruct (touched_key (now s) o e) as [T1 T2].
    assert (Forall (fun x => lw x <= la x /\ la x <= now s) (without k (entries s))) as F by (apply Forall_forall; intros x Hx; apply elem_without in Hx as [_ Hx]; rewrite Forall_forall in H3; by apply H3). split_and!.
    + rewrite fmap_app. cbn. apply NoDup_app. split_and!; [done| |repeat constructor; by intros ?%elem_of_nil]. intros x Hx Hx2%elem_of_list_singleton. rewrite Hx2, T1, E2 in Hx. done.
    + apply sorted_snoc; [by apply sorted_without|]. rewrite T2. eapply Forall_impl; [exact F|]. cbn. lia.
    + apply Forall_app. split; [done|]. repeat constructor; rewrite T2; [|lia]. rewrite Forall_forall in H3. apply H3 in E1. destruct o; cbn; lia.
    + destruct (pc s); [by rewrite H4|done..].
  - destruct (find k s) as [e|] eqn:E; [|done]. destruct (transit e); [done|]. intros [= <-]. unfold inv, entries. cbn. rewrite <- without_app. fold (entries s).
    destruct (nodup_without k (entries s) H1) as [N1 N2]. split_and!; [done|by apply sorted_without| |destruct (pc s); [by rewrite H4|done..]].
    apply Forall_forall; intros x Hx; apply elem_without in Hx as [_ Hx]; rewrite Forall_forall in H3; by apply H3.
  - destruct (find k s) as [e|] eqn:E; [|done]. destruct (dirty e && _); [|done]. intros [= <-]. by apply change_inv.
  - destruct (find k s) as [e|] eqn:E; [|done]. destruct (transit e); [|done]. intros [= <-]. by apply change_inv.
  - destruct (pc s) eqn:E; [|done..]. case_decide; [|done]. intros [= <-]. unfold inv, entries in *. cbn. split_and!; try done.
  - destruct (pc s) as [|stamp did|] eqn:E; [done| |done]. destruct (after s) as [|e rest] eqn:Ea.
    + intros [= <-]. unfold inv, finish, entries in *. cbn. done.
    + assert (forall p, match p with Sleep _ => False | Scan t _ | Wait _ t => t <= now s end -> inv (State (now s) (before s ++ [e]) rest p)) as K.
      { intros p Hp. unfold inv, entries in *. cbn. rewrite Ea in *. rewrite <- app_assoc. cbn. split_and!; try done. by destruct p. }
      case_decide.
      * intros [= <-]. specialize (K (Scan stamp did) H4). destruct K as (K1 & K2 & K3 & _). unfold inv, finish, entries in *. cbn in *. done.
      * destruct (dirty e && _); intros [= <-]; apply K; done.
  - destruct (pc s) as [| |k stamp] eqn:E; [done..|]. assert (inv (State (now s) (before s) (after s) (Scan stamp true))) as K by (unfold inv, entries in *; cbn; split_and!; done).
    destruct (find k s) as [e|] eqn:Ef; [|by intros [= <-]]. destruct (transit e); [done|]. destruct (dirty e); intros [= <-]; [|done]. by apply change_inv.
Qed.
Lemma run_inv es : forall s s', inv s -> run delay s es = Some s' -> inv s'.
Proof.
  induction es as [|e es IH]; intros s s' HI; cbn [run]; [by intros [= <-]|]. destruct (step delay s e) as [s1|] eqn:E; [|done]. cbn. apply IH. by eapply step_inv.
Qed.
Lemma start_inv t : inv (start t).
Proof. repeat split; constructor. Qed.

(** * Never too early: when the task decides to upload a block, it is modified, is not being uploaded, and was last written at least [delay] ago. *)
Theorem never_early s s' k stamp : inv s -> step delay s TNext = Some s' -> pc s' = Wait k stamp ->
  exists e, e ∈ entries s /\ key e = k /\ dirty e = true /\ transit e = false /\ lw e + delay <= now s.
Proof.
  intros (_ & _ & _ & HI) H Hp. cbn [step] in H. destruct (pc s) as [|st did|] eqn:E; [done| |done]. destruct (after s) as [|e rest] eqn:Ea; [injection H as <-; done|].
  case_decide; [injection H as <-; done|]. destruct (dirty e && negb (transit e)) eqn:D; injection H as <-; [|done]. cbn in Hp. injection Hp as <- <-.
  apply andb_true_iff in D as [D1 D2]. exists e. split_and!; [unfold entries; rewrite Ea; apply elem_of_app; right; left|done|done|by destruct (transit e)|]. cbn in HI. lia.
Qed.

(** * A block that was not accessed for [delay] is uploaded by the next iteration. *)
Definition handled (k : nat) (s : state) (failed : Prop) : Prop := exists e, e ∈ entries s /\ key e = k /\ (dirty e = false \/ transit e = true \/ failed).
(** The block before it is reached: everything in front of it is old enough. *)
Definition ahead (k stamp : nat) (s : state) : Prop :=
  exists l1 e l2, after s = l1 ++ e :: l2 /\ key e = k /\ Forall (fun e => lw e + delay <= stamp) (l1 ++ [e]).
Definition progress (k stamp : nat) (s : state) (failed : Prop) : Prop :=
  match pc s with
  | Sleep _ => handled k s failed
  | Scan st _ => st = stamp /\ (ahead k stamp s \/ handled k s failed)
  | Wait j st => st = stamp /\ (ahead k stamp s \/ handled k s failed \/ j = k /\ exists e, e ∈ entries s /\ key e = k)
  end.
(** What concerns block [k]: it is accessed or removed *)
Definition touches (k : nat) (e : event) : Prop := match e with Access j _ | Remove j => j = k | _ => False end.
Lemma handled_mono k s (P Q : Prop) : (P -> Q) -> handled k s P -> handled k s Q.
Proof. intros H (e & H1 & H2 & H3). exists e. split_and!; try done. destruct H3 as [?|[?|?]]; auto. Qed.
Lemma handled_same k s s' P : (forall e, e ∈ entries s -> key e = k -> e ∈ entries s') -> handled k s P -> handled k s' P.
Proof. intros H (e & H1 & H2 & H3). exists e. split_and!; try done. by apply H. Qed.
Lemma ahead_without j k stamp l : j <> k -> (exists l1 e l2, l = l1 ++ e :: l2 /\ key e = k /\ Forall (fun e => lw e + delay <= stamp) (l1 ++ [e])) ->
  forall tl, exists l1 e l2, without j l ++ tl = l1 ++ e :: l2 /\ key e = k /\ Forall (fun e => lw e + delay <= stamp) (l1 ++ [e]).
Proof.
  intros Hj (l1 & e & l2 & -> & He & F) tl. exists (without j l1), e, (without j l2 ++ tl). split_and!; [|done|].
  - rewrite without_app. unfold without at 2. rewrite filter_cons. rewrite decide_True by congruence. rewrite <- app_assoc. done.
  - apply Forall_app in F as [F1 F2]. apply Forall_app. split; [|done]. apply Forall_forall. intros x Hx. apply elem_without in Hx as [_ Hx]. rewrite Forall_forall in F1. by apply F1.
Qed.
Lemma ahead_change j f k stamp s : keeps f -> ahead k stamp s -> ahead k stamp (change j f s).
Proof.
  intros Hf (l1 & e & l2 & Ha & He & F). set (g := fun e => if decide (key e = j) then f e else e). assert (keeps g) as Hg by (intros x; unfold g; case_decide; [apply Hf|done]).
  exists (g <$> l1), (g e), (g <$> l2). split_and!; [cbn; rewrite Ha; by rewrite fmap_app, fmap_cons|destruct (Hg e) as (-> & _); done|].
  change [g e] with (g <$> [e]). rewrite <- fmap_app. apply Forall_fmap. eapply Forall_impl; [exact F|]. intros x Hx. cbn. destruct (Hg x) as (_ & -> & _). done.
Qed.
Lemma progress_step k stamp s e s' (failed : Prop) : inv s -> ~ touches k e -> e <> TStart -> progress k stamp s failed -> step delay s e = Some s' -> progress k stamp s' (failed \/ e = End k false).
Proof.
  intros HI Ht Hts HP. set (F := failed \/ e = End k false). assert (forall s, handled k s failed -> handled k s F) as Up by (intros ?; apply handled_mono; by left).
  assert (forall s', pc s' = pc s -> (ahead k stamp s -> ahead k stamp s') -> (handled k s failed -> handled k s' F) -> (forall e, e ∈ entries s -> key e = k -> exists e', e' ∈ entries s' /\ key e' = k) -> progress k stamp s' F) as K.
  { intros s1 E1 E2 E3 E4. unfold progress in *. rewrite E1. destruct (pc s) as [u|st did|j st]; [by apply E3| |].
    - destruct HP as [-> [HP|HP]]; (split; [done|]); [left; by apply E2|right; by apply E3].
    - destruct HP as [-> [HP|[HP|(-> & x & X1 & X2)]]]; (split; [done|]); [left; by apply E2|right; left; by apply E3|right; right; split; [done|by apply (E4 x)]]. }
  assert (forall j f, keeps f -> (forall x, x ∈ entries s -> key x = k -> j = k -> (dirty x = false \/ transit x = true \/ failed) -> dirty (f x) = false \/ transit (f x) = true \/ F) -> progress k stamp (change j f s) F) as C.
  { intros j f Hf HC. apply K; [done|by apply ahead_change| |].
    - intros (x & X1 & X2 & X3). exists (if decide (key x = j) then f x else x). rewrite change_entries. split_and!; [apply elem_of_list_fmap; by exists x|case_decide; [by destruct (Hf x) as (-> & _)|done]|].
      case_decide as D; [apply HC; try done; congruence|]. unfold F. destruct X3 as [?|[?|?]]; auto.
    - intros x X1 X2. exists (if decide (key x = j) then f x else x). rewrite change_entries. split; [apply elem_of_list_fmap; by exists x|case_decide; [by destruct (Hf x) as (-> & _)|done]]. }
  destruct e as [d|j|j o|j|j|j ok| | |]; cbn [step].
  - intros [= <-]. apply K; try done; [by intros H; apply Up|]. intros x X1 X2. by exists x.
  - destruct (find j s) as [|] eqn:E; [done|]. intros [= <-]. assert (forall x, x ∈ entries s -> x ∈ before s ++ after s ++ [Entry j false false 0 (now s)]) as Sub by (intros x Hx; rewrite app_assoc; apply elem_of_app; by left). apply K; [done| | |].
    + intros (l1 & x & l2 & Ha & Hx & HF). exists l1, x, (l2 ++ [Entry j false false 0 (now s)]). cbn. rewrite Ha. rewrite <- app_assoc. done.
    + intros H. apply Up. revert H. apply handled_same. intros x Hx _. by apply Sub.
    + intros x X1 X2. exists x. split; [by apply Sub|done].
  - destruct (find j s) as [y|] eqn:E; [|done]. apply find_spec in E as [E1 E2]; [|done]. destruct (transit y); [done|]. intros [= <-]. assert (j <> k) as Hj by (intros ->; by apply Ht).
    assert (forall x, x ∈ entries s -> key x = k -> x ∈ without j (before s) ++ without j (after s) ++ [touched (now s) o y]) as Sub.
    { intros x Hx Hk. rewrite app_assoc, <- without_app. apply elem_of_app. left. apply elem_without. split; [congruence|done]. }
    apply K; [done| | |].
    + intros H. by apply (ahead_without j k stamp _ Hj H).
    + intros H. apply Up. revert H. apply handled_same. done.
    + intros x X1 X2. exists x. split; [by apply Sub|done].
  - destruct (find j s) as [y|] eqn:E; [|done]. destruct (transit y); [done|]. intros [= <-]. assert (j <> k) as Hj by (intros ->; by apply Ht).
    assert (forall x, x ∈ entries s -> key x = k -> x ∈ without j (before s) ++ without j (after s)) as Sub.
    { intros x Hx Hk. rewrite <- without_app. apply elem_without. split; [congruence|done]. }
    apply K; [done| | |].
    + intros H. destruct (ahead_without j k stamp _ Hj H []) as (l1 & x & l2 & Ha & Hr). rewrite app_nil_r in Ha. by exists l1, x, l2.
    + intros H. apply Up. revert H. apply handled_same. done.
    + intros x X1 X2. exists x. split; [by apply Sub|done].
  - destruct (find j s) as [y|] eqn:E; [|done]. destruct (dirty y && _); [|done]. intros [= <-]. apply C; [done|]. intros; right; by left.
  - destruct (find j s) as [y|] eqn:E; [|done]. destruct (transit y); [|done]. intros [= <-]. apply C; [done|]. intros x _ _ -> _. destruct ok; [by left|]. right; right. by right.
  - done.
  - unfold progress in HP. destruct (pc s) as [|st did|] eqn:E; [done| |done]. destruct HP as [-> HP].
    assert (forall x rest, after s = x :: rest -> forall y, y ∈ entries s <-> y ∈ (before s ++ [x]) ++ rest) as Mv by (intros x rest Ea y; unfold entries; by rewrite Ea, <- app_assoc).
    destruct (after s) as [|x rest] eqn:Ea.
    + intros [= <-]. unfold progress, finish. cbn. destruct HP as [(l1 & y & l2 & Ha & _)|HP]; [rewrite Ea in Ha; by destruct l1|]. apply Up. revert HP. apply handled_same. intros y Hy _. done.
    + specialize (Mv x rest eq_refl). destruct HP as [(l1 & y & l2 & Ha & Hy & HF)|HP].
      * rewrite Ea in Ha. assert (lw x + delay <= stamp) as Hx. { apply Forall_app in HF as [F1 F2]. destruct l1 as [|z l1]; cbn in Ha; injection Ha as -> _; [by apply Forall_cons in F2 as [? _]|by apply Forall_cons in F1 as [? _]]. }
        rewrite decide_False by lia. destruct l1 as [|z l1]; cbn in Ha; injection Ha as -> ->.
        -- destruct (dirty y && negb (transit y)) eqn:D; intros [= <-]; unfold progress; cbn; (split; [done|]).
           ++ right; right. split; [done|]. exists y. split; [apply Mv; unfold entries; rewrite Ea; apply elem_of_app; right; left|done].
           ++ right. exists y. split_and!; [apply Mv; unfold entries; rewrite Ea; apply elem_of_app; right; left|done|]. unfold F. destruct (dirty y), (transit y); auto; done.
        -- assert (ahead k stamp (State (now s) (before s ++ [z]) (l1 ++ y :: l2) (pc s)) /\ forall p, ahead k stamp (State (now s) (before s ++ [z]) (l1 ++ y :: l2) p)) as [A1 A2].
           { assert (forall p, ahead k stamp (State (now s) (before s ++ [z]) (l1 ++ y :: l2) p)) as A; [|done]. intros p. exists l1, y, l2. split_and!; try done. cbn in HF. by apply Forall_cons in HF as [_ HF]. }
           destruct (dirty z && negb (transit z)) eqn:D; intros [= <-]; unfold progress; cbn; (split; [done|]); left; apply A2.
      * assert (forall s', (forall y, y ∈ (before s ++ [x]) ++ rest -> y ∈ entries s') -> handled k s' F) as HH. { intros s1 Hs. apply Up. revert HP. apply handled_same. intros y Y _. apply Hs. by apply Mv. }
        case_decide; [|destruct (dirty x && negb (transit x))]; intros [= <-]; unfold progress; cbn; [|split; [done|]; right; left|split; [done|]; right]; apply HH; done.
  - destruct (pc s) as [| |j st] eqn:E; [done..|]. unfold progress in HP. rewrite E in HP. destruct HP as [-> HP].
    destruct (find j s) as [y|] eqn:Ef.
    + apply find_spec in Ef as [Y1 Y2]; [|done]. destruct (transit y) eqn:Et; [done|].
      set (s1 := State (now s) (before s) (after s) (Scan stamp true)). intros [= <-].
      assert (ahead k stamp s -> ahead k stamp (if dirty y then change j mark s1 else s1)) as A1 by (intros H; destruct (dirty y); [by apply (ahead_change j mark k stamp s1)|done]).
      assert (forall x, x ∈ entries s -> key x = k -> j = k -> handled k (if dirty y then change j mark s1 else s1) F) as A2.
      { intros x X1 X2 ->. destruct (dirty y) eqn:D.
        - exists (mark y). split_and!; [|done|right; by left]. rewrite change_entries. apply elem_of_list_fmap. exists y. split; [by rewrite decide_True|done].
        - exists y. split_and!; [done..|by left]. }
      assert (handled k s failed -> handled k (if dirty y then change j mark s1 else s1) F) as A3.
      { intros (x & X1 & X2 & X3). destruct (decide (j = k)) as [Hj|Hj]; [by apply (A2 x)|]. exists x. split_and!; [|done|unfold F; destruct X3 as [?|[?|?]]; auto]. destruct (dirty y); [|done]. rewrite change_entries. apply elem_of_list_fmap. exists x. split; [rewrite decide_False; [done|congruence]|done]. }
      assert (pc (if dirty y then change j mark s1 else s1) = Scan stamp true) as Ep by (by destruct (dirty y)). unfold progress. rewrite Ep. split; [done|].
      destruct HP as [HP|[HP|(-> & x & X1 & X2)]]; [left; by apply A1|right; by apply A3|right; by apply (A2 x)].
    + intros [= <-]. unfold progress. cbn. split; [done|]. rewrite find_none in Ef. destruct HP as [HP|[HP|(-> & x & X1 & X2)]]; [by left|right; by apply Up|]. by destruct (Ef x X1).
Qed.
Lemma progress_run k stamp es : forall s s' (failed : Prop), inv s -> Forall (fun e => ~ touches k e /\ e <> TStart) es -> progress k stamp s failed -> run delay s es = Some s' -> progress k stamp s' (failed \/ End k false ∈ es).
Proof.
  induction es as [|e es IH]; intros s s' failed HI HF HP; cbn [run].
  - intros [= <-]. revert HP. unfold progress. destruct (pc s); [apply handled_mono; by left|intros [-> [?|H]]; (split; [done|]); [by left|right; revert H; apply handled_mono; by left]|].
    intros [-> [?|[H|?]]]; (split; [done|]); [by left|right; left; revert H; apply handled_mono; by left|by right; right].
  - apply Forall_cons in HF as [[F1 F2] HF]. destruct (step delay s e) as [s1|] eqn:E; [|done]. cbn. intros Hr. assert (inv s1) as HI1 by (by eapply step_inv).
    pose proof (IH s1 s' (failed \/ e = End k false) HI1 HF (progress_step k stamp s e s1 failed HI F1 F2 HP E) Hr) as H. revert H. assert ((failed \/ e = End k false) \/ End k false ∈ es -> failed \/ End k false ∈ e :: es) as M.
    { intros [[?| ->]|?]; [by left|right; left|right; by right]. }
    unfold progress. destruct (pc s'); [by apply handled_mono|intros [-> [?|H]]; (split; [done|]); [by left|right; revert H; by apply handled_mono]|].
    intros [-> [?|[H|?]]]; (split; [done|]); [by left|right; left; revert H; by apply handled_mono|by right; right].
Qed.
(** C67. In any execution: an iteration that starts when block [k] has not been accessed for [delay], and ends without [k] having been accessed meanwhile, leaves [k] unmodified, or
    in transit, or its upload has failed meanwhile. *)
Theorem uploaded t es s s1 es1 s2 k e : run delay (start t) es = Some s -> step delay s TStart = Some s1 -> e ∈ entries s -> key e = k -> la e + delay <= now s ->
  Forall (fun e => ~ touches k e /\ e <> TStart) es1 -> run delay s1 es1 = Some s2 -> (exists u, pc s2 = Sleep u) ->
  exists e', e' ∈ entries s2 /\ key e' = k /\ (dirty e' = false \/ transit e' = true \/ End k false ∈ es1).
Proof.
  intros Hr Hs He Hk Ha HF Hr2 [u Hu]. assert (inv s) as HI by (eapply run_inv; [apply start_inv|done]). assert (inv s1) as HI1 by (by eapply step_inv).
  assert (progress k (now s) s1 False) as HP.
  { cbn [step] in Hs. destruct (pc s) as [u0| |] eqn:E; [|done..]. case_decide; [|done]. injection Hs as <-. unfold progress. cbn. split; [done|]. left.
    destruct HI as (_ & H2 & H3 & H4). rewrite E in H4. unfold entries in *. rewrite H4 in *. cbn in *. apply elem_of_list_split in He as (l1 & l2 & Hl). exists l1, e, l2. cbn. rewrite Hl. split_and!; [done..|].
    rewrite Hl in H2, H3. apply Forall_app. apply Forall_app in H3 as [H3 H3']. apply Forall_cons in H3' as [H3' _]. split; [|repeat constructor; lia].
    apply Forall_forall. intros x Hx. rewrite Forall_forall in H3. specialize (H3 x Hx). cbn in H3. assert (la x <= la e); [|lia].
    clear -H2 Hx. induction l1 as [|y l1 IH]; [by apply elem_of_nil in Hx|]. cbn in H2. apply StronglySorted_inv in H2 as [H2 F]. apply elem_of_cons in Hx as [->|Hx]; [|by apply IH]. rewrite Forall_forall in F. apply F. apply elem_of_app. right. left. }
  pose proof (progress_run k (now s) es1 s1 s2 False HI1 HF HP Hr2) as H. unfold progress in H. rewrite Hu in H. destruct H as (e' & ? & ? & [?|[?|[[]|?]]]); exists e'; auto.
Qed.
(** ** The same in terms of the history of requests alone *)
(** What has happened to block [k]: the time now; whether it was modified since it was loaded, created or successfully uploaded; when it was last written (since loaded), last accessed *)
Record history := History { h_now : nat; h_modified : bool; h_written : nat; h_accessed : nat }.
Definition note (k : nat) (h : history) (e : event) : history :=
  match e with
  | Tick d => History (h_now h + d) (h_modified h) (h_written h) (h_accessed h)
  | New j => if decide (j = k) then History (h_now h) false 0 (h_now h) else h
  | Access j Read => if decide (j = k) then History (h_now h) (h_modified h) (h_written h) (h_now h) else h
  | Access j Write => if decide (j = k) then History (h_now h) true (h_now h) (h_now h) else h
  | Access j Truncate => if decide (j = k) then History (h_now h) true (h_written h) (h_now h) else h
  | End j true => if decide (j = k) then History (h_now h) false (h_written h) (h_accessed h) else h
  | _ => h
  end.
Definition noted (k t : nat) (es : list event) : history := foldl (note k) (History t false 0 0) es.
Definition agrees (s : state) (e : entry) (h : history) : Prop := h = History (now s) (dirty e) (lw e) (la e).
Lemma agrees_step s e s' (H : nat -> history) : inv s -> step delay s e = Some s' -> (forall k, h_now (H k) = now s) -> (forall x, x ∈ entries s -> agrees s x (H (key x))) ->
  (forall k, h_now (note k (H k) e) = now s') /\ forall x, x ∈ entries s' -> agrees s' x (note (key x) (H (key x)) e).
Proof.
  intros HI E HN HA.
  assert (CH : forall k f p, (forall x, x ∈ entries s -> key x = k -> key (f x) = key x /\ lw (f x) = lw x /\ la (f x) = la x /\ dirty (f x) = dirty x) ->
    forall x, x ∈ entries (change k f (State (now s) (before s) (after s) p)) -> agrees s x (H (key x))).
  { intros k f p Hf x. rewrite change_entries. intros (y & -> & Hy)%elem_of_list_fmap. case_decide as D; [|by apply HA].
    destruct (Hf y Hy D) as (-> & F1 & F2 & F3). unfold agrees. rewrite F1, F2, F3. by apply HA. }
  destruct e as [d|k|k o|k|k|k ok| | |]; cbn [step] in E.
  - injection E as <-. split; [intros k; cbn; by rewrite HN|]. intros x Hx. unfold agrees. cbn. by rewrite (HA x Hx).
  - destruct (find k s) as [|] eqn:F; [done|]. rewrite find_none in F. injection E as <-. split; [intros j; cbn; case_decide; cbn; by rewrite HN|]. intros x Hx. unfold entries in Hx. cbn in Hx. rewrite app_assoc in Hx.
    apply elem_of_app in Hx as [Hx|Hx].
    + cbn. rewrite decide_False; [by apply HA|]. intros ->. by eapply F.
    + apply elem_of_list_singleton in Hx as ->. cbn. rewrite decide_True by done. unfold agrees. cbn. by rewrite HN.
  - destruct (find k s) as [e|] eqn:F; [|done]. apply find_spec in F as [F1 F2]; [|done]. destruct (transit e); [done|]. injection E as <-. subst k.
    split; [intros j; destruct o; cbn; case_decide; cbn; by rewrite HN|].
    intros x Hx. unfold entries in Hx. cbn in Hx. rewrite app_assoc, <- without_app in Hx. apply elem_of_app in Hx as [Hx|Hx].
    + apply elem_without in Hx as [Hk Hx]. specialize (HA x Hx). destruct o; cbn; rewrite decide_False by done; done.
    + apply elem_of_list_singleton in Hx as ->. specialize (HA e F1). unfold agrees in *. destruct o; cbn; rewrite decide_True by done; rewrite HA; done.
  - destruct (find k s) as [e|] eqn:F; [|done]. destruct (transit e); [done|]. injection E as <-. split; [done|]. intros x Hx. unfold entries in Hx. cbn in Hx. rewrite <- without_app in Hx.
    apply elem_without in Hx as [_ Hx]. by apply HA.
  - destruct (find k s) as [e|] eqn:F; [|done]. destruct (dirty e && _); [|done]. injection E as <-. split; [done|]. intros x Hx. apply (CH k mark (pc s)); [done|]. by destruct s.
  - destruct (find k s) as [e|] eqn:F; [|done]. apply find_spec in F as [F1 F2]; [|done]. destruct (transit e) eqn:T; [|done]. injection E as <-.
    split; [intros j; destruct ok; cbn; [case_decide|]; cbn; by rewrite HN|]. intros x Hx. rewrite change_entries in Hx. apply elem_of_list_fmap in Hx as (y & -> & Hy). specialize (HA y Hy). unfold agrees in *.
    case_decide as D; destruct ok; cbn; try done.
    + rewrite D, decide_True by done. rewrite <- D. by rewrite HA.
    + rewrite decide_False by done. done.
  - destruct (pc s) eqn:P; [|done..]. case_decide; [|done]. injection E as <-. by split.
  - destruct (pc s) as [|stamp did|] eqn:P; [done| |done]. destruct (after s) as [|e rest] eqn:Ea.
    + injection E as <-. split; [done|]. intros x Hx. by apply HA.
    + assert (K : entries s = (before s ++ [e]) ++ rest) by (unfold entries; by rewrite Ea, <- app_assoc).
      case_decide; [|destruct (dirty e && _)]; injection E as <-; (split; [done|]); intros x Hx; apply HA; rewrite K; exact Hx.
  - destruct (pc s) as [| |k stamp] eqn:P; [done..|]. destruct (find k s) as [e|] eqn:F; [|injection E as <-; by split]. destruct (transit e); [done|].
    destruct (dirty e); injection E as <-; [|by split]. split; [done|]. intros x Hx. apply (CH k mark (Scan stamp true)); done.
Qed.
Lemma agrees_run es : forall s s' (H : nat -> history), inv s -> run delay s es = Some s' -> (forall k, h_now (H k) = now s) -> (forall x, x ∈ entries s -> agrees s x (H (key x))) ->
  forall x, x ∈ entries s' -> agrees s' x (foldl (note (key x)) (H (key x)) es).
Proof.
  induction es as [|e es IH]; intros s s' H HI Hr HN HA x Hx; cbn [run] in Hr; [injection Hr as <-; by apply HA|].
  destruct (step delay s e) as [s1|] eqn:E; [|done]. cbn in Hr. destruct (agrees_step s e s1 H HI E HN HA) as [N1 A1]. cbn [foldl].
  apply (IH s1 s' (fun k => note k (H k) e)); [by eapply step_inv|done..].
Qed.
Theorem state_noted t es s e : run delay (start t) es = Some s -> e ∈ entries s -> noted (key e) t es = History (now s) (dirty e) (lw e) (la e).
Proof.
  intros Hr He. pose proof (agrees_run es (start t) s (fun _ => History t false 0 0) (start_inv t) Hr) as A. apply A; [done| |done]. intros x Hx. by apply elem_of_nil in Hx.
Qed.
Lemma run_snoc2 es e es1 : forall s s1 s2 s3, run delay s es = Some s1 -> step delay s1 e = Some s2 -> run delay s2 es1 = Some s3 -> run delay s (es ++ e :: es1) = Some s3.
Proof.
  induction es as [|x es IH]; intros s s1 s2 s3 H1 H2 H3; cbn [run app] in *; [injection H1 as ->; by rewrite H2|].
  destruct (step delay s x) as [y|]; [|done]. cbn in *. by eapply IH.
Qed.
(** [uploaded] for the history: a block that was not accessed for [delay] has no unsaved modification after the next iteration, or is in transit, or its upload has failed. *)
Theorem uploaded_noted t es s s1 es1 s2 k e : run delay (start t) es = Some s -> step delay s TStart = Some s1 -> e ∈ entries s -> key e = k ->
  h_accessed (noted k t es) + delay <= h_now (noted k t es) ->
  Forall (fun e => ~ touches k e /\ e <> TStart) es1 -> run delay s1 es1 = Some s2 -> (exists u, pc s2 = Sleep u) ->
  h_modified (noted k t (es ++ TStart :: es1)) = false \/ (exists e', e' ∈ entries s2 /\ key e' = k /\ transit e' = true) \/ End k false ∈ es1.
Proof.
  intros Hr Hs He Hk Ha HF Hr2 Hu. pose proof (state_noted t es s e Hr He) as N. rewrite Hk in N. rewrite N in Ha. cbn in Ha.
  destruct (uploaded t es s s1 es1 s2 k e) as (e' & H1 & H2 & [H3|[H3|H3]]); try done; [left|right; left; eauto|by right; right].
  pose proof (state_noted t _ s2 e' (run_snoc2 es TStart es1 _ _ _ _ Hr Hs Hr2) H1) as N2. rewrite H2 in N2. rewrite N2. done.
Qed.
(** [never_early] for the history *)
Theorem never_early_noted t es s s' k stamp : run delay (start t) es = Some s -> step delay s TNext = Some s' -> pc s' = Wait k stamp ->
  h_modified (noted k t es) = true /\ h_written (noted k t es) + delay <= h_now (noted k t es).
Proof.
  intros Hr Hs Hp. destruct (never_early s s' k stamp) as (e & H1 & <- & H3 & _ & H5); [eapply run_inv; [apply start_inv|done]|done..|].
  rewrite (state_noted t es s e Hr H1). done.
Qed.
End delay.

(** * But a block that was not modified for [delay] (as the manual says) need not be uploaded: with reads of it and writes to another block between the iterations it never is. *)
Definition period : list event := [Tick 5; Access 2 Write; Access 1 Read; TStart; TNext].
Fixpoint repeated (n : nat) : list event := match n with 0 => [] | S n => period ++ repeated n end.
Lemma run_app delay a b : forall s, run delay s (a ++ b) = run delay s a ≫= fun s' => run delay s' b.
Proof. induction a as [|e a IH]; intros s; [done|]. cbn [run app]. destruct (step delay s e); [apply IH|done]. Qed.
Definition shape (t w : nat) (a l : nat) : state := State t [] [Entry 2 true false w a; Entry 1 true false l t] (Sleep (t + 5)).
Lemma period_shape delay t w a l : 0 < delay -> run delay (shape t w a l) period = Some (shape (t + 5) (t + 5) (t + 5) l).
Proof.
  intros Hd. set (u := t + 5).
  assert (step delay (shape t w a l) (Tick 5) = Some (State u [] [Entry 2 true false w a; Entry 1 true false l t] (Sleep u))) as E1 by reflexivity.
  assert (step delay (State u [] [Entry 2 true false w a; Entry 1 true false l t] (Sleep u)) (Access 2 Write) = Some (State u [] [Entry 1 true false l t; Entry 2 true false u u] (Sleep u))) as E2 by reflexivity.
  assert (step delay (State u [] [Entry 1 true false l t; Entry 2 true false u u] (Sleep u)) (Access 1 Read) = Some (State u [] [Entry 2 true false u u; Entry 1 true false l u] (Sleep u))) as E3 by reflexivity.
  assert (step delay (State u [] [Entry 2 true false u u; Entry 1 true false l u] (Sleep u)) TStart = Some (State u [] [Entry 2 true false u u; Entry 1 true false l u] (Scan u false))) as E4 by (cbn [step pc now]; by rewrite decide_True by lia).
  assert (step delay (State u [] [Entry 2 true false u u; Entry 1 true false l u] (Scan u false)) TNext = Some (shape u u u l)) as E5 by (cbn [step pc now after lw]; by rewrite decide_True by lia).
  unfold period. cbn [run]. rewrite E1. cbn [mbind option_bind]. rewrite E2. cbn [mbind option_bind]. rewrite E3. cbn [mbind option_bind]. rewrite E4. cbn [mbind option_bind]. rewrite E5. done.
Qed.
#[global] Instance op_dec : EqDecision op.
Proof. solve_decision. Defined.
#[global] Instance event_dec : EqDecision event.
Proof. solve_decision. Defined.
Theorem starved_refuted delay n : 0 < delay ->
  exists es s e, run delay (start 0) ([New 2; New 1; Access 2 Write; Access 1 Write; TStart; TNext] ++ es) = Some s /\ count_occ event_dec es TStart = n /\
    Forall (fun x => x <> Access 1 Write /\ x <> Access 1 Truncate) es /\ now s = 5 * n /\ e ∈ entries s /\ key e = 1 /\ dirty e = true /\ lw e = 0 /\ (exists u, pc s = Sleep u) /\
    (forall k, TAcquire ∉ es /\ Begin k ∉ es).
Proof.
  intros Hd. assert (forall n t w a l, run delay (shape t w a l) (repeated n) = Some (match n with S _ => shape (t + 5 * n) (t + 5 * n) (t + 5 * n) l | 0 => shape t w a l end)) as K.
  { clear n. induction n as [|n IH]; intros t w a l; [done|]. cbn [repeated]. rewrite run_app, period_shape by done. cbn [mbind option_bind]. rewrite IH. f_equal. destruct n as [|n]; f_equal; try lia; unfold shape; f_equal; try lia; repeat f_equal; lia. }
  assert (run delay (start 0) [New 2; New 1; Access 2 Write; Access 1 Write; TStart; TNext] = Some (shape 0 0 0 0)) as E0.
  { assert (run delay (start 0) [New 2; New 1; Access 2 Write; Access 1 Write; TStart] = Some (State 0 [] [Entry 2 true false 0 0; Entry 1 true false 0 0] (Scan 0 false))) as E by reflexivity.
    change [New 2; New 1; Access 2 Write; Access 1 Write; TStart; TNext] with ([New 2; New 1; Access 2 Write; Access 1 Write; TStart] ++ [TNext]). rewrite run_app, E. cbn [mbind option_bind run]. cbn [step pc now after lw]. rewrite decide_True by lia. done. }
  eexists (repeated n), _, (Entry 1 true false 0 (5 * n)). split_and!.
  - rewrite run_app, E0. cbn [mbind option_bind]. apply K.
  - induction n as [|n IH]; [done|]. cbn [repeated]. rewrite count_occ_app. rewrite IH. done.
  - induction n as [|n IH]; [constructor|]. cbn [repeated]. apply Forall_app. split; [repeat constructor; done|done].
  - destruct n; cbn; lia.
  - destruct n as [|n]; cbn -[Nat.mul]; right; left.
  - done.
  - done.
  - done.
  - destruct n; by eexists.
  - intros k. induction n as [|n [IH1 IH2]]; [split; by intros ?%elem_of_nil|]. cbn [repeated]. rewrite !elem_of_app. split; (intros [F|F]; [|done]); repeat (apply elem_of_cons in F as [F|F]; [done|]); by apply elem_of_nil in F.
Qed.

(** * Examples *)
(** With a delay of 10 seconds: block 1 is written at 0, blocks 2 and 3 at 8. Iterations at 0 and 5 do nothing, the one at 10 uploads block 1, the others follow. *)
Definition ex_before : list event := [New 1; Access 1 Write; TStart; TNext; Tick 5; TStart; TNext; Tick 3; New 2; Access 2 Write; New 3; Access 3 Truncate; Access 3 Write; Tick 2].
Definition ex_pass : list event := [TNext; TAcquire; Access 3 Write; TNext].
Example ex_uploaded : match run 10 (start 0) ex_before with
  | Some s => match step 10 s TStart with Some s1 => match run 10 s1 ex_pass with
      Some s2 => ((fun e => (key e, dirty e, transit e, lw e)) <$> entries s2, now s2) | None => ([], 0) end | None => ([], 0) end | None => ([], 0) end
  = ([(1, true, true, 0); (2, true, false, 8); (3, true, false, 10)], 10).
Proof. by vm_compute. Qed.
Example ex_hyps : match run 10 (start 0) ex_before with Some s => existsb (fun e => (key e =? 1) && dirty e && (la e + 10 <=? now s)) (entries s) | None => false end = true.
Proof. by vm_compute. Qed.

Print Assumptions never_early. Print Assumptions uploaded. Print Assumptions starved_refuted.
Print Assumptions uploaded_noted. Print Assumptions never_early_noted.
