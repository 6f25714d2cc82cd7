(** Property C68, Google Storage: tokens are renewed before they expire, and a rejected token is not used again. *)
From stdpp Require Import prelude.
From Verif Require Import GsTokenModel.
Open Scope Z_scope.

(** ** What is meant *)
Definition refreshing (c : pc) : Prop := match c with Refreshing => True | _ => False end.
Definition waiting (c : pc) : Prop := match c with WaitLock => True | _ => False end.
(** Ends of use of the tokens issued in [tr]: five minutes before they expire *)
Fixpoint ends (tr : list obs) : list Z :=
  match tr with
  | [] => []
  | OIssued _ _ at_ life :: tr => (at_ + life - 300) :: ends tr
  | _ :: tr => ends tr
  end.
Definition live (now : Z) (l : list Z) : list Z := filter (fun d => now < d) l.
(** Number of answers 401 that were dealt with *)
Fixpoint handled (es : list event) : nat := match es with [] => 0 | Pop _ :: es => S (handled es) | _ :: es => handled es end.

(** ** Lemmas *)
Lemma upd_eq {A} (f : nat -> A) i x : upd f i x i = x.
Proof. unfold upd. by rewrite decide_True. Qed.
Lemma upd_ne {A} (f : nat -> A) i j x : j <> i -> upd f i x j = f j.
Proof. intros. unfold upd. by rewrite decide_False. Qed.
Lemma ends_app tr o : ends (tr ++ o) = ends tr ++ ends o.
Proof. induction tr as [|x tr IH]; cbn; [done|]. destruct x; cbn; by rewrite IH. Qed.
Lemma live_app n l k : live n (l ++ k) = live n l ++ live n k.
Proof. apply filter_app. Qed.
Lemma live_mono n m l : n <= m -> (length (live m l) <= length (live n l))%nat.
Proof.
  intros H. induction l as [|d l IH]; [done|]. unfold live in *. destruct (decide (m < d)).
  - rewrite !filter_cons_True by lia. cbn. lia.
  - rewrite filter_cons_False by done. rewrite filter_cons. case_decide; cbn; lia.
Qed.
Lemma usable_none s : usable s = None -> forall t d, cache s = Some (t, d) -> d <= now s.
Proof. unfold usable. intros H t d E. rewrite E in H. case_decide; [done|lia]. Qed.

Record inv (s : state) (tr : list obs) (n : nat) : Prop := {
  i_lock : forall i, lock s = Some i <-> refreshing (at_ s i);
  i_cache : forall t d, cache s = Some (t, d) -> exists j at_ life, OIssued j t at_ life ∈ tr /\ at_ <= now s /\ d = at_ + life - 300;
  i_none : forall i, lock s = Some i -> usable s = None;
  i_count : match cache s with
            | Some (t, d) => exists l, ends tr = l ++ [d] /\ (length (live (now s) l) <= n)%nat
            | None => (length (live (now s) (ends tr)) <= n)%nat
            end;
}.
Lemma inv_init t0 : inv (init t0) [] 0.
Proof. split; try done. cbn. lia. Qed.
Definition popn (e : event) : nat := match e with Pop _ => 1 | _ => 0 end.

Lemma inv_go s tr n i c o : inv s tr n -> ~ refreshing (at_ s i) -> ~ refreshing c -> ends o = [] -> inv (go s i c) (tr ++ o) n.
Proof.
  intros I Hi Hc Ho. split; cbn.
  - intros j. destruct (decide (j = i)) as [->|Hj]; [|rewrite upd_ne by done; apply I]. rewrite upd_eq. split; [|done]. intros HL. by destruct Hi; apply I.
  - intros t d E. destruct (i_cache _ _ _ I t d E) as (j & a & l & ? & ? & ?). exists j, a, l. split; [|done]. apply elem_of_app. by left.
  - apply I.
  - rewrite ends_app, Ho, app_nil_r. apply I.
Qed.
Lemma step_inv s e s' o tr n : inv s tr n -> step s e = Some (s', o) -> inv s' (tr ++ o) (n + popn e).
Proof.
  intros I. destruct e as [d|i|i|i t life|i|i|i|i]; cbn [step popn]; intros E; rewrite ?Nat.add_0_r.
  - injection E as <- <-. rewrite app_nil_r. split; cbn.
    + apply I.
    + intros t d' Hc. destruct (i_cache _ _ _ I t d' Hc) as (j & a & l & ? & ? & ?). exists j, a, l. split_and!; [done|lia|done].
    + intros i Hl. pose proof (usable_none s (i_none _ _ _ I i Hl)) as U. unfold usable. cbn. destruct (cache s) as [[t' d']|] eqn:C; [|done]. specialize (U _ _ eq_refl).
      rewrite decide_False; [done|lia].
    + pose proof (i_count _ _ _ I) as H. destruct (cache s) as [[t' d']|].
      * destruct H as (l & ? & ?). exists l. split; [done|]. pose proof (live_mono (now s) (now s + Z.of_N d) l). lia.
      * pose proof (live_mono (now s) (now s + Z.of_N d) (ends tr)). lia.
  - destruct (at_ s i) eqn:A; try done. destruct (usable s); injection E as <- <-; apply inv_go; try done; rewrite ?A; cbn; tauto.
  - destruct (at_ s i) eqn:A; try done. destruct (lock s) eqn:L; [done|]. destruct (usable s) eqn:U; injection E as <- <-.
    + apply inv_go; try done; rewrite ?A; cbn; tauto.
    + split; cbn.
      * intros j. destruct (decide (j = i)) as [->|Hj]; [by rewrite upd_eq|]. rewrite upd_ne by done. split; [congruence|]. intros Hr. apply (i_lock _ _ _ I) in Hr. congruence.
      * intros t d E. destruct (i_cache _ _ _ I t d E) as (j & a & l & ? & ? & ?). exists j, a, l. split; [|done]. apply elem_of_app. by left.
      * done.
      * rewrite ends_app. cbn. rewrite app_nil_r. apply I.
  - destruct (at_ s i) eqn:A; try done. injection E as <- <-. assert (L : lock s = Some i) by (apply I; by rewrite A).
    pose proof (usable_none s (i_none _ _ _ I i L)) as U. split; cbn.
    + intros j. destruct (decide (j = i)) as [->|Hj]; [by rewrite upd_eq|]. rewrite upd_ne by done. split; [done|]. intros Hr. apply (i_lock _ _ _ I) in Hr. congruence.
    + intros t' d' [= <- <-]. exists i, (now s), life. split_and!; [|lia|done]. apply elem_of_app. right. by left.
    + done.
    + exists (ends tr). rewrite ends_app. cbn. split; [done|]. pose proof (i_count _ _ _ I) as H. destruct (cache s) as [[t' d']|]; [|done]. destruct H as (l & -> & H).
      specialize (U _ _ eq_refl). rewrite live_app, app_length. unfold live at 2. rewrite filter_cons_False by lia. cbn. lia.
  - destruct (at_ s i) eqn:A; try done. injection E as <- <-. apply inv_go; try done; rewrite ?A; cbn; tauto.
  - destruct (at_ s i) eqn:A; try done. injection E as <- <-. apply inv_go; try done; rewrite ?A; cbn; tauto.
  - destruct (at_ s i) eqn:A; try done. injection E as <- <-. rewrite app_nil_r. split; cbn.
    + intros j. destruct (decide (j = i)) as [->|Hj]; [|rewrite upd_ne by done; apply I]. rewrite upd_eq. split; [|done]. intros HL. apply (i_lock _ _ _ I) in HL. by rewrite A in HL.
    + done.
    + done.
    + pose proof (i_count _ _ _ I) as H. destruct (cache s) as [[t' d']|]; [|lia]. destruct H as (l & -> & H). rewrite live_app, app_length.
      pose proof (filter_length (fun d => now s < d) [d']) as F. unfold live at 2. cbn in *. lia.
  - injection E as <- <-. rewrite app_nil_r. split; cbn.
    + intros j. destruct (decide (j = i)) as [->|Hj].
      * rewrite upd_eq. split; [|done]. case_decide; done.
      * rewrite upd_ne by done. rewrite <- (i_lock _ _ _ I j). case_decide; [|done]. split; [done|]. intros. congruence.
    + apply I.
    + intros j. case_decide; [done|]. apply I.
    + apply I.
Qed.
Lemma handled_cons e es : handled (e :: es) = (popn e + handled es)%nat.
Proof. by destruct e. Qed.
Lemma run_inv es : forall s tr n s' o, inv s tr n -> run s es = Some (s', o) -> inv s' (tr ++ o) (n + handled es).
Proof.
  induction es as [|e es IH]; intros s tr n s' o I E; cbn in E; [injection E as <- <-; rewrite app_nil_r; cbn; by rewrite Nat.add_0_r|].
  destruct (step s e) as [[s1 o1]|] eqn:E1; [|done]. cbn in E. destruct (run s1 es) as [[s2 o2]|] eqn:E2; [|done]. injection E as <- <-.
  rewrite app_assoc, handled_cons, Nat.add_assoc. eapply IH; [|done]. by eapply step_inv.
Qed.
(** The step at which an observation is made *)
Lemma run_at x es : forall s s' o o1 o2, run s es = Some (s', o) -> o = o1 ++ x :: o2 -> exists es1 e s1 s2 oa ob oc,
  run s es1 = Some (s1, oa) /\ step s1 e = Some (s2, ob ++ x :: oc) /\ o1 = oa ++ ob.
Proof.
  induction es as [|e es IH]; intros s s' o o1 o2 E ->; cbn in E; [by destruct o1|].
  destruct (step s e) as [[s1 oe]|] eqn:E1; [|done]. cbn in E. destruct (run s1 es) as [[s2 or]|] eqn:E2; [|done]. injection E as -> E.
  destruct (decide (length o1 < length oe)%nat) as [H|H].
  - exists [], e, s, s1, [], o1. pose proof (f_equal (take (length o1)) E) as T. rewrite take_app_le in T by lia. rewrite take_app in T.
    assert (L : oe !! length o1 = Some x) by (rewrite <- (lookup_app_l _ or), E by done; by apply list_lookup_middle).
    exists (drop (S (length o1)) oe). split_and!; [done| |done]. rewrite E1. f_equal. f_equal. rewrite <- (take_drop_middle oe (length o1) x L) at 1. by rewrite T.
  - pose proof (f_equal (drop (length oe)) E) as D. rewrite drop_app in D. rewrite drop_app_le in D by lia.
    destruct (IH _ _ _ _ _ E2 D) as (es1 & e' & s3 & s4 & oa & ob & oc & R & S & Ho). exists (e :: es1), e', s3, s4, (oe ++ oa), ob, oc. split_and!.
    + cbn. rewrite E1. cbn. by rewrite R.
    + done.
    + pose proof (f_equal (take (length oe)) E) as T. rewrite take_app in T. rewrite take_app_le in T by lia. rewrite <- (take_drop (length oe) o1), <- T, Ho. by rewrite app_assoc.
Qed.

(** ** The property *)
(** At most one task asks for a token, and whoever waits for the lock waits for nobody or for that task. *)
Theorem gs_one_refresh t0 es s tr : run (init t0) es = Some (s, tr) ->
  (forall i j, refreshing (at_ s i) -> refreshing (at_ s j) -> i = j) /\ (forall i, waiting (at_ s i) -> lock s = None \/ exists j, lock s = Some j /\ refreshing (at_ s j)).
Proof.
  intros E. pose proof (run_inv es _ _ _ _ _ (inv_init t0) E) as I. split.
  - intros i j Hi Hj. apply (i_lock _ _ _ I) in Hi, Hj. congruence.
  - intros i _. destruct (lock s) as [j|] eqn:L; [right|by left]. exists j. split; [done|]. by apply I.
Qed.
(** Every request is sent with a token that does not expire in the next five minutes, or was obtained at this moment. *)
Theorem gs_unexpired t0 es s tr1 tr2 i t now : run (init t0) es = Some (s, tr1 ++ OReq i t now :: tr2) ->
  exists j at_ life, OIssued j t at_ life ∈ tr1 /\ at_ <= now /\ (now < at_ + life - 300 \/ j = i /\ at_ = now).
Proof.
  intros E. destruct (run_at _ _ _ _ _ _ _ E eq_refl) as (es1 & e & s1 & s2 & oa & ob & oc & R & S & ->).
  pose proof (run_inv es1 _ _ _ _ _ (inv_init t0) R) as I. cbn [app] in I.
  assert (usable s1 = Some t /\ now = GsTokenModel.now s1 \/ exists life, ob = [OIssued i t now life]) as [[U ->]|[life ->]].
  { destruct e; cbn in S; repeat case_match; simplify_eq; destruct ob as [|? ob]; simplify_list_eq; try done; try (by left); try (by destruct ob).
    destruct ob as [|? ob]; simplify_list_eq; [right; by eexists|]. by destruct ob. }
  - unfold usable in U. destruct (cache s1) as [[t' d]|] eqn:C; [|done]. case_decide; [|done]. injection U as ->.
    destruct (i_cache _ _ _ I t d C) as (j & a & l & ? & ? & ->). exists j, a, l. split_and!; [|done|by left]. apply elem_of_app. by left.
  - exists i, now, life. split_and!; [|lia|by right]. apply elem_of_app. right. by left.
Qed.
(** A token is asked for only if none is in use: the last one was given up after a 401, or is in its last five minutes. As a consequence, at any time there are
    at most as many unexpired tokens, counting those that expire in more than five minutes, as there were answers 401, and one. *)
Theorem gs_tokens_bounded t0 es s tr : run (init t0) es = Some (s, tr) -> (length (live (now s) (ends tr)) <= S (handled es))%nat.
Proof.
  intros E. pose proof (i_count _ _ _ (run_inv es _ _ _ _ _ (inv_init t0) E)) as H. cbn [app Nat.add] in H.
  destruct (cache s) as [[t d]|]; [|lia]. destruct H as (l & -> & H). rewrite live_app, app_length.
  pose proof (filter_length (fun d => now s < d) [d]) as F. unfold live at 2. cbn in *. lia.
Qed.
(** After a 401 has been dealt with, no attempt uses the rejected token, unless it is issued again. *)
Lemma fresh_run t es : forall s s' o, (forall d, cache s <> Some (t, d)) -> run s es = Some (s', o) -> (forall i l, Refresh i t l ∉ es) -> forall j u a, OReq j u a ∈ o -> u <> t.
Proof.
  induction es as [|e es IH]; intros s s' o C E Hn j u a Ho; cbn in E; [injection E as <- <-; by apply elem_of_nil in Ho|].
  destruct (step s e) as [[s1 o1]|] eqn:E1; [|done]. cbn in E. destruct (run s1 es) as [[s2 o2]|] eqn:E2; [|done]. injection E as <- <-.
  assert (N : forall i l, e <> Refresh i t l) by (intros i l ->; apply (Hn i l); by left).
  assert (U : usable s <> Some t). { unfold usable. destruct (cache s) as [[t' d']|]; [|done]. case_decide; [|done]. intros [= ->]. by destruct (C d'). }
  apply elem_of_app in Ho as [Ho|Ho].
  - clear IH E2 Hn C. destruct e; cbn in E1; repeat case_match; simplify_eq; try (by apply elem_of_nil in Ho).
      all: repeat (apply elem_of_cons in Ho as [Ho|Ho]; [simplify_eq; first [congruence | intros ->; by eapply N]|]); by apply elem_of_nil in Ho.
  - eapply (IH s1); try done.
    + clear IH E2 Hn Ho. intros d Hc. destruct e; cbn in E1; repeat case_match; simplify_eq; cbn in *; try (by eapply C); try (by injection Hc as ->; eapply N); done.
    + intros i l Hi. eapply Hn. by right.
Qed.
Theorem gs_rejected_unused t0 es1 s1 tr1 i t s2 o es2 s3 tr2 j u a :
  run (init t0) es1 = Some (s1, tr1) -> at_ s1 i = Rejected t -> step s1 (Pop i) = Some (s2, o) -> run s2 es2 = Some (s3, tr2) ->
  (forall k l, Refresh k t l ∉ es2) -> OReq j u a ∈ tr2 -> u <> t.
Proof.
  intros _ A S E2 Hn Ho. eapply (fresh_run t); [|done..]. cbn in S. rewrite A in S. injection S as <- <-. done.
Qed.

(** ** Examples and exceptions *)
(** Two requests with a token that is nearly used up: one refresh *)
Example refreshed_once : snd <$> run (init 0) [Start 0; Lock 0; Refresh 0 1 3600; Accept 0; Tick 3300; Start 0; Start 1; Lock 0; Refresh 0 2 3600; Lock 1; Accept 0; Accept 1]%nat =
  Some [OAsk 0 0; OIssued 0 1 0 3600; OReq 0 1 0; OAsk 0 3300; OIssued 0 2 3300 3600; OReq 0 2 3300; OReq 1 2 3300].
Proof. vm_compute. reflexivity. Qed.
Example rejected_token : snd <$> run (init 0) [Start 0; Lock 0; Refresh 0 1 3600; Reject 0; Pop 0; Start 0; Lock 0; Refresh 0 2 3600; Accept 0]%nat =
  Some [OAsk 0 0; OIssued 0 1 0 3600; OReq 0 1 0; OReject 0 1; OAsk 0 0; OIssued 0 2 0 3600; OReq 0 2 0].
Proof. vm_compute. reflexivity. Qed.

(** A 401 for an old token discards the new one: if the token of n requests is rejected, there may be n new tokens although none of those was rejected. *)
Lemma run_app es1 : forall s es2, run s (es1 ++ es2) = ('(s1, o1) ← run s es1; '(s2, o2) ← run s1 es2; Some (s2, o1 ++ o2)).
Proof.
  induction es1 as [|e es1 IH]; intros s es2; cbn.
  - by destruct (run s es2) as [[??]|].
  - destruct (step s e) as [[s1 o1]|]; [cbn|done]. rewrite IH. destruct (run s1 es1) as [[s2 o2]|]; [cbn|done]. destruct (run s2 es2) as [[s3 o3]|]; [cbn|done]. by rewrite app_assoc.
Qed.
Lemma handled_app es1 es2 : handled (es1 ++ es2) = (handled es1 + handled es2)%nat.
Proof. induction es1 as [|e es1 IH]; [done|]. cbn [app]. rewrite !handled_cons, IH. lia. Qed.
Definition phase (n k : nat) (s : state) : Prop := now s = 0 /\ lock s = None /\ cache s = Some (k, 3300) /\ forall j, (k <= j < n)%nat -> at_ s j = Sent 0.
Lemma phase_start n : exists es s tr, run (init 0) es = Some (s, tr) /\ phase n 0 s /\ (forall j, (n <= j)%nat -> j <> 0%nat -> at_ s j = Idle) /\ (forall i t, OReject i t ∉ tr) /\
  ends tr = [3300] /\ handled es = 0%nat.
Proof.
  induction n as [|n (es & s & tr & R & (N & L & C & A) & Id & Re & En & H)].
  - exists [Start 0; Lock 0; Refresh 0 0 3600]. eexists _, _. split; [reflexivity|]. cbn. split_and!; try done; [split_and!; try done; intros; lia|..].
    + intros j _ Hj. by rewrite !upd_ne by done.
    + intros i t Hi. repeat (apply elem_of_cons in Hi as [Hi|Hi]; [done|]). by apply elem_of_nil in Hi.
  - destruct (decide (n = 0%nat)) as [->|Hn].
    + exists [Start 0; Lock 0; Refresh 0 0 3600]. eexists _, _. split; [reflexivity|]. cbn. split_and!; try done.
      * split_and!; try done. intros j ?. replace j with 0%nat by lia. done.
      * intros j _ Hj. by rewrite !upd_ne by done.
      * intros i t Hi. repeat (apply elem_of_cons in Hi as [Hi|Hi]; [done|]). by apply elem_of_nil in Hi.
    + assert (S1 : step s (Start n) = Some (go s n (Sent 0), [OReq n 0 0])).
      { cbn. rewrite (Id n) by (done || lia). unfold usable. rewrite C, N. done. }
      exists (es ++ [Start n]), (go s n (Sent 0)), (tr ++ [OReq n 0 0]). split_and!.
      * rewrite run_app, R. cbn [mbind option_bind]. cbn [run]. rewrite S1. done.
      * split_and!; cbn; try done. intros j Hj. destruct (decide (j = n)) as [->|]; [by rewrite upd_eq|]. rewrite upd_ne by done. apply A. lia.
      * intros j Hj H0. cbn. rewrite upd_ne by lia. apply Id; [lia|done].
      * intros i t Hi. apply elem_of_app in Hi as [Hi|Hi]; [by eapply Re|]. apply elem_of_list_singleton in Hi. done.
      * rewrite ends_app, En. done.
      * rewrite handled_app, H. done.
Qed.
Lemma phase_step n k s : phase n k s -> (k < n)%nat -> exists s', run s [Reject k; Pop k; Start k; Lock k; Refresh k (S k) 3600] =
  Some (s', [OReject k 0; OAsk k 0; OIssued k (S k) 0 3600; OReq k (S k) 0]) /\ phase n (S k) s'.
Proof.
  intros (N & L & C & A) Hk. destruct s as [nw ca lo at_]. cbn in *. subst. eexists. split.
  - rewrite (A k) by lia. repeat (cbn [mbind option_bind GsTokenModel.at_ go GsTokenModel.lock GsTokenModel.now GsTokenModel.cache usable app]; rewrite ?upd_eq). reflexivity.
  - split_and!; cbn; try done. intros j Hj. rewrite !upd_ne by lia. apply A. lia.
Qed.
Theorem gs_herd n : exists es s tr, run (init 0) es = Some (s, tr) /\ (forall i t, OReject i t ∈ tr -> t = 0%nat) /\ handled es = n /\ length (live (now s) (ends tr)) = S n.
Proof.
  assert (X : forall k, (k <= n)%nat -> exists es s tr, run (init 0) es = Some (s, tr) /\ phase n k s /\ (forall i t, OReject i t ∈ tr -> t = 0%nat) /\ handled es = k /\
    ends tr = replicate (S k) 3300).
  { intros k. induction k as [|k IH]; intros Hk.
    - destruct (phase_start n) as (es & s & tr & ? & ? & _ & H & ? & ?). exists es, s, tr. split_and!; try done. intros i t Hi. by apply H in Hi.
    - destruct IH as (es & s & tr & R & P & Re & H & En); [lia|]. destruct (phase_step n k s P) as (s' & R' & P'); [lia|].
      exists (es ++ [Reject k; Pop k; Start k; Lock k; Refresh k (S k) 3600]), s'. eexists. split_and!.
      + rewrite run_app, R. cbn [mbind option_bind]. rewrite R'. reflexivity.
      + done.
      + intros i t Hi. apply elem_of_app in Hi as [Hi|Hi]; [by eapply Re|]. repeat (apply elem_of_cons in Hi as [Hi|Hi]; [by simplify_eq|]). by apply elem_of_nil in Hi.
      + rewrite handled_app, H. cbn. lia.
      + rewrite ends_app, En. cbn [ends]. rewrite (replicate_S_end (S k)). done. }
  destruct (X n) as (es & s & tr & R & (N & _) & Re & H & En); [done|]. exists es, s, tr. split_and!; try done. rewrite N, En. clear. induction n as [|n IH]; [done|].
  change (replicate (S (S n)) 3300) with (3300 :: replicate (S n) 3300). unfold live in *. rewrite filter_cons_True by lia. cbn [length]. by rewrite IH.
Qed.
(** So it is not true that there is one new token for every rejected one. *)
Theorem gs_renewal_refuted : ~ forall t0 es s tr t, run (init t0) es = Some (s, tr) -> (forall i t', OReject i t' ∈ tr -> t' = t) -> (length (live (now s) (ends tr)) <= 2)%nat.
Proof. intros H. destruct (gs_herd 2) as (es & s & tr & R & Re & _ & L). specialize (H _ _ _ _ 0%nat R Re). rewrite L in H. lia. Qed.
Print Assumptions gs_one_refresh.
Print Assumptions gs_unexpired.
Print Assumptions gs_tokens_bounded.
Print Assumptions gs_rejected_unused.
Print Assumptions gs_renewal_refuted.
