(** Property C68, Swift: tokens are renewed once, and a rejected token is not used again. *)
From stdpp Require Import prelude.
From Verif Require Import SwiftTokenModel.

(** ** What is meant *)
(** [a] is the result of the last completed login in [tr] *)
Definition latest (tr : list obs) (a : auth) : Prop := exists u v i, tr = u ++ OReady i a :: v /\ forall j b, OReady j b ∉ v.
Definition logging_in (c : pc) : Prop := match c with LoggingIn | Detecting _ => True | _ => False end.
(** waits for the lock *)
Definition waiting (c : pc) : Prop := match c with WaitAuth | Rejected _ => True | _ => False end.

(** ** Lemmas *)
Definition none_ready (tr : list obs) : Prop := forall j b, OReady j b ∉ tr.
Definition plain (o : list obs) : Prop := none_ready o.
Lemma latest_app tr o a : latest tr a -> none_ready o -> latest (tr ++ o) a.
Proof.
  intros (u & v & i & -> & H) Ho. exists u, (v ++ o), i. split; [by rewrite <- app_assoc|]. intros j b. rewrite elem_of_app. intros [?|?]; [by eapply H|by eapply Ho].
Qed.
Lemma none_app tr o : none_ready tr -> none_ready o -> none_ready (tr ++ o).
Proof. intros H1 H2 j b. rewrite elem_of_app. intros [?|?]; [by eapply H1|by eapply H2]. Qed.
Lemma latest_new tr i a : latest (tr ++ [OReady i a]) a.
Proof. exists tr, [], i. split; [done|]. intros ???. by eapply not_elem_of_nil. Qed.

Definition used (c : pc) : option nat := match c with WaitConn h | Conn h | Sent h _ _ => Some h | _ => None end.
Record inv (s : state) (tr : list obs) : Prop := {
  i_lock : forall i, lock s = Some i <-> logging_in (at_ s i);
  i_none : forall i, lock s = Some i -> pool s = None;
  i_pool : forall h, pool s = Some h -> exists a, latest tr a /\ cur s = Some (token a, prefix a) /\ h = host a;
  i_old : pool s = None -> none_ready tr \/ exists a k, latest tr a /\ OReject k (token a) ∈ tr;
  i_det : forall i a, at_ s i = Detecting a -> cur s = Some (token a, prefix a);
  i_rej : forall i t, at_ s i = Rejected t -> OReject i t ∈ tr;
  i_cur : forall t p, cur s = Some (t, p) -> exists j a, OIssued j a ∈ tr /\ token a = t /\ prefix a = p;
  i_det2 : forall i a, at_ s i = Detecting a -> OIssued i a ∈ tr;
  i_host : forall i h, used (at_ s i) = Some h -> exists j a, OIssued j a ∈ tr /\ host a = h;
  i_pool2 : forall h, pool s = Some h -> exists j a, OIssued j a ∈ tr /\ host a = h
}.

Lemma upd_eq {A} (f : nat -> A) i x : upd f i x i = x.
Proof. unfold upd. by rewrite decide_True. Qed.
Lemma upd_ne {A} (f : nat -> A) i j x : j <> i -> upd f i x j = f j.
Proof. intros. unfold upd. by rewrite decide_False. Qed.
Lemma inv_init : inv init [].
Proof. split; cbn; try done. left. intros ???. by eapply not_elem_of_nil. Qed.

Lemma inv_go s tr o i c : inv s tr -> ~ logging_in (at_ s i) -> ~ logging_in c -> none_ready o ->
  (forall t, c = Rejected t -> OReject i t ∈ tr ++ o) -> (forall h, used c = Some h -> exists j a, OIssued j a ∈ tr ++ o /\ host a = h) -> inv (go s i c) (tr ++ o).
Proof.
  intros I Hi Hc Ho HR HU. split; cbn.
  - intros j. destruct (decide (j = i)) as [->|Hj]; [|rewrite upd_ne by done; apply I]. rewrite upd_eq. split; [|done]. intros HL. by destruct Hi; apply I.
  - apply I.
  - intros h Hh. destruct (i_pool _ _ I h Hh) as (a & ?&?&?). exists a. split_and!; [by apply latest_app|done..].
  - intros Hp. destruct (i_old _ _ I Hp) as [?|(a & k & ? & ?)]; [left; by apply none_app|]. right. exists a, k. split; [by apply latest_app|]. apply elem_of_app. by left.
  - intros j a. destruct (decide (j = i)) as [->|Hj]; [|rewrite upd_ne by done; apply I]. rewrite upd_eq. intros ->. by destruct Hc.
  - intros j t. destruct (decide (j = i)) as [->|Hj]; [rewrite upd_eq; by apply HR|]. rewrite upd_ne by done. intros E. apply elem_of_app. left. by eapply i_rej.
  - intros t p E. destruct (i_cur _ _ I t p E) as (j & a & ? & ? & ?). exists j, a. split; [|done]. apply elem_of_app. by left.
  - intros j a. destruct (decide (j = i)) as [->|Hj]; [rewrite upd_eq; intros ->; by destruct Hc|]. rewrite upd_ne by done. intros E. apply elem_of_app. left. by eapply i_det2.
  - intros j h. destruct (decide (j = i)) as [->|Hj]; [rewrite upd_eq; apply HU|]. rewrite upd_ne by done. intros E. destruct (i_host _ _ I j h E) as (k & a & ? & ?).
    exists k, a. split; [|done]. apply elem_of_app. by left.
  - intros h E. destruct (i_pool2 _ _ I h E) as (k & a & ? & ?). exists k, a. split; [|done]. apply elem_of_app. by left.
Qed.
Lemma none_nil : none_ready [].
Proof. intros ???. by eapply not_elem_of_nil. Qed.
Lemma none_one o : (forall j b, o <> OReady j b) -> none_ready [o].
Proof. intros H j b E. apply elem_of_list_singleton in E. by eapply H. Qed.
Lemma issued_app (P : auth -> Prop) tr o : (exists j a, OIssued j a ∈ tr /\ P a) -> exists j a, OIssued j a ∈ tr ++ o /\ P a.
Proof. intros (j & a & ? & ?). exists j, a. split; [|done]. apply elem_of_app. by left. Qed.

Lemma step_inv s e s' o tr : inv s tr -> step s e = Some (s', o) -> inv s' (tr ++ o).
Proof.
  intros I. destruct e as [i|i|i a|i|i|i|i|i|i|i|i]; cbn [step]; intros E.
  - destruct (at_ s i) eqn:A; try done. injection E as <- <-.
    apply inv_go; [done|rewrite A; cbn; tauto|destruct (pool s); cbn; tauto|apply none_nil|by destruct (pool s)|]. intros h Hh. destruct (pool s) as [h'|] eqn:P; [|done]. injection Hh as ->.
    apply issued_app. by eapply i_pool2.
  - destruct (at_ s i) eqn:A; try done. destruct (lock s) eqn:L; [done|]. destruct (pool s) as [h|] eqn:P; injection E as <- <-.
    + apply inv_go; [done|rewrite A; cbn; tauto|cbn; tauto|apply none_nil|done|]. intros h' Hh. injection Hh as <-. apply issued_app. by eapply i_pool2.
    + assert (N : none_ready [OLogin i]) by by apply none_one.
      split; cbn; [| |done| | | | | | |done].
      * intros j. destruct (decide (j = i)) as [->|Hj]; [by rewrite upd_eq|]. rewrite upd_ne by done. split; [congruence|]. intros Hl. apply (i_lock _ _ I) in Hl. congruence.
      * done.
      * intros _. destruct (i_old _ _ I P) as [?|(a & k & ? & ?)]; [left; by apply none_app|]. right. exists a, k. split; [by apply latest_app|]. apply elem_of_app. by left.
      * intros j a. destruct (decide (j = i)) as [->|Hj]; [by rewrite upd_eq|]. rewrite upd_ne by done. apply I.
      * intros j t. destruct (decide (j = i)) as [->|Hj]; [by rewrite upd_eq|]. rewrite upd_ne by done. intros. apply elem_of_app. left. by eapply i_rej.
      * intros t p Hc. apply issued_app. by eapply i_cur.
      * intros j a. destruct (decide (j = i)) as [->|Hj]; [by rewrite upd_eq|]. rewrite upd_ne by done. intros. apply elem_of_app. left. by eapply i_det2.
      * intros j h. destruct (decide (j = i)) as [->|Hj]; [by rewrite upd_eq|]. rewrite upd_ne by done. intros. apply issued_app. by eapply i_host.
  - destruct (at_ s i) eqn:A; try done. injection E as <- <-. assert (L : lock s = Some i) by (apply I; by rewrite A). pose proof (i_none _ _ I i L) as P.
    assert (N : none_ready [OIssued i a]) by by apply none_one.
    split; cbn.
    * intros j. destruct (decide (j = i)) as [->|Hj]; [by rewrite upd_eq|]. rewrite upd_ne by done. apply I.
    * done.
    * intros h. by rewrite P.
    * intros _. destruct (i_old _ _ I P) as [?|(a' & k & ? & ?)]; [left; by apply none_app|]. right. exists a', k. split; [by apply latest_app|]. apply elem_of_app. by left.
    * intros j a'. destruct (decide (j = i)) as [->|Hj]; [rewrite upd_eq; by intros [= ->]|]. rewrite upd_ne by done. intros Hj'.
      assert (lock s = Some j) by (apply I; by rewrite Hj'). congruence.
    * intros j t. destruct (decide (j = i)) as [->|Hj]; [by rewrite upd_eq|]. rewrite upd_ne by done. intros. apply elem_of_app. left. by eapply i_rej.
    * intros t p [= <- <-]. exists i, a. split; [|done]. apply elem_of_app. right. by left.
    * intros j a'. destruct (decide (j = i)) as [->|Hj]; [rewrite upd_eq; intros [= ->]; apply elem_of_app; right; by left|]. rewrite upd_ne by done. intros. apply elem_of_app. left. by eapply i_det2.
    * intros j h. destruct (decide (j = i)) as [->|Hj]; [by rewrite upd_eq|]. rewrite upd_ne by done. intros. apply issued_app. by eapply i_host.
    * intros h. by rewrite P.
  - destruct (at_ s i) as [| | |a| | | |] eqn:A; try done. injection E as <- <-. assert (L : lock s = Some i) by (apply I; by rewrite A). pose proof (i_none _ _ I i L) as P.
    assert (D : exists j b, OIssued j b ∈ tr ++ [OReady i a] /\ host b = host a). { exists i, a. split; [|done]. apply elem_of_app. left. by eapply i_det2. }
    split; cbn.
    * intros j. destruct (decide (j = i)) as [->|Hj]; [by rewrite upd_eq|]. rewrite upd_ne by done. split; [done|]. intros Hl. apply (i_lock _ _ I) in Hl. congruence.
    * done.
    * intros h [= <-]. exists a. split_and!; [apply latest_new| |done]. by eapply i_det.
    * done.
    * intros j a'. destruct (decide (j = i)) as [->|Hj]; [by rewrite upd_eq|]. rewrite upd_ne by done. apply I.
    * intros j t. destruct (decide (j = i)) as [->|Hj]; [by rewrite upd_eq|]. rewrite upd_ne by done. intros. apply elem_of_app. left. by eapply i_rej.
    * intros t p Hc. apply issued_app. by eapply i_cur.
    * intros j a'. destruct (decide (j = i)) as [->|Hj]; [by rewrite upd_eq|]. rewrite upd_ne by done. intros. apply elem_of_app. left. by eapply i_det2.
    * intros j h. destruct (decide (j = i)) as [->|Hj]; [rewrite upd_eq; by intros [= <-]|]. rewrite upd_ne by done. intros. apply issued_app. by eapply i_host.
    * by intros h [= <-].
  - destruct (at_ s i) eqn:A; try done. injection E as <- <-. apply inv_go; [done|rewrite A; cbn; tauto|cbn; tauto|apply none_nil|done|]. intros h' [= <-]. apply issued_app.
    eapply i_host; [done|by rewrite A].
  - destruct (at_ s i) eqn:A; try done. destruct (cur s) as [[t p]|] eqn:C; [|done]. injection E as <- <-.
    apply inv_go; [done|rewrite A; cbn; tauto|cbn; tauto|by apply none_one|done|]. intros h' [= <-]. apply issued_app. eapply i_host; [done|by rewrite A].
  - destruct (at_ s i) eqn:A; try done. injection E as <- <-. apply inv_go; [done|rewrite A; cbn; tauto|cbn; tauto|apply none_nil|done|]. intros h' [= <-]. apply issued_app.
    eapply i_host; [done|by rewrite A].
  - destruct (at_ s i) eqn:A; try done. injection E as <- <-. apply inv_go; [done|rewrite A; cbn; tauto|cbn; tauto|by apply none_one| |done]. intros t' [= <-]. apply elem_of_app. right. by left.
  - destruct (at_ s i) eqn:A; try done. destruct (lock s) eqn:L; [done|]. injection E as <- <-.
    assert (G : inv (go s i Idle) (tr ++ [])) by (apply inv_go; [done|rewrite A; cbn; tauto|cbn; tauto|apply none_nil|done|done]).
    rewrite app_nil_r in *. unfold go in G. rewrite L in G. case_decide as D; [|done].
    pose proof (i_old _ _ G) as GO. destruct G. split; cbn in *; rewrite ?L in *; try done.
    intros _. destruct (pool s) as [h|] eqn:P; [|by apply GO]. right. destruct (i_pool _ _ I h P) as (a & La & Ca & _). rewrite Ca in D. injection D as <-.
    exists a, i. split; [done|]. by eapply i_rej.
  - destruct (at_ s i) eqn:A; try done. injection E as <- <-. apply inv_go; [done|rewrite A; cbn; tauto|cbn; tauto|apply none_nil|done|done].
  - injection E as <- <-. rewrite app_nil_r. split; cbn.
    * intros j. destruct (decide (j = i)) as [->|Hj].
      -- rewrite upd_eq. split; [|done]. case_decide; [done|]. done.
      -- rewrite upd_ne by done. rewrite <- (i_lock _ _ I j). case_decide; [|done]. split; [done|]. intros. congruence.
    * intros j. case_decide; [done|]. apply I.
    * apply I.
    * apply I.
    * intros j a'. destruct (decide (j = i)) as [->|Hj]; [by rewrite upd_eq|]. rewrite upd_ne by done. apply I.
    * intros j t. destruct (decide (j = i)) as [->|Hj]; [by rewrite upd_eq|]. rewrite upd_ne by done. apply I.
    * apply I.
    * intros j a'. destruct (decide (j = i)) as [->|Hj]; [by rewrite upd_eq|]. rewrite upd_ne by done. apply I.
    * intros j h. destruct (decide (j = i)) as [->|Hj]; [by rewrite upd_eq|]. rewrite upd_ne by done. apply I.
    * apply I.
Qed.
Lemma run_inv es : forall s tr s' o, inv s tr -> run s es = Some (s', o) -> inv s' (tr ++ o).
Proof.
  induction es as [|e es IH]; intros s tr s' o I E; cbn in E; [injection E as <- <-; by rewrite app_nil_r|].
  destruct (step s e) as [[s1 o1]|] eqn:E1; [|done]. cbn in E. destruct (run s1 es) as [[s2 o2]|] eqn:E2; [|done]. injection E as <- <-.
  rewrite app_assoc. eapply IH; [|done]. by eapply step_inv.
Qed.
Lemma run_app es1 : forall s es2, run s (es1 ++ es2) = ('(s1, o1) ← run s es1; '(s2, o2) ← run s1 es2; Some (s2, o1 ++ o2)).
Proof.
  induction es1 as [|e es1 IH]; intros s es2; cbn.
  - by destruct (run s es2) as [[??]|].
  - destruct (step s e) as [[s1 o1]|]; [cbn|done]. rewrite IH. destruct (run s1 es1) as [[s2 o2]|]; [cbn|done]. destruct (run s2 es2) as [[s3 o3]|]; [cbn|done]. by rewrite app_assoc.
Qed.
(** The step at which an observation is made *)
Lemma run_at x es : forall s s' o o1 o2, run s es = Some (s', o) -> o = o1 ++ x :: o2 -> exists es1 e s1 s2 oa ob oc,
  es1 ++ [e] `prefix_of` es /\ run s es1 = Some (s1, oa) /\ step s1 e = Some (s2, ob ++ x :: oc) /\ o1 = oa ++ ob.
Proof.
  induction es as [|e es IH]; intros s s' o o1 o2 E ->; cbn in E; [by destruct o1|].
  destruct (step s e) as [[s1 oe]|] eqn:E1; [|done]. cbn in E. destruct (run s1 es) as [[s2 or]|] eqn:E2; [|done]. injection E as -> E.
  destruct (decide (length o1 < length oe)) as [H|H].
  - exists [], e, s, s1, [], o1. pose proof (f_equal (take (length o1)) E) as T. rewrite take_app_le in T by lia. rewrite take_app in T.
    assert (L : oe !! length o1 = Some x) by (rewrite <- (lookup_app_l _ or), E by done; by apply list_lookup_middle).
    exists (drop (S (length o1)) oe). split_and!; [by exists es|done| |done]. rewrite E1. f_equal. f_equal. rewrite <- (take_drop_middle oe (length o1) x L) at 1. by rewrite T.
  - pose proof (f_equal (drop (length oe)) E) as D. rewrite drop_app in D. rewrite drop_app_le in D by lia.
    destruct (IH _ _ _ _ _ E2 D) as (es1 & e' & s3 & s4 & oa & ob & oc & P & R & S & Ho). exists (e :: es1), e', s3, s4, (oe ++ oa), ob, oc. split_and!.
    + by apply prefix_cons.
    + cbn. rewrite E1. cbn. by rewrite R.
    + done.
    + pose proof (f_equal (take (length oe)) E) as T. rewrite take_app in T. rewrite take_app_le in T by lia. rewrite <- (take_drop (length oe) o1), <- T, Ho. by rewrite app_assoc.
Qed.

(** ** The property *)
(** At most one login is in progress, and whoever waits for the lock waits for nobody or for a task that is logging in. *)
Theorem swift_one_login es s tr : run init es = Some (s, tr) ->
  (forall i j, logging_in (at_ s i) -> logging_in (at_ s j) -> i = j) /\ (forall i, waiting (at_ s i) -> lock s = None \/ exists j, lock s = Some j /\ logging_in (at_ s j)).
Proof.
  intros E. pose proof (run_inv es _ _ _ _ inv_init E) as I. split.
  - intros i j Hi Hj. apply (i_lock _ _ I) in Hi, Hj. congruence.
  - intros i _. destruct (lock s) as [j|] eqn:L; [right|by left]. exists j. split; [done|]. by apply I.
Qed.
(** A login is made only if there was none before, or the token of the last one was rejected. *)
Theorem swift_login_needed es s tr1 tr2 i : run init es = Some (s, tr1 ++ OLogin i :: tr2) ->
  (forall j a, OReady j a ∉ tr1) \/ exists a k, latest tr1 a /\ OReject k (token a) ∈ tr1.
Proof.
  intros E. destruct (run_at _ _ _ _ _ _ _ E eq_refl) as (es1 & e & s1 & s2 & oa & ob & oc & _ & R & S & ->).
  pose proof (run_inv es1 _ _ _ _ inv_init R) as I. cbn in I.
  assert (pool s1 = None /\ ob = []) as [P ->].
  { destruct e; cbn in S; repeat case_match; simplify_eq; try (by destruct ob as [|? []]). }
  rewrite app_nil_r. by apply I.
Qed.
(** Token and prefix of a request are those of one login; the host is one of those given by a login. *)
Theorem swift_request_issued es s tr1 tr2 i h t p : run init es = Some (s, tr1 ++ OReq i h t p :: tr2) ->
  (exists j a, OIssued j a ∈ tr1 /\ token a = t /\ prefix a = p) /\ (exists j a, OIssued j a ∈ tr1 /\ host a = h).
Proof.
  intros E. destruct (run_at _ _ _ _ _ _ _ E eq_refl) as (es1 & e & s1 & s2 & oa & ob & oc & _ & R & S & ->).
  pose proof (run_inv es1 _ _ _ _ inv_init R) as I. cbn in I.
  assert (at_ s1 i = Conn h /\ cur s1 = Some (t, p) /\ ob = []) as (A & C & ->).
  { destruct e; cbn in S; repeat case_match; simplify_eq; destruct ob as [|? ob]; simplify_list_eq; try done; by destruct ob. }
  rewrite app_nil_r. split; [by eapply i_cur|]. eapply i_host; [done|by rewrite A].
Qed.
Corollary swift_request_right es s tr1 tr2 i h t p h0 : run init es = Some (s, tr1 ++ OReq i h t p :: tr2) -> (forall j a, OIssued j a ∈ tr1 -> host a = h0) ->
  exists j a, OIssued j a ∈ tr1 /\ a = Auth t p h.
Proof.
  intros E H. destruct (swift_request_issued _ _ _ _ _ _ _ _ E) as [(j & a & Hj & <- & <-) (j' & a' & Hj' & <-)]. exists j, a. split; [done|].
  rewrite (H _ _ Hj'), <- (H _ _ Hj). by destruct a.
Qed.

(** Attempts that start after a 401 for token [t] has been dealt with do not use [t], unless it is issued again. *)
Definition clean (t : nat) (s : state) (J : nat -> Prop) : Prop :=
  fst <$> cur s <> Some t \/
  pool s = None /\ (forall j a, at_ s j <> Detecting a) /\ forall j, J j -> match at_ s j with Idle | WaitAuth | LoggingIn => True | _ => False end.
Lemma clean_step t J s e s' o : clean t s J -> step s e = Some (s', o) -> (forall i a, e = Login i a -> token a <> t) ->
  clean t s' J /\ forall j h u p, J j -> OReq j h u p ∈ o -> u <> t.
Proof.
  intros C E Hn. destruct C as [C|(P & D & C)].
  - split.
    + left. destruct e; cbn in E; try (pose proof (Hn _ _ eq_refl)); repeat case_match; simplify_eq; cbn in *; try congruence. by rewrite H0.
    + intros j h u p _ Ho. destruct e; cbn in E; repeat case_match; simplify_eq; try (by apply elem_of_nil in Ho); apply elem_of_list_singleton in Ho; simplify_eq.
      intros ->. by destruct C.
  - assert (X : forall i c l, (forall a, c <> Detecting a) -> (J i -> match c with Idle | WaitAuth | LoggingIn => True | _ => False end) ->
      clean t (State (cur s) None l (upd (at_ s) i c)) J).
    { intros i c l H1 H2. right. cbn. split_and!; [done|..].
      - intros j a. destruct (decide (j = i)) as [->|]; [rewrite upd_eq; apply H1|rewrite upd_ne by done; apply D].
      - intros j Hj. destruct (decide (j = i)) as [->|]; [rewrite upd_eq; by apply H2|rewrite upd_ne by done; by apply C]. }
    split.
    + destruct e as [i|i|i a|i|i|i|i|i|i|i|i]; cbn in E; unfold go, release in E; rewrite ?P in E; cbn in E.
      * destruct (at_ s i) eqn:A; try done. injection E as <- <-. by apply X.
      * destruct (at_ s i) eqn:A; try done. destruct (lock s); [done|]. injection E as <- <-. by apply X.
      * destruct (at_ s i) eqn:A; try done. injection E as <- <-. left. cbn. specialize (Hn i a eq_refl). congruence.
      * destruct (at_ s i) eqn:A; try done. by destruct (D i a).
      * destruct (at_ s i) eqn:A; try done. injection E as <- <-. apply X; [done|]. intros Hj. specialize (C i Hj). by rewrite A in C.
      * destruct (at_ s i) eqn:A; try done. destruct (cur s) as [[u p]|] eqn:Cu; [|done]. injection E as <- <-. apply X; [done|]. intros Hj. specialize (C i Hj). by rewrite A in C.
      * destruct (at_ s i) eqn:A; try done. injection E as <- <-. apply X; [done|]. intros Hj. specialize (C i Hj). by rewrite A in C.
      * destruct (at_ s i) eqn:A; try done. injection E as <- <-. apply X; [done|]. intros Hj. specialize (C i Hj). by rewrite A in C.
      * destruct (at_ s i) eqn:A; try done. destruct (lock s); [done|]. injection E as <- <-. case_decide; by apply X.
      * destruct (at_ s i) eqn:A; try done. injection E as <- <-. by apply X.
      * injection E as <- <-. by apply X.
    + intros j h u p Hj Ho. destruct e as [i|i|i a|i|i|i|i|i|i|i|i]; cbn in E; repeat case_match; simplify_eq; try (by apply elem_of_nil in Ho); apply elem_of_list_singleton in Ho; simplify_eq.
      specialize (C i Hj). by case_match.
Qed.
Lemma clean_run t J es : forall s s' o, clean t s J -> run s es = Some (s', o) -> (forall i a, Login i a ∈ es -> token a <> t) ->
  forall j h u p, J j -> OReq j h u p ∈ o -> u <> t.
Proof.
  induction es as [|e es IH]; intros s s' o C E Hn j h u p Hj Ho; cbn in E; [injection E as <- <-; by apply elem_of_nil in Ho|].
  destruct (step s e) as [[s1 o1]|] eqn:E1; [|done]. cbn in E. destruct (run s1 es) as [[s2 o2]|] eqn:E2; [|done]. injection E as <- <-.
  destruct (clean_step t J _ _ _ _ C E1) as [C1 H1]; [intros i a ->; apply (Hn i); by left|]. apply elem_of_app in Ho as [Ho|Ho]; [by eapply H1|].
  eapply (IH s1); try done. intros i a Hi. eapply Hn. by right.
Qed.
Theorem swift_rejected_unused es1 s1 tr1 i t s2 o es2 s3 tr2 j h u p :
  run init es1 = Some (s1, tr1) -> at_ s1 i = Rejected t -> step s1 (Drop i) = Some (s2, o) -> run s2 es2 = Some (s3, tr2) ->
  at_ s2 j = Idle -> (forall k a, Login k a ∈ es2 -> token a <> t) -> OReq j h u p ∈ tr2 -> u <> t.
Proof.
  intros E1 A S E2 Aj Hn Ho. pose proof (run_inv es1 _ _ _ _ inv_init E1) as I. eapply (clean_run t (fun k => k = j)); [|done..].
  cbn in S. rewrite A in S. destruct (lock s1) eqn:L; [done|]. injection S as <- <-. destruct (decide (fst <$> cur s1 = Some t)) as [D|D]; [right|by left]. cbn. split_and!; [done|..].
  - intros k a. destruct (decide (k = i)) as [->|Hk]; [by rewrite upd_eq|]. rewrite upd_ne by done. intros Hk'. assert (lock s1 = Some k) by (apply I; by rewrite Hk'). congruence.
  - intros k ->. cbn in Aj. by rewrite Aj.
Qed.

(** ** Examples and exceptions *)
(** Three requests with token 1 fail; one new login; all proceed with token 2 *)
Definition herd : list event :=
  [Borrow 0; Lock 0; Login 0 (Auth 1 7 5); Detected 0; Borrow 1; Borrow 2; Get 0; Get 1; Get 2; Send 0; Send 1; Send 2;
   Reject 0; Reject 1; Drop 0; Borrow 0; Lock 0; Drop 1] .
Example herd_blocked : run init herd = None.
Proof. vm_compute. reflexivity. Qed.
Definition herd2 : list event :=
  [Borrow 0; Lock 0; Login 0 (Auth 1 7 5); Detected 0; Borrow 1; Borrow 2; Get 0; Get 1; Get 2; Send 0; Send 1; Send 2;
   Reject 0; Reject 1; Drop 0; Borrow 0; Lock 0; Login 0 (Auth 2 7 5); Detected 0; Drop 1; Reject 2; Drop 2; Borrow 1; Borrow 2; Get 0; Get 1; Get 2; Send 0; Send 1; Send 2].
Example herd2_runs : snd <$> run init herd2 = Some
  [OLogin 0; OIssued 0 (Auth 1 7 5); OReady 0 (Auth 1 7 5); OReq 0 5 1 7; OReq 1 5 1 7; OReq 2 5 1 7; OReject 0 1; OReject 1 1;
   OLogin 0; OIssued 0 (Auth 2 7 5); OReady 0 (Auth 2 7 5); OReject 2 1; OReq 0 5 2 7; OReq 1 5 2 7; OReq 2 5 2 7].
Proof. vm_compute. reflexivity. Qed.
(** If logins name different hosts, the token for one host may be sent to another: task 1 waits for a connection of the old pool. *)
Theorem swift_host_refuted : ~ forall es s tr1 tr2 i h t p, run init es = Some (s, tr1 ++ OReq i h t p :: tr2) -> exists j a, OIssued j a ∈ tr1 /\ a = Auth t p h.
Proof.
  intros H. pose (es := [Borrow 0; Lock 0; Login 0 (Auth 1 7 5); Detected 0; Borrow 1; Get 0; Send 0; Reject 0; Drop 0; Borrow 0; Lock 0; Login 0 (Auth 2 8 6); Detected 0; Get 1; Send 1]).
  destruct (run init es) as [[s tr]|] eqn:E; [|vm_compute in E; discriminate].
  assert (T : tr = [OLogin 0; OIssued 0 (Auth 1 7 5); OReady 0 (Auth 1 7 5); OReq 0 5 1 7; OReject 0 1; OLogin 0; OIssued 0 (Auth 2 8 6); OReady 0 (Auth 2 8 6)] ++ OReq 1 5 2 8 :: []).
  { assert (X : snd <$> run init es = Some ([OLogin 0; OIssued 0 (Auth 1 7 5); OReady 0 (Auth 1 7 5); OReq 0 5 1 7; OReject 0 1; OLogin 0; OIssued 0 (Auth 2 8 6); OReady 0 (Auth 2 8 6)] ++ OReq 1 5 2 8 :: []))
      by (vm_compute; reflexivity). rewrite E in X. cbn in X. by injection X. }
  rewrite T in E. destruct (H _ _ _ _ _ _ _ _ E) as (j & a & Hj & ->). clear - Hj. repeat (apply elem_of_cons in Hj as [Hj|Hj]; [discriminate Hj|]). by apply elem_of_nil in Hj.
Qed.
Print Assumptions swift_one_login.
Print Assumptions swift_login_needed.
Print Assumptions swift_request_right.
Print Assumptions swift_rejected_unused.
Print Assumptions swift_host_refuted.
