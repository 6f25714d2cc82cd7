(** C74: messages are written as often as they should be, and where they should be; exceptions: the log file *)
From stdpp Require Import prelude strings gmap.
From Coq Require Import Ascii.
From Verif Require Import LogModel.
Local Open Scope string_scope.

(** * The filter *)
Section filter.
Context (h1 : name * nat * string * string -> Z) (h2 : name * nat * string -> Z).
Fixpoint after_ (evs : list (record * Z)) (c : cache) : cache := match evs with [] => c | (r, now) :: evs => after_ evs (pass h1 h2 r now c).2 end.
Lemma asked_length evs c : length (asked h1 h2 evs c) = length evs.
Proof. revert c. induction evs as [|[r t] evs IH]; intros c; [done|]. cbn. destruct (pass _ _ _ _ _) as [b c']. cbn. by rewrite IH. Qed.
Lemma asked_app evs evs' c : asked h1 h2 (evs ++ evs') c = (asked h1 h2 evs c ++ asked h1 h2 evs' (after_ evs c))%list.
Proof. revert c. induction evs as [|[r t] evs IH]; intros c; [done|]. cbn. destruct (pass _ _ _ _ _) as [b c']. cbn. by rewrite IH. Qed.
Lemma after_app evs evs' c : after_ (evs ++ evs') c = after_ evs' (after_ evs c).
Proof. revert c. induction evs as [|[r t] evs IH]; intros c; [done|]. cbn. by rewrite IH. Qed.
Lemma asked_at evs c j r t : evs !! j = Some (r, t) -> asked h1 h2 evs c !! j = Some (pass h1 h2 r t (after_ (take j evs) c)).1.
Proof.
  intros H. pose proof (take_drop_middle evs j (r, t) H) as E. rewrite <- E at 1. rewrite asked_app.
  assert (L : length (asked h1 h2 (take j evs) c) = j) by (rewrite asked_length, take_length; apply lookup_lt_Some in H; lia).
  rewrite lookup_app_r by lia. rewrite L, Nat.sub_diag. cbn. by destruct (pass _ _ _ _ _).
Qed.
Lemma asked_take evs c j i : i < j -> asked h1 h2 (take j evs) c !! i = asked h1 h2 evs c !! i.
Proof. intros H. rewrite <- (take_drop j evs) at 2. rewrite asked_app. destruct (decide (i < length (take j evs))) as [Hl|Hl].
  - by rewrite lookup_app_l by (by rewrite asked_length).
  - rewrite take_length in Hl. assert (length evs <= i) by lia. rewrite (drop_ge evs j) by lia. cbn. by rewrite app_nil_r. Qed.

Definition inv (evs : list (record * Z)) (bs : list bool) (c : cache) : Prop :=
  (forall z, z ∈ seen c <-> exists i r t, evs !! i = Some (r, t) /\ once r = true /\ h1 (oid r) = z) /\
  (forall z t, stamp c !! z = Some t -> exists i r, evs !! i = Some (r, t) /\ bs !! i = Some true /\ rate r <> 0 /\ h2 (kind r) = z /\
     forall i' r' t', evs !! i' = Some (r', t') -> bs !! i' = Some true -> rate r' <> 0 -> h2 (kind r') = z -> i' <= i) /\
  (forall i r t, evs !! i = Some (r, t) -> bs !! i = Some true -> rate r <> 0 -> is_Some (stamp c !! h2 (kind r))).
Lemma inv_all evs : inv evs (asked h1 h2 evs fresh) (after_ evs fresh).
Proof.
  induction evs as [|[r t] evs IH] using rev_ind.
  { split; [intros z; cbn; split; [set_solver | intros (i & ? & ? & ? & _); done] | split; [intros z t; cbn; by rewrite lookup_empty | done]]. }
  rewrite asked_app, after_app. cbn. set (c := after_ evs fresh) in *. set (bs := asked h1 h2 evs fresh) in *.
  assert (L : length bs = length evs) by apply asked_length.
  destruct IH as (I1 & I2 & I3).
  assert (old : forall i x, (evs ++ [(r, t)])%list !! i = Some x -> (i < length evs /\ evs !! i = Some x) \/ (i = length evs /\ x = (r, t))).
  { intros i x H. destruct (decide (i < length evs)); [left; by rewrite lookup_app_l in H by done|]. rewrite lookup_app_r in H by lia. destruct (i - length evs) as [|] eqn:E; cbn in H; [|done]. right. split; [lia | congruence]. }
  assert (oldb : forall b i x, (bs ++ [b])%list !! i = Some x -> i < length evs -> bs !! i = Some x). { intros b i x H Hi. by rewrite lookup_app_l in H by lia. }
  assert (newe : (evs ++ [(r, t)])%list !! length evs = Some (r, t)) by (by rewrite lookup_app_r, Nat.sub_diag by lia).
  assert (newb : forall b, (bs ++ [b])%list !! length evs = Some b) by (intros b; by rewrite lookup_app_r, L, Nat.sub_diag by lia).
  assert (S1 : forall z, z ∈ (if once r then {[h1 (oid r)]} ∪ seen c else seen c) <-> exists i r' t', (evs ++ [(r, t)])%list !! i = Some (r', t') /\ once r' = true /\ h1 (oid r') = z).
  { intros z. destruct (once r) eqn:O.
    - rewrite elem_of_union, elem_of_singleton, I1. split.
      + intros [->|(i & r' & t' & H & Ho & Hz)]; [by exists (length evs), r, t|]. exists i, r', t'. split; [by apply lookup_app_l_Some | done].
      + intros (i & r' & t' & H & Ho & Hz). apply old in H as [[Hi H]|[-> [= -> ->]]]; [right; by exists i, r', t' | by left].
    - rewrite I1. split.
      + intros (i & r' & t' & H & Ho & Hz). exists i, r', t'. split; [by apply lookup_app_l_Some | done].
      + intros (i & r' & t' & H & Ho & Hz). apply old in H as [[Hi H]|[-> [= -> ->]]]; [by exists i, r', t' | congruence]. }
  assert (keep : forall b, b = false \/ rate r = 0 -> 
     (forall z t', stamp c !! z = Some t' -> exists i r', (evs ++ [(r, t)])%list !! i = Some (r', t') /\ (bs ++ [b])%list !! i = Some true /\ rate r' <> 0 /\ h2 (kind r') = z /\
     forall i' r'' t'', (evs ++ [(r, t)])%list !! i' = Some (r'', t'') -> (bs ++ [b])%list !! i' = Some true -> rate r'' <> 0 -> h2 (kind r'') = z -> i' <= i) /\
     (forall i r' t', (evs ++ [(r, t)])%list !! i = Some (r', t') -> (bs ++ [b])%list !! i = Some true -> rate r' <> 0 -> is_Some (stamp c !! h2 (kind r')))).
  { intros b Hb. split.
    - intros z t' H. destruct (I2 z t' H) as (i & r' & He & Hs & Hr & Hk & Hl). exists i, r'. split_and!; [by apply lookup_app_l_Some | by apply lookup_app_l_Some | done | done|].
      intros i' r'' t'' He' Hb' Hr' Hk'. apply old in He' as [[Hi He']|[-> [= -> ->]]]; [eapply Hl; eauto|]. rewrite newb in Hb'. destruct Hb as [->|]; [done | congruence].
    - intros i r' t' He' Hb' Hr'. apply old in He' as [[Hi He']|[-> [= -> ->]]]; [eapply I3; eauto|]. rewrite newb in Hb'. destruct Hb as [->|]; [done | congruence]. }
  unfold pass. cbv zeta. destruct (once r && bool_decide (h1 (oid r) ∈ seen c)) eqn:O.
  { apply andb_true_iff in O as [O Hin%bool_decide_eq_true]. destruct (keep false (or_introl eq_refl)) as [K1 K2]. split; [|by split]. intros z. rewrite <- S1, O. cbn. set_solver. }
  set (c1 := if once r then _ else c). assert (C1 : seen c1 = if once r then {[h1 (oid r)]} ∪ seen c else seen c) by (unfold c1; by destruct (once r)).
  assert (C2 : stamp c1 = stamp c) by (unfold c1; by destruct (once r)).
  clearbody c1. destruct (decide (rate r = 0)) as [Hr|Hr]; cbn.
  { destruct (keep true (or_intror Hr)) as [K1 K2]. split; [intros z; rewrite C1; apply S1|]. rewrite C2. by split. }
  destruct (bool_decide _ && _); cbn.
  { destruct (keep false (or_introl eq_refl)) as [K1 K2]. split; [intros z; rewrite C1; apply S1|]. rewrite C2. by split. }
  split; [intros z; rewrite C1; apply S1|]. rewrite C2. cbn [stamp]. split.
  - intros z t' [[<- <-]|[Hne H]]%lookup_insert_Some.
    + exists (length evs), r. split_and!; [done | apply newb | done | done|]. intros i' r'' t'' He' _ _ _. apply lookup_lt_Some in He'. rewrite app_length in He'. cbn in He'. lia.
    + destruct (I2 z t' H) as (i & r' & He & Hs & Hr' & Hk & Hl). exists i, r'. split_and!; [by apply lookup_app_l_Some | by apply lookup_app_l_Some | done | done|].
      intros i' r'' t'' He' Hb' Hr'' Hk'. apply old in He' as [[Hi He']|[-> [= -> ->]]]; [eapply Hl; eauto | congruence].
  - intros i r' t' He' Hb' Hr'. apply old in He' as [[Hi He']|[-> [= -> ->]]]; [|rewrite lookup_insert; eauto].
    destruct (decide (h2 (kind r) = h2 (kind r'))) as [->|]; [rewrite lookup_insert; eauto | rewrite lookup_insert_ne by done; eapply I3; eauto].
Qed.
Lemma inv_at evs j : inv (take j evs) (asked h1 h2 (take j evs) fresh) (after_ (take j evs) fresh).
Proof. apply inv_all. Qed.

(** [evs]: all questions to the filter, with their times. No collisions of hashes. *)
Definition distinct (evs : list (record * Z)) : Prop := forall i j r t r' t', evs !! i = Some (r, t) -> evs !! j = Some (r', t') ->
  (h1 (oid r) = h1 (oid r') -> oid r = oid r') /\ (h2 (kind r) = h2 (kind r') -> kind r = kind r').
Definition ordered (evs : list (record * Z)) : Prop := forall i j r t r' t', i <= j -> evs !! i = Some (r, t) -> evs !! j = Some (r', t') -> (t <= t')%Z.
Notation yes evs i := (asked h1 h2 evs fresh !! i = Some true).
Notation no evs i := (asked h1 h2 evs fresh !! i = Some false).
Lemma take_at {A} (l : list A) j i x : take j l !! i = Some x <-> i < j /\ l !! i = Some x.
Proof. rewrite lookup_take_Some. tauto. Qed.

(** The same message; messages that differ in their arguments only *)
Definition same_message (r r' : record) : Prop := logger r = logger r' /\ level r = level r' /\ msg r = msg r' /\ args r = args r'.
Definition same_kind (r r' : record) : Prop := logger r = logger r' /\ level r = level r' /\ msg r = msg r'.
Lemma same_message_oid r r' : same_message r r' <-> oid r = oid r'.
Proof. unfold same_message, oid. split; [intros (-> & -> & -> & ->); done | intros [=]; done]. Qed.
Lemma same_kind_kind r r' : same_kind r r' <-> kind r = kind r'.
Proof. unfold same_kind, kind. split; [intros (-> & -> & ->); done | intros [=]; done]. Qed.
(** Messages without limits always pass *)
Theorem plain_pass evs i r t : evs !! i = Some (r, t) -> once r = false -> rate r = 0 -> yes evs i.
Proof. intros H O R. rewrite (asked_at _ _ _ _ _ H). unfold pass. rewrite O. cbn. by destruct (decide (rate r = 0)). Qed.
(** Messages to be written once are written at most once; and if they are not, there was the same message before *)
Theorem once_at_most evs i j r t r' t' : i < j -> evs !! i = Some (r, t) -> evs !! j = Some (r', t') -> once r = true -> once r' = true -> same_message r r' -> no evs j.
Proof.
  rewrite same_message_oid. intros Hij Hi Hj Oi Oj E. rewrite (asked_at _ _ _ _ _ Hj). destruct (inv_at evs j) as (I1 & _ & _). unfold pass. rewrite Oj. cbn.
  rewrite bool_decide_eq_true_2; [done|]. apply I1. exists i, r, t. rewrite take_at, E. done.
Qed.
Theorem once_first evs j r t : distinct evs -> evs !! j = Some (r, t) -> once r = true -> rate r = 0 ->
  (yes evs j <-> forall i r' t', i < j -> evs !! i = Some (r', t') -> once r' = true -> ~ same_message r' r).
Proof.
  setoid_rewrite same_message_oid. intros D Hj Oj R. split.
  - intros Hy i r' t' Hij Hi Oi E. pose proof (once_at_most evs i j r' t' r t Hij Hi Hj Oi Oj (proj2 (same_message_oid _ _) E)). congruence.
  - intros Hn. rewrite (asked_at _ _ _ _ _ Hj). destruct (inv_at evs j) as (I1 & _ & _). unfold pass. rewrite Oj. cbn. rewrite bool_decide_eq_false_2; [by destruct (decide (rate r = 0))|].
    intros (i & r' & t' & Hi & Oi & E)%I1. apply take_at in Hi as [Hij Hi]. apply (Hn i r' t' Hij Hi Oi). by apply (D i j r' t' r t Hi Hj).
Qed.
(** Messages with a rate limit are written at least that far apart, except the last one; and if they are not written, one has been before, within this time *)
Theorem rate_apart evs i j r t r' t' : ordered evs -> i < j -> evs !! i = Some (r, t) -> evs !! j = Some (r', t') -> rate r <> 0 -> rate r' <> 0 -> same_kind r r' -> last r' = false ->
  yes evs i -> yes evs j -> (Z.of_nat (rate r') <= t' - t)%Z.
Proof.
  rewrite same_kind_kind. intros Ho Hij Hi Hj Ri Rj E La Yi Yj. rewrite (asked_at _ _ _ _ _ Hj) in Yj. destruct (inv_at evs j) as (_ & I2 & I3).
  assert (Ti : take j evs !! i = Some (r, t)) by (by apply take_at). assert (Bi : asked h1 h2 (take j evs) fresh !! i = Some true) by (by rewrite asked_take).
  destruct (I3 i r t Ti Bi Ri) as [u Hu]. destruct (I2 _ u Hu) as (k & r2 & Hk & _ & _ & _ & Hl). specialize (Hl i r t Ti Bi Ri eq_refl).
  apply take_at in Hk as [Hkj Hk]. pose proof (Ho i k r t r2 u Hl Hi Hk) as Htu.
  unfold pass in Yj. destruct (once r' && _); [done|]. destruct (decide (rate r' = 0)); [done|]. 
  assert (Es : stamp (if once r' then Cache ({[h1 (oid r')]} ∪ seen (after_ (take j evs) fresh)) (stamp (after_ (take j evs) fresh)) else after_ (take j evs) fresh) !! h2 (kind r') = Some u) by (rewrite <- E; by destruct (once r')).
  rewrite Es, La in Yj. cbn in Yj. destruct (bool_decide _) eqn:Eb; [done|]. apply bool_decide_eq_false in Eb. lia.
Qed.
Theorem rate_dropped evs j r t : distinct evs -> evs !! j = Some (r, t) -> once r = false -> rate r <> 0 -> no evs j ->
  last r = false /\ ((t < Z.of_nat (rate r))%Z \/ exists i r' t', i < j /\ evs !! i = Some (r', t') /\ yes evs i /\ rate r' <> 0 /\ same_kind r' r /\ (t - t' < Z.of_nat (rate r))%Z).
Proof.
  setoid_rewrite same_kind_kind. intros D Hj O R Hn. rewrite (asked_at _ _ _ _ _ Hj) in Hn. destruct (inv_at evs j) as (_ & I2 & _). unfold pass in Hn. rewrite O in Hn. cbn in Hn. destruct (decide (rate r = 0)); [done|].
  destruct (bool_decide _) eqn:Eb; [|done]. destruct (last r); [done|]. apply bool_decide_eq_true in Eb. split; [done|].
  destruct (stamp _ !! _) as [u|] eqn:Eu; cbn in Eb; [|left; lia]. right. destruct (I2 _ u Eu) as (i & r' & Hi & Hb & Hr & Hk & _). apply take_at in Hi as [Hij Hi]. exists i, r', u.
  split_and!; [done | done | by rewrite asked_take in Hb | done | by apply (D i j r' u r t Hi Hj) | lia].
Qed.
End filter.

(** * Which handlers get a message. The console comes first; the filter is the same one for both. *)
Section handlers.
Context (h1 : name * nat * string * string -> Z) (h2 : name * nat * string -> Z).
Notation quest l := ((fun x : nat * record * Z => (x.1.2, x.2)) <$> l).
Lemma written_at hs calls j x b : written h1 h2 hs calls !! j = Some (x, b) <-> exists t, all_asks hs calls !! j = Some (x, t) /\ asked h1 h2 (quest (all_asks hs calls)) fresh !! j = Some b.
Proof.
  unfold written. rewrite lookup_zip_with_Some. split.
  - intros (y & b' & E & Hy & Hb). destruct y as [y t]. cbn in E. inversion E; subst. by exists t.
  - intros (t & H1 & H2). by exists (x, t), b.
Qed.
(** Handlers that are asked: those whose level is met *)
Lemma asks_in hs r ts i r' t : length ts = length hs -> (i, r', t) ∈ asks hs (r, ts) <-> r' = r /\ (exists l, hs !! i = Some l /\ l <= level r) /\ ts !! i = Some t.
Proof.
  intros L. unfold asks. rewrite elem_of_list_omap. split.
  - intros ([k [l u]] & Hin & H). destruct (decide (l <= level r)); [|done]. injection H as <- <- <-.
    apply elem_of_list_lookup in Hin as [n Hn]. apply lookup_zip_with_Some in Hn as (a & [b c] & [= -> -> ->] & Ha & Hb). apply lookup_seq in Ha as [-> Ha]. apply lookup_zip_with_Some in Hb as (? & ? & [= -> ->] & Hb & Hc). eauto.
  - intros (-> & (l & Hl & Hle) & Ht). exists (i, (l, t)). split; [|by destruct (decide (l <= level r))]. apply elem_of_list_lookup. exists i. apply lookup_zip_with_Some. exists i, (l, t).
    split; [done|]. split; [apply lookup_seq; split; [done | by apply lookup_lt_Some in Hl]|]. apply lookup_zip_with_Some. by exists l, t.
Qed.
(** A message without limits is written by every handler whose level it has *)
Theorem plain_everywhere hs calls r ts i l : (r, ts) ∈ calls -> length ts = length hs -> once r = false -> rate r = 0 -> hs !! i = Some l -> l <= level r -> (i, r, true) ∈ written h1 h2 hs calls.
Proof.
  intros Hc L O R Hi Hl. destruct (lookup_lt_is_Some_2 ts i) as [t Ht]; [rewrite L; by eapply lookup_lt_Some|].
  assert (Ha : (i, r, t) ∈ all_asks hs calls). { unfold all_asks. apply elem_of_list_bind. exists (r, ts). split; [|done]. apply asks_in; [done | eauto]. }
  apply elem_of_list_lookup in Ha as [j Hj]. apply elem_of_list_lookup. exists j. apply written_at. exists t. split; [done|]. eapply plain_pass; [|done|done]. rewrite list_lookup_fmap, Hj. done.
Qed.
(** Nothing else is written *)
Theorem written_sound hs calls i r b : (forall r ts, (r, ts) ∈ calls -> length ts = length hs) -> (i, r, b) ∈ written h1 h2 hs calls -> (exists ts, (r, ts) ∈ calls) /\ exists l, hs !! i = Some l /\ l <= level r.
Proof.
  intros L [j Hj]%elem_of_list_lookup. apply written_at in Hj as (t & Hj & _). apply elem_of_list_lookup_2 in Hj. unfold all_asks in Hj. apply elem_of_list_bind in Hj as ([r' ts] & Ha & Hc).
  apply asks_in in Ha as (-> & Hl & _); [|by eapply L]. eauto.
Qed.
(** What goes to the log file if there is a console as well: a message to be written once never does, in whatever order the messages come *)
Lemma asks_two lc lf r t1 t2 : asks [lc; lf] (r, [t1; t2]) = ((if decide (lc <= level r) then [(0, r, t1)] else []) ++ (if decide (lf <= level r) then [(1, r, t2)] else []))%list.
Proof. unfold asks. cbn. destruct (decide (lc <= level r)), (decide (lf <= level r)); done. Qed.
Lemma before_file lc lf calls j r t : (forall r ts, (r, ts) ∈ calls -> length ts = 2) -> all_asks [lc; lf] calls !! j = Some (1, r, t) -> lc <= level r -> exists i u, S i = j /\ all_asks [lc; lf] calls !! i = Some (0, r, u).
Proof.
  revert j. induction calls as [|[r0 ts] calls IH]; intros j L Hj Hl; [done|].
  assert (L0 : length ts = 2) by (apply (L r0), elem_of_list_here). destruct ts as [|t1 [|t2 [|]]]; try done.
  unfold all_asks in *. cbn [mbind list_bind] in *. rewrite asks_two in *. rewrite <- app_assoc in *.
  assert (L' : forall r ts, (r, ts) ∈ calls -> length ts = 2) by (intros; eapply L, elem_of_list_further; eauto).
  destruct (decide (lc <= level r0)) as [Hc|Hc], (decide (lf <= level r0)) as [Hf|Hf]; cbn in Hj |- *.
  - destruct j as [|[|j]]; cbn in Hj; [congruence| |].
    + injection Hj as -> ->. by exists 0, t1.
    + destruct (IH j L' Hj Hl) as (i & u & <- & Hi). by exists (S (S i)), u.
  - destruct j as [|j]; cbn in Hj; [congruence|]. destruct (IH j L' Hj Hl) as (i & u & <- & Hi). by exists (S i), u.
  - destruct j as [|j]; cbn in Hj; [injection Hj as -> ->; lia|]. destruct (IH j L' Hj Hl) as (i & u & <- & Hi). by exists (S i), u.
  - by apply IH.
Qed.
Theorem once_not_filed lc lf calls r : (forall r ts, (r, ts) ∈ calls -> length ts = 2) -> once r = true -> lc <= level r -> (1, r, true) ∉ written h1 h2 [lc; lf] calls.
Proof.
  intros L O Hl [j Hj]%elem_of_list_lookup. apply written_at in Hj as (t & Hj & Hb). destruct (before_file _ _ _ _ _ _ L Hj Hl) as (i & u & <- & Hi).
  assert (asked h1 h2 (quest (all_asks [lc; lf] calls)) fresh !! S i = Some false).
  { eapply (once_at_most h1 h2 _ i (S i) r u r t); [lia | rewrite list_lookup_fmap, Hi; done | rewrite list_lookup_fmap, Hj; done | done | done | done]. }
  congruence.
Qed.
(** ... and one with a rate limit does not, unless it is the last one or writing to the console takes longer than that *)
Theorem rate_not_filed lc lf calls j r u t : (forall r ts, (r, ts) ∈ calls -> length ts = 2) -> ordered (quest (all_asks [lc; lf] calls)) -> rate r <> 0 -> last r = false -> lc <= level r ->
  all_asks [lc; lf] calls !! j = Some (0, r, u) -> all_asks [lc; lf] calls !! S j = Some (1, r, t) -> (t - u < Z.of_nat (rate r))%Z ->
  written h1 h2 [lc; lf] calls !! j = Some (0, r, true) -> written h1 h2 [lc; lf] calls !! S j = Some (1, r, false).
Proof.
  intros L Ho R La Hl Hj Hj' Ht Hw. apply written_at in Hw as (u' & Hu & Hy). rewrite Hj in Hu. injection Hu as <-.
  destruct (asked h1 h2 (quest (all_asks [lc; lf] calls)) fresh !! S j) as [[]|] eqn:E.
  - exfalso. assert (Z.of_nat (rate r) <= t - u)%Z; [|lia]. eapply (rate_apart h1 h2 _ j (S j) r u r t); eauto; [rewrite list_lookup_fmap, Hj; done | rewrite list_lookup_fmap, Hj'; done | by repeat split].
  - apply written_at. eauto.
  - apply lookup_ge_None in E. rewrite asked_length, fmap_length in E. apply lookup_lt_Some in Hj'. lia.
Qed.
(** If the console is the only handler, or (in the background) the log file: see [once_first], [rate_apart], [rate_dropped] *)
Theorem single_asks l calls : (forall r ts, (r, ts) ∈ calls -> length ts = 1) -> (all_asks [l] calls).*1 = (fun r => (0, r)) <$> List.filter (fun r => bool_decide (l <= level r)) calls.*1.
Proof.
  intros L. induction calls as [|[r ts] calls IH]; [done|]. assert (L0 : length ts = 1) by (apply (L r), elem_of_list_here). destruct ts as [|t [|]]; try done.
  unfold all_asks in *. cbn [mbind list_bind]. rewrite fmap_app, IH by (intros; eapply L, elem_of_list_further; eauto). unfold asks. cbn. destruct (decide (l <= level r)).
  - by rewrite bool_decide_eq_true_2.
  - by rewrite bool_decide_eq_false_2.
Qed.
End handlers.

(** * Refuted *)
Definition warn : record := Rec ["s3ql"; "backends"; "swift"] 30 "server does not support bulk delete" "" true 0 false false [].
Definition progress (n : string) (fin : bool) : record := Rec ["s3ql"; "fsck"] 20 "..processed %s objects" n false 1 fin true (String.list_ascii_of_string n).
(** That everything that is written to the console is in the log file, too *)
Theorem file_refuted : ~ forall h1 h2 lc lf calls r, (forall r ts, (r, ts) ∈ calls -> length ts = 2) -> lf <= lc -> (0, r, true) ∈ written h1 h2 [lc; lf] calls -> (1, r, true) ∈ written h1 h2 [lc; lf] calls.
Proof.
  intros H. specialize (H (fun _ => 1%Z) (fun _ => 1%Z) INFO NOTSET [(warn, [50; 50]%Z)] warn). eapply (once_not_filed _ _ INFO NOTSET [(warn, [50; 50]%Z)] warn); cycle 3.
  - apply H; [intros r ts [= -> ->]%elem_of_list_singleton; done | unfold NOTSET, INFO; lia|]. vm_compute. left.
  - intros r ts [= -> ->]%elem_of_list_singleton. done.
  - done.
  - vm_compute. lia.
Qed.
(** That the first message of its kind is written: not shortly after the system was started *)
Theorem boot_refuted : ~ forall h1 h2 evs j r t, distinct h1 h2 evs -> ordered evs -> (0 <= t)%Z -> evs !! j = Some (r, t) -> once r = false -> (forall i r' t', i < j -> evs !! i = Some (r', t') -> kind r' <> kind r) ->
  asked h1 h2 evs fresh !! j = Some true.
Proof.
  intros H. specialize (H (fun _ => 1%Z) (fun _ => 1%Z) [(Rec ["x"] 20 "m" "" false 60 false false [], 30%Z)] 0 (Rec ["x"] 20 "m" "" false 60 false false []) 30%Z).
  assert (E : asked (fun _ => 1%Z) (fun _ => 1%Z) [(Rec ["x"] 20 "m" "" false 60 false false [], 30%Z)] fresh !! 0 = Some false) by reflexivity.
  rewrite H in E; [done | | | | reflexivity | done | intros; lia].
  - intros [|i] [|j] r t r' t'; cbn; intros; simplify_eq; done.
  - intros [|i] [|j] r t r' t'; cbn; intros; simplify_eq; lia.
  - lia.
Qed.
(** Non-trivial case: warning, progress, quickly again, later, last *)
Example filter_example : asked (fun x => Z.of_nat x.1.1.2) (fun k => Z.of_nat k.1.2) [(warn, 100); (progress "1" false, 100); (progress "2" false, 100); (warn, 100); (progress "3" false, 101); (progress "4" true, 101)]%Z fresh
  = [true; true; false; false; true; true].
Proof. vm_compute. done. Qed.
(** Console and file: the warning and the first progress message are on the console only, the last one is in both *)
Example written_example : written (fun x => Z.of_nat x.1.1.2) (fun k => Z.of_nat k.1.2) [INFO; NOTSET] [(warn, [100; 100]); (progress "1" false, [100; 100]); (progress "2" true, [100; 100])]%Z
  = [(0, warn, true); (1, warn, false); (0, progress "1" false, true); (1, progress "1" false, false); (0, progress "2" true, true); (1, progress "2" true, true)].
Proof. vm_compute. done. Qed.
Print Assumptions once_not_filed.
Print Assumptions rate_dropped.
