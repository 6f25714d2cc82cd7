(** The invariant of the mount protocol. *)
From stdpp Require Import prelude.
From Verif Require Import MountModel MountSpec.

Section proofs.
Context {D : Type} (repair : D -> D) (strict : bool).
Notation state := (state D).
Notation label := (label D).

Lemma upd_eq {A} (f : nat -> A) k v : upd f k v k = v.
Proof. unfold upd. by rewrite Nat.eqb_refl. Qed.
Lemma upd_ne {A} (f : nat -> A) k v k' : k' <> k -> upd f k v k' = f k'.
Proof. intros H. unfold upd. by rewrite (proj2 (Nat.eqb_neq k' k)). Qed.

Definition auth (s : state) (m : nat) : Prop :=
  exists p, lp s m = Some p /\ (seq (rp s) < seq p \/ (seq (rp s) = seq p /\ forall m', ~ ahead s m')).
Definition restoring (s : state) (m : nat) : Prop :=
  exists c q, act s = Some (m, c, q) /\ exists d n, c = R0 d n \/ c = R1 d n.
Definition cache_ok (s : state) (m : nat) : Prop := cache s m = None \/ cache s m = Some (ldb s m).
Definition outdated (s : state) (m : nat) : Prop := forall p, lp s m = Some p -> seq p < seq (rp s).
Definition none_ahead (s : state) : Prop := forall m, ~ ahead s m.
Definition others_old (s : state) (m : nat) : Prop := forall m', m' <> m -> outdated s m'.
Definition session (s : state) (m : nat) (p : par) : Prop :=
  mounted (rp s) = true /\ seq (rp s) = seq p /\ (exists l, lp s m = Some l /\ seq l = seq p) /\ others_old s m.

Definition at_pc (s : state) (t : D) (m : nat) (c : pc D) (p : par) : Prop :=
  match c with
  | MDown => p = rp s /\ mounted p = false /\ none_ahead s /\ outdated s m
  | MReady => p = rp s /\ mounted p = false /\ none_ahead s /\ ldb s m = t /\ (strict = true -> cache_ok s m)
  | MWrote => lp s m = Some p /\ seq p = S (seq (rp s)) /\ mounted p = true /\ mounted (rp s) = false
  | Running | U1 | U2 => session s m p /\ mounted p = true
  | U3 => session s m p /\ mounted p = true /\ lp s m = Some p
  | U4 => session s m p /\ mounted p = true /\ lp s m = Some p
  | U5 => lp s m = Some p /\ seq p = S (seq (rp s)) /\ mounted p = true /\ mounted (rp s) = true
  | V1 => session s m p /\ mounted p = false
  | V2 => session s m p /\ mounted p = false /\ snap s (seq p) = Some t
  | V3 => session s m p /\ mounted p = false /\ snap s (seq p) = Some t /\ lp s m = Some p
  | FDown => seq p = seq (rp s) /\ mounted p = mounted (rp s) /\ none_ahead s /\ outdated s m /\ cache s m = None
  | FReady rem => seq (rp s) <= seq p /\ (rem = false -> ldb s m = t) /\ (strict = true -> cache_ok s m)
  | F1 => lp s m = Some p /\ seq (rp s) < seq p /\ mounted p = true
  | F2 | F3 => session s m p /\ mounted p = true
  | F4 => session s m p /\ mounted p = false /\ needs_fsck p = false /\ snap s (seq p) = Some t
  | F5 => session s m p /\ mounted p = false /\ needs_fsck p = false /\ snap s (seq p) = Some t /\ lp s m = Some p
  | R0 _ n | R1 _ n => seq (rp s) < n /\ (strict = true -> cache s m = None)
  end.

(** [ex]: machines whose database is being replaced *)
Record core (s : state) (t : D) (ex : nat -> Prop) : Prop := {
  i_one : forall m m', ahead s m -> ahead s m' -> m = m';
  i_data : forall m, auth s m -> ~ ex m -> ldb s m = t /\ (strict = true -> cache_ok s m);
  i_clean : mounted (rp s) = false -> forall m p, lp s m = Some p -> seq p = seq (rp s) -> p = rp s;
  i_snap : mounted (rp s) = false -> none_ahead s -> snap s (seq (rp s)) = Some t
}.
Definition act_ok (s : state) (t : D) : Prop := forall m c p, act s = Some (m, c, p) ->
  (forall m', m' <> m -> ~ ahead s m') /\ at_pc s t m c p /\ match c with R1 b _ => ldb s m = b | _ => True end.
Definition inv (s : state) (t : D) : Prop := core s t (restoring s) /\ act_ok s t.

Lemma created_inv s t : created s t -> inv s t.
Proof.
  intros [Ha Hc Hs Hl].
  assert (none_ahead s) as Hn.
  { intros m (p & Hp & Hlt). destruct (Hl _ _ Hp) as [?|[-> _]]; lia. }
  split; [split|].
  - intros m m' H. by destruct (Hn m).
  - intros m (p & Hp & H) _. destruct (Hl _ _ Hp) as [?|(-> & <- & H2)]; [destruct H as [?|[? _]]; lia|].
    split; [done|]. intros _. exact H2.
  - intros _ m p Hp Hq. destruct (Hl _ _ Hp) as [?|(-> & _)]; [lia|done].
  - auto.
  - intros m c p. rewrite Ha. done.
Qed.

Lemma read_cached_spec s m :
  match read_cached s m with
  | Some l => lp s m = Some l /\ seq (rp s) <= seq l
  | None => outdated s m
  end.
Proof.
  unfold read_cached, outdated. destruct (lp s m) as [p|] eqn:E; [|done].
  case_decide; [intros ? [= <-]; done|]. split; [done|lia].
Qed.

(** Steps that keep the local and remote parameters. *)
Lemma not_ahead_others s m : (forall m', m' <> m -> ~ ahead s m') -> ~ ahead s m -> none_ahead s.
Proof. intros H1 H2 m'. destruct (decide (m' = m)) as [->|]; auto. Qed.
Lemma outdated_not_ahead s m : outdated s m -> ~ ahead s m.
Proof. intros H (p & Hp & Hlt). specialize (H p Hp). lia. Qed.
Lemma session_none_ahead s m p : session s m p -> none_ahead s.
Proof.
  intros (_ & H2 & (l & Hl & Hq) & H4) m' (p' & Hp & Hlt). destruct (decide (m' = m)) as [->|Hn].
  - simplify_eq. lia.
  - specialize (H4 m' Hn p' Hp). lia.
Qed.
Lemma session_auth s m p : session s m p -> auth s m.
Proof.
  intros H. pose proof (session_none_ahead _ _ _ H) as Hn. destruct H as (_ & H2 & (l & Hl & Hq) & _).
  exists l. split; [done|]. right. split; [congruence|]. exact Hn.
Qed.
Lemma outdated_not_auth s m : outdated s m -> ~ auth s m.
Proof. intros H (p & Hp & Hlt). specialize (H p Hp). destruct Hlt as [?|[? _]]; lia. Qed.
Lemma session_auth_only s m p m' : session s m p -> auth s m' -> m' = m.
Proof.
  intros H Ha. destruct (decide (m' = m)) as [|Hn]; [done|]. exfalso. destruct H as (_ & _ & _ & H).
  exact (outdated_not_auth s m' (H m' Hn) Ha).
Qed.

Definition no_ex (_ : nat) : Prop := False.

Lemma core_act s t ex a : core s t ex -> core (set_act a s) t ex.
Proof. intros [H1 H2 H3 H4]. split; done. Qed.
Lemma core_ex s t (ex ex' : nat -> Prop) : core s t ex -> (forall m, auth s m -> ex m -> ex' m) -> core s t ex'.
Proof. intros [H1 H2 H3 H4] H. split; [done| |done|done]. intros m Ha He. apply H2; [done|]. intros Hx. apply He, H; done. Qed.
Lemma core_outdated s t ex m d c : core s t ex -> outdated s m -> core (set_cache m c (set_ldb m d s)) t ex.
Proof.
  intros [H1 H2 H3 H4] Ho. split; [done| |done|done]. intros m' Ha He.
  destruct (decide (m' = m)) as [->|Hn]; [by destruct (outdated_not_auth s m Ho)|].
  destruct (H2 m' Ha He) as [Ht Hc]. unfold cache_ok in *. cbn. rewrite !upd_ne by done. auto.
Qed.
Lemma core_ldb_ex s t (ex : nat -> Prop) m d : core s t ex -> ex m -> core (set_ldb m d s) t ex.
Proof.
  intros [H1 H2 H3 H4] Ho. split; [done| |done|done]. intros m' Ha He.
  destruct (decide (m' = m)) as [->|Hn]; [done|].
  destruct (H2 m' Ha He) as [Ht Hc]. unfold cache_ok in *. cbn. rewrite !upd_ne by done. auto.
Qed.
Lemma core_cache_None s t ex m : core s t ex -> core (set_cache m None s) t ex.
Proof.
  intros [H1 H2 H3 H4]. split; [done| |done|done]. intros m' Ha He.
  destruct (H2 m' Ha He) as [Ht Hc]. split; [done|]. intros Hs. unfold cache_ok, set_cache; cbn.
  destruct (decide (m' = m)) as [->|Hn]; [rewrite upd_eq; by left|]. rewrite upd_ne by done. apply Hc, Hs.
Qed.
Lemma core_ahead s t ex m p t' : core s t ex -> (forall m', m' <> m -> ~ ahead s m') ->
  seq (rp s) < seq p -> ldb s m = t' -> (strict = true -> cache_ok s m) -> core (set_lp m p s) t' no_ex.
Proof.
  intros [H1 H2 H3 H4] Ho Hlt Hd Hc.
  assert (ahead (set_lp m p s) m) as Ham. { exists p. cbn. rewrite upd_eq. done. }
  assert (forall m', ahead (set_lp m p s) m' -> m' = m) as Hu.
  { intros m' (p' & Hp' & Hlt'). cbn in *. destruct (decide (m' = m)) as [|Hn]; [done|]. rewrite upd_ne in Hp' by done.
    destruct (Ho m' Hn). exists p'. done. }
  split.
  - intros a b Ha Hb. by rewrite (Hu a Ha), (Hu b Hb).
  - intros m' (p' & Hp' & [Hs|[_ Hs]]) _; [|by destruct (Hs m)].
    assert (m' = m) as ->. { apply Hu. exists p'. done. } done.
  - intros Hm m' p' Hp' Hq. cbn in *. destruct (decide (m' = m)) as [->|Hn].
    + rewrite upd_eq in Hp'. simplify_eq. lia.
    + rewrite upd_ne in Hp' by done. by apply (H3 Hm m').
  - intros _ Hn. by destruct (Hn m).
Qed.
Lemma rp_session s t ex m p : core s t ex -> (forall m', m' <> m -> ~ ahead s m') ->
  seq (rp s) < seq p -> lp s m = Some p -> mounted p = true -> session (set_rp p s) m p.
Proof.
  intros H Ho Hlt Hl Hm. split; [done|]. split; [done|]. split; [by exists p|].
  intros m' Hn p' Hp'. cbn in *. assert (~ seq (rp s) < seq p'); [|lia]. intros Hc. destruct (Ho m' Hn). by exists p'.
Qed.
Lemma core_rp s t ex m p : core s t ex -> (forall m', m' <> m -> ~ ahead s m') ->
  seq (rp s) < seq p -> lp s m = Some p -> mounted p = true -> ~ ex m -> core (set_rp p s) t no_ex.
Proof.
  intros Hc Ho Hlt Hl Hm He. pose proof (rp_session _ _ _ _ _ Hc Ho Hlt Hl Hm) as Hs. split.
  - intros a b Ha. by destruct (session_none_ahead _ _ _ Hs a).
  - intros m' Ha _. rewrite (session_auth_only _ _ _ _ Hs Ha). apply (i_data _ _ _ Hc m); [|done].
    exists p. auto.
  - cbn. congruence.
  - cbn. congruence.
Qed.
Lemma core_snap s t ex n d : core s t ex -> mounted (rp s) = true -> core (set_snap n d s) t ex.
Proof. intros [H1 H2 H3 H4] Hm. split; [done|done|done|]. cbn. congruence. Qed.
Lemma core_change s t ex m p d c ex' : core s t ex -> session s m p -> (strict = true -> c = None \/ c = Some d) ->
  core (set_cache m c (set_ldb m d s)) d ex'.
Proof.
  intros [H1 H2 H3 H4] Hs Hc. split; [done| |done|].
  - intros m' Ha _. rewrite (session_auth_only _ _ _ m' Hs Ha). unfold cache_ok. cbn. rewrite !upd_eq. auto.
  - destruct Hs as [Hm _]. cbn. congruence.
Qed.
Lemma session_lp s m p q : session s m p -> seq q = seq p -> session (set_lp m q s) m q.
Proof.
  intros (H1 & H2 & H3 & H4) Hq. split; [done|]. split; [cbn; congruence|]. split.
  - exists q. cbn. by rewrite upd_eq.
  - intros m' Hn p'. cbn. rewrite upd_ne by done. apply H4, Hn.
Qed.
Lemma core_lp s t ex m p q : core s t ex -> session s m p -> seq q = seq p -> ~ ex m -> core (set_lp m q s) t no_ex.
Proof.
  intros [H1 H2 H3 H4] Hs Hq He. pose proof (session_lp _ _ _ _ Hs Hq) as Hs'. split.
  - intros a b Ha. by destruct (session_none_ahead _ _ _ Hs' a).
  - intros m' Ha _. rewrite (session_auth_only _ _ _ _ Hs' Ha). apply (H2 m); [|done]. by eapply session_auth.
  - destruct Hs as [Hm _]. cbn. congruence.
  - destruct Hs as [Hm _]. cbn. congruence.
Qed.
Lemma core_rp_same s t ex m p : core s t ex -> session s m p -> lp s m = Some p -> ~ ex m ->
  (mounted p = false -> snap s (seq p) = Some t) -> core (set_rp p s) t no_ex.
Proof.
  intros [H1 H2 H3 H4] Hs Hl He Hsn.
  assert (none_ahead (set_rp p s)) as Hna.
  { intros m' (p' & Hp' & Hlt). cbn in *. destruct (session_none_ahead _ _ _ Hs m'). exists p'. split; [done|].
    destruct Hs as (_ & -> & _). done. }
  split.
  - intros a b Ha. by destruct (Hna a).
  - intros m' (p' & Hp' & Ha) _. cbn in *.
    assert (auth s m') as Ha'. { exists p'. split; [done|]. destruct Hs as (Q & Q2 & Q3). rewrite Q2. destruct Ha as [?|[? _]]; [by left|]. right. split; [done|]. by eapply session_none_ahead. }
    apply H2; [done|]. by rewrite (session_auth_only _ _ _ m' Hs Ha').
  - cbn. intros _ m' p' Hp' Hq. destruct (decide (m' = m)) as [->|Hn]; [congruence|].
    destruct Hs as (_ & Hq2 & _ & Ho). specialize (Ho m' Hn p' Hp'). lia.
  - cbn. auto.
Qed.
Lemma session_rp s m p : session s m p -> lp s m = Some p -> mounted p = true -> session (set_rp p s) m p.
Proof.
  intros (H1 & H2 & H3 & H4) Hl Hm. split; [done|]. split; [done|]. split; [by exists p|].
  intros m' Hn p' Hp. cbn in *. rewrite <- H2. exact (H4 m' Hn p' Hp).
Qed.

Lemma get_metadata_inv s t m s1 : inv s t -> act s = None -> (forall m', m' <> m -> ~ ahead s m') ->
  get_metadata s m = Some s1 -> inv s1 t.
Proof.
  intros [Hc _] Ha Ho. unfold get_metadata. pose proof (read_cached_spec s m) as Hr.
  assert (core s t no_ex) as Hc'. { eapply core_ex; [exact Hc|]. intros m' _ (c & q & Hq & _). congruence. }
  destruct (read_cached s m) as [l|].
  - destruct Hr as [Hl Hq]. case_decide; [done|]. case_decide as E; [|done]. subst l.
    destruct (mounted (rp s)) eqn:Em; [done|]. destruct (needs_fsck (rp s)); [done|]. intros [= <-].
    assert (none_ahead s) as Hna. { apply (not_ahead_others s m); [done|]. intros (p & Hp & Hlt). rewrite Hl in Hp. simplify_eq. lia. }
    split.
    + apply core_act. eapply core_ex; [exact Hc'|]. by intros ? ? [].
    + intros ? ? ? [= <- <- <-]. split; [done|]. split; [|done]. split; [done|]. split; [done|]. split; [done|].
      apply (i_data _ _ _ Hc'); [|intros []]. exists (rp s). auto.
  - destruct (mounted (rp s)) eqn:Em; [done|]. destruct (needs_fsck (rp s)); [done|]. intros [= <-]. split.
    + apply core_act. eapply core_ex; [exact Hc'|]. by intros ? ? [].
    + intros ? ? ? [= <- <- <-]. split; [done|]. split; [|done]. split; [done|]. split; [done|]. split; [|done].
      apply (not_ahead_others s m); [done|]. by apply outdated_not_ahead.
Qed.
Lemma seq_fsck (b : bool) p : seq (if b then with_fsck true p else p) = seq p.
Proof. by destruct b. Qed.
Lemma start_fsck_inv s t m force recent remote s1 : inv s t -> act s = None -> (forall m', m' <> m -> ~ ahead s m') ->
  start_fsck s m force recent remote = Some s1 -> inv s1 t.
Proof.
  intros [Hc Hact] Ha Ho. unfold start_fsck. pose proof (read_cached_spec s m) as Hr.
  assert (core s t no_ex) as Hc'. { eapply core_ex; [exact Hc|]. intros m' _ (c & q & Hq & _). congruence. }
  destruct (read_cached s m) as [l|].
  - destruct Hr as [Hl Hq]. case_match; intros [= <-]; [by split|].
    split.
    + apply core_act. eapply core_ex; [exact Hc'|]. by intros ? ? [].
    + intros ? ? ? [= <- <- <-]. split; [done|]. split; [|done]. split; [by rewrite seq_fsck|].
      destruct (i_data _ _ _ Hc' m) as [Hd Hcc]; [|intros []|].
      { exists l. split; [done|]. destruct (decide (seq (rp s) < seq l)); [by left|]. right. split; [lia|].
        apply (not_ahead_others s m); [done|]. intros (p & Hp & Hlt). simplify_eq. lia. }
      split; [done|]. exact Hcc.
  - destruct (mounted (rp s) && negb remote); [done|]. case_match; intros [= <-]; [by split|].
    split.
    + apply core_act, core_cache_None. eapply core_ex; [exact Hc'|]. by intros ? ? [].
    + intros ? ? ? [= <- <- <-]. split; [done|]. split; [|done]. split; [by rewrite seq_fsck|].
      split. { destruct (mounted (rp s)) eqn:E; done. }
      split. { apply (not_ahead_others s m); [done|]. by apply outdated_not_ahead. }
      split; [done|]. cbn. by rewrite upd_eq.
Qed.


Lemma go_inv s t m c p d i s1 : inv s t -> act s = Some (m, c, p) -> go repair s m c p d i = Some s1 ->
  inv s1 (truth_after repair s (LGo d i) t).
Proof.
  intros [Hc Hact] Ha Hg. destruct (Hact _ _ _ Ha) as (Ho & Hpc & HR). cbn. rewrite Ha.
  assert ((forall (d : D) (n : nat), c <> R0 d n) -> (forall (d : D) (n : nat), c <> R1 d n) -> core s t no_ex) as Hc'.
  { intros E1 E2. eapply core_ex; [exact Hc|]. intros m' _ (c' & q' & Hq & d' & n' & [-> | ->]); rewrite Ha in Hq; simplify_eq; [by eapply E1|by eapply E2]. }
  assert (forall s' t', core s' t' no_ex -> core s' t' (restoring s')) as Hup.
  { intros s' t' H. eapply core_ex; [exact H|]. by intros ? ? []. }
  destruct c; cbn in Hg; try specialize (Hc' ltac:(done) ltac:(done)).
  - (* MDown *) destruct Hpc as (-> & Hm & Hna & Hout). destruct (snap s (seq (rp s))) as [d'|] eqn:Es; injection Hg as <-.
    + assert (Some d' = Some t) as [= ->] by (rewrite <- Es; by apply (i_snap _ _ _ Hc')). split.
      * apply Hup, core_act, core_outdated; done.
      * intros ? ? ? [= <- <- <-]. split; [done|]. split; [|done]. split; [done|]. split; [done|]. split; [done|].
        cbn. unfold cache_ok. cbn. rewrite !upd_eq. auto.
    + split; [|done]. apply Hup, core_act. apply (core_outdated _ _ _ m d (cache s m)) in Hc'; [|done].
      destruct Hc' as [Q1 Q2 Q3 Q4]. split; [done| |done|done].
      intros m' Hm' He. destruct (decide (m' = m)) as [->|Hn]; [by destruct (outdated_not_auth s m Hout)|].
      destruct (Q2 m' Hm' He) as [R1 R2]. unfold cache_ok in *. cbn in *. rewrite !upd_ne in * by done. auto.
  - (* MReady *) destruct Hpc as (-> & Hm & Hna & Hd & Hcc). injection Hg as <-. split.
    + apply Hup, core_act. eapply core_ahead; try done. cbn. lia.
    + intros ? ? ? [= <- <- <-]. split; [|split; [|done]].
      * intros m' Hn (p' & Hp' & Hlt). cbn in *. rewrite upd_ne in Hp' by done. destruct (Ho m' Hn). by exists p'.
      * cbn. rewrite upd_eq. auto.
  - (* MWrote *) destruct Hpc as (Hl & Hq & Hm & _). injection Hg as <-.
    assert (session (set_rp p s) m p) as Hs by (eapply rp_session; try done; lia). split.
    + apply Hup, core_act. eapply core_rp; try done; [lia|intros []].
    + intros ? ? ? [= <- <- <-]. split; [|by split]. intros m' _. exact (session_none_ahead _ _ _ Hs m').
  - done.
  - (* U1 *) destruct Hpc as [Hs Hm]. injection Hg as <-. split.
    + apply Hup, core_act, core_snap; [done|apply Hs].
    + intros ? ? ? [= <- <- <-]. split; [done|]. by split.
  - (* U2 *) destruct Hpc as [Hs Hm]. injection Hg as <-. pose proof (session_lp _ _ _ p Hs eq_refl) as Hs'. split.
    + apply Hup, core_act. eapply core_lp; try done. intros [].
    + intros ? ? ? [= <- <- <-]. split; [|split; [|done]]. { intros m' _. exact (session_none_ahead _ _ _ Hs' m'). }
      split; [done|]. split; [done|]. cbn. by rewrite upd_eq.
  - (* U3 *) destruct Hpc as (Hs & Hm & Hl). injection Hg as <-. pose proof (session_rp _ _ _ Hs Hl Hm) as Hs'. split.
    + apply Hup, core_act. eapply core_rp_same; try done; [intros []|congruence].
    + intros ? ? ? [= <- <- <-]. split; [|split; [|done]]. { intros m' _. exact (session_none_ahead _ _ _ Hs' m'). }
      split; [done|]. split; [done|]. done.
  - (* U4 *) destruct Hpc as (Hs & Hm & Hl). injection Hg as <-.
    pose proof Hs as (Hrm & Hq & _ & _). pose proof (session_auth _ _ _ Hs) as Hau.
    destruct (i_data _ _ _ Hc' m Hau ltac:(intros [])) as [Hd Hcc]. split.
    + apply Hup, core_act. eapply core_ahead; try done. cbn. lia.
    + intros ? ? ? [= <- <- <-]. split; [|split; [|done]].
      * intros m' Hn (p' & Hp' & Hlt). cbn in *. rewrite upd_ne in Hp' by done. destruct (Ho m' Hn). by exists p'.
      * cbn. rewrite upd_eq, Hq. auto.
  - (* U5 *) destruct Hpc as (Hl & Hq & Hm & _). injection Hg as <-.
    assert (session (set_rp p s) m p) as Hs by (eapply rp_session; try done; lia). split.
    + apply Hup, core_act. eapply core_rp; try done; [lia|intros []].
    + intros ? ? ? [= <- <- <-]. split; [|by split]. intros m' _. exact (session_none_ahead _ _ _ Hs m').
  - (* V1 *) injection Hg as <-. cbn in Hpc. destruct Hpc as [Hs Hm]. split.
    + apply Hup, core_act, core_snap; [done|apply Hs].
    + intros ? ? ? [= <- <- <-]. split; [done|]. split; [|done]. split; [done|]. split; [done|].
      cbn. rewrite upd_eq. f_equal. apply (i_data _ _ _ Hc'); [|intros []]. by eapply session_auth.
  - (* V2 *) destruct Hpc as (Hs & Hm & Hsn). injection Hg as <-. pose proof (session_lp _ _ _ p Hs eq_refl) as Hs'. split.
    + apply Hup, core_act. eapply core_lp; try done. intros [].
    + intros ? ? ? [= <- <- <-]. split; [|split; [|done]]. { intros m' _. exact (session_none_ahead _ _ _ Hs' m'). }
      split; [done|]. split; [done|]. cbn. by rewrite upd_eq.
  - (* V3 *) destruct Hpc as (Hs & Hm & Hsn & Hl). injection Hg as <-. split; [|done].
    apply Hup, core_act. eapply core_rp_same; try done. intros [].
  - (* FDown *) destruct Hpc as (Hq & Hm & Hna & Hout & Hcn).
    assert (forall d, core (set_ldb m d s) t no_ex) as Hcd.
    { intros d'. apply (core_outdated _ _ _ m d' (cache s m)) in Hc'; [|done].
      destruct Hc' as [Q1 Q2 Q3 Q4]. split; [done| |done|done].
      intros m' Hm' He. destruct (decide (m' = m)) as [->|Hn]; [by destruct (outdated_not_auth s m Hout)|].
      destruct (Q2 m' Hm' He) as [R1 R2]. unfold cache_ok in *. cbn in *. rewrite !upd_ne in * by done. auto. }
    destruct (mounted p) eqn:Em.
    + injection Hg as <-. split; [by apply Hup, core_act|].
      intros ? ? ? [= <- <- <-]. split; [done|]. split; [|done]. cbn. split; [lia|]. split; [done|]. intros _. by left.
    + destruct (snap s (seq p)) as [d'|] eqn:Es; injection Hg as <-; (split; [by apply Hup, core_act|]); [|done].
      assert (Some d' = Some t) as [= ->]. { rewrite <- Es, Hq. apply (i_snap _ _ _ Hc'); [congruence|done]. }
      intros ? ? ? [= <- <- <-]. split; [done|]. split; [|done]. cbn. split; [lia|]. rewrite upd_eq. split; [done|]. intros _. by left.
  - (* FReady *) destruct Hpc as (Hq & Hd & Hcc). injection Hg as <-.
    set (t' := if rem then ldb s m else t).
    assert (ldb s m = t') as Hd'. { unfold t'. destruct rem; auto. }
    assert (inv (set_act (Some (m, F1, with_mounted true (next_seq p))) (set_lp m (with_mounted true (next_seq p)) s)) t') as Hi; [|by destruct rem].
    split.
    + apply Hup, core_act. eapply core_ahead; try done. cbn. lia.
    + intros ? ? ? [= <- <- <-]. split; [|split; [|done]].
      * intros m' Hn (p' & Hp' & Hlt). cbn in *. rewrite upd_ne in Hp' by done. destruct (Ho m' Hn). by exists p'.
      * cbn. rewrite upd_eq. split; [done|]. split; [lia|done].
  - (* F1 *) destruct Hpc as (Hl & Hq & Hm). injection Hg as <-.
    assert (session (set_rp p s) m p) as Hs by (eapply rp_session; done). split.
    + apply Hup, core_act. eapply core_rp; try done. intros [].
    + intros ? ? ? [= <- <- <-]. split; [|by split]. intros m' _. exact (session_none_ahead _ _ _ Hs m').
  - (* F2 *) destruct Hpc as [Hs Hm]. injection Hg as <-.
    destruct (i_data _ _ _ Hc' m (session_auth _ _ _ Hs) ltac:(intros [])) as [Hd Hcc]. split.
    + apply core_act. apply core_snap; [|apply Hs]. rewrite Hd. eapply core_change; try done.
      intros E. destruct (Hcc E) as [-> | ->]; [by left|right]. by rewrite <- Hd.
    + intros ? ? ? [= <- <- <-]. split; [done|]. by split.
  - (* F3 *) destruct Hpc as [Hs Hm]. injection Hg as <-. split.
    + apply Hup, core_act, core_snap; [done|apply Hs].
    + intros ? ? ? [= <- <- <-]. split; [done|]. split; [|done]. split; [done|]. split; [done|]. split; [done|].
      cbn. rewrite upd_eq. f_equal. apply (i_data _ _ _ Hc'); [|intros []]. by eapply session_auth.
  - (* F4 *) destruct Hpc as (Hs & Hm & Hnf & Hsn). injection Hg as <-. pose proof (session_lp _ _ _ p Hs eq_refl) as Hs'. split.
    + apply Hup, core_act. eapply core_lp; try done. intros [].
    + intros ? ? ? [= <- <- <-]. split; [|split; [|done]]. { intros m' _. exact (session_none_ahead _ _ _ Hs' m'). }
      split; [done|]. split; [done|]. split; [done|]. cbn. by rewrite upd_eq.
  - (* F5 *) destruct Hpc as (Hs & Hm & Hnf & Hsn & Hl). injection Hg as <-. split; [|done].
    apply Hup, core_act. eapply core_rp_same; try done. intros [].
  - (* R0 *) injection Hg as <-. split.
    + apply core_act. apply core_ldb_ex.
      * eapply core_ex; [exact Hc|]. intros m' _ (c & q & Hq & _). rewrite Ha in Hq. simplify_eq.
        eexists _, _. split; [reflexivity|]. eexists _, _. by right.
      * eexists _, _. split; [reflexivity|]. eexists _, _. by right.
    + intros ? ? ? [= <- <- <-]. split; [done|]. split; [done|]. cbn. by rewrite upd_eq.
  - (* R1 *) injection Hg as <-. destruct Hpc as [Hn Hcn]. split; [|done].
    apply Hup, core_act. eapply core_ahead; try done. intros E. left. auto.
Qed.

Lemma step_inv s t l s1 : inv s t -> careful strict s l -> step repair s l = Some s1 -> inv s1 (truth_after repair s l t).
Proof.
  intros Hi (Hone & Hcar & Hcn) Hst. pose proof Hi as [Hc Hact]. unfold step in Hst. destruct l as [m|d| |e|m force recent remote|m q n|d i|d].
  - destruct (act s) eqn:Ha; [done|]. by eapply get_metadata_inv.
  - cbn. destruct (act s) as [[[m c] p]|] eqn:Ha; [|done]. destruct (in_session c) eqn:Ec; [|done]. injection Hst as <-.
    destruct (Hact _ _ _ Ha) as (Ho & Hpc & _).
    assert (session s m p \/ c = U5) as [Hs| ->]. { destruct c; try done; cbn in Hpc; try (by left; apply Hpc). by right. }
    + split; [eapply core_change; try done; by right|]. intros ? ? ? Ha'. cbn in Ha'. rewrite Ha in Ha'. injection Ha' as <- <- <-.
      split; [done|]. destruct c; done.
    + destruct Hpc as (Hl & Hq & Hm & Hm2). split.
      * destruct Hc as [H1 H2 H3 H4]. split; [done| |done|cbn; congruence].
        intros m' (p' & Hp' & Ha') _. cbn in *.
        assert (m' = m) as ->.
        { destruct (decide (m' = m)) as [|Hn]; [done|]. destruct Ha' as [?|[? Hna]].
          - destruct (Ho m' Hn). by exists p'.
          - destruct (Hna m). exists p. cbn. split; [done|lia]. }
        unfold cache_ok. cbn. rewrite !upd_eq. auto.
      * intros ? ? ? Ha'. cbn in Ha'. rewrite Ha in Ha'. injection Ha' as <- <- <-. done.
  - cbn. destruct (act s) as [[[m c] p]|] eqn:Ha; [|done]. destruct c; try done. injection Hst as <-.
    destruct (Hact _ _ _ Ha) as (Ho & [Hs Hm] & _). split.
    + apply core_act, core_snap; [|apply Hs]. eapply core_ex; [exact Hc|]. intros m' _ (c & q & Hq & d & n & [-> | ->]); congruence.
    + intros ? ? ? [= <- <- <-]. split; [done|]. by split.
  - cbn. destruct (act s) as [[[m c] p]|] eqn:Ha; [|done]. destruct c; try done. injection Hst as <-.
    destruct (Hact _ _ _ Ha) as (Ho & [Hs Hm] & _). split.
    + apply core_act, core_snap; [|apply Hs]. eapply core_ex; [exact Hc|]. intros m' _ (c & q & Hq & d & n & [-> | ->]); congruence.
    + intros ? ? ? [= <- <- <-]. split; [done|]. split; [|done]. split; [exact Hs|done].
  - destruct (act s) eqn:Ha; [done|]. by eapply start_fsck_inv.
  - cbn. destruct (act s) eqn:Ha; [done|]. destruct (snap s (seq q)) as [d|]; [|done]. case_decide; [|done]. injection Hst as <-.
    pose proof Hone as Ho. split.
    + apply core_act. eapply core_ex; [exact Hc|]. intros m' _ (c & q' & Hq & _). congruence.
    + intros ? ? ? [= <- <- <-]. split; [done|]. split; [|done]. by split.
  - destruct (act s) as [[[m c] p]|] eqn:Ha; [|done]. by eapply go_inv.
  - cbn. destruct (act s) as [[[m c] p]|] eqn:Ha; [|done]. injection Hst as <-. split; [|done]. apply core_act.
    destruct (Hact _ _ _ Ha) as (Ho & Hpc & _).
    assert (forall m', restoring s m' -> ~ auth s m') as Hr.
    { intros m' (c' & q' & Hq & Hrr) (p' & Hp' & Hau). apply Hcar. exists m', c', p', q'. split; [done|]. split; [done|]. split; [done|].
      destruct Hau as [?|[? _]]; lia. }
    assert (core s t no_ex) as Hc'. { eapply core_ex; [exact Hc|]. intros m' H1 H2. by destruct (Hr m' H2). }
    destruct (downloading c) eqn:Ed.
    + assert (outdated s m \/ (exists b n, c = R0 b n)) as Hx.
      { destruct c; try done; cbn in Hpc; [left; apply Hpc|left; apply Hpc|right; by eexists _, _]. }
      assert (~ auth s m) as Hna.
      { destruct Hx as [Hx|(b & n & ->)]; [by apply outdated_not_auth|]. apply Hr. eexists _, _. split; [exact Ha|]. eexists _, _. by left. }
      destruct Hc' as [H1 H2 H3 H4]. split; [done| |done|done]. intros m' Hm' _. destruct (decide (m' = m)) as [->|Hn]; [done|].
      destruct (H2 m' Hm' ltac:(intros [])) as [Q1 Q2]. unfold cache_ok in *. cbn. rewrite !upd_ne by done. done.
    + eapply core_ex; [exact Hc'|]. by intros ? ? [].
Qed.

Lemma run_inv s t ls s2 t2 : run repair (careful strict) s t ls s2 t2 -> inv s t -> inv s2 t2.
Proof. induction 1 as [|s t l s1 ls s2 t2 Hs Hc _ IH]; [done|]. intros Hi. apply IH. by eapply step_inv. Qed.

Lemma mount_current s0 t0 ls s t m : created s0 t0 -> run repair (careful strict) s0 t0 ls s t -> mounting s m ->
  ldb s m = t /\ (strict = true -> cache s m = None \/ cache s m = Some t).
Proof.
  intros Hc Hr [p Ha]. apply created_inv in Hc. destruct (run_inv _ _ _ _ _ Hr Hc) as [_ Hact].
  destruct (Hact _ _ _ Ha) as (_ & (_ & _ & _ & Hd & Hcc) & _). split; [done|]. intros E. destruct (Hcc E) as [?|?]; [by left|right; congruence].
Qed.

(** The local parameters say that the file system is mounted, as long as an operation is in progress. *)
Definition open_pc (c : pc D) : bool :=
  match c with MWrote | Running | U1 | U2 | U3 | U4 | U5 | V1 | V2 | F1 | F2 | F3 | F4 => true | _ => false end.
Definition marked (s : state) : Prop := forall m c p, act s = Some (m, c, p) -> open_pc c = true ->
  exists l, lp s m = Some l /\ mounted l = true.
Lemma step_marked s t l s1 : inv s t -> marked s -> step repair s l = Some s1 -> marked s1.
Proof.
  intros [_ Hact] Hm Hst. unfold step in Hst. destruct l as [m|d| |e|m force recent remote|m q n|d i|d];
    destruct (act s) as [[[m' c] p]|] eqn:Ha; try done.
  - unfold get_metadata in Hst. repeat case_match; simplify_eq; by intros ? ? ? [= <- <- <-].
  - destruct (in_session c) eqn:Ec; [|done]. injection Hst as <-. intros ? ? ? Ha'. cbn in Ha'. rewrite Ha in Ha'.
    injection Ha' as <- <- <-. intros H. exact (Hm _ _ _ Ha H).
  - destruct c; try done. injection Hst as <-. intros ? ? ? [= <- <- <-] _. exact (Hm _ _ _ Ha eq_refl).
  - destruct c; try done. injection Hst as <-. intros ? ? ? [= <- <- <-] _. exact (Hm _ _ _ Ha eq_refl).
  - unfold start_fsck in Hst. repeat case_match; simplify_eq; intros ? ? ? Ha'; cbn in Ha'; rewrite ?Ha in Ha'; simplify_eq; done.
  - repeat case_match; simplify_eq. by intros ? ? ? [= <- <- <-].
  - destruct (Hact _ _ _ Ha) as (Ho & Hpc & _). specialize (Hm _ _ _ Ha).
    destruct c; cbn in Hst, Hpc, Hm; repeat case_match; simplify_eq; intros ? ? ? Ha'; cbn in Ha';
      try done; injection Ha' as <- <- <-; try done; intros _; try exact (Hm eq_refl).
    all: try (eexists; cbn; rewrite upd_eq; split; [reflexivity|]; cbn; tauto).
    
  - destruct (downloading c); injection Hst as <-; by intros ? ? ?.
Qed.

Lemma run_marked s t ls s2 t2 : run repair (careful strict) s t ls s2 t2 -> inv s t -> marked s -> marked s2.
Proof.
  induction 1 as [|s t l s1 ls s2 t2 Hs Hc _ IH]; [done|]. intros Hi Hm. apply IH; [by eapply step_inv|by eapply step_marked].
Qed.
Lemma created_marked s t : created s t -> marked s.
Proof. intros [Ha _ _ _] m c p. congruence. Qed.

Lemma run_app rules s t l1 s1 t1 l2 s2 t2 :
  run repair rules s t l1 s1 t1 -> run repair rules s1 t1 l2 s2 t2 -> run repair rules s t (l1 ++ l2) s2 t2.
Proof. induction 1; [done|]. intros. cbn. econstructor; eauto. Qed.

Lemma careful_go (s : state) d i : careful strict s (LGo d i).
Proof. split; [exact I|]. split; [exact I|]. intros _. exact I. Qed.
Lemma go_one (d : D) i : Forall (fun l : label => exists d i, l = LGo d i) [LGo d i].
Proof. constructor; [by exists d, i|constructor]. Qed.
Lemma go_more d i ls : Forall (fun l : label => exists d i, l = LGo d i) ls -> Forall (fun l : label => exists d i, l = LGo d i) (LGo d i :: ls).
Proof. constructor; [by exists d, i|done]. Qed.

(** A mount on a machine that may be used, of a clean file system. *)
Lemma mount_succeeds s t m : inv s t -> act s = None -> none_ahead s -> mounted (rp s) = false -> needs_fsck (rp s) = false ->
  exists gos s2, Forall (fun l => exists d i, l = LGo d i) gos /\ run repair (careful strict) s t (LMount m :: gos) s2 t /\
    running s2 m /\ ldb s2 m = t.
Proof.
  intros Hi Ha Hna Hm Hf. pose proof Hi as [Hc _].
  assert (exists s1 gos, step repair s (LMount m) = Some s1 /\ careful strict s (LMount m) /\
    Forall (fun l => exists d i, l = LGo d i) gos /\ exists s2, run repair (careful strict) s1 t gos s2 t /\ mounting s2 m) as
    (s1 & gos & H1 & H2 & H3 & s2 & H4 & p & H5).
  { assert (careful strict s (LMount m)) as Hcar. { split; [intros m' _; apply Hna|done]. }
    cbn. rewrite Ha. unfold get_metadata. pose proof (read_cached_spec s m) as Hr. destruct (read_cached s m) as [l|].
    - destruct Hr as [Hl Hq].
      assert (seq l = seq (rp s)) as Hq'.
      { assert (~ seq (rp s) < seq l); [|lia]. intros ?. destruct (Hna m). by exists l. }
      rewrite (i_clean _ _ _ Hc Hm _ _ Hl Hq') in *. rewrite decide_False by lia. rewrite decide_True by done. rewrite Hm, Hf.
      eexists _, []. split; [reflexivity|]. split; [done|]. split; [constructor|]. eexists. split; [constructor|].
      by eexists.
    - rewrite Hm, Hf. eexists _, [LGo t 0]. split; [reflexivity|]. split; [done|]. split; [repeat apply go_more; constructor|].
      eexists. split.
      + eapply run_cons; [|apply careful_go|constructor]. cbn. rewrite (i_snap _ _ _ Hc Hm Hna). reflexivity.
      + by eexists. }
  assert (run repair (careful strict) s t (LMount m :: gos) s2 t) as Hrun.
  { econstructor; [exact H1|exact H2|exact H4]. }
  pose proof (run_inv _ _ _ _ _ Hrun Hi) as [_ Hact]. destruct (Hact _ _ _ H5) as (_ & (_ & _ & _ & Hd & _) & _).
  set (p' := with_mounted true (next_seq p)).
  exists (gos ++ [LGo t 0; LGo t 0]), (set_act (Some (m, Running, p')) (set_rp p' (set_act (Some (m, MWrote, p')) (set_lp m p' s2)))).
  split; [apply Forall_app; split; [done|repeat apply go_more; constructor]|]. split; [|split; [by exists p'|done]].
  apply (run_app _ _ _ (LMount m :: gos) s2 t); [done|].
  eapply run_cons; [cbn; rewrite H5; reflexivity|apply careful_go|]. eapply run_cons; [reflexivity|apply careful_go|]. cbn. rewrite H5. constructor.
Qed.

Lemma fsck_succeeds s t m recent l : inv s t -> act s = None -> (forall m', m' <> m -> ~ ahead s m') ->
  lp s m = Some l -> seq (rp s) <= seq l -> mounted l = true ->
  exists gos s2, Forall (fun l => exists d i, l = LGo d i) gos /\ run repair (careful strict) s t (LFsck m false recent false :: gos) s2 (repair t) /\
    act s2 = None /\ mounted (rp s2) = false /\ needs_fsck (rp s2) = false /\ none_ahead s2.
Proof.
  intros Hi Ha Ho Hl Hq Hm.
  set (g := LGo t 0). exists [g; g; g; g; g; g].
  eexists. split; [repeat apply go_more; constructor|]. split.
  { eapply run_cons.
    - cbn. rewrite Ha. unfold start_fsck, read_cached. rewrite Hl, decide_False by lia. rewrite Hm. cbn. reflexivity.
    - split; [exact Ho|done].
    - eapply run_cons; [reflexivity|apply careful_go|]. eapply run_cons; [reflexivity|apply careful_go|]. eapply run_cons; [reflexivity|apply careful_go|].
      eapply run_cons; [reflexivity|apply careful_go|]. eapply run_cons; [reflexivity|apply careful_go|]. eapply run_cons; [reflexivity|apply careful_go|].
      cbn. constructor. }
  split; [done|]. split; [done|]. split; [done|].
  intros m' (p & Hp & Hlt). cbn in *. destruct (decide (m' = m)) as [->|Hn].
  - rewrite upd_eq in Hp. injection Hp as <-. cbn in Hlt. lia.
  - rewrite !upd_ne in Hp by done. destruct (Ho m' Hn). exists p. split; [done|]. lia.
Qed.

Lemma recovery s0 t0 ls s t m d s1 recent : created s0 t0 -> run repair (careful strict) s0 t0 ls s t ->
  busy s m -> ~ last_moment s -> step repair s (LCrash d) = Some s1 ->
  exists ls2 s2, procedure m recent ls2 /\ run repair (careful strict) s1 t ls2 s2 (repair t) /\ running s2 m /\ ldb s2 m = repair t.
Proof.
  intros Hc0 Hr (c & p & Ha & Hb) Hlm Hst.
  pose proof (created_inv _ _ Hc0) as Hi0. pose proof (run_inv _ _ _ _ _ Hr Hi0) as Hi.
  pose proof (run_marked _ _ _ _ _ Hr Hi0 (created_marked _ _ Hc0)) as Hmk.
  assert (careful strict s (LCrash d)) as Hcar.
  { split; [done|]. split; [|done]. intros (m' & c' & p' & q' & Ha' & (b & n & [-> | ->]) & _); rewrite Ha in Ha'; by simplify_eq. }
  pose proof (step_inv _ _ _ _ Hi Hcar Hst) as Hi1. cbn in Hi1.
  assert (open_pc c = true) as Ho.
  { destruct c; try done; exfalso; apply Hlm; eexists _, _, _; (split; [exact Ha|]); auto. }
  destruct (Hmk _ _ _ Ha Ho) as (l & Hl & Hlm').
  pose proof Hi as [_ Hact]. destruct (Hact _ _ _ Ha) as (Hoth & Hpc & _).
  assert (seq (rp s) <= seq l) as Hseq.
  { assert (forall p, session s m p -> seq (rp s) <= seq l) as Hss.
    { intros p' (_ & Hq & (l' & Hl' & Hq') & _). rewrite Hl in Hl'. injection Hl' as <-. lia. }
    destruct c; try done; cbn in Hpc; try (apply (Hss p); apply Hpc);
      destruct Hpc as (Hl' & Hq & _); rewrite Hl in Hl'; injection Hl' as <-; lia. }
  assert (s1 = set_act None s) as ->.
  { unfold step in Hst. rewrite Ha in Hst. destruct c; try done; cbn in Hst; congruence. }
  destruct (fsck_succeeds (set_act None s) t m recent l) as (g1 & s2 & Hg1 & Hr1 & Ha2 & Hm2 & Hf2 & Hna); try done.
  pose proof (run_inv _ _ _ _ _ Hr1 Hi1) as Hi2.
  destruct (mount_succeeds s2 (repair t) m) as (g2 & s3 & Hg2 & Hr2 & Hrun & Hd); try done.
  exists (LFsck m false recent false :: g1 ++ LMount m :: g2), s3. split; [by constructor|]. split; [|done].
  apply (run_app _ _ _ (LFsck m false recent false :: g1) s2 (repair t)); done.
Qed.
Lemma unmount_with_errors rules s t s1 gos s2 t2 m :
  step repair s (LUnmount true) = Some s1 -> Forall (fun l => exists d i, l = LGo d i) gos ->
  run repair rules s1 t gos s2 t2 -> act s2 = None ->
  step repair s2 (LMount m) = None /\ forall l s3, step repair s2 l = Some s3 ->
    (exists m' force recent remote, l = LFsck m' force recent remote) \/ exists m' q n, l = LRestore m' q n.
Proof.
  intros Hs Hg Hr Ha.
  assert (needs_fsck (rp s2) = true) as Hf.
  { cbn in Hs. destruct (act s) as [[[m0 c0] p0]|]; [|done]. destruct c0; try done. injection Hs as <-.
    set (p := Par _ _ _ _) in *.
    inversion Hr as [|? ? l ? ls ? ? Hst1 _ Hr1]; subst; [done|]. apply Forall_cons in Hg as [(d & i & ->) Hg]. cbn in Hst1. injection Hst1 as <-.
    inversion Hr1 as [|? ? l ? ls' ? ? Hst2 _ Hr2]; subst; [done|]. apply Forall_cons in Hg as [(d' & i' & ->) Hg]. cbn in Hst2. injection Hst2 as <-.
    inversion Hr2 as [|? ? l ? ls'' ? ? Hst3 _ Hr3]; subst; [done|]. apply Forall_cons in Hg as [(d'' & i'' & ->) Hg]. cbn in Hst3. injection Hst3 as <-.
    inversion Hr3 as [|? ? l ? ls3 ? ? Hst4 _ Hr4]; subst; [|apply Forall_cons in Hg as [(d3 & i3 & ->) Hg]; done].
    cbn. apply orb_true_r. }
  assert (forall m', step repair s2 (LMount m') = None) as Hm.
  { intros m'. cbn. rewrite Ha. unfold get_metadata. rewrite Hf. destruct (read_cached s2 m') as [l|]; [|by destruct (mounted (rp s2))].
    destruct (decide _); [done|]. destruct (decide _); [|done]. by destruct (mounted (rp s2)). }
  split; [done|]. intros l s3 Hl. destruct l; cbn in Hl; rewrite Ha in Hl; try done; eauto 10. specialize (Hm m0). cbn in Hm. rewrite Ha in Hm. congruence.
Qed.
End proofs.
