(** The invariants of the block cache hold in all states that can be reached. *)
From stdpp Require Import prelude list gmap.
From Coq Require Import ZArith.
From Verif Require Import BlockCacheModel BlockCacheSpec BlockCacheLemmas BlockCacheSteps BlockCacheInv BlockCacheInv2 BlockCacheInv3
  BlockCacheInv4 BlockCacheInv5 BlockCacheInv6 BlockCacheInv7 BlockCacheTasks BlockCacheFlush.

Section reach.
Context {H : Type} `{EqDecision H} (sha : list nat -> H) (nworkers qcap : nat).
Notation shared := (shared H).
Notation state := (state H).
Implicit Types x : shared.
Implicit Types s : state.
Notation step := (step sha nworkers qcap).
Notation run := (run sha nworkers qcap).
Notation good_run := (good_run sha nworkers qcap).

(** ** Facts about the initial state *)
Lemma frames_nil s : (forall t fs, tasks s !! t = Some fs -> fs = []) -> jobs (sh s) = ∅ -> frames s = [].
Proof.
  intros Ht Hj. unfold frames, alljobs. rewrite Hj. rewrite map_to_list_empty. simpl. rewrite app_nil_r.
  unfold allf. apply concat_nil_Forall, Forall_forall. intros fs Hfs. apply elem_of_list_fmap in Hfs as ([t fs'] & -> & Hin).
  apply elem_of_map_to_list in Hin. by eapply Ht.
Qed.
Lemma ckeys_omap (c : list item) : ckeys c = omap (fun i => match i with E k _ => Some k | Cur _ => None end) c.
Proof. induction c as [|[k e|t] c IH]; simpl; [done| |]; by rewrite IH. Qed.
Lemma clen_entries x : clen (cache x) = entries x.
Proof. unfold entries. induction (cache x) as [|[k e|t] c IH]; simpl; [done| |]; by rewrite IH. Qed.
Lemma csum_total x : csum (esize x) (cache x) = total_size x.
Proof. unfold total_size. induction (cache x) as [|[k e|t] c IH]; simpl; [done| |]; by rewrite IH. Qed.
Lemma msum_list {K A} `{Countable K} (f : A -> Z) (m : gmap K A) : msum f m = lsum (fun r => f r.2) (map_to_list m).
Proof.
  induction m as [|i a m Hi IH] using map_ind; [done|]. rewrite msum_insert_new by done.
  rewrite IH. symmetry. by rewrite (lsum_perm _ _ _ (map_to_list_insert m i a Hi)).
Qed.
Lemma nblocks_references x o : nblocks x o = Z.of_nat (references x o).
Proof.
  unfold nblocks, references. rewrite msum_list. induction (map_to_list (blocks x)) as [|[k o'] l IH]; simpl; [done|].
  rewrite IH. rewrite filter_cons. simpl. unfold isv. destruct (decide (o' = o)) as [->|Hne].
  - rewrite bool_decide_eq_true_2 by done. simpl. lia.
  - rewrite bool_decide_eq_false_2 by done. simpl. lia.
Qed.

(** ** The invariant *)
Record Inv s : Prop := {
  v_2 : inv2 (sh s) (frames s);
  v_3 : inv3 (sh s) (frames s);
  v_4 : inv4 sha (sh s) (frames s);
  v_size : sized (sh s) (frames s);
  v_inert : all_inert s
}.
Lemma Inv_step s l s' : step s l = Some s' -> Inv s -> Inv s'.
Proof.
  intros Hs [V2 V3 V4 Vz Vi]. destruct (step_act _ _ _ _ _ _ Hs) as (pre & post & others & Hact & _ & P1 & P2).
  eapply inv2_perm in V2; [|exact P1]. eapply inv3_perm in V3; [|exact P1]. eapply inv4_perm in V4; [|exact P1]. eapply sized_perm in Vz; [|exact P1].
  symmetry in P2. split.
  - eapply inv2_perm; [exact P2|]. by eapply inv2_act.
  - eapply inv3_perm; [exact P2|]. by eapply inv3_act.
  - eapply inv4_perm; [exact P2|]. by eapply inv4_act.
  - eapply sized_perm; [exact P2|]. by eapply sized_act.
  - by eapply all_inert_step.
Qed.
Lemma data_step (P : list nat -> Prop) s l s' cur : P [] -> (forall c c', P c -> P c' -> sha c = sha c' -> c = c') -> step s l = Some s' -> Inv s ->
  (forall k k', l = LCopy k k' -> registered sha (sh s) cur k) -> (forall t c, l = LWrite t c -> P c) ->
  inv5 sha P (sh s) (frames s) cur -> inv5 sha P (sh s') (frames s') (history s l cur).
Proof.
  intros Hnil Hinj Hs [V2 V3 V4 Vz Vi] Hc Hw V5. destruct (step_act _ _ _ _ _ _ Hs) as (pre & post & others & Hact & Hp & P1 & P2).
  eapply inv2_perm in V2; [|exact P1]. eapply inv3_perm in V3; [|exact P1]. eapply inv4_perm in V4; [|exact P1]. eapply inv5_perm in V5; [|exact P1].
  rewrite (history_act _ _ _ _ Hp). eapply inv5_perm; [symmetry; exact P2|]. by eapply inv5_act.
Qed.
Lemma sound_step (P : list nat -> Prop) s l s' cur : step s l = Some s' -> Inv s -> inv5 sha P (sh s) (frames s) cur ->
  (forall k k', l = LCopy k k' -> registered sha (sh s) cur k) -> ~ bad_failure s l ->
  sound (sh s) (frames s) -> sound (sh s') (frames s').
Proof.
  intros Hs [V2 V3 V4 Vz Vi] V5 Hc Hb V6. destruct (step_act _ _ _ _ _ _ Hs) as (pre & post & others & Hact & Hp & P1 & P2).
  eapply inv2_perm in V2; [|exact P1]. eapply inv3_perm in V3; [|exact P1]. eapply inv4_perm in V4; [|exact P1]. eapply inv5_perm in V5; [|exact P1].
  eapply sound_perm in V6; [|exact P1]. eapply sound_perm; [symmetry; exact P2|]. eapply sound_act; [done..| |done].
  intros j st e o k -> -> Hk Hbl Hcl. apply Hb. destruct Hp as (e' & o' & Hj & Heq). injection Heq as <- <-. by exists j, st, e, o, k.
Qed.
Lemma noleak_step s l s' : step s l = Some s' -> Inv s -> (forall j, l <> LFailed j true) ->
  noleak (sh s) (frames s) -> noleak (sh s') (frames s').
Proof.
  intros Hs [V2 V3 V4 Vz Vi] Hc V6. destruct (step_act _ _ _ _ _ _ Hs) as (pre & post & others & Hact & Hp & P1 & P2).
  eapply inv3_perm in V3; [|exact P1]. eapply inv4_perm in V4; [|exact P1].
  assert (forall x F F', Permutation F F' -> noleak x F -> noleak x F') as Hperm.
  { intros x F F' HP HN o c Ho. rewrite <- (del_perm _ _ _ _ HP). by eapply HN. }
  eapply Hperm in V6; [|exact P1]. eapply Hperm; [symmetry; exact P2|]. by eapply noleak_act.
Qed.

Section mounted.
Context (s0 : state) (cur0 : contents) (Hm : mounted sha s0 cur0).
Lemma mounted_frames : frames s0 = [].
Proof. apply frames_nil; [|apply Hm]. intros t fs. by rewrite (m_tasks _ _ _ Hm). Qed.
Lemma mounted_cget k e : cget k (cache (sh s0)) = Some e -> ent (sh s0) e = Entry (cur0 k) false false.
Proof. intros Hg. apply cget_Some_elem in Hg. by apply (m_cached _ _ _ Hm) in Hg as (_ & _ & ?). Qed.
Lemma mounted_Inv : Inv s0.
Proof.
  split; rewrite ?mounted_frames.
  - split.
    + intros k. unfold lk. by rewrite (m_locks _ _ _ Hm).
    + rewrite ckeys_omap. apply Hm.
    + apply Forall_forall. intros [k e|t] Hin; [|done]. apply (m_cached _ _ _ Hm) in Hin. simpl. naive_solver.
    + intros f Hf. by apply elem_of_nil in Hf.
    + intros e. by rewrite (m_quiet _ _ _ Hm).
    + apply Hm.
  - split.
    + intros o. simpl. rewrite nblocks_references. unfold oref. destruct (objs (sh s0) !! o) as [ob|] eqn:Ho.
      * apply (m_refs _ _ _ Hm) in Ho as (_ & -> & _). done.
      * unfold references. destruct (filter _ _) as [|[k o'] l] eqn:Hf; [done|]. exfalso.
        assert ((k, o') ∈ filter (fun r => r.2 = o) (map_to_list (blocks (sh s0)))) as Hin by (rewrite Hf; by left).
        apply elem_of_list_filter in Hin as [Heq Hin]. simpl in Heq. subst o'. apply elem_of_map_to_list in Hin.
        apply (m_rows _ _ _ Hm) in Hin as [ob ?]. congruence.
    + intros o ob Ho. apply (m_refs _ _ _ Hm) in Ho. naive_solver lia.
  - assert (forall o, dead (sh s0) [] o = 0%Z) as Hdead.
    { intros o. unfold dead. by rewrite (m_rmq _ _ _ Hm), (m_removing _ _ _ Hm). }
    split.
    + intros e o Hin. by apply elem_of_nil in Hin.
    + intros o. rewrite (m_inflight _ _ _ Hm). by rewrite bool_decide_eq_false_2 by set_solver.
    + intros o. rewrite Hdead. lia.
    + intros o. rewrite Hdead. lia.
    + intros o c Hc. assert (objs (sh s0) !! o <> None) as Hn by (apply (m_store _ _ _ Hm); congruence).
      destruct (objs (sh s0) !! o) as [ob|] eqn:Ho; [|done]. by apply (m_refs _ _ _ Hm) in Ho as (_ & _ & ?).
    + intros o ob Ho _. apply (m_store _ _ _ Hm). congruence.
    + intros o Hd. pose proof (del_le (sh s0) [] o). rewrite Hdead in *. lia.
    + apply Hm.
    + intros o ob h c Ho Hh Hc. pose proof (m_stored _ _ _ Hm _ _ _ Ho Hc). congruence.
    + intros o ob h Ho _ _. apply (m_store _ _ _ Hm). congruence.
  - unfold sized. simpl. rewrite csum_total, (m_size _ _ _ Hm). unfold total_size. lia.
  - intros t fs Hf. by rewrite (m_tasks _ _ _ Hm) in Hf.
Qed.
Lemma mounted_data ls : inv5 sha (occurs cur0 ls) (sh s0) (frames s0) cur0.
Proof.
  rewrite mounted_frames. split.
  - intros k e Hg. by rewrite (mounted_cget _ _ Hg).
  - intros k _. unfold backed. destruct (blocks (sh s0) !! k) as [o|] eqn:Hb; [|by apply (m_hole _ _ _ Hm)].
    intros ob Ho. pose proof (m_block _ _ _ Hm _ _ Hb) as Hst. split.
    + intros h Hh. pose proof (m_stored _ _ _ Hm _ _ _ Ho Hst). congruence.
    + intros c' Hc. congruence.
  - intros k o [Hin|Hin]; by apply elem_of_nil in Hin.
  - intros k c Hin. by apply elem_of_nil in Hin.
  - intros k. right. left. by exists k.
  - intros o c Hc. right. left. assert (objs (sh s0) !! o <> None) as Hn by (apply (m_store _ _ _ Hm); congruence).
    destruct (objs (sh s0) !! o) as [ob|] eqn:Ho; [|done]. apply (m_refs _ _ _ Hm) in Ho as (Hpos & Heq & _).
    rewrite Heq in Hpos. destruct (nblocks_inv (sh s0) o) as [k Hk]; [rewrite nblocks_references; lia|].
    exists k. apply (m_block _ _ _ Hm) in Hk. congruence.
Qed.
Lemma mounted_sound : sound (sh s0) (frames s0).
Proof.
  rewrite mounted_frames. split.
  - intros k o ob _ Hb Ho. pose proof (m_block _ _ _ Hm _ _ Hb) as Hst. pose proof (m_stored _ _ _ Hm _ _ _ Ho Hst). congruence.
  - intros k o Hin. by apply elem_of_nil in Hin.
  - apply not_elem_of_nil.
  - apply Hm.
Qed.
Lemma mounted_noleak : noleak (sh s0) (frames s0).
Proof.
  intros o c Hc. left. assert (objs (sh s0) !! o <> None) as Hn by (apply (m_store _ _ _ Hm); congruence).
  destruct (objs (sh s0) !! o) as [ob|] eqn:Ho; [|done]. exists ob. split; [done|]. by apply (m_phys _ _ _ Hm) in Ho.
Qed.
End mounted.

Lemma good_is_run s cur ls s' cur' : good_run s cur ls s' cur' -> run s cur ls s' cur'.
Proof. induction 1; econstructor; eauto. Qed.
Lemma run_is_steps s cur ls s' cur' : run s cur ls s' cur' -> steps sha nworkers qcap s ls s'.
Proof. induction 1; econstructor; eauto. Qed.
Lemma steps_Inv s ls s' : steps sha nworkers qcap s ls s' -> Inv s -> Inv s'.
Proof. induction 1; [done|]. intros HI. apply IHsteps. by eapply Inv_step. Qed.
Lemma run_Inv s cur ls s' cur' : run s cur ls s' cur' -> Inv s -> Inv s'.
Proof. intros Hr. apply steps_Inv with ls. by eapply run_is_steps. Qed.
Lemma run_data (P : list nat -> Prop) s cur ls s' cur' : P [] -> (forall c c', P c -> P c' -> sha c = sha c' -> c = c') ->
  run s cur ls s' cur' -> (forall t c, LWrite t c ∈ ls -> P c) -> Inv s ->
  inv5 sha P (sh s) (frames s) cur -> inv5 sha P (sh s') (frames s') cur'.
Proof.
  intros Hnil Hinj Hr. induction Hr as [|s cur l s1 ls s2 cur2 Hs Hc Hr IH]; [done|]. intros Hw HI V5.
  apply IH; [intros t c Hin; apply (Hw t c); by right|by eapply Inv_step|]. eapply data_step; try done.
  intros t c ->. apply (Hw t c). by left.
Qed.
Lemma run_sound (P : list nat -> Prop) s cur ls s' cur' : P [] -> (forall c c', P c -> P c' -> sha c = sha c' -> c = c') ->
  good_run s cur ls s' cur' -> (forall t c, LWrite t c ∈ ls -> P c) -> Inv s -> inv5 sha P (sh s) (frames s) cur ->
  sound (sh s) (frames s) -> sound (sh s') (frames s').
Proof.
  intros Hnil Hinj Hr. induction Hr as [|s cur l s1 ls s2 cur2 Hs Hc Hb Hr IH]; [done|]. intros Hw HI V5 V6.
  apply IH; [intros t c Hin; apply (Hw t c); by right|by eapply Inv_step| |by eapply sound_step]. eapply data_step; try done.
  intros t c ->. apply (Hw t c). by left.
Qed.
Lemma run_noleak s cur ls s' cur' : run s cur ls s' cur' -> (forall j, LFailed j true ∉ ls) -> Inv s -> noleak (sh s) (frames s) -> noleak (sh s') (frames s').
Proof.
  intros Hr. induction Hr as [|s cur l s1 ls s2 cur2 Hs Hc Hr IH]; [done|]. intros Hf HI HN.
  apply IH; [intros j Hin; apply (Hf j); by right|by eapply Inv_step|]. eapply noleak_step; try done. intros j ->. apply (Hf j). by left.
Qed.
(** Everything about a state that is reached from a mounted one. *)
Lemma reach_data s0 cur0 ls s cur : mounted sha s0 cur0 -> collision_free sha cur0 ls -> run s0 cur0 ls s cur ->
  inv5 sha (occurs cur0 ls) (sh s) (frames s) cur.
Proof.
  intros Hm Hf Hr. eapply run_data; [by left|done|done| |by eapply mounted_Inv|by eapply mounted_data].
  intros t c Hin. right. right. by exists t.
Qed.
Lemma reach_sound s0 cur0 ls s cur : mounted sha s0 cur0 -> collision_free sha cur0 ls -> good_run s0 cur0 ls s cur -> sound (sh s) (frames s).
Proof.
  intros Hm Hf Hr. eapply (run_sound (occurs cur0 ls)); [by left|done|done| |by eapply mounted_Inv|by eapply mounted_data|by eapply mounted_sound].
  intros t c Hin. right. right. by exists t.
Qed.
(** Frames of tasks. *)
Lemma task_frame s t fs f : tasks s !! t = Some fs -> f ∈ fs -> f ∈ frames s.
Proof.
  intros Ht Hf. unfold frames. apply elem_of_app. left. rewrite (allf_take _ _ _ Ht). apply elem_of_app. by left.
Qed.
Lemma job_frame s j jb : jobs (sh s) !! j = Some jb -> jframe jb ∈ frames s.
Proof.
  intros Hj. unfold frames. apply elem_of_app. right. rewrite (alljobs_take _ _ _ Hj). by left.
Qed.
Lemma frame_inv s f : f ∈ frames s -> (exists t fs, tasks s !! t = Some fs /\ f ∈ fs) \/ (exists j jb, jobs (sh s) !! j = Some jb /\ f = jframe jb).
Proof.
  unfold frames. rewrite elem_of_app. intros [Hf|Hf].
  - left. unfold allf in Hf. apply elem_of_list_In, in_concat in Hf as (fs & Hin & Hf). apply elem_of_list_In in Hin, Hf. apply elem_of_list_fmap in Hin as ([t fs'] & -> & Hin).
    apply elem_of_map_to_list in Hin. by exists t, fs'.
  - right. unfold alljobs in Hf. apply elem_of_list_fmap in Hf as (jb & -> & Hin). apply elem_of_list_fmap in Hin as ([j jb'] & -> & Hin).
    apply elem_of_map_to_list in Hin. by exists j, jb'.
Qed.
End reach.
