(** Proofs of the properties of the block cache. *)
From stdpp Require Import prelude list gmap.
From Coq Require Import ZArith.
From Verif Require Import BlockCacheModel BlockCacheSpec BlockCacheLemmas BlockCacheSteps BlockCacheInv BlockCacheInv2 BlockCacheInv3
  BlockCacheInv4 BlockCacheInv5 BlockCacheInv6 BlockCacheInv7 BlockCacheTasks BlockCacheFlush BlockCacheReach.

Section proofs.
Context {H : Type} `{EqDecision H} (sha : list nat -> H) (nworkers qcap : nat).
Notation shared := (shared H).
Notation state := (state H).
Implicit Types x : shared.
Implicit Types s : state.
Notation step := (step sha nworkers qcap).
Notation steps := (steps sha nworkers qcap).
Notation run := (run sha nworkers qcap).
Notation good_run := (good_run sha nworkers qcap).
Notation Inv := (Inv sha).

(** ** Content *)
Lemma view_content s0 cur0 ls s cur t k c : mounted sha s0 cur0 -> collision_free sha cur0 ls -> run s0 cur0 ls s cur ->
  view s t = Some (k, c) -> c = cur k.
Proof.
  intros Hm Hf Hr Hv. pose proof (reach_data _ _ _ _ _ _ _ _ Hm Hf Hr) as V5.
  pose proof (run_Inv _ _ _ _ _ _ _ _ Hr (mounted_Inv _ _ _ Hm)) as HI.
  unfold view in Hv. destruct (tasks s !! t) as [[|f rest]|] eqn:Ht; try done.
  assert (f ∈ frames s) as Hin by (eapply task_frame; [done|by left]).
  pose proof (i_claim _ _ (v_2 _ _ HI) _ Hin) as Hc. destruct f; try done; injection Hv as <- <-; by apply (c_data _ _ _ _ _ V5) in Hc.
Qed.
Lemma get_frames s ls s' t k : steps s ls s' -> no_call t ls -> Inv s ->
  (forall fs, tasks s !! t = Some fs -> Forall (get_frame k) fs) -> forall fs, tasks s' !! t = Some fs -> Forall (get_frame k) fs.
Proof.
  induction 1 as [s|s l s1 ls s2 Hs Hst IH]; [done|]. intros Hn HI Hg.
  apply IH; [intros c Hin; apply (Hn c); by right|by eapply Inv_step|]. intros fs Hfs.
  destruct (decide (by_task l = Some t)) as [Ht|Ht].
  - destruct (step_tact _ _ _ _ _ _ _ Hs Ht) as (f & rest & fs' & H1 & H2 & H3).
    { intros c ->. apply (Hn c). by left. }
    rewrite H3 in Hfs. injection Hfs as <-. specialize (Hg _ H1). apply Forall_cons in Hg as [Hf Hrest]. apply Forall_app. split; [|done].
    eapply tact_get; [done| |done]. intros k' e Hge. by apply (inv2_key _ _ _ _ (v_2 _ _ HI)) in Hge as [? _].
  - rewrite (step_other _ _ _ _ _ _ _ Hs Ht) in Hfs. by apply Hg.
Qed.
Lemma get_opens_block s t k mw s1 ls s2 k' c : Inv s -> step s (LCall t (CGet k mw)) = Some s1 -> steps s1 ls s2 -> no_call t ls ->
  view s2 t = Some (k', c) -> k' = k.
Proof.
  intros HI Hs Hst Hn Hv. pose proof (step_call _ _ _ _ _ _ _ Hs) as (_ & Hc & _).
  unfold view in Hv. destruct (tasks s2 !! t) as [[|f rest]|] eqn:Ht; try done.
  assert (Forall (get_frame k) (f :: rest)) as Hg.
  { eapply get_frames; [exact Hst|done|by eapply Inv_step| |done]. intros fs Hfs. rewrite Hc in Hfs. injection Hfs as <-.
    constructor; [|done]. by right; right. }
  apply Forall_cons in Hg as [Hg _]. unfold get_frame in Hg. destruct f; try done; simpl in Hg; injection Hv as <- _; naive_solver.
Qed.
Lemma good_reads_succeed s0 cur0 ls s cur t : mounted sha s0 cur0 -> collision_free sha cur0 ls -> good_run s0 cur0 ls s cur -> ~ failed s t.
Proof.
  intros Hm Hf Hr (fs & Ht & Hin). apply (so_error _ _ (reach_sound _ _ _ _ _ _ _ _ Hm Hf Hr)). by eapply task_frame.
Qed.
Lemma good_failsafe s0 cur0 ls s cur : mounted sha s0 cur0 -> collision_free sha cur0 ls -> good_run s0 cur0 ls s cur -> failsafe (sh s) = false.
Proof. intros Hm Hf Hr. apply (so_failsafe _ _ (reach_sound _ _ _ _ _ _ _ _ Hm Hf Hr)). Qed.
(** The row of a block that is not modified. *)
Lemma clean_row s0 cur0 ls s cur k : mounted sha s0 cur0 -> collision_free sha cur0 ls -> good_run s0 cur0 ls s cur -> clean (sh s) k ->
  (blocks (sh s) !! k = None /\ cur k = []) \/
  (exists o ob, blocks (sh s) !! k = Some o /\ objs (sh s) !! o = Some ob /\ o_hash ob = Some (sha (cur k)) /\
    (store (sh s) !! o = Some (cur k) \/ o ∈ inflight (sh s))).
Proof.
  intros Hm Hf Hr Hcl. pose proof (good_is_run _ _ _ _ _ _ _ _ Hr) as Hr2. pose proof (reach_data _ _ _ _ _ _ _ _ Hm Hf Hr2) as V5.
  pose proof (run_Inv _ _ _ _ _ _ _ _ Hr2 (mounted_Inv _ _ _ Hm)) as HI. pose proof (reach_sound _ _ _ _ _ _ _ _ Hm Hf Hr) as V6.
  pose proof (c_back _ _ _ _ _ V5 _ Hcl) as Hb. unfold backed in Hb. destruct (blocks (sh s) !! k) as [o|] eqn:Hbk; [|by left].
  right. destruct (inv3_row _ _ _ _ (v_3 _ _ HI) Hbk) as [ob Ho]. destruct (Hb _ Ho) as [Hh Hst].
  pose proof (so_hash _ _ V6 _ _ _ Hcl Hbk Ho) as Hne. destruct (o_hash ob) as [h|] eqn:Hoh; [|done]. rewrite (Hh h eq_refl) in Hoh.
  exists o, ob. split; [done|]. split; [done|]. split; [done|]. destruct (decide (o ∈ inflight (sh s))) as [Hi|Hi]; [by right|left].
  pose proof (h_stored _ _ _ (v_4 _ _ HI) _ _ _ Ho Hoh Hi) as Hs2. destruct (store (sh s) !! o) as [c|]; [|done]. by rewrite (Hst c eq_refl).
Qed.
Lemma inflight_job s o : Inv s -> o ∈ inflight (sh s) -> exists e ob, FSend e o ∈ frames s /\ cget e.1 (cache (sh s)) = Some e /\
  e_dirty (ent (sh s) e) = true /\ blocks (sh s) !! e.1 = Some o /\ objs (sh s) !! o = Some ob /\ o_hash ob = Some (sha (e_data (ent (sh s) e))).
Proof.
  intros HI Hi. pose proof (u_inflight _ _ _ (v_4 _ _ HI) o) as Hl. rewrite bool_decide_eq_true_2 in Hl by done. simpl in Hl.
  destruct (lsum_pos (sends o) (frames s)) as (f & Hf & Hp); [lia|].
  assert (exists e, f = FSend e o) as [e ->].
  { destruct f; simpl in Hp; try lia. destruct (bool_decide (o0 = o)) eqn:Hb; simpl in Hp; [|lia]. apply bool_decide_eq_true in Hb as ->. by eexists. }
  destruct (u_send _ _ _ (v_4 _ _ HI) _ _ Hf) as (Hb & _ & ob & Ho & Hh & _). pose proof (i_claim _ _ (v_2 _ _ HI) _ Hf) as [Hg Hd].
  by exists e, ob.
Qed.
Lemma good_recoverable s0 cur0 ls s cur k : mounted sha s0 cur0 -> collision_free sha cur0 ls -> good_run s0 cur0 ls s cur ->
  recoverable sha (sh s) cur k.
Proof.
  intros Hm Hf Hr. pose proof (good_is_run _ _ _ _ _ _ _ _ Hr) as Hr2. pose proof (reach_data _ _ _ _ _ _ _ _ Hm Hf Hr2) as V5.
  pose proof (run_Inv _ _ _ _ _ _ _ _ Hr2 (mounted_Inv _ _ _ Hm)) as HI.
  unfold recoverable. destruct (cget k (cache (sh s))) as [e|] eqn:Hg.
  { left. exists e. split; [done|]. by apply (c_data _ _ _ _ _ V5). }
  right. destruct (clean_row _ _ _ _ _ k Hm Hf Hr) as [[Hb Hc]|(o & ob & Hb & Ho & Hh & Hst)].
  - unfold clean. by rewrite Hg.
  - by left.
  - right. destruct Hst as [Hst|Hi]; [left; by exists o|right].
    destruct (inflight_job _ _ HI Hi) as (e & ob' & _ & Hge & Hd & Hbe & Ho' & Hhe).
    exists o, ob, e.1, e. repeat (split; [done|]).
    rewrite Ho in Ho'. injection Ho' as <-. rewrite Hhe in Hh. injection Hh as Hh. apply Hf; [| |done].
    + rewrite (c_data _ _ _ _ _ V5 _ _ Hge). apply (c_known _ _ _ _ _ V5).
    + apply (c_known _ _ _ _ _ V5).
Qed.
Lemma failed_upload_keeps s0 cur0 ls s cur j st e o s' : mounted sha s0 cur0 -> collision_free sha cur0 ls -> run s0 cur0 ls s cur ->
  jobs (sh s) !! j = Some (JUp e o) -> step s (LFailed j st) = Some s' ->
  cget e.1 (cache (sh s')) = Some e /\ e_dirty (ent (sh s') e) = true /\ e_data (ent (sh s') e) = cur e.1.
Proof.
  intros Hm Hf Hr Hj Hs. pose proof (reach_data _ _ _ _ _ _ _ _ Hm Hf Hr) as V5.
  pose proof (run_Inv _ _ _ _ _ _ _ _ Hr (mounted_Inv _ _ _ Hm)) as HI.
  pose proof (i_claim _ _ (v_2 _ _ HI) _ (job_frame _ _ _ Hj)) as [Hg Hd].
  simpl in Hs. rewrite Hj in Hs. injection Hs as <-. pose proof (c_data _ _ _ _ _ V5 _ _ Hg) as Hc. cbn [sh].
  assert (forall (b : bool) y, y = (if b then set_store <[o:=e_data (ent (sh s) e)]> (sh s) else sh s) -> ent (unmark e y) e = set_in_transit false (ent (sh s) e) /\ cache (unmark e y) = cache (sh s)) as Hu.
  { intros b y ->. rewrite ent_unmark, decide_True by done. by destruct b. }
  destruct (Hu st _ eq_refl) as [Hu1 Hu2].
  split; [|split].
  - by rewrite <- Hg, <- Hu2.
  - transitivity (e_dirty (set_in_transit false (ent (sh s) e))); [by rewrite <- Hu1|done].
  - transitivity (e_data (set_in_transit false (ent (sh s) e))); [by rewrite <- Hu1|done].
Qed.

(** ** Reference counts and deletions *)
Lemma refs_quiescent s : Inv s -> quiescent s ->
  (forall o ob, objs (sh s) !! o = Some ob -> 0 < o_ref ob /\ o_ref ob = references (sh s) o) /\
  (forall k o, blocks (sh s) !! k = Some o -> exists ob, objs (sh s) !! o = Some ob).
Proof.
  intros HI [Ht Hj _ _]. pose proof (frames_nil _ Ht Hj) as HF. pose proof (v_3 _ _ HI) as V3. rewrite HF in V3. split.
  - intros o ob Ho. pose proof (r_count _ _ V3 o) as Hc. pose proof (r_pos _ _ V3 _ _ Ho) as [Hp _]. simpl in Hc.
    unfold oref in Hc. rewrite Ho, nblocks_references in Hc. lia.
  - intros k o. by eapply inv3_row.
Qed.
Lemma scheduled_dead s o : scheduled s o -> (0 < dead (sh s) (frames s) o)%Z.
Proof.
  intros Hs. unfold dead. pose proof (lsum_nonneg (deadf o) (frames s) (deadf_nonneg o)).
  assert (forall l, 0 <= cnt o l)%Z as Hcn by (intros; apply cnt_nonneg). pose proof (Hcn (rmq (sh s))). pose proof (Hcn (removing (sh s))).
  destruct Hs as [Hs|[Hs|(t & fs & fl & Ht & Hs)]].
  - apply cnt_elem in Hs. lia.
  - apply cnt_elem in Hs. lia.
  - assert (exists f, f ∈ frames s /\ deadf o f = 1%Z) as (f & Hf & Hd).
    { destruct Hs as [Hs|Hs]; (eexists; split; [by eapply task_frame|]; simpl; by rewrite bool_decide_eq_true_2). }
    pose proof (lsum_elem (deadf o) _ _ (deadf_nonneg o) Hf). lia.
Qed.
(** Objects that are gone. *)
Definition gone s (o : nat) : Prop := objs (sh s) !! o = None /\ o < next_o (sh s).
Lemma gone_step s l s' o : Inv s -> step s l = Some s' -> gone s o -> gone s' o.
Proof.
  intros HI Hs [Ho Hn]. destruct (step_act _ _ _ _ _ _ Hs) as (pre & post & others & Hact & Hp & P1 & P2).
  pose proof (inv3_perm _ _ _ P1 (v_3 _ _ HI)) as V3. destruct (act_objs _ _ _ _ _ _ _ _ _ Hact V3) as (_ & Hnone & Hnext).
  split; [|lia]. destruct (Hnone _ Ho) as [?|(-> & _)]; [done|lia].
Qed.
Lemma gone_steps s ls s' o : steps s ls s' -> Inv s -> gone s o -> gone s' o.
Proof. induction 1; [done|]. intros HI Hg. apply IHsteps; [by eapply Inv_step|by eapply gone_step]. Qed.
Lemma gone_unreferenced s o k : Inv s -> gone s o -> blocks (sh s) !! k <> Some o.
Proof. intros HI [Ho _] Hb. destruct (inv3_row _ _ _ _ (v_3 _ _ HI) Hb) as [ob ?]. congruence. Qed.
Lemma scheduled_gone s o : Inv s -> scheduled s o -> gone s o.
Proof. intros HI Hs. apply (u_row _ _ _ (v_4 _ _ HI)). by apply scheduled_dead. Qed.
Lemma only_scheduled_deleted s l s' o : step s l = Some s' -> store (sh s) !! o <> None -> store (sh s') !! o = None -> scheduled s o.
Proof.
  intros Hs H1 H2. destruct (step_act _ _ _ _ _ _ Hs) as (pre & post & others & Hact & Hp & P1 & P2).
  destruct (act_store _ _ _ _ _ _ _ _ o Hact) as [Hst|[(_ & Hr & Hst)|(e & _ & -> & Hst)]]; [congruence| |congruence].
  right. left. done.
Qed.
Lemma row_gone s ls s' o ob : Inv s -> steps s ls s' -> objs (sh s) !! o = Some ob -> objs (sh s') !! o = None -> gone s' o.
Proof.
  intros HI Hst Ho Hn. split; [done|]. pose proof (r_pos _ _ (v_3 _ _ HI) _ _ Ho) as [_ Hlt].
  clear Ho Hn. revert Hlt. induction Hst as [|s l s1 ls s2 Hs Hst IH]; [done|]. intros Hlt. apply IH; [by eapply Inv_step|].
  destruct (step_act _ _ _ _ _ _ Hs) as (pre & post & others & Hact & Hp & P1 & P2).
  pose proof (inv3_perm _ _ _ P1 (v_3 _ _ HI)) as V3. destruct (act_objs _ _ _ _ _ _ _ _ _ Hact V3) as (_ & _ & Hnext). lia.
Qed.
Lemma leaks_quiescent s o : noleak (sh s) (frames s) -> quiescent s -> store (sh s) !! o <> None -> exists ob, objs (sh s) !! o = Some ob.
Proof.
  intros HN [Ht Hj Hq1 Hq2] Hs. pose proof (frames_nil _ Ht Hj) as HF. rewrite HF in HN.
  destruct (store (sh s) !! o) as [c|] eqn:Hc; [|done]. destruct (HN _ _ Hc) as [(ob & Ho & _)|Hd]; [by exists ob|].
  unfold del, cnt in Hd. rewrite Hq1, Hq2 in Hd. simpl in Hd. lia.
Qed.

(** ** Size and limits *)
Lemma size_quiescent s : Inv s -> quiescent s -> csize (sh s) = total_size (sh s).
Proof.
  intros HI [Ht Hj _ _]. pose proof (frames_nil _ Ht Hj) as HF. pose proof (v_size _ _ HI) as Hz. rewrite HF in Hz. unfold sized in Hz. simpl in Hz.
  rewrite csum_total in Hz. lia.
Qed.
Lemma size_in_use s : Inv s -> (forall t k, in_use s t <> Some k) -> csize (sh s) = total_size (sh s).
Proof.
  intros HI Hu. pose proof (v_size _ _ HI) as Hz. unfold sized in Hz. rewrite csum_total in Hz.
  assert (lsum (udelta (sh s)) (frames s) = 0%Z) as Hl; [|lia].
  apply udelta_off, Forall_forall. intros f Hf. destruct (isuse f) eqn:Hi; [|done]. exfalso.
  destruct f; try done. apply frame_inv in Hf as [(t & fs & Ht & Hin)|(j & jb & Hj & Heq)]; [|by destruct jb].
  pose proof (v_inert _ _ HI _ _ Ht) as Hin2. destruct fs as [|g fs]; [by apply elem_of_nil in Hin|]. unfold inert in Hin2. simpl in Hin2.
  apply elem_of_cons in Hin as [<-|Hin].
  - apply (Hu t e.1). unfold in_use. by rewrite Ht.
  - rewrite Forall_forall in Hin2. by apply Hin2 in Hin.
Qed.
Lemma evict_returns s t d rest s' : step s (LRun t) = Some s' -> tasks s !! t = Some (FEvict d :: rest) -> tasks s' !! t = Some rest ->
  (csize (sh s) <= max_size (sh s))%Z /\ (Z.of_nat (entries (sh s)) <= max_entries (sh s))%Z.
Proof.
  simpl. intros Hs Ht Ht'. rewrite Ht in Hs. simpl in Hs. rewrite clen_entries in Hs. destruct (decide _) as [[H1 H2]|Hd]; [lia|].
  injection Hs as <-. simpl in Ht'. rewrite lookup_insert in Ht'. injection Ht' as Ht'. exfalso.
  apply (f_equal length) in Ht'. simpl in Ht'. lia.
Qed.
End proofs.
