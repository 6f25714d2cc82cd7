(** Invariants of the block cache, continued: no lost objects, size accounting, limits. *)
From stdpp Require Import prelude list gmap.
From Coq Require Import ZArith.
From Verif Require Import BlockCacheModel BlockCacheSpec BlockCacheLemmas BlockCacheSteps BlockCacheInv BlockCacheInv2 BlockCacheInv3 BlockCacheInv4 BlockCacheInv5.

Section inv.
Context {H : Type} `{EqDecision H} (sha : list nat -> H) (nworkers qcap : nat).
Notation shared := (shared H).
Implicit Types x : shared.
Notation act := (act sha nworkers qcap).
Context (P : list nat -> Prop).

(** ** Blocks that are not modified have an object with a hash *)
Record sound x (F : list frame) : Prop := {
  so_hash : forall k o ob, clean x k -> blocks x !! k = Some o -> objs x !! o = Some ob -> o_hash ob <> None;
  so_down : forall k o, FDown k o ∈ F -> o ∉ inflight x;
  so_error : FError ∉ F;
  so_failsafe : failsafe x = false
}.
Lemma sound_perm x F F' : Permutation F F' -> sound x F -> sound x F'.
Proof.
  intros HP [H1 H2 H3 H4]. split; try done.
  - intros k o. rewrite <- HP. apply H2.
  - by rewrite <- HP.
Qed.
(** How a touched block becomes clean. *)
Lemma cleaned l x pre x' post F cur K o : act l x pre x' post -> inv2 x (pre ++ F) -> inv3 x (pre ++ F) -> inv4 sha x (pre ++ F) ->
  (forall k k', l = LCopy k k' -> registered sha x cur k) -> touch l pre = Some K -> clean x' K -> blocks x' !! K = Some o ->
  (forall j st, l <> LFailed j st) /\
  ((clean x K /\ blocks x !! K = Some o) \/ (exists ob, objs x !! o = Some ob /\ o_hash ob <> None)).
Proof.
  intros Hact I2 I3 I4 Hreg Hk Hcl Hbo.
  assert (cget K (cache x') = cget K (cache x) -> (forall e, cget K (cache x) = Some e -> e_dirty (ent x' e) = e_dirty (ent x e)) ->
    blocks x' !! K = blocks x !! K -> clean x K /\ blocks x !! K = Some o) as Hsame.
  { intros Hg He Hb. split; [|congruence]. unfold clean in *. rewrite Hg in Hcl.
    destruct (cget K (cache x)) as [e|]; [|done]. rewrite <- He by done. done. }
  destruct Hact as [t c x|t f x x' fs Hs He|t e o1 x Hsz|t f x x' fs He|t f c x x' He|j e o1 x Hj
    |j st e o1 x Hj|j K1 x Hj|x Hr Hq|x Hr|t i b todo later x|k1 k2 o1 x H1 H2 H3 H4]; simpl in Hk; try done.
  - split; [done|]. pose proof (i_claim _ _ I2 f ltac:(set_solver)) as Hc.
    destruct f; try done; simpl in He; simpl in Hk; simpl in Hc; injection Hk as HK.
    + simplify_eq. left. by apply Hsame.
    + repeat case_match; simplify_eq; left; try (by apply Hsame). apply Hsame; try done. intros e1 He1. rewrite ent_mark.
      destruct (decide (e = e1)) as [->|]; done.
    + destruct Hc as [Hget Hdirty]. destruct (obj_by_hash _ x) as [o2|] eqn:Hh.
      * apply obj_by_hash_Some in Hh as (ob & Ho & Hoh). right. exists ob.
        destruct (decide (blocks x !! e.1 = Some o2)) as [Hb|Hb]; simplify_eq.
        { simpl in Hbo. simplify_eq. split; [done|]. by rewrite Hoh. }
        { simpl in Hbo. rewrite lookup_insert in Hbo. simplify_eq. split; [done|]. by rewrite Hoh. }
      * simplify_eq. exfalso. unfold clean in Hcl. simpl in Hcl. rewrite Hget in Hcl.
        change (e_dirty (ent x e) = false) in Hcl. congruence.
    + repeat case_match; simplify_eq; left; try (by apply Hsame). apply Hsame; try done. simpl. apply (se_get _ _ (same_cmove _ _)), I2.
    + subst k. left. destruct (cget K (cache x)) as [e1|] eqn:Hg.
      { simplify_eq. apply Hsame; try done. simpl. rewrite <- Hg. apply (se_get _ _ (same_cmove _ _)), I2. }
      split; [unfold clean; by rewrite Hg|].
      destruct (blocks x !! K) as [o2|] eqn:Hb; [destruct (objs x !! o2) as [ob|]; [destruct (o_hash ob)|]|]; injection He as <- <-; simpl in Hbo; congruence.
    + repeat case_match; simplify_eq; left; by apply Hsame.
    + repeat case_match; simplify_eq; left; by apply Hsame.
    + left. subst k. split; [unfold clean; by rewrite Hc|]. by simplify_eq.
    + left. case_decide as Hd; simplify_eq; [|by apply Hsame]. destruct Hd as [Hg Hd]. split; [unfold clean; by rewrite Hg|].
      by rewrite blocks_cremove in Hbo.
    + exfalso. subst k. rewrite blocks_cremove in He. destruct (blocks x !! K) as [o2|] eqn:Hb; simplify_eq.
      * simpl in Hbo. rewrite lookup_delete in Hbo. done.
      * rewrite blocks_cremove in Hbo. congruence.
  - simplify_eq. split; [done|]. left. by apply Hsame.
  - split; [done|]. left. destruct f; simpl in He; try done; simplify_eq; by apply Hsame.
  - exfalso. pose proof (i_claim _ _ I2 f ltac:(set_solver)) as Hc.
    assert (forall e, cget e.1 (cache x) = Some e -> x' = set_entry e (set_data c) x -> K = e.1 -> False) as Hw.
    { intros e Hg -> ->. unfold clean in Hcl. simpl in Hcl. rewrite Hg, ent_set_entry, decide_True in Hcl by done. done. }
    destruct f; simpl in He; try done; repeat case_match; simplify_eq; (injection Hk as HK; eapply Hw; [apply Hc|done|done]).
  - split; [done|]. right. destruct (u_send _ _ _ I4 e o1) as (Hb & _ & ob & Ho & Hoh & _); [set_solver|].
    injection Hk as <-. simpl in Hbo. rewrite Hb in Hbo. injection Hbo as <-. exists ob. split; [done|]. by rewrite Hoh.
  - exfalso. pose proof (i_claim _ _ I2 (FSend e o1) ltac:(set_solver)) as [Hg Hdirty]. injection Hk as <-.
    assert (ent (set_jobs <[j:=JRel e.1]> (upload_failed e o1 st x)) e = set_in_transit false (ent x e)) as He.
    { transitivity (ent (unmark e x) e); [by destruct st|]. by rewrite ent_unmark, decide_True. }
    assert (cget e.1 (cache (set_jobs <[j:=JRel e.1]> (upload_failed e o1 st x))) = Some e) as Hg2 by (by destruct st).
    unfold clean in Hcl. rewrite Hg2, He in Hcl. simpl in Hcl. by rewrite Hdirty in Hcl.
  - split; [done|]. left. injection Hk as <-. by apply Hsame.
  - split; [done|]. right. injection Hk as <-. destruct (Hreg _ _ eq_refl) as (o2 & ob & Hb & Ho & Hoh).
    simpl in Hbo. rewrite lookup_insert in Hbo. injection Hbo as <-. assert (Some o1 = Some o2) as [= ->] by (by rewrite <- Hb). exists ob. split; [done|]. by rewrite Hoh.
Qed.

(** Where a download or an error can come from. *)
Definition isdown (f : frame) : bool := match f with FDown _ _ | FError => true | _ => false end.
Lemma resume_nodown e r b f : f ∈ resume e r b -> isdown f = false.
Proof.
  destruct r, b; simpl; intros Hin; apply elem_of_list_singleton in Hin; by subst.
Qed.
Lemma deref_nodown old f : f ∈ deref old -> isdown f = false.
Proof. destruct old; simpl; intros Hin; [apply elem_of_list_singleton in Hin; by subst|by apply elem_of_nil in Hin]. Qed.
Ltac nodown Hin :=
  repeat first [apply elem_of_cons in Hin as [Hin|Hin] | apply elem_of_app in Hin as [Hin|Hin] | by apply elem_of_nil in Hin
    | by (apply resume_nodown in Hin; simpl in Hin) | by (apply deref_nodown in Hin; simpl in Hin) | discriminate Hin ].
Lemma post_down l x pre x' post k o : act l x pre x' post -> FDown k o ∈ post -> o ∉ inflight x'.
Proof.
  intros Hact Hin. destruct Hact as [t c x|t f x x' fs Hs He|t e o1 x Hsz|t f x x' fs He|t f c x x' He|j e o1 x Hj
        |j st e o1 x Hj|j K1 x Hj|x Hr Hq|x Hr|t i b todo later x|k1 k2 o1 x H1 H2 H3 H4]; simpl in Hin; try (exfalso; nodown Hin; fail).
  - exfalso. destruct c; simpl in Hin; nodown Hin.
  - destruct f; try done; simpl in He; repeat case_match; try done; injection He as <- <-; try (exfalso; nodown Hin; fail).
    apply elem_of_list_singleton in Hin. by injection Hin as -> ->.
  - exfalso. destruct f; simpl in He; try done; injection He as <- <-; nodown Hin.
  - exfalso. destruct f; simpl in He; try done; nodown Hin.
Qed.
Lemma post_error l x pre x' post : act l x pre x' post -> FError ∈ post -> exists k o, FDown k o ∈ pre /\ store x !! o = None.
Proof.
  intros Hact Hin. destruct Hact as [t c x|t f x x' fs Hs He|t e o1 x Hsz|t f x x' fs He|t f c x x' He|j e o1 x Hj
        |j st e o1 x Hj|j K1 x Hj|x Hr Hq|x Hr|t i b todo later x|k1 k2 o1 x H1 H2 H3 H4]; simpl in Hin; try (exfalso; nodown Hin; fail).
  - exfalso. destruct c; simpl in Hin; nodown Hin.
  - destruct f; try done; simpl in He; repeat case_match; try done; injection He as <- <-; try (exfalso; nodown Hin; fail).
    eexists _, _. split; [by left|done].
  - exfalso. destruct f; simpl in He; try done; injection He as <- <-; nodown Hin.
  - exfalso. destruct f; simpl in He; try done; nodown Hin.
Qed.

Lemma sound_act l x pre x' post F cur : act l x pre x' post -> inv2 x (pre ++ F) -> inv3 x (pre ++ F) -> inv4 sha x (pre ++ F) -> inv5 sha P x (pre ++ F) cur ->
  (forall k k', l = LCopy k k' -> registered sha x cur k) ->
  (forall j st e o k, l = LFailed j st -> pre = [FSend e o] -> k <> e.1 -> blocks x !! k = Some o -> ~ clean x k) ->
  sound x (pre ++ F) -> sound x' (post ++ F).
Proof.
  intros Hact I2 I3 I4 I5 Hreg Hfail HS. pose proof (act_guar _ _ _ _ _ _ _ _ Hact) as [G1 G2 G3].
  destruct (act_objs _ _ _ _ _ _ _ _ _ Hact I3) as (Hsome & Hnone & Hnext).
  assert (forall k e, cget k (cache x) = Some e -> e.1 = k) as Hkey by (intros; by eapply inv2_key).
  assert (forall k o, FDown k o ∈ pre ++ F -> exists c, store x !! o = Some c) as Hdown.
  { intros k o Hin. pose proof (i_claim _ _ I2 _ Hin) as Hg. simpl in Hg.
    assert (blocks x !! k = Some o) as Hb by (apply (c_wait _ _ _ _ _ I5); by right).
    destruct (inv3_row _ _ _ _ I3 Hb) as [ob Ho].
    assert (o_hash ob <> None) as Hh. { eapply (so_hash _ _ HS k); [unfold clean; by rewrite Hg|done|done]. }
    destruct (o_hash ob) as [h|] eqn:Hoh; [|done].
    pose proof (h_stored _ _ _ I4 _ _ _ Ho Hoh (so_down _ _ HS _ _ Hin)) as Hst. destruct (store x !! o) as [c|]; [by exists c|done]. }
  assert (forall k o ob, FGetEntry k ∈ pre ++ F -> cget k (cache x) = None -> blocks x !! k = Some o -> objs x !! o = Some ob -> o_hash ob <> None) as Hentry.
  { intros k o ob _ Hg Hb Ho. eapply (so_hash _ _ HS k); [unfold clean; by rewrite Hg|done|done]. }
  split.
  - intros k o ob' Hcl Hb Ho'.
    assert ((clean x k /\ blocks x !! k = Some o /\ forall e j st, l = LFailed j st -> pre = [FSend e o] -> False) \/
      ((forall j st, l <> LFailed j st) /\ exists ob, objs x !! o = Some ob /\ o_hash ob <> None)) as Hor.
    { destruct (decide (Some k = touch l pre)) as [Ht|Ht].
      - symmetry in Ht. destruct (cleaned _ _ _ _ _ _ _ _ _ Hact I2 I3 I4 Hreg Ht Hcl Hb) as [Hnf [[Hc Hb2]|Hex]].
        + left. split; [done|]. split; [done|]. intros e j st -> _. by eapply Hnf.
        + by right.
      - left. rewrite (clean_eq x x' k) in Hcl.
        2:{ apply G1; [done|apply I2]. }
        2:{ intros e Hg. apply G3. by rewrite (Hkey _ _ Hg). }
        rewrite G2 in Hb by done. split; [done|]. split; [done|].
        intros e j st -> ->. eapply (Hfail j st e o k); try done. intros ->. apply Ht. done. }
    assert (exists ob, objs x !! o = Some ob /\ o_hash ob <> None /\ forall e j st, l = LFailed j st -> pre = [FSend e o] -> False) as (ob & Ho & Hh & Hnf).
    { destruct Hor as [(Hc & Hb2 & Hnf)|[Hnf (ob & Ho & Hh)]].
      - destruct (inv3_row _ _ _ _ I3 Hb2) as [ob Ho]. exists ob. split; [done|]. split; [|done]. by eapply (so_hash _ _ HS).
      - exists ob. split; [done|]. split; [done|]. intros e j st -> _. by eapply Hnf. }
    destruct (Hsome _ _ Ho) as [(ob2 & Ho2 & Hsm & _)|[Hn _]]; [|congruence]. rewrite Ho2 in Ho'. injection Ho' as <-.
    destruct (decide (Some o = utarget l pre)) as [Hu|Hu].
    + symmetry in Hu. destruct (utarget_some _ _ _ _ _ _ _ _ _ Hact Hu) as (e & -> & _ & _ & [(_ & _ & Heo)|((j & st & ->) & _)]).
      * rewrite Heo, lookup_alter, Ho in Ho2. simpl in Ho2. injection Ho2 as <-. done.
      * exfalso. by eapply Hnf.
    + specialize (Hsm Hu) as [-> _]. done.
  - intros k o Hin Hi. apply elem_of_app in Hin as [Hin|Hin].
    + assert (o ∉ inflight x') as Hn; [|done]. by eapply post_down.
    + assert (FDown k o ∈ pre ++ F) as Hin2 by set_solver.
      assert (blocks x !! k = Some o) as Hb by (apply (c_wait _ _ _ _ _ I5); by right).
      destruct (inv3_row _ _ _ _ I3 Hb) as [ob Ho]. apply (r_pos _ _ I3) in Ho as [_ Hlt].
      pose proof (so_down _ _ HS _ _ Hin2) as Hni.
      destruct (act_inflight_sub _ _ _ _ _ _ _ _ o Hact) as [?|Heq]; [done|done|lia].
  - intros Hin. apply elem_of_app in Hin as [Hin|Hin]; [|apply (so_error _ _ HS); set_solver].
    destruct (post_error _ _ _ _ _ Hact Hin) as (k & o & Hin2 & Hst).
    destruct (Hdown k o) as [c Hc]; [set_solver|congruence].
  - pose proof (so_failsafe _ _ HS) as Hfs.
    destruct Hact as [t c x|t f x x' fs Hs He|t e o1 x Hsz|t f x x' fs He|t f c x x' He|j e o1 x Hj
        |j st e o1 x Hj|j K1 x Hj|x Hr Hq|x Hr|t i b todo later x|k1 k2 o1 x H1 H2 H3 H4]; try done.
    + destruct f; try done; simpl in He; unfold cremove in He; repeat case_match; simplify_eq; try done.
      exfalso. by eapply (Hentry k); [by left|done|done|done|].
    + destruct f; simpl in He; try done; simplify_eq; done.
    + destruct f; simpl in He; try done; repeat case_match; simplify_eq; done.
    + by destruct st.
    + unfold deleted. rewrite bool_decide_eq_false_2; [done|]. intros Hex. apply Exists_exists in Hex as (o & Hin & Hn).
      apply (u_del _ _ _ I4 o); [|done]. unfold del. apply cnt_elem in Hin. pose proof (cnt_nonneg o (rmq x)).
      pose proof (lsum_nonneg (delf o) ([] ++ F) (delf_nonneg o)). lia.
Qed.
End inv.
