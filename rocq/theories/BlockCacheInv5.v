(** Invariants of the block cache, continued: content of the blocks. *)
From stdpp Require Import prelude list gmap.
From Coq Require Import ZArith.
From Verif Require Import BlockCacheModel BlockCacheSpec BlockCacheLemmas BlockCacheSteps BlockCacheInv BlockCacheInv2 BlockCacheInv3 BlockCacheInv4.

Section inv.
Context {H : Type} `{EqDecision H} (sha : list nat -> H) (nworkers qcap : nat).
Notation shared := (shared H).
Implicit Types x : shared.
Notation act := (act sha nworkers qcap).

(** [history] in terms of the frame that is taken away. *)
Definition ahistory (l : label) (pre : list frame) (cur : contents) : contents :=
  match l, pre with
  | LWrite _ c, [FUse e _] | LWrite _ c, [FUseFast e] => upd cur e.1 c
  | LRun _, [FRemLocked k] => upd cur k []
  | LCopy k k', _ => upd cur k' (cur k)
  | _, _ => cur
  end.
Lemma history_act (s : state H) l pre cur : pre_ok s l pre -> history s l cur = ahistory l pre cur.
Proof.
  destruct l; simpl; try done; unfold in_use, removes.
  - intros (f & rest & -> & ->). by destruct f.
  - intros (f & rest & -> & ->). by destruct f.
Qed.
Lemma ahistory_off l pre cur k : Some k <> touch l pre -> ahistory l pre cur k = cur k.
Proof.
  intros Hk. unfold ahistory. destruct l; try done.
  - destruct pre as [|[] []]; try done. unfold upd. rewrite decide_False; [done|]. intros ->. done.
  - destruct pre as [|[] []]; try done; unfold upd; (rewrite decide_False; [done|]; intros ->; done).
  - unfold upd. rewrite decide_False; [done|]. intros ->. done.
Qed.

(** The object of the row, if there is one, is known to have no other content. *)
Definition agrees x (o : nat) (c : list nat) : Prop := forall ob, objs x !! o = Some ob ->
  (forall h, o_hash ob = Some h -> h = sha c) /\ (forall c', store x !! o = Some c' -> c' = c).
Definition backed x (cur : contents) (k : nat * nat) : Prop :=
  match blocks x !! k with None => cur k = [] | Some o => agrees x o (cur k) end.

(** The contents that occur in an execution; the hash is injective on them. *)
Context (P : list nat -> Prop).

Record inv5 x (F : list frame) (cur : contents) : Prop := {
  c_data : forall k e, cget k (cache x) = Some e -> e_data (ent x e) = cur k;
  c_back : forall k, clean x k -> backed x cur k;
  c_wait : forall k o, FDownWait k o ∈ F \/ FDown k o ∈ F -> blocks x !! k = Some o;
  c_done : forall k c, FDownDone k c ∈ F -> c = cur k;
  c_known : forall k, P (cur k);
  c_stored : forall o c, store x !! o = Some c -> P c
}.
Lemma inv5_perm x F F' cur : Permutation F F' -> inv5 x F cur -> inv5 x F' cur.
Proof.
  intros HP [H1 H2 H3 H4 H5 H6]. split; try done.
  - intros k o. rewrite <- HP. apply H3.
  - intros k c. rewrite <- HP. apply H4.
Qed.

Hypothesis P_nil : P [].
Hypothesis sha_inj : forall c c', P c -> P c' -> sha c = sha c' -> c = c'.

Lemma send_data x F cur e o : inv2 x F -> inv5 x F cur -> FSend e o ∈ F -> P (e_data (ent x e)).
Proof.
  intros I2 I5 Hin. pose proof (i_claim _ _ I2 _ Hin) as [Hg _]. rewrite (c_data _ _ _ I5 _ _ Hg). apply (c_known _ _ _ I5).
Qed.
Lemma agrees_act l x pre x' post F cur o c : act l x pre x' post -> inv2 x (pre ++ F) -> inv3 x (pre ++ F) -> inv4 sha x (pre ++ F) ->
  inv5 x (pre ++ F) cur -> P c ->
  objs x !! o <> None -> agrees x o c -> agrees x' o c.
Proof.
  intros Hact I2 I3 I4 I5 Hc Hrow Ha ob' Ho'. destruct (act_objs _ _ _ _ _ _ _ _ _ Hact I3) as (Hsome & _ & _).
  destruct (objs x !! o) as [ob|] eqn:Ho; [|done]. destruct (Ha ob Ho) as [Hh Hs].
  destruct (Hsome _ _ Ho) as [(ob2 & Ho2 & _ & Hhh & _)|[Hn _]]; [|congruence]. simplify_eq. split.
  - intros h Hb. apply Hh. destruct Hhh; congruence.
  - intros c' Hc'. destruct (act_store _ _ _ _ _ _ _ _ o Hact) as [Hst|[(_ & _ & Hst)|(e & _ & -> & Hst)]].
    + apply Hs. congruence.
    + congruence.
    + destruct (u_send _ _ _ I4 e o) as (_ & _ & ob2 & Ho3 & Hh2 & _); [set_solver|].
      rewrite Hst in Hc'. injection Hc' as <-. apply sha_inj; [eapply send_data; [done|done|by left]|done|]. apply Hh. congruence.
Qed.

Lemma clean_get x k e : cget k (cache x) = Some e -> clean x k <-> e_dirty (ent x e) = false.
Proof. intros Hg. unfold clean. by rewrite Hg. Qed.
Lemma clean_eq x x' k : cget k (cache x') = cget k (cache x) ->
  (forall e, cget k (cache x) = Some e -> ent x' e = ent x e) -> clean x' k <-> clean x k.
Proof. intros Hg He. unfold clean. rewrite Hg. destruct (cget k (cache x)) as [e|]; [|done]. by rewrite He. Qed.

(** What happens to the block that is touched. *)
Lemma touched l x pre x' post F cur K : act l x pre x' post -> inv2 x (pre ++ F) -> inv3 x (pre ++ F) -> inv4 sha x (pre ++ F) ->
  inv5 x (pre ++ F) cur -> (forall k k', l = LCopy k k' -> registered sha x cur k) -> touch l pre = Some K ->
  (forall e, cget K (cache x') = Some e -> e_data (ent x' e) = ahistory l pre cur K) /\
  (clean x' K -> backed x' (ahistory l pre cur) K).
Proof.
  intros Hact I2 I3 I4 I5 Hreg Hk.
  (* the block is not changed, its object neither *)
  assert (cget K (cache x') = cget K (cache x) -> (forall e, cget K (cache x) = Some e ->
      e_data (ent x' e) = e_data (ent x e) /\ e_dirty (ent x' e) = e_dirty (ent x e)) -> blocks x' !! K = blocks x !! K ->
    ahistory l pre cur K = cur K ->
    (forall e, cget K (cache x') = Some e -> e_data (ent x' e) = ahistory l pre cur K) /\
    (clean x' K -> backed x' (ahistory l pre cur) K)) as Hsame.
  { intros Hg He Hb Hc. rewrite Hc. split.
    - intros e. rewrite Hg. intros Hge. destruct (He e Hge) as [-> _]. by apply (c_data _ _ _ I5).
    - intros Hcl. assert (backed x cur K) as Hbk.
      { apply (c_back _ _ _ I5). unfold clean in *. rewrite Hg in Hcl. destruct (cget K (cache x)) as [e|]; [|done].
        destruct (He e eq_refl) as [_ <-]. done. }
      unfold backed in *. rewrite Hb, Hc. destruct (blocks x !! K) as [o|] eqn:HbK; [|done].
      eapply agrees_act; [done..|apply (c_known _ _ _ I5)| |done]. by destruct (inv3_row _ _ _ _ I3 HbK) as [ob ->]. }
  (* the content is put into the cache *)
  assert (forall c, cget K (cache x) = None -> c = cur K -> x' = (new_entry K c x).1 -> ahistory l pre cur = cur ->
    (forall e, cget K (cache x') = Some e -> e_data (ent x' e) = ahistory l pre cur K) /\
    (clean x' K -> backed x' (ahistory l pre cur) K)) as Hput.
  { intros c Hg -> -> ->. split.
    - intros e. rewrite cget_new, Hg, decide_True by done. intros [= <-]. by rewrite ent_new, decide_True.
    - intros _. assert (clean x K) as Hcl by (unfold clean; by rewrite Hg). by apply (c_back _ _ _ I5) in Hcl. }
  destruct Hact as [t c x|t f x x' fs Hs He|t e o1 x Hsz|t f x x' fs He|t f c x x' He|j e o1 x Hj
    |j st e o1 x Hj|j K1 x Hj|x Hr Hq|x Hr|t i b todo later x|k1 k2 o1 x H1 H2 H3 H4]; simpl in Hk; try done.
  - pose proof (i_claim _ _ I2 f ltac:(set_solver)) as Hcl.
    assert (forall e, cget K (cache x) = Some e -> e_data (ent x e) = e_data (ent x e) /\ e_dirty (ent x e) = e_dirty (ent x e)) as Htriv by done.
    destruct f; try done; simpl in He; simpl in Hk; simpl in Hcl; injection Hk as HK.
    + simplify_eq. by apply Hsame.
    + repeat case_match; simplify_eq; try (by apply Hsame). apply Hsame; try done. intros e1 He1. rewrite ent_mark.
      destruct (decide (e = e1)) as [->|]; done.
    + (* FSha *)
      destruct Hcl as [Hget Hdirty]. destruct (obj_by_hash _ x) as [o|] eqn:Hh.
      * apply obj_by_hash_Some in Hh as (ob & Ho & Hoh).
        assert (agrees x o (e_data (ent x e))) as Hag.
        { intros ob2 Ho2. simplify_eq. split; [congruence|]. intros c Hc. apply sha_inj; [by apply (c_stored _ _ _ I5) in Hc| |by eapply (h_store _ _ _ I4)].
          rewrite (c_data _ _ _ I5 _ _ Hget). apply (c_known _ _ _ I5). }
        pose proof (c_data _ _ _ I5 _ _ Hget) as Hdata.
        assert (forall e1 y, cget K (cache x) = Some e1 -> y = unmark e (set_entry e (set_dirty false) x) -> e_data (ent y e1) = cur K) as Hd.
        { intros e1 y He1 ->. assert (e1 = e) as -> by congruence. rewrite ent_unmark, decide_True, ent_set_entry, decide_True by done. simpl. congruence. }
        destruct (decide (blocks x !! e.1 = Some o)) as [Hb|Hb]; simplify_eq.
        { simpl. split; [intros e1 He1; by eapply Hd|]. intros _. unfold backed. simpl. rewrite Hb. rewrite <- Hdata. done. }
        { simpl. split; [intros e1 He1; by apply (Hd e1 _ He1 eq_refl)|]. intros _. unfold backed. simpl. rewrite lookup_insert.
          rewrite <- Hdata. intros ob2. simpl. rewrite lookup_alter, Ho. simpl. intros [= <-]. simpl. apply (Hag _ Ho). }
      * simplify_eq. split.
        { simpl. intros e1 He1. apply (c_data _ _ _ I5) in He1. done. }
        { intros Hclean. exfalso. unfold clean in Hclean. simpl in Hclean. rewrite Hget in Hclean.
          change (e_dirty (ent x e) = false) in Hclean. congruence. }
    + repeat case_match; simplify_eq; try (by apply Hsame). apply Hsame; try done. simpl. apply (se_get _ _ (same_cmove _ _)), I2.
    + subst k. destruct (cget K (cache x)) as [e1|] eqn:Hg.
      { simplify_eq. apply Hsame; try done. simpl. rewrite <- Hg. apply (se_get _ _ (same_cmove _ _)), I2. }
      assert (backed x cur K) as Hbk by (apply (c_back _ _ _ I5); unfold clean; by rewrite Hg). unfold backed in Hbk.
      destruct (blocks x !! K) as [o|] eqn:Hb.
      * destruct (inv3_row _ _ _ _ I3 Hb) as [ob Ho]. rewrite Ho in He.
        destruct (o_hash ob); simplify_eq; apply Hsame; done.
      * apply (Hput []); try done. by simplify_eq.
    + repeat case_match; simplify_eq; by apply Hsame.
    + repeat case_match; simplify_eq; by apply Hsame.
    + subst k. apply (Hput c); try done; [|by simplify_eq]. apply (c_done _ _ _ I5). set_solver.
    + (* FEvictLocked *)
      case_decide as Hc; simplify_eq; [|by apply Hsame]. destruct Hc as [Hg Hd]. split.
      * intros e1. rewrite cget_cremove, decide_True by (done || apply I2). done.
      * intros _. assert (clean x e.1) as Hcc by (unfold clean; by rewrite Hg). apply (c_back _ _ _ I5) in Hcc.
        unfold backed in *. rewrite blocks_cremove. simpl. destruct (blocks x !! e.1); [|done].
        intros ob. rewrite objs_cremove. assert (store (cremove e.1 x) = store x) as ->; [|apply Hcc].
        unfold cremove. by rewrite Hg.
    + (* FRemLocked *)
      subst k. rewrite blocks_cremove in He.
      assert (forall (y : shared) e, cget K (cache y) = Some e -> cache y = cache (cremove K x) -> False) as Hno.
      { intros y e Hg Hc. rewrite Hc in Hg. rewrite cget_cremove, decide_True in Hg by (done || apply I2). done. }
      assert (ahistory (LRun t) [FRemLocked K] cur K = []) as Hnil by (simpl; unfold upd; by rewrite decide_True).
      destruct (blocks x !! K) as [o|] eqn:Hb; simplify_eq.
      * split; [intros e Hg; by apply Hno in Hg|]. intros _. unfold backed. simpl blocks. rewrite lookup_delete. done.
      * split; [intros e Hg; by apply Hno in Hg|]. intros _. unfold backed. rewrite blocks_cremove, Hb. done.
  - simplify_eq. by apply Hsame.
  - destruct f; simpl in He; try done; simplify_eq; by apply Hsame.
  - (* LWrite *)
    pose proof (i_claim _ _ I2 f ltac:(set_solver)) as Hcl.
    assert (forall e, cget e.1 (cache x) = Some e -> x' = set_entry e (set_data c) x -> K = e.1 -> ahistory (LWrite t c) [f] cur = upd cur e.1 c ->
      (forall e, cget K (cache x') = Some e -> e_data (ent x' e) = ahistory (LWrite t c) [f] cur K) /\
      (clean x' K -> backed x' (ahistory (LWrite t c) [f] cur) K)) as Hw.
    { intros e Hg -> -> ->. split.
      - intros e1 He1. simpl in He1. assert (e1 = e) as -> by congruence. rewrite ent_set_entry, decide_True by done.
        unfold upd. by rewrite decide_True.
      - unfold clean. simpl. rewrite Hg, ent_set_entry, decide_True by done. done. }
    destruct f; simpl in He; try done; repeat case_match; simplify_eq; (injection Hk as HK; eapply Hw; [apply Hcl|done|done|done]).
  - (* LUploaded *)
    destruct (u_send _ _ _ I4 e o1) as (Hb & _ & ob & Ho & Hoh & _); [set_solver|].
    pose proof (i_claim _ _ I2 (FSend e o1) ltac:(set_solver)) as [Hg Hdirty]. injection Hk as <-.
    pose proof (c_data _ _ _ I5 _ _ Hg) as Hd.
    split.
    + simpl. intros e1 He1. assert (e1 = e) as -> by congruence.
      change (e_data (ent (set_entry e (set_dirty false) (unmark e x)) e) = cur e.1).
      rewrite ent_set_entry, ent_unmark, !decide_True by done. done.
    + intros _. unfold backed. simpl. rewrite Hb. intros ob2. simpl. rewrite lookup_alter, Ho, lookup_insert. simpl.
      intros [= <-]. simpl. rewrite <- Hd. split; [congruence|]. congruence.
  - (* LFailed *)
    pose proof (i_claim _ _ I2 (FSend e o1) ltac:(set_solver)) as [Hg Hdirty]. injection Hk as <-.
    pose proof (c_data _ _ _ I5 _ _ Hg) as Hd.
    assert (ent (set_jobs <[j:=JRel e.1]> (upload_failed e o1 st x)) e = set_in_transit false (ent x e)) as He.
    { transitivity (ent (unmark e x) e); [by destruct st|]. by rewrite ent_unmark, decide_True. }
    assert (cget e.1 (cache (set_jobs <[j:=JRel e.1]> (upload_failed e o1 st x))) = Some e) as Hg2 by (by destruct st).
    split.
    + intros e1 He1. assert (e1 = e) as -> by congruence. rewrite He. done.
    + unfold clean. rewrite Hg2, He. simpl. congruence.
  - injection Hk as <-. by apply Hsame.
  - (* LCopy *)
    injection Hk as <-. destruct (Hreg _ _ eq_refl) as (o & ob & Hb & Ho & Hoh). simplify_eq. simpl. unfold upd.
    split.
    + intros e. congruence.
    + intros _. unfold backed. simpl. rewrite lookup_insert, decide_True by done. intros ob2. simpl.
      rewrite lookup_alter, Ho. simpl. intros [= <-]. simpl. split; [congruence|].
      intros c Hc. apply sha_inj; [by apply (c_stored _ _ _ I5) in Hc|apply (c_known _ _ _ I5)|by eapply (h_store _ _ _ I4)].
Qed.

Lemma inv5_act l x pre x' post F cur : act l x pre x' post -> inv2 x (pre ++ F) -> inv3 x (pre ++ F) -> inv4 sha x (pre ++ F) ->
  (forall k k', l = LCopy k k' -> registered sha x cur k) -> (forall t c, l = LWrite t c -> P c) ->
  inv5 x (pre ++ F) cur -> inv5 x' (post ++ F) (ahistory l pre cur).
Proof.
  intros Hact I2 I3 I4 Hreg Hwr I5. pose proof (act_guar _ _ _ _ _ _ _ _ Hact) as [G1 G2 G3].
  assert (forall k e, cget k (cache x) = Some e -> e.1 = k) as Hkey by (intros; by eapply inv2_key).
  split.
  - intros k e Hg. destruct (decide (Some k = touch l pre)) as [Ht|Ht].
    + symmetry in Ht. by eapply touched.
    + rewrite G1 in Hg by (done || apply I2). rewrite ahistory_off by done. rewrite G3 by (by rewrite (Hkey _ _ Hg)).
      by apply (c_data _ _ _ I5).
  - intros k Hcl. destruct (decide (Some k = touch l pre)) as [Ht|Ht].
    + symmetry in Ht. by eapply touched.
    + rewrite (clean_eq x x' k) in Hcl.
      2:{ apply G1; [done|apply I2]. }
      2:{ intros e Hg. apply G3. by rewrite (Hkey _ _ Hg). }
      apply (c_back _ _ _ I5) in Hcl. unfold backed in *. rewrite G2, ahistory_off by done.
      destruct (blocks x !! k) as [o|] eqn:Hb; [|done]. eapply agrees_act; [done..|apply (c_known _ _ _ I5)| |done].
      by destruct (inv3_row _ _ _ _ I3 Hb) as [ob ->].
  - intros k o Hf. assert ((FDownWait k o ∈ F \/ FDown k o ∈ F) \/ (FDownWait k o ∈ post \/ FDown k o ∈ post)) as [Hin|Hin] by set_solver.
    + rewrite G2; [apply (c_wait _ _ _ I5); set_solver|].
      destruct Hin as [Hin|Hin]; (eapply other_holder; [done|apply I2|exact Hin|done]).
    + clear Hf. assert (forall f g : frame, f ∈ [g] -> f = g) as Hsing by (intros f g; apply elem_of_list_singleton).
      assert (blocks x' !! k = blocks x !! k /\ (FDownWait k o ∈ pre \/ blocks x !! k = Some o)) as [-> [Hp|Hp]]; [| |done].
      2:{ apply (c_wait _ _ _ I5). set_solver. }
      clear I2 I3 I4 I5 G1 G2 G3 Hreg Hkey. destruct Hact as [t c x|t f x x' fs Hs He|t e o1 x Hsz|t f x x' fs He|t f c x x' He|j e o1 x Hj
        |j st e o1 x Hj|j K1 x Hj|x Hr Hq|x Hr|t i b todo later x|k1 k2 o1 x H1 H2 H3 H4]; simpl in Hin; try (set_solver by fail).
      * destruct c; set_solver.
      * destruct f; try done; simpl in He; unfold cremove in He; repeat case_match; simplify_eq;
          first [by (destruct Hin as [Hin|Hin];
            repeat first [apply elem_of_cons in Hin as [Hin|Hin] | apply elem_of_app in Hin as [Hin|Hin] | by apply elem_of_nil in Hin]; try done;
            first [by apply holds_resume in Hin | by apply holds_deref in Hin]) | idtac].
        all: destruct Hin as [Hin|Hin]; apply Hsing in Hin; simplify_eq; (split; [done|]); first [by right|left; set_solver].
      * destruct f; simpl in He; try done; simplify_eq; set_solver.
  - intros k c Hf. apply elem_of_app in Hf as [Hf|Hf].
    + assert (exists o, FDown k o ∈ pre /\ store x !! o = Some c /\ ahistory l pre cur = cur) as (o & Hp & Hst & ->).
      { clear I2 I3 I4 I5 G1 G2 G3 Hreg Hkey. destruct Hact as [t c0 x|t f x x' fs Hs He|t e o1 x Hsz|t f x x' fs He|t f c0 x x' He|j e o1 x Hj
        |j st e o1 x Hj|j K1 x Hj|x Hr Hq|x Hr|t i b todo later x|k1 k2 o1 x H1 H2 H3 H4]; simpl in Hf; try (set_solver by fail).
        * destruct c0; set_solver.
        * destruct f; try done; simpl in He; unfold cremove in He; repeat case_match; simplify_eq;
          first [by (
            repeat first [apply elem_of_cons in Hf as [Hf|Hf] | apply elem_of_app in Hf as [Hf|Hf] | by apply elem_of_nil in Hf]; try done;
            first [by apply holds_resume in Hf | by apply holds_deref in Hf]) | idtac].
          apply elem_of_list_singleton in Hf. simplify_eq. eexists. split; [apply elem_of_list_singleton; done|]. done.
        * destruct f; simpl in He; try done; simplify_eq; set_solver.
}
      assert (blocks x !! k = Some o) as Hb by (apply (c_wait _ _ _ I5); set_solver).
      pose proof (i_claim _ _ I2 (FDown k o) ltac:(set_solver)) as Hg. simpl in Hg.
      assert (backed x cur k) as Hbk by (apply (c_back _ _ _ I5); unfold clean; by rewrite Hg). unfold backed in Hbk. rewrite Hb in Hbk.
      destruct (inv3_row _ _ _ _ I3 Hb) as [ob Ho]. by apply (Hbk _ Ho).
    + rewrite ahistory_off; [apply (c_done _ _ _ I5); set_solver|]. eapply other_holder; [done|apply I2|done|done].
  - intros k. pose proof (c_known _ _ _ I5) as Hk. unfold ahistory.
    assert (forall k' c, P c -> P (upd cur k' c k)) as Hu by (intros k' c Hc; unfold upd; by case_decide).
    destruct l; try done; try (by apply Hu); (destruct pre as [|f [|]]; [done| |by destruct f]); destruct f; try done; apply Hu; [done|by eapply Hwr|by eapply Hwr].
  - intros o c Hc. destruct (act_store _ _ _ _ _ _ _ _ o Hact) as [Hst|[(_ & _ & Hst)|(e & _ & -> & Hst)]].
    + rewrite Hst in Hc. by apply (c_stored _ _ _ I5) in Hc.
    + congruence.
    + rewrite Hst in Hc. injection Hc as <-. eapply send_data; [done|done|by left].
Qed.
End inv.
