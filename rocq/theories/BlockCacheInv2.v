(** Invariants of the block cache, continued: cache entries and transit flags. *)
From stdpp Require Import prelude list gmap.
From Coq Require Import ZArith.
From Verif Require Import BlockCacheModel BlockCacheLemmas BlockCacheSteps BlockCacheInv.

Definition tr (e : nat * nat * nat) (f : frame) : Z :=
  match f with FSha e' _ | FSend e' _ => b2z (bool_decide (e' = e)) | _ => 0%Z end.
Definition istr (f : frame) : Z := match f with FSha _ _ | FSend _ _ => 1%Z | _ => 0%Z end.
Lemma tr_resume e e' r b : lsum (tr e) (resume e' r b) = 0%Z.
Proof. destruct r, b; done. Qed.
Lemma tr_deref e o : lsum (tr e) (deref o) = 0%Z.
Proof. by destruct o. Qed.
Lemma istr_resume e' r b : lsum istr (resume e' r b) = 0%Z.
Proof. destruct r, b; done. Qed.
Lemma istr_deref o : lsum istr (deref o) = 0%Z.
Proof. by destruct o. Qed.
Lemma tr_nonneg e f : (0 <= tr e f)%Z.
Proof. destruct f; simpl; try lia; by destruct (bool_decide _). Qed.

Section inv.
Context {H : Type} `{EqDecision H} (sha : list nat -> H) (nworkers qcap : nat).
Notation shared := (shared H).
Implicit Types x : shared.
Notation act := (act sha nworkers qcap).

(** What is known at a place in the code that holds a lock. *)
Definition cclaim x (f : frame) : Prop :=
  match f with
  | FSha e _ | FSend e _ => cget e.1 (cache x) = Some e /\ e_dirty (ent x e) = true
  | FUse e _ | FUseFast e => cget e.1 (cache x) = Some e
  | FDownWait k _ | FDown k _ | FDownDone k _ => cget k (cache x) = None
  | _ => True
  end.
Lemma cclaim_stable x x' f : cclaim x f ->
  (forall k, holds f = Some k -> cget k (cache x') = cget k (cache x)) ->
  (forall e, holds f = Some e.1 -> ent x' e = ent x e) -> cclaim x' f.
Proof.
  intros Hc Hg He. destruct f; simpl in *; try done; rewrite ?He by done; rewrite (Hg _ eq_refl); done.
Qed.

Record inv2 x (F : list frame) : Prop := {
  i_lock : lockinv x F;
  i_nodup : NoDup (ckeys (cache x));
  i_items : Forall (itemok (next_e x)) (cache x);
  i_claim : forall f, f ∈ F -> cclaim x f;
  i_tr : forall e, lsum (tr e) F = b2z (e_transit (ent x e));
  i_transit : transit x = lsum istr F
}.
Lemma items_key n (c : list item) k e : Forall (itemok n) c -> cget k c = Some e -> e.1 = k /\ e.2 < n.
Proof. intros Hf Hg. apply cget_Some_elem in Hg. rewrite Forall_forall in Hf. apply (Hf _ Hg). Qed.
Lemma inv2_key x F k e : inv2 x F -> cget k (cache x) = Some e -> e.1 = k /\ e.2 < next_e x.
Proof. intros HI. apply items_key, HI. Qed.
Lemma inv2_perm x F F' : Permutation F F' -> inv2 x F -> inv2 x F'.
Proof.
  intros HP [H1 H2 H3 H4 H5 H6]. split; try done.
  - by eapply lockinv_perm.
  - intros f Hf. apply H4. by rewrite HP.
  - intros e. by rewrite <- (lsum_perm _ _ _ HP).
  - by rewrite <- (lsum_perm _ _ _ HP).
Qed.

(** A step that only rearranges the cache list. *)
Lemma nodup_same (l l' : list item) : same_entries l l' -> NoDup (ckeys l) -> NoDup (ckeys l').
Proof. intros Hs Hnd. by rewrite (se_keys _ _ Hs). Qed.
Lemma cache_new k c x : cget k (cache x) = None -> NoDup (ckeys (cache x)) -> Forall (itemok (next_e x)) (cache x) ->
  NoDup (ckeys (cache (new_entry k c x).1)) /\ Forall (itemok (next_e (new_entry k c x).1)) (cache (new_entry k c x).1).
Proof.
  intros Hg Hnd Hf. unfold new_entry; simpl. rewrite ckeys_app. simpl. split.
  - rewrite <- Permutation_cons_append. apply NoDup_cons. split; [by apply cget_None|done].
  - apply Forall_app. split.
    + eapply Forall_impl; [exact Hf|]. intros [k' e'|t']; simpl; [|done]. intros [-> ?]. split; [done|lia].
    + constructor; [|constructor]. simpl. split; [done|lia].
Qed.
Lemma cache_cremove k x : NoDup (ckeys (cache x)) -> Forall (itemok (next_e x)) (cache x) ->
  NoDup (ckeys (cache (cremove k x))) /\ Forall (itemok (next_e (cremove k x))) (cache (cremove k x)).
Proof.
  intros Hnd Hf. unfold cremove. destruct (cget k (cache x)); [|done]. simpl. split; [by apply cpop_NoDup|by apply cpop_ok].
Qed.
(** Either the list is rearranged, or an entry is added or removed. *)
Lemma act_cache l x pre x' post F : act l x pre x' post -> inv2 x (pre ++ F) ->
  NoDup (ckeys (cache x')) /\ Forall (itemok (next_e x')) (cache x').
Proof.
  intros Hact [Hl Hnd Hf Hc _ _].
  assert (forall y : shared, same_entries (cache x) (cache y) -> next_e y = next_e x ->
    NoDup (ckeys (cache y)) /\ Forall (itemok (next_e y)) (cache y)) as Hsame.
  { intros y Hs Hn. split; [by eapply nodup_same|]. rewrite Hn. by apply (se_ok _ _ Hs). }
  destruct Hact as [t c x|t f x x' fs Hs He|t e o x Hsz|t f x x' fs He|t f c x x' He|j e o x Hj
    |j st e o x Hj|j K x Hj|x Hr Hq|x Hr|t i b todo later x|k1 k2 o x H1 H2 H3 H4].
  - done.
  - assert (cclaim x f) as Hcl by (apply Hc; left). clear Hc.
    destruct f; try done; simpl in He.
    + simplify_eq. by apply Hsame.
    + repeat case_match; simplify_eq; by apply Hsame.
    + repeat case_match; simplify_eq; by apply Hsame.
    + repeat case_match; simplify_eq; by apply Hsame.
    + repeat case_match; simplify_eq; by apply Hsame.
    + repeat case_match; simplify_eq; by apply Hsame.
    + repeat case_match; simplify_eq; by apply Hsame.
    + repeat case_match; simplify_eq; by apply Hsame.
    + repeat case_match; simplify_eq; by apply Hsame.
    + repeat case_match; simplify_eq; by apply Hsame.
    + repeat case_match; simplify_eq; apply Hsame; try done. apply same_cmove.
    + repeat case_match; simplify_eq; by apply Hsame.
    + repeat case_match; simplify_eq; by apply Hsame.
    + destruct (cget k (cache x)) eqn:Hg.
      { simplify_eq. apply Hsame; [apply same_cmove|done]. }
      pose proof (cache_new k [] x Hg Hnd Hf) as Hn.
      destruct (blocks x !! k) as [o|]; [destruct (objs x !! o) as [ob|]; [destruct (o_hash ob)|]|]; simplify_eq; try done;
        by apply Hsame.
    + repeat case_match; simplify_eq; by apply Hsame.
    + repeat case_match; simplify_eq; by apply Hsame.
    + pose proof (cache_new k c x Hcl Hnd Hf) as Hn. simplify_eq. done.
    + repeat case_match; simplify_eq; apply Hsame; try done; first [apply same_refl|apply same_start].
    + destruct (cnext t (cache x)) as [l r] eqn:Hcn. pose proof (same_cnext t (cache x)) as Hsm. rewrite Hcn in Hsm. simpl in Hsm.
      repeat case_match; simplify_eq; apply Hsame; try done; simpl; (eapply same_trans; [done|]; apply same_cclose).
    + repeat case_match; simplify_eq; by apply Hsame.
    + case_match; simplify_eq; [by apply cache_cremove|done].
    + repeat case_match; simplify_eq; by apply Hsame.
    + simplify_eq. apply Hsame; [apply same_start|done].
    + destruct (cnext t (cache x)) as [l r] eqn:Hcn. pose proof (same_cnext t (cache x)) as Hsm. rewrite Hcn in Hsm. simpl in Hsm.
      repeat case_match; simplify_eq; by apply Hsame.
    + simplify_eq. apply Hsame; [apply same_start|done].
    + destruct (cnext t (cache x)) as [l r] eqn:Hcn. pose proof (same_cnext t (cache x)) as Hsm. rewrite Hcn in Hsm. simpl in Hsm.
      repeat case_match; simplify_eq; by apply Hsame.
    + repeat case_match; simplify_eq; by apply Hsame.
    + repeat case_match; simplify_eq; by apply Hsame.
    + repeat case_match; simplify_eq; by apply Hsame.
    + repeat case_match; simplify_eq; by apply Hsame.
    + pose proof (cache_cremove k x Hnd Hf). repeat case_match; simplify_eq; done.
  - done.
  - destruct f; simpl in He; try done; simplify_eq; done.
  - destruct f; simpl in He; try done; repeat case_match; simplify_eq; done.
  - done.
  - by destruct st.
  - done.
  - done.
  - unfold deleted. destruct (bool_decide _); done.
  - done.
  - done.
Qed.

Lemma claim_resume x e r b f : f ∈ resume e r b -> cclaim x f.
Proof. destruct r, b; simpl; intros Hf; set_unfold in Hf; destruct_or?; subst; done. Qed.
Lemma claim_deref x o f : f ∈ deref o -> cclaim x f.
Proof. destruct o; simpl; intros Hf; set_unfold in Hf; destruct_or?; subst; done. Qed.

Lemma act_claim_post l x pre x' post F : act l x pre x' post -> inv2 x (pre ++ F) -> forall f, f ∈ post -> cclaim x' f.
Proof.
  intros Hact HI g Hgp. assert (forall k e, cget k (cache x) = Some e -> e.1 = k) as Hkey by (intros; by eapply inv2_key).
  destruct HI as [Hl Hnd Hf Hc _ _].
  assert (forall f, f ∈ pre -> cclaim x f) as Hc' by (intros; apply Hc; set_solver).
  clear Hc Hl.
  destruct Hact as [t c x|t f x x' fs Hs He|t e o x Hsz|t f x x' fs He|t f c x x' He|j e o x Hj
    |j st e o x Hj|j K x Hj|x Hr Hq|x Hr|t i b todo later x|k1 k2 o x H1 H2 H3 H4];
    try (apply elem_of_nil in Hgp; done).
  - destruct c; apply elem_of_list_singleton in Hgp as ->; done.
  - specialize (Hc' f ltac:(by left)). destruct f; try done; simpl in He, Hc';
    try (repeat case_match; simplify_eq;
      repeat first [apply elem_of_cons in Hgp as [->|Hgp] | apply elem_of_app in Hgp as [Hgp|Hgp]];
      first [apply elem_of_nil in Hgp; done | by eapply claim_resume | by eapply claim_deref | done]).
    + repeat case_match; simplify_eq;
      repeat first [apply elem_of_cons in Hgp as [->|Hgp] | apply elem_of_app in Hgp as [Hgp|Hgp]];
      try first [apply elem_of_nil in Hgp; done | by eapply claim_resume | by eapply claim_deref | done].
      simpl. split; [done|]. rewrite ent_mark, decide_True by done. simpl. done.
    + repeat case_match; simplify_eq;
      repeat first [apply elem_of_cons in Hgp as [->|Hgp] | apply elem_of_app in Hgp as [Hgp|Hgp]];
      try first [apply elem_of_nil in Hgp; done | by eapply claim_resume | by eapply claim_deref | done].
      apply Hkey in H0 as Hk. subst k. simpl. by rewrite (se_get _ _ (same_cmove _ _)).
    + destruct (cget k (cache x)) as [e|] eqn:Hg.
      { simplify_eq. apply elem_of_list_singleton in Hgp as ->. apply Hkey in Hg as Hk. subst k. simpl. by rewrite (se_get _ _ (same_cmove _ _)). }
      assert (cget k (cache (new_entry k [] x).1) = Some (k, next_e x)) as Hn.
      { rewrite cget_new, Hg. by rewrite decide_True. }
      destruct (blocks x !! k) as [o|]; [destruct (objs x !! o) as [ob|]; [destruct (o_hash ob)|]|]; simplify_eq;
        apply elem_of_list_singleton in Hgp as ->; done.
    + assert (cget k (cache (new_entry k c x).1) = Some (k, next_e x)) as Hn.
      { rewrite cget_new, Hc'. by rewrite decide_True. }
      simplify_eq. apply elem_of_list_singleton in Hgp as ->. done.
  - apply elem_of_list_singleton in Hgp as ->. apply (Hc' (FSend e o)). by left.
  - destruct f; simpl in He; try done; simplify_eq; apply elem_of_list_singleton in Hgp as ->; done.
  - specialize (Hc' f ltac:(by left)). apply elem_of_list_singleton in Hgp as ->.
    destruct f; simpl in He; try done; repeat case_match; simplify_eq; done.
  - apply elem_of_list_singleton in Hgp as ->. done.
  - apply elem_of_list_singleton in Hgp as ->. done.
  - apply elem_of_list_singleton in Hgp as ->. done.
Qed.

Lemma act_tr l x pre x' post F : act l x pre x' post -> inv2 x (pre ++ F) ->
  forall e, (lsum (tr e) post - lsum (tr e) pre = b2z (e_transit (ent x' e)) - b2z (e_transit (ent x e)))%Z.
Proof.
  intros Hact HI e0.
  assert (forall e, e ∈ pre -> forall e1, tr e1 e = 1%Z -> e_transit (ent x e1) = true) as Htr.
  { intros f Hf e1 H1. pose proof (i_tr _ _ HI e1) as Ht.
    pose proof (lsum_elem (tr e1) (pre ++ F) f (tr_nonneg e1) ltac:(set_solver)) as Hle.
    rewrite H1, Ht in Hle. destruct (e_transit (ent x e1)); [done|simpl in Hle; lia]. }
  assert (forall k, e_transit (ent x (k, next_e x)) = false) as Hnew.
  { intros k. destruct (e_transit (ent x (k, next_e x))) eqn:Ht; [|done]. pose proof (i_tr _ _ HI (k, next_e x)) as Hs.
    rewrite Ht in Hs. simpl in Hs. destruct (lsum_pos (tr (k, next_e x)) (pre ++ F)) as (f & Hf & Hp); [lia|].
    pose proof (i_claim _ _ HI f Hf) as Hcl. destruct f; simpl in Hp; try lia;
      (destruct (bool_decide (e = (k, next_e x))) eqn:Hb; [apply bool_decide_eq_true in Hb; subst|simpl in Hp; lia]);
      destruct Hcl as [Hcl _]; apply (inv2_key _ _ _ _ HI) in Hcl as [_ Hlt]; simpl in Hlt; lia. }
  assert (forall e1, tr e1 (FSend e1 0) = 1%Z) as Hone by (intros e1; simpl; by rewrite bool_decide_eq_true_2).
  destruct Hact as [t c x|t f x x' fs Hs He|t e o x Hsz|t f x x' fs He|t f c x x' He|j e o x Hj
    |j st e o x Hj|j K x Hj|x Hr Hq|x Hr|t i b todo later x|k1 k2 o x H1 H2 H3 H4]; try (unfold ent; simpl; lia).
  - destruct c; simpl; lia.
  - specialize (Htr f ltac:(by left)).
    destruct f; try done; simpl in He;
    try (repeat case_match; simplify_eq; simpl; rewrite ?lsum_app, ?tr_resume, ?tr_deref, ?ent_cremove; unfold ent; simpl; lia).
    + repeat case_match; simplify_eq; cbn [lsum tr]; rewrite ?lsum_app, ?tr_resume, ?tr_deref; try (unfold ent; simpl; lia).
      rewrite ent_mark. destruct (decide (e = e0)) as [->|Hne].
      * rewrite bool_decide_eq_true_2 by done. destruct (e_transit (ent x e0)); [done|]. simpl. lia.
      * rewrite bool_decide_eq_false_2 by done. simpl. lia.
    + specialize (Htr e (Hone e)).
      repeat case_match; simplify_eq; cbn [lsum tr]; rewrite ?lsum_app, ?tr_resume, ?tr_deref; try (unfold ent; simpl; lia).
      all: rewrite ent_unmark, ent_set_entry; destruct (decide (e = e0)) as [->|Hne];
        [rewrite bool_decide_eq_true_2 by done; rewrite Htr; simpl; lia|
         rewrite bool_decide_eq_false_2 by done; rewrite ent_set_entry, decide_False by done; unfold ent; simpl; lia].
    + destruct (cget k (cache x)) as [e|] eqn:Hg.
      { simplify_eq. unfold ent; simpl; lia. }
      assert (e_transit (ent (new_entry k [] x).1 e0) = e_transit (ent x e0)) as Hn.
      { rewrite ent_new. case_decide; [|done]. subst. by rewrite Hnew. }
      destruct (blocks x !! k) as [o|]; [destruct (objs x !! o) as [ob|]; [destruct (o_hash ob)|]|]; simplify_eq; try (unfold ent; simpl; lia);
        simpl in Hn; rewrite Hn; simpl; lia.
    + assert (e_transit (ent (new_entry k c x).1 e0) = e_transit (ent x e0)) as Hn.
      { rewrite ent_new. case_decide; [|done]. subst. by rewrite Hnew. }
      simplify_eq. simpl. simpl in Hn. rewrite Hn. lia.
    + pose proof (ent_cremove k x e0) as Hn. case_match; simplify_eq; simpl.
      * change (ent (set_blocks (delete k) (cremove k x)) e0) with (ent (cremove k x) e0). rewrite Hn. lia.
      * rewrite Hn. lia.
  - destruct f; simpl in He; try done; simplify_eq; simpl; unfold ent; simpl; lia.
  - destruct f; simpl in He; try done; repeat case_match; simplify_eq; simpl; rewrite ent_set_entry; destruct (decide (e = e0)) as [->|]; simpl; lia.
  - specialize (Htr _ ltac:(by left) e (Hone e)).
    change (ent (set_jobs _ (uploaded e o x)) e0) with (ent (set_entry e (set_dirty false) (unmark e x)) e0).
    rewrite ent_set_entry. simpl. destruct (decide (e = e0)) as [->|Hne].
    + rewrite bool_decide_eq_true_2 by done. rewrite Htr. simpl. rewrite ent_unmark, decide_True by done. simpl. lia.
    + rewrite bool_decide_eq_false_2 by done. rewrite ent_unmark, decide_False by done. simpl. lia.
  - specialize (Htr _ ltac:(by left) e (Hone e)).
    assert (ent (set_jobs <[j:=JRel e.1]> (upload_failed e o st x)) e0 = ent (unmark e x) e0) as -> by (by destruct st).
    simpl. rewrite ent_unmark. destruct (decide (e = e0)) as [->|Hne].
    + rewrite bool_decide_eq_true_2 by done. rewrite Htr. simpl. lia.
    + rewrite bool_decide_eq_false_2 by done. simpl. lia.
  - unfold deleted. destruct (bool_decide _); simpl; unfold ent; simpl; lia.
Qed.
Lemma act_transit l x pre x' post : act l x pre x' post -> (lsum istr post - lsum istr pre = transit x' - transit x)%Z.
Proof.
  intros Hact.
  destruct Hact as [t c x|t f x x' fs Hs He|t e o x Hsz|t f x x' fs He|t f c x x' He|j e o x Hj
    |j st e o x Hj|j K x Hj|x Hr Hq|x Hr|t i b todo later x|k1 k2 o x H1 H2 H3 H4]; try (simpl; lia).
  - destruct c; simpl; lia.
  - destruct f; try done; simpl in He; unfold cremove in He; repeat case_match; simplify_eq/=; rewrite ?lsum_app, ?istr_resume, ?istr_deref; lia.
  - destruct f; simpl in He; try done; simplify_eq; simpl; lia.
  - destruct f; simpl in He; try done; repeat case_match; simplify_eq; simpl; lia.
  - destruct st; simpl; lia.
  - unfold deleted. destruct (bool_decide _); simpl; lia.
Qed.

Lemma inv2_act l x pre x' post F : act l x pre x' post -> inv2 x (pre ++ F) -> inv2 x' (post ++ F).
Proof.
  intros Hact HI. pose proof (act_cache _ _ _ _ _ _ Hact HI) as [Hnd Hit]. split; [|done|done| | |].
  - eapply lockinv_act; [done| |apply HI]. intros k e Hg. by eapply inv2_key.
  - intros f Hf. apply elem_of_app in Hf as [Hf|Hf].
    + by eapply act_claim_post.
    + pose proof (act_guar _ _ _ _ _ _ _ _ Hact) as [G1 G2 G3].
      eapply cclaim_stable.
      * apply (i_claim _ _ HI f). set_solver.
      * intros k Hk. apply G1; [|apply HI]. eapply other_holder; [done|apply HI|done|done].
      * intros e Hk. apply G3. eapply other_holder; [done|apply HI|done|done].
  - intros e. pose proof (act_tr _ _ _ _ _ _ Hact HI e). pose proof (i_tr _ _ HI e). rewrite lsum_app in *. lia.
  - pose proof (act_transit _ _ _ _ _ Hact). pose proof (i_transit _ _ HI). rewrite lsum_app in *. lia.
Qed.
End inv.
