(** Invariants of the block cache: locks, cache entries, transit flags. *)
From stdpp Require Import prelude list gmap.
From Coq Require Import ZArith.
From Verif Require Import BlockCacheModel BlockCacheLemmas BlockCacheSteps.

(** The key whose lock is held at this place in the code. *)
Definition holds (f : frame) : option (nat * nat) :=
  match f with
  | FRelease k | FGetFast k _ | FGetEntry k | FDownWait k _ | FDown k _ | FDownDone k _ | FRemLocked k => Some k
  | FUploadLocked e _ | FSha e _ | FSend e _ | FUseFast e | FUse e _ | FEvictLocked e => Some e.1
  | _ => None
  end.
Definition b2z (b : bool) : Z := if b then 1%Z else 0%Z.
Definition hold (k : nat * nat) (f : frame) : Z := b2z (bool_decide (holds f = Some k)).
Lemma hold_nonneg k f : (0 <= hold k f)%Z.
Proof. unfold hold. by destruct (bool_decide _). Qed.
Lemma hold_resume k e r b : lsum (hold k) (resume e r b) = 0%Z.
Proof. destruct r, b; done. Qed.
Lemma hold_deref k o : lsum (hold k) (deref o) = 0%Z.
Proof. by destruct o. Qed.
Lemma holds_resume f e r b : f ∈ resume e r b -> holds f = None.
Proof. destruct r, b; simpl; intros Hf; set_unfold in Hf; destruct_or?; subst; done. Qed.
Lemma holds_deref f o : f ∈ deref o -> holds f = None.
Proof. destruct o; simpl; intros Hf; set_unfold in Hf; destruct_or?; subst; done. Qed.
Lemma hold_holder k f : holds f = Some k -> hold k f = 1%Z.
Proof. intros Hf. unfold hold. by rewrite bool_decide_eq_true_2. Qed.

Section inv.
Context {H : Type} `{EqDecision H} (sha : list nat -> H) (nworkers qcap : nat).
Notation shared := (shared H).
Implicit Types x : shared.
Notation act := (act sha nworkers qcap).

(** ** Locks *)
Definition lk x k : Z := b2z (bool_decide (k ∈ locks x)).
Lemma lk_lock K x k : K ∉ locks x -> lk (lock K x) k = (lk x k + b2z (bool_decide (Some K = Some k)))%Z.
Proof.
  intros HK. unfold lk, lock; simpl. destruct (decide (K = k)) as [->|Hne].
  - rewrite (bool_decide_eq_true_2 (Some k = Some k)) by done. rewrite bool_decide_eq_true_2 by set_solver.
    by rewrite bool_decide_eq_false_2.
  - rewrite (bool_decide_eq_false_2 (Some K = Some k)) by congruence. rewrite Z.add_0_r. f_equal.
    apply bool_decide_ext. set_solver.
Qed.
Lemma lk_unlock K x k : K ∈ locks x -> lk (unlock K x) k = (lk x k - b2z (bool_decide (Some K = Some k)))%Z.
Proof.
  intros HK. unfold lk, unlock; simpl. destruct (decide (K = k)) as [->|Hne].
  - rewrite (bool_decide_eq_true_2 (Some k = Some k)) by done. rewrite bool_decide_eq_false_2 by set_solver.
    by rewrite bool_decide_eq_true_2.
  - rewrite (bool_decide_eq_false_2 (Some K = Some k)) by congruence. rewrite Z.sub_0_r. f_equal.
    apply bool_decide_ext. set_solver.
Qed.
Lemma locks_cremove k x : locks (cremove k x) = locks x.
Proof. unfold cremove. by destruct (cget _ _). Qed.
Lemma lk_eq x x' k : locks x' = locks x -> lk x' k = lk x k.
Proof. unfold lk. by intros ->. Qed.

Definition lockinv x (F : list frame) : Prop := forall k, lsum (hold k) F = lk x k.

Lemma act_locks l x pre x' post : act l x pre x' post ->
  (forall k e, cget k (cache x) = Some e -> e.1 = k) ->
  (forall f k, f ∈ pre -> holds f = Some k -> k ∈ locks x) ->
  forall k, (lsum (hold k) post - lsum (hold k) pre = lk x' k - lk x k)%Z.
Proof.
  intros Hact Hkey Hpre k. destruct Hact as [t c x|t f x x' fs Hs He|t e o x Hsz|t f x x' fs He|t f c x x' He|j e o x Hj
    |j st e o x Hj|j K x Hj|x Hr Hq|x Hr|t i b todo later x|k1 k2 o x H1 H2 H3 H4].
  - destruct c; simpl; unfold hold; simpl; lia.
  - assert (forall K, holds f = Some K -> K ∈ locks x) as HK.
    { intros K. apply Hpre. by left. }
    clear Hpre. destruct f; try done; simpl in He; simpl in HK; simpl lsum; unfold hold at 2; simpl holds; cbn [b2z];
      try specialize (HK _ eq_refl);
      unfold new_entry, mark, unmark, set_entry in He; repeat case_match; simplify_eq/=;
      rewrite ?lsum_app, ?hold_resume, ?hold_deref; unfold hold; simpl holds;
      repeat first [rewrite lk_lock by done | rewrite lk_unlock by done];
      try (rewrite (lk_eq x _ k) by (first [reflexivity|apply locks_cremove])); simpl; try lia.
    all: try match goal with HH : cget _ (cache _) = Some _ |- _ => rewrite (Hkey _ _ HH) end; try lia.
    all: repeat (match goal with |- context [bool_decide (None = Some _)] => rewrite (bool_decide_eq_false_2 (None = Some _)) by done end); simpl; try lia.
  - simpl. unfold lk. simpl. lia.
  - destruct f; simpl in He; try done; simplify_eq; unfold hold; simpl; unfold lk; simpl; lia.
  - destruct f; simpl in He; try done; repeat case_match; simplify_eq; unfold lk; simpl; lia.
  - simpl. unfold hold; simpl. unfold lk. simpl. lia.
  - simpl. unfold hold; simpl. unfold lk. destruct st; simpl; lia.
  - simpl. rewrite (lk_eq (unlock K x) (set_jobs _ _)) by done. rewrite lk_unlock.
    + unfold hold; simpl. lia.
    + apply (Hpre (FRelease K)); [by left|done].
  - unfold lk. simpl. lia.
  - unfold lk, deleted. destruct (bool_decide (Exists _ _)); simpl; lia.
  - unfold lk, hold. simpl. lia.
  - unfold lk. simpl. lia.
Qed.
Lemma lockinv_locked x F f k : lockinv x F -> f ∈ F -> holds f = Some k -> k ∈ locks x.
Proof.
  intros HI Hf Hk. pose proof (lsum_elem (hold k) F f (hold_nonneg k) Hf) as Hle. rewrite (HI k) in Hle.
  rewrite (hold_holder k f Hk) in Hle. unfold lk in Hle. destruct (bool_decide (k ∈ locks x)) eqn:Hb; [|simpl in Hle; lia].
  by apply bool_decide_eq_true in Hb.
Qed.
Lemma lockinv_unique x f F g k : lockinv x (f :: F) -> holds f = Some k -> g ∈ F -> holds g <> Some k.
Proof.
  intros HI Hf Hg Hk. pose proof (lsum_elem (hold k) F g (hold_nonneg k) Hg) as Hle.
  specialize (HI k). simpl in HI. rewrite (hold_holder k f Hf) in HI. rewrite (hold_holder k g Hk) in Hle.
  unfold lk in HI. destruct (bool_decide _); simpl in HI; lia.
Qed.
Lemma lockinv_holder x F k : lockinv x F -> k ∈ locks x -> exists f, f ∈ F /\ holds f = Some k.
Proof.
  intros HI Hk. specialize (HI k). unfold lk in HI. rewrite bool_decide_eq_true_2 in HI by done. simpl in HI.
  destruct (lsum_pos (hold k) F) as (f & Hf & Hp); [lia|]. exists f. split; [done|]. unfold hold in Hp.
  destruct (bool_decide (holds f = Some k)) eqn:Hb; [by apply bool_decide_eq_true in Hb|simpl in Hp; lia].
Qed.
Lemma lockinv_perm x F F' : Permutation F F' -> lockinv x F -> lockinv x F'.
Proof. intros HP HI k. rewrite <- (lsum_perm _ _ _ HP). apply HI. Qed.
Lemma lockinv_act l x pre x' post F : act l x pre x' post -> (forall k e, cget k (cache x) = Some e -> e.1 = k) ->
  lockinv x (pre ++ F) -> lockinv x' (post ++ F).
Proof.
  intros Hact Hkey HI k. pose proof (HI k) as Hk. rewrite lsum_app in Hk |- *.
  pose proof (act_locks _ _ _ _ _ Hact Hkey) as Hd. specialize (Hd ltac:(intros f k0 Hf; eapply lockinv_locked; [done|]; apply elem_of_app; by left) k).
  lia.
Qed.

(** ** What a step may change *)
Definition touch (l : label) (pre : list frame) : option (nat * nat) :=
  match l with LCopy _ k' => Some k' | _ => match pre with f :: _ => holds f | [] => None end end.
Record guar (K : option (nat * nat)) x x' : Prop := {
  g_get : forall k, Some k <> K -> NoDup (ckeys (cache x)) -> cget k (cache x') = cget k (cache x);
  g_blocks : forall k, Some k <> K -> blocks x' !! k = blocks x !! k;
  g_ent : forall e, Some e.1 <> K -> ent x' e = ent x e
}.
Lemma ent_set_entry e f x e' : ent (set_entry e f x) e' = if decide (e = e') then f (ent x e) else ent x e'.
Proof.
  unfold set_entry, ent at 1, set_ents; simpl. destruct (decide (e = e')) as [->|Hne].
  - by rewrite lookup_insert.
  - by rewrite lookup_insert_ne.
Qed.
Lemma ent_unmark e x e' : ent (unmark e x) e' = if decide (e = e') then set_in_transit false (ent x e) else ent x e'.
Proof. apply (ent_set_entry e (set_in_transit false) x). Qed.
Lemma ent_mark e x e' : ent (mark e x) e' = if decide (e = e') then set_in_transit true (ent x e) else ent x e'.
Proof. apply (ent_set_entry e (set_in_transit true) x). Qed.
Lemma ent_new k c x e' : ent (new_entry k c x).1 e' = if decide (e' = (k, next_e x)) then Entry c false false else ent x e'.
Proof.
  unfold new_entry, ent; simpl. destruct (decide (e' = (k, next_e x))) as [->|Hne].
  - by rewrite lookup_insert.
  - by rewrite lookup_insert_ne.
Qed.
Lemma cget_new K c x k : cget k (cache (new_entry K c x).1) = match cget k (cache x) with Some e => Some e | None => if decide (K = k) then Some (K, next_e x) else None end.
Proof. unfold new_entry; simpl. rewrite cget_app. simpl. done. Qed.
Lemma cget_cremove K x k : NoDup (ckeys (cache x)) ->
  cget k (cache (cremove K x)) = if decide (k = K) then None else cget k (cache x).
Proof.
  intros Hnd. unfold cremove. destruct (cget K (cache x)) as [e|] eqn:Hg; simpl.
  - by apply cpop_get.
  - destruct (decide (k = K)) as [->|]; done.
Qed.
Lemma ent_cremove K x e : ent (cremove K x) e = ent x e.
Proof. unfold cremove. by destruct (cget K (cache x)). Qed.
Lemma blocks_cremove K x : blocks (cremove K x) = blocks x.
Proof. unfold cremove. by destruct (cget K (cache x)). Qed.

Lemma guar_same K x x' : same_entries (cache x) (cache x') -> blocks x' = blocks x -> ents x' = ents x -> guar K x x'.
Proof.
  intros Hs Hb He. split; intros.
  - by apply (se_get _ _ Hs).
  - by rewrite Hb.
  - unfold ent. by rewrite He.
Qed.
Lemma guar_refl K x : guar K x x.
Proof. by split. Qed.
Lemma guar_new k c x : guar (Some k) x (new_entry k c x).1.
Proof.
  split; intros k' Hk; [|done|].
  - intros _. rewrite cget_new.
    destruct (cget k' (cache x)); [done|]. rewrite decide_False; [done|]. congruence.
  - rewrite ent_new. rewrite decide_False; [done|]. intros ->. done.
Qed.
Lemma guar_cremove k x : guar (Some k) x (cremove k x).
Proof.
  split; intros k' Hk.
  - intros Hnd. rewrite cget_cremove by done. rewrite decide_False; [done|]. congruence.
  - by rewrite blocks_cremove.
  - apply ent_cremove.
Qed.
Lemma guar_trans K x y z : guar K x y -> guar K y z -> (NoDup (ckeys (cache x)) -> NoDup (ckeys (cache y))) -> guar K x z.
Proof.
  intros [G1 B1 E1] [G2 B2 E2] Hnd. split; intros k Hk.
  - intros Hn. rewrite G2 by auto. by apply G1.
  - rewrite B2 by done. by apply B1.
  - rewrite E2 by done. by apply E1.
Qed.

Lemma act_guar l x pre x' post : act l x pre x' post -> guar (touch l pre) x x'.
Proof.
  intros Hact. destruct Hact as [t c x|t f x x' fs Hs He|t e o x Hsz|t f x x' fs He|t f c x x' He|j e o x Hj
    |j st e o x Hj|j K x Hj|x Hr Hq|x Hr|t i b todo later x|k1 k2 o x H1 H2 H3 H4]; simpl touch.
  - apply guar_refl.
  - destruct f; try done; simpl in He; simpl holds.
    + simplify_eq. apply guar_same; [apply same_refl|done|done].
    + repeat case_match; simplify_eq; apply guar_refl.
    + repeat case_match; simplify_eq; apply guar_same; [apply same_refl|done|done].
    + repeat case_match; simplify_eq; try apply guar_refl.
      split; [done|done|]. intros e' He. rewrite ent_mark. rewrite decide_False; [done|congruence].
    + repeat case_match; simplify_eq.
      * split; [done|done|]. intros e' He. rewrite ent_unmark, !ent_set_entry.
        rewrite decide_False by congruence. rewrite decide_False by congruence. done.
      * split; [done| |].
        { intros k Hk. simpl. rewrite lookup_insert_ne by congruence. done. }
        intros e' He. rewrite ent_unmark, !ent_set_entry.
        rewrite decide_False by congruence. rewrite decide_False by congruence. done.
      * split; [done| |done]. intros k Hk. simpl. rewrite lookup_insert_ne by congruence. done.
    + repeat case_match; simplify_eq; apply guar_same; [apply same_refl|done|done|apply same_refl|done|done].
    + repeat case_match; simplify_eq; apply guar_refl.
    + repeat case_match; simplify_eq; apply guar_same; [apply same_refl|done|done].
    + simplify_eq; apply guar_refl.
    + repeat case_match; simplify_eq; apply guar_same; [apply same_refl|done|done].
    + repeat case_match; simplify_eq; try apply guar_refl. apply guar_same; [apply same_cmove|done|done].
    + simplify_eq; apply guar_refl.
    + repeat case_match; simplify_eq; apply guar_same; [apply same_refl|done|done].
    + destruct (cget k (cache x)) eqn:Hg.
      { simplify_eq. apply guar_same; [apply same_cmove|done|done]. }
      pose proof (guar_new k [] x) as Hn.
      destruct (blocks x !! k) as [o|]; [destruct (objs x !! o) as [ob|]; [destruct (o_hash ob)|]|]; simplify_eq; try apply Hn.
      * apply guar_refl.
      * apply guar_same; [apply same_refl|done|done].
    + repeat case_match; simplify_eq; apply guar_refl.
    + repeat case_match; simplify_eq; apply guar_refl.
    + pose proof (guar_new k c x) as Hn. simplify_eq. apply Hn.
    + repeat case_match; simplify_eq; apply guar_same; try done; first [apply same_refl|apply same_start].
    + destruct (cnext t (cache x)) as [l r] eqn:Hc. pose proof (same_cnext t (cache x)) as Hsm. rewrite Hc in Hsm. simpl in Hsm.
      repeat case_match; simplify_eq; apply guar_same; try done; simpl; (eapply same_trans; [done|]; apply same_cclose).
    + repeat case_match; simplify_eq; apply guar_same; [apply same_refl|done|done].
    + case_match; simplify_eq; [apply guar_cremove|apply guar_refl].
    + simplify_eq. apply guar_refl.
    + simplify_eq. apply guar_same; [apply same_start|done|done].
    + destruct (cnext t (cache x)) as [l r] eqn:Hc. pose proof (same_cnext t (cache x)) as Hsm. rewrite Hc in Hsm. simpl in Hsm.
      repeat case_match; simplify_eq; apply guar_same; done.
    + simplify_eq. apply guar_same; [apply same_start|done|done].
    + destruct (cnext t (cache x)) as [l r] eqn:Hc. pose proof (same_cnext t (cache x)) as Hsm. rewrite Hc in Hsm. simpl in Hsm.
      repeat case_match; simplify_eq; apply guar_same; done.
    + simplify_eq. apply guar_same; [apply same_refl|done|done].
    + repeat case_match; simplify_eq; apply guar_same; try apply same_refl; done.
    + repeat case_match; simplify_eq; apply guar_refl.
    + repeat case_match; simplify_eq; apply guar_same; try apply same_refl; done.
    + pose proof (guar_cremove k x) as [G1 G2 G3]. repeat case_match; simplify_eq; split; try done.
      intros k' Hk'. simpl. rewrite lookup_delete_ne by congruence. by apply G2.
  - apply guar_same; [apply same_refl|done|done].
  - destruct f; simpl in He; try done; simplify_eq; simpl; apply guar_same; try apply same_refl; done.
  - destruct f; simpl in He; try done; repeat case_match; simplify_eq; simpl; (split; [done|done|]);
      intros e' He'; rewrite ent_set_entry, decide_False by congruence; done.
  - split; [done|done|]. simpl. intros e' He'. unfold uploaded.
    change (ent (set_entry e (set_dirty false) (unmark e x)) e' = ent x e').
    rewrite ent_set_entry, decide_False by congruence. rewrite ent_unmark, decide_False by congruence. done.
  - split; [by destruct st|by destruct st|]. simpl. intros e' He'. unfold upload_failed.
    assert (ent (unmark e x) e' = ent x e') as Hu by (rewrite ent_unmark, decide_False by congruence; done).
    destruct st; done.
  - apply guar_same; [apply same_refl|done|done].
  - apply guar_same; [apply same_refl|done|done].
  - unfold deleted. destruct (bool_decide _); apply guar_same; try apply same_refl; done.
  - apply guar_refl.
  - split; [done| |done]. intros k Hk. simpl. rewrite lookup_insert_ne by congruence. done.
Qed.

(** Other holders are not affected. *)
Lemma other_holder l x pre x' post F g k : act l x pre x' post -> lockinv x (pre ++ F) ->
  g ∈ F -> holds g = Some k -> Some k <> touch l pre.
Proof.
  intros Hact HI Hg Hk Heq.
  assert (k ∈ locks x) as Hl. { eapply lockinv_locked; [done| |done]. apply elem_of_app. by right. }
  destruct Hact as [t c x|t f x x' fs Hs He|t e o x Hsz|t f x x' fs He|t f c x x' He|j e o x Hj
    |j st e o x Hj|j K x Hj|x Hr Hq|x Hr|t i b todo later x|k1 k2 o x H1 H2 H3 H4]; simpl in Heq; try done;
    try (by eapply (lockinv_unique x _ F g k); [exact HI| |done|]; [simpl; congruence|]).
  congruence.
Qed.
End inv.
