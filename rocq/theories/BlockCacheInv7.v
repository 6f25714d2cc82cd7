(** Invariants of the block cache, continued: the size of the cache and its limits. *)
From stdpp Require Import prelude list gmap.
From Coq Require Import ZArith.
From Verif Require Import BlockCacheModel BlockCacheSpec BlockCacheLemmas BlockCacheSteps BlockCacheInv BlockCacheInv2.

Section inv.
Context {H : Type} `{EqDecision H} (sha : list nat -> H) (nworkers qcap : nat).
Notation shared := (shared H).
Implicit Types x : shared.
Notation act := (act sha nworkers qcap).

(** ** The recorded size *)
Definition esize x (e : nat * nat * nat) : Z := e_size (ent x e).
(** Growth of a block in use that is not yet recorded. *)
Definition udelta x (f : frame) : Z := match f with FUse e old => (esize x e - old)%Z | _ => 0%Z end.
Definition sized x (F : list frame) : Prop := csize x = (csum (esize x) (cache x) - lsum (udelta x) F)%Z.
Lemma sized_perm x F F' : Permutation F F' -> sized x F -> sized x F'.
Proof. unfold sized. intros HP ->. by rewrite (lsum_perm _ _ _ HP). Qed.

Lemma sized_same x x' F F' : csize x' = csize x -> same_entries (cache x) (cache x') -> (forall e, e_data (ent x' e) = e_data (ent x e)) ->
  lsum (udelta x) F' = lsum (udelta x) F -> sized x F -> sized x' F'.
Proof.
  unfold sized. intros Hc Hs He Hl Hz.
  assert (forall e, esize x' e = esize x e) as Hes by (intros e; unfold esize, e_size; by rewrite He).
  rewrite Hc, (se_sum _ _ Hs), (csum_ext (esize x') (esize x)) by (intros; apply Hes).
  rewrite (lsum_ext (udelta x') (udelta x)) by (intros [] _; simpl; rewrite ?Hes; done). lia.
Qed.
(** Frames that are not [FUse] do not count. *)
Definition isuse (f : frame) : bool := match f with FUse _ _ => true | _ => false end.
Lemma udelta_off x F : Forall (fun f => isuse f = false) F -> lsum (udelta x) F = 0%Z.
Proof.
  intros HF. apply lsum_zero. intros f Hf. rewrite Forall_forall in HF. specialize (HF f Hf). by destruct f.
Qed.
Lemma resume_nouse e r b : Forall (fun f => isuse f = false) (resume e r b).
Proof. destruct r, b; simpl; by repeat constructor. Qed.
Lemma deref_nouse o : Forall (fun f => isuse f = false) (deref o).
Proof. destruct o; simpl; by repeat constructor. Qed.

Lemma esize_new k c x e : e.2 < next_e x -> esize (new_entry k c x).1 e = esize x e.
Proof.
  intros He. unfold esize, ent, new_entry. simpl. rewrite lookup_insert_ne; [done|]. intros <-. simpl in He. lia.
Qed.
Lemma sized_new k c x F F' old : inv2 x F -> old = Z.of_nat (length c) -> lsum (udelta x) F' = lsum (udelta x) F -> (forall f, f ∈ F' -> f ∈ F) ->
  sized x F -> sized (new_entry k c x).1 (FUse (new_entry k c x).2 old :: F').
Proof.
  intros I2 -> Hl Hsub Hz. unfold sized in *. simpl csize. simpl cache. rewrite csum_app. cbn [lsum].
  assert (esize (new_entry k c x).1 (k, next_e x) = Z.of_nat (length c)) as Hn.
  { unfold esize, ent, new_entry. simpl. by rewrite lookup_insert. }
  rewrite (csum_ext (esize (new_entry k c x).1) (esize x)).
  2:{ intros k' e' Hin. pose proof (i_items _ _ I2) as Hit. rewrite Forall_forall in Hit. apply Hit in Hin as [_ Hin]. by apply esize_new. }
  rewrite (lsum_ext (udelta (new_entry k c x).1) (udelta x)).
  2:{ intros f Hf. destruct f; try done. cbn [udelta]. rewrite esize_new; [done|]. pose proof (i_claim _ _ I2 _ (Hsub _ Hf)) as Hc. simpl in Hc.
      apply cget_Some_elem in Hc. pose proof (i_items _ _ I2) as Hit. rewrite Forall_forall in Hit. by apply Hit in Hc as [_ ?]. }
  assert (udelta (new_entry k c x).1 (FUse (new_entry k c x).2 (Z.of_nat (length c))) = 0%Z) as ->.
  { unfold udelta. change (new_entry k c x).2 with (k, next_e x). rewrite Hn. lia. }
  cbn [csum]. rewrite Hn. lia.
Qed.
Lemma sized_cremove k x F F' : lsum (udelta x) F' = lsum (udelta x) F -> sized x F -> sized (cremove k x) F'.
Proof.
  unfold sized, cremove. intros Hl Hz. destruct (cget k (cache x)) as [e|] eqn:Hg; [|lia]. simpl.
  change (esize (set_csize (λ n : Z, (n - e_size (ent x e))%Z) (set_cache (cpop k) x))) with (esize x).
  rewrite (cpop_sum _ _ _ _ Hg).
  rewrite (lsum_ext (udelta (set_csize (λ n : Z, (n - e_size (ent x e))%Z) (set_cache (cpop k) x))) (udelta x)) by (by intros []).
  unfold esize at 2. lia.
Qed.

Ltac sz := try done; repeat first [apply same_refl | apply same_cmove | apply same_start | apply resume_nouse | apply deref_nouse
  | by repeat constructor | apply Forall_cons; split; [done|] | apply Forall_app; split].
Lemma sized_act l x pre x' post F : act l x pre x' post -> inv2 x (pre ++ F) -> sized x (pre ++ F) -> sized x' (post ++ F).
Proof.
  intros Hact I2 Hz.
  assert (forall fs, Forall (fun f => isuse f = false) pre -> Forall (fun f => isuse f = false) fs ->
    lsum (udelta x) (fs ++ F) = lsum (udelta x) (pre ++ F)) as Hl.
  { intros fs Hp Hf. rewrite !lsum_app. rewrite (udelta_off _ fs), (udelta_off _ pre) by done. done. }
  destruct Hact as [t c x|t f x x' fs Hs He|t e o1 x Hsz|t f x x' fs He|t f c x x' He|j e o1 x Hj
    |j st e o1 x Hj|j K1 x Hj|x Hr Hq|x Hr|t i b todo later x|k1 k2 o1 x H1 H2 H3 H4].
  - apply (sized_same x x ([] ++ F)); sz. apply Hl; [constructor|]. destruct c; simpl; by repeat constructor.
  - pose proof (i_nodup _ _ I2) as Hnd.
    assert (forall y g, csize y = csize x -> same_entries (cache x) (cache y) -> (forall e, e_data (ent y e) = e_data (ent x e)) ->
      isuse f = false -> Forall (fun f => isuse f = false) g -> sized y (g ++ F)) as Hsame.
    { intros y g Hc Hse Hd Hf Hg. apply (sized_same x y ([f] ++ F)); try done. apply Hl; [by constructor|done]. }
    assert (isuse f = false -> lsum (udelta x) F = lsum (udelta x) ([f] ++ F)) as HlF.
    { intros Hf. apply (Hl []); [by constructor|constructor]. }
    destruct f; try done; simpl in He.
    + injection He as <- <-. apply (Hsame _ []); sz.
    + repeat case_match; try done; injection He as <- <-; (apply Hsame; sz).
    + repeat case_match; try done; injection He as <- <-; (apply Hsame; sz).
    + repeat case_match; try done; injection He as <- <-; (apply Hsame; sz).
      intros e1; rewrite ent_mark; by destruct (decide (e = e1)) as [->|].
    + destruct (obj_by_hash _ x) as [o2|]; [case_decide|]; injection He as <- <-.
      1,2: (apply Hsame; sz; intros e1; rewrite ent_unmark, !ent_set_entry; repeat case_decide; by subst).
      apply Hsame; sz.
    + destruct (objs x !! o) as [ob|]; [|done]. case_decide; injection He as <- <-; (apply Hsame; sz).
    + repeat case_match; try done; injection He as <- <-; (apply Hsame; sz).
    + repeat case_match; try done; injection He as <- <-; (apply Hsame; sz).
    + injection He as <- <-. apply Hsame; sz. destruct mw; by repeat constructor.
    + repeat case_match; try done; injection He as <- <-; (apply Hsame; sz).
    + repeat case_match; try done; injection He as <- <-; (apply Hsame; sz).
    + injection He as <- <-. apply Hsame; sz. destruct (is_full x); by repeat constructor.
    + repeat case_match; try done; injection He as <- <-; (apply Hsame; sz).
    + (* FGetEntry *)
      assert (forall y g, sized y (g :: F) -> sized y ([g] ++ F)) as Happ by done.
      destruct (cget k (cache x)) as [e|] eqn:Hg.
      { injection He as <- <-. unfold sized in *. simpl csize. simpl cache.
        rewrite (se_sum _ _ (same_cmove k (cache x))). change (esize (set_cache (cmove k) x)) with (esize x).
        rewrite (lsum_ext (udelta (set_cache (cmove k) x)) (udelta x)) by (by intros []).
        rewrite lsum_app in Hz |- *. cbn [lsum] in Hz |- *. unfold udelta at 1. unfold udelta at 1 in Hz. unfold esize at 2. lia. }
      destruct (blocks x !! k) as [o|]; [destruct (objs x !! o) as [ob|]|].
      * injection He as <- <-. destruct (o_hash ob); (apply Hsame; sz).
      * injection He as <- <-. apply Happ, (sized_new k [] x ([FGetEntry k] ++ F)); [exact I2|done|by apply HlF|set_solver|exact Hz].
      * injection He as <- <-. apply Happ, (sized_new k [] x ([FGetEntry k] ++ F)); [exact I2|done|by apply HlF|set_solver|exact Hz].
    + repeat case_match; try done; injection He as <- <-; (apply Hsame; sz).
    + repeat case_match; try done; injection He as <- <-; (apply Hsame; sz).
    + injection He as <- <-. apply (sized_new k c x ([FDownDone k c] ++ F)); [exact I2|done|by apply HlF|set_solver|exact Hz].
    + repeat case_match; try done; injection He as <- <-; (apply Hsame; sz).
    + pose proof (same_cnext t (cache x)) as Hsn. destruct (cnext t (cache x)) as [l' [e|]]; simpl in Hsn; [case_decide|]; injection He as <- <-;
        (apply Hsame; sz; first [exact Hsn | by (eapply same_trans; [exact Hsn|apply same_cclose]) | destruct sth; sz]).
    + repeat case_match; try done; injection He as <- <-; (apply Hsame; sz).
    + injection He as <- <-. case_decide; [|apply Hsame; sz].
      apply (sized_cremove e.1 x ([FEvictLocked e] ++ F)); [|done]. apply Hl; by repeat constructor.
    + injection He as <- <-. apply Hsame; sz.
    + injection He as <- <-. apply Hsame; sz.
    + pose proof (same_cnext t (cache x)) as Hsn. destruct (cnext t (cache x)) as [l' [e|]]; simpl in Hsn; [case_decide|]; injection He as <- <-;
        (apply Hsame; sz).
    + injection He as <- <-. apply Hsame; sz.
    + pose proof (same_cnext t (cache x)) as Hsn. destruct (cnext t (cache x)) as [l' [e|]]; simpl in Hsn; injection He as <- <-;
        (apply Hsame; sz; destruct sth; sz).
    + injection He as <- <-. apply Hsame; sz.
    + destruct todo; [|case_decide]; injection He as <- <-; (apply Hsame; sz).
    + destruct todo; injection He as <- <-; (apply Hsame; sz).
    + repeat case_match; try done; injection He as <- <-; (apply Hsame; sz).
    + assert (forall g, Forall (fun f => isuse f = false) g -> sized (cremove k x) (g ++ F)) as Hr.
      { intros g Hg. apply (sized_cremove k x ([FRemLocked k] ++ F)); [|done]. apply Hl; [by repeat constructor|done]. }
      destruct (blocks (cremove k x) !! k); injection He as <- <-; [|apply Hr; by repeat constructor].
      apply (Hr [FRelease k; FDeref n]). by repeat constructor.
  - apply (sized_same x _ ([FSend e o1] ++ F)); sz.
  - destruct f; simpl in He; try done; injection He as <- <-.
    + apply (sized_same x x ([FUseFast e] ++ F)); sz.
    + unfold sized in *. simpl csize. simpl cache. rewrite lsum_app in Hz |- *. cbn [lsum] in Hz |- *. unfold udelta at 1 in Hz.
      change (udelta (set_csize (λ x0 : Z, (x0 + (e_size (ent x e) - oldsize))%Z) x) (FRelease e.1)) with 0%Z.
      change (esize (set_csize (λ x0 : Z, (x0 + (e_size (ent x e) - oldsize))%Z) x)) with (esize x).
      rewrite (lsum_ext (udelta (set_csize _ x)) (udelta x)) by (by intros []). unfold esize at 2 in Hz. lia.
  - assert (forall e, (exists old, f = FUse e old) \/ (f = FUseFast e /\ length c = length (e_data (ent x e))) -> x' = set_entry e (set_data c) x ->
      sized x' ([f] ++ F)) as Hw.
    { intros e Hf ->. assert (cget e.1 (cache x) = Some e) as Hg.
      { destruct Hf as [[old ->]|[-> _]]; pose proof (i_claim _ _ I2 _ ltac:(by left)) as Hc; exact Hc. }
      assert (holds f = Some e.1) as Hh by (destruct Hf as [[old ->]|[-> _]]; done).
      assert (forall e', e' <> e -> esize (set_entry e (set_data c) x) e' = esize x e') as Hne.
      { intros e' Hne. unfold esize. rewrite ent_set_entry, decide_False by done. done. }
      assert (esize (set_entry e (set_data c) x) e = Z.of_nat (length c)) as Hee.
      { unfold esize. rewrite ent_set_entry, decide_True by done. done. }
      unfold sized in *. change (csize (set_entry e (set_data c) x)) with (csize x). change (cache (set_entry e (set_data c) x)) with (cache x).
      rewrite (csum_update (esize (set_entry e (set_data c) x)) (esize x) e.1 e); [|apply I2| |done|done].
      2:{ intros k1 e1 Hin. pose proof (i_items _ _ I2) as Hit. rewrite Forall_forall in Hit. by apply Hit in Hin as [? _]. }
      rewrite lsum_app in Hz |- *. rewrite (lsum_ext (udelta (set_entry e (set_data c) x)) (udelta x) F).
      2:{ intros g Hin. destruct g as [| | | | | | | | | | | | | | | | | | |e1 old1| | | | | | | | | | | | | | |]; try done. cbn [udelta]. rewrite Hne; [done|]. intros ->.
          by apply (lockinv_unique x f F (FUse e old1) e.1 (i_lock _ _ I2) Hh Hin). }
      cbn [lsum] in Hz |- *. destruct Hf as [[old ->]|[-> Hlen]]; simpl in Hz |- *; [lia|].
      rewrite Hee. unfold esize at 2. unfold e_size. rewrite <- Hlen. lia. }
    destruct f; simpl in He; try done.
    + case_decide; [|done]. injection He as <-. by eapply Hw; [right|].
    + injection He as <-. by eapply Hw; [left; eexists|].
  - apply (sized_same x _ ([FSend e o1] ++ F)); sz. intros e1.
    transitivity (e_data (ent (set_entry e (set_dirty false) (unmark e x)) e1)); [done|].
    rewrite ent_set_entry, !ent_unmark. repeat case_decide; by subst.
  - apply (sized_same x _ ([FSend e o1] ++ F)); try done; [by destruct st|destruct st; apply same_refl|]. intros e1.
    transitivity (e_data (ent (unmark e x) e1)); [by destruct st|].
    rewrite ent_unmark. repeat case_decide; by subst.
  - apply (sized_same x _ ([FRelease K1] ++ F)); sz.
  - apply (sized_same x _ ([] ++ F)); sz.
  - assert (csize (deleted x) = csize x /\ cache (deleted x) = cache x /\ ents (deleted x) = ents x) as (E1 & E2 & E3).
    { unfold deleted; cbv zeta. destruct (bool_decide (Exists _ _)); done. }
    apply (sized_same x _ ([] ++ F)); try done; [rewrite E2; apply same_refl|]. intros e. unfold ent. by rewrite E3.
  - apply (sized_same x _ ([FRem0 i (b :: todo) later] ++ F)); sz.
  - apply (sized_same x _ ([] ++ F)); sz.
Qed.
End inv.
