(** Lemmas about the data structures of BlockCacheModel. *)
From stdpp Require Import prelude list gmap.
From Coq Require Import ZArith.
From Verif Require Import BlockCacheModel.

(** ** Sums over finite maps *)
Section msum.
Context {K A : Type} `{Countable K}.
Definition msum (f : A -> Z) (m : gmap K A) : Z := map_fold (fun _ x acc => (f x + acc)%Z) 0%Z m.
Lemma msum_empty f : msum f ∅ = 0%Z.
Proof. apply map_fold_empty. Qed.
Lemma msum_insert_new f m i x : m !! i = None -> msum f (<[i := x]> m) = (f x + msum f m)%Z.
Proof. intros Hi. unfold msum. rewrite map_fold_insert_L; [done| |done]. intros. lia. Qed.
Lemma msum_delete f m i x : m !! i = Some x -> msum f m = (f x + msum f (delete i m))%Z.
Proof. intros Hi. rewrite <- (insert_delete m i x Hi) at 1. apply msum_insert_new. apply lookup_delete. Qed.
Lemma msum_insert f m i x : msum f (<[i := x]> m) = (f x - match m !! i with Some y => f y | None => 0 end + msum f m)%Z.
Proof.
  destruct (m !! i) as [y|] eqn:Hi.
  - rewrite <- insert_delete_insert, msum_insert_new by apply lookup_delete. rewrite (msum_delete f m i y Hi). lia.
  - rewrite msum_insert_new by done. lia.
Qed.
Lemma msum_nonneg f m : (forall x, 0 <= f x)%Z -> (0 <= msum f m)%Z.
Proof.
  intros Hf. induction m as [|i x m Hi IH] using map_ind; [by rewrite msum_empty|].
  rewrite msum_insert_new by done. specialize (Hf x). lia.
Qed.
Lemma msum_le f m i x : (forall x, 0 <= f x)%Z -> m !! i = Some x -> (f x <= msum f m)%Z.
Proof. intros Hf Hi. rewrite (msum_delete f m i x Hi). pose proof (msum_nonneg f (delete i m) Hf). lia. Qed.
Lemma msum_ext f g (m : gmap K A) : (forall i x, m !! i = Some x -> f x = g x) -> msum f m = msum g m.
Proof.
  induction m as [|i x m Hi IH] using map_ind; intros Hfg; [done|].
  rewrite !msum_insert_new by done. rewrite (Hfg i x) by apply lookup_insert. rewrite IH; [done|].
  intros j y Hj. apply (Hfg j y). rewrite lookup_insert_ne; [done|]. intros ->. congruence.
Qed.
Lemma msum_zero f (m : gmap K A) : (forall i x, m !! i = Some x -> f x = 0%Z) -> msum f m = 0%Z.
Proof.
  intros Hf. rewrite (msum_ext f (fun _ => 0%Z)) by done. induction m as [|i x m Hi IH] using map_ind; [done|].
  rewrite msum_insert_new by done. rewrite IH; [done|]. intros j y Hj. apply (Hf j y).
  rewrite lookup_insert_ne; [done|]. intros ->. congruence.
Qed.
Lemma msum_pos f (m : gmap K A) : (forall x, 0 <= f x)%Z -> (0 < msum f m)%Z -> exists i x, m !! i = Some x /\ (0 < f x)%Z.
Proof.
  intros Hf. induction m as [|i x m Hi IH] using map_ind; [rewrite msum_empty; lia|].
  rewrite msum_insert_new by done. intros Hs. destruct (decide (0 < f x)%Z) as [Hx|Hx].
  - exists i, x. by rewrite lookup_insert.
  - destruct IH as (j & y & Hj & Hy); [lia|]. exists j, y. rewrite lookup_insert_ne; [done|]. intros ->. congruence.
Qed.
End msum.

(** ** The cache list *)
Fixpoint ckeys (l : list item) : list (nat * nat) :=
  match l with [] => [] | E k _ :: l => k :: ckeys l | Cur _ :: l => ckeys l end.
(** Sum of a function over the entries. *)
Fixpoint csum (f : nat * nat * nat -> Z) (l : list item) : Z :=
  match l with [] => 0%Z | E _ e :: l => (f e + csum f l)%Z | Cur _ :: l => csum f l end.
Definition itemok (n : nat) (i : item) : Prop := match i with E k e => e.1 = k /\ e.2 < n | Cur _ => True end.

Lemma ckeys_app l1 l2 : ckeys (l1 ++ l2) = ckeys l1 ++ ckeys l2.
Proof. induction l1 as [|[k e|t] l1 IH]; simpl; [done| |]; by rewrite IH. Qed.
Lemma csum_app f l1 l2 : csum f (l1 ++ l2) = (csum f l1 + csum f l2)%Z.
Proof. induction l1 as [|[k e|t] l1 IH]; simpl; [done| |]; rewrite IH; lia. Qed.
Lemma cget_app k l1 l2 : cget k (l1 ++ l2) = match cget k l1 with Some e => Some e | None => cget k l2 end.
Proof. induction l1 as [|[k' e|t] l1 IH]; simpl; [done| |done]. by destruct (decide (k' = k)). Qed.
Lemma cget_Some_elem k e l : cget k l = Some e -> E k e ∈ l.
Proof.
  induction l as [|[k' e'|t] l IH]; simpl; [done| |].
  - destruct (decide (k' = k)) as [->|].
    + intros [= ->]. by left.
    + intros Hg. right. by apply IH.
  - intros Hg. right. by apply IH.
Qed.
Lemma elem_ckeys k e l : E k e ∈ l -> k ∈ ckeys l.
Proof.
  induction l as [|[k' e'|t] l IH]; simpl; intros Hin.
  - by apply elem_of_nil in Hin.
  - apply elem_of_cons in Hin as [[= -> ->]|Hin]; [by left|right; by apply IH].
  - apply elem_of_cons in Hin as [[=]|Hin]. by apply IH.
Qed.
Lemma cget_None k l : cget k l = None <-> k ∉ ckeys l.
Proof.
  induction l as [|[k' e'|t] l IH]; simpl.
  - split; [intros _ Hin; by apply elem_of_nil in Hin|done].
  - rewrite not_elem_of_cons. destruct (decide (k' = k)) as [->|]; [naive_solver|]. rewrite IH. naive_solver.
  - done.
Qed.
Lemma elem_cget k e l : NoDup (ckeys l) -> E k e ∈ l -> cget k l = Some e.
Proof.
  induction l as [|[k' e'|t] l IH]; simpl; intros Hnd Hin.
  - by apply elem_of_nil in Hin.
  - apply NoDup_cons in Hnd as [Hn Hnd]. apply elem_of_cons in Hin as [[= -> ->]|Hin]; [by rewrite decide_True|].
    rewrite decide_False; [by apply IH|]. intros ->. apply Hn. by eapply elem_ckeys.
  - apply elem_of_cons in Hin as [[=]|Hin]. by apply IH.
Qed.

Lemma cpop_split k e l : cget k l = Some e -> exists l1 l2, l = l1 ++ E k e :: l2 /\ k ∉ ckeys l1 /\ cpop k l = l1 ++ l2.
Proof.
  induction l as [|[k' e'|t] l IH]; simpl; [done| |].
  - destruct (decide (k' = k)) as [->|Hne].
    + intros [= ->]. exists [], l. split; [done|]. split; [apply not_elem_of_nil|done].
    + intros Hg. destruct (IH Hg) as (l1 & l2 & -> & Hn & Hp). exists (E k' e' :: l1), l2.
      split; [done|]. split; [simpl; rewrite not_elem_of_cons; done|]. by rewrite Hp.
  - intros Hg. destruct (IH Hg) as (l1 & l2 & -> & Hn & Hp). exists (Cur t :: l1), l2. by rewrite Hp.
Qed.
Lemma cpop_absent k l : cget k l = None -> cpop k l = l.
Proof.
  induction l as [|[k' e'|t] l IH]; simpl; [done| |]; intros Hg.
  - destruct (decide (k' = k)); [done|]. by rewrite IH.
  - by rewrite IH.
Qed.

(** Operations that keep the entries, up to their order. *)
Record same_entries (l l' : list item) : Prop := {
  se_get : NoDup (ckeys l) -> forall k, cget k l' = cget k l;
  se_keys : Permutation (ckeys l') (ckeys l);
  se_sum : forall f, csum f l' = csum f l;
  se_ok : forall n, Forall (itemok n) l -> Forall (itemok n) l';
  se_len : clen l' = clen l
}.
Lemma same_refl l : same_entries l l.
Proof. by split. Qed.
Lemma same_trans l1 l2 l3 : same_entries l1 l2 -> same_entries l2 l3 -> same_entries l1 l3.
Proof.
  intros [G1 K1 S1 O1 L1] [G2 K2 S2 O2 L2]. split.
  - intros Hnd k. rewrite G2; [by apply G1|]. by rewrite K1.
  - by rewrite K2.
  - intros f. by rewrite S2.
  - auto.
  - congruence.
Qed.
Lemma same_start t l : same_entries l (Cur t :: l).
Proof. split; simpl; try done. intros n Hf. by constructor. Qed.
Lemma same_cons i l l' : same_entries l l' -> same_entries (i :: l) (i :: l').
Proof.
  intros [G K S O L]. destruct i as [k e|t]; split; simpl.
  - intros [_ Hnd]%NoDup_cons k'. destruct (decide (k = k')); [done|]. by apply G.
  - by constructor.
  - intros f. by rewrite S.
  - intros n [H1 H2]%Forall_cons. constructor; [done|]. by apply O.
  - by rewrite L.
  - done.
  - done.
  - done.
  - intros n [H1 H2]%Forall_cons. constructor; [done|]. by apply O.
  - done.
Qed.
Lemma same_drop_cur t l : same_entries (Cur t :: l) l.
Proof. split; simpl; try done. by intros n [_ ?]%Forall_cons. Qed.
Lemma same_cskip t l : same_entries l (cskip t l).1.
Proof.
  induction l as [|[k e|t'] l IH]; simpl; [apply same_refl| |].
  - apply same_cons, same_start.
  - destruct (cskip t l) as [l' r]. simpl in *. by apply same_cons.
Qed.
Lemma same_cnext t l : same_entries l (cnext t l).1.
Proof.
  induction l as [|[k e|t'] l IH]; simpl; [apply same_refl| |].
  - destruct (cnext t l) as [l' r]. simpl in *. by apply same_cons.
  - destruct (decide (t' = t)).
    + eapply same_trans; [apply same_drop_cur|]. apply same_cskip.
    + destruct (cnext t l) as [l' r]. simpl in *. by apply same_cons.
Qed.
Lemma same_cclose t l : same_entries l (cclose t l).
Proof.
  induction l as [|[k e|t'] l IH]; simpl; [apply same_refl|by apply same_cons|].
  destruct (decide (t' = t)); [apply same_drop_cur|by apply same_cons].
Qed.
Lemma clen_app l1 l2 : clen (l1 ++ l2) = clen l1 + clen l2.
Proof. induction l1 as [|[k e|t] l1 IH]; simpl; [done| |done]; by rewrite IH. Qed.
Lemma same_cmove k l : same_entries l (cmove k l).
Proof.
  unfold cmove. destruct (cget k l) as [e|] eqn:Hg; [|apply same_refl].
  destruct (cpop_split _ _ _ Hg) as (l1 & l2 & -> & Hn & ->). split.
  - intros Hnd k'. rewrite !cget_app. simpl. destruct (cget k' l1) as [e'|] eqn:H1.
    { done. }
    destruct (decide (k = k')) as [->|Hne].
    + rewrite ckeys_app in Hnd. simpl in Hnd. apply NoDup_app in Hnd as (_ & _ & Hnd).
      apply NoDup_cons in Hnd as [Hn2 _]. apply cget_None in Hn2. by rewrite Hn2.
    + destruct (cget k' l2); done.
  - rewrite !ckeys_app. simpl. rewrite <- !Permutation_middle. by rewrite app_nil_r.
  - intros f. rewrite !csum_app. simpl. lia.
  - intros n Hf. apply Forall_app in Hf as [H1 H2]. apply Forall_cons in H2 as [H2 H3].
    apply Forall_app. split; [by apply Forall_app|]. by constructor.
  - rewrite !clen_app. simpl. lia.
Qed.
Lemma cskip_elem t l l' e : cskip t l = (l', Some e) -> exists k, E k e ∈ l.
Proof.
  revert l'. induction l as [|[k e'|t'] l IH]; simpl; intros l'; [done| |].
  - intros [= <- <-]. exists k. by left.
  - destruct (cskip t l) as [l2 r]. intros [= <- ->]. destruct (IH l2) as [k Hk]; [done|]. exists k. by right.
Qed.
Lemma cnext_elem t l l' e : cnext t l = (l', Some e) -> exists k, E k e ∈ l.
Proof.
  revert l'. induction l as [|[k e'|t'] l IH]; simpl; intros l'; [done| |].
  - destruct (cnext t l) as [l2 r]. intros [= <- ->]. destruct (IH l2) as [k' Hk]; [done|]. exists k'. by right.
  - destruct (decide (t' = t)).
    + intros Hs. destruct (cskip_elem _ _ _ _ Hs) as [k Hk]. exists k. by right.
    + destruct (cnext t l) as [l2 r]. intros [= <- ->]. destruct (IH l2) as [k' Hk]; [done|]. exists k'. by right.
Qed.

Lemma cpop_get k k' l : NoDup (ckeys l) -> cget k' (cpop k l) = if decide (k' = k) then None else cget k' l.
Proof.
  intros Hnd. destruct (cget k l) as [e|] eqn:Hg.
  - destruct (cpop_split _ _ _ Hg) as (l1 & l2 & -> & Hn & ->). rewrite !cget_app. simpl.
    destruct (decide (k' = k)) as [->|Hne].
    + apply cget_None in Hn. rewrite Hn. apply cget_None.
      rewrite ckeys_app in Hnd. simpl in Hnd. apply NoDup_app in Hnd as (_ & _ & Hnd). by apply NoDup_cons in Hnd as [Hnd _].
    + rewrite (decide_False (P := k = k')) by done. done.
  - rewrite cpop_absent by done. destruct (decide (k' = k)) as [->|]; done.
Qed.
Lemma cpop_NoDup k l : NoDup (ckeys l) -> NoDup (ckeys (cpop k l)).
Proof.
  intros Hnd. destruct (cget k l) as [e|] eqn:Hg; [|by rewrite cpop_absent].
  destruct (cpop_split _ _ _ Hg) as (l1 & l2 & -> & Hn & ->).
  rewrite ckeys_app in Hnd. rewrite ckeys_app. simpl in Hnd. rewrite <- Permutation_middle in Hnd. by apply NoDup_cons in Hnd as [_ ?].
Qed.
Lemma cpop_ok n k l : Forall (itemok n) l -> Forall (itemok n) (cpop k l).
Proof.
  induction l as [|[k' e'|t] l IH]; simpl; intros Hf; [done| |]; apply Forall_cons in Hf as [H1 H2].
  - destruct (decide (k' = k)); [done|]. constructor; [done|]. by apply IH.
  - constructor; [done|]. by apply IH.
Qed.
Lemma cpop_sum f k e l : cget k l = Some e -> csum f (cpop k l) = (csum f l - f e)%Z.
Proof.
  intros Hg. destruct (cpop_split _ _ _ Hg) as (l1 & l2 & -> & Hn & ->). rewrite !csum_app. simpl. lia.
Qed.
Lemma csum_ext f g l : (forall k e, E k e ∈ l -> f e = g e) -> csum f l = csum g l.
Proof.
  induction l as [|[k e|t] l IH]; simpl; intros Hf; [done| |].
  - rewrite (Hf k e) by (by left). rewrite IH; [done|]. intros k' e' Hin. apply (Hf k' e'). by right.
  - apply IH. intros k' e' Hin. apply (Hf k' e'). by right.
Qed.
(** Changing one entry. *)
Lemma csum_update f g k e l : NoDup (ckeys l) -> (forall k e, E k e ∈ l -> e.1 = k) -> cget k l = Some e ->
  (forall e', e' <> e -> f e' = g e') -> csum f l = (csum g l + (f e - g e))%Z.
Proof.
  intros Hnd Hk Hg Hfg. destruct (cpop_split _ _ _ Hg) as (l1 & l2 & -> & Hn & _).
  rewrite !csum_app. simpl. rewrite ckeys_app in Hnd. simpl in Hnd.
  assert (e.1 = k) as He by (apply (Hk k e), elem_of_app; right; by left).
  assert (csum f l1 = csum g l1) as ->.
  { apply csum_ext. intros k' e' Hin. apply Hfg. intros ->. apply Hn. apply (elem_ckeys _ e).
    assert (e.1 = k') as Hk' by (apply (Hk k' e), elem_of_app; by left). by rewrite <- He, Hk'. }
  assert (csum f l2 = csum g l2) as ->; [|lia].
  apply csum_ext. intros k' e' Hin. apply Hfg. intros ->.
  apply NoDup_app in Hnd as (_ & _ & Hnd). apply NoDup_cons in Hnd as [Hn2 _]. apply Hn2. apply (elem_ckeys _ e).
  assert (e.1 = k') as Hk' by (apply (Hk k' e), elem_of_app; right; by right). by rewrite <- He, Hk'.
Qed.
