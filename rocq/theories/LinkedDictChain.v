(** Doubly linked lists on the heap of LinkedDictModel. *)
From stdpp Require Import prelude list gmap.
From Verif Require Import LinkedDictModel.

(** ** Chains over arbitrary successor and predecessor functions *)
Fixpoint chain (nx pv : nat -> option nat) (l : list nat) : Prop :=
  match l with
  | x :: ((y :: _) as r) => nx x = Some y /\ pv y = Some x /\ chain nx pv r
  | _ => True
  end.

Lemma chain_app nx pv l1 x l2 :
  chain nx pv (l1 ++ x :: l2) <-> chain nx pv (l1 ++ [x]) /\ chain nx pv (x :: l2).
Proof.
  induction l1 as [|y l1 IH]; simpl.
  - destruct l2; simpl; tauto.
  - destruct l1 as [|z l1]; simpl in *.
    + destruct l2; simpl; tauto.
    + rewrite IH. tauto.
Qed.

Lemma chain_mid nx pv l1 a b l2 : chain nx pv (l1 ++ a :: b :: l2) -> nx a = Some b /\ pv b = Some a.
Proof. rewrite chain_app. simpl. tauto. Qed.

Lemma chain_ext_left nx pv nx' pv' l a :
  (forall y, y ∈ l -> nx' y = nx y) -> (forall y, y ∈ l ++ [a] -> pv' y = pv y) ->
  chain nx pv (l ++ [a]) -> chain nx' pv' (l ++ [a]).
Proof.
  induction l as [|x l IH]; intros Hn Hp; simpl; [done|].
  assert (forall y, y ∈ l -> nx' y = nx y) as Hn' by (intros; apply Hn; by right).
  assert (forall y, y ∈ l ++ [a] -> pv' y = pv y) as Hp' by (intros; apply Hp; simpl; by right).
  specialize (IH Hn' Hp').
  destruct l as [|z l]; simpl in *.
  - intros (H1 & H2 & _). rewrite Hn by (by left). rewrite Hp' by (by left). done.
  - intros (H1 & H2 & H3). rewrite Hn by (by left). rewrite Hp' by (by left). split; [done|]. split; [done|]. by apply IH.
Qed.

Lemma chain_ext_right nx pv nx' pv' b l :
  (forall y, y ∈ b :: l -> nx' y = nx y) -> (forall y, y ∈ l -> pv' y = pv y) ->
  chain nx pv (b :: l) -> chain nx' pv' (b :: l).
Proof.
  revert b. induction l as [|x l IH]; intros b Hn Hp; [done|].
  change (chain nx pv (b :: x :: l)) with (nx b = Some x /\ pv x = Some b /\ chain nx pv (x :: l)).
  change (chain nx' pv' (b :: x :: l)) with (nx' b = Some x /\ pv' x = Some b /\ chain nx' pv' (x :: l)).
  intros (H1 & H2 & H3). rewrite Hn by (by left). rewrite Hp by (by left). split; [done|]. split; [done|].
  apply IH; [intros; apply Hn; by right|intros; apply Hp; by right|done].
Qed.

Lemma insert_chain nx pv nx' pv' l1 a b l2 x :
  chain nx pv (l1 ++ a :: b :: l2) -> NoDup (l1 ++ a :: b :: l2) -> x ∉ l1 ++ a :: b :: l2 ->
  nx' a = Some x -> pv' b = Some x -> nx' x = Some b -> pv' x = Some a ->
  (forall y, y <> a -> y <> x -> nx' y = nx y) -> (forall y, y <> b -> y <> x -> pv' y = pv y) ->
  chain nx' pv' (l1 ++ a :: x :: b :: l2).
Proof.
  intros Hc Hnd Hx E1 E2 E3 E4 En Ep.
  rewrite chain_app in Hc. destruct Hc as [Hl Hr]. simpl in Hr. destruct Hr as (_ & _ & Hr).
  apply NoDup_app in Hnd as (Hnd1 & Hdis & Hnd2). apply NoDup_cons in Hnd2 as [Ha Hnd2].
  pose proof Hnd2 as Hnd3. apply NoDup_cons in Hnd3 as [Hb _].
  rewrite elem_of_app, !elem_of_cons in Hx.
  rewrite chain_app. split.
  - eapply chain_ext_left; [| |exact Hl].
    + intros y Hy. apply En; [|naive_solver]. intros ->. apply (Hdis _ Hy). by left.
    + intros y Hy. apply elem_of_app in Hy as [Hy|Hy].
      * apply Ep; [|naive_solver]. intros ->. apply (Hdis _ Hy). right; by left.
      * apply elem_of_list_singleton in Hy as ->. apply Ep; [|naive_solver]. intros ->. apply Ha. by left.
  - change (nx' a = Some x /\ pv' x = Some a /\ nx' x = Some b /\ pv' b = Some x /\ chain nx' pv' (b :: l2)).
    do 4 (split; [done|]). eapply chain_ext_right; [| |exact Hr].
    + intros y Hy. apply En; [|intros ->; apply elem_of_cons in Hy; naive_solver]. intros ->. by apply Ha.
    + intros y Hy. apply Ep; [|naive_solver]. intros ->. by apply Hb.
Qed.

Lemma remove_chain nx pv nx' pv' l1 a b l2 x :
  chain nx pv (l1 ++ a :: x :: b :: l2) -> NoDup (l1 ++ a :: x :: b :: l2) ->
  nx' a = Some b -> pv' b = Some a ->
  (forall y, y <> a -> y <> x -> nx' y = nx y) -> (forall y, y <> b -> y <> x -> pv' y = pv y) ->
  chain nx' pv' (l1 ++ a :: b :: l2).
Proof.
  intros Hc Hnd E1 E2 En Ep.
  rewrite chain_app in Hc. destruct Hc as [Hl Hr]. simpl in Hr. destruct Hr as (_ & _ & _ & _ & Hr).
  apply NoDup_app in Hnd as (Hnd1 & Hdis & Hnd2). apply NoDup_cons in Hnd2 as [Ha Hnd2].
  apply NoDup_cons in Hnd2 as [Hx Hnd2]. pose proof Hnd2 as Hnd3. apply NoDup_cons in Hnd3 as [Hb _].
  rewrite elem_of_cons in Ha.
  rewrite chain_app. split.
  - eapply chain_ext_left; [| |exact Hl].
    + intros y Hy. apply En; intros ->; apply (Hdis _ Hy); [by left|right; by left].
    + intros y Hy. apply elem_of_app in Hy as [Hy|Hy].
      * apply Ep; intros ->; apply (Hdis _ Hy); [right; right; by left|right; by left].
      * apply elem_of_list_singleton in Hy as ->.
        apply Ep; intros ->; apply Ha; [right; by left|by left].
  - change (nx' a = Some b /\ pv' b = Some a /\ chain nx' pv' (b :: l2)).
    do 2 (split; [done|]). eapply chain_ext_right; [| |exact Hr].
    + intros y Hy. apply En; intros ->; [apply Ha; by right|done].
    + intros y Hy. apply Ep; intros ->; [done|]. apply Hx. by right.
Qed.

(** ** The heap operations *)
Section heap.
Context {V : Type}.
Implicit Types h : heap V.

Definition tag h : gmap nat (nkey * option V) := (fun n => (n_key n, n_val n)) <$> h.

Lemma tag_Some h x : is_Some (tag h !! x) <-> is_Some (h !! x).
Proof. unfold tag. rewrite lookup_fmap. apply fmap_is_Some. Qed.

Lemma set_next_spec x p h : is_Some (tag h !! x) ->
  exists h', set_next x p h = Some h' /\ tag h' = tag h /\
    (forall y, get_next y h' = if decide (y = x) then p else get_next y h) /\
    (forall y, get_prev y h' = get_prev y h).
Proof.
  rewrite tag_Some. intros [n Hn]. unfold set_next, get_next, get_prev. rewrite Hn.
  eexists. split; [done|]. split; [|split].
  - unfold tag. rewrite fmap_insert. apply insert_id. by rewrite lookup_fmap, Hn.
  - intros y. destruct (decide (y = x)) as [->|]; [by rewrite lookup_insert|by rewrite lookup_insert_ne].
  - intros y. destruct (decide (y = x)) as [->|]; [by rewrite lookup_insert, Hn|by rewrite lookup_insert_ne].
Qed.

Lemma set_prev_spec x p h : is_Some (tag h !! x) ->
  exists h', set_prev x p h = Some h' /\ tag h' = tag h /\
    (forall y, get_prev y h' = if decide (y = x) then p else get_prev y h) /\
    (forall y, get_next y h' = get_next y h).
Proof.
  rewrite tag_Some. intros [n Hn]. unfold set_prev, get_next, get_prev. rewrite Hn.
  eexists. split; [done|]. split; [|split].
  - unfold tag. rewrite fmap_insert. apply insert_id. by rewrite lookup_fmap, Hn.
  - intros y. destruct (decide (y = x)) as [->|]; [by rewrite lookup_insert|by rewrite lookup_insert_ne].
  - intros y. destruct (decide (y = x)) as [->|]; [by rewrite lookup_insert, Hn|by rewrite lookup_insert_ne].
Qed.

Record dl h (l : list nat) : Prop := {
  dl_chain : chain (fun x => get_next x h) (fun x => get_prev x h) (hd :: l ++ [tl]);
  dl_nodup : NoDup (hd :: l ++ [tl]);
  dl_dom : forall x, x ∈ hd :: l ++ [tl] -> is_Some (tag h !! x)
}.


Lemma append_spec h l x : dl h l -> x ∉ hd :: l ++ [tl] -> is_Some (tag h !! x) ->
  exists h', append x h = Some h' /\ tag h' = tag h /\ dl h' (l ++ [x]).
Proof.
  intros [Hc Hnd Hdom] Hx Htx.
  destruct (exists_last (l := hd :: l)) as (l1 & p & Hl); [done|].
  assert (hd :: l ++ [tl] = l1 ++ p :: tl :: []) as Hfull.
  { change (hd :: l ++ [tl]) with ((hd :: l) ++ [tl]). rewrite Hl, <- app_assoc. done. }
  rewrite Hfull in Hc, Hnd, Hdom, Hx.
  destruct (chain_mid _ _ _ _ _ _ Hc) as [Hnp Hpt].
  unfold append. simpl in Hpt. rewrite Hpt.
  destruct (set_prev_spec x (Some p) h) as (h1 & -> & T1 & P1 & N1); [done|]. cbn [mbind option_bind].
  destruct (set_next_spec x (Some tl) h1) as (h2 & -> & T2 & N2 & P2); [by rewrite T1|]. cbn [mbind option_bind].
  destruct (set_next_spec p (Some x) h2) as (h3 & -> & T3 & N3 & P3).
  { rewrite T2, T1. apply Hdom. rewrite elem_of_app. right. by left. }
  cbn [mbind option_bind].
  destruct (set_prev_spec tl (Some x) h3) as (h4 & -> & T4 & P4 & N4).
  { rewrite T3, T2, T1. apply Hdom. rewrite elem_of_app. right. right. by left. }
  exists h4. split; [done|].
  assert (tag h4 = tag h) as HT by congruence. split; [done|].
  assert (x <> p /\ x <> tl) as [Hxp Hxt].
  { rewrite elem_of_app, !elem_of_cons in Hx. naive_solver. }
  assert (hd :: (l ++ [x]) ++ [tl] = l1 ++ p :: x :: tl :: []) as Hfull'.
  { change (hd :: (l ++ [x]) ++ [tl]) with (((hd :: l) ++ [x]) ++ [tl]). rewrite Hl, <- !app_assoc. done. }
  assert (p <> tl) as Hpt'.
  { apply NoDup_app in Hnd as (_ & _ & Hnd). apply NoDup_cons in Hnd as [Hn _]. intros ->. apply Hn. by left. }
  split; rewrite Hfull'.
  - eapply insert_chain; [exact Hc|done|done|..]; simpl.
    + rewrite N4, N3. by rewrite decide_True.
    + rewrite P4. by rewrite decide_True.
    + rewrite N4, N3, decide_False by done. rewrite N2. by rewrite decide_True.
    + rewrite P4, decide_False by done. rewrite P3, P2, P1. by rewrite decide_True.
    + intros y Hy1 Hy2. rewrite N4, N3, decide_False by done. rewrite N2, decide_False by done. by rewrite N1.
    + intros y Hy1 Hy2. rewrite P4, decide_False by done. rewrite P3, P2, P1, decide_False by done. done.
  - replace (l1 ++ [p; x; tl]) with ((l1 ++ [p]) ++ x :: [tl]) by (by rewrite <- app_assoc).
    rewrite <- Permutation_middle. constructor.
    + by rewrite <- app_assoc.
    + by rewrite <- app_assoc.
  - intros y Hy. rewrite HT. destruct (decide (y = x)) as [->|Hyx]; [done|]. apply Hdom.
    rewrite elem_of_app, !elem_of_cons in Hy; rewrite elem_of_app, !elem_of_cons. tauto.
Qed.

(** Predecessor and successor of a node of the list. *)
Lemma around l1 x l2 : exists m1 a b m2,
  hd :: (l1 ++ x :: l2) ++ [tl] = m1 ++ a :: x :: b :: m2 /\ hd :: l1 = m1 ++ [a] /\ l2 ++ [tl] = b :: m2.
Proof.
  destruct (exists_last (l := hd :: l1)) as (m1 & a & Hl); [done|].
  destruct (l2 ++ [tl]) as [|b m2] eqn:Hr; [by destruct l2|].
  exists m1, a, b, m2. split; [|done].
  change (hd :: (l1 ++ x :: l2) ++ [tl]) with (((hd :: l1) ++ x :: l2) ++ [tl]).
  rewrite Hl, <- !app_assoc. simpl. by rewrite Hr.
Qed.

Lemma unlink_spec h l1 x l2 : dl h (l1 ++ x :: l2) ->
  exists h', unlink x h = Some h' /\ tag h' = tag h /\ dl h' (l1 ++ l2).
Proof.
  intros [Hc Hnd Hdom]. destruct (around l1 x l2) as (m1 & a & b & m2 & Hfull & Hm1 & Hm2).
  rewrite Hfull in Hc, Hnd, Hdom.
  destruct (chain_mid _ _ _ _ _ _ Hc) as [_ Hpx].
  replace (m1 ++ a :: x :: b :: m2) with ((m1 ++ [a]) ++ x :: b :: m2) in Hc by (by rewrite <- app_assoc).
  destruct (chain_mid _ _ _ _ _ _ Hc) as [Hnx _].
  rewrite <- app_assoc in Hc. simpl in Hc, Hpx, Hnx.
  assert (a <> x /\ b <> x /\ a <> b) as (Hax & Hbx & Hab).
  { apply NoDup_app in Hnd as (_ & _ & Hnd). apply NoDup_cons in Hnd as [Hn Hnd].
    apply NoDup_cons in Hnd as [Hn' _]. rewrite !elem_of_cons in Hn; rewrite !elem_of_cons in Hn'.
    split; [|split]; intros Heq; subst; tauto. }
  unfold unlink. rewrite Hpx, Hnx.
  destruct (set_next_spec a (Some b) h) as (h1 & -> & T1 & N1 & P1).
  { apply Hdom. rewrite elem_of_app, !elem_of_cons. tauto. }
  cbn [mbind option_bind].
  destruct (set_prev_spec b (Some a) h1) as (h2 & -> & T2 & P2 & N2).
  { rewrite T1. apply Hdom. rewrite elem_of_app, !elem_of_cons. tauto. }
  cbn [mbind option_bind].
  destruct (set_prev_spec x None h2) as (h3 & -> & T3 & P3 & N3).
  { rewrite T2, T1. apply Hdom. rewrite elem_of_app, !elem_of_cons. tauto. }
  cbn [mbind option_bind].
  destruct (set_next_spec x None h3) as (h4 & -> & T4 & N4 & P4).
  { rewrite T3, T2, T1. apply Hdom. rewrite elem_of_app, !elem_of_cons. tauto. }
  exists h4. split; [done|]. assert (tag h4 = tag h) as HT by congruence. split; [done|].
  assert (hd :: (l1 ++ l2) ++ [tl] = m1 ++ a :: b :: m2) as Hfull'.
  { change (hd :: (l1 ++ l2) ++ [tl]) with (((hd :: l1) ++ l2) ++ [tl]). rewrite Hm1, <- !app_assoc. simpl.
    by rewrite Hm2. }
  split; rewrite Hfull'.
  - eapply remove_chain; [exact Hc|done|..]; simpl.
    + rewrite N4, decide_False by done. rewrite N3, N2, N1. by rewrite decide_True.
    + rewrite P4, P3, decide_False by done. rewrite P2. by rewrite decide_True.
    + intros y Hy1 Hy2. rewrite N4, decide_False by done. rewrite N3, N2, N1. by rewrite decide_False.
    + intros y Hy1 Hy2. rewrite P4, P3, decide_False by done. rewrite P2, decide_False by done. by rewrite P1.
  - replace (m1 ++ a :: x :: b :: m2) with ((m1 ++ [a]) ++ x :: b :: m2) in Hnd by (by rewrite <- app_assoc).
    rewrite <- Permutation_middle in Hnd. apply NoDup_cons in Hnd as [_ Hnd]. by rewrite <- app_assoc in Hnd.
  - intros y Hy. rewrite HT. apply Hdom. rewrite elem_of_app, !elem_of_cons in Hy; rewrite elem_of_app, !elem_of_cons. tauto.
Qed.

Lemma start_spec h l c : dl h l -> c ∉ hd :: l ++ [tl] -> is_Some (tag h !! c) ->
  exists h', start c h = Some h' /\ tag h' = tag h /\ dl h' (c :: l).
Proof.
  intros [Hc Hnd Hdom] Hx Htx.
  destruct (l ++ [tl]) as [|b m2] eqn:Hr; [by destruct l|].
  destruct (chain_mid _ _ [] _ _ _ Hc) as [Hnh Hpb]. simpl in Hnh, Hpb.
  assert (c <> hd /\ c <> b /\ hd <> b) as (Hc1 & Hc2 & Hhb).
  { rewrite !elem_of_cons in Hx. apply NoDup_cons in Hnd as [Hn _]. rewrite elem_of_cons in Hn. naive_solver. }
  unfold start. rewrite Hnh.
  destruct (set_prev_spec c (Some hd) h) as (h1 & -> & T1 & P1 & N1); [done|]. cbn [mbind option_bind].
  destruct (set_next_spec c (Some b) h1) as (h2 & -> & T2 & N2 & P2); [by rewrite T1|]. cbn [mbind option_bind].
  destruct (set_prev_spec b (Some c) h2) as (h3 & -> & T3 & P3 & N3).
  { rewrite T2, T1. apply Hdom. rewrite !elem_of_cons. tauto. }
  cbn [mbind option_bind].
  destruct (set_next_spec hd (Some c) h3) as (h4 & -> & T4 & N4 & P4).
  { rewrite T3, T2, T1. apply Hdom. rewrite !elem_of_cons. tauto. }
  exists h4. split; [done|]. assert (tag h4 = tag h) as HT by congruence. split; [done|].
  split; rewrite <- app_comm_cons, Hr.
  - apply (insert_chain _ _ _ _ [] hd b m2 c Hc Hnd Hx).
    + rewrite N4. by rewrite decide_True.
    + rewrite P4, P3. by rewrite decide_True.
    + rewrite N4, decide_False by done. rewrite N3, N2. by rewrite decide_True.
    + rewrite P4, P3, decide_False by done. rewrite P2, P1. by rewrite decide_True.
    + intros y Hy1 Hy2. rewrite N4, decide_False by done. rewrite N3, N2, decide_False by done. by rewrite N1.
    + intros y Hy1 Hy2. rewrite P4, P3, decide_False by done. rewrite P2, P1. by rewrite decide_False.
  - apply NoDup_cons in Hnd as [Hn Hnd]. rewrite elem_of_cons in Hx.
    constructor; [|constructor; [|done]].
    + rewrite elem_of_cons. naive_solver.
    + tauto.
  - intros y Hy. rewrite HT. destruct (decide (y = c)) as [->|]; [done|]. apply Hdom.
    rewrite !elem_of_cons in Hy; rewrite !elem_of_cons. tauto.
Qed.

(** One turn of the loop: the cursor [c] moves behind [x]. *)
Lemma swap_spec h l1 c x l2 : dl h (l1 ++ c :: x :: l2) ->
  exists p after, get_prev c h = Some p /\ get_next c h = Some x /\ get_next x h = Some after /\ x <> tl /\
  exists h', (h ← set_next p (Some x) h;
        h ← set_prev x (Some p) h;
        h ← set_next x (Some c) h;
        h ← set_prev c (Some x) h;
        h ← set_next c (Some after) h;
        set_prev after (Some c) h) = Some h' /\ tag h' = tag h /\ dl h' (l1 ++ x :: c :: l2).
Proof.
  intros [Hc Hnd Hdom]. destruct (around l1 c (x :: l2)) as (m1 & p & b & m2 & Hfull & Hm1 & Hm2).
  simpl in Hm2. injection Hm2 as <- Hm2.
  destruct (l2 ++ [tl]) as [|a m3] eqn:Hr; [by destruct l2|]. subst m2.
  rewrite Hfull in Hc, Hnd, Hdom.
  destruct (chain_mid _ _ _ _ _ _ Hc) as [_ Hpc].
  pose proof Hc as Hc2.
  replace (m1 ++ p :: c :: x :: a :: m3) with ((m1 ++ [p]) ++ c :: x :: a :: m3) in Hc2 by (by rewrite <- app_assoc).
  destruct (chain_mid _ _ _ _ _ _ Hc2) as [Hnc _].
  replace ((m1 ++ [p]) ++ c :: x :: a :: m3) with ((m1 ++ [p; c]) ++ x :: a :: m3) in Hc2 by (by rewrite <- !app_assoc).
  destruct (chain_mid _ _ _ _ _ _ Hc2) as [Hnx _]. clear Hc2. simpl in Hpc, Hnc, Hnx.
  pose proof Hnd as Hnd0.
  apply NoDup_app in Hnd as (Hnd1 & Hdis & Hnd). apply NoDup_cons in Hnd as [Hp Hnd].
  apply NoDup_cons in Hnd as [Hcc Hnd]. apply NoDup_cons in Hnd as [Hxx Hnd]. apply NoDup_cons in Hnd as [Haa Hnd].
  rewrite !elem_of_cons in Hp; rewrite !elem_of_cons in Hcc; rewrite !elem_of_cons in Hxx.
  assert (x <> tl) as Hxt.
  { intros ->. apply Hxx. rewrite <- elem_of_cons, <- Hr, elem_of_app. right. by left. }
  exists p, a. do 4 (split; [done|]).
  assert (forall y, y = p \/ y = c \/ y = x \/ y = a -> is_Some (tag h !! y)) as Hd4.
  { intros y Hy. apply Hdom. rewrite elem_of_app, !elem_of_cons. tauto. }
  destruct (set_next_spec p (Some x) h) as (h1 & -> & T1 & N1 & P1); [apply Hd4; tauto|]. cbn [mbind option_bind].
  destruct (set_prev_spec x (Some p) h1) as (h2 & -> & T2 & P2 & N2); [rewrite T1; apply Hd4; tauto|]. cbn [mbind option_bind].
  destruct (set_next_spec x (Some c) h2) as (h3 & -> & T3 & N3 & P3); [rewrite T2, T1; apply Hd4; tauto|]. cbn [mbind option_bind].
  destruct (set_prev_spec c (Some x) h3) as (h4 & -> & T4 & P4 & N4); [rewrite T3, T2, T1; apply Hd4; tauto|]. cbn [mbind option_bind].
  destruct (set_next_spec c (Some a) h4) as (h5 & -> & T5 & N5 & P5); [rewrite T4, T3, T2, T1; apply Hd4; tauto|]. cbn [mbind option_bind].
  destruct (set_prev_spec a (Some c) h5) as (h6 & -> & T6 & P6 & N6); [rewrite T5, T4, T3, T2, T1; apply Hd4; tauto|].
  exists h6. split; [done|]. assert (tag h6 = tag h) as HT by congruence. split; [done|].
  assert (hd :: (l1 ++ x :: c :: l2) ++ [tl] = m1 ++ p :: x :: c :: a :: m3) as Hfull'.
  { change (hd :: (l1 ++ x :: c :: l2) ++ [tl]) with (((hd :: l1) ++ x :: c :: l2) ++ [tl]).
    rewrite Hm1, <- !app_assoc. simpl. by rewrite Hr. }
  assert (forall y, get_next y h6 = if decide (y = c) then Some a else if decide (y = x) then Some c else
            if decide (y = p) then Some x else get_next y h) as HN.
  { intros y. rewrite N6, N5. destruct (decide (y = c)); [done|]. rewrite N4, N3. destruct (decide (y = x)); [done|].
    rewrite N2, N1. done. }
  assert (forall y, get_prev y h6 = if decide (y = a) then Some c else if decide (y = c) then Some x else
            if decide (y = x) then Some p else get_prev y h) as HP.
  { intros y. rewrite P6. destruct (decide (y = a)); [done|]. rewrite P5, P4. destruct (decide (y = c)); [done|].
    rewrite P3, P2. destruct (decide (y = x)); [done|]. by rewrite P1. }
  split; rewrite Hfull'.
  - rewrite chain_app in Hc |- *. destruct Hc as [Hl Hr']. split.
    + eapply chain_ext_left; [| |exact Hl].
      * intros y Hy. simpl. rewrite HN.
        assert (y <> c /\ y <> x /\ y <> p) as (? & ? & ?).
        { split; [|split]; intros ->; apply (Hdis _ Hy); rewrite !elem_of_cons; tauto. }
        by rewrite !decide_False.
      * intros y Hy. simpl. rewrite HP.
        assert (y <> a /\ y <> c /\ y <> x) as (? & ? & ?).
        { apply elem_of_app in Hy as [Hy|Hy].
          - split; [|split]; intros ->; apply (Hdis _ Hy); rewrite !elem_of_cons; tauto.
          - apply elem_of_list_singleton in Hy as ->. naive_solver. }
        by rewrite !decide_False.
    + simpl in Hr'. destruct Hr' as (_ & _ & _ & _ & _ & _ & Hr').
      change (get_next p h6 = Some x /\ get_prev x h6 = Some p /\ get_next x h6 = Some c /\ get_prev c h6 = Some x /\
              get_next c h6 = Some a /\ get_prev a h6 = Some c /\
              chain (fun x => get_next x h6) (fun x => get_prev x h6) (a :: m3)).
      assert (p <> c /\ p <> x /\ x <> a /\ c <> x /\ x <> c /\ c <> a) as (? & ? & ? & ? & ? & ?).
      { repeat split; intros Heq; subst; tauto. }
      do 6 (split; [rewrite ?HN, ?HP; by repeat first [rewrite decide_True by congruence|rewrite decide_False by congruence]|]).
      eapply chain_ext_right; [| |exact Hr'].
      * intros y Hy. simpl. rewrite HN.
        assert (y <> c /\ y <> x /\ y <> p) as (? & ? & ?).
        { rewrite elem_of_cons in Hy. split; [|split]; intros ->; tauto. }
        by rewrite !decide_False.
      * intros y Hy. simpl. rewrite HP.
        assert (y <> a /\ y <> c /\ y <> x) as (? & ? & ?).
        { split; [|split]; intros ->; tauto. }
        by rewrite !decide_False.
  - assert (Permutation (m1 ++ p :: x :: c :: a :: m3) (m1 ++ p :: c :: x :: a :: m3)) as ->; [|done].
    apply Permutation_app_head. constructor. apply perm_swap.
  - intros y Hy. rewrite HT. apply Hdom. rewrite elem_of_app, !elem_of_cons in Hy; rewrite elem_of_app, !elem_of_cons. tauto.
Qed.
End heap.
