(** Every call keeps the tables consistent. *)
From stdpp Require Import prelude gmap strings.
From Coq Require Import ZArith String.
From Verif Require Import FsModel FsSpec FsLemmas.
Local Close Scope string_scope.
Local Open Scope Z_scope.

Lemma below_ceil max b z : 0 < max -> b * max < z -> b < ceil_blocks max z.
Proof. intros Hm Hb. unfold ceil_blocks. apply (Z.lt_le_trans _ (b + 1)); [lia|]. apply Z.div_le_lower_bound; nia. Qed.

(** The names of [a] are in [b], with the same ids. *)
Definition sub (a b : gmap string (nat * Z)) : Prop := forall n k rc, a !! n = Some (k, rc) -> exists rc', b !! n = Some (k, rc').
Lemma sub_refl a : sub a a.
Proof. intros n k rc. eauto. Qed.
Lemma sub_trans a b c : sub a b -> sub b c -> sub a c.
Proof. intros H1 H2 n k rc (rc1 & H)%H1. by apply H2 in H. Qed.
Lemma del_name_sub n s s1 k : del_name n s = Some (s1, k) -> sub (names s1) (names s).
Proof.
  unfold del_name. destruct (names s !! n) as [[k0 rc0]|] eqn:E; [|done]. intros [= <- <-] m k' rc. cbn. case_decide.
  - intros [[<- [= <- <-]]|[_ Hm]]%lookup_insert_Some; eauto.
  - intros [_ Hm]%lookup_delete_Some. eauto.
Qed.
Lemma add_name_sub n s s1 k : add_name n s = (s1, k) -> sub (names s) (names s1).
Proof.
  unfold add_name. intros Ha m k' rc Hm. destruct (names s !! n) as [[k0 rc0]|] eqn:E; injection Ha as <- <-; cbn.
  - destruct (decide (n = m)) as [<-|]; [rewrite lookup_insert; rewrite E in Hm; injection Hm as -> ->; eauto|rewrite lookup_insert_ne by done; eauto].
  - rewrite lookup_insert_ne by congruence. eauto.
Qed.
(** Inodes may disappear, together with their attributes; names may be removed. *)
Definition shrinks (s s' : fs) : Prop := sub (names s') (names s) /\
  forall j, is_Some (inodes s' !! j) -> is_Some (inodes s !! j) /\ forall k, xattrs s' !! (j, k) = xattrs s !! (j, k).
Lemma shrinks_refl s : shrinks s s.
Proof. split; [apply sub_refl|done]. Qed.
Lemma shrinks_trans s s1 s2 : shrinks s s1 -> shrinks s1 s2 -> shrinks s s2.
Proof.
  intros [H1 H2] [H3 H4]. split; [by eapply sub_trans|]. intros j Hj. destruct (H4 _ Hj) as [Hj1 E1]. destruct (H2 _ Hj1) as [Hj2 E2].
  split; [done|]. intros k. by rewrite E1.
Qed.
Lemma shrinks_upd i f s : shrinks s (upd_inode i f s).
Proof. split; [apply sub_refl|]. intros j. cbn. rewrite lookup_alter_is_Some. done. Qed.

Section inv.
Context (max_obj_size : Z) (Hmax : 0 < max_obj_size) (exact : bool).
Local Notation consistent := (consistent max_obj_size exact).
Local Notation purge_inode := (purge_inode max_obj_size).
Local Notation forget1 := (forget1 max_obj_size).

(** [consistent] without the clause that unused inodes are open. *)
Record core (s : fs) : Prop := {
  k_links : link_counts_exact s;
  k_contents : forall p k i, contents s !! (p, k) = Some i ->
    (exists a, inodes s !! p = Some a /\ 0 < refcount a) /\ p <> CTRL /\ i <> CTRL /\ is_Some (inodes s !! i);
  k_xattrs : forall i k v, xattrs s !! (i, k) = Some v -> is_Some (inodes s !! i);
  k_symlinks : forall i t, symlinks s !! i = Some t -> is_Some (inodes s !! i);
  k_blocks : forall i b o, blocks s !! (i, b) = Some o -> exists a, inodes s !! i = Some a /\ Z.of_nat b * max_obj_size < size a;
  k_objects : objects_counted s;
  k_names : names_ok exact (names s) (uses s);
  k_opens : opens_ok s;
  k_seq : forall i a, inodes s !! i = Some a -> (i < seq s)%nat;
  k_root : is_Some (inodes s !! ROOT) /\ is_Some (inodes s !! CTRL)
}.
Definition held (s : fs) : Prop := forall i a, inodes s !! i = Some a -> refcount a = 0 -> is_Some (opens s !! i).
Definition held_but (x : nat) (s : fs) : Prop := forall i a, i <> x -> inodes s !! i = Some a -> refcount a = 0 -> is_Some (opens s !! i).
Lemma consistent_core s : consistent s <-> core s /\ held s.
Proof.
  split.
  - intros [H1 H2 (H3a & H3b & H3c & H3d) H4 H5 H6 H7 H8]. split; [|done].
    constructor; try done.
    + intros p k i Hi. by destruct (H2 _ _ _ Hi) as (_ & ?).
    + intros i k v Hi. by destruct (H3b _ _ _ Hi).
    + apply names_counted_ok; [done| |done]. intros i k v Hi. by destruct (H3b _ _ _ Hi).
  - intros [[H1 H2 H3 H3c H3d H4 H5 H6 H7 H8] Hh]. destruct (names_ok_counted _ _ H5) as (Hn & Hc & Hx). constructor; try done.
    + intros p k i Hi. split; [eauto|]. by apply (H2 _ _ _ Hi).
    + split; [done|]. split; [intros i k v Hi; split; eauto|]. done.
Qed.
Lemma held_held_but x s : held s -> held_but x s.
Proof. intros Hh i a _. apply Hh. Qed.

Lemma has_children_false s i : has_children s i = false <-> forall k j, contents s !! (i, k) <> Some j.
Proof.
  unfold has_children. rewrite bool_decide_eq_false. split.
  - intros H k j Hk. apply H. intros E. assert (filter (fun kv : nat * nat * nat => kv.1.1 = i) (contents s) !! (i, k) = Some j) as Hf by by apply map_filter_lookup_Some.
    rewrite E in Hf. by rewrite lookup_empty in Hf.
  - intros H Hne. apply Hne. apply map_eq. intros [i' k]. rewrite lookup_empty. apply map_filter_lookup_None. right. intros j Hj E. cbn in E. subst. by apply (H k j).
Qed.

(** ** Attributes other than link count and size *)
Definition mild (f : attr -> attr) : Prop := forall a, refcount (f a) = refcount a /\ size (f a) = size a.
Lemma core_mild i f s : mild f -> core s -> core (upd_inode i f s).
Proof.
  intros Hf [H1 H2 H3 H3c H3d H4 H5 H6 H7 H8].
  assert (forall j, is_Some (alter f i (inodes s) !! j) <-> is_Some (inodes s !! j)) as Hs by (intros; apply lookup_alter_is_Some).
  assert (forall j a, inodes s !! j = Some a -> exists a', alter f i (inodes s) !! j = Some a' /\ refcount a' = refcount a /\ size a' = size a) as Hup.
  { intros j a Hj. destruct (decide (i = j)) as [<-|Hne].
    - exists (f a). rewrite lookup_alter, Hj. cbn. split; [done|]. apply Hf.
    - exists a. by rewrite lookup_alter_ne. }
  assert (forall j a', alter f i (inodes s) !! j = Some a' -> exists a, inodes s !! j = Some a /\ refcount a' = refcount a /\ size a' = size a) as Hdown.
  { intros j a [(<- & a0 & Hj & ->)|[Hne Hj]]%lookup_alter_Some; [|by exists a]. exists a0. split; [done|]. apply Hf. }
  constructor; cbn; try done.
  - intros j a' (a & Hj & Hr & _)%Hdown. rewrite Hr. by apply H1.
  - intros p k j Hj. destruct (H2 _ _ _ Hj) as ((a & Hp & Hr) & ? & ? & ?). rewrite Hs. destruct (Hup _ _ Hp) as (a' & ? & ? & ?).
    split; [exists a'; split; [done|lia]|done].
  - intros j k v Hj. rewrite Hs. eauto.
  - intros j k Hj. rewrite Hs. eauto.
  - intros j b o Hj. destruct (H3d _ _ _ Hj) as (a & Ha & ?). destruct (Hup _ _ Ha) as (a' & ? & ? & ?). exists a'. split; [done|lia].
  - intros j c Hj. rewrite Hs. by apply H6.
  - intros j a' (a & Hj & _)%Hdown. eauto.
  - by rewrite !Hs.
Qed.
Lemma held_mild i f s : mild f -> held s -> held (upd_inode i f s).
Proof.
  intros Hf Hh j a'. cbn. intros [(<- & a & Hj & ->)|[Hne Hj]]%lookup_alter_Some; [|by apply Hh]. destruct (Hf a) as [-> _]. by apply Hh.
Qed.
Lemma held_but_mild x i f s : mild f -> held_but x s -> held_but x (upd_inode i f s).
Proof.
  intros Hf Hh j a' Hx. cbn. intros [(<- & a & Hj & ->)|[Hne Hj]]%lookup_alter_Some; [|by apply Hh]. destruct (Hf a) as [-> _]. by apply Hh.
Qed.
Lemma mild_ctime t : mild (set_ctime t). Proof. done. Qed.
Lemma mild_mctime t : mild (set_mctime t). Proof. done. Qed.
Lemma mild_atime t : mild (set_atime t). Proof. done. Qed.
Lemma mild_locked : mild set_locked. Proof. done. Qed.
Lemma core_touch i now s : core s -> core (touch i now s).
Proof. apply core_mild. intros a. by case_decide. Qed.
Lemma held_touch i now s : held s -> held (touch i now s).
Proof. apply held_mild. intros a. by case_decide. Qed.

(** ** References of the kernel *)
Lemma core_incr i s : is_Some (inodes s !! i) -> core s -> core (incr_open i s).
Proof.
  intros Hi [H1 H2 H3 H3c H3d H4 H5 H6 H7 H8]. constructor; cbn; try done.
  intros j c. cbn. destruct (decide (i = j)) as [<-|Hne].
  - rewrite lookup_insert. intros [= <-]. split; [|done]. destruct (opens s !! i) as [c|] eqn:E; cbn; [|lia]. destruct (H6 _ _ E). lia.
  - rewrite lookup_insert_ne by done. apply H6.
Qed.
Lemma opens_incr i j s : is_Some (opens s !! j) -> is_Some (opens (incr_open i s) !! j).
Proof. intros Hj. cbn. destruct (decide (i = j)) as [<-|]; [rewrite lookup_insert; eauto|by rewrite lookup_insert_ne]. Qed.
Lemma held_incr i s : held s -> held (incr_open i s).
Proof. intros Hh j a Hj Hr. apply opens_incr. by eapply Hh. Qed.

(** ** _purge_inode *)
Lemma purge_inodes i z s : inodes (purge_inode i z s) = delete i (inodes s).
Proof. done. Qed.
Lemma purge_symlinks i z s : symlinks (purge_inode i z s) = delete i (symlinks s).
Proof. done. Qed.
Lemma purge_xattrs i z s : xattrs (purge_inode i z s) = filter (fun kv => kv.1.1 <> i) (xattrs s).
Proof. done. Qed.
Lemma purge_core i a s : core s -> inodes s !! i = Some a -> refcount a = 0 -> opens s !! i = None ->
  core (purge_inode i (size a) s).
Proof.
  intros [H1 H2 H3 H3c H3d H4 H5 H6 H7 H8] Hi Hr Ho.
  assert (links s i = 0 /\ base_links i = 0) as [Hl Hb].
  { pose proof (H1 _ _ Hi) as E. pose proof (cnt_nonneg (fun kv : nat * nat * nat => kv.2 = i) (contents s)) as Hn. unfold links in *.
    assert (0 <= base_links i) by (unfold base_links; repeat case_decide; lia). lia. }
  assert (i <> ROOT /\ i <> CTRL) as [Hnr Hnc]. { unfold base_links in Hb. split; intros ->; vm_compute in Hb; done. }
  assert (forall j, j <> i -> delete i (inodes s) !! j = inodes s !! j) as Hd by (intros; by apply lookup_delete_ne).
  assert (forall p k j, contents s !! (p, k) = Some j -> p <> i /\ j <> i) as Hne.
  { intros p k j Hj. destruct (H2 _ _ _ Hj) as ((ap & Hp & Hrp) & _). split.
    - intros ->. rewrite Hi in Hp. injection Hp as <-. lia.
    - intros ->. assert (0 < links s i); [|lia]. by apply (cnt_pos _ _ _ _ Hj). }
  set (used := fun k => bool_decide (is_Some (xattrs s !! (i, k)))).
  assert (forall k, uses (purge_inode i (size a) s) k = uses s k - b2z (used k = true)) as Hu.
  { intros k. unfold uses. cbn. rewrite (cnt_split (fun kv : nat * nat * string => kv.1.2 = k) (fun kv => kv.1.1 = i) (xattrs s)).
    assert (cnt (fun kv : nat * nat * string => kv.1.2 = k) (filter (fun kv => kv.1.1 = i) (xattrs s)) = b2z (used k = true)) as ->; [|lia].
    unfold b2z. case_decide as Hk; unfold used in Hk; rewrite bool_decide_eq_true in Hk.
    - destruct Hk as [v Hv]. assert (filter (fun kv : nat * nat * string => kv.1.1 = i) (xattrs s) !! (i, k) = Some v) as Hv' by by apply map_filter_lookup_Some.
      rewrite <- (insert_delete _ _ _ Hv'). rewrite cnt_insert_new by apply lookup_delete. rewrite b2z_true by done.
      rewrite cnt_none; [done|]. intros [j k'] w [Hne' Hw]%lookup_delete_Some Ek. cbn in Ek. subst k'.
      apply map_filter_lookup_Some in Hw as [_ Ej]. cbn in Ej. congruence.
    - apply cnt_none. intros [j k'] w Hw Ek. cbn in Ek. subst k'. apply map_filter_lookup_Some in Hw as [Hw Ej]. cbn in Ej. subst j. eauto. }
  assert (forall k, used k = true -> 0 < uses s k) as Hupos.
  { intros k Hk. unfold used in Hk. rewrite bool_decide_eq_true in Hk. destruct Hk as [v Hv]. unfold uses.
    pose proof (cnt_pos (fun kv : nat * nat * string => kv.1.2 = k) _ _ _ Hv eq_refl).
    pose proof (cnt_nonneg (fun kv : nat * nat * nat => kv.1.2 = k) (contents s)). lia. }
  constructor.
  - intros j b Hx. rewrite purge_inodes in Hx. apply lookup_delete_Some in Hx as [Hj Hjb]. by apply H1.
  - intros p k j Hj. change (contents (purge_inode i (size a) s)) with (contents s) in Hj. rewrite purge_inodes.
    destruct (Hne _ _ _ Hj) as [Hp Hji]. rewrite !Hd by done. by apply (H2 _ _ _ Hj).
  - intros j k v Hx. rewrite purge_xattrs in Hx. apply map_filter_lookup_Some in Hx as [Hj Hji]. cbn in Hji. rewrite purge_inodes, Hd by done. by eapply H3.
  - intros j t Hx. rewrite purge_symlinks in Hx. apply lookup_delete_Some in Hx as [Hji Hj]. rewrite purge_inodes, Hd by done. by eapply H3c.
  - intros j b o Hb'. change (blocks (purge_inode i (size a) s)) with (blocks (remove_blocks i 0 (ceil_blocks max_obj_size (size a)) s)) in Hb'.
    apply remove_blocks_lookup in Hb' as [Hb' Hx]. destruct (H3d _ _ _ Hb') as (a' & Ha' & Hlt).
    rewrite purge_inodes. destruct (decide (j = i)) as [->|Hji]; [|rewrite Hd by done; eauto].
    exfalso. apply Hx. split; [done|]. split; [lia|]. rewrite Hi in Ha'. injection Ha' as <-. by apply below_ceil.
  - apply (objects_remove i 0 (ceil_blocks max_obj_size (size a))) in H4. exact H4.
  - destruct H5 as (N1 & N2 & N3 & N4). remember (names (purge_inode i (size a) s)) as m eqn:Em.
    assert (forall n k rc, m !! n = Some (k, rc) <-> exists rc0, names s !! n = Some (k, rc0) /\ rc = rc0 - b2z (used k = true) /\ 0 < rc) as Hm.
    { intros n k rc. subst m. unfold FsModel.purge_inode. cbn [names set_inodes set_symlinks set_xattrs set_names]. rewrite map_filter_lookup_Some, lookup_fmap. cbn. split.
      - intros [Hf Hnz]. destruct (names s !! n) as [[k0 rc0]|] eqn:En; [|done]. cbn in Hf. injection Hf as -> <-.
        exists rc0. split; [done|]. destruct (N2 _ _ _ En) as (_ & ? & _). unfold b2z. cbn in Hnz. fold (used k) in *.
        destruct (used k); cbn in *; [rewrite decide_True by done|rewrite decide_False by done]; (split; [lia|]); lia.
      - intros (rc0 & En & -> & Hp). rewrite En. cbn. fold (used k) in *. unfold b2z in *. destruct (used k); cbn in *.
        + rewrite decide_True in * by done. split; [done|]. lia.
        + rewrite decide_False in * by done. rewrite Z.sub_0_r. split; [done|]. intros [? ?]. done. }
    clear Em.
    split; [|split; [|split]].
    + intros n n' k rc rc' (r1 & E1 & _)%Hm (r2 & E2 & _)%Hm. eauto.
    + intros n k rc (r0 & E0 & -> & Hp)%Hm. rewrite Hu. destruct (N2 _ _ _ E0) as (? & ? & ? & He). split; [done|]. split; [done|]. split; [lia|].
      intros E. rewrite (He E). done.
    + intros k. rewrite Hu. specialize (N3 k). unfold b2z. case_decide as Hk; [|lia]. specialize (Hupos _ Hk). lia.
    + intros k Hk. rewrite Hu in Hk. destruct (N4 k) as (n & rc & En); [pose proof (b2z_pos (used k = true)); lia|].
      exists n, (rc - b2z (used k = true)). apply Hm. exists rc. destruct (N2 _ _ _ En) as (_ & _ & Hle & _). split; [done|]. split; [done|]. lia.
  - intros j c Hj. change (opens (purge_inode i (size a) s)) with (opens s) in Hj. destruct (H6 _ _ Hj) as [? ?]. split; [done|].
    rewrite purge_inodes, Hd; [done|]. intros ->. congruence.
  - intros j b Hx. rewrite purge_inodes in Hx. apply lookup_delete_Some in Hx as [Hj Hjb]. eapply H7; eauto.
  - rewrite purge_inodes, !Hd by done. done.
Qed.
Lemma purge_held i z s : held_but i s -> held (purge_inode i z s).
Proof. intros Hh j a Hx Hr. rewrite purge_inodes in Hx. apply lookup_delete_Some in Hx as [Hj Hja]. by apply (Hh j a). Qed.

Lemma purge_shrinks i z s : shrinks s (purge_inode i z s).
Proof.
  split.
  - intros n k rc. unfold FsModel.purge_inode. cbn [names set_inodes set_symlinks set_xattrs set_names].
    rewrite map_filter_lookup_Some, lookup_fmap. intros [Hf _]. cbn in Hf. destruct (names s !! n) as [[k0 rc0]|]; [|done]. cbn in Hf. injection Hf as -> _. eauto.
  - intros j. rewrite purge_inodes, purge_xattrs. intros [a [Hne Ha]%lookup_delete_Some]. split; [eauto|]. intros k.
    apply option_eq. intros v. rewrite map_filter_lookup_Some. cbn. naive_solver.
Qed.

Lemma forget1_ok i n c s s' r : consistent s -> opens s !! i = Some c -> 0 < n <= c -> forget1 i n s = (s', r) ->
  r = Done /\ consistent s' /\ shrinks s s' /\ contents s' = contents s /\ (forall j, j <> i -> opens s' !! j = opens s !! j) /\
  opens s' !! i = (if decide (c = n) then None else Some (c - n)).
Proof.
  rewrite !consistent_core. intros [Hc Hh] Ho Hn Hf. cut (r = Done /\ (core s' /\ held s') /\ shrinks s s' /\ contents s' = contents s /\ opens s' = (if decide (c = n) then delete i (opens s) else <[i := c - n]> (opens s))).
  { intros (? & ? & ? & ? & ->). split; [done|]. split; [done|]. split; [done|]. split; [done|]. case_decide.
    - split; [intros; by apply lookup_delete_ne|apply lookup_delete].
    - split; [intros; by apply lookup_insert_ne|apply lookup_insert]. }
  revert Hf. unfold FsModel.forget1. rewrite Ho. cbn. destruct (decide (c - n = 0)) as [E|E].
  - destruct (k_opens _ Hc _ _ Ho) as [_ [a Ha]]. rewrite Ha.
    assert (core (set_opens (delete i (opens s)) s)) as Hc'.
    { destruct Hc as [H1 H2 H3 H3c H3d H4 H5 H6 H7 H8]. constructor; cbn; try done. intros j d. cbn. intros [_ Hj]%lookup_delete_Some. by apply H6. }
    rewrite (decide_True (P := c = n)) by lia.
    case_decide as Hr; intros [= <- <-].
    + split; [done|]. split; [split|].
      * apply purge_core; [done|done|done|]. apply lookup_delete.
      * apply purge_held. intros j b Hji Hj Hrj. cbn in Hj |- *. rewrite lookup_delete_ne by done. by eapply Hh.
      * split; [|done]. eapply shrinks_trans; [|apply purge_shrinks]. split; [apply sub_refl|done].
    + split; [done|]. split; [|split; [split; [apply sub_refl|done]|done]]. split; [done|]. intros j b Hj Hrj. cbn in Hj |- *. rewrite lookup_delete_ne; [by eapply Hh|]. intros ->. congruence.
  - rewrite (decide_False (P := c = n)) by lia. intros [= <- <-]. split; [done|]. split; [|split; [split; [apply sub_refl|done]|done]]. split.
    + destruct Hc as [H1 H2 H3 H3c H3d H4 H5 H6 H7 H8]. constructor; cbn; try done. intros j d. cbn.
      destruct (decide (i = j)) as [<-|Hne]; [rewrite lookup_insert; intros [= <-]; split; [lia|]; by apply (H6 _ _ Ho)|]. rewrite lookup_insert_ne by done. apply H6.
    + intros j b Hj Hrj. cbn. destruct (decide (i = j)) as [<-|]; [rewrite lookup_insert; eauto|]. rewrite lookup_insert_ne by done. by eapply Hh.
Qed.

(** ** Removing an entry *)
Definition decr (now : Z) (a : attr) : attr := set_ctime now (set_refcount Z.pred a).
Lemma entry_inv s p n i : entry s p n = Some i -> exists k rc, names s !! n = Some (k, rc) /\ contents s !! (p, k) = Some i.
Proof. unfold entry. destruct (names s !! n) as [[k rc]|]; [|done]. intros. by exists k, rc. Qed.
Lemma uses_entry s p k i : contents s !! (p, k) = Some i -> 0 < uses s k.
Proof.
  intros Hi. unfold uses. pose proof (cnt_pos (fun kv : nat * nat * nat => kv.1.2 = k) _ _ _ Hi eq_refl).
  pose proof (cnt_nonneg (fun kv : nat * nat * string => kv.1.2 = k) (xattrs s)). lia.
Qed.
Lemma core_decr s nm cs j now :
  core s -> (exists a, inodes s !! j = Some a) -> has_children s j = false ->
  (forall i, cnt (fun kv => kv.2 = i) cs = links s i - b2z (i = j)) ->
  (forall p k i, cs !! (p, k) = Some i -> (exists k' i', contents s !! (p, k') = Some i') /\ exists p' k', contents s !! (p', k') = Some i) ->
  names_ok exact nm (fun k => cnt (fun kv => kv.1.2 = k) cs + cnt (fun kv => kv.1.2 = k) (xattrs s)) ->
  core (upd_inode j (decr now) (set_contents cs (set_names nm s))).
Proof.
  intros [H1 H2 H3 H3c H3d H4 H5 H6 H7 H8] [a Ha] Hch Hl Hin Hn. rewrite has_children_false in Hch.
  assert (forall x, is_Some (alter (decr now) j (inodes s) !! x) <-> is_Some (inodes s !! x)) as Hs by (intros; apply lookup_alter_is_Some).
  constructor; cbn [upd_inode set_inodes set_contents set_names inodes contents names xattrs symlinks blocks objects opens seq]; try done.
  - intros x b. unfold links. cbn. rewrite Hl. intros [(<- & b0 & Hb & ->)|[Hne Hb]]%lookup_alter_Some.
    + cbn. rewrite b2z_true by done. rewrite (H1 _ _ Hb). lia.
    + rewrite b2z_false by done. rewrite (H1 _ _ Hb). lia.
  - intros p k i Hi. destruct (Hin _ _ _ Hi) as [(k' & i' & E1) (p' & k'' & E2)]. destruct (H2 _ _ _ E1) as ((ap & Hp & Hrp) & ? & _).
    destruct (H2 _ _ _ E2) as (_ & _ & ? & ?). rewrite Hs. split; [|done]. exists ap. rewrite lookup_alter_ne; [done|]. intros ->. by apply Hch in E1.
  - intros x k v Hx. rewrite Hs. eauto.
  - intros x k Hx. rewrite Hs. eauto.
  - intros x b o Hx. destruct (H3d _ _ _ Hx) as (b' & Hb' & Hlt). destruct (decide (j = x)) as [<-|Hne].
    + exists (decr now b'). rewrite lookup_alter, Hb'. done.
    + exists b'. by rewrite lookup_alter_ne.
  - intros x c Hx. cbn in *. rewrite Hs. by apply H6.
  - intros x b. intros [(<- & b0 & Hb & ->)|[Hne Hb]]%lookup_alter_Some; eauto.
  - by rewrite !Hs.
Qed.
Lemma held_decr s nm cs j now : held s -> held_but j (upd_inode j (decr now) (set_contents cs (set_names nm s))).
Proof. intros Hh x a Hx. cbn. rewrite lookup_alter_ne by done. apply Hh. Qed.

(** _remove, for an entry that exists. *)
Lemma remove_ok p n i force now s s' r : consistent s -> entry s p n = Some i -> remove max_obj_size p n i force now s = (s', r) ->
  (exists e, r = Err e /\ s' = s) \/
  (r = Done /\ consistent s' /\ opens s' = opens s /\ (is_Some (opens s !! i) -> is_Some (inodes s' !! i)) /\ shrinks s s' /\
   exists k rc, names s !! n = Some (k, rc) /\ contents s' = delete (p, k) (contents s)).
Proof.
  rewrite !consistent_core. intros [Hc Hh] He. unfold remove. destruct (has_children s i) eqn:Hch; [intros [= <- <-]; left; eauto|].
  destruct (entry_inv _ _ _ _ He) as (k & rc & Hn & Hk). destruct (k_contents _ Hc _ _ _ Hk) as ((ap & Hp & Hrp) & Hpc & Hic & [a Ha]).
  rewrite Hp. destruct (locked ap && negb force); [intros [= <- <-]; left; eauto|].
  destruct (del_name n s) as [[s1 k1]|] eqn:Hd; [|unfold del_name in Hd; by rewrite Hn in Hd].
  assert (k1 = k) as -> by (unfold del_name in Hd; rewrite Hn in Hd; by injection Hd).
  destruct (del_name_ok exact n s s1 k (uses s) (k_names _ Hc) Hd (uses_entry _ _ _ _ Hk)) as (Hnm & Hs1 & _).
  set (nm := names s1) in *. rewrite Hs1. cbn [contents set_names inodes set_contents]. rewrite Ha.
  set (s2 := upd_inode i _ _).
  assert (core s2) as Hc2.
  { apply core_decr; [done|eauto|done| | |].
    - intros j. rewrite (cnt_delete _ _ _ _ Hk). cbn. unfold links. f_equal. unfold b2z. by repeat case_decide.
    - intros p' k' i' [_ Hx]%lookup_delete_Some. split; [by exists k', i'|by exists p', k'].
    - eapply names_ok_ext; [exact Hnm|]. intros k'. cbn. rewrite (cnt_delete _ _ _ _ Hk). unfold uses. cbn. unfold b2z. repeat case_decide; try congruence; lia. }
  assert (held_but i s2) as Hh2 by by apply held_decr.
  assert (inodes s2 !! i = Some (decr now a)) as Hi2. { cbn. by rewrite lookup_alter, Ha. }
  assert (opens s2 = opens s) as Ho2 by done.
  assert (shrinks s s2) as Hsh2.
  { eapply shrinks_trans; [|apply shrinks_upd]. split; [|done]. by apply (del_name_sub n s s1 k). }
  assert (contents s2 = delete (p, k) (contents s)) as Hct2 by done. clearbody s2.
  intros Hr. right. set (s3 := upd_inode p (set_mctime now) s2) in *.
  assert (core s3) as Hc3 by by apply core_mild. assert (held_but i s3) as Hh3 by by apply held_but_mild.
  assert (exists a3, inodes s3 !! i = Some a3 /\ refcount a3 = refcount a - 1 /\ size a3 = size a) as (a3 & Hi3 & Hr3 & Hz3).
  { subst s3. cbn. destruct (decide (p = i)) as [->|]; [rewrite lookup_alter, Hi2|rewrite lookup_alter_ne, Hi2 by done]; by eexists. }
  assert (opens s3 = opens s) as Ho3 by done.
  assert (shrinks s s3) as Hsh3 by (eapply shrinks_trans; [exact Hsh2|apply shrinks_upd]).
  assert (contents s3 = delete (p, k) (contents s)) as Hct3 by done. clearbody s3.
  case_decide as Hd3.
  - injection Hr as <- <-. destruct Hd3 as [Hz Ho]. split; [done|]. split.
    + rewrite <- Hz3. split; [apply purge_core; try done; lia|by apply purge_held].
    + split; [done|]. split; [rewrite <- Ho3, Ho; by intros [? ?]|]. split; [eapply shrinks_trans; [done|apply purge_shrinks]|]. by exists k, rc.
  - injection Hr as <- <-. split; [done|]. split; [|split; [done|]; split; [by eauto|]; split; [done|]; by exists k, rc]. split; [done|]. intros j b Hj Hrj. destruct (decide (j = i)) as [->|Hne]; [|by apply (Hh3 j b)].
    rewrite Hi3 in Hj. injection Hj as <-. destruct (opens s3 !! i) eqn:E; [eauto|]. exfalso. apply Hd3. split; [lia|done].
Qed.

(** ** Adding an entry *)
Definition incr (now : Z) (a : attr) : attr := set_ctime now (set_refcount Z.succ a).
Lemma core_link s nm p k i f a : core s -> contents s !! (p, k) = None -> p <> CTRL -> i <> CTRL ->
  (exists ap, inodes s !! p = Some ap /\ 0 < refcount ap) -> inodes s !! i = Some a ->
  refcount (f a) = refcount a + 1 -> size (f a) = size a ->
  names_ok exact nm (fun k' => uses s k' + b2z (k' = k)) ->
  core (upd_inode i f (set_contents (<[(p, k) := i]> (contents s)) (set_names nm s))).
Proof.
  intros [H1 H2 H3 H3c H3d H4 H5 H6 H7 H8] Hk Hpc Hic (ap & Hp & Hrp) Ha Hf Hz Hn.
  assert (forall x, is_Some (alter f i (inodes s) !! x) <-> is_Some (inodes s !! x)) as Hs by (intros; apply lookup_alter_is_Some).
  assert (0 <= refcount a) as Hpos.
  { rewrite (H1 _ _ Ha). unfold links. pose proof (cnt_nonneg (fun kv : nat * nat * nat => kv.2 = i) (contents s)). unfold base_links. repeat case_decide; lia. }
  assert (forall x b, inodes s !! x = Some b -> 0 < refcount b -> exists b', alter f i (inodes s) !! x = Some b' /\ 0 < refcount b') as Hup.
  { intros x b Hx Hb. destruct (decide (i = x)) as [<-|]; [|exists b; by rewrite lookup_alter_ne]. exists (f b). rewrite lookup_alter, Hx. split; [done|].
    rewrite Ha in Hx. injection Hx as <-. lia. }
  constructor; cbn [upd_inode set_inodes set_contents set_names inodes contents names xattrs symlinks blocks objects opens seq]; try done.
  - intros x b. unfold links. cbn. rewrite cnt_insert_new by done. cbn. intros [(<- & b0 & Hb & ->)|[Hne Hb]]%lookup_alter_Some.
    + rewrite b2z_true by done. rewrite Ha in Hb. injection Hb as <-. rewrite Hf, (H1 _ _ Ha). unfold links. lia.
    + rewrite b2z_false by done. rewrite (H1 _ _ Hb). unfold links. lia.
  - intros p' k' i'. rewrite lookup_insert_Some, Hs. intros [[[= <- <-] <-]|[_ Hi]].
    + split; [eauto|]. split; [done|]. split; [done|]. rewrite Ha. eauto.
    + destruct (H2 _ _ _ Hi) as ((ap' & Hp' & Hrp') & ? & ? & ?). split; [eauto|done].
  - intros x k' v Hx. rewrite Hs. eauto.
  - intros x k' Hx. rewrite Hs. eauto.
  - intros x b o Hx. destruct (H3d _ _ _ Hx) as (b' & Hb' & Hlt). destruct (decide (i = x)) as [<-|Hne].
    + exists (f b'). rewrite lookup_alter, Hb'. rewrite Ha in Hb'. injection Hb' as <-. rewrite Hz. done.
    + exists b'. by rewrite lookup_alter_ne.
  - eapply names_ok_ext; [exact Hn|]. intros k'. unfold uses. cbn. rewrite cnt_insert_new by done. cbn. unfold b2z. repeat case_decide; try congruence; lia.
  - intros x c Hx. cbn in *. rewrite Hs. by apply H6.
  - intros x b. intros [(<- & b0 & Hb & ->)|[Hne Hb]]%lookup_alter_Some; eauto.
  - by rewrite !Hs.
Qed.

(** A new inode that is in no directory yet: all of [core] and, except for it, [held]. *)
Lemma core_new s a : core s -> refcount a = 0 -> core (set_seq (S (seq s)) (set_inodes (<[seq s := a]> (inodes s)) s)).
Proof.
  intros [H1 H2 H3 H3c H3d H4 H5 H6 H7 H8] Hr.
  assert (inodes s !! seq s = None) as Hnone. { destruct (inodes s !! seq s) eqn:E; [|done]. apply H7 in E. lia. }
  assert (forall x b, inodes s !! x = Some b -> <[seq s := a]> (inodes s) !! x = Some b) as Hup by (intros; apply lookup_insert_Some; right; split; [congruence|done]).
  assert (forall x, is_Some (inodes s !! x) -> is_Some (<[seq s := a]> (inodes s) !! x)) as Hs by (intros x [b Hb]; eauto).
  constructor; cbn [set_seq set_inodes set_contents set_names inodes contents names xattrs symlinks blocks objects opens seq]; try done.
  - intros x b. cbn. intros [[<- <-]|[Hne Hb]]%lookup_insert_Some; [|by apply H1]. rewrite Hr.
    assert (seq s <> ROOT /\ seq s <> CTRL) as [? ?]. { destruct H8 as [[? ?] [? ?]]. split; intros E; rewrite E in *; congruence. }
    unfold base_links. rewrite !decide_False by done. unfold links. cbn. rewrite cnt_none; [done|]. intros [p k] i Hi. cbn. intros ->.
    destruct (H2 _ _ _ Hi) as (_ & _ & _ & [? ?]). congruence.
  - intros p k i Hi. destruct (H2 _ _ _ Hi) as ((ap & Hp & ?) & ? & ? & ?). split; [eauto|auto].
  - intros; eauto.
  - intros; eauto.
  - intros x b o Hx. destruct (H3d _ _ _ Hx) as (b' & ? & ?). eauto.
  - intros x c Hx. destruct (H6 _ _ Hx). auto.
  - intros x b [[<- <-]|[Hne Hb]]%lookup_insert_Some; [lia|]. apply H7 in Hb. lia.
  - destruct H8. auto.
Qed.

(** A fresh name or one that is not in the directory. *)
Lemma no_entry s p n k rc s1 : core s -> entry s p n = None -> add_name n s = (s1, k) -> names s1 !! n = Some (k, rc) -> contents s !! (p, k) = None.
Proof.
  intros Hc He Ha Hn. destruct (names s !! n) as [[k0 rc0]|] eqn:E.
  - unfold add_name in Ha. rewrite E in Ha. injection Ha as <- <-. unfold entry in He. by rewrite E in He.
  - unfold add_name in Ha. rewrite E in Ha. injection Ha as <- <-. destruct (contents s !! (p, _)) as [i|] eqn:Ei; [|done].
    apply uses_entry in Ei. destruct (k_names _ Hc) as (_ & _ & _ & N4). destruct (N4 _ Ei) as (n' & rc' & E'). apply max_id_le in E'. lia.
Qed.

(** _create *)
Lemma create_ok p n m c rd sz now s s' x : consistent s -> p <> CTRL -> create_ p n m c rd sz now s = (s', x) ->
  match x with
  | inl (Err e) => s' = s
  | inr i => consistent s' /\ opens s' = opens s /\ i = seq s /\ inodes s !! i = None /\ failsafe s' = failsafe s /\
     (exists a, inodes s' !! i = Some a /\ size a = sz /\ refcount a = 1) /\ sub (names s) (names s') /\ xattrs s' = xattrs s /\
     (forall j, j <> i -> is_Some (inodes s' !! j) -> is_Some (inodes s !! j)) /\
     exists k rc, names s' !! n = Some (k, rc) /\ contents s !! (p, k) = None /\ contents s' = <[(p, k) := i]> (contents s)
  | inl Crash => True
  | _ => False
  end.
Proof.
  rewrite consistent_core. intros [Hc Hh] Hpc. unfold create_. case_decide; [intros [= <- <-]; done|].
  destruct (inodes s !! p) as [ap|] eqn:Hp; [|intros [= <- <-]; done]. destruct (locked ap); [intros [= <- <-]; done|].
  case_decide as Hrp; [intros [= <- <-]; done|].
  set (g := if negb _ then gid ap else c_gid c). set (m' := if _ && _ then _ else m).
  set (s1 := upd_inode p (set_mctime now) s). set (a := Attr m' (c_uid c) g sz rd now now now 1 false).
  assert (core s1) as Hc1 by by apply core_mild. assert (held s1) as Hh1 by by apply held_mild.
  assert (seq s1 = seq s) as Hseq by done. cbn zeta. rewrite Hseq.
  set (s2 := set_seq (S (seq s)) (set_inodes (<[seq s := a]> (inodes s1)) s1)).
  destruct (add_name n s2) as [s3 k] eqn:Han.
  set (a0 := set_refcount (fun _ => 0) a).
  assert (core (set_seq (S (seq s1)) (set_inodes (<[seq s1 := a0]> (inodes s1)) s1))) as Hc0 by by apply core_new.
  rewrite Hseq in Hc0. set (s0 := set_seq (S (seq s)) (set_inodes (<[seq s := a0]> (inodes s1)) s1)) in *.
  assert (names s2 = names s0) as En by done.
  destruct (add_name_ok exact n s2 s3 k (uses s0)) as (Hnm & rc & Hn3 & Hs3 & Hk3); [rewrite En; apply (k_names _ Hc0)|done|].
  assert (inodes s1 !! seq s = None) as Hnone. { destruct (inodes s1 !! seq s) eqn:E; [|done]. apply (k_seq _ Hc1) in E. rewrite Hseq in E. lia. }
  assert (contents s3 = contents s0) as Ec by (by rewrite Hs3).
  rewrite Ec. destruct (contents s0 !! (p, k)) eqn:Ek; [intros [= <- <-]; done|]. intros [= <- <-].
  set (f := fun b : attr => set_refcount Z.succ b).
  assert (set_contents (<[(p, k) := seq s]> (contents s0)) s3 = upd_inode (seq s) f (set_contents (<[(p, k) := seq s]> (contents s0)) (set_names (names s3) s0))) as Heq.
  { rewrite Hs3. unfold upd_inode, set_contents, set_names, set_inodes. cbn. f_equal. rewrite alter_insert. done. }
  assert (forall p' ap', inodes s !! p' = Some ap' -> 0 <= refcount ap') as Hnn.
  { intros p' ap' Hp'. rewrite (k_links _ Hc _ _ Hp'). unfold links. pose proof (cnt_nonneg (fun kv : nat * nat * nat => kv.2 = p') (contents s)). unfold base_links. repeat case_decide; lia. }
  assert (seq s <> CTRL) as Hsc. { intros E. destruct (k_root _ Hc) as [_ [b Hb]]. apply (k_seq _ Hc) in Hb. lia. }
  assert (p <> seq s) as Hps. { intros ->. apply (k_seq _ Hc) in Hp. lia. }
  split; [rewrite consistent_core; split|].
  - change (contents s) with (contents s0). rewrite Heq. eapply (core_link s0 _ p k (seq s) f a0); try done.
    + exists (set_mctime now ap). cbn. rewrite lookup_insert_ne, lookup_alter, Hp by done. split; [done|]. cbn. specialize (Hnn _ _ Hp). lia.
    + cbn. by rewrite lookup_insert.
  - intros j b. rewrite Hs3. cbn. intros [[<- <-]|[Hne Hb]]%lookup_insert_Some; [done|]. by apply Hh1.
  - split; [by rewrite Hs3|]. split; [done|]. split.
    { destruct (inodes s !! seq s) eqn:E; [|done]. apply (k_seq _ Hc) in E. lia. }
    split; [by rewrite Hs3|]. split; [exists a; rewrite Hs3; cbn; by rewrite lookup_insert|].
    split; [by apply (add_name_sub n s2 s3 k)|]. split; [by rewrite Hs3|].
    split; [|by exists k, rc]. intros j Hj. rewrite Hs3. cbn. rewrite lookup_insert_ne by done. by rewrite lookup_alter_is_Some.
Qed.
Lemma consistent_incr i s : is_Some (inodes s !! i) -> consistent s -> consistent (incr_open i s).
Proof. rewrite !consistent_core. intros Hi [Hc Hh]. split; [by apply core_incr|by apply held_incr]. Qed.
Lemma consistent_mild i f s : mild f -> consistent s -> consistent (upd_inode i f s).
Proof. rewrite !consistent_core. intros Hf [Hc Hh]. split; [by apply core_mild|by apply held_mild]. Qed.
Lemma consistent_failsafe b s : consistent s -> consistent (set_failsafe b s).
Proof. intros [H1 H2 H3 H4 H5 H6 H7 H8]. by constructor. Qed.
Lemma consistent_symlink i t s : is_Some (inodes s !! i) -> consistent s -> consistent (set_symlinks (<[i := t]> (symlinks s)) s).
Proof.
  rewrite !consistent_core. intros Hi [[H1 H2 H3 H3c H3d H4 H5 H6 H7 H8] Hh]. split; [|done]. constructor; try done.
  intros j t'. cbn. intros [[<- _]|[_ Hj]]%lookup_insert_Some; eauto.
Qed.

(** ** File contents *)
Lemma consistent_resize i f s a : consistent s -> inodes s !! i = Some a -> refcount (f a) = refcount a ->
  (forall b o, blocks s !! (i, b) = Some o -> Z.of_nat b * max_obj_size < size (f a)) -> consistent (upd_inode i f s).
Proof.
  rewrite !consistent_core. intros [[H1 H2 H3 H3c H3d H4 H5 H6 H7 H8] Hh] Hi Hf Hb.
  assert (forall j, is_Some (alter f i (inodes s) !! j) <-> is_Some (inodes s !! j)) as Hs by (intros; apply lookup_alter_is_Some).
  assert (forall j b, alter f i (inodes s) !! j = Some b -> exists b0, inodes s !! j = Some b0 /\ refcount b = refcount b0) as Hdown.
  { intros j b [(<- & b0 & Hj & ->)|[Hne Hj]]%lookup_alter_Some; [|by exists b]. exists b0. split; [done|]. rewrite Hi in Hj. by injection Hj as <-. }
  assert (forall j b, inodes s !! j = Some b -> exists b', alter f i (inodes s) !! j = Some b' /\ refcount b' = refcount b) as Hup.
  { intros j b Hj. destruct (decide (i = j)) as [<-|Hne].
    - exists (f b). rewrite lookup_alter, Hj. split; [done|]. rewrite Hi in Hj. by injection Hj as <-.
    - exists b. by rewrite lookup_alter_ne. }
  split.
  - constructor; cbn; try done.
    + intros j a' (a0 & Hj & Hr)%Hdown. rewrite Hr. by apply H1.
    + intros p k j Hj. destruct (H2 _ _ _ Hj) as ((a0 & Hp & Hr) & ? & ? & ?). rewrite Hs. destruct (Hup _ _ Hp) as (a' & ? & ?). split; [exists a'; split; [done|lia]|done].
    + intros j k v Hj. rewrite Hs. eauto.
    + intros j k Hj. rewrite Hs. eauto.
    + intros j b o Hj. destruct (decide (i = j)) as [<-|Hne].
      * exists (f a). rewrite lookup_alter, Hi. split; [done|]. eauto.
      * rewrite lookup_alter_ne by done. eauto.
    + intros j c Hj. rewrite Hs. by apply H6.
    + intros j a' (a0 & Hj & _)%Hdown. eauto.
    + by rewrite !Hs.
  - intros j b (b0 & Hj & Hr)%Hdown Hb0. eapply Hh; [done|]. congruence.
Qed.
Lemma consistent_remove_blocks i x y s : consistent s -> consistent (remove_blocks i x y s).
Proof.
  rewrite !consistent_core. intros [[H1 H2 H3 H3c H3d H4 H5 H6 H7 H8] Hh]. split; [|done]. constructor; try done.
  - intros j b o [Hb _]%remove_blocks_lookup. eauto.
  - by apply objects_remove.
Qed.
Lemma consistent_put i b o s a : consistent s -> inodes s !! i = Some a -> Z.of_nat b * max_obj_size < size a -> consistent (put_block i b o s).
Proof.
  rewrite !consistent_core. intros [[H1 H2 H3 H3c H3d H4 H5 H6 H7 H8] Hh] Hi Hlt. split; [|done]. constructor; try done.
  - intros j c o' [(-> & -> & ->)|[Hb _]]%put_block_lookup; [|eauto]. exists a. done.
  - by apply objects_put.
Qed.
End inv.
