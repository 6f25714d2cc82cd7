(** The beginning and the end of copy_tree. *)
From stdpp Require Import prelude gmap strings sorting.
From Coq Require Import ZArith String.
From Verif Require Import FsModel FsSpec FsLemmas FsInv FsTreeModel FsTree CopyModel CopySpec CopyProofs.
Local Close Scope string_scope.
Local Open Scope Z_scope.

Lemma entry_ids s s' p n : (forall n, fst <$> names s' !! n = fst <$> names s !! n) -> entry s' p n = match names s !! n with Some (k, _) => contents s' !! (p, k) | None => None end.
Proof. intros H. specialize (H n). unfold entry. destruct (names s' !! n) as [[k rc]|], (names s !! n) as [[k' rc']|]; cbn in H; by simplify_eq. Qed.
Lemma xattr_ids s s' p n : (forall n, fst <$> names s' !! n = fst <$> names s !! n) -> xattr s' p n = match names s !! n with Some (k, _) => xattrs s' !! (p, k) | None => None end.
Proof. intros H. specialize (H n). unfold xattr. destruct (names s' !! n) as [[k rc]|], (names s !! n) as [[k' rc']|]; cbn in H; by simplify_eq. Qed.
Lemma cnt_filter `{Countable K} {A} (P Q : K * A -> Prop) `{!forall x, Decision (P x), !forall x, Decision (Q x)} (m : gmap K A) :
  cnt P m = cnt P (filter Q m) + cnt P (filter (fun x => ~ Q x) m).
Proof. apply cnt_split. Qed.
(** Moving rows does not change the number of rows of a kind *)
Lemma cnt_move {A} (i j : nat) (m : gmap (nat * nat) A) (P : nat * nat * A -> Prop) `{!forall x, Decision (P x)} : i <> j -> (forall k, is_Some (m !! (i, k)) -> m !! (j, k) = None) ->
  (forall k v, P ((i, k), v) <-> P ((j, k), v)) -> cnt P (filter (fun x => x.1.1 <> i) (dup i j m)) = cnt P m.
Proof.
  intros N Hd HP. pose proof (dup_cnt i j m P Hd) as E. rewrite (cnt_filter P (fun x => x.1.1 = i) (dup i j m)) in E.
  assert (cnt P (filter (fun x => x.1.1 = i) (dup i j m)) = cnt (fun kv => kv.1.1 = i /\ P ((j, kv.1.2), kv.2)) m) as E2; [|lia].
  assert (filter (fun x => x.1.1 = i) (dup i j m) = filter (fun x => x.1.1 = i) m) as ->.
  { apply map_eq. intros [x k]. apply option_eq. intros v. rewrite !map_filter_lookup_Some, dup_lookup. cbn. split; intros [E1 ->]; (split; [|done]); by rewrite decide_False in * by done. }
  unfold cnt. f_equal. f_equal. apply map_eq. intros [x k]. apply option_eq. intros v. rewrite !map_filter_lookup_Some. cbn. split.
  - intros [[? ->] ?]. split; [done|]. split; [done|]. by apply HP.
  - intros (? & -> & ?). split; [done|]. by apply HP.
Qed.

Section copy_end.
Context (max_obj_size : Z) (Hmax : 0 < max_obj_size) (exact : bool).
Context (s0 : fs) (Hc0 : consistent max_obj_size exact s0) (Hac : acyclic s0) (src : nat) (Hsrc : is_Some (inodes s0 !! src)).
Local Notation cp := (cp exact s0 src).

Lemma cp_start now c tmp : make_tmp now s0 = (c, tmp) -> cp tmp c {[tmp := src]} ∅ [(src, tmp, -1)].
Proof.
  intros [= <- <-]. assert (inodes s0 !! seq s0 = None) as Hn. { destruct (inodes s0 !! seq s0) eqn:E; [|done]. apply (c_seq _ _ _ Hc0) in E. lia. }
  assert (forall k, contents s0 !! (seq s0, k) = None) as Hr. { intros k. destruct (contents s0 !! (seq s0, k)) eqn:E; [|done]. apply (row_old max_obj_size exact _ Hc0) in E as [[? ?] _]. congruence. }
  assert (links s0 (seq s0) = 0) as Hl. { apply cnt_none. intros [q k] j E. cbn. intros ->. apply (row_old max_obj_size exact _ Hc0) in E as [_ [? ?]]. congruence. }
  apply (consistent_core max_obj_size exact) in Hc0 as [K _].
  constructor; cbn; try done.
  - apply lookup_singleton.
  - intros j i [<- <-]%lookup_singleton_Some. split; [constructor|]. split; [done|lia].
  - intros j j' i [<- _]%lookup_singleton_Some [<- _]%lookup_singleton_Some. done.
  - lia.
  - intros x N%lookup_singleton_None. rewrite lookup_insert_ne by done. done.
  - intros j i [<- <-]%lookup_singleton_Some. destruct Hsrc as [a Ha]. exists a. eexists. split; [done|]. split; [apply lookup_insert|]. split; [done|]. cbn. unfold links in *. cbn. lia.
  - intros q p k j [<- <-]%lookup_singleton_Some E. rewrite Hr in E. done.
  - intros j i [<- <-]%lookup_singleton_Some. done.
  - intros x. unfold orig. case_decide; [done|]. rewrite lookup_singleton_ne by done. done.
  - intros x k. unfold orig. case_decide; [done|]. rewrite lookup_singleton_ne by done. done.
  - intros x k. unfold orig. case_decide; [done|]. rewrite lookup_singleton_ne by done. done.
  - eapply names_ok_ext; [apply K|]. done.
  - apply K.
  - intros i j a [<- <-]%lookup_singleton_Some. done.
  - apply NoDup_singleton.
  - intros p q off [= -> -> ->]%elem_of_list_singleton. split; [apply lookup_singleton|]. split; [intros; apply Hr|intros; lia].
  - intros q p k [<- <-]%lookup_singleton_Some Hq. destruct Hq. by left.
Qed.

Context (tmp : nat) (c : fs) (org cache : gmap nat nat) (H : cp tmp c org cache []).
Lemma copy_row_of q p k : org !! q = Some p -> match contents s0 !! (p, k) with None => contents c !! (q, k) = None | Some i => exists j, contents c !! (q, k) = Some j /\ org !! j = Some i /\ j <> tmp end.
Proof.
  intros Hq. destruct (contents s0 !! (p, k)) as [i|] eqn:E.
  - destruct (i_done _ _ _ _ _ _ _ _ H q p k Hq) as [j Hj]; [by apply not_elem_of_nil|by eexists|]. destruct (i_rows_new _ _ _ _ _ _ _ _ H _ _ _ _ Hq Hj) as (N & i' & Hi' & Ho). rewrite E in Hi'. injection Hi' as <-. eauto.
  - destruct (contents c !! (q, k)) as [j|] eqn:Ej; [|done]. destruct (i_rows_new _ _ _ _ _ _ _ _ H _ _ _ _ Hq Ej) as (_ & i' & Hi' & _). congruence.
Qed.
Lemma all_copied p : below s0 src p -> exists j, org !! j = Some p.
Proof.
  induction 1 as [|p n i Hb [q Hq] He]; [exists tmp; apply H|]. unfold entry in He. destruct (names s0 !! n) as [[k rc]|]; [|done]. pose proof (copy_row_of q p k Hq) as R. rewrite He in R. destruct R as (j & _ & Ho & _). eauto.
Qed.
Lemma copied_inside j i : org !! j = Some i -> j <> tmp -> inside s0 src i.
Proof.
  intros Hj N. destruct (i_reached _ _ _ _ _ _ _ _ H _ _ Hj N) as (q & k & [p Hq] & Hr). destruct (i_rows_new _ _ _ _ _ _ _ _ H _ _ _ _ Hq Hr) as (_ & i' & Hi' & Ho). rewrite Hj in Ho. injection Ho as <-.
  destruct (row_entry max_obj_size exact _ Hc0 _ _ _ Hi') as [n Hn]. exists p, n. split; [|done]. by apply (i_org _ _ _ _ _ _ _ _ H _ _ Hq).
Qed.
Lemma inside_not_src : ~ inside s0 src src.
Proof. intros (p & n & Hb & He). by apply (Hac _ _ _ He). Qed.

Context (tgt : nat) (Htgt : is_Some (inodes s0 !! tgt)) (Hnc : forall k, contents s0 !! (src, k) = None \/ contents s0 !! (tgt, k) = None).
Local Notation oldn := (old_not_new max_obj_size exact s0 Hc0 src tmp c org cache [] H).
Lemma tgt_old : org !! tgt = None. Proof. by apply oldn. Qed.
Lemma tmp_tgt : tmp <> tgt. Proof. intros E0. pose proof tgt_old as E. rewrite <- E0, (i_tmp _ _ _ _ _ _ _ _ H) in E. done. Qed.
Lemma no_clash k : is_Some (contents c !! (tmp, k)) -> contents c !! (tgt, k) = None.
Proof.
  intros [j Hj]. rewrite (i_rows_old _ _ _ _ _ _ _ _ H) by apply tgt_old. destruct (i_rows_new _ _ _ _ _ _ _ _ H _ _ _ _ (i_tmp _ _ _ _ _ _ _ _ H) Hj) as (_ & i & Hi & _). destruct (Hnc k); [congruence|done].
Qed.
Definition adopted : fs := set_inodes (delete tmp (inodes c)) (set_contents (filter (fun kv => kv.1.1 <> tmp) (dup tmp tgt (contents c))) c).
Lemma adopt_done : adopt tmp tgt c = (adopted, Done).
Proof.
  unfold adopt. rewrite decide_True; [done|]. apply map_eq. intros [x k]. rewrite lookup_empty. apply map_filter_lookup_None. right. intros j Hj [E [j' Hj']]. cbn in *. subst x. rewrite no_clash in Hj' by by eexists. done.
Qed.
Lemma adopted_rows x k : contents adopted !! (x, k) = if decide (x = tmp) then None else if decide (x = tgt) then match contents c !! (tmp, k) with Some j => Some j | None => contents c !! (tgt, k) end else contents c !! (x, k).
Proof.
  cbn. case_decide as D; [subst; apply map_filter_lookup_None; right; intros j _ E; by apply E|]. rewrite <- (dup_lookup tmp tgt). destruct (dup tmp tgt (contents c) !! (x, k)) as [j|] eqn:E; [by apply map_filter_lookup_Some|by apply map_filter_lookup_None; left].
Qed.
Lemma adopted_links x : links adopted x = links c x.
Proof. apply (cnt_move tmp tgt (contents c) (fun kv => kv.2 = x)); [apply tmp_tgt|apply no_clash|done]. Qed.
Lemma adopted_uses k : uses adopted k = uses c k.
Proof. unfold uses. cbn. rewrite (cnt_move tmp tgt (contents c) (fun kv => kv.1.2 = k)); [done|apply tmp_tgt|apply no_clash|done]. Qed.
Lemma inode_old x : org !! x = None -> inodes adopted !! x = inodes s0 !! x.
Proof. intros E. cbn. rewrite lookup_delete_ne; [by apply (i_old _ _ _ _ _ _ _ _ H)|]. intros <-. rewrite (i_tmp _ _ _ _ _ _ _ _ H) in E. done. Qed.
Lemma inode_is_old x : is_Some (inodes s0 !! x) -> inodes adopted !! x = inodes s0 !! x.
Proof. intros E. apply inode_old. by apply oldn. Qed.
Lemma inode_copy j i : org !! j = Some i -> j <> tmp -> exists a b, inodes s0 !! i = Some a /\ inodes adopted !! j = Some b /\ b = set_refcount (fun _ => refcount b) (new_attrs a) /\ refcount b = links c j /\ 0 < refcount b.
Proof.
  intros Hj N. destruct (i_new _ _ _ _ _ _ _ _ H _ _ Hj) as (a & b & Ha & Hb & Hab & Hr). exists a, b. split; [done|]. split; [cbn; by rewrite lookup_delete_ne|]. split; [by apply Hab|]. split; [done|].
  destruct (i_reached _ _ _ _ _ _ _ _ H _ _ Hj N) as (q & k & _ & Hrow). rewrite Hr. eapply (cnt_pos (fun kv : nat * nat * nat => kv.2 = j)); done.
Qed.
Lemma tmp_not_old : inodes s0 !! tmp = None.
Proof. eapply (new_not_old max_obj_size exact s0 Hc0 src tmp c org cache [] H). apply H. Qed.
Lemma seq_base j : (seq s0 <= j)%nat -> base_links j = 0.
Proof.
  intros Hj. destruct (c_root _ _ _ Hc0) as [[r Hr] [t Ht]]. apply (c_seq _ _ _ Hc0) in Hr, Ht. unfold base_links. rewrite !decide_False by lia. done.
Qed.
Lemma target_exists q k j : contents c !! (q, k) = Some j -> is_Some (inodes adopted !! j) /\ j <> CTRL.
Proof.
  intros E. destruct (row_target max_obj_size exact s0 Hc0 src tmp c org cache [] H _ _ _ E) as [[Hj Ho]|[[i Hj] N]].
  - rewrite inode_old by done. split; [done|]. destruct (org !! q) as [p|] eqn:Eq.
    + destruct (i_rows_new _ _ _ _ _ _ _ _ H _ _ _ _ Eq E) as (_ & i & _ & Ho'). congruence.
    + rewrite (i_rows_old _ _ _ _ _ _ _ _ H) in E by done. by destruct (c_entries _ _ _ Hc0 _ _ _ E) as (_ & _ & _ & ? & _).
  - destruct (inode_copy _ _ Hj N) as (a & b & _ & Hb & _). split; [by eexists|]. intros ->. destruct (c_root _ _ _ Hc0) as [_ Hr]. apply oldn in Hr. congruence.
Qed.
Lemma data_owner x : is_Some (inodes s0 !! orig tmp org x) -> is_Some (inodes adopted !! x) /\ forall a, inodes s0 !! orig tmp org x = Some a -> exists b, inodes adopted !! x = Some b /\ size b = size a.
Proof.
  unfold orig. case_decide as D; [subst; intros [? E]; rewrite tmp_not_old in E; done|]. destruct (org !! x) as [i|] eqn:E; cbn [default].
  - intros _. destruct (inode_copy _ _ E D) as (a & b & Ha & Hb & Hab & _). split; [by eexists|]. intros a' Ha'. cbn in Ha'. rewrite Ha in Ha'. injection Ha' as <-. exists b. split; [done|]. by rewrite Hab.
  - intros Hs. cbn in Hs. rewrite inode_old by done. split; [done|]. eauto.
Qed.

Lemma adopted_consistent : (forall b, inodes s0 !! tgt = Some b -> 0 < refcount b) -> tgt <> CTRL -> consistent max_obj_size exact adopted.
Proof.
  intros Hlive Nctrl. pose proof Hc0 as Hc. apply (consistent_core max_obj_size exact) in Hc as [K Kh]. apply consistent_core. split.
  - constructor.
    + intros x a Hx. rewrite adopted_links. destruct (org !! x) as [i|] eqn:E.
      * assert (x <> tmp) as N by (intros ->; cbn in Hx; by rewrite lookup_delete in Hx). destruct (inode_copy _ _ E N) as (a' & b & _ & Hb & _ & Hr & _). rewrite Hx in Hb. injection Hb as <-. rewrite seq_base; [lia|]. by apply (i_org _ _ _ _ _ _ _ _ H _ _ E).
      * rewrite inode_old in Hx by done. destruct (i_old _ _ _ _ _ _ _ _ H _ E) as [_ ->]. by apply K.
    + intros p k i. rewrite adopted_rows. case_decide as D1; [done|]. assert (forall p k i, p <> tmp -> contents c !! (p, k) = Some i -> (exists a, inodes adopted !! p = Some a /\ 0 < refcount a) /\ p <> CTRL /\ i <> CTRL /\ is_Some (inodes adopted !! i)) as G.
      { clear p k i D1. intros p k i N E. destruct (target_exists _ _ _ E) as [T1 T2]. destruct (org !! p) as [p0|] eqn:Ep.
        - destruct (inode_copy _ _ Ep N) as (a & b & _ & Hb & _ & _ & Hpos). split; [eauto|]. split; [|done]. intros ->. destruct (c_root _ _ _ Hc0) as [_ Hr]. apply oldn in Hr. congruence.
        - rewrite inode_old by done. rewrite (i_rows_old _ _ _ _ _ _ _ _ H) in E by done. destruct (c_entries _ _ _ Hc0 _ _ _ E) as (_ & ? & ? & _). done. }
      case_decide as D2; [|by apply G]. subst p. destruct (contents c !! (tmp, k)) as [j|] eqn:E; [|by apply G]. intros [= ->]. destruct (target_exists _ _ _ E) as [T1 T2]. split; [|done]. rewrite inode_is_old by done. destruct Htgt as [b Hb]. exists b. split; [done|]. by apply Hlive.
    + intros x k v. cbn [xattrs adopted set_inodes set_contents]. rewrite (i_xattr _ _ _ _ _ _ _ _ H). intros E. apply data_owner. by eapply (k_xattrs _ _ _ K).
    + intros x t. cbn [symlinks adopted set_inodes set_contents]. rewrite (i_sym _ _ _ _ _ _ _ _ H). intros E. apply data_owner. by eapply (k_symlinks _ _ _ K).
    + intros x b o. cbn [blocks adopted set_inodes set_contents]. rewrite (i_blocks _ _ _ _ _ _ _ _ H). intros E. destruct (k_blocks _ _ _ K _ _ _ E) as (a & Ha & Hsz). destruct (data_owner x) as [_ Q]; [by eexists|]. destruct (Q _ Ha) as (b' & Hb & Es). exists b'. split; [done|lia].
    + apply (i_objects _ _ _ _ _ _ _ _ H).
    + eapply names_ok_ext; [apply (i_names _ _ _ _ _ _ _ _ H)|]. intros k. by rewrite adopted_uses.
    + intros x n. cbn [opens adopted set_inodes set_contents]. destruct (i_rest _ _ _ _ _ _ _ _ H) as [-> _]. intros E. destruct (k_opens _ _ _ K _ _ E) as [? Hx]. split; [done|]. by rewrite inode_is_old.
    + intros x a Hx. cbn [seq adopted set_inodes set_contents]. destruct (org !! x) as [i|] eqn:E; [by apply (i_org _ _ _ _ _ _ _ _ H _ _ E)|]. rewrite inode_old in Hx by done. apply (k_seq _ _ _ K) in Hx. pose proof (i_seq _ _ _ _ _ _ _ _ H). lia.
    + destruct (k_root _ _ _ K) as [R1 R2]. split; rewrite inode_is_old; done.
  - intros x a Hx Hr. cbn [opens adopted set_inodes set_contents]. destruct (i_rest _ _ _ _ _ _ _ _ H) as [-> _]. destruct (org !! x) as [i|] eqn:E.
    + assert (x <> tmp) as N by (intros ->; cbn in Hx; by rewrite lookup_delete in Hx). destruct (inode_copy _ _ E N) as (a' & b & _ & Hb & _ & _ & Hpos). rewrite Hx in Hb. injection Hb as <-. lia.
    + rewrite inode_old in Hx by done. by eapply Kh.
Qed.

(** Directories afterwards *)
Lemma adopted_entry p n : entry adopted p n = match names s0 !! n with Some (k, _) => contents adopted !! (p, k) | None => None end.
Proof. apply entry_ids. intros m. cbn. apply (i_ids _ _ _ _ _ _ _ _ H). Qed.
Lemma entry_copy j i n : org !! j = Some i -> j <> tmp -> match entry s0 i n with None => entry adopted j n = None | Some i' => exists j', entry adopted j n = Some j' /\ org !! j' = Some i' /\ j' <> tmp end.
Proof.
  intros Hj N. rewrite adopted_entry. unfold entry. destruct (names s0 !! n) as [[k rc]|]; [|done]. rewrite adopted_rows. rewrite (decide_False (P := j = tmp)) by done. rewrite (decide_False (P := j = tgt)) by (intros ->; rewrite tgt_old in Hj; done). by apply copy_row_of.
Qed.
Lemma entry_tgt n : match entry s0 src n with None => entry adopted tgt n = entry s0 tgt n | Some i' => exists j', entry adopted tgt n = Some j' /\ org !! j' = Some i' /\ j' <> tmp end.
Proof.
  rewrite adopted_entry. unfold entry. destruct (names s0 !! n) as [[k rc]|]; [|done]. rewrite adopted_rows. rewrite (decide_False (P := tgt = tmp)) by (intros E; by apply tmp_tgt). rewrite (decide_True (P := tgt = tgt)) by done. pose proof (copy_row_of tmp src k (i_tmp _ _ _ _ _ _ _ _ H)) as R. destruct (contents s0 !! (src, k)) as [i|].
  - destruct R as (j & -> & R). eauto.
  - rewrite R. apply (i_rows_old _ _ _ _ _ _ _ _ H). apply tgt_old.
Qed.
Lemma entry_other x n : org !! x = None -> x <> tgt -> entry adopted x n = entry s0 x n.
Proof.
  intros Hx N. rewrite adopted_entry. unfold entry. destruct (names s0 !! n) as [[k rc]|]; [|done]. rewrite adopted_rows. rewrite (decide_False (P := x = tmp)) by (intros ->; rewrite (i_tmp _ _ _ _ _ _ _ _ H) in Hx; done). rewrite (decide_False (P := x = tgt)) by done. by apply (i_rows_old _ _ _ _ _ _ _ _ H).
Qed.
Lemma data_orig x : x <> tmp -> (forall n, xattr adopted x n = xattr s0 (default x (org !! x)) n) /\ symlinks adopted !! x = symlinks s0 !! default x (org !! x) /\ forall b, blocks adopted !! (x, b) = blocks s0 !! (default x (org !! x), b).
Proof.
  intros N. assert (orig tmp org x = default x (org !! x)) as <- by (unfold orig; by rewrite decide_False). split; [|split].
  - intros n. rewrite (xattr_ids s0) by (intros; cbn; apply (i_ids _ _ _ _ _ _ _ _ H)). unfold xattr. destruct (names s0 !! n) as [[k rc]|]; [|done]. apply (i_xattr _ _ _ _ _ _ _ _ H).
  - apply (i_sym _ _ _ _ _ _ _ _ H).
  - intros b. apply (i_blocks _ _ _ _ _ _ _ _ H).
Qed.

(** No cycles *)
Lemma copies_closed j k : below adopted j k -> is_Some (org !! j) /\ j <> tmp -> is_Some (org !! k) /\ k <> tmp.
Proof.
  induction 1 as [|p n i Hb IH He]; [done|]. intros Hj. destruct (IH Hj) as [[p0 Hp] Np]. pose proof (entry_copy p p0 n Hp Np) as R. destruct (entry s0 p0 n); [|congruence]. destruct R as (j' & E & Ho & N). rewrite He in E. injection E as ->. split; [by eexists|done].
Qed.
Lemma below_orig j k : below adopted j k -> forall i, org !! j = Some i -> j <> tmp -> exists i', org !! k = Some i' /\ below s0 i i'.
Proof.
  induction 1 as [|p n k Hb IH He]; intros i Hj N; [exists i; split; [done|constructor]|]. destruct (IH _ Hj N) as (p0 & Hp & Hb0). destruct (copies_closed j p Hb) as [_ Np]; [split; [by eexists|done]|]. pose proof (entry_copy p p0 n Hp Np) as R. destruct (entry s0 p0 n) as [i'|] eqn:Ee; [|congruence].
  destruct R as (j' & E & Ho & _). rewrite He in E. injection E as ->. exists i'. split; [done|]. by eapply below_entry.
Qed.
Lemma below_old x y : below adopted x y -> org !! y = None -> org !! x = None -> below s0 x y.
Proof.
  induction 1 as [|p n k Hb IH He]; intros Hy Hx; [constructor|]. destruct (org !! p) as [p0|] eqn:Ep.
  - destruct (decide (p = tmp)) as [-> |Np].
    + rewrite adopted_entry in He. destruct (names s0 !! n) as [[? ?]|]; [|done]. rewrite adopted_rows, decide_True in He by done. done.
    + pose proof (entry_copy p p0 n Ep Np) as R. destruct (entry s0 p0 n); [|congruence]. destruct R as (j' & E & Ho & _). congruence.
  - eapply below_entry; [by apply IH|]. destruct (decide (p = tgt)) as [-> |N]; [|by rewrite <- entry_other by done; apply He]. pose proof (entry_tgt n) as R. destruct (entry s0 src n).
    + destruct R as (j' & E & Ho & _). congruence.
    + by rewrite <- R.
Qed.
Lemma adopted_acyclic : acyclic adopted.
Proof.
  intros p n i He Hb. destruct (org !! p) as [p0|] eqn:Ep.
  - destruct (decide (p = tmp)) as [-> |Np].
    + rewrite adopted_entry in He. destruct (names s0 !! n) as [[? ?]|]; [|done]. rewrite adopted_rows, decide_True in He by done. done.
    + pose proof (entry_copy p p0 n Ep Np) as R. destruct (entry s0 p0 n) as [i0|] eqn:Ee; [|congruence]. destruct R as (j' & E & Ho & Nj). rewrite He in E. injection E as <-. destruct (below_orig _ _ Hb _ Ho Nj) as (p1 & Hp1 & Hb1). rewrite Ep in Hp1. injection Hp1 as <-. by apply (Hac _ _ _ Ee).
  - destruct (org !! i) as [i0|] eqn:Ei.
    + destruct (decide (i = tmp)) as [-> |Ni].
      * assert (is_Some (inodes s0 !! tmp)) as [? ?]; [|rewrite tmp_not_old in *; done]. destruct (decide (p = tgt)) as [-> |N].
        -- pose proof (entry_tgt n) as R. destruct (entry s0 src n); [destruct R as (? & E & _ & ?); congruence|]. rewrite R in He. unfold entry in He. destruct (names s0 !! n) as [[k ?]|]; [|done]. by apply (row_old max_obj_size exact _ Hc0) in He as [_ He].
        -- rewrite entry_other in He by done. unfold entry in He. destruct (names s0 !! n) as [[k ?]|]; [|done]. by apply (row_old max_obj_size exact _ Hc0) in He as [_ He].
      * destruct (copies_closed i p Hb) as [[? ?] _]; [split; [by eexists|done]|]. congruence.
    + assert (entry s0 p n = Some i) as He0. { destruct (decide (p = tgt)) as [-> |N]; [|by rewrite <- entry_other by done]. pose proof (entry_tgt n) as R. destruct (entry s0 src n); [|by rewrite <- R]. destruct R as (? & E & ? & _). congruence. }
      apply (Hac _ _ _ He0). by apply below_old.
Qed.
End copy_end.
