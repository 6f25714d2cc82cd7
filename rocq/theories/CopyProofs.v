(** Lemmas about copy_tree. *)
From stdpp Require Import prelude gmap strings sorting.
From Coq Require Import ZArith String.
From Verif Require Import FsModel FsSpec FsLemmas FsInv FsTreeModel FsTree CopyModel.
Local Close Scope string_scope.
Local Open Scope Z_scope.

(** * Tables *)
Section dup.
Context {A : Type} (i j : nat) (m : gmap (nat * nat) A).
Lemma dup_lookup x k : dup i j m !! (x, k) = if decide (x = j) then match m !! (i, k) with Some v => Some v | None => m !! (j, k) end else m !! (x, k).
Proof.
  unfold dup. revert x k. apply (map_fold_ind (fun acc m' => forall x k, acc !! (x, k) = if decide (x = j) then match m' !! (i, k) with Some v => Some v | None => m !! (j, k) end else m !! (x, k))).
  - intros x k. rewrite lookup_empty. by case_decide; subst.
  - intros [x0 k0] v0 m' acc Hn IH x k. cbn [fst snd]. destruct (decide (x0 = i)) as [-> |N].
    + destruct (decide ((j, k0) = (x, k))) as [[= <- <-]|N2].
      * rewrite lookup_insert, decide_True, lookup_insert by done. done.
      * rewrite lookup_insert_ne by done. rewrite IH. case_decide as D; [|done]. subst x. rewrite (lookup_insert_ne m') by congruence. done.
    + rewrite IH. case_decide; [|done]. by rewrite lookup_insert_ne by congruence.
Qed.
Lemma dup_cnt (P : nat * nat * A -> Prop) `{!forall x, Decision (P x)} : (forall k, is_Some (m !! (i, k)) -> m !! (j, k) = None) -> cnt P (dup i j m) = cnt P m + cnt (fun kv => kv.1.1 = i /\ P ((j, kv.1.2), kv.2)) m.
Proof.
  intros Hd. unfold dup.
  enough (forall m', m' ⊆ m -> cnt P (map_fold (fun x v acc => if decide (x.1 = i) then <[(j, x.2):=v]> acc else acc) m m') = cnt P m + cnt (fun kv => kv.1.1 = i /\ P ((j, kv.1.2), kv.2)) m' /\
    forall k, m' !! (i, k) = None -> map_fold (fun x v acc => if decide (x.1 = i) then <[(j, x.2):=v]> acc else acc) m m' !! (j, k) = m !! (j, k)) as K by (by destruct (K m)).
  apply (map_fold_ind (fun acc m' => m' ⊆ m -> cnt P acc = cnt P m + cnt (fun kv => kv.1.1 = i /\ P ((j, kv.1.2), kv.2)) m' /\ forall k, m' !! (i, k) = None -> acc !! (j, k) = m !! (j, k))).
  - intros _. split; [rewrite (cnt_empty (fun kv : nat * nat * A => kv.1.1 = i /\ P (j, kv.1.2, kv.2))); lia|done].
  - intros [x0 k0] v0 m' acc Hn IH Hsub. cbn [fst snd]. assert (m !! (x0, k0) = Some v0) as Hv by (eapply lookup_weaken; [|exact Hsub]; apply lookup_insert).
    destruct IH as [IH1 IH2]; [etrans; [by apply insert_subseteq|done]|]. rewrite cnt_insert_new by done. cbn [fst snd]. destruct (decide (x0 = i)) as [-> |N].
    + assert (acc !! (j, k0) = None) as Ha by (rewrite IH2 by done; apply Hd; eauto). split.
      * rewrite cnt_insert_new by done. rewrite IH1. unfold b2z. do 2 case_decide; tauto || lia.
      * intros k Hk. destruct (decide (k0 = k)) as [<-|Nk]; [by rewrite lookup_insert in Hk|]. rewrite lookup_insert_ne by congruence. apply IH2. by rewrite lookup_insert_ne in Hk by congruence.
    + rewrite b2z_false by tauto. split; [lia|]. intros k Hk. apply IH2. by rewrite lookup_insert_ne in Hk by congruence.
Qed.
End dup.
Lemma cnt_single `{Countable K} {A} (P : K * A -> Prop) `{!forall x, Decision (P x)} (m : gmap K A) k : (forall k' v, m !! k' = Some v -> P (k', v) <-> k' = k) -> cnt P m = b2z (is_Some (m !! k)).
Proof.
  intros HP. destruct (m !! k) as [v|] eqn:E.
  - rewrite <- (insert_delete m k v E). rewrite cnt_insert_new by apply lookup_delete. rewrite cnt_none.
    + rewrite b2z_true by by apply HP. by rewrite b2z_true.
    + intros k' v' [N Hk']%lookup_delete_Some Q. apply HP in Q; [congruence|done].
  - rewrite b2z_false by (by intros []). apply cnt_none. intros k' v' Hk' Q. apply HP in Q; [congruence|done].
Qed.
Lemma cnt_one `{Countable K} {A} (P : K * A -> Prop) `{!forall x, Decision (P x)} (m : gmap K A) k v k' v' : cnt P m <= 1 -> m !! k = Some v -> P (k, v) -> m !! k' = Some v' -> P (k', v') -> k = k'.
Proof.
  intros Hc E1 H1 E2 H2. destruct (decide (k = k')) as [|N]; [done|]. exfalso. rewrite <- (insert_delete m k v E1) in Hc. rewrite cnt_insert_new in Hc by apply lookup_delete. rewrite b2z_true in Hc by done.
  assert (0 < cnt P (delete k m)); [|lia]. eapply cnt_pos; [|exact H2]. by rewrite lookup_delete_ne.
Qed.
Lemma names_ok_bump exact m tot (P : nat -> Prop) `{!forall k, Decision (P k)} : names_ok exact m tot -> (forall k, P k -> 0 < tot k) -> names_ok exact (bump P m) (fun k => tot k + b2z (P k)).
Proof.
  intros (H1 & H2 & H3 & H4) HP. assert (forall n k rc, bump P m !! n = Some (k, rc) <-> exists rc0, m !! n = Some (k, rc0) /\ rc = rc0 + b2z (P k)) as K.
  { intros n k rc. unfold bump. rewrite lookup_fmap. destruct (m !! n) as [[k0 rc0]|]; cbn; [|split; [done|by intros (? & ? & _)]]. unfold b2z. split.
    - intros [= -> <-]. exists rc0. split; [done|]. case_decide; lia.
    - intros (rc1 & [= -> ->] & ->). f_equal. f_equal. case_decide; lia. }
  split; [|split; [|split]].
  - intros n n' k rc rc' (? & ? & _)%K (? & ? & _)%K. by eapply H1.
  - intros n k rc (rc0 & Hn & ->)%K. destruct (H2 _ _ _ Hn) as (? & ? & ? & He). pose proof (b2z_pos (P k)). split_and!; try done; [lia|lia|]. intros E. rewrite <- He by done. lia.
  - intros k. specialize (H3 k). pose proof (b2z_pos (P k)). lia.
  - intros k Hk. assert (0 < tot k) as Hp by (unfold b2z in Hk; case_decide; [by apply HP|lia]). destruct (H4 k Hp) as (n & rc & Hn). exists n, (rc + b2z (P k)). apply K. eauto.
Qed.
Lemma bump_ids (P : nat -> Prop) `{!forall k, Decision (P k)} m n : fst <$> bump P m !! n = fst <$> m !! n.
Proof. unfold bump. rewrite lookup_fmap. by destruct (m !! n). Qed.
Lemma cnt_dup_obj (i j : nat) (m : gmap (nat * nat) nat) o : (forall k, m !! (j, k) = None) -> i <> j -> count_obj (filter (fun kv => kv.1.1 = j) (dup i j m)) o = cnt (fun kv => kv.2 = o) (dup i j m) - cnt (fun kv => kv.2 = o) m.
Proof.
  intros Hn N. change (count_obj ?x o) with (cnt (fun kv : nat * nat * nat => kv.2 = o) x). rewrite (cnt_split (fun kv : nat * nat * nat => kv.2 = o) (fun kv => kv.1.1 = j) (dup i j m)).
  assert (filter (fun x : nat * nat * nat => ~ x.1.1 = j) (dup i j m) = m) as ->; [|lia].
  apply map_eq. intros [x k]. apply option_eq. intros v. rewrite map_filter_lookup_Some, dup_lookup. cbn. split.
  - intros [E D]. by rewrite decide_False in E by done.
  - intros E. assert (x <> j) by (intros ->; by rewrite Hn in E). by rewrite decide_False by done.
Qed.

Section copy.
Context (max_obj_size : Z) (Hmax : 0 < max_obj_size) (exact : bool).
Context (s0 : fs) (Hc0 : consistent max_obj_size exact s0) (Hac : acyclic s0) (src : nat) (Hsrc : is_Some (inodes s0 !! src)).

Lemma row_entry p k i : contents s0 !! (p, k) = Some i -> exists n, entry s0 p n = Some i.
Proof. intros H. destruct (c_entries _ _ _ Hc0 _ _ _ H) as ((n & rc & Hn) & _). exists n. unfold entry. by rewrite Hn. Qed.
Lemma old_lt i : is_Some (inodes s0 !! i) -> (i < seq s0)%nat.
Proof. intros [a Ha]. by eapply c_seq. Qed.
Lemma row_old p k i : contents s0 !! (p, k) = Some i -> is_Some (inodes s0 !! p) /\ is_Some (inodes s0 !! i).
Proof. intros H. destruct (c_entries _ _ _ Hc0 _ _ _ H) as (_ & (a & Ha & _) & _ & _ & Hi). split; [by eexists|done]. Qed.

(** The inode whose data inode [x] has *)
Definition orig (tmp : nat) (org : gmap nat nat) (x : nat) : nat := if decide (x = tmp) then x else default x (org !! x).
(** [org]: the new inodes (and the temporary directory) and what they are copies of.  [queue] as a set. *)
Record cp (tmp : nat) (c : fs) (org cache : gmap nat nat) (queue : list task) : Prop := {
  i_tmp : org !! tmp = Some src;
  i_org : forall j i, org !! j = Some i -> below s0 src i /\ is_Some (inodes s0 !! i) /\ (seq s0 <= j < seq c)%nat;
  i_inj : forall j j' i, org !! j = Some i -> org !! j' = Some i -> j = j';
  i_seq : (seq s0 <= seq c)%nat;
  i_old : forall x, org !! x = None -> inodes c !! x = inodes s0 !! x /\ links c x = links s0 x;
  i_new : forall j i, org !! j = Some i -> exists a b, inodes s0 !! i = Some a /\ inodes c !! j = Some b /\ (j <> tmp -> b = set_refcount (fun _ => refcount b) (new_attrs a)) /\ refcount b = links c j;
  i_rows_old : forall x k, org !! x = None -> contents c !! (x, k) = contents s0 !! (x, k);
  i_rows_new : forall q p k j, org !! q = Some p -> contents c !! (q, k) = Some j -> j <> tmp /\ exists i, contents s0 !! (p, k) = Some i /\ org !! j = Some i;
  i_reached : forall j i, org !! j = Some i -> j <> tmp -> exists q k, is_Some (org !! q) /\ contents c !! (q, k) = Some j;
  i_sym : forall x, symlinks c !! x = symlinks s0 !! orig tmp org x;
  i_xattr : forall x k, xattrs c !! (x, k) = xattrs s0 !! (orig tmp org x, k);
  i_blocks : forall x k, blocks c !! (x, k) = blocks s0 !! (orig tmp org x, k);
  i_names : names_ok exact (names c) (uses c);
  i_ids : forall n, fst <$> names c !! n = fst <$> names s0 !! n;
  i_objects : objects_counted c;
  i_cache : forall i j, cache !! i = Some j -> org !! j = Some i /\ j <> tmp;
  i_cached : forall i j a, org !! j = Some i -> j <> tmp -> inodes s0 !! i = Some a -> refcount a <> 1 -> cache !! i = Some j;
  i_rest : opens c = opens s0 /\ failsafe c = failsafe s0;
  i_nodup : NoDup ((fun t : task => t.1.2) <$> queue);
  i_queue : forall p q off, (p, q, off) ∈ queue -> org !! q = Some p /\ (forall k, off < Z.of_nat k -> contents c !! (q, k) = None) /\
    (forall k, Z.of_nat k <= off -> is_Some (contents s0 !! (p, k)) -> is_Some (contents c !! (q, k)));
  i_done : forall q p k, org !! q = Some p -> q ∉ ((fun t : task => t.1.2) <$> queue) -> is_Some (contents s0 !! (p, k)) -> is_Some (contents c !! (q, k))
}.
Lemma cp_perm tmp c org cache q q' : q ≡ₚ q' -> cp tmp c org cache q -> cp tmp c org cache q'.
Proof.
  intros Hp [H1 H2 H3 H4 H5 H6 H7 H8 H9 H10 H11 H12 H13 H14 H15 H16 H17 H18 H19 H20 H21]. constructor; try done.
  - by rewrite <- Hp.
  - intros p x off Hin. rewrite <- Hp in Hin. by apply H20.
  - intros x p k Ho Hn. rewrite <- Hp in Hn. by apply H21.
Qed.
Lemma orig_new tmp org j i : org !! j = Some i -> j <> tmp -> orig tmp org j = i.
Proof. intros H N. unfold orig. by rewrite decide_False, H. Qed.
Lemma orig_old tmp org x : org !! x = None -> orig tmp org x = x.
Proof. intros H. unfold orig. case_decide; [done|]. by rewrite H. Qed.
Section step.
Context (tmp : nat) (c : fs) (org cache : gmap nat nat) (queue : list task) (H : cp tmp c org cache queue).
Lemma new_not_old j i : org !! j = Some i -> inodes s0 !! j = None.
Proof. intros Hj. destruct (inodes s0 !! j) eqn:E; [|done]. assert (j < seq s0)%nat by (apply old_lt; eauto). destruct (i_org _ _ _ _ _ H _ _ Hj). lia. Qed.
Lemma old_not_new x : is_Some (inodes s0 !! x) -> org !! x = None.
Proof. intros [a Ha]. destruct (org !! x) eqn:E; [|done]. rewrite (new_not_old _ _ E) in Ha. done. Qed.
Lemma next_fresh : org !! seq c = None /\ inodes s0 !! seq c = None.
Proof.
  split. { destruct (org !! seq c) eqn:E; [|done]. destruct (i_org _ _ _ _ _ H _ _ E) as (_ & _ & ?). lia. }
  destruct (inodes s0 !! seq c) eqn:E; [|done]. assert (seq c < seq s0)%nat by (apply old_lt; eauto). pose proof (i_seq _ _ _ _ _ H). lia.
Qed.
Lemma row_target q k j : contents c !! (q, k) = Some j -> is_Some (inodes s0 !! j) /\ org !! j = None \/ is_Some (org !! j) /\ j <> tmp.
Proof.
  intros E. destruct (org !! q) as [p|] eqn:Eq.
  - destruct (i_rows_new _ _ _ _ _ H _ _ _ _ Eq E) as (N & i & _ & Hj). right. eauto.
  - rewrite (i_rows_old _ _ _ _ _ H) in E by done. apply row_old in E as [_ Hi]. left. split; [done|]. by apply old_not_new.
Qed.
Lemma links_none x : org !! x = None -> inodes s0 !! x = None -> links c x = 0.
Proof. intros H1 H2. apply cnt_none. intros [q k] j E Q. cbn in Q. subst j. destruct (row_target _ _ _ E) as [[[? ?] _]|[[? ?] _]]; congruence. Qed.
Lemma no_data_sym x : org !! x = None -> inodes s0 !! x = None -> symlinks c !! x = None.
Proof. intros H1 H2. rewrite (i_sym _ _ _ _ _ H), orig_old by done. destruct (symlinks s0 !! x) eqn:E; [|done]. destruct (c_left _ _ _ Hc0) as (_ & _ & K & _). destruct (K _ _ E). congruence. Qed.
Lemma no_data_xattr x k : org !! x = None -> inodes s0 !! x = None -> xattrs c !! (x, k) = None.
Proof. intros H1 H2. rewrite (i_xattr _ _ _ _ _ H), orig_old by done. destruct (xattrs s0 !! (x, k)) eqn:E; [|done]. destruct (c_left _ _ _ Hc0) as (_ & K & _ & _). destruct (K _ _ _ E) as [[? ?] _]. congruence. Qed.
Lemma no_data_blocks x k : org !! x = None -> inodes s0 !! x = None -> blocks c !! (x, k) = None.
Proof. intros H1 H2. rewrite (i_blocks _ _ _ _ _ H), orig_old by done. destruct (blocks s0 !! (x, k)) eqn:E; [|done]. destruct (c_left _ _ _ Hc0) as (_ & _ & _ & K). destruct (K _ _ _ E) as (? & ? & _). congruence. Qed.
Lemma uses_row p k i : contents c !! (p, k) = Some i -> 0 < uses c k.
Proof. intros E. unfold uses. pose proof (cnt_pos (fun kv : nat * nat * nat => kv.1.2 = k) _ _ _ E eq_refl). pose proof (cnt_nonneg (fun kv : nat * nat * string => kv.1.2 = k) (xattrs c)). lia. Qed.
Lemma uses_xattr p k v : xattrs c !! (p, k) = Some v -> 0 < uses c k.
Proof. intros E. unfold uses. pose proof (cnt_pos (fun kv : nat * nat * string => kv.1.2 = k) _ _ _ E eq_refl). pose proof (cnt_nonneg (fun kv : nat * nat * nat => kv.1.2 = k) (contents c)). lia. Qed.

(** The next row of a directory *)
Definition next_row (p : nat) (off : Z) (k i : nat) : Prop := contents s0 !! (p, k) = Some i /\ off < Z.of_nat k /\ forall k', off < Z.of_nat k' -> (k' < k)%nat -> contents s0 !! (p, k') = None.
Lemma queue_elem p q off rest p' q' off' : queue = (p, q, off) :: rest -> (p', q', off') ∈ rest -> q' <> q.
Proof. intros -> Hin ->. pose proof (i_nodup _ _ _ _ _ H) as Nd. cbn in Nd. apply NoDup_cons in Nd as [Nd _]. apply Nd. apply elem_of_list_fmap. by exists (p', q, off'). Qed.
Lemma queue_next p q off rest : queue = (p, q, off) :: rest -> org !! q = Some p /\ (forall k, off < Z.of_nat k -> contents c !! (q, k) = None) /\
    (forall k, Z.of_nat k <= off -> is_Some (contents s0 !! (p, k)) -> is_Some (contents c !! (q, k))).
Proof. intros ->. apply (i_queue _ _ _ _ _ H). left. Qed.

(** A row whose inode has been copied before *)
Lemma step_cached p q off rest k i j : queue = (p, q, off) :: rest -> next_row p off k i -> cache !! i = Some j ->
  exists c', copy_row q k i cache c = (c', cache, [], Done) /\ cp tmp c' org cache ((p, q, Z.of_nat k) :: rest).
Proof.
  intros Eq (Hrow & Hoff & Hleast) Hj. destruct (i_cache _ _ _ _ _ H _ _ Hj) as [Ho Nt]. destruct (i_new _ _ _ _ _ H _ _ Ho) as (a & b & Ha & Hb & Hab & Hlb). destruct (queue_next _ _ _ _ Eq) as (Hq & Hfree & Hdone).
  unfold copy_row. rewrite Hj, Hb. unfold add_row. cbn [contents upd_inode set_inodes]. rewrite (Hfree k Hoff). eexists. split; [reflexivity|].
  pose proof (old_not_new p (proj1 (row_old _ _ _ Hrow))) as Hp. assert (contents c !! (p, k) = Some i) as Hcp by (rewrite (i_rows_old _ _ _ _ _ H) by done; done).
  assert (forall x, links (set_names (bump (fun k' => k' = k) (names c)) (set_contents (<[(q, k):=j]> (contents c)) (upd_inode j (set_refcount Z.succ) c))) x = links c x + b2z (j = x)) as Hl.
  { intros x. unfold links. cbn. rewrite cnt_insert_new by by apply Hfree. done. }
  constructor; cbn -[bump]; try apply H.
  - intros x Hx. assert (j <> x) by congruence. rewrite lookup_alter_ne by done. rewrite Hl, b2z_false by done. rewrite Z.add_0_r. by apply (i_old _ _ _ _ _ H).
  - intros j' i' Hj'. destruct (decide (j = j')) as [<-|N].
    + rewrite Ho in Hj'. injection Hj' as <-. exists a, (set_refcount Z.succ b). split; [done|]. split; [by rewrite lookup_alter, Hb|]. split; [intros _; rewrite (Hab Nt) at 1; done|]. rewrite Hl, b2z_true by done. cbn. lia.
    + destruct (i_new _ _ _ _ _ H _ _ Hj') as (a' & b' & Ha' & Hb' & Hab' & Hlb'). exists a', b'. split; [done|]. split; [by rewrite lookup_alter_ne|]. split; [done|]. rewrite Hl, b2z_false by done. lia.
  - intros x k' Hx. rewrite lookup_insert_ne by congruence. by apply (i_rows_old _ _ _ _ _ H).
  - intros q' p' k' j' Hq' [([= <- <-] & <-)|[N E]]%lookup_insert_Some; [|by apply (i_rows_new _ _ _ _ _ H _ _ _ _ Hq')]. split; [done|]. rewrite Hq in Hq'. injection Hq' as <-. exists i. done.
  - intros j' i' Hj' N'. destruct (i_reached _ _ _ _ _ H _ _ Hj' N') as (q' & k' & Ho' & Hr'). exists q', k'. split; [done|]. rewrite lookup_insert_ne; [done|]. intros [= <- <-]. rewrite (Hfree k Hoff) in Hr'. done.
  - eapply names_ok_ext; [apply (names_ok_bump exact (names c) (uses c) (fun k' => k' = k)); [apply H|]|].
    + intros k' ->. by eapply uses_row.
    + intros k'. unfold uses. cbn. rewrite cnt_insert_new by by apply Hfree. cbn. unfold b2z. do 2 case_decide; subst; try done; lia.
  - intros n. rewrite bump_ids. apply H.
  - rewrite <- (fmap_cons (fun t : task => t.1.2) (p, q, Z.of_nat k)). pose proof (i_nodup _ _ _ _ _ H) as Nd. by rewrite Eq in Nd.
  - intros p' q' off' [[= -> -> ->]|Hin]%elem_of_cons.
    + split; [done|]. split.
      * intros k' Hk'. rewrite lookup_insert_ne by (intros [= ->]; lia). apply Hfree. lia.
      * intros k' Hk' Hs. destruct (decide (k = k')) as [<-|N]; [rewrite lookup_insert; by eexists|]. rewrite lookup_insert_ne by congruence. apply Hdone; [|done]. destruct (decide (off < Z.of_nat k')) as [Hlt|]; [|lia]. rewrite (Hleast k' Hlt) in Hs by lia. by destruct Hs.
    + pose proof (queue_elem _ _ _ _ _ _ _ Eq Hin) as Nq. destruct (i_queue _ _ _ _ _ H p' q' off') as (K1 & K2 & K3); [rewrite Eq; by right|]. split; [done|]. split; intros k' Hk'; rewrite lookup_insert_ne by congruence; auto.
  - intros q' p' k' Hq' Hn Hs. assert (q' <> q) by (intros ->; apply Hn; left). rewrite lookup_insert_ne by congruence. eapply (i_done _ _ _ _ _ H); [done| |done]. by rewrite Eq.
Qed.

(** A row whose inode has not *)
Lemma first_copy p q off rest k i a : queue = (p, q, off) :: rest -> next_row p off k i -> cache !! i = None -> inodes s0 !! i = Some a -> forall j, org !! j <> Some i.
Proof.
  intros Eq (Hrow & Hoff & _) Hn Ha j Hj. destruct (queue_next _ _ _ _ Eq) as (Hq & Hfree & _). destruct (i_org _ _ _ _ _ H _ _ Hq) as (Hbel & _ & _). destruct (decide (j = tmp)) as [-> |Nt].
  - rewrite (i_tmp _ _ _ _ _ H) in Hj. injection Hj as <-. destruct (row_entry _ _ _ Hrow) as (n & He). by apply (Hac _ _ _ He).
  - destruct (decide (refcount a = 1)) as [Hr|Hr]; [|rewrite (i_cached _ _ _ _ _ H _ _ _ Hj Nt Ha Hr) in Hn; done].
    destruct (i_reached _ _ _ _ _ H _ _ Hj Nt) as (q' & k' & [p' Hq'] & Hr'). destruct (i_rows_new _ _ _ _ _ H _ _ _ _ Hq' Hr') as (_ & i' & Hrow' & Hi'). rewrite Hj in Hi'. injection Hi' as <-.
    pose proof (c_links _ _ _ Hc0 _ _ Ha) as Hl. assert (0 <= base_links i) by (unfold base_links; repeat case_decide; lia).
    assert ((p, k) = (p', k')) as [= <- <-] by (eapply (cnt_one (fun kv : nat * nat * nat => kv.2 = i) (contents s0)); [unfold links in Hl; lia|done|done|done|done]).
    assert (q' = q) as -> by by eapply (i_inj _ _ _ _ _ H). rewrite (Hfree k Hoff) in Hr'. done.
Qed.
Lemma has_children_rows s i : has_children s i = true <-> exists k j, contents s !! (i, k) = Some j.
Proof.
  destruct (has_children s i) eqn:E; split; try done; intros (k & j & Hk) || intros _.
  - unfold has_children in E. apply bool_decide_eq_true in E. apply map_choose in E as ([x k] & j & [Hk Ex]%map_filter_lookup_Some). cbn in Ex. subst. eauto.
  - rewrite has_children_false in E. by apply E in Hk.
Qed.
Lemma step_new p q off rest k i : queue = (p, q, off) :: rest -> next_row p off k i -> cache !! i = None ->
  exists c' cache' push, copy_row q k i cache c = (c', cache', push, Done) /\ cp tmp c' (<[seq c := i]> org) cache' (push ++ (p, q, Z.of_nat k) :: rest) /\ (List.length push <= 1)%nat.
Proof.
  intros Eq Hnr Hcn. pose proof Hnr as (Hrow & Hoff & Hleast). destruct (row_old _ _ _ Hrow) as [Hpo Hio]. pose proof (old_not_new p Hpo) as Hp. pose proof (old_not_new i Hio) as Hi. destruct Hio as [a Ha].
  pose proof (first_copy _ _ _ _ _ _ _ Eq Hnr Hcn Ha) as Hfirst. destruct (queue_next _ _ _ _ Eq) as (Hq & Hfree & Hdone). destruct next_fresh as [Hj1 Hj2]. destruct (i_old _ _ _ _ _ H i Hi) as [Hci _].
  assert (contents c !! (p, k) = Some i) as Hcp by (rewrite (i_rows_old _ _ _ _ _ H) by done; done).
  assert (seq c <> i) as Nji by congruence. assert (seq c <> q) as Njq by congruence. assert (seq c <> tmp) as Njt by (intros E; rewrite E, (i_tmp _ _ _ _ _ H) in Hj1; done).
  unfold copy_row. rewrite Hcn, Hci, Ha. destruct (copy_inode i a c) as [c1 j] eqn:Ec. assert (j = seq c) as -> by (by injection Ec as _ <-).
  assert (contents c1 = contents c) as Ect by (by injection Ec as <-). unfold add_row. rewrite Ect, (Hfree k Hoff). do 3 eexists. split; [reflexivity|]. split; [|match goal with |- context [if ?x then _ else _] => destruct x end; cbn; lia].
  set (push := if has_children c1 i then [(i, seq c, -1)] else []).
  assert (below s0 src i) as Hbi. { destruct (i_org _ _ _ _ _ H _ _ Hq) as (Hbel & _). destruct (row_entry _ _ _ Hrow) as (n & He). by eapply below_entry. }
  assert (forall x, is_Some (<[seq c := i]> org !! x) -> x = seq c \/ is_Some (org !! x)) as Hcase by (intros x [y Hy]; apply lookup_insert_Some in Hy as [[? _]|[_ ?]]; eauto).
  assert (forall x, orig tmp (<[seq c := i]> org) x = if decide (x = seq c) then i else orig tmp org x) as Horig.
  { intros x. unfold orig. destruct (decide (x = tmp)) as [-> |]; [by rewrite decide_False|]. case_decide; [subst; by rewrite lookup_insert|]. by rewrite lookup_insert_ne. }
  assert (xattrs c1 = dup i (seq c) (xattrs c)) as Ex by (by injection Ec as <-). assert (blocks c1 = dup i (seq c) (blocks c)) as Eb by (by injection Ec as <-).
  assert (forall x, links (set_names (bump (fun k' => k' = k) (names c1)) (set_contents (<[(q, k):=seq c]> (contents c)) c1)) x = links c x + b2z (seq c = x)) as Hl.
  { intros x. unfold links. cbn. rewrite cnt_insert_new by by apply Hfree. done. }
  assert (forall k', cnt (fun kv : nat * nat * string => kv.1.2 = k') (xattrs c1) = cnt (fun kv => kv.1.2 = k') (xattrs c) + b2z (is_Some (xattrs c !! (i, k')))) as Hux.
  { intros k'. rewrite Ex, dup_cnt by (intros; by apply no_data_xattr). f_equal. apply cnt_single. intros [x y] v _. cbn. split; [by intros [-> ->]|by intros [= -> ->]]. }
  constructor; cbn -[bump].
  - rewrite lookup_insert_ne by done. apply H.
  - assert (seq c1 = S (seq c)) as -> by (by injection Ec as <-). intros j' i' [[<- <-]|[N Hj']]%lookup_insert_Some; [split; [done|]; split; [by eexists|]; pose proof (i_seq _ _ _ _ _ H); lia|]. destruct (i_org _ _ _ _ _ H _ _ Hj') as (? & ? & ?). split; [done|]. split; [done|lia].
  - intros j1 j2 i' [[<- <-]|[N1 H1]]%lookup_insert_Some [[<- E]|[N2 H2]]%lookup_insert_Some; try done; [by apply Hfirst in H2|subst i'; by apply Hfirst in H1|by eapply (i_inj _ _ _ _ _ H)].
  - assert (seq c1 = S (seq c)) as -> by (by injection Ec as <-). pose proof (i_seq _ _ _ _ _ H). lia.
  - assert (inodes c1 = <[seq c := new_attrs a]> (inodes c)) as -> by (by injection Ec as <-). intros x [Hx N]%lookup_insert_None. rewrite lookup_insert_ne by done. rewrite Hl, b2z_false, Z.add_0_r by done. by apply (i_old _ _ _ _ _ H).
  - assert (inodes c1 = <[seq c := new_attrs a]> (inodes c)) as -> by (by injection Ec as <-). intros j' i' [[<- <-]|[N Hj']]%lookup_insert_Some.
    + exists a, (new_attrs a). split; [done|]. split; [by rewrite lookup_insert|]. split; [done|]. rewrite Hl, b2z_true, links_none by done. done.
    + destruct (i_new _ _ _ _ _ H _ _ Hj') as (a' & b' & Ha' & Hb' & Hab' & Hlb'). exists a', b'. split; [done|]. split; [by rewrite lookup_insert_ne|]. split; [done|]. rewrite Hl, b2z_false by done. lia.
  - intros x k' [Hx N]%lookup_insert_None. rewrite lookup_insert_ne by congruence. by apply (i_rows_old _ _ _ _ _ H).
  - intros q' p' k' j' Hq' [([= <- <-] & <-)|[N E]]%lookup_insert_Some.
    + rewrite lookup_insert_ne in Hq' by done. rewrite Hq in Hq'. injection Hq' as <-. split; [done|]. exists i. split; [done|]. by rewrite lookup_insert.
    + apply lookup_insert_Some in Hq' as [[<- <-]|[Nq Hq']]; [rewrite (i_rows_old _ _ _ _ _ H) in E by done; apply row_old in E as [[? ?] _]; congruence|].
      destruct (i_rows_new _ _ _ _ _ H _ _ _ _ Hq' E) as (? & i' & ? & Hi'). split; [done|]. exists i'. split; [done|]. rewrite lookup_insert_ne; [done|]. intros <-. congruence.
  - intros j' i' [[<- <-]|[N Hj']]%lookup_insert_Some Nt.
    + exists q, k. rewrite lookup_insert_ne by done. split; [by eexists|]. by rewrite lookup_insert.
    + destruct (i_reached _ _ _ _ _ H _ _ Hj' Nt) as (q' & k' & [p' Ho'] & Hr'). exists q', k'. split; [rewrite lookup_insert_ne by congruence; by eexists|]. rewrite lookup_insert_ne; [done|]. intros [= <- <-]. rewrite (Hfree k Hoff) in Hr'. done.
  - assert (symlinks c1 = match symlinks c !! i with Some t => <[seq c := t]> (symlinks c) | None => symlinks c end) as -> by (by injection Ec as <-). intros x. rewrite Horig. pose proof (i_sym _ _ _ _ _ H) as Hs.
    assert (symlinks c !! i = symlinks s0 !! i) as Esi by (rewrite Hs, orig_old; done). rewrite Esi. case_decide as D.
    + subst x. destruct (symlinks s0 !! i) eqn:E; [by rewrite lookup_insert|]. by apply no_data_sym.
    + destruct (symlinks s0 !! i) eqn:E; [rewrite lookup_insert_ne by done|]; apply Hs.
  - intros x k'. rewrite Ex, dup_lookup, Horig. pose proof (i_xattr _ _ _ _ _ H) as Hs. assert (xattrs c !! (i, k') = xattrs s0 !! (i, k')) as Esi by (rewrite Hs, orig_old; done). rewrite Esi. case_decide as D; [|apply Hs]. subst x. rewrite no_data_xattr by done. by destruct (xattrs s0 !! (i, k')).
  - intros x k'. rewrite Eb, dup_lookup, Horig. pose proof (i_blocks _ _ _ _ _ H) as Hs. assert (blocks c !! (i, k') = blocks s0 !! (i, k')) as Esi by (rewrite Hs, orig_old; done). rewrite Esi. case_decide as D; [|apply Hs]. subst x. rewrite no_data_blocks by done. by destruct (blocks s0 !! (i, k')).
  - assert (names c1 = bump (fun k => is_Some (xattrs c !! (i, k))) (names c)) as -> by (by injection Ec as <-). eapply names_ok_ext; [apply (names_ok_bump exact _ (fun k => uses c k + b2z (is_Some (xattrs c !! (i, k)))) (fun k' => k' = k)); [apply (names_ok_bump exact (names c) (uses c) (fun k => is_Some (xattrs c !! (i, k)))); [apply H|]|]|].
    + intros k' [v Hv]. by eapply uses_xattr.
    + cbn. intros k' ->. pose proof (uses_row _ _ _ Hcp). pose proof (b2z_pos (is_Some (xattrs c !! (i, k)))). lia.
    + intros k'. unfold uses. cbn. rewrite cnt_insert_new by by apply Hfree. cbn. rewrite Hux. unfold b2z. repeat case_decide; subst; try done; lia.
  - assert (names c1 = bump (fun k => is_Some (xattrs c !! (i, k))) (names c)) as -> by (by injection Ec as <-). intros n. rewrite !bump_ids. apply H.
  - assert (objects c1 = map_imap (fun o rc => Some (rc + count_obj (filter (fun kv => kv.1.1 = seq c) (dup i (seq c) (blocks c))) o)) (objects c)) as Eo by (by injection Ec as <-).
    destruct (i_objects _ _ _ _ _ H) as [O1 O2]. split; cbn.
    + intros o rc. rewrite Eo, map_lookup_imap. destruct (objects c !! o) as [rc0|] eqn:E; [|done]. cbn. intros [= <-]. destruct (O1 _ _ E) as [-> Hpos]. rewrite Eb, cnt_dup_obj; [|intros; by apply no_data_blocks|done]. split; [lia|]. rewrite dup_cnt by (intros; by apply no_data_blocks).
      pose proof (cnt_nonneg (fun kv : nat * nat * nat => kv.1.1 = i /\ kv.2 = o) (blocks c)). cbn. lia.
    + intros x b o. rewrite Eb, dup_lookup, Eo, map_lookup_imap. intros E. assert (is_Some (objects c !! o)) as [rc ->]; [|by eexists]. case_decide; [|by eapply O2]. destruct (blocks c !! (i, b)) eqn:E1; [injection E as ->|]; by eapply O2.
  - intros i' j'. case_decide as D.
    + intros [[<- <-]|[N Hc]]%lookup_insert_Some; [by rewrite lookup_insert|]. destruct (i_cache _ _ _ _ _ H _ _ Hc). split; [|done]. rewrite lookup_insert_ne; [done|]. intros <-. congruence.
    + intros Hc. destruct (i_cache _ _ _ _ _ H _ _ Hc). split; [|done]. rewrite lookup_insert_ne; [done|]. intros <-. congruence.
  - intros i' j' a' [[<- <-]|[N Hj']]%lookup_insert_Some Nt Ha' Hr.
    + rewrite Ha in Ha'. injection Ha' as <-. rewrite decide_True by done. by rewrite lookup_insert.
    + pose proof (i_cached _ _ _ _ _ H _ _ _ Hj' Nt Ha' Hr) as Hc. case_decide; [|done]. rewrite lookup_insert_ne; [done|]. intros <-. congruence.
  - assert (opens c1 = opens c /\ failsafe c1 = failsafe c) as [-> ->] by (by injection Ec as <-). apply H.
  - pose proof (i_nodup _ _ _ _ _ H) as Nd. rewrite Eq in Nd. unfold push. destruct (has_children c1 i); [|exact Nd]. cbn. constructor; [|exact Nd]. intros [E|Hin]%elem_of_cons; [done|]. apply elem_of_list_fmap in Hin as ([[p' q'] off'] & E & Hin). cbn in E. subst q'.
    destruct (i_queue _ _ _ _ _ H p' (seq c) off') as (K & _); [rewrite Eq; by right|]. congruence.
  - intros p' q' off' [Hin|[[= -> -> ->]|Hin]%elem_of_cons]%elem_of_app.
    + unfold push in Hin. destruct (has_children c1 i); [|by apply elem_of_nil in Hin]. apply elem_of_list_singleton in Hin as [= -> -> ->]. rewrite lookup_insert. split; [done|]. split; [|intros; lia]. intros k' _. rewrite lookup_insert_ne by congruence. destruct (contents c !! (seq c, k')) eqn:E; [|done]. rewrite (i_rows_old _ _ _ _ _ H) in E by done. apply row_old in E as [[? ?] _]. congruence.
    + rewrite lookup_insert_ne by done. split; [done|]. split.
      * intros k' Hk'. rewrite lookup_insert_ne by (intros [= ->]; lia). apply Hfree. lia.
      * intros k' Hk' Hs. destruct (decide (k = k')) as [<-|N]; [rewrite lookup_insert; by eexists|]. rewrite lookup_insert_ne by congruence. apply Hdone; [|done]. destruct (decide (off < Z.of_nat k')) as [Hlt|]; [|lia]. rewrite (Hleast k' Hlt) in Hs by lia. by destruct Hs.
    + pose proof (queue_elem _ _ _ _ _ _ _ Eq Hin) as Nq. destruct (i_queue _ _ _ _ _ H p' q' off') as (K1 & K2 & K3); [rewrite Eq; by right|]. rewrite lookup_insert_ne by congruence. split; [done|]. split; intros k' Hk'; rewrite lookup_insert_ne by congruence; auto.
  - intros q' p' k' [[<- <-]|[Nq Hq']]%lookup_insert_Some Hn Hs.
    + exfalso. unfold push in Hn. assert (has_children c1 i = true) as E. { apply has_children_rows. destruct Hs as [j' Hs]. exists k', j'. rewrite Ect, (i_rows_old _ _ _ _ _ H) by done. done. }
      rewrite E in Hn. apply Hn. cbn. left.
    + assert (q' <> q) by (intros ->; apply Hn; rewrite fmap_app; apply elem_of_app; right; left). rewrite lookup_insert_ne by congruence. eapply (i_done _ _ _ _ _ H); [done| |done]. rewrite Eq. intros Hin. apply Hn. rewrite fmap_app. apply elem_of_app. right. exact Hin.
Qed.
End step.

(** * Several rows, passes, the loop *)
Fixpoint runs (p : nat) (off : Z) (l : list (nat * nat)) : Prop := match l with [] => True | (k, i) :: l => next_row p off k i /\ runs p (Z.of_nat k) l end.
Fixpoint final (off : Z) (l : list (nat * nat)) : Z := match l with [] => off | (k, _) :: l => final (Z.of_nat k) l end.
Lemma copy_row_size q k i cache c c' cache' push : copy_row q k i cache c = (c', cache', push, Done) -> base.size (contents c') = S (base.size (contents c)).
Proof.
  assert (forall j s s', add_row q k j s = Some s' -> base.size (contents s') = S (base.size (contents s))) as K.
  { intros j s s'. unfold add_row. destruct (contents s !! (q, k)) eqn:E; [done|]. intros [= <-]. cbn. by apply map_size_insert_None. }
  unfold copy_row. destruct (cache !! i) as [j|].
  - destruct (inodes c !! j); [|done]. destruct (add_row _ _ _ _) eqn:E; [|done]. intros [= <- _ _]. by apply K in E.
  - destruct (inodes c !! i) as [a|]; [|done]. destruct (copy_inode i a c) as [c1 j] eqn:Ec. assert (contents c1 = contents c) as <- by (by injection Ec as <-). destruct (add_row q k j c1) eqn:E; [|done]. intros [= <- _ _]. by apply K in E.
Qed.
Lemma copy_rows_ok tmp p q l : forall c org cache rest off, cp tmp c org cache ((p, q, off) :: rest) -> runs p off l ->
  exists c' org' cache' push, copy_rows q l cache c = (c', cache', push, Done) /\ cp tmp c' org' cache' ((p, q, final off l) :: push ++ rest) /\ (List.length push <= List.length l)%nat /\
    base.size (contents c') = (base.size (contents c) + List.length l)%nat.
Proof.
  induction l as [|[k i] l IH]; intros c org cache rest off H Hr.
  - exists c, org, cache, []. cbn. split; [done|]. split; [done|]. split; lia.
  - destruct Hr as [Hn Hr]. cbn [copy_rows final]. destruct (cache !! i) as [j|] eqn:Ej.
    + destruct (step_cached _ _ _ _ _ H _ _ _ _ _ _ _ eq_refl Hn Ej) as (c1 & E & H1). rewrite E. destruct (IH _ _ _ _ _ H1 Hr) as (c2 & org2 & cache2 & push & E2 & H2 & L2 & S2). rewrite E2. apply copy_row_size in E. exists c2, org2, cache2, (push ++ []). rewrite app_nil_r. split; [done|]. split; [done|]. cbn. split; lia.
    + destruct (step_new _ _ _ _ _ H _ _ _ _ _ _ eq_refl Hn Ej) as (c1 & cache1 & push1 & E & H1 & L1). rewrite E. eapply cp_perm in H1; [|symmetry; apply Permutation_middle]. destruct (IH _ _ _ _ _ H1 Hr) as (c2 & org2 & cache2 & push & E2 & H2 & L2 & S2). rewrite E2. apply copy_row_size in E. exists c2, org2, cache2, (push ++ push1). rewrite <- app_assoc. split; [done|]. split; [done|]. rewrite app_length. cbn. split; lia.
Qed.
Lemma crows_runs c p : (forall k, contents c !! (p, k) = contents s0 !! (p, k)) -> forall l off, StronglySorted crow_le l -> NoDup l.*1 -> (forall k i, (k, i) ∈ l <-> contents c !! (p, k) = Some i /\ off < Z.of_nat k) ->
  runs p off l /\ forall k, final off l < Z.of_nat k -> contents s0 !! (p, k) = None.
Proof.
  intros Hrow. induction l as [|[k i] l IH]; intros off Hs Nd Hl.
  - split; [done|]. intros k Hk. cbn in Hk. rewrite <- Hrow. destruct (contents c !! (p, k)) eqn:E; [|done]. assert ((k, n) ∈ ([] : list (nat * nat))) as Hin by by apply Hl. by apply elem_of_nil in Hin.
  - apply StronglySorted_inv in Hs as [Hs Hf]. rewrite Forall_forall in Hf. cbn in Nd. apply NoDup_cons in Nd as [Hn Nd]. assert (contents c !! (p, k) = Some i /\ off < Z.of_nat k) as [Hk Hoff] by (apply Hl; left).
    assert (forall k' i', (k', i') ∈ l -> (k < k')%nat) as Hlt. { intros k' i' Hin. pose proof (Hf _ Hin) as Hle. unfold crow_le in Hle. cbn in Hle. assert (k <> k'); [|lia]. intros <-. apply Hn. apply elem_of_list_fmap. by exists (k, i'). }
    destruct (IH (Z.of_nat k)) as [IH1 IH2]; [done|done| |].
    + intros k' i'. split.
      * intros Hin. split; [apply (Hl k' i'); by right|]. apply Hlt in Hin. lia.
      * intros [H1 H2]. assert ((k', i') ∈ (k, i) :: l) as [[= <- <-]|Hin]%elem_of_cons by (apply Hl; split; [done|lia]); [lia|done].
    + cbn. split; [|done]. split; [|done]. split; [by rewrite <- Hrow|]. split; [done|]. intros k' H1 H2. rewrite <- Hrow. destruct (contents c !! (p, k')) as [i'|] eqn:E; [|done].
      assert ((k', i') ∈ (k, i) :: l) as [[= -> _]|Hin]%elem_of_cons by (by apply Hl); [lia|]. apply Hlt in Hin. lia.
Qed.
Lemma crows_nodup c p off : NoDup (crows c p off).*1.
Proof.
  unfold crows. rewrite merge_sort_Permutation. generalize (NoDup_fst_map_to_list (contents c)). generalize (map_to_list (contents c)) as l. induction l as [|[[x k] i] l IH]; cbn; [intros; constructor|]. intros [Hn Nd]%NoDup_cons. case_decide as D; [|by apply IH]. cbn. constructor; [|by apply IH].
  intros ([k' i'] & Ek & Hin)%elem_of_list_fmap. cbn in Ek. subst k'. apply elem_of_list_omap in Hin as ([[x' k'] i''] & Hin & E). case_decide as D'; [|done]. injection E as -> _. destruct D as [-> _], D' as [-> _]. apply Hn. apply elem_of_list_fmap. by exists (p, k, i'').
Qed.
Lemma runs_take m p l : forall off, runs p off l -> runs p off (take m l).
Proof. revert m. induction l as [|[k i] l IH]; intros [|m] off H; try done. destruct H. split; [done|]. by apply IH. Qed.
Lemma final_last l : forall off, final off l = match last l with Some (k, _) => Z.of_nat k | None => off end.
Proof. induction l as [|[k i] l IH]; intros off; [done|]. cbn [final]. rewrite IH. destruct l as [|y l]; [done|]. change (last ((k, i) :: y :: l)) with (last (y :: l)). destruct (last (y :: l)) as [[? ?]|] eqn:E; [done|]. by apply last_None in E. Qed.
(** A directory whose rows have all been copied *)
Lemma cp_drop tmp c org cache p q off rest : cp tmp c org cache ((p, q, off) :: rest) -> (forall k, off < Z.of_nat k -> contents s0 !! (p, k) = None) -> cp tmp c org cache rest.
Proof.
  intros H Hn. pose proof (i_nodup _ _ _ _ _ H) as Nd. cbn in Nd. apply NoDup_cons in Nd as [Nq Nd]. destruct (i_queue _ _ _ _ _ H p q off) as (Hq & Hfree & Hdone); [left|]. destruct H. constructor; try done.
  - intros p' q' off' Hin. apply i_queue0. by right.
  - intros q' p' k Hq' Hnin Hs. destruct (decide (q' = q)) as [-> |N].
    + rewrite Hq in Hq'. injection Hq' as <-. apply Hdone; [|done]. destruct (decide (off < Z.of_nat k)) as [Hlt|]; [|lia]. rewrite Hn in Hs by done. by destruct Hs.
    + eapply i_done0; [done| |done]. intros [E|Hin]%elem_of_cons; done.
Qed.
Definition weight (c : fs) (queue : list task) : Z := 2 * (2 * Z.of_nat (base.size (contents s0)) - Z.of_nat (base.size (contents c))) + Z.of_nat (List.length queue).
Lemma pass_ok tmp brk p q off rest org cache c : cp tmp c org cache ((p, q, off) :: rest) ->
  exists c' org' cache' push, copy_pass brk p q off cache c = (c', cache', push, Done) /\ cp tmp c' org' cache' (push ++ rest) /\ weight c' (push ++ rest) < weight c ((p, q, off) :: rest).
Proof.
  intros H. destruct (i_queue _ _ _ _ _ H p q off) as (Hq & _); [left|]. destruct (i_org _ _ _ _ _ H _ _ Hq) as (_ & Hp & _). pose proof (old_not_new _ _ _ _ _ H p Hp) as Hpn.
  destruct (crows_runs c p (fun k => i_rows_old _ _ _ _ _ H p k Hpn) (crows c p off) off) as [Hr Hend]; [apply crows_sorted|apply crows_nodup|intros; apply crows_elem|].
  unfold copy_pass. destruct brk as [m|].
  - destruct (copy_rows_ok _ _ _ _ _ _ _ _ _ H (runs_take (S m) _ _ _ Hr)) as (c' & org' & cache' & push & E & H' & L & Sz). rewrite E. rewrite final_last in H'. destruct (last (take (S m) (crows c p off))) as [[k i]|] eqn:El.
    + exists c', org', cache', ((p, q, Z.of_nat k) :: push). split; [done|]. split; [done|]. unfold weight. cbn [List.length app]. rewrite !app_length. assert (0 < List.length (take (S m) (crows c p off)))%nat by (destruct (take (S m) (crows c p off)); [done|cbn; lia]). lia.
    + apply last_None in El. destruct (crows c p off) eqn:Ec; [|done]. cbn in E. injection E as <- <- <-. exists c, org', cache, []. split; [done|]. split; [|unfold weight; cbn; lia]. cbn in H'. eapply cp_drop; [exact H'|]. exact Hend.
  - destruct (copy_rows_ok _ _ _ _ _ _ _ _ _ H Hr) as (c' & org' & cache' & push & E & H' & L & Sz). exists c', org', cache', push. split; [done|]. split; [eapply cp_drop; [exact H'|exact Hend]|]. unfold weight. cbn [List.length]. rewrite !app_length. lia.
Qed.
Lemma loop_ok tmp queue cache c c' r : copy_loop queue cache c c' r -> forall org, cp tmp c org cache queue -> r = Done /\ exists org' cache', cp tmp c' org' cache' [].
Proof.
  induction 1 as [cache c|brk p q off rest cache c c1 cache1 push c' r E H IH|brk p q off rest cache c c1 cache1 push r E N]; intros org Hcp.
  - eauto.
  - destruct (pass_ok _ brk _ _ _ _ _ _ _ Hcp) as (c2 & org2 & cache2 & push2 & E2 & H2 & _). rewrite E in E2. injection E2 as -> -> ->. by apply (IH org2).
  - destruct (pass_ok _ brk _ _ _ _ _ _ _ Hcp) as (c2 & org2 & cache2 & push2 & E2 & H2 & _). rewrite E in E2. by injection E2 as -> -> -> ->.
Qed.

(** ** The loop ends *)
Lemma map_size_inj `{Countable K1, Countable K2} {A B} (m1 : gmap K1 A) (m2 : gmap K2 B) (f : K1 -> K2) : (forall k v, m1 !! k = Some v -> is_Some (m2 !! f k)) -> (forall k k', is_Some (m1 !! k) -> is_Some (m1 !! k') -> f k = f k' -> k = k') ->
  (base.size m1 <= base.size m2)%nat.
Proof.
  revert m2. induction m1 as [|k v m1 Hk IH] using map_ind; intros m2 Hf Hinj; [rewrite map_size_empty; lia|]. rewrite map_size_insert_None by done. destruct (Hf k v) as [w Hw]; [by rewrite lookup_insert|].
  assert (base.size m2 = S (base.size (delete (f k) m2))) as ->. { rewrite <- (insert_delete m2 (f k) w Hw) at 1. rewrite map_size_insert_None; [done|]. apply lookup_delete. }
  apply le_n_S. apply IH.
  - intros k' v' Hk'. assert (k <> k') by congruence. rewrite lookup_delete_ne; [apply (Hf k' v'); by rewrite lookup_insert_ne|]. intros E. apply Hinj in E; [congruence|rewrite lookup_insert; by eexists|rewrite lookup_insert_ne by done; by eexists].
  - intros k1 k2 [v1 H1] [v2 H2]. apply Hinj; [destruct (decide (k = k1)) as [<-|]; [congruence|rewrite lookup_insert_ne by done; by eexists]|destruct (decide (k = k2)) as [<-|]; [congruence|rewrite lookup_insert_ne by done; by eexists]].
Qed.
Lemma weight_pos tmp c org cache queue : cp tmp c org cache queue -> 0 <= weight c queue.
Proof.
  intros H. assert (base.size (contents c) <= base.size (contents s0) + base.size (contents s0))%nat; [|unfold weight; lia].
  assert (base.size (contents c) = (base.size (filter (fun kv => org !! kv.1.1 = None) (contents c)) + base.size (filter (fun kv => ~ org !! kv.1.1 = None) (contents c)))%nat) as ->.
  { rewrite <- map_size_disj_union by apply map_disjoint_filter_complement. by rewrite map_filter_union_complement. }
  apply Nat.add_le_mono.
  - apply (map_size_inj _ _ (fun x => x)); [|done]. intros [x k] v [E N]%map_filter_lookup_Some. cbn in N. rewrite (i_rows_old _ _ _ _ _ H) in E by done. by eexists.
  - apply (map_size_inj _ _ (fun x => (default 0%nat (org !! x.1), x.2))).
    + intros [q k] v [E N]%map_filter_lookup_Some. cbn in *. destruct (org !! q) as [p|] eqn:Eq; [|done]. destruct (i_rows_new _ _ _ _ _ H _ _ _ _ Eq E) as (_ & i & Hi & _). cbn. by eexists.
    + intros [q k] [q' k'] [v [E N]%map_filter_lookup_Some] [v' [E' N']%map_filter_lookup_Some]. cbn in *. destruct (org !! q) as [p|] eqn:Eq; [|done]. destruct (org !! q') as [p'|] eqn:Eq'; [|done]. cbn. intros [= -> ->]. f_equal. by eapply (i_inj _ _ _ _ _ H).
Qed.
End copy.
