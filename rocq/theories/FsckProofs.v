(** Names, references and counts through the checks of fsck. *)
From stdpp Require Import prelude gmap.
From Coq Require Import ZArith Lia.
From Verif Require Import Count Decimal FsckModel.

(** * Loops *)
Lemma each_inv {A} (I : fsck -> Prop) (l : list A) f s s' :
  (forall a t t', a ∈ l -> I t -> f a t = Some t' -> I t') -> I s -> each l f s = Some s' -> I s'.
Proof.
  revert s. induction l as [|a l IH]; intros s Hf Hs E; cbn in E; [by inversion E; subst|].
  destruct (f a s) as [t|] eqn:Ea; [|done]. eapply (IH t); [|by eapply Hf; [left| |]|done]. intros b t1 t2 Hb. apply Hf. by right.
Qed.
Lemma each_rel {A} (R : fsck -> fsck -> Prop) `{!Reflexive R, !Transitive R} (l : list A) f s s' :
  (forall a t t', a ∈ l -> f a t = Some t' -> R t t') -> each l f s = Some s' -> R s s'.
Proof.
  intros Hf. apply (each_inv (R s)); [|reflexivity]. intros a t t' Ha H E. etrans; [exact H|by eapply Hf].
Qed.
(** What a step achieves for its row and the others keep holds for all rows at the end. *)
Lemma each_done {A} (I : fsck -> Prop) (P : A -> fsck -> Prop) (l : list A) f s s' :
  (forall a t t', a ∈ l -> I t -> f a t = Some t' -> I t' /\ P a t') -> (forall a b t t', a ∈ l -> b ∈ l -> I t -> P b t -> f a t = Some t' -> P b t') ->
  I s -> each l f s = Some s' -> forall a, a ∈ l -> P a s'.
Proof.
  revert s. induction l as [|a l IH]; intros s Hf Hk Hs E b Hb; [by apply elem_of_nil in Hb|]. cbn in E.
  destruct (f a s) as [t|] eqn:Ea; [|done]. destruct (Hf a s t) as [It Pt]; [left|done|done|].
  apply elem_of_cons in Hb as [->|Hb].
  - enough (I s' /\ P a s') as [_ ?] by done. refine (each_inv (fun u => I u /\ P a u) l f t s' _ (conj It Pt) E).
    intros c u u' Hc [Iu Pu] Eu. split; [by eapply Hf; [right|..]|]. eapply Hk; [by right|left|done|done|done].
  - eapply (IH t); [| |exact It|exact E|exact Hb].
    + intros c u u' Hc. apply Hf. by right.
    + intros c d u u' Hc Hd. apply Hk; by right.
Qed.

Lemma filter_keys {A} (P : nat * A -> Prop) `{!forall x, Decision (P x)} (l : list (nat * A)) : NoDup l.*1 -> NoDup (filter P l).*1.
Proof.
  induction l as [|a l IH]; [intros _; constructor|]. rewrite fmap_cons, NoDup_cons. intros [Hni Hd]. rewrite filter_cons. case_decide; [|auto]. rewrite fmap_cons. apply NoDup_cons. split; [|auto].
  intros Hin. apply Hni. apply elem_of_list_fmap in Hin as (b & E & Hb). apply elem_of_list_filter in Hb as [_ Hb]. apply elem_of_list_fmap. eauto.
Qed.
Lemma omap_keys {A B} (f : nat * A -> option (nat * B)) (l : list (nat * A)) : (forall a b, f a = Some b -> b.1 = a.1) -> NoDup l.*1 -> NoDup (omap f l).*1.
Proof.
  intros Hf. induction l as [|a l IH]; [intros _; constructor|]. rewrite fmap_cons, NoDup_cons. intros [Hni Hd]. cbn. destruct (f a) as [b|] eqn:E; [|auto].
  rewrite fmap_cons, (Hf _ _ E). apply NoDup_cons. split; [|auto]. intros Hin. apply Hni. apply elem_of_list_fmap in Hin as (c & Ec & Hc).
  apply elem_of_list_omap in Hc as (d & Hd1 & Hd2). apply Hf in Hd2. apply elem_of_list_fmap. exists d. split; [congruence|done].
Qed.
Lemma foldr_max z l : (z <= foldr Z.max z l)%Z /\ forall x, x ∈ l -> (x <= foldr Z.max z l)%Z.
Proof.
  induction l as [|a l [IH1 IH2]]; cbn; [split; [lia|]; intros x H; by apply elem_of_nil in H|]. split; [lia|]. intros x [->|H]%elem_of_cons; [lia|]. specialize (IH2 _ H). lia.
Qed.
(** * References to names *)
Lemma uses_nonneg C X j : (0 <= uses C X j)%Z.
Proof. unfold uses. pose proof (cnt_nonneg (fun kv : nat * centry => c_name kv.2 = j) C). pose proof (cnt_nonneg (fun kv : nat * xrow => x_name kv.2 = j) X). lia. Qed.
Lemma uses_contents C X k e : C !! k = Some e -> (0 < uses C X (c_name e))%Z.
Proof.
  intros H. unfold uses. pose proof (cnt_pos (fun kv : nat * centry => c_name kv.2 = c_name e) C k e H eq_refl).
  pose proof (cnt_nonneg (fun kv : nat * xrow => x_name kv.2 = c_name e) X). lia.
Qed.
Lemma uses_xattrs C X k r : X !! k = Some r -> (0 < uses C X (x_name r))%Z.
Proof.
  intros H. unfold uses. pose proof (cnt_pos (fun kv : nat * xrow => x_name kv.2 = x_name r) X k r H eq_refl).
  pose proof (cnt_nonneg (fun kv : nat * centry => c_name kv.2 = x_name r) C). lia.
Qed.
Lemma uses_insert C X k e j : C !! k = None -> uses (<[k := e]> C) X j = (uses C X j + b2z (c_name e = j))%Z.
Proof. intros H. unfold uses. rewrite cnt_insert_new by done. cbn. lia. Qed.
Lemma uses_delete C X k e j : C !! k = Some e -> uses (delete k C) X j = (uses C X j - b2z (c_name e = j))%Z.
Proof. intros H. unfold uses. rewrite (cnt_delete _ C k e) by done. cbn. lia. Qed.
Lemma uses_update C X k e e' j : C !! k = Some e -> uses (<[k := e']> C) X j = (uses C X j - b2z (c_name e = j) + b2z (c_name e' = j))%Z.
Proof. intros H. unfold uses. rewrite (cnt_update _ C k e) by done. cbn. lia. Qed.
Lemma uses_xdelete C X k r j : X !! k = Some r -> uses C (delete k X) j = (uses C X j - b2z (x_name r = j))%Z.
Proof. intros H. unfold uses. rewrite (cnt_delete _ X k r) by done. cbn. lia. Qed.
Lemma uses_xupdate C X k r r' j : X !! k = Some r -> uses C (<[k := r']> X) j = (uses C X j - b2z (x_name r = j) + b2z (x_name r' = j))%Z.
Proof. intros H. unfold uses. rewrite (cnt_update _ X k r) by done. cbn. lia. Qed.

(** Counts of names, and names that exist *)
Definition counted (m : gmap nat (name * Z)) (u : nat -> Z) : Prop := forall id nr, m !! id = Some nr -> nr.2 = u id.
Lemma counted_drop m u id : counted m u -> counted (drop_name id m) (fun j => u j - b2z (id = j))%Z.
Proof.
  intros H j nr E. unfold drop_name in E. destruct (m !! id) as [[n r]|] eqn:Eid.
  - case_decide as D.
    + apply lookup_delete_Some in E as [N E]. rewrite b2z_false by done. rewrite (H _ _ E). lia.
    + destruct (decide (id = j)) as [<-|N].
      * rewrite lookup_insert in E. injection E as <-. cbn. rewrite b2z_true by done. by rewrite <- (H _ _ Eid).
      * rewrite lookup_insert_ne in E by done. rewrite b2z_false by done. rewrite (H _ _ E). lia.
  - destruct (decide (id = j)) as [<-|N]; [congruence|]. rewrite b2z_false by done. rewrite (H _ _ E). lia.
Qed.
Lemma counted_ext m u v : (forall j, is_Some (m !! j) -> u j = v j) -> counted m u -> counted m v.
Proof. intros E H id nr Hi. rewrite <- E by eauto. by apply H. Qed.
(** A name with another reference is kept. *)
Lemma drop_name_keeps m u id j : counted m u -> is_Some (m !! j) -> (0 < u j - b2z (id = j))%Z -> is_Some (drop_name id m !! j).
Proof.
  intros H [nr Hj] Hp. unfold drop_name. destruct (m !! id) as [[n r]|] eqn:Eid; [|eauto]. destruct (decide (id = j)) as [<-|N].
  - rewrite Hj in Eid. injection Eid as ->. rewrite b2z_true in Hp by done. pose proof (H _ _ Hj) as Hr. cbn in Hr.
    rewrite decide_False by lia. rewrite lookup_insert. eauto.
  - rewrite b2z_false in Hp by done. case_decide; [rewrite lookup_delete_ne by done|rewrite lookup_insert_ne by done]; eauto.
Qed.
Lemma drop_name_sub m id j : is_Some (drop_name id m !! j) -> is_Some (m !! j).
Proof.
  unfold drop_name. destruct (m !! id) as [[n r]|] eqn:E; [|done]. case_decide.
  - destruct (decide (id = j)) as [<-|]; [rewrite E; eauto|by rewrite lookup_delete_ne].
  - destruct (decide (id = j)) as [<-|]; [rewrite E; eauto|by rewrite lookup_insert_ne].
Qed.

Section proofs.
Context `{Env0 : env}.

Lemma pick_elem {A} (l : list A) a : pick l = Some a -> a ∈ l.
Proof. unfold pick. intros H. rewrite <- (scan_perm A l). destruct (scan A l); inversion H; subst. left. Qed.
Lemma pick_none {A} (l : list A) : pick l = None -> l = [].
Proof. unfold pick. intros H. apply Permutation_nil. rewrite <- (scan_perm A l). by destruct (scan A l). Qed.
Lemma rows_elem {A} (m : gmap nat A) k v : (k, v) ∈ rows m <-> m !! k = Some v.
Proof. unfold rows. rewrite scan_perm. apply elem_of_map_to_list. Qed.
Lemma new_lookup {A} (m : gmap nat A) : m !! new (dom m) = None.
Proof. apply not_elem_of_dom. apply new_fresh. Qed.

(** What is left of a state after other fields have been changed *)
Definition nc (s : fsck) : Prop := counted (names s) (uses (contents s) (xattrs s)).
Definition cn (s : fsck) : Prop := forall k e, contents s !! k = Some e -> is_Some (names s !! c_name e).
Definition ci (s : fsck) : Prop := forall k e, contents s !! k = Some e -> is_Some (inodes s !! c_inode e).
Definition cp (s : fsck) : Prop := forall k e, contents s !! k = Some e -> is_Some (inodes s !! c_parent e).
Definition xn (s : fsck) : Prop := forall k r, xattrs s !! k = Some r -> is_Some (names s !! x_name r).
Definition xi (s : fsck) : Prop := forall k r, xattrs s !! k = Some r -> is_Some (inodes s !! x_inode r).
Definition bi (s : fsck) : Prop := forall k r, blocks s !! k = Some r -> is_Some (inodes s !! b_inode r).
Definition li (s : fsck) : Prop := forall i l, links s !! i = Some l -> is_Some (inodes s !! i).

Lemma add_name_spec C X n s id s1 : add_name C X n s = (id, s1) ->
  exists r b, s1 = set_captured b (set_names (<[id := (n, (r + 1)%Z)]> (names s)) s) /\
    ((names s !! id = Some (n, r) /\ b = false) \/ (names s !! id = None /\ r = 0%Z /\ b = bool_decide (uses C X id <> 0%Z))).
Proof.
  unfold add_name. destruct (pick _) as [[j [n' r]]|] eqn:E; intros H; injection H as <- <-.
  - apply pick_elem in E. apply elem_of_list_filter in E as [En E]. cbn in En. subst n'. apply elem_of_map_to_list in E.
    exists r, false. split; [|by left]. unfold set_captured, set_names. cbn. by rewrite orb_false_r.
  - exists 0%Z, (bool_decide (uses C X (new (dom (names s))) <> 0%Z)). split; [done|]. right. split; [apply new_lookup|done].
Qed.
Lemma add_name_counted C X n s id s1 : add_name C X n s = (id, s1) -> captured s1 = false -> counted (names s) (uses C X) ->
  captured s = false /\ counted (names s1) (fun j => uses C X j + b2z (id = j))%Z.
Proof.
  intros E Hc H. apply add_name_spec in E as (r & b & -> & D). cbn in *. apply orb_false_elim in Hc as [Hc Hb]. split; [done|].
  intros j nr E. destruct (decide (id = j)) as [<-|N].
  - rewrite lookup_insert in E. injection E as <-. cbn. rewrite b2z_true by done. destruct D as [[E _]|(E & -> & ->)]; [by rewrite <- (H _ _ E)|].
    case_bool_decide as U; [done|]. lia.
  - rewrite lookup_insert_ne in E by done. rewrite b2z_false by done. rewrite (H _ _ E). lia.
Qed.
Lemma add_name_names C X n s id s1 : add_name C X n s = (id, s1) -> is_Some (names s1 !! id) /\ forall j, is_Some (names s !! j) -> is_Some (names s1 !! j).
Proof.
  intros E. apply add_name_spec in E as (r & b & -> & D). cbn. split; [rewrite lookup_insert; eauto|].
  intros j Hj. destruct (decide (id = j)) as [<-|N]; [rewrite lookup_insert; eauto|by rewrite lookup_insert_ne].
Qed.
Lemma add_name_frame C X n s id s1 : add_name C X n s = (id, s1) ->
  contents s1 = contents s /\ inodes s1 = inodes s /\ blocks s1 = blocks s /\ objects s1 = objects s /\ xattrs s1 = xattrs s /\ links s1 = links s /\ store s1 = store s /\
  cache s1 = cache s /\ unlinked s1 = unlinked s /\ found s1 = found s /\ uncorrectable s1 = uncorrectable s /\ taken s1 = taken s.
Proof. intros E. apply add_name_spec in E as (r & b & -> & D). by cbn. Qed.
Lemma add_name_mono C X n s id s1 : add_name C X n s = (id, s1) -> captured s1 = false -> captured s = false.
Proof. intros E. apply add_name_spec in E as (r & b & -> & D). cbn. by intros [? _]%orb_false_elim. Qed.

(** Names that exist, but for those in [D] *)
Definition cov (D : nat -> Prop) (s : fsck) : Prop := forall k e, contents s !! k = Some e -> is_Some (names s !! c_name e) \/ D (c_name e).
Lemma cov_cn s : cn s <-> cov (fun _ => False) s.
Proof. split; intros H k e Hk; [left; by apply (H k)|by destruct (H k e Hk)]. Qed.
(** Ids that nothing refers to *)
Lemma add_name_uncaptured (D : nat -> Prop) C X n s id s1 : (forall Y, ~ D (new Y)) -> (forall k e, C !! k = Some e -> is_Some (names s !! c_name e) \/ D (c_name e)) ->
  (forall k r, X !! k = Some r -> is_Some (names s !! x_name r)) -> add_name C X n s = (id, s1) -> captured s1 = captured s.
Proof.
  intros HD HC HX. unfold add_name. destruct (pick _) as [[j [n' r]]|] eqn:E; intros H; injection H as <- <-; [done|]. cbn.
  rewrite bool_decide_eq_false_2; [by rewrite orb_false_r|]. intros Hu. destruct Hu. set (j := new (dom (names s))). assert (names s !! j = None) as Hj by apply new_lookup. unfold uses.
  assert (cnt (fun kv : nat * centry => c_name kv.2 = j) C = 0%Z) as -> .
  { apply cnt_none. intros k e Hk Ej. cbn in Ej. destruct (HC k e Hk) as [[x Hx]|Hx]; [congruence|]. rewrite Ej in Hx. by apply HD in Hx. }
  assert (cnt (fun kv : nat * xrow => x_name kv.2 = j) X = 0%Z) as -> ; [|done]. apply cnt_none. intros k r Hk Ej. cbn in Ej. destruct (HX k r Hk) as [x Hx]. congruence.
Qed.
Lemma entry_spec s p n k e : entry s p n = Some (k, e) -> contents s !! k = Some e /\ c_parent e = p /\ name_of s (c_name e) = Some n.
Proof.
  unfold entry. intros H. apply pick_elem in H. apply elem_of_list_filter in H as [[H1 H2] H]. apply elem_of_map_to_list in H. done.
Qed.
Lemma entry_none s p n : entry s p n = None -> forall k e, contents s !! k = Some e -> c_parent e = p -> name_of s (c_name e) <> Some n.
Proof.
  unfold entry. intros H k e Hk Hp Hn. apply pick_none in H. assert ((k, e) ∈ @nil (nat * centry)) as Q; [|by apply elem_of_nil in Q].
  rewrite <- H. apply elem_of_list_filter. split; [done|]. by apply elem_of_map_to_list.
Qed.
Lemma resolve_free_parent s n p n' : resolve_free s n = Some (p, n') -> lost_found s = Some p.
Proof. unfold resolve_free. destruct (lost_found s); [|done]. destruct (search _ _ _ _); [|done]. intros H. by injection H as -> ->. Qed.
Lemma lost_found_inode s p : lost_found s = Some p -> ci s -> is_Some (inodes s !! p).
Proof.
  unfold lost_found. destruct (entry s ROOT (Blob LOF)) as [[k e]|] eqn:E; [|done]. cbn. intros H Hc. injection H as <-.
  apply entry_spec in E as [E _]. by apply (Hc k).
Qed.
Lemma put_contents_spec c s s' : put_contents c s = Some s' -> s' = set_contents c s /\ unique c.
Proof. unfold put_contents. case_decide; [|done]. intros H1. by injection H1 as <-. Qed.

(** * What all checks from check_contents_name on keep *)
Record keep (s s' : fsck) : Prop := {
  k_cap : captured s' = false -> captured s = false;
  k_tak : taken s' = false -> taken s = false;
  k_nc : captured s' = false -> taken s' = false -> nc s -> nc s';
  k_cov : forall D, captured s' = false -> taken s' = false -> nc s -> cov D s -> cov D s';
  k_xn : captured s' = false -> taken s' = false -> nc s -> xn s -> xn s';
  k_ino : forall i, is_Some (inodes s !! i) -> is_Some (inodes s' !! i);
  k_ci : ci s -> ci s';
  k_cp : ci s -> cp s -> cp s';
  k_xi : xi s -> xi s'; k_bi : bi s -> bi s'; k_li : li s -> li s';
  k_q : forall D, (forall X, ~ D (new X)) -> captured s = false -> taken s = false -> nc s -> xn s -> cov D s -> captured s' = false /\ taken s' = false;
  k_unc : uncorrectable s' = uncorrectable s }.
Lemma k_cn s s' : keep s s' -> captured s' = false -> taken s' = false -> nc s -> cn s -> cn s'.
Proof. intros K Hc Ht Hn H. apply cov_cn. apply (k_cov _ _ K); [done|done|done|]. by apply cov_cn. Qed.
#[global] Instance keep_refl : Reflexive keep.
Proof. split; auto. Qed.
#[global] Instance keep_trans : Transitive keep.
Proof.
  intros s1 s2 s3 A B. destruct A, B. split; auto; try congruence. intros D HD Hc Ht Hn Hx Hv. destruct (k_q0 D) as [Hc2 Ht2]; auto. apply (k_q1 D); auto.
Qed.
(** Changes of flags, objects, store, and what does not occur above *)
Lemma keep_same s s' : names s' = names s -> contents s' = contents s -> xattrs s' = xattrs s -> captured s' = captured s -> taken s' = taken s ->
  (forall i, is_Some (inodes s !! i) -> is_Some (inodes s' !! i)) -> (forall k r, blocks s' !! k = Some r -> blocks s !! k = Some r) -> (forall i l, links s' !! i = Some l -> links s !! i = Some l) ->
  uncorrectable s' = uncorrectable s -> keep s s'.
Proof.
  intros E1 E2 E3 E4 E5 Hi Hb Hl Hu. split; unfold nc, cov, xn, ci, cp, xi, bi, li; rewrite ?E1, ?E2, ?E3, ?E4, ?E5; eauto.
Qed.
(** An entry gets another name, its old one being dropped or missing, or is new. *)
Lemma keep_contents s s' C' :
  contents s' = C' -> xattrs s' = xattrs s -> inodes s' = inodes s -> blocks s' = blocks s -> links s' = links s -> uncorrectable s' = uncorrectable s ->
  (captured s' = false -> captured s = false) -> taken s' = taken s -> (forall D, (forall X, ~ D (new X)) -> captured s = false -> nc s -> xn s -> cov D s -> captured s' = false) ->
  (captured s' = false -> nc s -> nc s') -> (captured s' = false -> nc s -> forall j, is_Some (names s !! j) -> (0 < uses C' (xattrs s) j)%Z -> is_Some (names s' !! j)) ->
  (forall k e, C' !! k = Some e -> (is_Some (names s' !! c_name e) \/ exists k' e', contents s !! k' = Some e' /\ c_name e' = c_name e) /\
    (is_Some (inodes s !! c_inode e) \/ exists k' e', contents s !! k' = Some e' /\ c_inode e' = c_inode e) /\
    (lost_found s = Some (c_parent e) \/ exists k' e', contents s !! k' = Some e' /\ c_parent e' = c_parent e)) -> keep s s'.
Proof.
  intros E1 E2 E3 E4 E5 E6 Hc Ht Hq Hn Hj He. split; unfold xi, bi, li; rewrite ?E2, ?E3, ?E4, ?E5, ?E6, ?Ht; auto.
  - intros D Hc' _ H1 H2 k e Hk. rewrite E1 in Hk. destruct (He k e Hk) as ([Hx|(k' & e' & Hx & Ex)] & _); [by left|].
    destruct (H2 k' e' Hx) as [Hy|Hy]; [left|right; by rewrite <- Ex]. apply Hj; [done|done| |by apply (uses_contents _ _ k)]. by rewrite <- Ex.
  - intros Hc' _ H1 H2 k r Hk. rewrite E2 in Hk. apply Hj; [done|done|by apply (H2 k)|by apply (uses_xattrs _ _ k)].
  - intros H k e Hk. rewrite E3. rewrite E1 in Hk. destruct (He k e Hk) as (_ & [Hx|(k' & e' & Hx & Ex)] & _); [done|]. rewrite <- Ex. by apply (H k').
  - intros H H' k e Hk. rewrite E3. rewrite E1 in Hk. destruct (He k e Hk) as (_ & _ & [Hx|(k' & e' & Hx & Ex)]); [by apply lost_found_inode|]. rewrite <- Ex. by apply (H' k').
  - intros D HD Hc' Ht' H1 H2 H3. split; [by apply (Hq D)|done].
Qed.

Lemma move_entry_spec k nid p s s' e : contents s !! k = Some e -> move_entry k nid p s = Some s' -> s' = set_contents (<[k := Centry nid (c_inode e) p]> (contents s)) s.
Proof. intros E. unfold move_entry. rewrite E. by intros [-> _]%put_contents_spec. Qed.
Lemma moved_entries s k e nid p : contents s !! k = Some e -> lost_found s = Some p -> forall s', is_Some (names s' !! nid) ->
  forall k' e', <[k := Centry nid (c_inode e) p]> (contents s) !! k' = Some e' -> (is_Some (names s' !! c_name e') \/ exists k2 e2, contents s !! k2 = Some e2 /\ c_name e2 = c_name e') /\
    (is_Some (inodes s !! c_inode e') \/ exists k2 e2, contents s !! k2 = Some e2 /\ c_inode e2 = c_inode e') /\
    (lost_found s = Some (c_parent e') \/ exists k2 e2, contents s !! k2 = Some e2 /\ c_parent e2 = c_parent e').
Proof.
  intros Hk Hp s' Hn k' e' H. destruct (decide (k = k')) as [<-|N].
  - rewrite lookup_insert in H. injection H as <-. cbn. split; [by left|]. split; [right; by exists k, e|by left].
  - rewrite lookup_insert_ne in H by done. split; [|split]; right; by exists k', e'.
Qed.
(** The old name was missing. *)
Lemma keep_rename s k e n nid s1 p s' : contents s !! k = Some e -> names s !! c_name e = None -> lost_found s = Some p ->
  add_name (delete k (contents s)) (xattrs s) n s = (nid, s1) -> move_entry k nid p s1 = Some s' -> keep s s' /\ is_Some (names s' !! nid) /\
  contents s' = <[k := Centry nid (c_inode e) p]> (contents s) /\ (forall j, is_Some (names s !! j) -> is_Some (names s' !! j)).
Proof.
  intros Hk Hn Hp Ea Em. pose proof (add_name_frame _ _ _ _ _ _ Ea) as (F1 & F2 & F3 & F4 & F5 & F6 & F7 & F8 & F9 & F10 & F11 & F12).
  pose proof (add_name_names _ _ _ _ _ _ Ea) as [Hi Hd]. pose proof (add_name_mono _ _ _ _ _ _ Ea) as Hm.
  rewrite <- F1 in Hk. apply (move_entry_spec _ _ _ _ _ _ Hk) in Em. subst s'. cbn. rewrite F1 in *. split_and!; auto.
  apply (keep_contents s _ (<[k := Centry nid (c_inode e) p]> (contents s))); cbn; auto.
  - intros D HD Hc _ Hx Hv. rewrite <- Hc. apply (add_name_uncaptured D) in Ea; auto. intros k' e' [_ Hk']%lookup_delete_Some. by apply (Hv k').
  - intros Hc H. unfold nc. cbn. rewrite F5. destruct (add_name_counted _ _ _ _ _ _ Ea Hc) as [_ Hx].
    + refine (counted_ext _ _ _ _ H). intros j [nr Hj]. rewrite (uses_delete _ _ _ _ _ Hk). rewrite b2z_false; [lia|]. intros <-. congruence.
    + refine (counted_ext _ _ _ _ Hx). intros j _. cbn. rewrite (uses_update _ _ _ _ _ _ Hk), (uses_delete _ _ _ _ _ Hk). cbn. lia.
  - apply moved_entries; auto.
Qed.
(** The old name is dropped first. *)
Lemma keep_drop_add s k e n nid s1 p s' : contents s !! k = Some e -> lost_found s = Some p ->
  add_name (delete k (contents s)) (xattrs s) n (del_name (c_name e) s) = (nid, s1) -> move_entry k nid p s1 = Some s' -> keep s s' /\ contents s' = <[k := Centry nid (c_inode e) p]> (contents s).
Proof.
  intros Hk Hp Ea Em. pose proof (add_name_frame _ _ _ _ _ _ Ea) as (F1 & F2 & F3 & F4 & F5 & F6 & F7 & F8 & F9 & F10 & F11 & F12). cbn in F1, F2, F3, F4, F5, F6, F7, F8, F9, F10, F11, F12.
  pose proof (add_name_names _ _ _ _ _ _ Ea) as [Hi Hd]. pose proof (add_name_mono _ _ _ _ _ _ Ea) as Hm.
  rewrite <- F1 in Hk. apply (move_entry_spec _ _ _ _ _ _ Hk) in Em. subst s'. cbn. rewrite F1 in *. split; [|done].
  assert (nc s -> counted (drop_name (c_name e) (names s)) (uses (delete k (contents s)) (xattrs s))) as Hdrop.
  { intros H. refine (counted_ext _ _ _ _ (counted_drop _ _ (c_name e) H)). intros j _. cbn. by rewrite (uses_delete _ _ _ _ _ Hk). }
  apply (keep_contents s _ (<[k := Centry nid (c_inode e) p]> (contents s))); cbn; auto.
  - intros D HD Hc Hn Hx Hv. rewrite <- Hc. apply (add_name_uncaptured D) in Ea; auto; cbn.
    + intros k' e' Hk'. pose proof Hk' as [N Hk2]%lookup_delete_Some. destruct (Hv k' e' Hk2) as [Hy|Hy]; [left|by right]. apply (drop_name_keeps _ _ _ _ Hn Hy).
      rewrite <- (uses_delete _ _ _ _ _ Hk). by apply (uses_contents _ _ k').
    + intros k' r' Hk'. apply (drop_name_keeps _ _ _ _ Hn (Hx k' r' Hk')). rewrite <- (uses_delete _ _ _ _ _ Hk). by apply (uses_xattrs _ _ k').
  - intros Hc H. unfold nc. cbn. rewrite F5. destruct (add_name_counted _ _ _ _ _ _ Ea Hc) as [_ Hx]; [by apply Hdrop|].
    refine (counted_ext _ _ _ _ Hx). intros j _. cbn. rewrite (uses_update _ _ _ _ _ _ Hk), (uses_delete _ _ _ _ _ Hk). cbn. lia.
  - intros Hc H j Hj Hu. destruct (decide (nid = j)) as [<-|N]; [done|]. apply Hd. apply (drop_name_keeps _ _ _ _ H Hj).
    rewrite (uses_update _ _ _ _ _ _ Hk) in Hu. cbn in Hu. rewrite (b2z_false (nid = j)) in Hu by done. lia.
  - apply moved_entries; auto.
Qed.
(** The old name is dropped at the end. *)
Lemma keep_add_drop s k e n nid s1 p s' : contents s !! k = Some e -> lost_found s = Some p ->
  add_name (contents s) (xattrs s) n s = (nid, s1) -> move_entry k nid p s1 = Some s' -> keep s (del_name (c_name e) s') /\ contents s' = <[k := Centry nid (c_inode e) p]> (contents s).
Proof.
  intros Hk Hp Ea Em. pose proof (add_name_frame _ _ _ _ _ _ Ea) as (F1 & F2 & F3 & F4 & F5 & F6 & F7 & F8 & F9 & F10 & F11 & F12).
  pose proof (add_name_names _ _ _ _ _ _ Ea) as [Hi Hd]. pose proof (add_name_mono _ _ _ _ _ _ Ea) as Hm.
  rewrite <- F1 in Hk. apply (move_entry_spec _ _ _ _ _ _ Hk) in Em. subst s'. cbn. rewrite F1 in *. split; [|done].
  assert (captured s1 = false -> nc s -> counted (names s1) (fun j => uses (contents s) (xattrs s) j + b2z (nid = j))%Z) as Hadd.
  { intros Hc H. by destruct (add_name_counted _ _ _ _ _ _ Ea Hc) as [_ Hx]. }
  assert (captured s1 = false -> nc s -> forall j, is_Some (names s1 !! j) -> (0 < uses (<[k := Centry nid (c_inode e) p]> (contents s)) (xattrs s) j)%Z -> is_Some (drop_name (c_name e) (names s1) !! j)) as Hkeep.
  { intros Hc H j Hj Hu. apply (drop_name_keeps _ _ _ _ (Hadd Hc H) Hj). rewrite (uses_update _ _ _ _ _ _ Hk) in Hu. cbn in Hu. lia. }
  split; cbn; rewrite ?F11, ?F12; auto; unfold xi, bi, li; cbn; rewrite ?F2, ?F3, ?F5, ?F6; auto.
  - intros Hc _ H. unfold nc. cbn. rewrite F5. refine (counted_ext _ _ _ _ (counted_drop _ _ (c_name e) (Hadd Hc H))). intros j _. cbn.
    rewrite (uses_update _ _ _ _ _ _ Hk). cbn. lia.
  - intros D Hc _ H H' k' e' Hk'. cbn in *. assert (is_Some (names s1 !! c_name e') \/ D (c_name e')) as [Hy|Hy]; [|left|by right].
    2: { apply Hkeep; auto. by apply (uses_contents _ _ k'). }
    destruct (decide (k = k')) as [<-|N]; [rewrite lookup_insert in Hk'; injection Hk' as <-; by left|]. rewrite lookup_insert_ne in Hk' by done. destruct (H' k' e' Hk'); auto.
  - intros Hc _ H H' k' r Hk'. cbn in *. rewrite F5 in Hk'. apply Hkeep; auto; [|by apply (uses_xattrs _ _ k')]. apply Hd. by apply (H' k').
  - intros H k' e' Hk'. cbn in *. rewrite F2. destruct (decide (k = k')) as [<-|N]; [rewrite lookup_insert in Hk'; injection Hk' as <-; cbn; by apply (H k)|].
    rewrite lookup_insert_ne in Hk' by done. by apply (H k').
  - intros H H' k' e' Hk'. cbn in *. rewrite F2. destruct (decide (k = k')) as [<-|N]; [rewrite lookup_insert in Hk'; injection Hk' as <-; cbn; by apply lost_found_inode|].
    rewrite lookup_insert_ne in Hk' by done. by apply (H' k').
  - intros D HD Hc Ht _ Hx Hv. split; [|done]. rewrite <- Hc. by apply (add_name_uncaptured D) in Ea.
Qed.
(** A new entry *)
Lemma keep_insert s n nid i p s1 s' : is_Some (inodes s !! i) -> lost_found s = Some p -> add_name (contents s) (xattrs s) n s = (nid, s1) ->
  put_contents (<[new (dom (contents s1)) := Centry nid i p]> (contents s1)) s1 = Some s' -> keep s s' /\ contents s' = <[new (dom (contents s)) := Centry nid i p]> (contents s) /\ inodes s' = inodes s.
Proof.
  intros Hi Hp Ea Em. pose proof (add_name_frame _ _ _ _ _ _ Ea) as (F1 & F2 & F3 & F4 & F5 & F6 & F7 & F8 & F9 & F10 & F11 & F12).
  pose proof (add_name_names _ _ _ _ _ _ Ea) as [Hni Hd]. pose proof (add_name_mono _ _ _ _ _ _ Ea) as Hm.
  apply put_contents_spec in Em as [-> _]. rewrite F1 in *. cbn. split; [|done]. set (k := new (dom (contents s))). assert (contents s !! k = None) as Hk by apply new_lookup.
  apply (keep_contents s _ (<[k := Centry nid i p]> (contents s))); cbn; auto.
  - intros D HD Hc _ Hx Hv. rewrite <- Hc. by apply (add_name_uncaptured D) in Ea.
  - intros Hc H. unfold nc. cbn. rewrite F5. destruct (add_name_counted _ _ _ _ _ _ Ea Hc) as [_ Hx]; [done|].
    refine (counted_ext _ _ _ _ Hx). intros j _. cbn. by rewrite (uses_insert _ _ _ _ _ Hk).
  - intros k' e' H. destruct (decide (k = k')) as [<-|N].
    + rewrite lookup_insert in H. injection H as <-. cbn. split; [by left|]. split; by left.
    + rewrite lookup_insert_ne in H by done. split; [|split]; right; by exists k', e'.
Qed.
(** An entry, an attribute is removed. *)
Lemma keep_remove s k e : contents s !! k = Some e -> keep s (del_name (c_name e) (set_contents (delete k (contents s)) s)).
Proof.
  intros Hk. apply (keep_contents s _ (delete k (contents s))); cbn; auto.
  - intros _ H. unfold nc. cbn. refine (counted_ext _ _ _ _ (counted_drop _ _ (c_name e) H)). intros j _. cbn. by rewrite (uses_delete _ _ _ _ _ Hk).
  - intros _ H j Hj Hu. apply (drop_name_keeps _ _ _ _ H Hj). by rewrite (uses_delete _ _ _ _ _ Hk) in Hu.
  - intros k' e' H. apply lookup_delete_Some in H as [N H]. split; [|split]; right; by exists k', e'.
Qed.
Lemma keep_xremove s k r : xattrs s !! k = Some r -> keep s (del_name (x_name r) (set_xattrs (delete k (xattrs s)) s)).
Proof.
  intros Hk. assert (nc s -> forall j, is_Some (names s !! j) -> (0 < uses (contents s) (delete k (xattrs s)) j)%Z -> is_Some (drop_name (x_name r) (names s) !! j)) as Hj.
  { intros H j Hj Hu. apply (drop_name_keeps _ _ _ _ H Hj). by rewrite (uses_xdelete _ _ _ _ _ Hk) in Hu. }
  split; cbn; auto.
  - intros _ _ H. unfold nc. cbn. refine (counted_ext _ _ _ _ (counted_drop _ _ (x_name r) H)). intros j _. cbn. by rewrite (uses_xdelete _ _ _ _ _ Hk).
  - intros D _ _ H H' k' e' Hk'. cbn in *. destruct (H' k' e' Hk') as [Hy|Hy]; [left|by right]. apply Hj; [done|done|by apply (uses_contents _ _ k')].
  - intros _ _ H H' k' r' Hk'. cbn in *. apply Hj; [done| |by apply (uses_xattrs _ _ k')]. apply lookup_delete_Some in Hk' as [_ Hk']. by apply (H' k').
  - intros H k' r' Hk'. cbn in *. apply lookup_delete_Some in Hk' as [_ Hk']. by apply (H k').
Qed.

(** * The checks *)
Lemma keep_report b s : keep s (report b s).
Proof. apply keep_same; auto. Qed.
Definition fcn (k : nat) := fix_contents_name k.
Lemma fix_contents_name_spec k s s' : fcn k s = Some s' -> keep s s' /\ (forall j, is_Some (names s !! j) -> is_Some (names s' !! j)) /\
  (forall e, contents s' !! k = Some e -> is_Some (names s' !! c_name e)) /\ (forall k', k' <> k -> contents s' !! k' = contents s !! k') /\ (is_Some (contents s' !! k) -> is_Some (contents s !! k)).
Proof.
  unfold fcn, fix_contents_name. destruct (contents s !! k) as [e|] eqn:Hk.
  2: { intros H. injection H as <-. split_and!; [reflexivity|done| |done|by rewrite Hk]. intros e. by rewrite Hk. }
  destruct (names s !! c_name e) as [nr|] eqn:Hn.
  { intros H. injection H as <-. split_and!; [reflexivity|done| |done|by rewrite Hk]. intros e'. rewrite Hk. intros H. injection H as <-. eauto. }
  match goal with |- context [match ?x with Some _ => _ | None => None end] => destruct x as [n|]; [|done] end.
  destruct (resolve_free s n) as [[p n']|] eqn:Er; [|done]. destruct (add_name _ _ _ _) as [nid s1] eqn:Ea. intros Em.
  destruct (keep_rename (report true s) k e _ nid s1 p s' Hk Hn (resolve_free_parent _ _ _ _ Er) Ea Em) as (K & H1 & H2 & H3).
  split_and!; [etrans; [apply keep_report|exact K]|exact H3| | |eauto].
  - intros e' H. rewrite H2 in H. cbn in H. rewrite lookup_insert in H. by injection H as <-.
  - intros k' N. rewrite H2. cbn. by rewrite lookup_insert_ne.
Qed.
Lemma check_contents_name_keep s s' : check_contents_name s = Some s' -> keep s s' /\ cn s'.
Proof.
  intros H. split; [refine (each_rel keep _ _ _ _ _ H); intros [k e] t t' _ E; by apply fix_contents_name_spec in E as (K & _)|].
  set (l := rows (contents s)) in *. set (I := fun t => forall k, is_Some (contents t !! k) -> is_Some (contents s !! k)).
  assert (forall (a : nat * centry) t t', a ∈ l -> I t -> fcn a.1 t = Some t' -> I t') as HI.
  { intros [k e] t t' _ It E k' Hk'. apply fix_contents_name_spec in E as (_ & _ & _ & H4 & H5). cbn in *. apply It. destruct (decide (k' = k)) as [->|N]; [auto|]. by rewrite <- H4. }
  assert (I s') as Is'. { refine (each_inv I l _ s s' HI _ H). by intros k. }
  intros k e Hk. destruct (Is' k) as [e0 He0]; [eauto|].
  refine (each_done I (fun (a : nat * centry) t => forall e, contents t !! a.1 = Some e -> is_Some (names t !! c_name e)) l _ s s' _ _ _ H (k, e0) _ e Hk).
  - intros a t t' Ha It E. split; [by eapply HI|]. by apply fix_contents_name_spec in E as (_ & _ & H3 & _).
  - intros a b t t' _ _ _ Hb E e1 He1. apply fix_contents_name_spec in E as (_ & H2 & H3 & H4 & _). destruct (decide (b.1 = a.1)) as [Eab|N]; [apply H3; by rewrite <- Eab|]. apply H2, Hb. by rewrite <- H4.
  - by intros j.
  - by apply rows_elem.
Qed.
Lemma fix_contents_inode_spec k s s' : fix_contents_inode k s = Some s' -> keep s s' /\ inodes s' = inodes s /\
  (contents s' = contents s /\ (forall e, contents s !! k = Some e -> is_Some (inodes s !! c_inode e)) \/ contents s' = delete k (contents s)).
Proof.
  unfold fix_contents_inode. destruct (contents s !! k) as [e|] eqn:Hk; [|intros H; injection H as <-; split_and!; [reflexivity|done|by left]].
  destruct (inodes s !! c_inode e) as [r|] eqn:Hi.
  { intros H. injection H as <-. split_and!; [reflexivity|done|]. left. split; [done|]. intros e' H. injection H as <-. eauto. }
  assert (keep s (del_name (c_name e) (set_contents (delete k (contents s)) (report true s)))) as K by (etrans; [apply (keep_report true)|by apply (keep_remove (report true s))]).
  destruct (get_path s (c_inode e) None); intros H; inversion H; subst; (split_and!; [done|done|by right]).
Qed.
Lemma check_contents_inode_keep s s' : check_contents_inode s = Some s' -> keep s s' /\ ci s'.
Proof.
  intros H. split; [refine (each_rel keep _ _ _ _ _ H); intros [k e] t t' _ E; by apply fix_contents_inode_spec in E as (K & _)|].
  set (l := rows (contents s)) in *. set (I := fun t => forall k, is_Some (contents t !! k) -> is_Some (contents s !! k)).
  assert (forall k t t', fix_contents_inode k t = Some t' -> inodes t' = inodes t /\ forall k' e', contents t' !! k' = Some e' -> contents t !! k' = Some e') as Hsub.
  { intros k t t' E. apply fix_contents_inode_spec in E as (_ & H1 & [[H2 _]|H2]); (split; [done|]); intros k' e'; rewrite H2; [done|]. by intros [_ ?]%lookup_delete_Some. }
  intros k e Hk.
  assert (I s') as Is'. { refine (each_inv I l _ s s' _ _ H); [|by intros ?]. intros [k1 e1] t t' _ It E k' [e' He']. apply It. apply Hsub in E as [_ E]. eauto. }
  destruct (Is' k) as [e0 He0]; [eauto|].
  refine (each_done (fun _ => True) (fun (a : nat * centry) t => forall e, contents t !! a.1 = Some e -> is_Some (inodes t !! c_inode e)) l _ s s' _ _ _ H (k, e0) _ e Hk); [| |done|by apply rows_elem].
  - intros a t t' _ _ E. split; [done|]. intros e1 He1. apply fix_contents_inode_spec in E as (_ & -> & [[H1 H2]|H1]); rewrite H1 in He1; [auto|]. by rewrite lookup_delete in He1.
  - intros a b t t' _ _ _ Hb E e1 He1. apply Hsub in E as [-> E]. by apply Hb, E.
Qed.
Definition fcp (k : nat) := fix_contents_parent k.
Lemma fix_contents_parent_spec k s s' : fcp k s = Some s' -> keep s s' /\ inodes s' = inodes s /\
  (contents s' = contents s /\ (forall e, contents s !! k = Some e -> is_Some (inodes s !! c_parent e)) \/
   exists e nid p, contents s !! k = Some e /\ contents s' = <[k := Centry nid (c_inode e) p]> (contents s) /\ lost_found s = Some p).
Proof.
  unfold fcp, fix_contents_parent. destruct (contents s !! k) as [e|] eqn:Hk; [|intros H; injection H as <-; split_and!; [reflexivity|done|by left]].
  destruct (inodes s !! c_parent e) as [r|] eqn:Hi.
  { intros H. injection H as <-. split_and!; [reflexivity|done|]. left. split; [done|]. intros e' H. injection H as <-. eauto. }
  destruct (name_of s (c_name e)) as [[n|]|]; [|done|done]. destruct (resolve_free s _) as [[p n']|] eqn:Er; [|done].
  destruct (add_name _ _ _ _) as [nid s1] eqn:Ea. intros Em. pose proof (resolve_free_parent _ _ _ _ Er) as Hp.
  destruct (keep_drop_add (report true s) k e _ nid s1 p s' Hk Hp Ea Em) as [K Hc]. split_and!.
  - etrans; [apply keep_report|exact K].
  - pose proof (add_name_frame _ _ _ _ _ _ Ea) as (F1 & F2 & _). cbn in F1, F2. rewrite <- F1 in Hk. apply (move_entry_spec _ _ _ _ _ _ Hk) in Em. by subst s'.
  - right. by exists e, nid, p.
Qed.
Lemma check_contents_parent_keep s s' : check_contents_parent s = Some s' -> keep s s' /\ (ci s -> cp s').
Proof.
  intros H. split; [refine (each_rel keep _ _ _ _ _ H); intros [k e] t t' _ E; by apply fix_contents_parent_spec in E as (K & _)|]. intros Hci.
  set (l := rows (contents s)) in *. set (I := fun t => ci t /\ forall k, is_Some (contents t !! k) -> is_Some (contents s !! k)).
  assert (forall (a : nat * centry) t t', a ∈ l -> I t -> fcp a.1 t = Some t' -> I t') as HI.
  { intros [k e] t t' _ [Ct It] E. apply fix_contents_parent_spec in E as (K & _ & HK). split; [by apply K|]. intros k' Hk'. apply It. cbn in *.
    destruct HK as [[HK _]|(e1 & nid & p & H1 & HK & _)]; rewrite HK in Hk'; [done|]. destruct (decide (k = k')) as [<-|N]; [eauto|]. by rewrite lookup_insert_ne in Hk'. }
  assert (I s') as Is'. { refine (each_inv I l _ s s' HI _ H). by split. }
  intros k e Hk. destruct Is' as [_ Is']. destruct (Is' k) as [e0 He0]; [eauto|].
  refine (each_done I (fun (a : nat * centry) t => forall e, contents t !! a.1 = Some e -> is_Some (inodes t !! c_parent e)) l _ s s' _ _ _ H (k, e0) _ e Hk).
  - intros a t t' Ha It E. split; [by eapply HI|]. intros e1 He1. destruct It as [Ct _]. apply fix_contents_parent_spec in E as (_ & -> & [[H1 H2]|(e2 & nid & p & H1 & HK & Hp)]).
    + rewrite H1 in He1. auto.
    + rewrite HK, lookup_insert in He1. injection He1 as <-. by apply lost_found_inode.
  - intros a b t t' _ _ It Hb E e1 He1. destruct It as [Ct _]. apply fix_contents_parent_spec in E as (_ & -> & [[H1 H2]|(e2 & nid & p & H1 & HK & Hp)]).
    + rewrite H1 in He1. auto.
    + rewrite HK in He1. destruct (decide (a.1 = b.1)) as [Eab|N]; [rewrite Eab, lookup_insert in He1; injection He1 as <-; by apply lost_found_inode|].
      rewrite lookup_insert_ne in He1 by done. auto.
  - by split.
  - by apply rows_elem.
Qed.

(** * Objects *)
Definition bo (s : fsck) : Prop := forall k r, blocks s !! k = Some r -> is_Some (objects s !! b_obj r).
Definition oc (s : fsck) : Prop := forall id o, objects s !! id = Some o -> o_ref o = refs s id.
Definition os (s : fsck) : Prop := forall id, is_Some (objects s !! id) -> is_Some (store s !! id).
Definition ob (s : fsck) : Prop := forall id, is_Some (store s !! id) -> is_Some (objects s !! id).
Definition ph (s : fsck) : Prop := forall id o, objects s !! id = Some o -> o_phys o <> (-1)%Z.
Definition hs (s : fsck) : Prop := forall id o, objects s !! id = Some o -> o_hash o <> None.
Lemma check_objects_keep s : keep s (check_objects_id (check_objects_refcount (check_objects_hash s))).
Proof. apply keep_same; cbn; auto; by rewrite ?orb_false_r. Qed.
Lemma check_objects_hash_spec s : blocks (check_objects_hash s) = blocks s /\ store (check_objects_hash s) = store s /\
  forall id o, objects (check_objects_hash s) !! id = Some o <-> objects s !! id = Some o /\ o_hash o <> None.
Proof. split_and!; [done|done|]. intros id o. unfold check_objects_hash. cbn. rewrite map_filter_lookup_Some. done. Qed.
Lemma refs_nonneg s id : (0 <= refs s id)%Z.
Proof. apply cnt_nonneg. Qed.
(** 1080-1083 has no effect. *)
Lemma check_objects_refcount_spec s : blocks (check_objects_refcount s) = blocks s /\ store (check_objects_refcount s) = store s /\
  forall id o, objects (check_objects_refcount s) !! id = Some o <-> exists o', objects s !! id = Some o' /\ o = set_ref (refs s id) o' /\ refs s id <> 0%Z.
Proof.
  assert (forall id o, map_imap (fun id o => if decide (refs s id = 0)%Z then None else Some (set_ref (refs s id) o)) (objects s) !! id = Some o <->
    exists o', objects s !! id = Some o' /\ o = set_ref (refs s id) o' /\ refs s id <> 0%Z) as Hm.
  { intros id o. rewrite map_lookup_imap. destruct (objects s !! id) as [o'|]; cbn; [|split; [done|]; by intros (? & ? & _)].
    case_decide as D; split; [done| | |].
    - intros (o2 & E & _ & N). done.
    - intros E. injection E as <-. eauto.
    - intros (o2 & E & -> & N). by injection E as ->. }
  split_and!; [done| |].
  - unfold check_objects_refcount. cbn. apply map_filter_id. intros id d Hd E. cbn in E.
    destruct (map_imap _ (objects s) !! id) as [o|] eqn:Eo; [|done]. apply Hm in Eo as (o' & Eo & -> & N). cbn in E. congruence.
  - intros id o. unfold check_objects_refcount. cbn. rewrite map_filter_lookup_Some, Hm. split; [by intros [H _]|].
    intros (o' & H1 & -> & N). split; [by exists o'|]. done.
Qed.
Lemma check_objects_id_spec s : blocks (check_objects_id s) = blocks s /\
  (forall id o, objects (check_objects_id s) !! id = Some o <-> objects s !! id = Some o /\ is_Some (store s !! id)) /\
  (forall id d, store (check_objects_id s) !! id = Some d <-> store s !! id = Some d /\ (is_Some (objects s !! id) \/ id ∉ listed (store s))).
Proof.
  split; [done|].
  assert (forall id d, filter (fun kv => kv.1 ∉ listed (store s) ∖ dom (objects s)) (store s) !! id = Some d <-> store s !! id = Some d /\ (is_Some (objects s !! id) \/ id ∉ listed (store s))) as Hs.
  { intros id d. rewrite map_filter_lookup_Some. cbn. rewrite not_elem_of_difference, elem_of_dom. split; intros [? [?|?]]; auto. }
  split; [|exact Hs]. intros id o. unfold check_objects_id. cbn. rewrite map_filter_lookup_Some. cbn. split; intros [H1 H2]; (split; [done|]).
  - apply elem_of_union in H2 as [H2|H2]; [apply listed_stored in H2; by apply elem_of_dom in H2|]. apply elem_of_dom in H2 as [d Hd]. apply Hs in Hd as [Hd _]. eauto.
  - apply elem_of_union. right. destruct H2 as [d Hd]. apply elem_of_dom. exists d. apply Hs. split; [done|]. left. eauto.
Qed.
Lemma check_objects_phys_size_keep s s' : check_objects_phys_size s = Some s' -> keep s s'.
Proof.
  intros H. refine (each_rel keep _ _ _ _ _ H). intros [id o] t t' _ E. unfold fix_phys_size in E. cbn in E. destruct (objects t !! id) as [o'|]; [|injection E as <-; reflexivity].
  case_decide; [|injection E as <-; reflexivity]. destruct (store t !! id); [|done]. injection E as <-. apply keep_same; auto.
Qed.
(** Only the physical size is changed. *)
Definition same_objects (s s' : fsck) : Prop := blocks s' = blocks s /\ store s' = store s /\
  forall id, (fun o => (o_hash o, o_ref o, o_len o)) <$> objects s' !! id = (fun o => (o_hash o, o_ref o, o_len o)) <$> objects s !! id.
#[global] Instance same_objects_refl : Reflexive same_objects.
Proof. by intros s. Qed.
#[global] Instance same_objects_trans : Transitive same_objects.
Proof. intros s1 s2 s3 (A1 & A2 & A3) (B1 & B2 & B3). split_and!; [congruence|congruence|]. intros id. by rewrite B3. Qed.
Lemma fix_phys_size_spec id s s' : fix_phys_size id s = Some s' ->
  same_objects s s' /\ (forall id', id' <> id -> objects s' !! id' = objects s !! id') /\
  (objects s' !! id = objects s !! id /\ (forall o, objects s !! id = Some o -> o_phys o <> (-1)%Z) \/
   exists o d, objects s !! id = Some o /\ store s !! id = Some d /\ objects s' !! id = Some (Orow (o_hash o) (o_ref o) (stored_size d) (o_len o))).
Proof.
  unfold fix_phys_size. destruct (objects s !! id) as [o|] eqn:Eo.
  2: { intros H. injection H as <-. split_and!; [reflexivity|done|]. by left. }
  case_decide as D.
  2: { intros H. injection H as <-. split_and!; [reflexivity|done|]. left. split; [done|]. intros o' E. by injection E as <-. }
  destruct (store s !! id) as [d|] eqn:Ed; [|done]. intros H. injection H as <-. cbn. split_and!.
  - split_and!; [done|done|]. intros id'. cbn. destruct (decide (id = id')) as [<-|N]; [by rewrite lookup_insert, Eo|by rewrite lookup_insert_ne].
  - intros id' N. by rewrite lookup_insert_ne.
  - right. exists o, d. by rewrite lookup_insert.
Qed.
Lemma check_objects_phys_size_spec s s' : check_objects_phys_size s = Some s' -> same_objects s s' /\ ph s'.
Proof.
  intros H. assert (same_objects s s') as HS. { refine (each_rel same_objects _ _ _ _ _ H). intros [id o] t t' _ E. by apply fix_phys_size_spec in E as (E & _). }
  split; [done|]. intros id o Ho.
  assert (exists o0, objects s !! id = Some o0) as [o0 Ho0]. { destruct HS as (_ & _ & HS). specialize (HS id). rewrite Ho in HS. destruct (objects s !! id); [eauto|done]. }
  refine (each_done (fun _ => True) (fun (a : nat * orow) t => forall o, objects t !! a.1 = Some o -> o_phys o <> (-1)%Z) _ _ s s' _ _ I H (id, o0) _ o Ho); [| |by apply rows_elem].
  - intros a t t' _ _ E. split; [done|]. intros o1 Ho1. apply fix_phys_size_spec in E as (_ & _ & [[E1 E2]|(o2 & d & E1 & E2 & E3)]); [rewrite E1 in Ho1; auto|].
    rewrite E3 in Ho1. injection Ho1 as <-. cbn. pose proof (stored_size_nonneg d). lia.
  - intros a b t t' _ _ _ Hb E o1 Ho1. apply fix_phys_size_spec in E as (_ & E0 & E). destruct (decide (b.1 = a.1)) as [Eab|N]; [|rewrite E0 in Ho1 by done; auto].
    rewrite Eab in *. destruct E as [[E1 E2]|(o2 & d & E1 & E2 & E3)]; [rewrite E1 in Ho1; auto|]. rewrite E3 in Ho1. injection Ho1 as <-. cbn. pose proof (stored_size_nonneg d). lia.
Qed.

(** * What the later checks do to objects and blocks *)
Record keepo (s s' : fsck) : Prop := {
  o_store : store s' = store s;
  o_rows : forall id, (fun o => (o_hash o, o_phys o, o_len o)) <$> objects s' !! id = (fun o => (o_hash o, o_phys o, o_len o)) <$> objects s !! id;
  o_blocks : forall k r, blocks s' !! k = Some r -> blocks s !! k = Some r;
  o_oc : oc s -> oc s' }.
#[global] Instance keepo_refl : Reflexive keepo.
Proof. by split. Qed.
#[global] Instance keepo_trans : Transitive keepo.
Proof. intros s1 s2 s3 [] []. split; [congruence| |auto|auto]. intros id. congruence. Qed.
Lemma keepo_same s s' : objects s' = objects s -> store s' = store s -> blocks s' = blocks s -> keepo s s'.
Proof. intros E1 E2 E3. split; unfold oc, refs; by rewrite ?E1, ?E2, ?E3. Qed.
Lemma keepo_dom s s' id : keepo s s' -> is_Some (objects s' !! id) <-> is_Some (objects s !! id).
Proof. intros K. pose proof (o_rows _ _ K id) as E. destruct (objects s' !! id), (objects s !! id); cbn in E; split; eauto; try done. Qed.
Lemma keepo_bo s s' : keepo s s' -> bo s -> bo s'.
Proof. intros K H k r Hk. apply (keepo_dom s s' _ K). by apply (H k), (o_blocks _ _ K). Qed.
Lemma keepo_os s s' : keepo s s' -> os s -> os s'.
Proof. intros K H id Hi. rewrite (o_store _ _ K). by apply H, (keepo_dom s s' _ K). Qed.
Lemma keepo_ob s s' : keepo s s' -> ob s -> ob s'.
Proof. intros K H id Hi. rewrite (o_store _ _ K) in Hi. by apply (keepo_dom s s' _ K), H. Qed.
Lemma keepo_ph s s' : keepo s s' -> ph s -> ph s'.
Proof. intros K H id o Ho. pose proof (o_rows _ _ K id) as E. rewrite Ho in E. destruct (objects s !! id) as [o'|] eqn:Eo; [|done]. cbn in E. injection E as _ -> _. by apply (H id). Qed.
Lemma keepo_hs s s' : keepo s s' -> hs s -> hs s'.
Proof. intros K H id o Ho. pose proof (o_rows _ _ K id) as E. rewrite Ho in E. destruct (objects s !! id) as [o'|] eqn:Eo; [|done]. cbn in E. injection E as -> _ _. by apply (H id). Qed.

(** What is not touched when entries move *)
Definition frame (s s' : fsck) : Prop := inodes s' = inodes s /\ blocks s' = blocks s /\ objects s' = objects s /\ xattrs s' = xattrs s /\ links s' = links s /\ store s' = store s /\
  unlinked s' = unlinked s.
#[global] Instance frame_refl : Reflexive frame.
Proof. by intros s. Qed.
#[global] Instance frame_trans : Transitive frame.
Proof. intros s1 s2 s3 (A1 & A2 & A3 & A4 & A5 & A6 & A7) (B1 & B2 & B3 & B4 & B5 & B6 & B7). split_and!; congruence. Qed.
Lemma frame_keepo s s' : frame s s' -> keepo s s'.
Proof. intros (A1 & A2 & A3 & A4 & A5 & A6 & A7). by apply keepo_same. Qed.
Lemma add_move_frame C X n s nid s1 k p s' : add_name C X n s = (nid, s1) -> move_entry k nid p s1 = Some s' -> frame s s'.
Proof.
  intros Ea Em. pose proof (add_name_frame _ _ _ _ _ _ Ea) as (F1 & F2 & F3 & F4 & F5 & F6 & F7 & F8 & F9 & F10 & F11 & F12).
  unfold move_entry in Em. destruct (contents s1 !! k); [apply put_contents_spec in Em as [-> _]; cbn|injection Em as <-]; by split_and!.
Qed.
(** Entries keep their inodes. *)
Definition same_inodes (s s' : fsck) : Prop := forall k, c_inode <$> contents s' !! k = c_inode <$> contents s !! k.
#[global] Instance same_inodes_refl : Reflexive same_inodes.
Proof. by intros s. Qed.
#[global] Instance same_inodes_trans : Transitive same_inodes.
Proof. intros s1 s2 s3 A B k. by rewrite B. Qed.
Lemma moved_inodes s s' k e nid p : contents s !! k = Some e -> contents s' = <[k := Centry nid (c_inode e) p]> (contents s) -> same_inodes s s'.
Proof. intros Hk E k'. rewrite E. destruct (decide (k = k')) as [<-|N]; [by rewrite lookup_insert, Hk|by rewrite lookup_insert_ne]. Qed.
Definition ml := move_lost.
Lemma move_lost_spec k e s s' : contents s !! k = Some e -> ml (k, e) s = Some s' -> keep s s' /\ frame s s' /\ same_inodes s s' /\ forall k', k' <> k -> contents s' !! k' = contents s !! k'.
Proof.
  intros Hk. unfold ml, move_lost. cbn [fst snd]. destruct (name_of s (c_name e)) as [[n|]|]; [|done|done]. destruct (get_path s (c_parent e) (Some n)) as [q| |]; [|done|done].
  destruct (resolve_free s _) as [[p n']|] eqn:Er; [|done]. destruct (add_name _ _ _ _) as [nid s1] eqn:Ea. destruct (move_entry _ _ _ _) as [s2|] eqn:Em; [|done].
  intros H. injection H as <-. destruct (keep_add_drop s k e _ nid s1 p s2 Hk (resolve_free_parent _ _ _ _ Er) Ea Em) as [K Hc]. split_and!; [done| | |].
  - exact (add_move_frame _ _ _ _ _ _ _ _ _ Ea Em).
  - by apply (moved_inodes s _ k e nid p).
  - intros k' N. cbn. rewrite Hc. by rewrite lookup_insert_ne.
Qed.
Lemma move_losts l s s' : NoDup l.*1 -> (forall k e, (k, e) ∈ l -> contents s !! k = Some e) -> each l ml s = Some s' -> keep s s' /\ frame s s' /\ same_inodes s s'.
Proof.
  revert s. induction l as [|[k e] l IH]; intros s Hd Hl H; [injection H as <-; split_and!; reflexivity|].
  cbn in H. destruct (ml (k, e) s) as [t|] eqn:E; [|done]. cbn in Hd. apply NoDup_cons in Hd as [Hni Hd].
  apply move_lost_spec in E as (K & F & S & HN); [|apply Hl; left].
  destruct (IH t) as (K' & F' & S'); [done| |done|split_and!; [by etrans|by etrans|by etrans]].
  intros k' e' Hin. rewrite HN; [apply Hl; by right|]. intros ->. apply Hni. apply elem_of_list_fmap. by exists (k, e').
Qed.
Lemma entries_of_spec s i : NoDup (entries_of s i).*1 /\ forall k e, (k, e) ∈ entries_of s i -> contents s !! k = Some e /\ c_inode e = i.
Proof.
  unfold entries_of. split.
  - rewrite (scan_perm _ (filter _ _)). pose proof (NoDup_fst_map_to_list (contents s)) as Hd.
    by apply filter_keys.
  - intros k e Hin. rewrite scan_perm in Hin. apply elem_of_list_filter in Hin as [[H1 _] H2]. by apply elem_of_map_to_list in H2.
Qed.
Definition fbo := fix_block_object.
Lemma fix_block_object_spec k r s s' : fbo (k, r) s = Some s' ->
  (s' = s /\ is_Some (objects s !! b_obj r)) \/
  (objects s !! b_obj r = None /\ exists t, keep s t /\ frame s t /\ same_inodes s t /\ s' = set_blocks (delete k (blocks s)) t).
Proof.
  unfold fbo, fix_block_object. cbn. destruct (objects s !! b_obj r) as [o|] eqn:Eo; [intros H; injection H as <-; left; split; [done|eauto]|].
  destruct (each _ _ _) as [t|] eqn:E; [|done]. intros H. injection H as <-. right. split; [done|]. exists t.
  destruct (entries_of_spec s (b_inode r)) as [E1 E2]. apply (move_losts _ (report true s)) in E as (K & F & S); [|done|intros k' e' Hin; by apply E2].
  split_and!; [etrans; [apply keep_report|done]|exact F|exact S|]. f_equal. f_equal. apply F.
Qed.
Lemma fix_block_object_keep k r s s' : blocks s !! k = Some r -> fbo (k, r) s = Some s' -> keep s s' /\ keepo s s' /\ same_inodes s s' /\
  inodes s' = inodes s /\ objects s' = objects s /\ xattrs s' = xattrs s /\ (forall k' r', blocks s' !! k' = Some r' -> blocks s !! k' = Some r').
Proof.
  intros Hk H. apply fix_block_object_spec in H as [[-> _]|(Ho & t & K & F & S & ->)]; [split_and!; [reflexivity|reflexivity|reflexivity|done..]|].
  assert (forall k' r', delete k (blocks s) !! k' = Some r' -> blocks s !! k' = Some r') as Hsub by (intros k' r' [_ ?]%lookup_delete_Some; done).
  destruct F as (A1 & A2 & A3 & A4 & A5 & A6 & A7). split_and!; [| |exact S|done..].
  - etrans; [exact K|]. apply keep_same; cbn; auto. intros k' r'. rewrite A2. auto.
  - split; cbn; [done|by rewrite A3|auto|]. intros H id o Hid. cbn in Hid; rewrite A3 in Hid. rewrite (H _ _ Hid). unfold refs. cbn. rewrite (cnt_delete _ _ _ _ Hk). cbn.
    rewrite b2z_false; [lia|]. intros <-. congruence.
Qed.
Lemma rows_keys {A} (m : gmap nat A) : NoDup (rows m).*1.
Proof. unfold rows. rewrite (scan_perm _ (map_to_list m)). apply NoDup_fst_map_to_list. Qed.
(** The rows of a loop that deletes them are still there when it comes to them. *)
Lemma each_rows {A} (get : fsck -> gmap nat A) (R : fsck -> fsck -> Prop) `{!Reflexive R, !Transitive R} f l s s' :
  (forall k v t t', get t !! k = Some v -> f (k, v) t = Some t' -> R t t' /\ forall k', k' <> k -> get t' !! k' = get t !! k') ->
  NoDup l.*1 -> (forall k v, (k, v) ∈ l -> get s !! k = Some v) -> each l f s = Some s' -> R s s'.
Proof.
  intros Hf. revert s. induction l as [|[k v] l IH]; intros s Hd Hl H; [injection H as <-; reflexivity|]. cbn in H. destruct (f (k, v) s) as [t|] eqn:E; [|done].
  cbn in Hd. apply NoDup_cons in Hd as [Hni Hd]. apply Hf in E as [HR HN]; [|apply Hl; left]. etrans; [exact HR|]. apply (IH t); [done| |done].
  intros k' v' Hin. rewrite HN; [apply Hl; by right|]. intros ->. apply Hni. apply elem_of_list_fmap. by exists (k, v').
Qed.
Definition bstep (s s' : fsck) : Prop := keep s s' /\ keepo s s' /\ same_inodes s s' /\ inodes s' = inodes s /\ xattrs s' = xattrs s /\ forall k r, blocks s' !! k = Some r -> blocks s !! k = Some r.
#[global] Instance bstep_refl : Reflexive bstep.
Proof. intros s. split_and!; [reflexivity|reflexivity|reflexivity|done..]. Qed.
#[global] Instance bstep_trans : Transitive bstep.
Proof. intros s1 s2 s3 (A1 & A2 & A3 & A4 & A5 & A6) (B1 & B2 & B3 & B4 & B5 & B6). split_and!; [by etrans|by etrans|by etrans|congruence|congruence|auto]. Qed.
Lemma check_block_objects_keep s s' : check_block_objects s = Some s' -> bstep s s' /\ bo s'.
Proof.
  intros H. assert (forall k v t t', blocks t !! k = Some v -> fbo (k, v) t = Some t' -> bstep t t' /\ forall k', k' <> k -> blocks t' !! k' = blocks t !! k') as Hstep.
  { intros k v t t' Hk E. pose proof (fix_block_object_keep _ _ _ _ Hk E) as (K1 & K2 & K3 & K4 & K5 & K6 & K7). split; [by split_and!|].
    apply fix_block_object_spec in E as [[-> _]|(Ho & t1 & K & F & S & ->)]; [done|]. intros k' N. cbn. by rewrite lookup_delete_ne. }
  assert (bstep s s') as B. { refine (each_rows blocks bstep _ _ s s' Hstep (rows_keys _) _ H). intros k v. by rewrite rows_elem. }
  split; [done|]. intros k r Hk. pose proof Hk as Hk0. apply B in Hk0.
  refine (each_done (fun _ => True) (fun (a : nat * brow) t => blocks t !! a.1 = Some a.2 -> is_Some (objects t !! b_obj a.2)) _ _ s s' _ _ I H (k, r) _ Hk); [| |by apply rows_elem].
  - intros [k1 r1] t t' _ _ E. split; [done|]. cbn. apply fix_block_object_spec in E as [[-> E]|(Ho & t1 & K & F & S & ->)]; [done|]. cbn. by rewrite lookup_delete.
  - intros [k1 r1] [k2 r2] t t' _ _ _ Hb E. cbn in *. apply fix_block_object_spec in E as [[-> E]|(Ho & t1 & K & F & S & ->)]; [done|]. cbn. destruct F as (_ & _ & -> & _).
    intros [_ H2]%lookup_delete_Some. auto.
Qed.
Lemma check_block_inodes_keep s s' : check_block_inodes s = Some s' -> keep s s' /\ keepo s s' /\ contents s' = contents s /\ inodes s' = inodes s /\ bi s'.
Proof.
  intros H. set (R := fun s s' => keep s s' /\ keepo s s' /\ contents s' = contents s /\ inodes s' = inodes s).
  assert (Reflexive R) by (intros t; split_and!; [reflexivity|reflexivity|done|done]).
  assert (Transitive R) by (intros t1 t2 t3 (A1 & A2 & A3 & A4) (B1 & B2 & B3 & B4); split_and!; [by etrans|by etrans|congruence|congruence]).
  assert (forall k v t, blocks t !! k = Some v -> R t (fix_block_inode (k, v) t) /\ forall k', k' <> k -> blocks (fix_block_inode (k, v) t) !! k' = blocks t !! k') as Hstep.
  { intros k v t Hk. unfold fix_block_inode. cbn. destruct (inodes t !! b_inode v) eqn:Ei; [split; [reflexivity|done]|]. split; [|intros k' N; cbn; by rewrite lookup_delete_ne].
    split_and!; [apply keep_same; cbn; auto; by intros k' r' [_ ?]%lookup_delete_Some| |done|done].
    split; cbn; [done| |by intros k' r' [_ ?]%lookup_delete_Some|].
    - intros id. destruct (decide (b_obj v = id)) as [<-|N]; [rewrite lookup_alter; by destruct (objects t !! b_obj v)|by rewrite lookup_alter_ne].
    - intros Ho id o Hid. cbn in Hid. unfold refs. cbn. rewrite (cnt_delete _ _ _ _ Hk). cbn. destruct (decide (b_obj v = id)) as [<-|N].
      + rewrite lookup_alter in Hid. destruct (objects t !! b_obj v) as [o'|] eqn:Eo; [|done]. cbn in Hid. injection Hid as <-. cbn. rewrite (Ho _ _ Eo), b2z_true by done. unfold refs. lia.
      + rewrite lookup_alter_ne in Hid by done. rewrite (Ho _ _ Hid), b2z_false by done. unfold refs. lia. }
  assert (R s s') as (K1 & K2 & K3 & K4).
  { refine (each_rows blocks R _ _ s s' _ (rows_keys _) _ H); [|intros k v; by rewrite rows_elem]. intros k v t t' Hk E. injection E as <-. by apply Hstep. }
  split_and!; [done..|]. intros k r Hk. pose proof (o_blocks _ _ K2 _ _ Hk) as Hk0.
  refine (each_done (fun _ => True) (fun (a : nat * brow) t => blocks t !! a.1 = Some a.2 -> is_Some (inodes t !! b_inode a.2)) _ _ s s' _ _ I H (k, r) _ Hk); [| |by apply rows_elem].
  - intros [k1 r1] t t' _ _ E. split; [done|]. cbn in *. injection E as <-. unfold fix_block_inode. cbn. destruct (inodes t !! b_inode r1) eqn:Ei; [rewrite Ei; eauto|]. cbn. by rewrite lookup_delete.
  - intros [k1 r1] [k2 r2] t t' _ _ _ Hb E. cbn in *. injection E as <-. unfold fix_block_inode. cbn. destruct (inodes t !! b_inode r1) eqn:Ei; [done|]. cbn.
    intros [_ H2]%lookup_delete_Some. auto.
Qed.

(** * Inodes *)
Definition ic (s : fsck) : Prop := forall i r, inodes s !! i = Some r -> i <> ROOT -> i <> CTRL -> i_ref r = entries s i.
Definition sz (s : fsck) : Prop := forall k b o r, blocks s !! k = Some b -> objects s !! b_obj b = Some o -> inodes s !! b_inode b = Some r -> (b_no b * max_obj_size + o_len o <= i_size r)%Z.
Definition frame2 (s s' : fsck) : Prop := blocks s' = blocks s /\ objects s' = objects s /\ xattrs s' = xattrs s /\ links s' = links s /\ store s' = store s /\ unlinked s' = unlinked s.
#[global] Instance frame2_refl : Reflexive frame2.
Proof. by intros s. Qed.
#[global] Instance frame2_trans : Transitive frame2.
Proof. intros s1 s2 s3 (A1 & A2 & A3 & A4 & A5 & A6) (B1 & B2 & B3 & B4 & B5 & B6). split_and!; congruence. Qed.
Lemma frame2_keepo s s' : frame2 s s' -> keepo s s'.
Proof. intros (A1 & A2 & A3 & A4 & A5 & A6). by apply keepo_same. Qed.
Lemma alter_is_some {A} (f : A -> A) (m : gmap nat A) i j : is_Some (m !! j) -> is_Some (alter f i m !! j).
Proof. destruct (decide (i = j)) as [<-|N]; [rewrite lookup_alter; intros [x ->]; cbn; eauto|by rewrite lookup_alter_ne]. Qed.
Definition fir := fix_inode_refcount.
Lemma fix_inode_refcount_spec i c s s' : is_Some (inodes s !! i) -> c = entries s i -> fir (i, c) s = Some s' -> keep s s' /\ frame2 s s' /\
  (forall j, j <> i -> inodes s' !! j = inodes s !! j /\ entries s' j = entries s j) /\
  (i <> ROOT -> i <> CTRL -> forall r, inodes s' !! i = Some r -> i_ref r = entries s' i).
Proof.
  intros Hi Hc. unfold fir, fix_inode_refcount. case_decide as D.
  { intros H. injection H as <-. split_and!; [reflexivity|reflexivity|done|]. intros N1 N2. destruct D; congruence. }
  case_decide as Z0.
  - destruct (resolve_free s _) as [[p n]|] eqn:Er; [|done]. destruct (add_name _ _ _ _) as [nid s1] eqn:Ea. destruct (put_contents _ s1) as [s2|] eqn:Ep; [|done].
    intros H. injection H as <-. destruct (keep_insert (report true s) _ nid i p s1 s2 Hi (resolve_free_parent _ _ _ _ Er) Ea Ep) as (K & E1 & E2). cbn in E1, E2.
    pose proof (add_name_frame _ _ _ _ _ _ Ea) as (F1 & F2 & F3 & F4 & F5 & F6 & F7 & F8 & F9 & F10 & F11 & F12). apply put_contents_spec in Ep as [-> _]. cbn in *.
    assert (forall j, entries (set_inodes (alter (set_iref 1) i (inodes s1)) (set_contents (<[new (dom (contents s1)) := Centry nid i p]> (contents s1)) s1)) j = entries s j + b2z (i = j))%Z as HE.
    { intros j. unfold entries. cbn. rewrite E1. rewrite cnt_insert_new by apply new_lookup. done. }
    split_and!.
    + etrans; [apply keep_report|]. etrans; [exact K|]. apply keep_same; cbn; auto. intros j. apply alter_is_some.
    + split_and!; done.
    + intros j N. split; [rewrite lookup_alter_ne by done; by rewrite F2|]. rewrite HE, b2z_false by done. lia.
    + intros _ _ r Hr. rewrite lookup_alter, F2 in Hr. destruct (inodes s !! i); [|done]. injection Hr as <-. cbn. rewrite HE, b2z_true by done. lia.
  - destruct (get_path s i None); [|done|done]. intros H. injection H as <-. split_and!.
    + apply keep_same; cbn; auto. intros j. apply alter_is_some.
    + split_and!; done.
    + intros j N. cbn. by rewrite lookup_alter_ne.
    + intros _ _ r Hr. cbn in Hr. rewrite lookup_alter in Hr. destruct (inodes s !! i); [|done]. injection Hr as <-. done.
Qed.
Lemma fix_inode_refcounts l s s' : NoDup l.*1 -> (forall i c, (i, c) ∈ l -> is_Some (inodes s !! i) /\ c = entries s i) ->
  (forall i r, inodes s !! i = Some r -> i ∉ l.*1 -> i <> ROOT -> i <> CTRL -> i_ref r = entries s i) -> each l fir s = Some s' -> keep s s' /\ frame2 s s' /\ ic s'.
Proof.
  revert s. induction l as [|[i c] l IH]; intros s Hd Hl Hr H.
  { injection H as <-. split_and!; [reflexivity|reflexivity|]. intros i r Hi. apply Hr; [done|]. by intros ?%elem_of_nil. }
  cbn [each] in H. destruct (fir (i, c) s) as [t|] eqn:E; [|done]. rewrite fmap_cons, NoDup_cons in Hd. destruct Hd as [Hni Hd]. cbn in Hni.
  destruct (Hl i c) as [Hi Hc]; [left|]. apply fix_inode_refcount_spec in E as (K & F & HN & HI); [|done|done].
  destruct (IH t) as (K' & F' & I'); [done| | |done|split_and!; [by etrans|by etrans|done]].
  - intros j d Hin. destruct (Hl j d) as [Hj ->]; [by right|]. destruct (HN j) as [-> ->]; [|done]. intros ->. apply Hni. apply elem_of_list_fmap. by exists (i, entries s i).
  - intros j r Hj Hnj N1 N2. destruct (decide (j = i)) as [->|N]; [auto|]. destruct (HN j N) as [E1 ->]. apply Hr; [congruence| |done|done].
    rewrite fmap_cons. by intros [?|?]%elem_of_cons.
Qed.
Lemma check_inodes_refcount_keep s s' : check_inodes_refcount s = Some s' -> keep s s' /\ frame2 s s' /\ ic s'.
Proof.
  unfold check_inodes_refcount. intros H. refine (fix_inode_refcounts _ s s' _ _ _ H).
  - apply omap_keys; [|apply rows_keys]. intros [i r] b. cbn. case_decide; [|done]. intros E. by injection E as <-.
  - intros i c Hin. unfold wrong_refcounts in Hin. apply elem_of_list_omap in Hin as ([j r] & Hj & E). apply rows_elem in Hj. cbn in E. case_decide; [|done]. injection E as <- <-. eauto.
  - intros i r Hi Hni _ _. destruct (decide (i_ref r = entries s i)) as [|N]; [done|]. destruct Hni. apply elem_of_list_fmap. exists (i, entries s i). split; [done|].
    unfold wrong_refcounts. apply elem_of_list_omap. exists (i, r). split; [by apply rows_elem|]. cbn. rewrite decide_True by auto. done.
Qed.
Lemma ends_elem s k b o : blocks s !! k = Some b -> objects s !! b_obj b = Some o -> (b_no b * max_obj_size + o_len o)%Z ∈ ends s (b_inode b).
Proof.
  intros H1 H2. unfold ends. apply elem_of_list_omap. exists (k, b). split; [by apply elem_of_map_to_list|]. cbn. rewrite decide_True by done. by rewrite H2.
Qed.
Lemma min_size_max s i z : z ∈ ends s i -> exists m, min_size s i = Some m /\ (z <= m)%Z.
Proof.
  unfold min_size. destruct (ends s i) as [|z0 l]; [by intros ?%elem_of_nil|]. intros H. exists (foldr Z.max z0 l). split; [done|].
  destruct (foldr_max z0 l) as [H1 H2]. apply elem_of_cons in H as [->|H]; auto.
Qed.
(** Only the size of an inode is changed, upwards. *)
Lemma fix_inode_sizes l s s' : NoDup l.*1 -> (forall i m, (i, m) ∈ l -> forall r, inodes s !! i = Some r -> (i_size r < m)%Z) -> each l (fix_inode_size) s = Some s' ->
  keep s s' /\ frame2 s s' /\ contents s' = contents s /\ (forall i, i_ref <$> inodes s' !! i = i_ref <$> inodes s !! i) /\
  (forall i, i ∉ l.*1 -> inodes s' !! i = inodes s !! i) /\ (forall i m, (i, m) ∈ l -> forall r, inodes s' !! i = Some r -> i_size r = m).
Proof.
  revert s. induction l as [|[i m] l IH]; intros s Hd Hl H.
  { injection H as <-. split_and!; [reflexivity|reflexivity|done|done|done|]. by intros i m ?%elem_of_nil. }
  cbn [each] in H. unfold fix_inode_size at 1 in H. cbn [fst snd] in H. destruct (get_path s i None); [|done|done]. rewrite fmap_cons, NoDup_cons in Hd. destruct Hd as [Hni Hd]. cbn in Hni.
  apply IH in H as (K & F & Ec & Hr & Hn & Hm); [|done|].
  2: { intros j m' Hin r Hj. cbn in Hj. rewrite lookup_alter_ne in Hj; [|intros ->; apply Hni; apply elem_of_list_fmap; by exists (j, m')]. apply (Hl j m'); [by right|done]. }
  split_and!.
  - etrans; [|exact K]. apply keep_same; cbn; auto. intros j. apply alter_is_some.
  - exact F.
  - done.
  - intros j. rewrite Hr. cbn. destruct (decide (i = j)) as [<-|N]; [rewrite lookup_alter; by destruct (inodes s !! i)|by rewrite lookup_alter_ne].
  - intros j Hj. rewrite fmap_cons in Hj. apply not_elem_of_cons in Hj as [Hj1 Hj2]. rewrite Hn by done. cbn. by rewrite lookup_alter_ne.
  - intros j m' [E|Hin]%elem_of_cons r Hj; [|by apply (Hm j m')]. injection E as -> ->. rewrite Hn in Hj by done. cbn in Hj. rewrite lookup_alter in Hj.
    destruct (inodes s !! i); [|done]. by injection Hj as <-.
Qed.
Lemma check_inodes_size_keep s s' : check_inodes_size s = Some s' -> keep s s' /\ frame2 s s' /\ contents s' = contents s /\ (ic s -> ic s') /\ sz s'.
Proof.
  unfold check_inodes_size. intros H.
  assert (forall i m, (i, m) ∈ wrong_sizes s <-> exists r, inodes s !! i = Some r /\ min_size s i = Some m /\ (i_size r < m)%Z) as Hw.
  { intros i m. unfold wrong_sizes. rewrite elem_of_list_omap. split.
    - intros ([j r] & Hj & E). apply rows_elem in Hj. cbn in E. destruct (min_size s j) as [m'|] eqn:Em; [|done]. case_decide; [|done]. injection E as <- <-. eauto.
    - intros (r & Hi & Em & Hlt). exists (i, r). split; [by apply rows_elem|]. cbn. rewrite Em. by rewrite decide_True. }
  apply fix_inode_sizes in H as (K & F & Ec & Hr & Hn & Hm).
  2: { apply omap_keys; [|apply rows_keys]. intros [i r] b. cbn. destruct (min_size _ _); [|done]. case_decide; [|done]. intros E. by injection E as <-. }
  2: { intros i m Hin r Hi. apply Hw in Hin as (r' & Hi' & _ & Hlt). congruence. }
  split_and!; [done|done|done| |].
  - intros Hic i r Hi N1 N2. pose proof (Hr i) as E. rewrite Hi in E. destruct (inodes s !! i) as [r'|] eqn:Ei; [|done]. cbn in E. injection E as E. rewrite E. unfold entries. rewrite Ec. by apply Hic.
  - intros k b o r Hb Ho Hi. destruct F as (F1 & F2 & _). rewrite F1 in Hb. rewrite F2 in Ho. destruct (min_size_max s (b_inode b) _ (ends_elem s k b o Hb Ho)) as (m & Em & Hle).
    destruct (decide (b_inode b ∈ (wrong_sizes s).*1)) as [Hin|Hni].
    + apply elem_of_list_fmap in Hin as ([j m'] & Ej & Hin). cbn in Ej. subst j. pose proof Hin as (r' & _ & Em' & _)%Hw. assert (m' = m) as -> by congruence. by rewrite (Hm _ _ Hin _ Hi).
    + rewrite Hn in Hi by done. destruct (decide (i_size r < m)%Z) as [Hlt|]; [|lia]. destruct Hni. apply elem_of_list_fmap. exists (b_inode b, m). split; [done|]. apply Hw. eauto.
Qed.
(** What the checks after that do to inodes *)
Record keepi (s s' : fsck) : Prop := {
  i_rows : forall i, (fun r => (i_ref r, i_size r)) <$> inodes s' !! i = (fun r => (i_ref r, i_size r)) <$> inodes s !! i;
  i_same : same_inodes s s';
  i_frame : blocks s' = blocks s /\ objects s' = objects s /\ store s' = store s }.
#[global] Instance keepi_refl : Reflexive keepi.
Proof. by split. Qed.
#[global] Instance keepi_trans : Transitive keepi.
Proof. intros s1 s2 s3 [A1 A2 (A3 & A4 & A5)] [B1 B2 (B3 & B4 & B5)]. split; [intros i; by rewrite B1|by etrans|split_and!; congruence]. Qed.
Lemma keepi_entries s s' i : keepi s s' -> entries s' i = entries s i.
Proof.
  intros K. unfold entries. assert (c_inode <$> contents s' = c_inode <$> contents s) as E by (apply map_eq; intros k; rewrite !lookup_fmap; apply (i_same _ _ K)).
  transitivity (cnt (fun kv => kv.2 = i) (c_inode <$> contents s')); [symmetry; by apply cnt_fmap|]. rewrite E. by apply cnt_fmap.
Qed.
Lemma keepi_ic s s' : keepi s s' -> ic s -> ic s'.
Proof.
  intros K H i r Hi N1 N2. rewrite (keepi_entries s s' i K). pose proof (i_rows _ _ K i) as E. rewrite Hi in E. destruct (inodes s !! i) as [r'|] eqn:Ei; [|done]. cbn in E. injection E as E _.
  rewrite E. by apply H.
Qed.
Lemma keepi_sz s s' : keepi s s' -> sz s -> sz s'.
Proof.
  intros K H k b o r Hb Ho Hi. destruct (i_frame _ _ K) as (F1 & F2 & F3). rewrite F1 in Hb. rewrite F2 in Ho. pose proof (i_rows _ _ K (b_inode b)) as E. rewrite Hi in E.
  destruct (inodes s !! b_inode b) as [r'|] eqn:Ei; [|done]. cbn in E. injection E as _ E. rewrite E. by apply (H k b o r').
Qed.
Lemma keepi_keepo s s' : keepi s s' -> keepo s s'.
Proof. intros K. destruct (i_frame _ _ K) as (F1 & F2 & F3). by apply keepo_same. Qed.

(** * Attributes *)
Definition frame3 (s s' : fsck) : Prop := contents s' = contents s /\ inodes s' = inodes s /\ blocks s' = blocks s /\ objects s' = objects s /\ links s' = links s /\ store s' = store s /\
  unlinked s' = unlinked s /\ uncorrectable s' = uncorrectable s.
#[global] Instance frame3_refl : Reflexive frame3.
Proof. by intros s. Qed.
#[global] Instance frame3_trans : Transitive frame3.
Proof. intros s1 s2 s3 (A1 & A2 & A3 & A4 & A5 & A6 & A7 & A8) (B1 & B2 & B3 & B4 & B5 & B6 & B7 & B8). split_and!; congruence. Qed.
Lemma frame3_keepi s s' : frame3 s s' -> keepi s s'.
Proof. intros (A1 & A2 & A3 & A4 & A5 & A6 & A7 & A8). split; [by rewrite A2|intros k; by rewrite A1|done]. Qed.
Lemma rename_attribute_spec k n i fuel s s' : rename_attribute k n i fuel s = Some s' -> frame3 s s' /\ (captured s' = false -> captured s = false) /\ (taken s = true -> taken s' = true) /\
  (forall k', x_inode <$> xattrs s' !! k' = x_inode <$> xattrs s !! k') /\
  (taken s' = false -> exists nid s1, add_name (contents s) (delete k (xattrs s)) (Text (LOF_ ++ dec n)) s = (nid, s1) /\ s' = set_xattrs (alter (fun r => Xrow (x_inode r) nid) n (xattrs s1)) s1).
Proof.
  revert n s. induction fuel as [|fuel IH]; intros n s; [done|]. cbn [rename_attribute]. destruct (add_name _ _ _ _) as [nid s1] eqn:Ea.
  pose proof (add_name_frame _ _ _ _ _ _ Ea) as (F1 & F2 & F3 & F4 & F5 & F6 & F7 & F8 & F9 & F10 & F11 & F12). pose proof (add_name_mono _ _ _ _ _ _ Ea) as Hm. case_decide.
  - unfold put_xattrs. case_decide; [|done]. intros E. injection E as <-. cbn. split_and!; [done|done|congruence| |].
    + intros k'. rewrite F5. destruct (decide (n = k')) as [<-|N]; [rewrite lookup_alter; by destruct (xattrs s !! n)|by rewrite lookup_alter_ne].
    + intros _. exists nid, s1. done.
  - intros E. apply IH in E as (A & B & C & D & _). split_and!.
    + etrans; [|exact A]. cbn. by split_and!.
    + intros Hc. apply Hm. by apply B in Hc.
    + intros Ht. apply C. cbn. by rewrite orb_true_r.
    + intros k'. rewrite D. cbn. by rewrite F5.
    + intros Ht. rewrite C in Ht; [done|]. cbn. by rewrite orb_true_r.
Qed.
Definition fan (k : nat) := fix_attribute_name k.
Lemma fix_attribute_name_spec k s s' : fan k s = Some s' -> keep s s' /\ frame3 s s' /\ (forall k', x_inode <$> xattrs s' !! k' = x_inode <$> xattrs s !! k') /\
  (taken s' = false -> (forall j, is_Some (names s !! j) -> is_Some (names s' !! j)) /\ (forall k', k' <> k -> xattrs s' !! k' = xattrs s !! k') /\ (forall r, xattrs s' !! k = Some r -> is_Some (names s' !! x_name r))).
Proof.
  unfold fan, fix_attribute_name. destruct (xattrs s !! k) as [r|] eqn:Hk.
  2: { intros H. injection H as <-. split_and!; [reflexivity|reflexivity|done|]. intros _. split_and!; [done|done|]. by rewrite Hk. }
  destruct (names s !! x_name r) as [nr|] eqn:Hn.
  { intros H. injection H as <-. split_and!; [reflexivity|reflexivity|done|]. intros _. split_and!; [done|done|]. rewrite Hk. intros r' E. injection E as <-. eauto. }
  case_decide as HP; [|done]. intros H1. apply rename_attribute_spec in H1 as (A & B & C & D & E). cbn in D. change (frame3 s s') in A.
  assert (taken s' = false -> exists nid s1, add_name (contents s) (delete k (xattrs s)) (Text (LOF_ ++ dec k)) (report true s) = (nid, s1) /\ names s' = names s1 /\ captured s' = captured s1 /\
    xattrs s' = <[k := Xrow (x_inode r) nid]> (xattrs s)) as HX.
  { intros Ht. destruct (E Ht) as (nid & s1 & Ea & Es). exists nid, s1. subst s'. cbn. split_and!; [done|done|done|].
    pose proof (add_name_frame _ _ _ _ _ _ Ea) as (_ & _ & _ & _ & F5 & _). cbn in F5. rewrite F5.
    apply map_eq. intros k'. destruct (decide (k = k')) as [<-|N]; [by rewrite lookup_alter, lookup_insert, Hk|by rewrite lookup_alter_ne, lookup_insert_ne]. }
  pose proof A as (A1 & A2 & A3 & A4 & A5 & A6 & A7 & A8). split_and!; [|done|done|].
  - split; unfold ci, cp, bi, li; rewrite ?A1, ?A2, ?A3, ?A5; auto; [..|intros Q HD Hc Ht Hn1 Hx; destruct (Hx k r Hk) as [x Hx1]; congruence].
    + intros Ht. destruct (taken s) eqn:Et; [|done]. rewrite C in Ht; [done|by cbn].
    + intros Hc Ht H. destruct (HX Ht) as (nid & s1 & Ea & E1 & E2 & E3). unfold nc. rewrite A1, E1, E3. rewrite E2 in Hc.
      destruct (add_name_counted _ _ _ _ _ _ Ea Hc) as [_ Hx]; cbn.
      * refine (counted_ext _ _ _ _ H). intros j [nr Hj]. rewrite (uses_xdelete _ _ _ _ _ Hk). rewrite b2z_false; [lia|]. intros <-. congruence.
      * refine (counted_ext _ _ _ _ Hx). intros j _. cbn. rewrite (uses_xupdate _ _ _ _ _ _ Hk), (uses_xdelete _ _ _ _ _ Hk). cbn. lia.
    + intros Q Hc Ht H H' k' e' Hk'. destruct (HX Ht) as (nid & s1 & Ea & E1 & E2 & E3). rewrite A1 in Hk'. rewrite E1. destruct (H' k' e' Hk') as [Hy|Hy]; [left|by right].
      by apply (add_name_names _ _ _ _ _ _ Ea).
    + intros Hc Ht H H' k' r' Hk'. destruct (HX Ht) as (nid & s1 & Ea & E1 & E2 & E3). rewrite E3 in Hk'. rewrite E1. destruct (add_name_names _ _ _ _ _ _ Ea) as [Hi Hd].
      destruct (decide (k = k')) as [<-|N]; [rewrite lookup_insert in Hk'; by injection Hk' as <-|]. rewrite lookup_insert_ne in Hk' by done. apply Hd. by apply (H' k').
    + intros H' k' r' Hk'. rewrite A2. specialize (D k'). rewrite Hk' in D. destruct (xattrs s !! k') as [r2|] eqn:E2; [|done]. cbn in D. injection D as ->. by apply (H' k').
  - intros Ht. destruct (HX Ht) as (nid & s1 & Ea & E1 & E2 & E3). destruct (add_name_names _ _ _ _ _ _ Ea) as [Hi Hd]. rewrite E1, E3. split_and!; [done| |].
    + intros k' N. by rewrite lookup_insert_ne.
    + intros r'. rewrite lookup_insert. intros E4. by injection E4 as <-.
Qed.
Lemma check_attribute_names_keep s s' : check_attribute_names s = Some s' -> keep s s' /\ keepi s s' /\ (taken s' = false -> xn s').
Proof.
  intros H. set (R := fun s s' => keep s s' /\ frame3 s s' /\ forall k', x_inode <$> xattrs s' !! k' = x_inode <$> xattrs s !! k').
  assert (Reflexive R) by (intros t; split_and!; [reflexivity|reflexivity|done]).
  assert (Transitive R) by (intros t1 t2 t3 (A1 & A2 & A3) (B1 & B2 & B3); split_and!; [by etrans|by etrans|intros k; by rewrite B3]).
  assert (R s s') as (K1 & K2 & K3).
  { refine (each_rel R _ _ _ _ _ H). intros [k r] t t' _ E. apply fix_attribute_name_spec in E as (E1 & E2 & E3 & _). done. }
  split_and!; [done|by apply frame3_keepi|]. intros Ht k r Hk.
  assert (exists r0, xattrs s !! k = Some r0) as [r0 Hr0]. { specialize (K3 k). rewrite Hk in K3. destruct (xattrs s !! k); [eauto|done]. }
  refine (each_done (fun _ => True) (fun (a : nat * xrow) t => taken t = false -> forall r, xattrs t !! a.1 = Some r -> is_Some (names t !! x_name r)) _ _ s s' _ _ I H (k, r0) _ Ht r Hk); [| |by apply rows_elem].
  - intros a t t' _ _ E. split; [done|]. intros Ht'. apply fix_attribute_name_spec in E as (_ & _ & _ & E). by apply E.
  - intros a b t t' _ _ _ Hb E Ht' r1 Hr1. apply fix_attribute_name_spec in E as (E0 & _ & _ & E). destruct (E Ht') as (E1 & E2 & E3).
    destruct (decide (b.1 = a.1)) as [Eab|N]; [apply E3; by rewrite <- Eab|]. apply E1. apply Hb; [by apply E0|]. by rewrite <- E2.
Qed.
Lemma fix_attribute_inode_spec k s s' : fix_attribute_inode k s = Some s' -> keep s s' /\ frame3 s s' /\
  (xattrs s' = xattrs s /\ (forall r, xattrs s !! k = Some r -> is_Some (inodes s !! x_inode r)) \/ xattrs s' = delete k (xattrs s)).
Proof.
  unfold fix_attribute_inode. destruct (xattrs s !! k) as [r|] eqn:Hk; [|intros H; injection H as <-; split_and!; [reflexivity|reflexivity|by left]].
  destruct (inodes s !! x_inode r) eqn:Hi; intros H; injection H as <-.
  - split_and!; [reflexivity|reflexivity|]. left. split; [done|]. intros r' E. injection E as <-. eauto.
  - split_and!; [etrans; [apply (keep_report true)|by apply (keep_xremove (report true s))]|done|by right].
Qed.
Lemma check_attribute_inodes_keep s s' : check_attribute_inodes s = Some s' -> keep s s' /\ keepi s s' /\ xi s'.
Proof.
  intros H. set (R := fun s s' => keep s s' /\ frame3 s s' /\ forall k r, xattrs s' !! k = Some r -> xattrs s !! k = Some r).
  assert (Reflexive R) by (intros t; split_and!; [reflexivity|reflexivity|done]).
  assert (Transitive R) by (intros t1 t2 t3 (A1 & A2 & A3) (B1 & B2 & B3); split_and!; [by etrans|by etrans|auto]).
  assert (forall k t t', fix_attribute_inode k t = Some t' -> R t t') as Hstep.
  { intros k t t' E. apply fix_attribute_inode_spec in E as (E1 & E2 & [[E3 _]|E3]); (split_and!; [done|done|]); rewrite E3; [done|]. by intros k' r' [_ ?]%lookup_delete_Some. }
  assert (R s s') as (K1 & K2 & K3). { refine (each_rel R _ _ _ _ _ H). intros [k r] t t' _ E. by eapply Hstep. }
  split_and!; [done|by apply frame3_keepi|]. intros k r Hk.
  refine (each_done (fun _ => True) (fun (a : nat * xrow) t => forall r, xattrs t !! a.1 = Some r -> is_Some (inodes t !! x_inode r)) _ _ s s' _ _ I H (k, r) _ r Hk); [| |by apply rows_elem, K3].
  - intros a t t' _ _ E. split; [done|]. intros r1 Hr1. apply fix_attribute_inode_spec in E as (_ & (_ & -> & _) & [[E1 E2]|E1]); rewrite E1 in Hr1; [auto|]. by rewrite lookup_delete in Hr1.
  - intros a b t t' _ _ _ Hb E r1 Hr1. apply Hstep in E as (_ & (_ & -> & _) & E). auto.
Qed.
Lemma check_symlinks_keep s : keep s (check_symlinks s) /\ keepi s (check_symlinks s) /\ li (check_symlinks s).
Proof.
  split_and!.
  - apply keep_same; cbn; auto. by intros i l [? _]%map_filter_lookup_Some.
  - by split.
  - intros i l Hi. cbn in *. apply map_filter_lookup_Some in Hi as [_ Hi]. by apply elem_of_dom in Hi.
Qed.

(** * Loops *)
Lemma keep_anchor s i e k n nid s1 p s2 : contents s !! k = Some e -> c_inode e = i -> lost_found s = Some p -> add_name (contents s) (xattrs s) n s = (nid, s1) ->
  put_contents ((fun e' => if decide (c_inode e' = i /\ c_name e' = c_name e) then Centry nid i p else e') <$> contents s1) s1 = Some s2 ->
  keep s (del_name (c_name e) s2) /\ contents s2 = <[k := Centry nid i p]> (contents s) /\ frame s s2.
Proof.
  intros Hk Hi Hp Ea Em. pose proof (add_name_frame _ _ _ _ _ _ Ea) as (F1 & F2 & F3 & F4 & F5 & F6 & F7 & F8 & F9 & F10 & F11 & F12).
  assert ((fun e' => if decide (c_inode e' = i /\ c_name e' = c_name e) then Centry nid i p else e') <$> contents s1 = <[k := Centry nid (c_inode e) p]> (contents s1)) as E.
  { apply put_contents_spec in Em as [_ Hu]. apply map_eq. intros k'. rewrite lookup_fmap. destruct (decide (k = k')) as [<-|N].
    - rewrite lookup_insert, F1, Hk. cbn. rewrite decide_True by done. by rewrite Hi.
    - rewrite lookup_insert_ne by done. destruct (contents s1 !! k') as [e'|] eqn:Ek'; [|done]. cbn. case_decide as D; [|done]. destruct N.
      refine (Hu k (Centry nid i p) _ k' (Centry nid i p) _ _); [| |done].
      + rewrite lookup_fmap, F1, Hk. cbn. by rewrite decide_True.
      + rewrite lookup_fmap, Ek'. cbn. by rewrite decide_True. }
  rewrite E in Em. assert (move_entry k nid p s1 = Some s2) as Em' by (unfold move_entry; by rewrite F1, Hk, <- F1).
  destruct (keep_add_drop s k e _ nid s1 p s2 Hk Hp Ea Em') as [K Hc]. rewrite <- Hi. split_and!; [done|done|]. by eapply add_move_frame.
Qed.
Lemma anchor_keep fuel up left root s s' : anchor fuel up left root s = Some s' -> keep s s' /\ keepi s s'.
Proof.
  revert up left root s. induction fuel as [|fuel IH]; intros up left root s; [done|]. cbn [anchor]. destruct (delete_tree _ _ _ _) as [left1|]; [|done].
  destruct (culprit left1 s) as [i|]; [|intros H; injection H as <-; split; reflexivity].
  destruct (entry_of s i) as [[k e]|] eqn:Ep; [|done]. apply pick_elem, elem_of_list_filter in Ep as [[Hi _] Hk]. apply elem_of_map_to_list in Hk. cbn in Hi.
  destruct (name_of s (c_name e)) as [[n|]|]; [|done|done]. destruct (resolve_free s n) as [[p n']|] eqn:Er; [|done]. destruct (add_name _ _ _ _) as [nid s1] eqn:Ea.
  destruct (put_contents _ s1) as [s2|] eqn:Em; [|done]. intros H. apply IH in H as [K1 K2].
  destruct (keep_anchor (report true s) i e k _ nid s1 p s2 Hk Hi (resolve_free_parent _ _ _ _ Er) Ea Em) as (K & E & F).
  split; [etrans; [apply (keep_report true)|]; by etrans|]. etrans; [|exact K2]. destruct F as (A1 & A2 & A3 & A4 & A5 & A6 & A7). split; [by cbn; rewrite A1| |done].
  cbn. subst i. by apply (moved_inodes s s2 k e nid p).
Qed.
Lemma check_loops_keep s s' : check_loops s = Some s' -> keep s s' /\ keepi s s'.
Proof. apply anchor_keep. Qed.

(** * Conventions, references *)
Lemma check_unix_keep s s' : check_unix s = Some s' -> keep s s' /\ keepi s s'.
Proof.
  unfold check_unix. case_decide; [|done]. intros E. injection E as <-. split.
  - apply keep_same; cbn; auto. intros i [r Hi]. rewrite map_lookup_imap, Hi. cbn. eauto.
  - split; cbn; [|done|done]. intros i. rewrite map_lookup_imap. destruct (inodes s !! i) as [r|]; [|done]. cbn. unfold typed. by case_decide.
Qed.
Lemma check_foreign_keys_ok s : cn s -> ci s -> cp s -> xn s -> xi s -> bi s -> bo s -> li s -> resolved s /\ check_foreign_keys s = s.
Proof.
  intros H1 H2 H3 H4 H5 H6 H7 H8. assert (resolved s) as HR.
  { unfold resolved. split_and!; intros k r Hk; split_and?; eauto. }
  split; [done|]. unfold check_foreign_keys. rewrite bool_decide_eq_false_2 by auto. unfold set_uncorrectable, report. cbn. rewrite !orb_false_r. by destruct s.
Qed.

(** * The whole check *)
Lemma put_contents_unc c s s' : put_contents c s = Some s' -> uncorrectable s' = uncorrectable s.
Proof. by intros [-> _]%put_contents_spec. Qed.
Lemma lof_directory_unc i nid s s' : lof_directory i nid s = Some s' -> uncorrectable s' = uncorrectable s.
Proof.
  unfold lof_directory. destruct (inodes s !! i); [|done]. case_decide; [intros H1; by injection H1 as <-|]. cbn. intros H1. by apply put_contents_unc in H1.
Qed.
Lemma check_lof_unc s s' : check_lof s = Some s' -> uncorrectable s' = uncorrectable s.
Proof.
  unfold check_lof. destruct (entry _ _ _) as [[k e]|]; [apply lof_directory_unc|]. destruct (filter _ _) as [|[k e] [|]]; [| |done].
  - cbn [create_inode]. destruct (add_name _ _ _ _) as [nid s1] eqn:Ea. intros H. apply put_contents_unc in H. rewrite H. apply add_name_frame in Ea as (_ & _ & _ & _ & _ & _ & _ & _ & _ & _ & F & _). done.
  - destruct (put_contents _ _) as [t|] eqn:E; [|done]. apply put_contents_unc in E. intros H. apply lof_directory_unc in H. by rewrite H.
Qed.
Definition ccd (b : bool) (k : nat * Z) := check_cached b k.
Lemma check_cached_unc b k s s' : ccd b k s = Some s' -> uncorrectable s' = uncorrectable s.
Proof.
  unfold ccd, check_cached. destruct (cache s !! k) as [d|]; [|done]. intros H.
  assert (uncorrectable (if cache_clean s k.1 k.2 (sha256 d) then s else let (id, s1) := cache_upload d (sha256 d) (report true s) in cache_link k.1 k.2 id s1) = uncorrectable s) as E.
  { destruct (cache_clean _ _ _ _); [done|]. unfold cache_upload, cache_link. destruct (by_hash _ _) as [[id o]|]; destruct (block_row _ _ _) as [[k1 r1]|]; done. }
  injection H as <-. by destruct b.
Qed.
Lemma check_cache_unc b s s' : check_cache b s = Some s' -> uncorrectable s' = uncorrectable s.
Proof. intros H. refine (each_inv (fun t => uncorrectable t = uncorrectable s) _ _ s s' _ eq_refl H). intros k t t' _ E1 E2. apply check_cached_unc in E2. congruence. Qed.
(** No captures, if the ids are not in use *)
Definition q (D : nat -> Prop) (s : fsck) : Prop := captured s = false /\ taken s = false /\ xn s /\ cov D s.
Lemma q_same D s s' : captured s' = captured s -> taken s' = taken s -> xattrs s' = xattrs s -> (forall j, is_Some (names s !! j) -> is_Some (names s' !! j)) ->
  (forall k e, contents s' !! k = Some e -> is_Some (names s' !! c_name e) \/ exists k' e', contents s !! k' = Some e' /\ c_name e' = c_name e) -> q D s -> q D s'.
Proof.
  intros E1 E2 E3 HN HC (Q1 & Q2 & Q3 & Q4). split_and!; [congruence|congruence| |].
  - intros k r Hk. rewrite E3 in Hk. by apply HN, (Q3 k).
  - intros k e Hk. destruct (HC k e Hk) as [H|(k' & e' & H1 & H2)]; [by left|]. rewrite <- H2. destruct (Q4 k' e' H1); auto.
Qed.
Lemma lof_directory_q D i nid s s' : lof_directory i nid s = Some s' -> q D s -> q D s'.
Proof.
  unfold lof_directory. destruct (inodes s !! i); [|done]. case_decide; [intros E; by injection E as <-|]. cbn. intros [-> _]%put_contents_spec. apply q_same; cbn; auto.
  intros k e. rewrite lookup_fmap. destruct (contents s !! k) as [e0|] eqn:E; [|done]. cbn. intros E1. injection E1 as <-. right. exists k, e0. split; [done|]. by case_decide.
Qed.
Lemma check_lof_q (D : nat -> Prop) s s' : (forall X, ~ D (new X)) -> check_lof s = Some s' -> q D s -> q D s'.
Proof.
  intros HD. unfold check_lof. destruct (entry _ _ _) as [[k e]|]; [apply lof_directory_q|]. destruct (filter _ _) as [|[k e] [|]]; [| |done].
  - cbn [create_inode]. destruct (add_name _ _ _ _) as [nid s1] eqn:Ea. intros [-> _]%put_contents_spec Q. pose proof Q as (Q1 & Q2 & Q3 & Q4).
    pose proof (fun A B => add_name_uncaptured D _ _ _ _ _ _ HD A B Ea) as Hc. specialize (Hc Q4 Q3). cbn in Hc. pose proof (add_name_names _ _ _ _ _ _ Ea) as [Hi Hd].
    pose proof (add_name_frame _ _ _ _ _ _ Ea) as (F1 & F2 & F3 & F4 & F5 & F6 & F7 & F8 & F9 & F10 & F11 & F12). cbn in F1, F5, F12, Hd. revert Q. apply q_same; cbn; auto.
    intros k e. rewrite F1. set (k0 := new _). destruct (decide (k0 = k)) as [<-|N]; [rewrite lookup_insert; intros E; injection E as <-; by left|].
    rewrite lookup_insert_ne by done. intros Hk. right. eauto.
  - destruct (put_contents _ _) as [t|] eqn:E; [|done]. intros H Q. apply (lof_directory_q D _ _ _ _ H). apply put_contents_spec in E as [-> _]. revert Q. apply q_same; cbn; auto.
    intros k' e'. rewrite lookup_fmap. destruct (contents s !! k') as [e0|] eqn:E0; [|done]. cbn. intros E1. injection E1 as <-. right. exists k', e0. split; [done|]. by case_decide.
Qed.
Lemma check_cached_q D b k s s' : ccd b k s = Some s' -> q D s -> q D s'.
Proof.
  unfold ccd, check_cached. destruct (cache s !! k) as [d|]; [|done]. intros H.
  set (t := if cache_clean s k.1 k.2 (sha256 d) then s else let (id, s1) := cache_upload d (sha256 d) (report true s) in cache_link k.1 k.2 id s1) in *.
  assert (captured t = captured s /\ taken t = taken s /\ xattrs t = xattrs s /\ names t = names s /\ contents t = contents s) as (E1 & E2 & E3 & E4 & E5).
  { subst t. destruct (cache_clean _ _ _ _); [done|]. unfold cache_upload, cache_link. destruct (by_hash _ _) as [[id o]|]; destruct (block_row _ _ _) as [[k1 r1]|]; done. }
  assert (q D s -> q D t) as HQ. { apply q_same; rewrite ?E4, ?E5; auto. intros k' e' Hk'. right. eauto. }
  injection H as <-. by destruct b.
Qed.
Lemma check_cache_q D b s s' : check_cache b s = Some s' -> q D s -> q D s'.
Proof. intros H Q. refine (each_inv (q D) _ _ s s' _ Q H). intros k t t' _ Qt E. by eapply check_cached_q. Qed.
Lemma check_names_refcount_q D s : q D s -> q D (check_names_refcount s).
Proof.
  apply q_same; auto.
  - intros j [[n r] Hj]. cbn. rewrite map_lookup_imap, Hj. cbn. eauto.
  - intros k e Hk. right. eauto.
Qed.
Lemma check_names_refcount_nc s : nc (check_names_refcount s).
Proof.
  intros id nr H. cbn in *. rewrite map_lookup_imap in H. destruct (names s !! id) as [[n r]|]; [|done]. cbn in H. by injection H as <-.
Qed.
Definition chk := check.
(** Up to the first checks, the objects, and the rest *)
Lemma check_stages wc kp s s' : chk wc kp s = Some s' -> exists s2 s3 s4 s6 s7 s8 s9 s10 s11,
  uncorrectable s2 = uncorrectable s /\ (forall D, (forall X, ~ D (new X)) -> q D s -> q D s2) /\ nc s2 /\ keep s2 s3 /\ (captured s3 = false -> taken s3 = false -> cn s3) /\ ci s3 /\ cp s3 /\
  s4 = check_objects_id (check_objects_refcount (check_objects_hash s3)) /\ check_objects_phys_size s4 = Some s6 /\
  bstep s6 s7 /\ bo s7 /\ keep s7 s8 /\ keepo s7 s8 /\ bi s8 /\ keep s8 s9 /\ frame2 s8 s9 /\ ic s9 /\
  keep s9 s10 /\ frame2 s9 s10 /\ ic s10 /\ sz s10 /\
  keep s10 s11 /\ keepi s10 s11 /\ (captured s11 = false -> taken s11 = false -> nc s10 -> xn s11) /\ xi s11 /\ li s11 /\ s' = check_foreign_keys s11.
Proof.
  unfold chk, check. destruct (check_lof s) as [t0|] eqn:E0; [|done].
  cbn [mbind option_bind]. set (t1o := if wc then _ else _). assert (forall t1, t1o = Some t1 -> uncorrectable t1 = uncorrectable t0 /\ forall D, q D t0 -> q D t1) as Et1.
  { intros t1. subst t1o. destruct wc; [intros H; split; [by apply check_cache_unc in H|intros D; by eapply check_cache_q]|]. intros H. by injection H as <-. }
  destruct t1o as [t1|]; [|done]. specialize (Et1 _ eq_refl) as [Et1 Qt1]. cbn [mbind option_bind].
  destruct (check_contents_name _) as [t3|] eqn:E3; [|done]. apply check_contents_name_keep in E3 as [K3 C3]. cbn [mbind option_bind].
  destruct (check_contents_inode _) as [t4|] eqn:E4; [|done]. apply check_contents_inode_keep in E4 as [K4 C4]. cbn [mbind option_bind].
  destruct (check_contents_parent _) as [t5|] eqn:E5; [|done]. apply check_contents_parent_keep in E5 as [K5 C5]. cbn [mbind option_bind].
  set (t6 := check_objects_id _). destruct (check_objects_phys_size _) as [t7|] eqn:E7; [|done]. cbn [mbind option_bind].
  destruct (check_block_objects _) as [t8|] eqn:E8; [|done]. apply check_block_objects_keep in E8 as [K8 C8]. cbn [mbind option_bind].
  destruct (check_block_inodes _) as [t9|] eqn:E9; [|done]. apply check_block_inodes_keep in E9 as (K9 & O9 & C9 & I9 & B9). cbn [mbind option_bind].
  destruct (check_inodes_refcount _) as [t10|] eqn:E10; [|done]. apply check_inodes_refcount_keep in E10 as (K10 & F10 & I10). cbn [mbind option_bind].
  destruct (check_inodes_size _) as [t11|] eqn:E11; [|done]. apply check_inodes_size_keep in E11 as (K11 & F11 & _ & I11 & Z11). cbn [mbind option_bind].
  destruct (check_attribute_names _) as [t12|] eqn:E12; [|done]. apply check_attribute_names_keep in E12 as (K12 & I12 & X12). cbn [mbind option_bind].
  destruct (check_attribute_inodes _) as [t13|] eqn:E13; [|done]. apply check_attribute_inodes_keep in E13 as (K13 & I13 & X13). cbn [mbind option_bind].
  destruct (check_symlinks_keep t13) as (K14 & I14 & L14). set (t14 := check_symlinks t13) in *.
  destruct (check_loops _) as [t15|] eqn:E15; [|done]. apply check_loops_keep in E15 as (K15 & I15). cbn [mbind option_bind].
  destruct (check_unix _) as [t16|] eqn:E16; [|done]. apply check_unix_keep in E16 as (K16 & I16). cbn [mbind option_bind]. intros H. injection H as <-.
  assert (keep t12 t16) as K by (etrans; [exact K13|]; etrans; [exact K14|]; etrans; [exact K15|exact K16]).
  assert (keep (check_names_refcount t1) t5) as K2 by (etrans; [exact K3|]; etrans; [exact K4|exact K5]).
  exists (check_names_refcount t1), t5, t6, t7, t8, t9, t10, t11, t16. split_and!; try done.
  - cbn. apply check_lof_unc in E0. congruence.
  - intros D HD Q. apply check_names_refcount_q, Qt1. by apply (check_lof_q D s).
  - apply check_names_refcount_nc.
  - intros Hc Ht. assert (keep t3 t5) as K35 by by etrans. apply (k_cn _ _ K35); [done|done| |done].
    apply (k_nc _ _ K3); [by apply K35|by apply K35|]. apply check_names_refcount_nc.
  - apply K5, C4.
  - by apply C5.
  - by apply I11.
  - by etrans.
  - etrans; [exact I12|]. etrans; [exact I13|]. etrans; [exact I14|]. by etrans.
  - intros Hc Ht Hn. pose proof (k_tak _ _ K Ht) as Ht'. pose proof (k_cap _ _ K Hc) as Hc'. apply (k_xn _ _ K); [done|done| |auto]. by apply (k_nc _ _ K12).
  - apply K16, K15, K14, X13.
  - apply K16, K15, L14.
Qed.
Theorem check_result wc kp s s' : chk wc kp s = Some s' -> captured s' = false -> taken s' = false ->
  resolved s' /\ uncorrectable s' = uncorrectable s /\ nc s' /\ oc s' /\ ic s' /\ sz s' /\ os s' /\ ph s' /\ hs s' /\ ((forall m, listed m = dom m) -> ob s').
Proof.
  intros H Hc Ht. apply check_stages in H as (s2 & s3 & s4 & s6 & s7 & s8 & s9 & s10 & s11 & U2 & _ & N2 & K3 & C3 & CI3 & CP3 & E4 & E6 & B7 & BO7 & K8 & O8 & BI8 & K9 & F9 & I9 & K10 & F10 & I10 & Z10 & K11 & I11 & X11 & XI11 & LI11 & ->).
  assert (captured s11 = false) as Hc11 by (by cbn in Hc). assert (taken s11 = false) as Ht11 by (by cbn in Ht).
  pose proof (check_objects_keep s3) as K4. rewrite <- E4 in K4. pose proof (check_objects_phys_size_keep _ _ E6) as K6.
  pose proof B7 as (K7 & O7 & _).
  assert (keep s3 s10) as K3_10. { etrans; [exact K4|]. etrans; [exact K6|]. etrans; [exact K7|]. etrans; [exact K8|]. by etrans. }
  assert (keep s3 s11) as K3_11 by by etrans. assert (keep s8 s11) as K8_11 by (etrans; [exact K9|]; by etrans).
  assert (keepo s7 s11) as O7_11. { etrans; [exact O8|]. etrans; [by apply frame2_keepo|]. etrans; [by apply frame2_keepo|]. by apply keepi_keepo. }
  assert (keepo s6 s11) as O6_11 by by etrans.
  assert (captured s3 = false) as Hc3 by by apply K3_11. assert (taken s3 = false) as Ht3 by by apply K3_11.
  assert (nc s3) as N3 by (by apply (k_nc _ _ K3)). assert (cn s3) as CN3 by auto.
  assert (captured s10 = false) as Hc10 by by apply K11. assert (taken s10 = false) as Ht10 by by apply K11.
  destruct (check_foreign_keys_ok s11) as [HR HE].
  { by apply (k_cn _ _ K3_11). } { by apply K3_11. } { by apply K3_11. } { apply X11; [done|done|]. by apply (k_nc _ _ K3_10). } { done. }
  { by apply K8_11. } { by apply (keepo_bo s7). } { done. }
  rewrite HE. destruct (check_objects_phys_size_spec s4 s6 E6) as [S6 P6]. destruct S6 as (S61 & S62 & S63).
  destruct (check_objects_hash_spec s3) as (A1 & A2 & A3). set (h := check_objects_hash s3) in *. destruct (check_objects_refcount_spec h) as (B1 & B2 & B3). set (r := check_objects_refcount h) in *.
  destruct (check_objects_id_spec r) as (D1 & D2 & D3). rewrite <- E4 in D1, D2, D3.
  assert (forall id o, objects s4 !! id = Some o -> o_ref o = refs s4 id /\ o_hash o <> None /\ is_Some (store s4 !! id)) as H4.
  { intros id o Ho. pose proof Ho as [Ho1 [d Hd]]%D2. pose proof Ho1 as (o' & Ho2 & -> & _)%B3. apply A3 in Ho2 as [Ho2 Hh]. split_and!; [|done|].
    - cbn. unfold refs. by rewrite D1, B1.
    - exists d. apply D3. split; [done|]. left. eauto. }
  assert (forall id o, objects s6 !! id = Some o -> exists o', objects s4 !! id = Some o' /\ o_ref o = o_ref o' /\ o_hash o = o_hash o') as H6.
  { intros id o Ho. specialize (S63 id). rewrite Ho in S63. destruct (objects s4 !! id) as [o'|] eqn:E; [|done]. cbn in S63. injection S63 as E1 E2 E3. eauto. }
  split_and!; [done| | | |by apply (keepi_ic s10)|by apply (keepi_sz s10)| | | |].
  - rewrite (k_unc _ _ K3_11). rewrite (k_unc _ _ K3). done.
  - by apply (k_nc _ _ K3_11).
  - apply O6_11. intros id o Ho. destruct (H6 _ _ Ho) as (o' & Ho' & -> & _). destruct (H4 _ _ Ho') as (-> & _). unfold refs. by rewrite S61.
  - apply (keepo_os s6); [done|]. intros id [o Ho]. destruct (H6 _ _ Ho) as (o' & Ho' & _). rewrite S62. by apply (H4 _ _ Ho').
  - by apply (keepo_ph s6).
  - apply (keepo_hs s6); [done|]. intros id o Ho. destruct (H6 _ _ Ho) as (o' & Ho' & _ & ->). by apply (H4 _ _ Ho').
  - intros Hfull. apply (keepo_ob s6); [done|]. intros id [d Hd]. rewrite S62 in Hd. apply D3 in Hd as [Hd [[o Ho]|Hni]].
    + assert (objects s4 !! id = Some o) as Ho4 by (apply D2; eauto). specialize (S63 id). rewrite Ho4 in S63. destruct (objects s6 !! id); [eauto|done].
    + destruct Hni. rewrite Hfull. apply elem_of_dom. eauto.
Qed.

Theorem check_flags wc kp s s' (D : nat -> Prop) : (forall X, ~ D (new X)) -> q D s -> chk wc kp s = Some s' -> captured s' = false /\ taken s' = false.
Proof.
  intros HD Q H. apply check_stages in H as (s2 & s3 & s4 & s6 & s7 & s8 & s9 & s10 & s11 & U2 & Q2 & N2 & K3 & C3 & CI3 & CP3 & E4 & E6 & B7 & BO7 & K8 & O8 & BI8 & K9 & F9 & I9 & K10 & F10 & I10 & Z10 & K11 & I11 & X11 & XI11 & LI11 & ->).
  pose proof (check_objects_keep s3) as K4. rewrite <- E4 in K4. pose proof (check_objects_phys_size_keep _ _ E6) as K6. pose proof B7 as (K7 & O7 & _).
  assert (keep s2 s11) as K. { etrans; [exact K3|]. etrans; [exact K4|]. etrans; [exact K6|]. etrans; [exact K7|]. etrans; [exact K8|]. etrans; [exact K9|]. by etrans. }
  destruct (Q2 D HD Q) as (Q21 & Q22 & Q23 & Q24). destruct (k_q _ _ K D) as [A B]; auto.
Qed.
End proofs.
