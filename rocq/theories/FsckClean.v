(** A check of a clean file system changes and reports nothing. *)
From stdpp Require Import prelude gmap.
From Coq Require Import ZArith Lia.
From Verif Require Import Count FsckModel FsckSpec FsckProofs.

Lemma count_cnt {A} (p : A -> bool) (P : nat * A -> Prop) `{!forall x, Decision (P x)} (m : gmap nat A) :
  (forall k v, m !! k = Some v -> P (k, v) <-> p v = true) -> count p m = cnt P m.
Proof.
  induction m as [|k v m Hk IH] using map_ind; intros HP.
  - unfold count. by rewrite map_to_list_empty, cnt_empty.
  - rewrite cnt_insert_new by done. rewrite <- IH.
    2: { intros k' v' Hk'. apply HP. rewrite lookup_insert_ne; [done|]. intros <-. congruence. }
    unfold count. assert (map_to_list (<[k:=v]> m) ≡ₚ (k, v) :: map_to_list m) as Hp by by apply map_to_list_insert.
    assert (length (List.filter p (snd <$> map_to_list (<[k:=v]> m))) = length (List.filter p (snd <$> (k, v) :: map_to_list m))) as ->.
    { clear -Hp. induction Hp as [|a l1 l2 _ IH|a b l|l1 l2 l3 _ IH1 _ IH2]; [done| | |by rewrite IH1].
      - rewrite !fmap_cons. cbn. destruct (p a.2); cbn; congruence.
      - rewrite !fmap_cons. cbn. by destruct (p a.2), (p b.2). }
    rewrite fmap_cons. cbn. specialize (HP k v (lookup_insert _ _ _)). destruct (p v) eqn:E; cbn.
    + rewrite b2z_true by by apply HP. lia.
    + rewrite b2z_false; [lia|]. intros Q. apply HP in Q. congruence.
Qed.
Lemma same_eq a b : same a b = true <-> a = b.
Proof. apply Nat.eqb_eq. Qed.

Section clean.
Context `{Env0 : env}.
Lemma report_false s : report false s = s.
Proof. destruct s. unfold report. cbn. by rewrite orb_false_r. Qed.
Lemma set_uncorrectable_false s : set_uncorrectable false s = s.
Proof. destruct s. unfold set_uncorrectable. cbn. by rewrite orb_false_r. Qed.
Lemma each_id {A} (l : list A) f s : (forall a, a ∈ l -> f a s = Some s) -> each l f s = Some s.
Proof. induction l as [|a l IH]; intros H; [done|]. cbn [each]. rewrite H by left. apply IH. intros b Hb. apply H. by right. Qed.

Lemma uses_count s id : uses (contents s) (xattrs s) id = (count (fun e => same (c_name e) id) (contents s) + count (fun x => same (x_name x) id) (xattrs s))%Z.
Proof. unfold uses. f_equal; symmetry; apply count_cnt; intros k v _; cbn; by rewrite same_eq. Qed.
Lemma entries_count s i : entries s i = count (fun e => same (c_inode e) i) (contents s).
Proof. unfold entries. symmetry. apply count_cnt. intros k v _. cbn. by rewrite same_eq. Qed.
Lemma refs_count s id : refs s id = count (fun b => same (b_obj b) id) (blocks s).
Proof. unfold refs. symmetry. apply count_cnt. intros k v _. cbn. by rewrite same_eq. Qed.

Lemma resolved_iff s : resolved s <-> references_resolve s.
Proof.
  split.
  - intros (H1 & H2 & H3 & H4). split.
    + intros k e Hk. rewrite !elem_of_dom. by apply (H1 k).
    + intros k e Hk. rewrite !elem_of_dom. by apply (H2 k).
    + intros k e Hk. rewrite !elem_of_dom. by apply (H3 k).
    + intros k e Hk. rewrite !elem_of_dom. by apply (H4 k e).
  - intros [H1 H2 H3 H4]. split_and!.
    + intros k e Hk. rewrite <- !elem_of_dom. by apply (H1 k).
    + intros k e Hk. rewrite <- !elem_of_dom. by apply (H2 k).
    + intros k e Hk. rewrite <- !elem_of_dom. by apply (H3 k).
    + intros k e Hk. rewrite <- !elem_of_dom. by apply (H4 k e).
Qed.

(** * The stages *)
Lemma clean_lof s : has_lost_found s -> check_lof s = Some s.
Proof.
  intros [(k & e & r & Hk & Hp & Hn) H]. unfold check_lof. destruct (entry s ROOT (Blob LOF)) as [[k' e']|] eqn:E.
  - apply entry_spec in E as (E1 & E2 & E3). unfold name_of in E3. destruct (names s !! c_name e') as [[n' r']|] eqn:En; [|done]. cbn in E3. injection E3 as ->.
    destruct (H k' e' r' E1 E2 En) as (i & Hi & Hd). unfold lof_directory. rewrite Hi. by rewrite decide_True.
  - destruct (entry_none _ _ _ E k e Hk Hp). unfold name_of. by rewrite Hn.
Qed.
Lemma clean_names s : counts_right s -> check_names_refcount s = s.
Proof.
  intros [H _ _]. assert (forall id nr, names s !! id = Some nr -> nr.2 = uses (contents s) (xattrs s) id) as Hu.
  { intros id [n r] Hid. rewrite uses_count. by apply (H id n). }
  unfold check_names_refcount. rewrite bool_decide_eq_false_2; [|intros Q; apply Q; exact Hu]. rewrite report_false.
  assert (map_imap (fun id nr => Some (nr.1, uses (contents s) (xattrs s) id)) (names s) = names s) as ->.
  { apply map_eq. intros id. rewrite map_lookup_imap. destruct (names s !! id) as [[n r]|] eqn:E; [|done]. cbn. by rewrite <- (Hu _ _ E). }
  by destruct s.
Qed.
Lemma clean_contents s : references_resolve s -> check_contents_name s = Some s /\ check_contents_inode s = Some s /\ check_contents_parent s = Some s.
Proof.
  intros [H _ _ _]. assert (forall k e, contents s !! k = Some e -> is_Some (names s !! c_name e) /\ is_Some (inodes s !! c_inode e) /\ is_Some (inodes s !! c_parent e)) as R.
  { intros k e Hk. rewrite <- !elem_of_dom. by apply (H k). }
  split_and!; apply each_id; intros [k e] Hk; apply rows_elem in Hk; destruct (R k e Hk) as ([x Hx] & [y Hy] & [z Hz]).
  - unfold fix_contents_name. cbn [fst]. by rewrite Hk, Hx.
  - unfold fix_contents_inode. cbn [fst]. by rewrite Hk, Hy.
  - unfold fix_contents_parent. cbn [fst]. by rewrite Hk, Hz.
Qed.
Lemma clean_objects s : objects_stored s -> counts_right s -> (forall id o, objects s !! id = Some o -> 0 < o_ref o)%Z -> no_garbage s ->
  check_objects_id (check_objects_refcount (check_objects_hash s)) = s /\ check_objects_phys_size s = Some s.
Proof.
  intros H1 [_ _ H2] H3 H4. split.
  - assert (check_objects_hash s = s) as ->.
    { unfold check_objects_hash. rewrite bool_decide_eq_false_2; [|intros Q; apply Q; intros id o Ho; by apply (H1 id)]. rewrite report_false.
      rewrite map_filter_id; [by destruct s|]. intros id o Ho. cbn. by apply (H1 id). }
    assert (forall id o, objects s !! id = Some o -> o_ref o = refs s id /\ refs s id <> 0%Z) as Hr.
    { intros id o Ho. pose proof (H2 _ _ Ho) as E. rewrite <- refs_count in E. split; [done|]. rewrite <- E. specialize (H3 _ _ Ho). lia. }
    assert (map_imap (fun id o => if decide (refs s id = 0)%Z then None else Some (set_ref (refs s id) o)) (objects s) = objects s) as Em.
    { apply map_eq. intros id. rewrite map_lookup_imap. destruct (objects s !! id) as [o|] eqn:E; [|done]. cbn. destruct (Hr _ _ E) as [<- N]. rewrite decide_False by done. by destruct o. }
    assert (check_objects_refcount s = s) as ->.
    { unfold check_objects_refcount. rewrite Em. rewrite bool_decide_eq_false_2.
      2: { intros Q. apply Q. intros id o Ho. destruct (Hr _ _ Ho) as [E N]. by split. }
      rewrite report_false. cbn. rewrite !map_filter_id; [by destruct s| |].
      - intros id o Ho. cbn. specialize (H3 _ _ Ho). lia.
      - intros id d Hd. cbn. destruct (H4 _ _ Hd) as (o & -> & Hp). cbn. intros Q. injection Q as Q. lia. }
    assert (listed (store s) ∖ dom (objects s) = ∅) as E.
    { apply set_eq. intros id. rewrite elem_of_difference. split; [|by intros ?%elem_of_empty]. intros [Hl Hn]. destruct Hn. apply listed_stored in Hl. apply elem_of_dom in Hl as [d Hd].
      destruct (H4 _ _ Hd) as (o & Ho & _). apply elem_of_dom. eauto. }
    unfold check_objects_id. rewrite E. rewrite (bool_decide_eq_false_2 (~ (∅ : gset nat) ⊆ unlinked s)) by (intros Q; apply Q; apply empty_subseteq). rewrite report_false.
    rewrite (map_filter_id _ (store s)) by (intros id d _; apply not_elem_of_empty). assert (set_store (store s) s = s) as -> by by destruct s.
    assert (forall id, id ∈ dom (objects s) -> id ∈ listed (store s) ∪ dom (store s)) as Hin.
    { intros id [o Ho]%elem_of_dom. apply elem_of_union. right. apply elem_of_dom. destruct (H1 _ _ Ho) as (_ & _ & d & Hd). eauto. }
    rewrite bool_decide_eq_false_2 by (intros Q; apply Q; exact Hin). rewrite report_false. rewrite map_filter_id; [by destruct s|]. intros id o Ho. cbn. apply Hin. apply elem_of_dom. eauto.
  - apply each_id. intros [id o] Ho. apply rows_elem in Ho. unfold fix_phys_size. cbn [fst]. rewrite Ho. rewrite decide_False; [done|]. by apply (H1 id).
Qed.
Lemma clean_blocks s : references_resolve s -> check_block_objects s = Some s /\ check_block_inodes s = Some s.
Proof.
  intros [_ H _ _]. split; apply each_id; intros [k b] Hk; apply rows_elem in Hk; destruct (H k b Hk) as [Hi Ho]; apply elem_of_dom in Hi as [i Hi], Ho as [o Ho].
  - unfold fix_block_object. cbn [fst snd]. by rewrite Ho.
  - unfold fix_block_inode. cbn [fst snd]. by rewrite Hi.
Qed.
Lemma clean_inodes s : counts_right s -> sizes_cover max_obj_size s -> check_inodes_refcount s = Some s /\ check_inodes_size s = Some s.
Proof.
  intros [_ H _] Hz. split.
  - apply each_id. intros [i c] Hin. apply elem_of_list_omap in Hin as ([j r] & Hj & E). apply rows_elem in Hj. cbn in E. case_decide as D; [|done]. injection E as <- <-.
    unfold fix_inode_refcount. case_decide as D'; [done|]. destruct (H j r Hj) as [E1 E2]; [naive_solver|naive_solver|]. rewrite <- entries_count in E1. destruct D; lia.
  - assert (wrong_sizes s = []) as E; [|unfold check_inodes_size; by rewrite E]. destruct (wrong_sizes s) as [|[i m] l] eqn:E; [done|].
    assert ((i, m) ∈ wrong_sizes s) as Hin by (rewrite E; left). apply elem_of_list_omap in Hin as ([j r] & Hj & Hm). apply rows_elem in Hj. cbn in Hm.
    destruct (min_size s j) as [m'|] eqn:Em; [|done]. case_decide as D; [|done]. injection Hm as <- <-.
    assert (m' ∈ ends s j) as Hin.
    { unfold min_size in Em. destruct (ends s j) as [|z l']; [done|]. injection Em as <-. clear. induction l' as [|a l' IH]; cbn; [left|].
      destruct (Z.max_spec a (foldr Z.max z l')) as [[_ ->]|[_ ->]]; [|right; left]. apply elem_of_cons in IH as [->|IH]; [left|by right; right]. }
    apply elem_of_list_omap in Hin as ([k b] & Hk & Eb). apply elem_of_map_to_list in Hk. cbn in Eb. case_decide as Ej; [|done]. subst j. destruct (objects s !! b_obj b) as [o|] eqn:Eo; [|done].
    injection Eb as <-. specialize (Hz k b o r Hk Eo Hj). lia.
Qed.
Lemma clean_attributes s : references_resolve s -> check_attribute_names s = Some s /\ check_attribute_inodes s = Some s /\ check_symlinks s = s.
Proof.
  intros [_ _ H Hl]. split_and!.
  - apply each_id. intros [k x] Hk. apply rows_elem in Hk. destruct (H k x Hk) as [_ Hn]. apply elem_of_dom in Hn as [y Hy]. unfold fix_attribute_name. cbn [fst]. by rewrite Hk, Hy.
  - apply each_id. intros [k x] Hk. apply rows_elem in Hk. destruct (H k x Hk) as [Hn _]. apply elem_of_dom in Hn as [y Hy]. unfold fix_attribute_inode. cbn [fst]. by rewrite Hk, Hy.
  - unfold check_symlinks. rewrite bool_decide_eq_false_2.
    2: { intros Q. apply Q. intros i [z Hz]%elem_of_dom. by apply (Hl i z). }
    rewrite report_false. rewrite map_filter_id; [by destruct s|]. intros i z Hz. cbn. by apply (Hl i z).
Qed.
Lemma has_children_parent s i : has_children s i = true <-> is_parent s i.
Proof.
  unfold has_children, is_parent. rewrite bool_decide_eq_true. split.
  - intros Hn. destruct (decide (map_Exists (fun _ e => c_parent e = i) (contents s))) as [Hm|Hm].
    + destruct Hm as (k & e & Hk & Hp). by exists k, e.
    + destruct Hn. intros k e Hk Hp. apply Hm. exists k, e. done.
  - intros (k & e & Hk & Hp) Q. by apply (Q k e Hk).
Qed.
Lemma well_typed_even s : well_typed s -> map_Forall (fun i r => ~ odd s i r) (inodes s).
Proof.
  intros [H1 H2 H3 H4 H5 H6 H7] i r Hi. unfold odd. assert (typed s i r = r) as -> by (unfold typed; by rewrite decide_False by by apply (H1 i)).
  intros [Q|[[Q1 Q2]|[(Q1 & Q2 & Q3 & Q4)|[[Q1 Q2]|[[Q1 Q2]|[[Q1 Q2]|[Q1 Q2]]]]]]].
  - by apply (H1 i r).
  - pose proof (proj1 (H2 i r Hi) Q1) as Q. destruct (links s !! i) as [z|] eqn:Ez; [|done]. apply Q2. by rewrite (H3 i r z Hi Ez).
  - destruct (H4 i r Hi Q1) as [?|[?|?]]; done.
  - by apply Q2, (H2 i r Hi).
  - by apply Q2, (H5 i r Hi).
  - apply Q2, (H6 i r Hi). by apply has_children_parent.
  - apply Q2. intros k b Hk <-. by apply Q1, (H7 k b r Hk).
Qed.
Lemma clean_unix s : well_typed s -> names_short s -> check_unix s = Some s.
Proof.
  intros Ht Hn. pose proof (well_typed_even s Ht) as He. assert (map_Forall (fun _ e => ~ long_name s e) (contents s)) as Hl.
  { intros k e Hk. unfold long_name, name_of. destruct (names s !! c_name e) as [[n r]|] eqn:E; [|by intros []]. specialize (Hn k e r n Hk E). cbn. destruct n; cbn; lia. }
  assert (set_inodes (map_imap (fun i r => Some (typed s i r)) (inodes s)) s = s) as E.
  { assert (map_imap (fun i r => Some (typed s i r)) (inodes s) = inodes s) as ->; [|by destruct s]. apply map_eq. intros i. rewrite map_lookup_imap. destruct (inodes s !! i) as [r|] eqn:Ei; [|done].
    cbn. unfold typed. rewrite decide_False; [done|]. by apply (type_known s Ht i). }
  unfold check_unix. rewrite decide_True.
  2: { split; [intros i r Hi Q; by destruct (He i r Hi)|intros k e Hk Q; by destruct (Hl k e Hk)]. }
  rewrite E. rewrite (bool_decide_eq_false_2 (~ map_Forall (fun i r => ~ odd s i r) (inodes s))) by (intros Q; apply Q; exact He). rewrite report_false.
  rewrite bool_decide_eq_false_2 by (intros Q; apply Q; exact Hl). by rewrite report_false.
Qed.

(** * The tree *)
Lemma loopcheck_lookup s i : loopcheck s !! i = if decide (is_Some (loopcheck s !! i)) then Some (parent_of s i) else None.
Proof.
  case_decide as D; [|by apply eq_None_not_Some]. destruct D as [q Hq]. unfold loopcheck in *. rewrite Hq. apply lookup_set_to_map in Hq as (j & _ & E); [|done]. injection E as -> ->. done.
Qed.
Lemma loopcheck_dom s i : i ∈ dom (loopcheck s) <-> is_parent s i.
Proof.
  rewrite elem_of_dom. unfold loopcheck, is_parent. split.
  - intros [q Hq]. apply lookup_set_to_map in Hq as (j & Hj & E); [|done]. injection E as E1 _. subst j. apply elem_of_list_to_set, elem_of_list_fmap in Hj as ([k e] & E' & Hk).
    apply elem_of_map_to_list in Hk. exists k, e. by rewrite E'.
  - intros (k & e & Hk & Hp). exists (parent_of s i). apply lookup_set_to_map; [done|]. exists i. split; [|done]. apply elem_of_list_to_set, elem_of_list_fmap. exists (k, e). split; [done|by apply elem_of_map_to_list].
Qed.
Lemma loopcheck_Some s i q : loopcheck s !! i = Some q <-> is_parent s i /\ q = parent_of s i.
Proof.
  split.
  - intros H. split; [apply loopcheck_dom, elem_of_dom; eauto|]. rewrite loopcheck_lookup in H. case_decide; [by injection H|done].
  - intros [H ->]. apply loopcheck_dom, elem_of_dom in H. rewrite loopcheck_lookup. by rewrite decide_True.
Qed.
Lemma parent_of_Some s i p : parent_of s i = Some p -> exists k e, contents s !! k = Some e /\ c_inode e = i /\ c_parent e = p.
Proof.
  unfold parent_of. destruct (pick _) as [[k e]|] eqn:E; [|done]. cbn. intros H. injection H as <-. apply pick_elem, elem_of_list_filter in E as [E1 E]. apply elem_of_map_to_list in E. by exists k, e.
Qed.
Lemma parent_of_None s i : parent_of s i = None -> forall k e, contents s !! k = Some e -> c_inode e <> i.
Proof.
  unfold parent_of. destruct (pick _) as [[k e]|] eqn:E; [done|]. intros _ k e Hk Hi. apply pick_none in E. assert ((k, e) ∈ @nil (nat * centry)) as Q; [|by apply elem_of_nil in Q].
  rewrite <- E. apply elem_of_list_filter. split; [done|by apply elem_of_map_to_list].
Qed.
Lemma children_elem up p i : i ∈ children up p <-> up !! i = Some (Some p).
Proof.
  unfold children. rewrite elem_of_list_fmap. split.
  - intros ([j q] & -> & H). rewrite scan_perm in H. apply elem_of_list_filter in H as [E H]. cbn in E. subst q. by apply elem_of_map_to_list.
  - intros H. exists (i, Some p). split; [done|]. rewrite scan_perm. apply elem_of_list_filter. split; [done|]. by apply elem_of_map_to_list.
Qed.
(** delete_tree ends if the levels below are few, and removes all that is below. *)
Inductive below (up : gmap nat (option nat)) (p : nat) : nat -> Prop :=
  | below_refl : below up p p
  | below_step i j : below up p i -> up !! j = Some (Some i) -> below up p j.
Lemma below_trans up a b c : below up a b -> below up b c -> below up a c.
Proof. intros H. induction 1; [done|]. by eapply below_step. Qed.
Lemma delete_tree_spec fuel up p left left' : delete_tree fuel up p left = Some left' -> forall i, i ∈ left' <-> i ∈ left /\ ~ below up p i.
Proof.
  revert p left left'. induction fuel as [|fuel IH]; intros p left left'; [done|]. cbn [delete_tree].
  destruct (foldr _ _ _) as [l|] eqn:E; [|done]. intros H. injection H as <-. intros i. rewrite elem_of_difference, elem_of_singleton.
  assert (forall cs l, foldr (fun i acc => match acc with Some l => delete_tree fuel up i l | None => None end) (Some left) cs = Some l ->
    forall i, i ∈ l <-> i ∈ left /\ forall c, c ∈ cs -> ~ below up c i) as Hf.
  { clear -IH. induction cs as [|c cs IHc]; intros l E i.
    - injection E as <-. split; [intros H; split; [done|]; by intros c ?%elem_of_nil|by intros [? _]].
    - cbn [foldr] in E. destruct (foldr _ _ cs) as [l1|]; [|done]. rewrite (IH _ _ _ E), (IHc l1 eq_refl). split.
      + intros [[H1 H2] H3]. split; [done|]. intros d [->|Hd]%elem_of_cons; auto.
      + intros [H1 H2]. split; [split; [done|]|]; [intros d Hd; apply H2; by right|apply H2; left]. }
  rewrite (Hf _ _ E i). split.
  - intros [[H1 H2] H3]. split; [done|]. intros H4.
    assert (i = p \/ exists c, up !! c = Some (Some p) /\ below up c i) as [->|(c & Hc & H5)]; [|done|].
    { clear -H4. induction H4 as [|i j H IH Hj]; [by left|]. right. destruct IH as [->|(c & Hc & IH)]; [exists j; split; [done|constructor]|]. exists c. split; [done|]. by eapply below_step. }
    apply (H2 c); [by apply children_elem|done].
  - intros [H1 H2]. split; [split; [done|]|].
    + intros c Hc Q. apply H2. apply children_elem in Hc. eapply below_trans; [|exact Q]. eapply below_step; [constructor|done].
    + intros ->. apply H2. constructor.
Qed.
Lemma delete_tree_total fuel up (depth : nat -> nat) p left : (forall i j, up !! j = Some (Some i) -> depth j = S (depth i) /\ depth j < depth p + fuel) -> 0 < fuel ->
  exists left', delete_tree fuel up p left = Some left'.
Proof.
  revert p left. induction fuel as [|fuel IH]; intros p left H Hp; [lia|]. cbn [delete_tree].
  assert (exists l, foldr (fun i acc => match acc with Some l => delete_tree fuel up i l | None => None end) (Some left) (children up p) = Some l) as [l ->]; [|eauto].
  assert (forall c, c ∈ children up p -> up !! c = Some (Some p)) as Hc by (intros c; by apply children_elem). revert Hc. generalize (children up p) as cs. induction cs as [|c cs IHc]; intros Hc; [cbn; eauto|].
  cbn [foldr]. destruct IHc as [l ->]; [intros c' Hc'; apply Hc; by right|]. destruct (H p c) as [E1 E2]; [apply Hc; left|]. apply IH; [|lia]. intros i j Hj. destruct (H i j Hj). lia.
Qed.
Lemma clean_loops s : is_tree recursion_limit s -> 0 < recursion_limit -> check_loops s = Some s.
Proof.
  intros [H1 (depth & H2)] Hr. unfold check_loops. cbn [anchor]. set (up := loopcheck s).
  assert (forall i j, up !! j = Some (Some i) -> j <> ROOT /\ depth j = S (depth i) /\ depth j < recursion_limit) as Hup.
  { intros i j [Hj E]%loopcheck_Some. symmetry in E. apply parent_of_Some in E as (k & e & Hk & <- & <-). by apply (H2 k e). }
  destruct (delete_tree_total recursion_limit up depth ROOT (dom up)) as [left E]; [intros i j Hj; destruct (Hup i j Hj) as (_ & ? & ?); split; lia|done|]. rewrite E.
  assert (left = ∅) as ->.
  { apply set_eq. intros i. split; [|by intros ?%elem_of_empty]. intros [Hi Hn]%(delete_tree_spec _ _ _ _ _ E). destruct Hn.
    assert (forall n i, depth i < n -> i ∈ dom up -> below up ROOT i) as Hb; [|apply (Hb (S (depth i))); [lia|done]]. clear -H1 Hup.
    induction n as [|n IH]; intros i Hd Hi; [lia|]. apply loopcheck_dom in Hi as Hp. destruct (H1 i Hp) as [->|(k & e & Hk & He)]; [constructor|].
    destruct (parent_of s i) as [p|] eqn:Epar; [|by apply (parent_of_None s i Epar) in Hk]. assert (up !! i = Some (Some p)) as Hu by (apply loopcheck_Some; by rewrite Epar).
    destruct (Hup _ _ Hu) as (_ & Ed & _). eapply below_step; [|exact Hu]. apply IH; [lia|]. apply loopcheck_dom. apply parent_of_Some in Epar as (k' & e' & Hk' & _ & <-). by exists k', e'. }
  assert (culprit ∅ s = None) as ->; [|done]. unfold culprit. destruct (pick (filter _ _)) as [[k e]|] eqn:Ep.
  - apply pick_elem, elem_of_list_filter in Ep as [[Q _] _]. by apply not_elem_of_empty in Q.
  - destruct (pick (elements ∅)) eqn:Eq; [|done]. apply pick_elem in Eq. by apply elem_of_elements, not_elem_of_empty in Eq.
Qed.

Theorem clean_check wc kp s : clean max_obj_size recursion_limit s -> 0 < recursion_limit -> (wc = false \/ cache s = ∅) -> check wc kp s = Some s.
Proof.
  intros [[C1 C2 C3 C4] G R L T W N] Hr Hc. unfold check. rewrite clean_lof by done. cbn [mbind option_bind].
  assert ((if wc then check_cache kp s else Some s) = Some s) as ->.
  { destruct wc; [|done]. destruct Hc as [Hc|Hc]; [done|]. unfold check_cache. rewrite Hc, map_to_list_empty. apply each_id. intros a Ha. rewrite scan_perm in Ha. by apply elem_of_nil in Ha. }
  cbn [mbind option_bind]. rewrite clean_names by done. destruct (clean_contents s C1) as (-> & E2 & E3). cbn [mbind option_bind]. rewrite E2. cbn [mbind option_bind]. rewrite E3. cbn [mbind option_bind].
  destruct (clean_objects s C4 C2 R G) as [-> E5]. rewrite E5. cbn [mbind option_bind]. destruct (clean_blocks s C1) as [-> E6]. cbn [mbind option_bind]. rewrite E6. cbn [mbind option_bind].
  destruct (clean_inodes s C2 C3) as [-> E7]. cbn [mbind option_bind]. rewrite E7. cbn [mbind option_bind]. destruct (clean_attributes s C1) as (-> & E8 & E9). cbn [mbind option_bind]. rewrite E8. cbn [mbind option_bind].
  rewrite E9. rewrite clean_loops by done. cbn [mbind option_bind]. rewrite clean_unix by done. cbn [mbind option_bind].
  unfold check_foreign_keys. rewrite bool_decide_eq_false_2 by (intros Q; apply Q; by apply resolved_iff). by rewrite report_false, set_uncorrectable_false.
Qed.
End clean.
