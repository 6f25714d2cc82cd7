(** What a check leaves in place. *)
From stdpp Require Import prelude gmap.
From Coq Require Import ZArith Lia.
From Verif Require Import Count FsckModel FsckSpec FsckProofs FsckClean FsckLoops.

#[global] Instance kept_refl : Reflexive kept.
Proof. intros s. split; eauto. intros i r Hi. exists r. split_and!; auto. lia. Qed.
#[global] Instance kept_trans : Transitive kept.
Proof.
  intros s1 s2 s3 [A1 A2 A3 A4 A5] [B1 B2 B3 B4 B5].
  assert (forall i, i ∈ dom (inodes s1) -> i ∈ dom (inodes s2)) as Hd by (intros i [r Hi]%elem_of_dom; destruct (A1 i r Hi) as (r' & Hr' & _); apply elem_of_dom; eauto). split; eauto.
  - intros i r Hi. destruct (A1 i r Hi) as (r2 & Hi2 & K2 & D2 & S2). destruct (B1 i r2 Hi2) as (r3 & Hi3 & K3 & D3 & S3). exists r3. split_and!; [done| |congruence|lia].
    destruct K2 as [K2|K2]; [|by right]. destruct K3 as [K3|K3]; [left|right]; congruence.
  - intros k x Hk Hi. destruct (A3 k x Hk Hi) as (x2 & Hk2 & E2). destruct (B3 k x2 Hk2) as (x3 & Hk3 & E3); [rewrite E2; auto|]. exists x3. split; [done|congruence].
  - intros k e Hk Hi. destruct (A5 k e Hk Hi) as (e2 & Hk2 & E2). destruct (B5 k e2 Hk2) as (e3 & Hk3 & E3); [rewrite E2; auto|]. exists e3. split; [done|congruence].
Qed.
(** Only some fields are changed. *)
Lemma kept_frame s s' : inodes s' = inodes s -> blocks s' = blocks s -> objects s' = objects s -> store s' = store s -> xattrs s' = xattrs s -> links s' = links s ->
  (forall k e, contents s !! k = Some e -> c_inode e ∈ dom (inodes s) -> exists e', contents s' !! k = Some e' /\ c_inode e' = c_inode e) -> kept s s'.
Proof.
  intros E1 E2 E3 E4 E5 E6 He. split; unfold sound_block; rewrite ?E1, ?E2, ?E3, ?E4, ?E5, ?E6; eauto. intros i r Hi. exists r. split_and!; auto. lia.
Qed.
Section kept.
Context `{Env0 : env}.
Lemma frame_kept s s' : frame s s' -> same_inodes s s' -> kept s s'.
Proof.
  intros (A1 & A2 & A3 & A4 & A5 & A6 & A7) S. apply kept_frame; auto. intros k e Hk _. specialize (S k). rewrite Hk in S. destruct (contents s' !! k) as [e'|]; [|done]. cbn in S. injection S as S. eauto.
Qed.
Lemma fcn_kept k s s' : fcn k s = Some s' -> kept s s'.
Proof.
  unfold fcn, fix_contents_name. destruct (contents s !! k) as [e|] eqn:Hk; [|intros H; injection H as <-; reflexivity].
  destruct (names s !! c_name e) as [nr|] eqn:Hn; [intros H; injection H as <-; reflexivity|].
  match goal with |- context [match ?x with Some _ => _ | None => None end] => destruct x as [n|]; [|done] end.
  destruct (resolve_free s n) as [[p n']|] eqn:Er; [|done]. destruct (add_name _ _ _ _) as [nid s1] eqn:Ea. intros Em.
  destruct (keep_rename (report true s) k e _ nid s1 p s' Hk Hn (resolve_free_parent _ _ _ _ Er) Ea Em) as (_ & _ & H2 & _).
  apply frame_kept; [apply (add_move_frame _ _ _ _ _ _ _ _ _ Ea Em)|by apply (moved_inodes s s' k e nid p)].
Qed.
Lemma fci_kept k s s' : fix_contents_inode k s = Some s' -> kept s s'.
Proof.
  unfold fix_contents_inode. destruct (contents s !! k) as [e|] eqn:Hk; [|intros H; injection H as <-; reflexivity].
  destruct (inodes s !! c_inode e) as [r|] eqn:Hi; [intros H; injection H as <-; reflexivity|].
  assert (kept s (del_name (c_name e) (set_contents (delete k (contents s)) (report true s)))) as K.
  { apply kept_frame; auto. cbn. intros k' e' Hk' Hi'. exists e'. split; [|done]. rewrite lookup_delete_ne; [done|]. intros <-. rewrite Hk in Hk'. injection Hk' as <-. apply elem_of_dom in Hi' as [r Hr]. congruence. }
  destruct (get_path _ _ _); intros H; [injection H as <-..|]; done.
Qed.
Lemma fcp_kept k s s' : fcp k s = Some s' -> kept s s'.
Proof.
  unfold fcp, fix_contents_parent. destruct (contents s !! k) as [e|] eqn:Hk; [|intros H; injection H as <-; reflexivity].
  destruct (inodes s !! c_parent e) as [r|] eqn:Hi; [intros H; injection H as <-; reflexivity|].
  destruct (name_of s (c_name e)) as [[n|]|]; [|done|done]. destruct (resolve_free s _) as [[p n']|] eqn:Er; [|done]. destruct (add_name _ _ _ _) as [nid s1] eqn:Ea. intros Em.
  destruct (keep_drop_add (report true s) k e _ nid s1 p s' Hk (resolve_free_parent _ _ _ _ Er) Ea Em) as (_ & H2).
  apply frame_kept; [apply (add_move_frame _ _ _ _ _ _ _ _ _ Ea Em)|by apply (moved_inodes s s' k e nid p)].
Qed.
Lemma contents_kept s1 s2 s3 s4 : check_contents_name s1 = Some s2 -> check_contents_inode s2 = Some s3 -> check_contents_parent s3 = Some s4 -> kept s1 s4.
Proof.
  intros H1 H2 H3. transitivity s2; [refine (each_rel kept _ _ _ _ _ H1); intros a t t' _; apply fcn_kept|].
  transitivity s3; [refine (each_rel kept _ _ _ _ _ H2); intros a t t' _; apply fci_kept|]. refine (each_rel kept _ _ _ _ _ H3). intros a t t' _. apply fcp_kept.
Qed.
(** Changes of rows of objects *)
Lemma kept_objects s s' : inodes s' = inodes s -> contents s' = contents s -> xattrs s' = xattrs s -> links s' = links s ->
  (forall k i b id h d, sound_block s k i b id h d -> sound_block s' k i b id h d) -> kept s s'.
Proof. intros E1 E2 E3 E4 Hb. split; rewrite ?E1, ?E2, ?E3, ?E4; eauto. intros i r Hi. exists r. split_and!; auto. lia. Qed.
Lemma objects_kept s : kept s (check_objects_id (check_objects_refcount (check_objects_hash s))).
Proof.
  apply kept_objects; [done..|]. intros k i b id h d (H1 & H2 & (o & H3 & H4) & H5).
  destruct (check_objects_hash_spec s) as (A1 & A2 & A3). set (s1 := check_objects_hash s) in *. destruct (check_objects_refcount_spec s1) as (B1 & B2 & B3). set (s2 := check_objects_refcount s1) in *.
  destruct (check_objects_id_spec s2) as (D1 & D2 & D3).
  assert (refs s1 id <> 0)%Z as Hr. { unfold refs. rewrite A1. pose proof (cnt_pos (fun kv : nat * brow => b_obj kv.2 = id) (blocks s) k (Brow i b id) H1 eq_refl). lia. }
  assert (objects s2 !! id = Some (set_ref (refs s1 id) o)) as Ho2. { apply B3. exists o. split_and!; [|done|done]. apply A3. split; [done|congruence]. }
  assert (store s2 !! id = Some d) as Hs2 by by rewrite B2, A2. split_and!.
  - by rewrite D1, B1, A1.
  - done.
  - eexists. split; [apply D2; split; [exact Ho2|eauto]|]. done.
  - apply D3. split; [done|]. left. eauto.
Qed.
Lemma phys_kept s s' : check_objects_phys_size s = Some s' -> kept s s'.
Proof.
  intros H. refine (each_rel kept _ _ _ _ _ H). intros [id o] t t' _ E. pose proof E as E0. apply fix_phys_size_spec in E as ((S1 & S2 & S3) & _). unfold fix_phys_size in E0. cbn in E0.
  assert (inodes t' = inodes t /\ contents t' = contents t /\ xattrs t' = xattrs t /\ links t' = links t) as (F1 & F2 & F3 & F4).
  { destruct (objects t !! id) as [o'|]; [|by injection E0 as <-]. case_decide; [|by injection E0 as <-]. destruct (store t !! id); [|done]. by injection E0 as <-. }
  apply kept_objects; auto. intros k i b id' h d (H1 & H2 & (o1 & H3 & H4) & H5). specialize (S3 id'). rewrite H3 in S3. destruct (objects t' !! id') as [o2|] eqn:E2; [|done]. cbn in S3. injection S3 as S3 _ _.
  split_and!; [by rewrite S1|by rewrite F1| |by rewrite S2]. exists o2. split; [done|congruence].
Qed.
Lemma fbo_kept k r s s' : blocks s !! k = Some r -> fbo (k, r) s = Some s' -> kept s s'.
Proof.
  intros Hk H. apply fix_block_object_spec in H as [[-> _]|(Ho & t & K & F & S & ->)]; [reflexivity|]. transitivity t; [by apply frame_kept|]. destruct F as (A1 & A2 & A3 & A4 & A5 & A6 & A7).
  apply kept_objects; [done..|]. cbn. intros k' i b id h d (H1 & H2 & (o & H3 & H4) & H5). split_and!; auto; [|eauto]. cbn. rewrite A2 in H1. rewrite lookup_delete_ne; [done|].
  intros <-. rewrite Hk in H1. injection H1 as ->. cbn in Ho. rewrite A3 in H3. congruence.
Qed.
Lemma block_objects_kept s s' : check_block_objects s = Some s' -> kept s s'.
Proof.
  intros H. refine (each_rows blocks kept _ _ s s' _ (rows_keys _) _ H); [|intros k v; by rewrite rows_elem]. intros k v t t' Hk E. split; [by apply (fbo_kept k v)|].
  apply fix_block_object_spec in E as [[-> _]|(Ho & t1 & K & F & S & ->)]; [done|]. intros k' N. cbn. by rewrite lookup_delete_ne.
Qed.
Lemma block_inodes_kept s s' : check_block_inodes s = Some s' -> kept s s'.
Proof.
  intros H. refine (each_rows blocks kept _ _ s s' _ (rows_keys _) _ H); [|intros k v; by rewrite rows_elem]. intros k v t t' Hk E. injection E as <-. unfold fix_block_inode. cbn.
  destruct (inodes t !! b_inode v) eqn:Ei; [split; [reflexivity|done]|]. split; [|intros k' N; cbn; by rewrite lookup_delete_ne].
  apply kept_objects; [done..|]. cbn. intros k' i b id h d (H1 & H2 & (o & H3 & H4) & H5). split_and!; auto; cbn.
  - rewrite lookup_delete_ne; [done|]. intros <-. rewrite Hk in H1. injection H1 as ->. cbn in Ei. apply elem_of_dom in H2 as [x Hx]. congruence.
  - destruct (decide (b_obj v = id)) as [<-|N]; [rewrite lookup_alter, H3; cbn; eauto|rewrite lookup_alter_ne by done; eauto].
Qed.
(** Changes of rows of inodes *)
Lemma kept_inode_rows s s' : blocks s' = blocks s -> objects s' = objects s -> store s' = store s -> xattrs s' = xattrs s -> links s' = links s ->
  (forall i r, inodes s !! i = Some r -> exists r', inodes s' !! i = Some r' /\ (i_kind r' = i_kind r \/ i_kind r = NoType) /\ i_rdev r' = i_rdev r /\ (i_size r <= i_size r')%Z) ->
  (forall k e, contents s !! k = Some e -> exists e', contents s' !! k = Some e' /\ c_inode e' = c_inode e) -> kept s s'.
Proof.
  intros E1 E2 E3 E4 E5 Hi Hc. split; rewrite ?E4, ?E5; eauto. intros k i b id h d (H1 & H2 & H3 & H4). unfold sound_block. rewrite E1, E2, E3. split_and!; auto.
  apply elem_of_dom in H2 as [r Hr]. destruct (Hi i r Hr) as (r' & Hr' & _). apply elem_of_dom. eauto.
Qed.
Lemma alter_rows f i (m : gmap nat irow) : (forall r, m !! i = Some r -> i_kind (f r) = i_kind r /\ i_rdev (f r) = i_rdev r /\ (i_size r <= i_size (f r))%Z) ->
  forall j r, m !! j = Some r -> exists r', alter f i m !! j = Some r' /\ (i_kind r' = i_kind r \/ i_kind r = NoType) /\ i_rdev r' = i_rdev r /\ (i_size r <= i_size r')%Z.
Proof.
  intros Hf j r Hj. destruct (decide (i = j)) as [<-|N].
  - rewrite lookup_alter, Hj. exists (f r). destruct (Hf r Hj) as (? & ? & ?). auto.
  - rewrite lookup_alter_ne by done. exists r. split_and!; auto. lia.
Qed.
Lemma fir_kept i c s s' : fir (i, c) s = Some s' -> kept s s'.
Proof.
  unfold fir, fix_inode_refcount. case_decide; [intros H1; injection H1 as <-; reflexivity|]. case_decide.
  - destruct (resolve_free s _) as [[p n]|] eqn:Er; [|done]. destruct (add_name _ _ _ _) as [nid s1] eqn:Ea. destruct (put_contents _ s1) as [s2|] eqn:Ep; [|done]. intros H1. injection H1 as <-.
    pose proof (add_name_frame _ _ _ _ _ _ Ea) as (F1 & F2 & F3 & F4 & F5 & F6 & F7 & F8 & F9 & F10 & F11 & F12). apply put_contents_spec in Ep as [-> _]. cbn in *.
    apply kept_inode_rows; cbn; auto; [rewrite F2; apply alter_rows; intros r _; cbn; split_and!; [done|done|lia]|].
    rewrite F1. intros k e Hk. exists e. split; [|done]. rewrite lookup_insert_ne; [done|]. intros <-. by rewrite new_lookup in Hk.
  - destruct (get_path s i None); [|done|done]. intros H1. injection H1 as <-. apply kept_inode_rows; cbn; eauto. apply alter_rows. intros r _. cbn. split_and!; [done|done|lia].
Qed.
Lemma inode_sizes_kept l s s' : NoDup l.*1 -> (forall i m, (i, m) ∈ l -> forall r, inodes s !! i = Some r -> (i_size r < m)%Z) -> each l fix_inode_size s = Some s' -> kept s s'.
Proof.
  revert s. induction l as [|[i m] l IH]; intros s Hd Hl H; [injection H as <-; reflexivity|].
  cbn [each] in H. unfold fix_inode_size at 1 in H. cbn [fst snd] in H. destruct (get_path s i None); [|done|done]. rewrite fmap_cons, NoDup_cons in Hd. destruct Hd as [Hni Hd]. cbn in Hni.
  apply IH in H; [|done|].
  2: { intros j m' Hin r Hj. cbn in Hj. rewrite lookup_alter_ne in Hj; [|intros ->; apply Hni; apply elem_of_list_fmap; by exists (j, m')]. apply (Hl j m'); [by right|done]. }
  etrans; [|exact H]. apply kept_inode_rows; cbn; eauto. apply alter_rows. intros r Hr. cbn. split_and!; [done|done|]. specialize (Hl i m (elem_of_list_here _ _) r Hr). lia.
Qed.
Lemma inodes_kept s1 s2 s3 : check_inodes_refcount s1 = Some s2 -> check_inodes_size s2 = Some s3 -> kept s1 s3.
Proof.
  intros H1 H2. transitivity s2; [refine (each_rel kept _ _ _ _ _ H1); intros [i c] t t' _; apply fir_kept|]. refine (inode_sizes_kept _ _ _ _ _ H2).
  - apply omap_keys; [|apply rows_keys]. intros [i r] b. cbn. destruct (min_size _ _); [|done]. case_decide; [|done]. intros E. by injection E as <-.
  - intros i m Hin r Hi. apply elem_of_list_omap in Hin as ([j r'] & Hj & E). apply rows_elem in Hj. cbn in E. destruct (min_size s2 j) as [m'|]; [|done]. case_decide; [|done]. injection E as <- <-. congruence.
Qed.
Lemma kept_xattrs s s' : frame3 s s' -> (forall k x, xattrs s !! k = Some x -> x_inode x ∈ dom (inodes s) -> exists x', xattrs s' !! k = Some x' /\ x_inode x' = x_inode x) -> kept s s'.
Proof.
  intros (E1 & E2 & E3 & E4 & E5 & E6 & _) Hx. split; unfold sound_block; rewrite ?E1, ?E2, ?E3, ?E4, ?E5, ?E6; eauto. intros i r Hi. exists r. split_and!; auto. lia.
Qed.
Lemma attributes_kept s1 s2 s3 : check_attribute_names s1 = Some s2 -> check_attribute_inodes s2 = Some s3 -> kept s1 (check_symlinks s3).
Proof.
  intros H1 H2. transitivity s2; [|transitivity s3].
  - refine (each_rel kept _ _ _ _ _ H1). intros a t t' _ E. apply fix_attribute_name_spec in E as (_ & E2 & E3 & _). apply kept_xattrs; [done|].
    intros k x Hk _. specialize (E3 k). rewrite Hk in E3. destruct (xattrs t' !! k) as [x'|]; [|done]. cbn in E3. injection E3 as E3. eauto.
  - refine (each_rel kept _ _ _ _ _ H2). intros [k r0] t t' _ E. pose proof E as E0. apply fix_attribute_inode_spec in E as (_ & F & _). apply kept_xattrs; [done|].
    unfold fix_attribute_inode in E0. cbn in E0. destruct (xattrs t !! k) as [r|] eqn:Ek; [|injection E0 as <-; eauto]. destruct (inodes t !! x_inode r) eqn:Ei; injection E0 as <-; [eauto|].
    cbn. intros k' x Hk' Hi'. exists x. split; [|done]. rewrite lookup_delete_ne; [done|]. intros <-. rewrite Ek in Hk'. injection Hk' as <-. apply elem_of_dom in Hi' as [? ?]. congruence.
  - split; cbn; eauto. { intros i r Hi. exists r. split_and!; auto. lia. } intros i z Hz Hi. apply map_filter_lookup_Some. done.
Qed.
Lemma anchor_kept fuel up left root s s' : anchor fuel up left root s = Some s' -> kept s s'.
Proof.
  revert up left root s. induction fuel as [|fuel IH]; intros up left root s; [done|]. cbn [anchor]. destruct (delete_tree _ _ _ _) as [left1|]; [|done].
  destruct (culprit left1 s) as [i|]; [|intros H; injection H as <-; reflexivity].
  destruct (entry_of s i) as [[k e]|] eqn:Ep; [|done]. apply pick_elem, elem_of_list_filter in Ep as [[Hi _] Hk]. apply elem_of_map_to_list in Hk. cbn in Hi.
  destruct (name_of s (c_name e)) as [[n|]|]; [|done|done]. destruct (resolve_free s n) as [[p n']|] eqn:Er; [|done]. destruct (add_name _ _ _ _) as [nid s1] eqn:Ea.
  destruct (put_contents _ s1) as [s2|] eqn:Em; [|done]. intros H. apply IH in H.
  destruct (keep_anchor (report true s) i e k _ nid s1 p s2 Hk Hi (resolve_free_parent _ _ _ _ Er) Ea Em) as (_ & E & F).
  etrans; [|exact H]. transitivity s2; [|by apply kept_frame; eauto]. apply frame_kept; [done|]. subst i. by apply (moved_inodes s s2 k e nid p).
Qed.
Lemma unix_kept s s' : check_unix s = Some s' -> kept s s'.
Proof.
  unfold check_unix. case_decide; [|done]. intros E. injection E as <-. apply kept_inode_rows; cbn; eauto. intros i r Hi. rewrite map_lookup_imap, Hi. cbn. exists (typed s i r). split; [done|].
  unfold typed. case_decide; cbn; split_and!; auto; lia.
Qed.

(** The check after check_cache *)
Definition rest (s : fsck) : option fsck :=
  let s := check_names_refcount s in
  s ← check_contents_name s; s ← check_contents_inode s; s ← check_contents_parent s;
  let s := check_objects_id (check_objects_refcount (check_objects_hash s)) in
  s ← check_objects_phys_size s; s ← check_block_objects s; s ← check_block_inodes s;
  s ← check_inodes_refcount s; s ← check_inodes_size s;
  s ← check_attribute_names s; s ← check_attribute_inodes s;
  let s := check_symlinks s in
  s ← check_loops s; s ← check_unix s; Some (check_foreign_keys s).
Lemma check_rest wc kp s s' : check wc kp s = Some s' -> exists s1 s2, check_lof s = Some s1 /\ (if wc then check_cache kp s1 else Some s1) = Some s2 /\ rest s2 = Some s'.
Proof.
  unfold check. destruct (check_lof s) as [s1|]; [|done]. cbn [mbind option_bind]. destruct (if wc then _ else _) as [s2|] eqn:E2; [|done]. cbn [mbind option_bind]. intros H. by exists s1, s2.
Qed.
(** Every inode but the first two has an entry; everything can be reached. *)
Definition placed (s : fsck) : Prop := forall i, is_Some (inodes s !! i) -> i <> ROOT -> i <> CTRL -> (0 < entries s i)%Z.
Lemma refcounts_placed l s s' : NoDup l.*1 -> (forall i c, (i, c) ∈ l -> is_Some (inodes s !! i) /\ c = entries s i) ->
  (forall i, is_Some (inodes s !! i) -> i ∉ l.*1 -> i <> ROOT -> i <> CTRL -> (0 < entries s i)%Z) -> each l fir s = Some s' -> placed s'.
Proof.
  revert s. induction l as [|[i c] l IH]; intros s Hd Hl Hr H.
  { injection H as <-. intros i Hi. apply Hr; [done|]. by intros ?%elem_of_nil. }
  cbn [each] in H. destruct (fir (i, c) s) as [t|] eqn:E; [|done]. rewrite fmap_cons, NoDup_cons in Hd. destruct Hd as [Hni Hd]. cbn in Hni.
  destruct (Hl i c) as [Hi Hc]; [left|]. pose proof (fix_inode_refcount_spec i c s t Hi Hc E) as (K & F & Hj & Hs).
  apply (IH t); [done| | |done].
  - intros j c' Hin. assert (j <> i) as N by (intros ->; apply Hni; apply elem_of_list_fmap; by exists (i, c')). destruct (Hj j N) as [-> ->]. apply Hl. by right.
  - intros j Hj' Hnj N1 N2. destruct (decide (j = i)) as [->|N].
    + unfold fir, fix_inode_refcount in E. rewrite decide_False in E by (by intros [?|?]). case_decide as Hz.
      * destruct (resolve_free s _) as [[p n]|]; [|done]. destruct (add_name _ _ _ _) as [nid s1]. destruct (put_contents _ s1) as [s2|] eqn:Ep; [|done]. injection E as <-. apply put_contents_spec in Ep as [-> _].
        unfold entries. cbn. apply (cnt_pos _ _ (new (dom (contents s1))) (Centry nid i p)); [apply lookup_insert|done].
      * destruct (get_path s i None); [|done|done]. injection E as <-. unfold entries in *. cbn. pose proof (cnt_nonneg (fun kv : nat * centry => c_inode kv.2 = i) (contents s)). lia.
    + destruct (Hj j N) as [Ej ->]. rewrite Ej in Hj'. apply Hr; auto. rewrite fmap_cons. by apply not_elem_of_cons.
Qed.
Lemma refcount_placed s s' : check_inodes_refcount s = Some s' -> placed s'.
Proof.
  intros H. refine (refcounts_placed _ s s' _ _ _ H).
  - apply omap_keys; [|apply rows_keys]. intros [i r] b. cbn. case_decide; [|done]. intros E. by injection E as <-.
  - intros i c Hin. unfold wrong_refcounts in Hin. apply elem_of_list_omap in Hin as ([j r] & Hj & E). apply rows_elem in Hj. cbn in E. case_decide; [|done]. injection E as <- <-. eauto.
  - intros i [r Hi] Hni _ _. unfold entries. pose proof (cnt_nonneg (fun kv : nat * centry => c_inode kv.2 = i) (contents s)). destruct (decide (entries s i = 0)%Z) as [Z0|]; [|unfold entries in *; lia].
    destruct Hni. apply elem_of_list_fmap. exists (i, entries s i). split; [done|]. unfold wrong_refcounts. apply elem_of_list_omap. exists (i, r). split; [by apply rows_elem|]. cbn. rewrite decide_True by auto. done.
Qed.
Lemma sizes_rows s s' : check_inodes_size s = Some s' -> forall i, is_Some (inodes s' !! i) -> is_Some (inodes s !! i).
Proof.
  intros H. refine (each_inv (fun t => forall i, is_Some (inodes t !! i) -> is_Some (inodes s !! i)) _ _ s s' _ (fun i Hi => Hi) H).
  intros [i m] t t' _ It E j. unfold fix_inode_size in E. cbn [fst snd] in E. destruct (get_path _ _ _); [|done|done]. injection E as <-. cbn. intros Hj. apply It.
  destruct (decide (i = j)) as [<-|N]; [rewrite lookup_alter in Hj; destruct (inodes t !! i); [eauto|by destruct Hj]|by rewrite lookup_alter_ne in Hj].
Qed.
Theorem rest_kept s s' : rest s = Some s' -> kept s s' /\ placed s' /\ forall k e, contents s' !! k = Some e -> reach s' (c_parent e).
Proof.
  unfold rest. destruct (check_contents_name _) as [t3|] eqn:E3; [|done]. cbn [mbind option_bind].
  destruct (check_contents_inode _) as [t4|] eqn:E4; [|done]. cbn [mbind option_bind].
  destruct (check_contents_parent _) as [t5|] eqn:E5; [|done]. cbn [mbind option_bind].
  destruct (check_objects_phys_size _) as [t7|] eqn:E7; [|done]. cbn [mbind option_bind].
  destruct (check_block_objects _) as [t8|] eqn:E8; [|done]. cbn [mbind option_bind].
  destruct (check_block_inodes _) as [t9|] eqn:E9; [|done]. cbn [mbind option_bind].
  destruct (check_inodes_refcount _) as [t10|] eqn:E10; [|done]. cbn [mbind option_bind].
  destruct (check_inodes_size _) as [t11|] eqn:E11; [|done]. cbn [mbind option_bind].
  destruct (check_attribute_names _) as [t12|] eqn:E12; [|done]. cbn [mbind option_bind].
  destruct (check_attribute_inodes _) as [t13|] eqn:E13; [|done]. cbn [mbind option_bind].
  destruct (check_loops _) as [t15|] eqn:E15; [|done]. cbn [mbind option_bind].
  destruct (check_unix _) as [t16|] eqn:E16; [|done]. cbn [mbind option_bind]. intros H. injection H as <-. split_and!.
  - transitivity t5; [etrans; [|by eapply contents_kept]; apply kept_frame; eauto|]. etrans; [apply objects_kept|]. etrans; [by apply phys_kept|]. etrans; [by apply block_objects_kept|].
    etrans; [by apply block_inodes_kept|]. etrans; [by eapply inodes_kept|]. etrans; [by eapply attributes_kept|]. etrans; [by eapply anchor_kept|]. etrans; [by apply unix_kept|]. apply kept_frame; eauto.
  - pose proof (refcount_placed _ _ E10) as P. pose proof E11 as E11'. apply check_inodes_size_keep in E11 as (K11 & F11 & C11 & _). pose proof (check_attribute_names_keep _ _ E12) as (_ & I12 & _). pose proof (check_attribute_inodes_keep _ _ E13) as (_ & I13 & _).
    pose proof (check_symlinks_keep t13) as (_ & I14 & _). apply check_loops_keep in E15 as [_ I15]. apply check_unix_keep in E16 as [_ I16].
    assert (keepi t11 t16) as I by (etrans; [exact I12|]; etrans; [exact I13|]; etrans; [exact I14|]; by etrans).
    intros i Hi N1 N2. change (is_Some (inodes t16 !! i)) in Hi. change (0 < entries t16 i)%Z. rewrite (keepi_entries t11 t16 i I). unfold entries. rewrite C11. apply P; [|done|done].
    pose proof (i_rows _ _ I i) as Ei. destruct Hi as [r Hr]. rewrite Hr in Ei. destruct (inodes t11 !! i) as [r1|] eqn:E1; [|done].
    exact (sizes_rows _ _ E11' i (mk_is_Some _ _ E1)).
  - pose proof (check_loops_reach _ _ E15) as Hr. unfold check_unix in E16. case_decide; [|done]. injection E16 as <-. intros k e Hk. change (contents t15 !! k = Some e) in Hk. specialize (Hr k e Hk).
    clear -Hr. induction Hr as [|k1 e1 Hk1 Hr1 IH]; [constructor|]. by apply (reach_entry _ k1).
Qed.
End kept.
