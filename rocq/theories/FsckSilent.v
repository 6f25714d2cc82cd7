(** Nothing is changed without a report. *)
From stdpp Require Import prelude gmap.
From Coq Require Import ZArith Lia.
From Verif Require Import Count FsckModel FsckSpec FsckProofs FsckClean.

Section silent.
Context `{Env0 : env}.
Definition quiet (f : fsck -> option fsck) : Prop := forall s s', f s = Some s' -> found s' = false -> s' = s.
Lemma quiet_each {A} (l : list A) f : (forall a, quiet (f a)) -> quiet (each l f).
Proof.
  intros H. induction l as [|a l IH]; intros s s' E F; cbn [each] in E; [by injection E as <-|]. destruct (f a s) as [t|] eqn:Ea; [|done].
  pose proof (IH _ _ E F) as E1. rewrite E1 in F |- *. by apply (H a s t).
Qed.
Lemma found_put c s s' : put_contents c s = Some s' -> found s' = found s.
Proof. unfold put_contents. case_decide; [|done]. intros E. by injection E as <-. Qed.
Lemma found_putx x s s' : put_xattrs x s = Some s' -> found s' = found s.
Proof. unfold put_xattrs. case_decide; [|done]. intros E. by injection E as <-. Qed.
Lemma found_add C X n s id s1 : add_name C X n s = (id, s1) -> found s1 = found s.
Proof. intros E. apply (add_name_frame _ _ _ _ _ _ E). Qed.
Lemma found_move k nid p s s' : move_entry k nid p s = Some s' -> found s' = found s.
Proof. unfold move_entry. destruct (contents s !! k); [apply found_put|]. intros E. by injection E as <-. Qed.
Lemma found_report s : found (report true s) = true.
Proof. cbn. apply orb_true_r. Qed.
Lemma found_orb (P : Prop) `{Decision P} s s0 : found (report (bool_decide (~ P)) s0) = false -> found s0 = found s -> P /\ found s = false.
Proof. cbn. intros E <-. apply orb_false_iff in E as [E1 E2]. split; [|done]. apply bool_decide_eq_false in E2. by apply dec_stable. Qed.

Lemma silent_lof_dir i nid : quiet (lof_directory i nid).
Proof.
  intros s s' E F. unfold lof_directory in E. destruct (inodes s !! i); [|done]. case_decide; [by injection E as <-|]. cbn [create_inode] in E.
  apply found_put in E. rewrite F in E. cbn in E. by rewrite orb_true_r in E.
Qed.
Lemma silent_lof : quiet check_lof.
Proof.
  intros s s' E F. unfold check_lof in E. destruct (entry _ _ _) as [[k e]|]; [by apply (silent_lof_dir _ _ _ _ E)|]. destruct (filter _ _) as [|[k e] [|]]; [| |done].
  - cbn [create_inode] in E. destruct (add_name _ _ _ _) as [nid s1] eqn:Ea. apply found_put in E. apply found_add in Ea. rewrite F, Ea in E. cbn in E. by rewrite orb_true_r in E.
  - destruct (put_contents _ _) as [t|] eqn:Ep; [|done]. apply found_put in Ep. cbn in Ep. rewrite orb_true_r in Ep. pose proof (silent_lof_dir _ _ _ _ E F) as E1. rewrite E1 in F. congruence.
Qed.
Lemma silent_cached kp k s s' : check_cached kp k s = Some s' -> found s' = false -> s' = set_cache (cache s') s.
Proof.
  unfold check_cached. destruct (cache s !! k) as [d|]; [|done]. intros E. injection E as E. destruct (cache_clean _ _ _ _).
  - intros _. destruct kp; subst s'; by destruct s.
  - assert (found (let (id, s1) := cache_upload d (sha256 d) (report true s) in cache_link k.1 k.2 id s1) = true) as Ft.
    { unfold cache_upload, cache_link. destruct (by_hash _ _) as [[id o]|]; destruct (block_row _ _ _) as [[k0 r]|]; cbn; apply orb_true_r. }
    intros F. exfalso. destruct kp; subst s'; cbn [found set_cache] in F; congruence.
Qed.
Lemma silent_cache kp s s' : check_cache kp s = Some s' -> found s' = false -> s' = set_cache (cache s') s.
Proof.
  unfold check_cache. generalize (scan _ (fst <$> map_to_list (cache s))). intros l. revert s. induction l as [|k l IH]; intros s E F; cbn [each] in E; [injection E as <-; by destruct s|].
  destruct (check_cached kp k s) as [t|] eqn:Ea; [|done]. pose proof (IH _ E F) as E1. assert (found t = false) as Ft by (rewrite E1 in F; exact F).
  rewrite (silent_cached _ _ _ _ Ea Ft) in E1. rewrite E1. by destruct s.
Qed.
Lemma silent_names : quiet (fun s => Some (check_names_refcount s)).
Proof.
  intros s s' E F. injection E as <-. unfold check_names_refcount in *. apply (found_orb _ s) in F as [H F]; [|done]. rewrite bool_decide_eq_false_2 by auto. rewrite report_false.
  assert (map_imap (fun id nr => Some (nr.1, uses (contents s) (xattrs s) id)) (names s) = names s) as ->; [|by destruct s].
  apply map_eq. intros id. rewrite map_lookup_imap. destruct (names s !! id) as [[n r]|] eqn:E; [|done]. cbn. by rewrite <- (H _ _ E).
Qed.
Lemma silent_contents_name : quiet check_contents_name.
Proof.
  unfold check_contents_name. intros s. apply quiet_each. intros [k e0] t t' E F. cbn [fst] in E. unfold fix_contents_name in E. destruct (contents t !! k) as [e|]; [|by injection E as <-].
  destruct (names t !! c_name e); [by injection E as <-|]. destruct (match get_path t (c_parent e) None with Path _ => _ | _ => _ end) as [n|]; [|done]. destruct (resolve_free t n) as [[p n']|]; [|done].
  destruct (add_name _ _ _ _) as [nid s1] eqn:Ea. apply found_move in E. apply found_add in Ea. rewrite Ea, found_report in E. congruence.
Qed.
Lemma silent_contents_inode : quiet check_contents_inode.
Proof.
  unfold check_contents_inode. intros s. apply quiet_each. intros [k e0] t t' E F. cbn [fst] in E. unfold fix_contents_inode in E. destruct (contents t !! k) as [e|]; [|by injection E as <-].
  destruct (inodes t !! c_inode e); [by injection E as <-|]. destruct (get_path t (c_inode e) None); [| |done]; injection E as <-; cbn in F; by rewrite orb_true_r in F.
Qed.
Lemma silent_contents_parent : quiet check_contents_parent.
Proof.
  unfold check_contents_parent. intros s. apply quiet_each. intros [k e0] t t' E F. cbn [fst] in E. unfold fix_contents_parent in E. destruct (contents t !! k) as [e|]; [|by injection E as <-].
  destruct (inodes t !! c_parent e); [by injection E as <-|]. destruct (name_of t (c_name e)) as [[n|]|]; [|done..]. destruct (resolve_free _ _) as [[p n']|]; [|done].
  destruct (add_name _ _ _ _) as [nid s1] eqn:Ea. apply found_move in E. apply found_add in Ea. rewrite Ea in E. cbn in E. rewrite orb_true_r in E. congruence.
Qed.
Lemma silent_objects_hash : quiet (fun s => Some (check_objects_hash s)).
Proof.
  intros s s' E F. injection E as <-. unfold check_objects_hash in *. apply (found_orb _ s) in F as [H F]; [|done]. rewrite bool_decide_eq_false_2 by auto. rewrite report_false.
  rewrite map_filter_id; [by destruct s|]. intros id o Ho. by apply (H id o).
Qed.
Lemma silent_objects_refcount s : unlinked s = ∅ -> found (check_objects_refcount s) = false -> check_objects_refcount s = s.
Proof.
  intros Hu F. unfold check_objects_refcount in *. set (m := map_imap _ _) in *. cbn [found set_store set_objects] in F. apply (found_orb _ s) in F as [H F]; [|done]. rewrite bool_decide_eq_false_2 by auto.
  rewrite report_false.
  assert (forall id o, objects s !! id = Some o -> o_ref o = refs s id /\ refs s id <> 0%Z) as Hr.
  { intros id o Ho. destruct (H id o Ho) as [E1 E2]. split; [done|]. intros Q. apply E2 in Q. rewrite Hu in Q. by apply elem_of_empty in Q. }
  assert (m = objects s) as Em.
  { apply map_eq. intros id. unfold m. rewrite map_lookup_imap. destruct (objects s !! id) as [o|] eqn:E; [|done]. cbn. destruct (Hr _ _ E) as [<- N]. rewrite decide_False by done. by destruct o. }
  rewrite Em. cbn. rewrite !map_filter_id; [by destruct s| |].
  - intros id o Ho. cbn. destruct (Hr _ _ Ho) as [-> N]. done.
  - intros id d Hd. cbn. destruct (objects s !! id) as [o|] eqn:Ho; [|done]. destruct (Hr _ _ Ho) as [E N]. cbn. congruence.
Qed.
Lemma silent_objects_id s : unlinked s = ∅ -> found (check_objects_id s) = false -> check_objects_id s = s.
Proof.
  intros Hu F. unfold check_objects_id in *. set (sp := listed (store s) ∖ dom (objects s)) in *. set (s1 := report (bool_decide (~ sp ⊆ unlinked s)) _) in *.
  apply (found_orb _ s1) in F as [H F]; [|done]. unfold s1 in F. apply (found_orb _ s) in F as [H2 F]; [|done]. assert (sp = ∅) as Es by set_solver.
  assert (s1 = s) as E1.
  { unfold s1. rewrite bool_decide_eq_false_2 by auto. rewrite report_false, Es. rewrite map_filter_id; [by destruct s|]. intros id d _. apply not_elem_of_empty. }
  rewrite bool_decide_eq_false_2 by auto. rewrite report_false. rewrite map_filter_id; [rewrite E1; by destruct s|]. intros id o Ho. cbn. apply H. apply elem_of_dom. eauto.
Qed.
Lemma silent_phys : quiet check_objects_phys_size.
Proof.
  unfold check_objects_phys_size. intros s. apply quiet_each. intros [k o0] t t' E F. cbn [fst] in E. unfold fix_phys_size in E. destruct (objects t !! k) as [o|]; [|by injection E as <-].
  case_decide; [|by injection E as <-]. destruct (store t !! k); [|done]. injection E as <-. cbn in F. by rewrite orb_true_r in F.
Qed.
Lemma found_move_lost ke s s' : move_lost ke s = Some s' -> found s' = found s.
Proof.
  unfold move_lost. destruct (name_of s (c_name ke.2)) as [[n|]|]; [|done..]. destruct (get_path s _ _); [|done..]. destruct (resolve_free _ _) as [[q n']|]; [|done].
  destruct (add_name _ _ _ _) as [nid s1] eqn:Ea. destruct (move_entry _ _ _ _) as [s2|] eqn:Em; [|done]. intros E. injection E as <-. cbn. rewrite (found_move _ _ _ _ _ Em). by apply found_add in Ea.
Qed.
Lemma found_each {A} (l : list A) f s s' : (forall a t t', f a t = Some t' -> found t' = found t) -> each l f s = Some s' -> found s' = found s.
Proof.
  intros H. revert s. induction l as [|a l IH]; intros s E; cbn [each] in E; [by injection E as <-|]. destruct (f a s) as [t|] eqn:Ea; [|done]. rewrite (IH _ E). by apply (H a).
Qed.
Lemma silent_block_objects : quiet check_block_objects.
Proof.
  unfold check_block_objects. intros s. apply quiet_each. intros [k b] t t' E F. unfold fix_block_object in E. cbn [fst snd] in E. destruct (objects t !! b_obj b); [by injection E as <-|].
  destruct (each _ _ _) as [s1|] eqn:Ee; [|done]. injection E as <-. cbn in F. rewrite (found_each _ _ _ _ found_move_lost Ee), found_report in F. done.
Qed.
Lemma silent_block_inodes : quiet check_block_inodes.
Proof.
  unfold check_block_inodes. intros s. apply quiet_each. intros [k b] t t' E F. injection E as <-. unfold fix_block_inode in *. cbn [fst snd] in *. destruct (inodes t !! b_inode b); [done|].
  cbn in F. by rewrite orb_true_r in F.
Qed.
Lemma silent_inodes_refcount : quiet check_inodes_refcount.
Proof.
  unfold check_inodes_refcount. intros s. apply quiet_each. intros [i c] t t' E F. unfold fix_inode_refcount in E. case_decide; [by injection E as <-|]. case_decide.
  - destruct (resolve_free _ _) as [[p n]|]; [|done]. destruct (add_name _ _ _ _) as [nid s1] eqn:Ea. destruct (put_contents _ _) as [s2|] eqn:Ep; [|done]. injection E as <-. cbn in F.
    apply found_put in Ep. apply found_add in Ea. rewrite Ea, found_report in Ep. congruence.
  - destruct (get_path _ _ _); [|done..]. injection E as <-. cbn in F. by rewrite orb_true_r in F.
Qed.
Lemma silent_inodes_size : quiet check_inodes_size.
Proof.
  unfold check_inodes_size. intros s. apply quiet_each. intros [i c] t t' E F. unfold fix_inode_size in E. destruct (get_path _ _ _); [|done..]. injection E as <-. cbn in F. by rewrite orb_true_r in F.
Qed.
Lemma found_rename k i fuel n s s' : rename_attribute k n i fuel s = Some s' -> found s' = found s.
Proof.
  revert n s. induction fuel as [|fuel IH]; intros n s E; [done|]. cbn [rename_attribute] in E. destruct (add_name _ _ _ _) as [nid s1] eqn:Ea. apply found_add in Ea. case_decide.
  - apply found_putx in E. congruence.
  - apply IH in E. cbn in E. congruence.
Qed.
Lemma silent_attribute_names : quiet check_attribute_names.
Proof.
  unfold check_attribute_names. intros s. apply quiet_each. intros [k x0] t t' E F. cbn [fst] in E. unfold fix_attribute_name in E. destruct (xattrs t !! k) as [x|]; [|by injection E as <-].
  destruct (names t !! x_name x); [by injection E as <-|]. case_decide; [|done]. apply found_rename in E. rewrite found_report in E. congruence.
Qed.
Lemma silent_attribute_inodes : quiet check_attribute_inodes.
Proof.
  unfold check_attribute_inodes. intros s. apply quiet_each. intros [k x0] t t' E F. cbn [fst] in E. unfold fix_attribute_inode in E. destruct (xattrs t !! k) as [x|]; [|by injection E as <-].
  destruct (inodes t !! x_inode x); [by injection E as <-|]. injection E as <-. cbn in F. by rewrite orb_true_r in F.
Qed.
Lemma silent_symlinks : quiet (fun s => Some (check_symlinks s)).
Proof.
  intros s s' E F. injection E as <-. unfold check_symlinks in *. apply (found_orb _ s) in F as [H F]; [|done]. rewrite bool_decide_eq_false_2 by auto. rewrite report_false.
  rewrite map_filter_id; [by destruct s|]. intros i z Hz. cbn. apply H. apply elem_of_dom. eauto.
Qed.
Lemma silent_anchor fuel up l root : quiet (anchor fuel up l root).
Proof.
  assert (forall fuel up l root s s', anchor fuel up l root s = Some s' -> found s = true -> found s' = true) as M.
  { clear. intros fuel. induction fuel as [|fuel IH]; intros up l root s s' E F; [done|]. cbn [anchor] in E. destruct (delete_tree _ _ _ _); [|done]. destruct (culprit _ _) as [i|]; [|by injection E as <-].
    destruct (entry_of s i) as [[k e]|]; [|done]. destruct (name_of s (c_name e)) as [[n|]|]; [|done..]. destruct (resolve_free s n) as [[p n']|]; [|done].
    destruct (add_name _ _ _ _) as [nid s1] eqn:Ea. destruct (put_contents _ _) as [s2|] eqn:Ep; [|done]. apply IH in E; [done|]. cbn. apply found_put in Ep. apply found_add in Ea. by rewrite Ep, Ea, found_report. }
  intros s s' E F. destruct fuel as [|fuel]; [done|]. cbn [anchor] in E. destruct (delete_tree _ _ _ _); [|done]. destruct (culprit _ _) as [i|]; [|by injection E as <-].
  destruct (entry_of s i) as [[k e]|]; [|done]. destruct (name_of s (c_name e)) as [[n|]|]; [|done..]. destruct (resolve_free s n) as [[p n']|]; [|done].
  destruct (add_name _ _ _ _) as [nid s1] eqn:Ea. destruct (put_contents _ _) as [s2|] eqn:Ep; [|done]. apply found_put in Ep. apply found_add in Ea.
  apply M in E; [congruence|]. cbn. by rewrite Ep, Ea, found_report.
Qed.
Lemma silent_unix : quiet check_unix.
Proof.
  intros s s' E F. unfold check_unix in E. case_decide as D; [|done]. injection E as <-. set (s1 := report (bool_decide (~ map_Forall (fun i r => ~ odd s i r) (inodes s))) _) in *. apply (found_orb _ s1) in F as [H F]; [|done]. unfold s1 in F.
  apply (found_orb _ s) in F as [H2 F]; [|done]. rewrite bool_decide_eq_false_2 by auto. rewrite report_false. unfold s1. rewrite bool_decide_eq_false_2 by auto. rewrite report_false.
  assert (map_imap (fun i r => Some (typed s i r)) (inodes s) = inodes s) as ->; [|by destruct s].
  apply map_eq. intros i. rewrite map_lookup_imap. destruct (inodes s !! i) as [r|] eqn:E; [|done]. cbn. unfold typed. rewrite decide_False; [done|]. intros Q. apply (H2 i r E). by left.
Qed.
Lemma silent_keys : quiet (fun s => Some (check_foreign_keys s)).
Proof.
  intros s s' E F. injection E as <-. unfold check_foreign_keys in *. assert (resolved s) as R by (apply (found_orb _ s) in F as [H _]; done).
  rewrite bool_decide_eq_false_2 by auto. by rewrite report_false, set_uncorrectable_false.
Qed.
Theorem silent_check wc kp s s' : check wc kp s = Some s' -> unlinked s = ∅ -> found s' = false -> s' = set_cache (cache s') s.
Proof.
  unfold check. intros E Hu F. destruct (check_lof s) as [t1|] eqn:Q1; [cbn [mbind option_bind] in E|done].
  destruct (if wc then check_cache kp t1 else Some t1) as [t2|] eqn:Q2; [cbn [mbind option_bind] in E|done].
  set (t3 := check_names_refcount t2) in *. destruct (check_contents_name t3) as [t4|] eqn:Q4; [cbn [mbind option_bind] in E|done].
  destruct (check_contents_inode t4) as [t5|] eqn:Q5; [cbn [mbind option_bind] in E|done]. destruct (check_contents_parent t5) as [t6|] eqn:Q6; [cbn [mbind option_bind] in E|done].
  set (t7 := check_objects_hash t6) in *. set (t8 := check_objects_refcount t7) in *. set (t9 := check_objects_id t8) in *.
  destruct (check_objects_phys_size t9) as [t10|] eqn:Q10; [cbn [mbind option_bind] in E|done]. destruct (check_block_objects t10) as [t11|] eqn:Q11; [cbn [mbind option_bind] in E|done].
  destruct (check_block_inodes t11) as [t12|] eqn:Q12; [cbn [mbind option_bind] in E|done]. destruct (check_inodes_refcount t12) as [t13|] eqn:Q13; [cbn [mbind option_bind] in E|done].
  destruct (check_inodes_size t13) as [t14|] eqn:Q14; [cbn [mbind option_bind] in E|done]. destruct (check_attribute_names t14) as [t15|] eqn:Q15; [cbn [mbind option_bind] in E|done].
  destruct (check_attribute_inodes t15) as [t16|] eqn:Q16; [cbn [mbind option_bind] in E|done]. set (t17 := check_symlinks t16) in *.
  destruct (check_loops t17) as [t18|] eqn:Q18; [cbn [mbind option_bind] in E|done]. destruct (check_unix t18) as [t19|] eqn:Q19; [cbn [mbind option_bind] in E|done].
  apply (silent_keys t19 s' E) in F as E19. rewrite E19 in F. apply (silent_unix _ _ Q19) in F as E18. rewrite E18 in F. apply (silent_anchor _ _ _ _ _ _ Q18) in F as E17. rewrite E17 in F.
  apply (silent_symlinks t16 t17 eq_refl) in F as E16. rewrite E16 in F. apply (silent_attribute_inodes _ _ Q16) in F as E15. rewrite E15 in F.
  apply (silent_attribute_names _ _ Q15) in F as E14. rewrite E14 in F. apply (silent_inodes_size _ _ Q14) in F as E13. rewrite E13 in F. apply (silent_inodes_refcount _ _ Q13) in F as E12. rewrite E12 in F.
  apply (silent_block_inodes _ _ Q12) in F as E11. rewrite E11 in F. apply (silent_block_objects _ _ Q11) in F as E10. rewrite E10 in F. apply (silent_phys _ _ Q10) in F as E9. rewrite E9 in F.
  assert (found t9 = false -> found t8 = false) as M9 by (unfold t9, check_objects_id; cbn; intros [[? _]%orb_false_iff _]%orb_false_iff; done).
  assert (found t8 = false -> found t7 = false) as M8 by (unfold t8, check_objects_refcount; cbn; intros [? _]%orb_false_iff; done).
  assert (t7 = t6) as E6 by (apply (silent_objects_hash t6 t7 eq_refl); auto). assert (found t6 = false) as F6 by (rewrite <- E6; auto).
  apply (silent_contents_parent _ _ Q6) in F6 as E5. rewrite E5 in F6. apply (silent_contents_inode _ _ Q5) in F6 as E4. rewrite E4 in F6. apply (silent_contents_name _ _ Q4) in F6 as E3. rewrite E3 in F6.
  apply (silent_names t2 t3 eq_refl) in F6 as E2. rewrite E2 in F6.
  assert (t2 = set_cache (cache t2) t1) as E1. { destruct wc; [by apply (silent_cache kp)|]. injection Q2 as <-. by destruct t1. }
  assert (found t1 = false) as F1 by (rewrite E1 in F6; exact F6). apply (silent_lof _ _ Q1) in F1 as E0.
  assert (t7 = t2) as E7 by congruence. assert (unlinked t7 = ∅) as U7 by (rewrite E7, E1, E0; exact Hu).
  assert (t8 = t7) as E8 by (apply silent_objects_refcount; auto). assert (t9 = t8) as E9' by (apply silent_objects_id; [by rewrite E8|auto]).
  assert (s' = t2) as -> by congruence. rewrite E1 at 1. by rewrite E0.
Qed.
End silent.
