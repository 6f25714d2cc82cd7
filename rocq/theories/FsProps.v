(** Properties of the file system name space. *)
From stdpp Require Import prelude gmap strings sorting.
From Coq Require Import ZArith String.
From Verif Require Import FsModel FsSpec FsLemmas FsInv FsOps FsSteps FsHist FsLock FsCrash.
Local Close Scope string_scope.
Local Open Scope Z_scope.

(** C13: lookup returns the inode last bound to the name, in every history. *)
Theorem lookup_returns_last_binding max exact h s p n s' r : 0 < max -> reachable max exact h s -> n <> CTRL_NAME ->
  exec max (CLookup p n) s = (s', r) ->
  match entries_of h p n with Some i => exists a, r = Entry i a | None => r = Err ENOENT end.
Proof. intros Hm Hre Hn Hl. exact (lookup_result max Hm exact h s p n s' r Hre Hn Hl). Qed.
(** A call affects only the names it mentions. *)
Definition mentions (c : call) (p : nat) (n : string) : Prop :=
  match c with
  | CUnlink q m _ | CRmdir q m _ | CTreeRemove q m _ _ | CMknod q m _ _ _ _ | CSymlink q m _ _ _ | CCreate q m _ _ _ _ _ | CLink _ q m _ => (q, m) = (p, n)
  | CRename q m q' m' _ _ => (q, m) = (p, n) \/ (q', m') = (p, n)
  | _ => False
  end.
Theorem other_names_undisturbed max exact h s c s' r p n s1 r1 s2 r2 : 0 < max -> reachable max exact h s -> n <> CTRL_NAME ->
  allowed max exact s c -> exec max c s = (s', r) -> r <> Crash -> ~ mentions c p n ->
  exec max (CLookup p n) s = (s1, r1) -> exec max (CLookup p n) s' = (s2, r2) ->
  (r1 = Err ENOENT /\ r2 = Err ENOENT) \/ exists i a a', r1 = Entry i a /\ r2 = Entry i a'.
Proof.
  intros Hm Hre Hn Ha Hr Hc Hme H1 H2.
  pose proof (lookup_returns_last_binding _ _ _ _ _ _ _ _ Hm Hre Hn H1) as L1.
  pose proof (lookup_returns_last_binding _ _ _ _ _ _ _ _ Hm (reach_step _ _ _ _ _ _ _ Hre Ha Hr Hc) Hn H2) as L2.
  assert (entries_of (h ++ [(c, r)]) p n = entries_of h p n) as E.
  { unfold entries_of. rewrite foldl_app. cbn. destruct c, r; cbn in *; try done; unfold bind; rewrite ?decide_False by naive_solver; done. }
  rewrite E in L2. destruct (entries_of h p n); [|by left]. destruct L1 as [a ->], L2 as [a' ->]. right. eauto.
Qed.

(** C14: the link count of an inode is the number of directory entries that lead to it (plus one for the root
    directory, which is in no directory, and 42 for the control file). *)
Theorem link_count_exact max exact h s i a : 0 < max -> reachable max exact h s -> exec max (CGetattr i) s = (s, Attrs i a) ->
  exists l : list (nat * string), NoDup l /\ (forall p n, (p, n) ∈ l <-> entries_of h p n = Some i) /\
    refcount a = Z.of_nat (List.length l) + base_links i.
Proof.
  intros Hm Hre Hg. assert (inodes s !! i = Some a) as Hi by (cbn in Hg; unfold getattr in Hg; destruct (inodes s !! i); congruence).
  exact (reachable_links max Hm exact h s i a Hre Hi).
Qed.
(** An inode without entries exists only while there are lookups; blocks, attributes and link targets exist only for
    existing inodes. *)
Theorem unlinked_inodes_purged max exact h s : 0 < max -> reachable max exact h s ->
  (forall i a, inodes s !! i = Some a -> refcount a = 0 -> 0 < lookups s i) /\
  (forall i n v, xattr s i n = Some v -> is_Some (inodes s !! i)) /\
  (forall i t, symlinks s !! i = Some t -> is_Some (inodes s !! i)) /\
  (forall i b o, blocks s !! (i, b) = Some o -> is_Some (inodes s !! i)) /\
  (forall o rc, objects s !! o = Some rc -> exists i b, blocks s !! (i, b) = Some o).
Proof.
  intros Hm Hre. pose proof (reachable_consistent max Hm exact h s Hre) as Hc. destruct (c_left _ _ _ Hc) as (H1 & H2 & H3 & H4).
  split; [|split; [|split; [|split]]].
  - intros i a Hi Hz. destruct (H1 _ _ Hi Hz) as [c Hcc]. unfold lookups. rewrite Hcc. cbn. by destruct (c_opens _ _ _ Hc _ _ Hcc).
  - intros i n v Hx. apply xattr_Some in Hx as (k & rc & _ & Hk). by destruct (H2 _ _ _ Hk).
  - exact H3.
  - intros i b o Hb. destruct (H4 _ _ _ Hb) as (a & Ha & _). by eexists.
  - intros o rc Ho. destruct (c_objects _ _ _ Hc) as [Ho1 _]. destruct (Ho1 _ _ Ho) as [-> Hp]. destruct (cnt_pos_inv _ _ Hp) as ([i b] & o' & Hb & E). cbn in E. subst o'. eauto.
Qed.

(** C15: the count of a name is the number of directory entries and attributes of that name; a name without users
    is not stored - in histories in which no attribute is overwritten and no missing attribute is removed. *)
Theorem name_count_exact max h s n : 0 < max -> reachable max true h s ->
  exists l l' : list nat, NoDup l /\ NoDup l' /\
    (forall p, p ∈ l <-> is_Some (entries_of h p n)) /\ (forall i, i ∈ l' <-> is_Some (inodes s !! i) /\ is_Some (xattrs_of h i n)) /\
    match names s !! n with Some (_, rc) => rc = Z.of_nat (List.length l) + Z.of_nat (List.length l') /\ 0 < rc | None => l = [] /\ l' = [] end.
Proof. intros Hm Hre. exact (reachable_names max Hm h s n Hre). Qed.

(** C16: attributes are a map. *)
Theorem getxattr_returns_last_value max exact h s i n s' r : 0 < max -> reachable max exact h s -> is_Some (inodes s !! i) ->
  exec max (CGetxattr i n) s = (s', r) ->
  s' = s /\ r = if is_acl n then Err EOPNOTSUPP else match xattrs_of h i n with Some v => Value v | None => Err ENOATTR end.
Proof.
  intros Hm Hre Hi Hr. cbn in Hr. unfold getxattr in Hr. injection Hr as <- <-. split; [done|].
  by rewrite <- (proj1 (reachable_xattrs max Hm exact h s Hre) i n Hi).
Qed.
Theorem listxattr_exact max exact h s i s' r : 0 < max -> reachable max exact h s -> is_Some (inodes s !! i) ->
  exec max (CListxattr i) s = (s', r) -> s' = s /\ exists l, r = Names l /\ NoDup l /\ forall n, n ∈ l <-> is_Some (xattrs_of h i n).
Proof.
  intros Hm Hre Hi Hr. cbn in Hr. destruct (listxattr_names max exact i s (reachable_consistent max Hm exact h s Hre)) as (l & Hl0 & Hnd & Hl).
  rewrite Hl0 in Hr. injection Hr as <- <-. split; [done|]. exists l. split; [done|]. split; [done|]. intros n. by rewrite Hl, (proj1 (reachable_xattrs max Hm exact h s Hre) i n Hi).
Qed.
(** A new inode has no attributes, and no call but setxattr and removexattr changes them (by definition of
    [xattrs_of]); those two never change directories (by definition of [entries_of]). *)
Theorem new_inodes_have_no_xattrs max exact h s i n : 0 < max -> reachable max exact h s -> (seq s <= i)%nat -> xattrs_of h i n = None.
Proof. intros Hm Hre. exact (proj2 (reachable_xattrs max Hm exact h s Hre) i n). Qed.

(** C22: an inode to which the kernel holds a reference exists, ... *)
Theorem referenced_inodes_exist max exact h s i : 0 < max -> reachable max exact h s -> 0 < holds h i -> is_Some (inodes s !! i).
Proof. intros Hm Hre. exact (held_exists max Hm exact h s i Hre). Qed.
(** ... giving up references that are held is always possible, ... *)
Theorem held_references_can_be_dropped max exact h s l : 0 < max -> reachable max exact h s ->
  Forall (fun x => 0 < x.2) l -> (forall i, taken (CForget l) i <= holds h i) ->
  allowed max exact s (CForget l) /\ exists s', exec max (CForget l) s = (s', Done).
Proof.
  intros Hm Hre Hp Ht. assert (forget_ok max l s) as Hf.
  { apply (forget_covered max Hm exact l s); [exact (reachable_consistent max Hm exact h s Hre)|exact Hp|]. intros i. pose proof (proj1 (reachable_lookups max Hm exact h s Hre) i). specialize (Ht i). lia. }
  split; [exact Hf|]. destruct (exec max (CForget l) s) as [s' r] eqn:E. exists s'. destruct (forget_res max l s s' r E) as [-> | ->]; [done|].
  by destruct (forget_no_crash max Hm exact l s s' Crash (reachable_consistent max Hm exact h s Hre) Hf E).
Qed.
(** ... and without failing unlink, rmdir and rename calls the count is exact: an inode that is neither referenced
    nor in a directory does not exist. *)
Theorem lookup_counts_exact max exact h s i : 0 < max -> reachable max exact h s -> Forall (fun x => fails_late x = false) h ->
  lookups s i = holds h i /\ forall a, inodes s !! i = Some a -> holds h i = 0 -> exists p n, entries_of h p n = Some i \/ i = ROOT \/ i = CTRL.
Proof.
  intros Hm Hre Hf. assert (forallb (fun x => negb (fails_late x)) h = true) as Hb.
  { apply forallb_forall. intros x Hx. rewrite Forall_forall in Hf. apply negb_true_iff, Hf. by apply elem_of_list_In. }
  split; [exact (proj2 (reachable_lookups max Hm exact h s Hre) Hb i)|]. intros a Hi Hh.
  pose proof (not_held_purged max Hm h s exact i a Hre Hb Hh Hi) as Hz. destruct (reachable_links max Hm exact h s i a Hre Hi) as (l & _ & Hl & E).
  destruct l as [|[p n] l]; [|exists p, n; left; apply Hl; by left]. exists ROOT, CTRL_NAME. cbn in E. unfold base_links in E. repeat case_decide; auto. lia.
Qed.

(** C57: every entry can be reached from the root directory. *)
Theorem entries_reachable max exact h s p n i : 0 < max -> reachable max exact h s -> entries_of h p n = Some i -> below s ROOT i.
Proof.
  intros Hm Hre He. rewrite <- (reachable_entries max Hm exact h s Hre) in He. eapply below_entry; [|exact He]. exact (reachable_attached max Hm exact h s Hre p n i He).
Qed.
(** What is removed or replaced contains nothing. *)
Theorem removed_is_empty max exact h s c s' p n i : 0 < max -> reachable max exact h s -> allowed max exact s c -> exec max c s = (s', Done) ->
  match c with CUnlink q m _ | CRmdir q m _ | CTreeRemove q m _ _ | CRename _ _ q m _ _ => (q, m) = (p, n) | _ => False end ->
  entries_of h p n = Some i -> forall m, entries_of h i m = None.
Proof.
  intros Hm Hre Ha Hr Hc He m. rewrite <- (reachable_entries max Hm exact h s Hre) in *. pose proof (reachable_consistent max Hm exact h s Hre) as Hcs.
  destruct c; try done; injection Hc as -> ->; cbn in Ha, Hr.
  - destruct (unlink_empty max exact _ _ _ _ _ Hcs Ha Hr) as (i' & Hi & Hn). rewrite He in Hi. injection Hi as <-. apply Hn.
  - destruct (rmdir_empty max exact _ _ _ _ _ Hcs Ha Hr) as (i' & Hi & Hn). rewrite He in Hi. injection Hi as <-. apply Hn.
  - destruct (rename_empty max exact _ _ _ _ _ _ _ _ Hcs Hr) as (_ & io & _ & Hn). by apply (Hn i).
  - destruct Ha as [_ Hi]. rewrite He in Hi. injection Hi as <-. exact (remove_empty max p n i true now s s' Hr m).
Qed.

(** C18: as long as a locked inode exists, no calls change its data, entries, extended attributes, link target or any
    attribute but link count, access time and change time. *)
Theorem locked_inode_intact max exact h0 s h s' i : 0 < max -> reachable max exact h0 s -> is_locked_in s i ->
  calls max exact s h s' -> unforced h -> is_Some (inodes s' !! i) -> intact s s' i /\ is_locked_in s' i.
Proof. intros Hm Hre Hl Hh Hu Hi. exact (calls_exist max Hm exact s h s' i (reachable_consistent max Hm exact h0 s Hre) Hh Hu Hl Hi). Qed.
(** A locked directory with an entry, and what the entry leads to, cannot be removed. *)
Theorem locked_directory_persists max exact h0 s h s' i n j : 0 < max -> reachable max exact h0 s -> is_locked_in s i -> entry s i n = Some j ->
  calls max exact s h s' -> unforced h -> intact s s' i /\ is_locked_in s' i /\ entry s' i n = Some j /\ is_Some (inodes s' !! j).
Proof.
  intros Hm Hre Hl He Hh Hu. destruct (calls_nonempty max Hm exact s h s' i n j (reachable_consistent max Hm exact h0 s Hre) Hh Hu Hl He) as (H1 & H2 & H3).
  split; [done|]. split; [done|]. split; [|done]. destruct H1 as (_ & H1 & _). by rewrite H1.
Qed.
(** A rejected call changes nothing but (see C22) the number of lookups. *)
Theorem rejected_call_changes_nothing max s c s' : exec max c s = (s', Err EPERM) ->
  s' = s \/ fails_late (c, Err EPERM) = true /\ exists i, s' = incr_open i s.
Proof. exact (rejected max s c s'). Qed.

(** C19: in fail-safe mode, calls that would modify the file system are rejected, ... *)
Theorem failsafe_rejects_modifications max s c s' r : failsafe s = true -> modifies c = true -> exec max c s = (s', r) -> r <> Crash ->
  s' = s /\ r = Err (default EPERM (early_error s c)).
Proof. exact (failsafe_rejects max s c s' r). Qed.
(** ... all others leave the metadata except access times alone and do not leave the mode, ... *)
Theorem failsafe_is_readonly max s c s' r : failsafe s = true -> exec max c s = (s', r) -> r <> Crash -> deferred c = false ->
  same_but_atime s s' /\ failsafe s' = true.
Proof. exact (failsafe_frame max s c s' r). Qed.
(** ... except that inodes in no directory are deleted with their last reference. *)
Theorem failsafe_forget max s l s' r : exec max (CForget l) s = (s', r) -> failsafe s' = failsafe s /\ contents s' = contents s /\
  forall i a, inodes s !! i = Some a -> refcount a <> 0 -> inodes s' !! i = Some a /\ symlinks s' !! i = symlinks s !! i /\ forall b, blocks s' !! (i, b) = blocks s !! (i, b).
Proof. exact (forget_frame max l s s' r). Qed.

(** C62: requests as the kernel sends them do not crash the mount (except for the removal of the control file and
    missing objects). *)
Theorem requests_do_not_crash max exact h s c s' r : 0 < max -> reachable max exact h s -> allowed max exact s c -> wellformed s c ->
  exec max c s = (s', r) -> r <> Crash.
Proof. intros Hm Hre. exact (exec_no_crash max Hm exact s c s' r (reachable_consistent max Hm exact h s Hre)). Qed.

(** * Examples *)
Definition me := Ctx 1000 1000.
Definition s0 := mkfs 1000 1000 5.
(** A directory 4, a file 5 in it with a second name, an attribute that has the name of a file, a symlink 6; the file
    is moved; the second name and the directory are removed while they are referenced; then all references are given up. *)
Definition story : list call :=
  [CMknod ROOT "d" 16877 0 me 6; CCreate 4 "f" 33188 true false me 7; CWrite 5 [(0%nat, 1%nat); (1%nat, 2%nat)] 150 false 8;
   CLink 5 ROOT "g" 9; CSetxattr 5 "g" "v" 10; CSetxattr ROOT "f" "w" 10; CSymlink ROOT "s" "d/f" me 11; CLookup ROOT "s";
   CRename 4 "f" ROOT "h" false 12; CRmdir ROOT "d" 13; CSetattr 5 (Req (Some 33152%N) None None None None (Some 50)) None 3 14; CUnlink ROOT "g" 14;
   CReaddir ROOT 0 10 15; CForget [(4%nat, 1); (6%nat, 3)]].
Ltac allow := repeat (split; [first [exact I|discriminate|by intros z [= <-]|idtac]|split; [vm_compute; discriminate|]]); try exact I.
Lemma story_allowed : allowed_all 100 true story s0.
Proof.
  cbn [allowed_all story]. allow.
  - intros a Ha b o Hb. assert (size a = 0) as -> by (vm_compute in Ha; by injection Ha as <-). apply elem_of_list_In in Hb. cbn in Hb. destruct Hb as [[= <- <-]|[[= <- <-]|[]]]; lia.
  - split; [done|]. intros Hb. apply below_leaf in Hb; [discriminate|]. vm_compute. reflexivity.
  - intros _. vm_compute. reflexivity.
  - intros _. vm_compute. reflexivity.
  - split; [done|]. intros a. vm_compute. by intros [= <-].
  - intros i. vm_compute entry. intros [= <-] Hb. apply below_leaf in Hb; [discriminate|]. vm_compute. reflexivity.
  - vm_compute. split; [done|]. split; [eexists; split; [reflexivity|done]|]. split; [done|]. split; [eexists; split; [reflexivity|done]|done].
Qed.
Notation s1 := (run 100 story s0).2.
Notation h1 := (run 100 story s0).1.
Example story_reachable : reachable 100 true h1 s1.
Proof. exact (run_reachable 100 true story [] s0 (reach_init _ _ _ _ _) story_allowed). Qed.
Example story_no_failures : Forall (fun x => fails_late x = false) h1.
Proof. vm_compute. repeat constructor. Qed.
Example story_effect : entries_of h1 ROOT "h" = Some 5%nat /\ entries_of h1 ROOT "g" = None /\ entries_of h1 4%nat "f" = None /\
  (exec 100 (CLookup ROOT "h") s1).2 = Entry 5 (Attr 33152 1000 1000 50 0 7 8 14 1 false) /\ (exec 100 (CLookup ROOT "d") s1).2 = Err ENOENT /\
  inodes s1 !! 4%nat = None /\ is_Some (inodes s1 !! 6%nat) /\ holds h1 5 = 3 /\ holds h1 4 = 0 /\ xattrs_of h1 5 "g" = Some "v"%string /\
  names s1 !! "g"%string = Some (4%nat, 1) /\ names s1 !! "f"%string = Some (3%nat, 1) /\ names s1 !! "d"%string = None /\
  (objects s1 !! 1%nat, objects s1 !! 2%nat, objects s1 !! 3%nat) = (None, None, Some 1).
Proof. vm_compute. repeat split. by eexists. Qed.

Definition results (l : list call) : list res := (fun x => x.2) <$> (run 100 l s0).1.
(** * Defects *)
(** C15, overwriting: after an attribute was set twice and removed, its name stays although nothing uses it. *)
Definition overwrite : list call := [CSetxattr ROOT "user.x" "1" 6; CSetxattr ROOT "user.x" "2" 7; CRemovexattr ROOT "user.x" 8].
Lemma overwrite_allowed : allowed_all 100 false overwrite s0.
Proof. cbn [allowed_all overwrite]. allow; try done. intros k rc. vm_compute. intros [= <- <-]. by eexists. Qed.
Theorem name_count_refuted : exists h s n, reachable 100 false h s /\ is_Some (names s !! n) /\
  (forall p, entries_of h p n = None) /\ forall i, xattrs_of h i n = None.
Proof.
  exists ([] ++ (run 100 overwrite s0).1), (run 100 overwrite s0).2, "user.x"%string.
  split; [exact (run_reachable 100 false overwrite [] s0 (reach_init _ _ _ _ _) overwrite_allowed)|]. split; [vm_compute; by eexists|]. split.
  - intros p. transitivity (bind (fun _ _ => @None nat) ROOT "lost+found" (Some 3%nat) p "user.x"); [vm_compute; reflexivity|]. unfold bind. by rewrite decide_False by (by intros [= ->]).
  - intros i. transitivity (bind (bind (bind (fun _ _ => @None string) ROOT "user.x" (Some "1")) ROOT "user.x" (Some "2")) ROOT "user.x" None i "user.x")%string; [vm_compute; reflexivity|]. unfold bind. by repeat case_decide.
Qed.
(** C15/C16, removing an attribute that does not exist: the call fails - and the file of that name is gone. *)
Theorem removexattr_refuted : results [CMknod ROOT "f" 33188 0 me 6; CLookup ROOT "f"; CRemovexattr ROOT "f" 7; CLookup ROOT "f"] =
  [Entry 4 (Attr 33188 1000 1000 0 0 6 6 6 1 false); Entry 4 (Attr 33188 1000 1000 0 0 6 6 6 1 false); Err ENOATTR; Err ENOENT].
Proof. vm_compute. reflexivity. Qed.
(** C13, renaming an entry to itself (the kernel does not send this): the entry is gone. *)
Theorem rename_same_refuted : results [CMknod ROOT "f" 33188 0 me 6; CRename ROOT "f" ROOT "f" false 7; CLookup ROOT "f"] =
  [Entry 4 (Attr 33188 1000 1000 0 0 6 6 6 1 false); Done; Err ENOENT].
Proof. vm_compute. reflexivity. Qed.
(** C22, failing calls: after an unlink of a directory has failed, the directory is never deleted. *)
Definition leak : list call := [CMknod ROOT "d" 16877 0 me 6; CForget [(4%nat, 1)]; CUnlink ROOT "d" 7; CRmdir ROOT "d" 8].
Lemma leak_allowed : allowed_all 100 true leak s0.
Proof. cbn [allowed_all leak]. allow; try done. vm_compute. split; [done|]. split; [eexists; split; [reflexivity|done]|done]. Qed.
Theorem lookup_count_refuted : exists h s i a, reachable 100 true h s /\ holds h i = 0 /\ inodes s !! i = Some a /\ refcount a = 0 /\ lookups s i = 1.
Proof.
  eexists _, _, 4%nat, _. split; [exact (run_reachable 100 true leak [] s0 (reach_init _ _ _ _ _) leak_allowed)|]. split; [vm_compute; reflexivity|].
  split; [vm_compute; reflexivity|]. split; [vm_compute; reflexivity|]. vm_compute. reflexivity.
Qed.
(** C57, moving something into a directory that has been removed (e.g. by s3qlrm, which the kernel does not notice) *)
Theorem rename_into_removed_refuted : exists s, (run 100 [CMknod ROOT "d" 16877 0 me 6; CMknod ROOT "f" 33188 0 me 6; CRmdir ROOT "d" 7; CRename ROOT "f" 4 "f" false 8] s0).2 = s /\
  entry s 4 "f" = Some 5%nat /\ ~ below s ROOT 5.
Proof.
  eexists. split; [reflexivity|]. split; [vm_compute; reflexivity|]. set (s := (run 100 _ s0).2). intros Hb.
  assert (forall p n j, entry s p n = Some j -> (p, j) = (4%nat, 5%nat) \/ (p, j) = (ROOT, 3%nat)) as He.
  { intros p n j He. apply entry_Some in He as (k & rc & _ & Hk). vm_compute in Hk.
    assert ((p, k, j) ∈ map_to_list (contents s)) as Hin by (by apply elem_of_map_to_list). vm_compute in Hin. apply elem_of_list_In in Hin. cbn in Hin. naive_solver. }
  assert (forall j, below s ROOT j -> j = ROOT \/ j = 3%nat) as Hr.
  { clearbody s. intros j Hj. induction Hj as [|p n j Hp IH Hj]; [by left|]. destruct (He _ _ _ Hj) as [[-> ->]%pair_equal_spec|[-> ->]%pair_equal_spec]; [by destruct IH|by right]. }
  by destruct (Hr _ Hb).
Qed.
(** C18, link counts and change times: locked inodes can be linked from and removed from directories that are not locked. *)
Definition locked_file : list call := [CMknod ROOT "f" 33188 0 me 6; CLock 4].
Theorem locked_link_count_refuted : let s := (run 100 locked_file s0).2 in reachable 100 true (run 100 locked_file s0).1 s /\
  exists a s' a', inodes s !! 4%nat = Some a /\ exec 100 (CLink 4 ROOT "g" 7) s = (s', Entry 4 a') /\ locked a = true /\
  refcount a = 1 /\ refcount a' = 2 /\ ctime a' <> ctime a /\ (exec 100 (CUnlink ROOT "f" 8) s).2 = Done.
Proof.
  intros s. split; [apply (run_reachable 100 true locked_file [] s0 (reach_init _ _ _ _ _)); cbn [allowed_all locked_file]; allow; done|]. eexists _, _, _. split; [vm_compute; reflexivity|].
  split; [vm_compute; reflexivity|]. vm_compute. by repeat split.
Qed.
(** C62: the removal of the control file raises an exception. *)
Theorem unlink_control_refuted : (exec 100 (CUnlink ROOT CTRL_NAME 6) s0).2 = Crash.
Proof. vm_compute. reflexivity. Qed.

(** A locked directory with a locked file in it. *)
Definition two : list call := [CMknod ROOT "d" 16877 0 me 6; CMknod 4 "f" 33188 0 me 6].
Definition two_locked : list call := two ++ [CLock 4; CLock 5].
Definition attempts : list call :=
  [CUnlink 4 "f" 7; CMknod 4 "g" 33188 0 me 7; CWrite 5 [(0%nat, 1%nat)] 10 false 7; CSetattr 5 (Req (Some 0%N) None None None None None) None 0 7;
    CSetxattr 4 "a" "b" 7; CRename 4 "f" ROOT "f" false 7; CRmdir ROOT "d" 7; CRead 5 false 8; CLookup 4 "f"].
Example locked_tree_reachable : reachable 100 true (run 100 two_locked s0).1 (run 100 two_locked s0).2.
Proof. apply (run_reachable 100 true two_locked [] s0 (reach_init _ _ _ _ _)). cbn [allowed_all two_locked two app]. allow; done. Qed.
Example locked_tree : let s := (run 100 two_locked s0).2 in is_locked_in s 4 /\ is_locked_in s 5 /\ entry s 4 "f" = Some 5%nat /\
  (fun x => x.2) <$> (run 100 attempts s).1 =
  [Err EPERM; Err EPERM; Err EPERM; Err EPERM; Err EPERM; Err EPERM; Err ENOTEMPTY; Done; Entry 5 (Attr 33188 1000 1000 0 0 6 6 6 1 true)].
Proof. vm_compute. repeat split; by eexists. Qed.
(** Fail-safe mode after a damaged block. *)
Example failsafe_example : let s := (run 100 (two ++ [CRead 5 true 7]) s0).2 in failsafe s = true /\
  (fun x => x.2) <$> (run 100 [CUnlink 4 "f" 8; CCreate 4 "g" 33188 true false me 8; COpen 5 true false 8; COpen 5 false false 8; CRename 4 "f" 4 "g" true 8; CRead 5 false 9] s).1 =
  [Err EPERM; Err EPERM; Err EPERM; Done; Err ENOTSUP; Done].
Proof. vm_compute. done. Qed.

Print Assumptions lookup_returns_last_binding.
Print Assumptions other_names_undisturbed.
Print Assumptions link_count_exact.
Print Assumptions unlinked_inodes_purged.
Print Assumptions name_count_exact.
Print Assumptions getxattr_returns_last_value.
Print Assumptions listxattr_exact.
Print Assumptions new_inodes_have_no_xattrs.
Print Assumptions referenced_inodes_exist.
Print Assumptions held_references_can_be_dropped.
Print Assumptions lookup_counts_exact.
Print Assumptions entries_reachable.
Print Assumptions removed_is_empty.
Print Assumptions locked_inode_intact.
Print Assumptions locked_directory_persists.
Print Assumptions rejected_call_changes_nothing.
Print Assumptions failsafe_rejects_modifications.
Print Assumptions failsafe_is_readonly.
Print Assumptions failsafe_forget.
Print Assumptions requests_do_not_crash.
