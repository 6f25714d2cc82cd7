(** A new file system is empty (C54). The database is that of FsModel.mkfs (mkfs.py 63-113, init_tables). *)
From stdpp Require Import prelude gmap strings.
From Verif Require Import FsModel FsSpec FsInv FsHist.
Local Open Scope Z_scope.

(** The only name is lost+found in the root directory: an empty directory only its owner can enter. There is no file content, no
    extended attribute, no symbolic link and no stored object, and the database satisfies all invariants fsck.s3ql checks. *)
Theorem fresh_empty max exact u g now : let s := mkfs u g now in
  (forall p n i, entry s p n = Some i <-> p = ROOT /\ n = "lost+found"%string /\ i = 3%nat) /\
  (forall n, entry s 3%nat n = None) /\
  (exists a, inodes s !! 3%nat = Some a /\ mode a = 16832%N /\ uid a = u /\ gid a = g /\ locked a = false) /\
  blocks s = ∅ /\ objects s = ∅ /\ xattrs s = ∅ /\ symlinks s = ∅ /\ consistent max exact s.
Proof.
  split_and!; try done; [| |by eexists|apply mkfs_consistent].
  - intros p n i. rewrite entry_mkfs. unfold bind. case_decide as D.
    + injection D as -> ->. naive_solver.
    + split; [done|]. intros (-> & -> & ->). done.
  - intros n. rewrite entry_mkfs. unfold bind. case_decide as D; [by injection D|done].
Qed.
Example fresh_root : entry (mkfs 1000 1000 7) ROOT "lost+found" = Some 3%nat /\ entry (mkfs 1000 1000 7) ROOT "file" = None.
Proof. split; by vm_compute. Qed.
Print Assumptions fresh_empty.
