(** Specification of copy_tree: what a copy of a directory tree is. *)
From stdpp Require Import prelude gmap strings.
From Coq Require Import ZArith String.
From Verif Require Import FsModel FsSpec.
Local Close Scope string_scope.
Local Open Scope Z_scope.

(** Everything in directory [d] or in a directory below it *)
Definition inside (s : fs) (d i : nat) : Prop := exists p n, below s d p /\ entry s p n = Some i.
Definition same_attrs (a b : attr) : Prop :=
  mode b = mode a /\ uid b = uid a /\ gid b = gid a /\ size b = size a /\ rdev b = rdev a /\ atime b = atime a /\ mtime b = mtime a /\ ctime b = ctime a.
Definition unchanged_inode (s s' : fs) (i : nat) : Prop :=
  (forall n, xattr s' i n = xattr s i n) /\ symlinks s' !! i = symlinks s !! i /\ (forall b, blocks s' !! (i, b) = blocks s !! (i, b)).
(** Between [s] and [s'] the contents of directory [src] have been copied into directory [tgt]; [org] maps every new inode to the one it is a copy of. *)
Record copied (s s' : fs) (src tgt : nat) (org : gmap nat nat) : Prop := {
  (* there is exactly one copy of everything inside the source, and nothing else is new *)
  p_fresh : forall j i, org !! j = Some i -> inodes s !! j = None /\ inside s src i;
  p_all : forall i, inside s src i -> exists j, org !! j = Some i;
  p_once : forall j j' i, org !! j = Some i -> org !! j' = Some i -> j = j';
  (* a copy has the attributes, extended attributes, symlink target and blocks of the original, but is not locked *)
  p_attrs : forall j i, org !! j = Some i -> exists a b, inodes s' !! i = Some a /\ inodes s' !! j = Some b /\ same_attrs a b /\ locked b = false;
  p_data : forall j i, org !! j = Some i -> (forall n, xattr s' j n = xattr s i n) /\ symlinks s' !! j = symlinks s !! i /\ forall b, blocks s' !! (j, b) = blocks s !! (i, b);
  (* and, if it is a directory, contains the copies of what is in the original *)
  p_entries : forall j i n, org !! j = Some i -> match entry s i n with None => entry s' j n = None | Some i' => exists j', entry s' j n = Some j' /\ org !! j' = Some i' end;
  (* the target contains in addition the copies of what is in the source, and has taken over its owner, permissions and times *)
  p_target : forall n, match entry s src n with None => entry s' tgt n = entry s tgt n | Some i' => exists j', entry s' tgt n = Some j' /\ org !! j' = Some i' end;
  p_target_attrs : forall a b, inodes s !! src = Some a -> inodes s !! tgt = Some b -> exists b', inodes s' !! tgt = Some b' /\
    mode b' = mode a /\ uid b' = uid a /\ gid b' = gid a /\ atime b' = atime a /\ mtime b' = mtime a /\ ctime b' = ctime a /\
    size b' = size b /\ rdev b' = rdev b /\ refcount b' = refcount b /\ locked b' = locked b;
  (* everything else is as before *)
  p_others : forall x, org !! x = None -> unchanged_inode s s' x /\ (x <> tgt -> inodes s' !! x = inodes s !! x /\ forall n, entry s' x n = entry s x n);
  p_rest : opens s' = opens s /\ failsafe s' = failsafe s
}.
