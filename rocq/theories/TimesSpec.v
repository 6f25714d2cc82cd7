(** What time stamps mean, independently of the code: which inodes a request changes (POSIX: "shall mark for update"), and when an inode counts as unchanged. *)
From stdpp Require Import prelude gmap.
From Coq Require Import NArith ZArith.
From Verif Require Import TimesModel.
Local Open Scope N_scope.

(** The same attributes (except for the time of last access), entries, bytes, extended attributes and target *)
Definition seen (a : attrs) := (mode a, uid a, gid a, rdev a, refs a, size a, mtime a, ctime a, locked a).
Definition same (i : N) (s s' : state) : Prop :=
  (seen <$> inodes s !! i) = (seen <$> inodes s' !! i) /\ (forall n, contents s !! (i, n) = contents s' !! (i, n)) /\ (forall o, data s !! (i, o) = data s' !! (i, o)) /\
  (forall n, xattrs s !! (i, n) = xattrs s' !! (i, n)) /\ targets s !! i = targets s' !! i.
(** The same contents: size and bytes of a file, entries of a directory, target of a link *)
Definition same_contents (i : N) (s s' : state) : Prop :=
  (size <$> inodes s !! i) = (size <$> inodes s' !! i) /\ (forall n, contents s !! (i, n) = contents s' !! (i, n)) /\ (forall o, data s !! (i, o) = data s' !! (i, o)) /\ targets s !! i = targets s' !! i.

(** The inodes whose status a request changes; [true]: its contents too *)
Definition opening (i : N) (trunc : bool) (s : state) : list (N * bool) :=
  match inodes s !! i with Some a => if trunc && (N.land (mode a) 0xf000 =? 0x8000) then [(i, true)] else [] | None => [] end.
Definition entry (p n : N) (s : state) : list (N * bool) := match contents s !! (p, n) with Some i => [(i, false)] | None => [] end.
Definition marks (o : op) (s : state) : list (N * bool) :=
  match o with
  | Lookup _ _ | Getattr _ | Forget _ _ | Fsync _ | Readlink _ | Readdir _ | Read _ _ _ => []
  | Unlink p n | Rmdir p n => (p, true) :: entry p n s
  | Mknod p _ _ _ _ _ | Symlink p _ _ _ _ => [(p, true)]
  | Rename p n p' n' _ => (p, true) :: (p', true) :: entry p' n' s
  | Link i p _ => [(p, true); (i, false)]
  | Setxattr i _ _ | Removexattr i _ | Setattr i _ => [(i, false)]
  | Open i _ trunc => opening i trunc s
  | Create p n _ _ _ _ trunc => match contents s !! (p, n) with Some i => opening i trunc s | None => [(p, true)] end
  | Write i _ _ => [(i, true)]
  end.

(** Requests that are exempt: a write that fails (possibly after a part of it), and times that cannot be stored *)
Definition exempt (o : op) (r : result) : Prop := match o, r with Write _ _ _, Err EIO => True | Setattr _ _, Err EINVAL => True | _, _ => False end.

(** Histories: the time of each request, the blocks that cannot be retrieved then, and the request *)
Definition event : Type := Z * (N -> bool) * op.
Fixpoint run (B : N) (l : list event) (s : state) : state := match l with [] => s | (t, bad, o) :: l => run B l (step B t bad o s).2 end.
Fixpoint during (B : N) (P : event -> result -> Prop) (l : list event) (s : state) : Prop :=
  match l with [] => True | (t, bad, o) :: l => P (t, bad, o) (step B t bad o s).1 /\ during B P l (step B t bad o s).2 end.
(** Inode numbers are never used again *)
Definition wf (s : state) : Prop := forall i, is_Some (inodes s !! i) -> i < next s.
