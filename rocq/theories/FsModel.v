(** Model of the name space operations of src/s3ql/fs.py (class Operations).

    State: the tables names, contents, inodes, ext_attributes, symlink_targets, inode_blocks and objects
    (database.py 655-862), Operations.open_inodes and Operations.failsafe.

    Simplifications:
    - [inodes] is the table as seen through the InodeCache (see InodeCacheModel.v).
    - A call runs without interruption.  The only points at which the calls below wait are the removal of
      blocks at the end of [forget] and [_remove] (when the inode is in no directory and not open) and the
      waits of the tree operations, which are modelled as sequences of steps (FsTreeModel.v).
    - [blocks] and [objects] describe the file contents after all cached blocks have been written (see
      BlockCacheModel.v): the object of a block stands for the content of the block.
    - UNIQUE constraints that are violated, missing rows and KeyErrors are [Crash]: the exception is not
      caught and terminates the file system.
    - Foreign keys are not enforced (database.py 213).
    - Logging, getuid/getgid for the control file, and statistics are left out. *)
From stdpp Require Import prelude gmap strings sorting.
From Coq Require Import ZArith String.
Local Close Scope string_scope.
Local Open Scope Z_scope.

Notation ino := nat (only parsing).
Notation nid := nat (only parsing).
Notation name := string (only parsing).

(** __init__.py: ROOT_INODE, CTRL_INODE, CTRL_NAME *)
Definition ROOT : nat := 1%nat.
Definition CTRL : nat := 2%nat.
Definition CTRL_NAME : string := ".__s3ql__ctrl__"%string.

(** The columns of the table inodes (database.py 742-756). *)
Record attr := Attr {
  mode : N; uid : Z; gid : Z; size : Z; rdev : Z; atime : Z; mtime : Z; ctime : Z; refcount : Z; locked : bool }.
Definition set_refcount (f : Z -> Z) (a : attr) : attr :=
  Attr (mode a) (uid a) (gid a) (size a) (rdev a) (atime a) (mtime a) (ctime a) (f (refcount a)) (locked a).
Definition set_ctime (t : Z) (a : attr) : attr :=
  Attr (mode a) (uid a) (gid a) (size a) (rdev a) (atime a) (mtime a) t (refcount a) (locked a).
Definition set_mctime (t : Z) (a : attr) : attr :=
  Attr (mode a) (uid a) (gid a) (size a) (rdev a) (atime a) t t (refcount a) (locked a).
Definition set_atime (t : Z) (a : attr) : attr :=
  Attr (mode a) (uid a) (gid a) (size a) (rdev a) t (mtime a) (ctime a) (refcount a) (locked a).
Definition set_size (z : Z) (a : attr) : attr :=
  Attr (mode a) (uid a) (gid a) z (rdev a) (atime a) (mtime a) (ctime a) (refcount a) (locked a).
Definition set_locked (a : attr) : attr :=
  Attr (mode a) (uid a) (gid a) (size a) (rdev a) (atime a) (mtime a) (ctime a) (refcount a) true.

(** stat.S_ISDIR, S_ISREG, S_ISFIFO, S_ISBLK, S_ISGID *)
Definition S_IFMT (m : N) : N := N.land m 61440.
Definition S_ISDIR (m : N) : bool := N.eqb (S_IFMT m) 16384.
Definition S_ISREG (m : N) : bool := N.eqb (S_IFMT m) 32768.
Definition S_ISFIFO (m : N) : bool := N.eqb (S_IFMT m) 4096.
Definition S_ISBLK (m : N) : bool := N.eqb (S_IFMT m) 24576.
Definition S_ISGID : N := 1024.
Definition LINKMODE : N := 41471.   (* S_IFLNK and all permissions, 738-749 *)

(** names: name -> (id, refcount) (name is UNIQUE); contents: (parent_inode, name_id) -> inode (UNIQUE);
    ext_attributes: (inode, name_id) -> value; inode_blocks: (inode, blockno) -> obj_id; objects: id -> refcount.
    [seq]: the next value of the AUTOINCREMENT column inodes.id. *)
Record fs := Fs {
  names : gmap string (nat * Z); contents : gmap (nat * nat) nat; inodes : gmap nat attr;
  xattrs : gmap (nat * nat) string; symlinks : gmap nat string; blocks : gmap (nat * nat) nat; objects : gmap nat Z;
  opens : gmap nat Z; failsafe : bool; seq : nat }.
Definition set_names (x : gmap string (nat * Z)) (s : fs) := Fs x (contents s) (inodes s) (xattrs s) (symlinks s) (blocks s) (objects s) (opens s) (failsafe s) (seq s).
Definition set_contents (x : gmap (nat * nat) nat) (s : fs) := Fs (names s) x (inodes s) (xattrs s) (symlinks s) (blocks s) (objects s) (opens s) (failsafe s) (seq s).
Definition set_inodes (x : gmap nat attr) (s : fs) := Fs (names s) (contents s) x (xattrs s) (symlinks s) (blocks s) (objects s) (opens s) (failsafe s) (seq s).
Definition set_xattrs (x : gmap (nat * nat) string) (s : fs) := Fs (names s) (contents s) (inodes s) x (symlinks s) (blocks s) (objects s) (opens s) (failsafe s) (seq s).
Definition set_symlinks (x : gmap nat string) (s : fs) := Fs (names s) (contents s) (inodes s) (xattrs s) x (blocks s) (objects s) (opens s) (failsafe s) (seq s).
Definition set_blocks (x : gmap (nat * nat) nat) (y : gmap nat Z) (s : fs) := Fs (names s) (contents s) (inodes s) (xattrs s) (symlinks s) x y (opens s) (failsafe s) (seq s).
Definition set_opens (x : gmap nat Z) (s : fs) := Fs (names s) (contents s) (inodes s) (xattrs s) (symlinks s) (blocks s) (objects s) x (failsafe s) (seq s).
Definition set_failsafe (x : bool) (s : fs) := Fs (names s) (contents s) (inodes s) (xattrs s) (symlinks s) (blocks s) (objects s) (opens s) x (seq s).
Definition set_seq (x : nat) (s : fs) := Fs (names s) (contents s) (inodes s) (xattrs s) (symlinks s) (blocks s) (objects s) (opens s) (failsafe s) x.

Inductive errno := ENOENT | EPERM | EACCES | EINVAL | EISDIR | ENOTDIR | ENOTEMPTY | ENOATTR | EOPNOTSUPP | ENOTSUP | EIO.
(** What a call returns: [Entry i a] are the attributes of inode [i] for a directory entry (the kernel then
    holds one more reference to [i]), [Attrs i a] only the attributes. *)
Inductive res :=
  | Done | Entry (i : nat) (a : attr) | Attrs (i : nat) (a : attr) | Value (v : string) | Names (l : list string)
  | Listing (l : list (string * nat * Z)) | Err (e : errno) | Crash.

(** * Queries and updates *)
(** SELECT inode FROM contents_v WHERE name=? AND parent_inode=? *)
Definition entry (s : fs) (p : nat) (n : string) : option nat :=
  match names s !! n with Some (k, _) => contents s !! (p, k) | None => None end.
(** SELECT 1 FROM contents WHERE parent_inode=? *)
Definition has_children (s : fs) (i : nat) : bool := bool_decide (filter (fun kv => kv.1.1 = i) (contents s) <> ∅).
Definition upd_inode (i : nat) (f : attr -> attr) (s : fs) : fs := set_inodes (alter f i (inodes s)) s.
(** self.open_inodes[id] += 1 (a defaultdict) *)
Definition incr_open (i : nat) (s : fs) : fs := set_opens (<[i := default 0 (opens s !! i) + 1]> (opens s)) s.
(** names.id is an INTEGER PRIMARY KEY without AUTOINCREMENT: one more than the largest id. *)
Definition max_id (m : gmap string (nat * Z)) : nat := map_fold (fun _ '(k, _) x => Nat.max k x) 0%nat m.

(** _add_name 806-818 *)
Definition add_name (n : string) (s : fs) : fs * nat :=
  match names s !! n with
  | None => let k := S (max_id (names s)) in (set_names (<[n := (k, 1)]> (names s)) s, k)
  | Some (k, rc) => (set_names (<[n := (k, rc + 1)]> (names s)) s, k)
  end.
(** _del_name 820-836; [None]: NoSuchRowError *)
Definition del_name (n : string) (s : fs) : option (fs * nat) :=
  match names s !! n with
  | None => None
  | Some (k, rc) => Some (set_names (if decide (1 < rc) then <[n := (k, rc - 1)]> (names s) else delete n (names s)) s, k)
  end.

(** BlockCache.remove: the blocks of inode [i] from [a] up to (not including) [b] are deleted, an object is
    deleted with its last reference. *)
Definition count_obj (m : gmap (nat * nat) nat) (o : nat) : Z := Z.of_nat (base.size (filter (fun kv => kv.2 = o) m)).
Definition remove_blocks (i : nat) (a b : Z) (s : fs) : fs :=
  let gone := filter (fun kv => kv.1.1 = i /\ a <= Z.of_nat kv.1.2 < b) (blocks s) in
  set_blocks (blocks s ∖ gone)
    (omap (fun x => x) (map_imap (fun o rc => Some (let rc' := rc - count_obj gone o in if decide (rc' <= 0 /\ 0 < count_obj gone o) then None else Some rc')) (objects s))) s.

Section ops.
Context (max_obj_size : Z).
(** int(math.ceil(size / self.max_obj_size)) *)
Definition ceil_blocks (z : Z) : Z := (z + max_obj_size - 1) / max_obj_size.

(** _purge_inode 671-693 *)
Definition purge_inode (i : nat) (z : Z) (s : fs) : fs :=
  let s := remove_blocks i 0 (ceil_blocks z) s in
  let used k := bool_decide (is_Some (xattrs s !! (i, k))) in
  let m := (fun '(k, rc) => (k, if used k then rc - 1 else rc)) <$> names s in
  let m := filter (fun kv => ~ (kv.2.2 = 0 /\ used kv.2.1 = true)) m in
  let s := set_names m s in
  let s := set_xattrs (filter (fun kv => kv.1.1 <> i) (xattrs s)) s in
  let s := set_symlinks (delete i (symlinks s)) s in
  set_inodes (delete i (inodes s)) s.

(** One iteration of the loop in forget 1384-1396; the second component is [Crash] if an exception is raised. *)
Definition forget1 (i : nat) (nlookup : Z) (s : fs) : fs * res :=
  let c := default 0 (opens s !! i) - nlookup in
  if decide (c = 0) then
    let s := set_opens (delete i (opens s)) s in
    match inodes s !! i with
    | None => (s, Crash)
    | Some a => if decide (refcount a = 0) then (purge_inode i (size a) s, Done) else (s, Done)
    end
  else (set_opens (<[i := c]> (opens s)) s, Done).
(** forget 1381-1396 *)
Fixpoint forget (l : list (nat * Z)) (s : fs) : fs * res :=
  match l with
  | [] => (s, Done)
  | (i, n) :: l => match forget1 i n s with (s, Done) => forget l s | r => r end
  end.

(** _lookup 162-190.  The names are byte strings, the comparisons with the strings '.' and '..' (174, 177)
    are never true.  [inr i] if the inode is found. *)
Definition lookup_ (p : nat) (n : string) (s : fs) : fs * (res + nat) :=
  match (if decide (n = CTRL_NAME) then Some CTRL else entry s p n) with
  | None => (s, inl (Err ENOENT))
  | Some i => match inodes s !! i with None => (s, inl Crash) | Some _ => (incr_open i s, inr i) end
  end.
(** lookup 159-160 *)
Definition lookup (p : nat) (n : string) (s : fs) : fs * res :=
  match lookup_ p n s with
  | (s, inl r) => (s, r)
  | (s, inr i) => (s, match inodes s !! i with Some a => Entry i a | None => Crash end)
  end.
(** getattr 192-202 *)
Definition getattr (i : nat) (s : fs) : fs * res :=
  (s, match inodes s !! i with Some a => Attrs i a | None => Crash end).
(** 207-208, 228-229 *)
Definition touch (i : nat) (now : Z) (s : fs) : fs :=
  upd_inode i (fun a => if decide (atime a < ctime a \/ atime a < mtime a) then set_atime now a else a) s.
(** readlink 204-215 *)
Definition readlink (i : nat) (now : Z) (s : fs) : fs * res :=
  match inodes s !! i with
  | None => (s, Crash)
  | Some _ => (touch i now s, match symlinks s !! i with Some t => Value t | None => Err EINVAL end)
  end.

(** getxattr 247-270 (without the control file) *)
Definition is_acl (n : string) : bool :=
  bool_decide (n = "system.posix_acl_access"%string \/ n = "system.posix_acl_default"%string).
Definition xattr (s : fs) (i : nat) (n : string) : option string :=
  match names s !! n with Some (k, _) => xattrs s !! (i, k) | None => None end.
Definition getxattr (i : nat) (n : string) (s : fs) : fs * res :=
  (s, if is_acl n then Err EOPNOTSUPP else match xattr s i n with Some v => Value v | None => Err ENOATTR end).
(** listxattr 272-279: SELECT name FROM ext_attributes_v WHERE inode=? (in any order; the model uses that of the names) *)
Definition listxattr (i : nat) (s : fs) : fs * res :=
  (s, Names (fst <$> List.filter (fun x => bool_decide (is_Some (xattrs s !! (i, x.2.1)))) (map_to_list (names s)))).
(** setxattr 338-358 (for inodes other than the control file) *)
Definition setxattr (i : nat) (n v : string) (now : Z) (s : fs) : fs * res :=
  if is_acl n then (s, Err EOPNOTSUPP)
  else if failsafe s then (s, Err EPERM)
  else match inodes s !! i with
  | None => (s, Crash)
  | Some a =>
    if locked a then (s, Err EPERM)
    else let '(s, k) := add_name n s in
         (upd_inode i (set_ctime now) (set_xattrs (<[(i, k) := v]> (xattrs s)) s), Done)
  end.
(** removexattr 360-377 *)
Definition removexattr (i : nat) (n : string) (now : Z) (s : fs) : fs * res :=
  if failsafe s then (s, Err EPERM)
  else match inodes s !! i with
  | None => (s, Crash)
  | Some a =>
    if locked a then (s, Err EPERM)
    else match del_name n s with
    | None => (s, Err ENOATTR)
    | Some (s, k) =>
      match xattrs s !! (i, k) with
      | None => (s, Err ENOATTR)
      | Some _ => (upd_inode i (set_ctime now) (set_xattrs (delete (i, k) (xattrs s)) s), Done)
      end
    end
  end.

(** _remove 695-728 *)
Definition remove (p : nat) (n : string) (i : nat) (force : bool) (now : Z) (s : fs) : fs * res :=
  if has_children s i then (s, Err ENOTEMPTY)
  else match inodes s !! p with
  | None => (s, Crash)
  | Some ap =>
    if locked ap && negb force then (s, Err EPERM)
    else match del_name n s with
    | None => (s, Crash)
    | Some (s, k) =>
      let s := set_contents (delete (p, k) (contents s)) s in
      match inodes s !! i with
      | None => (s, Crash)
      | Some a =>
        let s := upd_inode i (fun a => set_ctime now (set_refcount Z.pred a)) s in
        let s := upd_inode p (set_mctime now) s in
        if decide (refcount a - 1 = 0 /\ opens s !! i = None) then (purge_inode i (size a) s, Done) else (s, Done)
      end
    end
  end.
Definition mode_of (s : fs) (i : nat) : N := match inodes s !! i with Some a => mode a | None => 0 end.
Definition is_locked (s : fs) (i : nat) : bool := match inodes s !! i with Some a => locked a | None => false end.
(** unlink 640-652 *)
Definition unlink (p : nat) (n : string) (now : Z) (s : fs) : fs * res :=
  if failsafe s then (s, Err EPERM)
  else match lookup_ p n s with
  | (s, inl r) => (s, r)
  | (s, inr i) =>
    if S_ISDIR (mode_of s i) then (s, Err EISDIR)
    else match remove p n i false now s with
    | (s, Done) => forget1 i 1 s
    | r => r
    end
  end.
(** rmdir 654-669 *)
Definition rmdir (p : nat) (n : string) (now : Z) (s : fs) : fs * res :=
  if failsafe s then (s, Err EPERM)
  else match lookup_ p n s with
  | (s, inl r) => (s, r)
  | (s, inr i) =>
    match inodes s !! p with
    | None => (s, Crash)
    | Some ap =>
      if locked ap then (s, Err EPERM)
      else if negb (S_ISDIR (mode_of s i)) then (s, Err ENOTDIR)
      else match remove p n i false now s with
      | (s, Done) => forget1 i 1 s
      | r => r
      end
    end
  end.

(** The user and group of the request (ctx). *)
Record ctx := Ctx { c_uid : Z; c_gid : Z }.
(** _create 1179-1229; [inr i]: the new inode *)
Definition create_ (p : nat) (n : string) (m : N) (c : ctx) (rd sz : Z) (now : Z) (s : fs) : fs * (res + nat) :=
  if decide (n = CTRL_NAME) then (s, inl (Err EACCES))
  else match inodes s !! p with
  | None => (s, inl Crash)
  | Some ap =>
    if locked ap then (s, inl (Err EPERM))
    else if decide (refcount ap = 0) then (s, inl (Err EINVAL))
    else
      let s := upd_inode p (set_mctime now) s in
      let sgid := negb (N.eqb (N.land (mode ap) S_ISGID) 0) in
      let g := if sgid then gid ap else c_gid c in
      let m := if sgid && S_ISDIR m then N.lor m S_ISGID else m in
      let i := seq s in
      let s := set_seq (S i) (set_inodes (<[i := Attr m (c_uid c) g sz rd now now now 1 false]> (inodes s)) s) in
      let '(s, k) := add_name n s in
      match contents s !! (p, k) with
      | Some _ => (s, inl Crash)                       (* UNIQUE (parent_inode, name_id) *)
      | None => (set_contents (<[(p, k) := i]> (contents s)) s, inr i)
      end
  end.
(** mknod 1017-1025, mkdir 1027-1035 *)
Definition mknod (p : nat) (n : string) (m : N) (rd : Z) (c : ctx) (now : Z) (s : fs) : fs * res :=
  if failsafe s then (s, Err EPERM)
  else match create_ p n m c rd 0 now s with
  | (s, inl r) => (s, r)
  | (s, inr i) => (incr_open i s, match inodes s !! i with Some a => Entry i a | None => Crash end)
  end.
(** symlink 730-761 *)
Definition symlink (p : nat) (n target : string) (c : ctx) (now : Z) (s : fs) : fs * res :=
  if failsafe s then (s, Err EPERM)
  else match create_ p n LINKMODE c 0 (Z.of_nat (String.length target)) now s with
  | (s, inl r) => (s, r)
  | (s, inr i) => (incr_open i (set_symlinks (<[i := target]> (symlinks s)) s), match inodes s !! i with Some a => Entry i a | None => Crash end)
  end.

(** _rename 838-855 *)
Definition rename_ (po : nat) (no : string) (pn : nat) (nn : string) (now : Z) (s : fs) : fs * res :=
  let '(s, kn) := add_name nn s in
  match del_name no s with
  | None => (s, Crash)
  | Some (s, ko) =>
    match contents s !! (po, ko) with
    | None => (upd_inode pn (set_mctime now) (upd_inode po (set_mctime now) s), Done)
    | Some i =>
      match delete (po, ko) (contents s) !! (pn, kn) with
      | Some _ => (s, Crash)
      | None =>
        let s := set_contents (<[(pn, kn) := i]> (delete (po, ko) (contents s))) s in
        (upd_inode pn (set_mctime now) (upd_inode po (set_mctime now) s), Done)
      end
    end
  end.
(** _replace 857-901 *)
Definition replace (po : nat) (no : string) (pn : nat) (nn : string) (io iw : nat) (now : Z) (s : fs) : fs * res :=
  if has_children s iw then (s, Err EINVAL)
  else match names s !! nn with
  | None => (s, Crash)
  | Some (kn, _) =>
    let s := set_contents (alter (fun _ => io) (pn, kn) (contents s)) s in
    match del_name no s with
    | None => (s, Crash)
    | Some (s, ko) =>
      let s := set_contents (delete (po, ko) (contents s)) s in
      match inodes s !! iw with
      | None => (s, Crash)
      | Some a =>
        let s := upd_inode iw (fun a => set_ctime now (set_refcount Z.pred a)) s in
        let s := upd_inode pn (set_mctime now) (upd_inode po (set_mctime now) s) in
        if decide (refcount a - 1 = 0 /\ opens s !! iw = None) then (purge_inode iw (size a) s, Done) else (s, Done)
      end
    end
  end.
(** rename 763-804; [fl]: flags <> 0 *)
Definition rename (po : nat) (no : string) (pn : nat) (nn : string) (fl : bool) (now : Z) (s : fs) : fs * res :=
  if fl then (s, Err ENOTSUP)
  else if decide (nn = CTRL_NAME \/ no = CTRL_NAME) then (s, Err EACCES)
  else if failsafe s then (s, Err EPERM)
  else match inodes s !! po, inodes s !! pn with
  | Some ao, Some an =>
    if locked ao || locked an then (s, Err EPERM)
    else match lookup_ po no s with
    | (s, inl r) => (s, r)
    | (s, inr io) =>
      match lookup_ pn nn s with
      | (s, inr iw) =>
        match replace po no pn nn io iw now s with
        | (s, Done) => forget [(io, 1); (iw, 1)] s
        | r => r
        end
      | (s, inl (Err ENOENT)) =>
        match rename_ po no pn nn now s with
        | (s, Done) => forget [(io, 1)] s
        | r => r
        end
      | (s, inl r) => (s, r)
      end
    end
  | _, _ => (s, Crash)
  end.

(** link 903-936 *)
Definition link (i p : nat) (n : string) (now : Z) (s : fs) : fs * res :=
  if decide (n = CTRL_NAME \/ i = CTRL) then (s, Err EACCES)
  else match inodes s !! p with
  | None => (s, Crash)
  | Some ap =>
    if decide (refcount ap = 0) then (s, Err EINVAL)
    else if failsafe s || locked ap then (s, Err EPERM)
    else
      let s := upd_inode p (set_mctime now) s in
      let '(s, k) := add_name n s in
      match contents s !! (p, k) with
      | Some _ => (s, Crash)
      | None =>
        let s := set_contents (<[(p, k) := i]> (contents s)) s in
        match inodes s !! i with
        | None => (s, Crash)
        | Some _ =>
          let s := incr_open i (upd_inode i (fun a => set_ctime now (set_refcount Z.succ a)) s) in
          (s, match inodes s !! i with Some a => Entry i a | None => Crash end)
        end
      end
  end.

(** The fields of a setattr request. *)
Record setattr_req := Req { r_mode : option N; r_uid : option Z; r_gid : option Z; r_atime : option Z; r_mtime : option Z; r_size : option Z }.
Definition in_range (t : Z) : bool := bool_decide (- 2 ^ 63 < t < 2 ^ 63).   (* bit_length() <= 63 *)
(** setattr 938-1015.  [bad]: the block to be truncated cannot be read (997-1013; [Some false]: the object is
    missing, NoSuchObject is not caught; [Some true]: it is corrupted).  [newobj]: the object that holds the
    truncated last block afterwards (its reference is counted like in [write]). *)
Definition put_block (i : nat) (b : nat) (o : nat) (s : fs) : fs :=
  let s := remove_blocks i (Z.of_nat b) (Z.of_nat b + 1) s in
  set_blocks (<[(i, b) := o]> (blocks s)) (<[o := default 0 (objects s !! o) + 1]> (objects s)) s.
Definition setattr (i : nat) (r : setattr_req) (bad : option bool) (newobj : nat) (now : Z) (s : fs) : fs * res :=
  match inodes s !! i with
  | None => (s, Crash)
  | Some a =>
    if failsafe s || locked a then (s, Err EPERM)
    else
      let a := Attr (default (mode a) (r_mode r)) (default (uid a) (r_uid r)) (default (gid a) (r_gid r)) (size a) (rdev a)
                    (atime a) (mtime a) (ctime a) (refcount a) (locked a) in
      let s0 a := upd_inode i (fun _ => a) s in
      match match r_atime r with None => Some a | Some t => if in_range t then Some (set_atime t a) else None end with
      | None => (s0 a, Err EINVAL)
      | Some a =>
        match match r_mtime r with None => Some a
              | Some t => if in_range t then Some (Attr (mode a) (uid a) (gid a) (size a) (rdev a) (atime a) t (ctime a) (refcount a) (locked a)) else None end with
        | None => (s0 a, Err EINVAL)
        | Some a =>
          let a := set_ctime now a in
          match r_size r with
          | None => (s0 a, Attrs i a)
          | Some len =>
            let last := len / max_obj_size in
            let cut := len mod max_obj_size in
            let total := ceil_blocks (size a) in
            let a := set_size len a in
            if decide (cut = 0) then (remove_blocks i last total (s0 a), Attrs i a)
            else
              let s := remove_blocks i (last + 1) total (s0 a) in
              match bad with
              | Some false => (s, Crash)
              | Some true => (set_failsafe true s, Err EIO)
              | None => (put_block i (Z.to_nat last) newobj s, Attrs i a)
              end
          end
        end
      end
  end.

(** open 1115-1140; [w]: O_RDWR or O_WRONLY, [t]: O_TRUNC *)
Definition open_ (i : nat) (w t : bool) (now : Z) (s : fs) : fs * res :=
  if w && failsafe s then (s, Err EPERM)
  else match inodes s !! i with
  | None => if w || t then (s, Crash) else (s, Done)
  | Some a =>
    if w && locked a then (s, Err EPERM)
    else if t then
      if negb w then (s, Err EINVAL)
      else if S_ISREG (mode a) then
        match setattr i (Req None None None None (Some now) (Some 0)) None 0 now s with
        | (s, Attrs _ _) => (s, Done)
        | r => r
        end
      else if S_ISFIFO (mode a) || S_ISBLK (mode a) then (s, Done)
      else (s, Err EINVAL)
    else (s, Done)
  end.
(** create 1157-1177 *)
Definition create (p : nat) (n : string) (m : N) (w t : bool) (c : ctx) (now : Z) (s : fs) : fs * res :=
  if failsafe s then (s, Err EPERM)
  else
    let finish i s := (incr_open i s, match inodes s !! i with Some a => Entry i a | None => Crash end) in
    match entry s p n with
    | None => match create_ p n m c 0 0 now s with (s, inl r) => (s, r) | (s, inr i) => finish i s end
    | Some i => match open_ i w t now s with (s, Done) => finish i s | r => r end
    end.

(** read 1231-1259: [bad]: a block cannot be read *)
Definition read (i : nat) (bad : bool) (now : Z) (s : fs) : fs * res :=
  match inodes s !! i with
  | None => (s, Crash)
  | Some _ => if bad then (set_failsafe true s, Err EIO) else (touch i now s, Done)
  end.
(** write 1261-1293: the blocks listed in [l] are written (see FileModel.v for their numbers), block [b] then is
    stored in object [o]; [bad]: after that, a block cannot be read. *)
Definition write (i : nat) (l : list (nat * nat)) (minsize : Z) (bad : bool) (now : Z) (s : fs) : fs * res :=
  if failsafe s then (s, Err EPERM)
  else match inodes s !! i with
  | None => (s, Crash)
  | Some a =>
    if locked a then (s, Err EPERM)
    else
      let s := foldl (fun s '(b, o) => put_block i b o s) s l in
      if bad then (set_failsafe true s, Err EIO)
      else (upd_inode i (fun a => set_mctime now (set_size (Z.max (size a) minsize) a)) s, Done)
  end.

(** readdir 220-245: [k] entries fit into the reply.  [rows]: the rows in the order of name_id. *)
Definition row_le (x y : nat * string * nat) : Prop := (x.1.1 <= y.1.1)%nat.
Global Instance row_le_dec x y : Decision (row_le x y).
Proof. unfold row_le. apply _. Defined.
Definition rows (s : fs) (p : nat) (off : Z) : list (nat * string * nat) :=
  merge_sort row_le (omap (fun x : string * (nat * Z) => let '(n, (k, _)) := x in
    match contents s !! (p, k) with Some i => if decide (off < Z.of_nat k) then Some (k, n, i) else None | None => None end) (map_to_list (names s))).
Fixpoint reply (l : list (nat * string * nat)) (s : fs) : fs * res :=
  match l with
  | [] => (s, Listing [])
  | (k, n, i) :: l =>
    match inodes s !! i with
    | None => (s, Crash)
    | Some _ => match reply l (incr_open i s) with (s, Listing r) => (s, Listing ((n, i, Z.of_nat k + 3) :: r)) | r => r end
    end
  end.
Definition readdir (i : nat) (off : Z) (k : nat) (now : Z) (s : fs) : fs * res :=
  match inodes s !! i with
  | None => (s, Crash)
  | Some _ => reply (take k (rows s i ((if decide (off = 0) then -1 else off) - 3))) (touch i now s)
  end.

(** * Calls *)
Inductive call :=
  | CLookup (p : nat) (n : string) | CGetattr (i : nat) | CReadlink (i : nat) (now : Z)
  | CReaddir (i : nat) (off : Z) (k : nat) (now : Z)
  | CGetxattr (i : nat) (n : string) | CListxattr (i : nat)
  | CSetxattr (i : nat) (n v : string) (now : Z) | CRemovexattr (i : nat) (n : string) (now : Z)
  | CUnlink (p : nat) (n : string) (now : Z) | CRmdir (p : nat) (n : string) (now : Z)
  | CMknod (p : nat) (n : string) (m : N) (rd : Z) (c : ctx) (now : Z)
  | CSymlink (p : nat) (n target : string) (c : ctx) (now : Z)
  | CRename (po : nat) (no : string) (pn : nat) (nn : string) (fl : bool) (now : Z)
  | CLink (i p : nat) (n : string) (now : Z)
  | CSetattr (i : nat) (r : setattr_req) (bad : option bool) (newobj : nat) (now : Z)
  | COpen (i : nat) (w t : bool) (now : Z) | CCreate (p : nat) (n : string) (m : N) (w t : bool) (c : ctx) (now : Z)
  | CRead (i : nat) (bad : bool) (now : Z) | CWrite (i : nat) (l : list (nat * nat)) (minsize : Z) (bad : bool) (now : Z)
  | CForget (l : list (nat * Z))
  (* steps of lock_tree and remove_tree (see FsTreeModel.v), between which other calls may be handled *)
  | CLock (i : nat) | CTreeRemove (p : nat) (n : string) (i : nat) (now : Z).
(** self.inodes[id_].locked = True (388, 409) *)
Definition lock (i : nat) (s : fs) : fs * res :=
  match inodes s !! i with None => (s, Crash) | Some _ => (upd_inode i set_locked s, Done) end.
Definition exec (c : call) (s : fs) : fs * res :=
  match c with
  | CLookup p n => lookup p n s | CGetattr i => getattr i s | CReadlink i now => readlink i now s
  | CReaddir i off k now => readdir i off k now s
  | CGetxattr i n => getxattr i n s | CListxattr i => listxattr i s
  | CSetxattr i n v now => setxattr i n v now s | CRemovexattr i n now => removexattr i n now s
  | CUnlink p n now => unlink p n now s | CRmdir p n now => rmdir p n now s
  | CMknod p n m rd c now => mknod p n m rd c now s
  | CSymlink p n t c now => symlink p n t c now s
  | CRename po no pn nn fl now => rename po no pn nn fl now s
  | CLink i p n now => link i p n now s
  | CSetattr i r bad o now => setattr i r bad o now s
  | COpen i w t now => open_ i w t now s | CCreate p n m w t c now => create p n m w t c now s
  | CRead i bad now => read i bad now s | CWrite i l z bad now => write i l z bad now s
  | CForget l => forget l s
  | CLock i => lock i s | CTreeRemove p n i now => remove p n i true now s
  end.
End ops.

(** mkfs.py 63-113 (init_tables) and Operations.__init__ 147-148 (root is always open) *)
Definition mkfs (u g now : Z) : fs := Fs
  {[ "lost+found"%string := (1%nat, 1) ]} {[ (ROOT, 1%nat) := 3%nat ]}
  {[ ROOT := Attr 16877 u g 0 0 now now now 1 false; CTRL := Attr 33152 0 0 0 0 now now now 42 false;
     3%nat := Attr 16832 u g 0 0 now now now 1 false ]}
  ∅ ∅ ∅ ∅ {[ ROOT := 1 ]} false 4.
