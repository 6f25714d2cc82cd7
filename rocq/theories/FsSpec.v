(** Specification of the name space operations. *)
From stdpp Require Import prelude gmap strings.
From Coq Require Import ZArith String.
From Verif Require Import FsModel.
Local Close Scope string_scope.
Local Open Scope Z_scope.

(** The number of rows of a table that satisfy [P]. *)
Definition cnt `{Countable K} {A} (P : K * A -> Prop) `{!forall x, Decision (P x)} (m : gmap K A) : Z :=
  Z.of_nat (base.size (filter P m)).

(** * Consistency of the tables *)
(** Number of directory entries that point to inode [i]. *)
Definition links (s : fs) (i : nat) : Z := cnt (fun kv => kv.2 = i) (contents s).
(** Number of directory entries and extended attributes that use the name with id [k]. *)
Definition uses (s : fs) (k : nat) : Z := cnt (fun kv => kv.1.2 = k) (contents s) + cnt (fun kv => kv.1.2 = k) (xattrs s).
(** The root directory and the control file are in no directory; their counts never drop to zero. *)
Definition base_links (i : nat) : Z := if decide (i = ROOT) then 1 else if decide (i = CTRL) then 42 else 0.

(** Link counts are exact, for every inode. *)
Definition link_counts_exact (s : fs) : Prop := forall i a, inodes s !! i = Some a -> refcount a = links s i + base_links i.
(** Every entry is in an existing directory that has not been removed, and leads to an existing inode. *)
Definition entries_resolve (s : fs) : Prop := forall p k i, contents s !! (p, k) = Some i ->
  (exists n rc, names s !! n = Some (k, rc)) /\ (exists a, inodes s !! p = Some a /\ 0 < refcount a) /\ p <> CTRL /\
  i <> CTRL /\ is_Some (inodes s !! i).
(** An inode in no directory exists only while the kernel refers to it; its attributes, symlink target and
    blocks do not outlive it. *)
Definition no_leftovers (max_obj_size : Z) (s : fs) : Prop :=
  (forall i a, inodes s !! i = Some a -> refcount a = 0 -> is_Some (opens s !! i)) /\
  (forall i k v, xattrs s !! (i, k) = Some v -> is_Some (inodes s !! i) /\ exists n rc, names s !! n = Some (k, rc)) /\
  (forall i t, symlinks s !! i = Some t -> is_Some (inodes s !! i)) /\
  (forall i b o, blocks s !! (i, b) = Some o -> exists a, inodes s !! i = Some a /\ Z.of_nat b * max_obj_size < size a).
(** References to objects are counted. *)
Definition objects_counted (s : fs) : Prop :=
  (forall o rc, objects s !! o = Some rc -> rc = cnt (fun kv => kv.2 = o) (blocks s) /\ 0 < rc) /\
  (forall i b o, blocks s !! (i, b) = Some o -> is_Some (objects s !! o)).
(** Every name is stored once, its count is at least ([exact = false]) or exactly ([exact = true]) the number
    of its uses. *)
Definition names_counted (exact : bool) (s : fs) : Prop :=
  (forall n n' k rc rc', names s !! n = Some (k, rc) -> names s !! n' = Some (k, rc') -> n = n') /\
  (forall n k rc, names s !! n = Some (k, rc) -> (1 <= k)%nat /\ 0 < rc /\ uses s k <= rc /\ (exact = true -> rc = uses s k)).
Definition opens_ok (s : fs) : Prop := forall i c, opens s !! i = Some c -> 0 < c /\ is_Some (inodes s !! i).

Record consistent (max_obj_size : Z) (exact : bool) (s : fs) : Prop := {
  c_links : link_counts_exact s;
  c_entries : entries_resolve s;
  c_left : no_leftovers max_obj_size s;
  c_objects : objects_counted s;
  c_names : names_counted exact s;
  c_opens : opens_ok s;
  c_seq : forall i a, inodes s !! i = Some a -> (i < seq s)%nat;
  c_root : is_Some (inodes s !! ROOT) /\ is_Some (inodes s !! CTRL)
}.

(** * Which calls are considered *)
(** Guaranteed by the kernel: nothing is moved into, created or linked in the control file; nothing is moved
    into a removed directory or into itself, or to the name it already has; directories are not linked; references are only given up if they
    exist; sizes are not negative. Excluded
    because of defects (see the _refuted theorems): removing the control file, removing an attribute that does
    not exist but whose name is in use, and (for exact name counts) overwriting an attribute.  The arguments of
    [CWrite] describe blocks inside the written range; a failing write is considered only inside the file. *)
Definition parent_ok (s : fs) (p : nat) : Prop := p <> CTRL /\ forall a, inodes s !! p = Some a -> 0 < refcount a.
Inductive below (s : fs) (i : nat) : nat -> Prop :=
  | below_self : below s i i
  | below_entry p n j : below s i p -> entry s p n = Some j -> below s i j.
Fixpoint forget_ok (max_obj_size : Z) (l : list (nat * Z)) (s : fs) : Prop :=
  match l with
  | [] => True
  | (i, n) :: l => 0 < n /\ (exists c, opens s !! i = Some c /\ n <= c) /\ forget_ok max_obj_size l (forget1 max_obj_size i n s).1
  end.
Definition allowed (max_obj_size : Z) (exact : bool) (s : fs) (c : call) : Prop :=
  match c with
  | CUnlink p n _ | CRmdir p n _ => n <> CTRL_NAME
  | CRename po no pn nn _ _ => parent_ok s pn /\ (po, no) <> (pn, nn) /\ forall i, entry s po no = Some i -> ~ below s i pn
  | CMknod p _ _ _ _ _ | CSymlink p _ _ _ _ | CCreate p _ _ _ _ _ _ => p <> CTRL
  | CLink i p _ _ => p <> CTRL /\ ~ below s i p
  | CRemovexattr i n _ => forall k rc, names s !! n = Some (k, rc) -> is_Some (xattrs s !! (i, k))
  | CSetxattr i n _ _ => exact = true -> xattr s i n = None
  | CSetattr _ r _ _ _ => forall z, r_size r = Some z -> 0 <= z
  | CWrite i l z bad _ => forall a, inodes s !! i = Some a ->
      forall b o, (b, o) ∈ l -> Z.of_nat b * max_obj_size < (if bad then size a else Z.max (size a) z)
  | CForget l => forget_ok max_obj_size l s
  | CTreeRemove p n i _ => n <> CTRL_NAME /\ entry s p n = Some i
  | _ => True
  end.
(** Histories: sequences of calls from a new file system, none of which crashed. *)
Inductive reachable (max_obj_size : Z) (exact : bool) : list (call * res) -> fs -> Prop :=
  | reach_init u g now : reachable max_obj_size exact [] (mkfs u g now)
  | reach_step h s c s' r : reachable max_obj_size exact h s -> allowed max_obj_size exact s c ->
      exec max_obj_size c s = (s', r) -> r <> Crash -> reachable max_obj_size exact (h ++ [(c, r)]) s'.

(** * What calls do to directories and extended attributes *)
(** Directories as a map from (inode of the directory, name) to inodes. *)
Definition bind {A} (old : nat -> string -> option A) (p : nat) (n : string) (v : option A) : nat -> string -> option A :=
  fun q m => if decide ((q, m) = (p, n)) then v else old q m.
Definition entries_after (c : call) (r : res) (old : nat -> string -> option nat) : nat -> string -> option nat :=
  match c, r with
  | CUnlink p n _, Done | CRmdir p n _, Done | CTreeRemove p n _ _, Done => bind old p n None
  | CMknod p n _ _ _ _, Entry i _ | CSymlink p n _ _ _, Entry i _ | CCreate p n _ _ _ _ _, Entry i _ => bind old p n (Some i)
  | CLink i p n _, Entry _ _ => bind old p n (Some i)
  | CRename po no pn nn _ _, Done => bind (bind old po no None) pn nn (old po no)
  | _, _ => old
  end.
Definition xattrs_after (c : call) (r : res) (old : nat -> string -> option string) : nat -> string -> option string :=
  match c, r with
  | CSetxattr i n v _, Done => bind old i n (Some v)
  | CRemovexattr i n _, Done => bind old i n None
  | _, _ => old
  end.
(** ... in a history that starts with a new file system. *)
Definition entries_of (h : list (call * res)) : nat -> string -> option nat :=
  foldl (fun old '(c, r) => entries_after c r old) (bind (fun _ _ => None) ROOT "lost+found"%string (Some 3%nat)) h.
Definition xattrs_of (h : list (call * res)) : nat -> string -> option string :=
  foldl (fun old '(c, r) => xattrs_after c r old) (fun _ _ => None) h.

(** Every directory that has an entry, and every inode in a directory, can be reached from the root. *)
Definition attached (s : fs) : Prop := forall p n i, entry s p n = Some i -> below s ROOT p.

(** * References held by the kernel *)
(** A reply with an inode gives the kernel a reference, a listing one for each entry; forget gives them up. *)
Definition given (r : res) (i : nat) : Z :=
  match r with
  | Entry j _ => if decide (i = j) then 1 else 0
  | Listing l => Z.of_nat (List.length (List.filter (fun x => bool_decide (x.1.2 = i)) l))
  | _ => 0
  end.
Definition taken (c : call) (i : nat) : Z :=
  match c with CForget l => foldr (fun x z => (if decide (x.1 = i) then x.2 else 0) + z) 0 l | _ => 0 end.
(** The references held after a history (the root directory is always referenced). *)
Definition holds (h : list (call * res)) (i : nat) : Z :=
  foldl (fun z '(c, r) => z + given r i - taken c i) (if decide (i = ROOT) then 1 else 0) h.
(** The lookup count in the tables. *)
Definition lookups (s : fs) (i : nat) : Z := default 0 (opens s !! i).
(** A call that fails after it has looked up the entry. *)
Definition fails_late (x : call * res) : bool :=
  match x with
  | (CUnlink _ _ _, Err e) | (CRmdir _ _ _, Err e) | (CRename _ _ _ _ _ _, Err e) => match e with ENOENT | EACCES | ENOTSUP => false | _ => true end
  | _ => false
  end.

(** * Locked inodes *)
(** What locking protects: everything but link count, access time and change time. *)
Definition same_file (a a' : attr) : Prop :=
  mode a' = mode a /\ uid a' = uid a /\ gid a' = gid a /\ size a' = size a /\ rdev a' = rdev a /\ mtime a' = mtime a /\ locked a' = locked a.
Definition intact (s s' : fs) (i : nat) : Prop :=
  (exists a a', inodes s !! i = Some a /\ inodes s' !! i = Some a' /\ same_file a a') /\
  (forall n, entry s' i n = entry s i n) /\ (forall n, xattr s' i n = xattr s i n) /\
  symlinks s' !! i = symlinks s !! i /\ (forall b, blocks s' !! (i, b) = blocks s !! (i, b)).
Definition is_locked_in (s : fs) (i : nat) : Prop := exists a, inodes s !! i = Some a /\ locked a = true.
(** The forced removal of a tree. *)
Definition forced (c : call) : bool := match c with CTreeRemove _ _ _ _ => true | _ => false end.
Definition unforced (h : list (call * res)) : Prop := Forall (fun x => forced x.1 = false) h.
(** Any number of calls. *)
Inductive calls (max_obj_size : Z) (exact : bool) : fs -> list (call * res) -> fs -> Prop :=
  | calls_nil s : calls max_obj_size exact s [] s
  | calls_cons s c s1 r h s' : allowed max_obj_size exact s c -> exec max_obj_size c s = (s1, r) -> r <> Crash ->
      calls max_obj_size exact s1 h s' -> calls max_obj_size exact s ((c, r) :: h) s'.

(** * Fail-safe mode *)
Definition same_but_atime (s s' : fs) : Prop :=
  names s' = names s /\ contents s' = contents s /\ xattrs s' = xattrs s /\ symlinks s' = symlinks s /\ blocks s' = blocks s /\
  objects s' = objects s /\ seq s' = seq s /\ forall i, set_atime 0 <$> inodes s' !! i = set_atime 0 <$> inodes s !! i.
(** The calls that modify more than access times and reference counts; writing to a file requires opening it for
    writing first. *)
Definition modifies (c : call) : bool :=
  match c with
  | CSetxattr _ _ _ _ | CRemovexattr _ _ _ | CUnlink _ _ _ | CRmdir _ _ _ | CMknod _ _ _ _ _ _ | CSymlink _ _ _ _ _ | CRename _ _ _ _ _ _
  | CLink _ _ _ _ | CSetattr _ _ _ _ _ | CCreate _ _ _ _ _ _ _ | CWrite _ _ _ _ _ => true
  | COpen _ w t _ => w || t
  | _ => false
  end.
(** The deletion of unreferenced inodes, and steps of operations that have been started before. *)
Definition deferred (c : call) : bool := match c with CForget _ | CLock _ | CTreeRemove _ _ _ _ => true | _ => false end.
(** The errors that are reported before the mode is checked. *)
Definition early_error (s : fs) (c : call) : option errno :=
  match c with
  | CSetxattr _ n _ _ => if is_acl n then Some EOPNOTSUPP else None
  | CRename _ no _ nn fl _ => if fl then Some ENOTSUP else if decide (nn = CTRL_NAME \/ no = CTRL_NAME) then Some EACCES else None
  | CLink i p n _ => if decide (n = CTRL_NAME \/ i = CTRL) then Some EACCES
      else match inodes s !! p with Some a => if decide (refcount a = 0) then Some EINVAL else None | None => None end
  | COpen _ w _ _ => if w then None else Some EINVAL
  | _ => None
  end.

(** * Requests as the kernel sends them *)
(** Inodes are used only while the kernel holds references to them; names are new when an entry is created. *)
Definition wellformed (s : fs) (c : call) : Prop :=
  let known i := is_Some (inodes s !! i) in
  match c with
  | CLookup p _ => known p
  | CGetattr i | CReadlink i _ | CReaddir i _ _ _ | CGetxattr i _ | CListxattr i | CSetxattr i _ _ _ | CRemovexattr i _ _
  | COpen i _ _ _ | CRead i _ _ | CWrite i _ _ _ _ => known i
  | CUnlink p _ _ | CRmdir p _ _ => known p
  | CMknod p n _ _ _ _ | CSymlink p n _ _ _ => known p /\ entry s p n = None
  | CCreate p _ _ _ _ _ _ => known p
  | CRename po _ pn _ _ _ => known po /\ known pn
  | CLink i p n _ => known i /\ known p /\ entry s p n = None
  | CSetattr i _ bad _ _ => known i /\ bad <> Some false
  | CForget _ => True
  | CLock i => known i
  | CTreeRemove p _ i _ => known p /\ known i
  end.

(** * Listing a directory *)
(** A listing of directory [p], continued at offset [off]: calls of readdir, each of which continues at the last
    offset of the reply before, until a reply (with space for at least one entry) is empty; in between any calls
    are handled.  [l]: the entries returned; [sts]: all states from the beginning to the end of the listing. *)
Inductive listing (max_obj_size : Z) (exact : bool) (p : nat) : fs -> Z -> list fs -> list (string * nat * Z) -> Prop :=
  | list_end s off k now s' : (0 < k)%nat -> exec max_obj_size (CReaddir p off k now) s = (s', Listing []) ->
      listing max_obj_size exact p s off [s] []
  | list_read s off k now s' r n i off' sts l : exec max_obj_size (CReaddir p off k now) s = (s', Listing (r ++ [(n, i, off')])) ->
      listing max_obj_size exact p s' off' sts l -> listing max_obj_size exact p s off (s :: sts) (r ++ (n, i, off') :: l)
  | list_other s off c s' r sts l : allowed max_obj_size exact s c -> exec max_obj_size c s = (s', r) -> r <> Crash ->
      listing max_obj_size exact p s' off sts l -> listing max_obj_size exact p s off (s :: sts) l.

(** No directory is below itself. *)
Definition acyclic (s : fs) : Prop := forall p n i, entry s p n = Some i -> ~ below s i p.
