(** The file system check: src/s3ql/fsck.py, class Fsck (94-1246), and inode_for_path (common.py 88-110).

    Tables are maps from row ids to rows; the database may hold anything that its constraints allow (database.py 655-862), so
    references may dangle and counts be wrong. A check is a function to [option]: None when it ends with an exception (a
    uniqueness constraint, a missing row, a path that is too deep). Left out: log messages, uid, gid, times, the values of
    attributes and targets (only their length is used), temporary indices and tables, check_objects_temp (1085-1111, only
    temporary files of the local backend). A query that selects the rows to treat is evaluated row by row, as sqlite does. *)
From stdpp Require Import prelude gmap.
From Coq Require Import ZArith.
From Verif Require Import Count Decimal Text LocalModel EscapeProps.

(** names.name is a BLOB, but fsck also puts texts there (517). *)
Inductive name := Blob (l : list nat) | Text (l : list nat).
Global Instance name_eq_dec : EqDecision name.
Proof. solve_decision. Defined.
Inductive kind := NoType | Dir | Reg | Lnk | Dev | Misc.
Global Instance kind_eq_dec : EqDecision kind.
Proof. solve_decision. Defined.
Record centry := Centry { c_name : nat; c_inode : nat; c_parent : nat }.
Record irow := Irow { i_kind : kind; i_ref : Z; i_size : Z; i_rdev : Z }.
Record brow := Brow { b_inode : nat; b_no : Z; b_obj : nat }.
Record orow := Orow { o_hash : option nat; o_ref : Z; o_phys : Z; o_len : Z }.
Record xrow := Xrow { x_inode : nat; x_name : nat }.
Global Instance centry_eq_dec : EqDecision centry.
Proof. solve_decision. Defined.
Definition data := list nat.
(** The database, the objects in the backend, the cache directory, and the attributes of the Fsck instance (100-104). Two flags
    record what the program does not notice: [captured], a name got an id to which other rows referred already; [taken], the name
    first chosen for an attribute was in use (516-526). *)
Record fsck := Fsck {
  names : gmap nat (name * Z); contents : gmap nat centry; inodes : gmap nat irow; blocks : gmap nat brow; objects : gmap nat orow;
  xattrs : gmap nat xrow; links : gmap nat Z; store : gmap nat data; cache : gmap (nat * Z) data;
  unlinked : gset nat; found : bool; uncorrectable : bool; captured : bool; taken : bool }.
Definition set_names x s := Fsck x (contents s) (inodes s) (blocks s) (objects s) (xattrs s) (links s) (store s) (cache s) (unlinked s) (found s) (uncorrectable s) (captured s) (taken s).
Definition set_contents x s := Fsck (names s) x (inodes s) (blocks s) (objects s) (xattrs s) (links s) (store s) (cache s) (unlinked s) (found s) (uncorrectable s) (captured s) (taken s).
Definition set_inodes x s := Fsck (names s) (contents s) x (blocks s) (objects s) (xattrs s) (links s) (store s) (cache s) (unlinked s) (found s) (uncorrectable s) (captured s) (taken s).
Definition set_blocks x s := Fsck (names s) (contents s) (inodes s) x (objects s) (xattrs s) (links s) (store s) (cache s) (unlinked s) (found s) (uncorrectable s) (captured s) (taken s).
Definition set_objects x s := Fsck (names s) (contents s) (inodes s) (blocks s) x (xattrs s) (links s) (store s) (cache s) (unlinked s) (found s) (uncorrectable s) (captured s) (taken s).
Definition set_xattrs x s := Fsck (names s) (contents s) (inodes s) (blocks s) (objects s) x (links s) (store s) (cache s) (unlinked s) (found s) (uncorrectable s) (captured s) (taken s).
Definition set_links x s := Fsck (names s) (contents s) (inodes s) (blocks s) (objects s) (xattrs s) x (store s) (cache s) (unlinked s) (found s) (uncorrectable s) (captured s) (taken s).
Definition set_store x s := Fsck (names s) (contents s) (inodes s) (blocks s) (objects s) (xattrs s) (links s) x (cache s) (unlinked s) (found s) (uncorrectable s) (captured s) (taken s).
Definition set_cache x s := Fsck (names s) (contents s) (inodes s) (blocks s) (objects s) (xattrs s) (links s) (store s) x (unlinked s) (found s) (uncorrectable s) (captured s) (taken s).
Definition set_unlinked x s := Fsck (names s) (contents s) (inodes s) (blocks s) (objects s) (xattrs s) (links s) (store s) (cache s) x (found s) (uncorrectable s) (captured s) (taken s).
Definition report (b : bool) s := Fsck (names s) (contents s) (inodes s) (blocks s) (objects s) (xattrs s) (links s) (store s) (cache s) (unlinked s) (found s || b) (uncorrectable s) (captured s) (taken s).
Definition set_uncorrectable (b : bool) s := Fsck (names s) (contents s) (inodes s) (blocks s) (objects s) (xattrs s) (links s) (store s) (cache s) (unlinked s) (found s) (uncorrectable s || b) (captured s) (taken s).
Definition set_captured (b : bool) s := Fsck (names s) (contents s) (inodes s) (blocks s) (objects s) (xattrs s) (links s) (store s) (cache s) (unlinked s) (found s) (uncorrectable s) (captured s || b) (taken s).
Definition set_taken (b : bool) s := Fsck (names s) (contents s) (inodes s) (blocks s) (objects s) (xattrs s) (links s) (store s) (cache s) (unlinked s) (found s) (uncorrectable s) (captured s) (taken s || b).

Definition ROOT : nat := 1.
Definition CTRL : nat := 2.
(** b'lost+found', b'inode-', 'lost+found_', b'-', b' ... ' *)
Definition LOF : list nat := [108; 111; 115; 116; 43; 102; 111; 117; 110; 100].
Definition LOF_ : list nat := LOF ++ [95].
Definition INODE_ : list nat := [105; 110; 111; 100; 101; 45].
Definition DASH : list nat := [45].
Definition DOTS : list nat := [32; 46; 46; 46; 32].
Definition max_name : nat := 255.

(** What the program does not determine: the order of the rows of a query (and the row taken by "LIMIT 1"), the ids of new rows, the
    recursion limit of python; data_block_size; sha256; to_str (1511-1514) followed by encode(); the size of a stored object; the
    objects that the backend lists. *)
Class env := Env {
  scan : forall A, list A -> list A; scan_perm : forall A l, scan A l ≡ₚ l;
  new : gset nat -> nat; new_fresh : forall X, new X ∉ X;
  recursion_limit : nat;
  max_obj_size : Z; sha256 : data -> nat; replaced : list nat -> list nat;
  stored_size : data -> Z; stored_size_nonneg : forall d, (0 <= stored_size d)%Z;
  listed : gmap nat data -> gset nat; listed_stored : forall m, listed m ⊆ dom m }.
Section fsck.
Context `{E : env}.

Definition pick {A} (l : list A) : option A := head (scan A l).
Definition rows {A} (m : gmap nat A) : list (nat * A) := scan _ (map_to_list m).
Fixpoint each {A} (l : list A) (f : A -> fsck -> option fsck) (s : fsck) : option fsck :=
  match l with [] => Some s | a :: l => match f a s with Some s' => each l f s' | None => None end end.

(** names and contents_v (database.py 842-850) *)
Definition name_of (s : fsck) (id : nat) : option name := fst <$> names s !! id.
Definition uses (c : gmap nat centry) (x : gmap nat xrow) (id : nat) : Z := (cnt (fun kv => c_name kv.2 = id) c + cnt (fun kv => x_name kv.2 = id) x)%Z.
Definition entry (s : fsck) (parent : nat) (n : name) : option (nat * centry) :=
  pick (filter (fun kv => c_parent kv.2 = parent /\ name_of s (c_name kv.2) = Some n) (map_to_list (contents s))).
(** get_path, common.py 113-143 *)
Inductive path_result := Path (p : list nat) | NoRow | Crash.
Definition entry_of (s : fsck) (i : nat) : option (nat * centry) :=
  pick (filter (fun kv => c_inode kv.2 = i /\ name_of s (c_name kv.2) <> None) (map_to_list (contents s))).
Fixpoint path_up (s : fsck) (maxdepth : nat) (i : nat) (path : list (list nat)) : path_result :=
  if decide (i = ROOT) then Path (join SLASH ([] :: path)) else
  match maxdepth with
  | 0 => Crash
  | S maxdepth => match entry_of s i with
      | None => NoRow
      | Some (_, e) => match name_of s (c_name e) with
          | Some (Blob n) => if decide (maxdepth = 0) then Crash else path_up s maxdepth (c_parent e) (n :: path)
          | _ => Crash
          end
      end
  end.
Definition get_path (s : fsck) (i : nat) (n : option (list nat)) : path_result := path_up s 255 i (match n with Some n => [n] | None => [] end).
(** The names made at 414-420 and 452 *)
Definition name1 (path : option (list nat)) (i : nat) : list nat := match path with Some p => escape_fsck (drop 1 p) | None => [] end ++ DASH ++ dec i.
Definition name2 (p : nat) (n : list nat) : list nat := [91] ++ dec p ++ [93; 45] ++ replaced n.
(** _add_name, 1224-1236. [c], [x]: the references other than the one that the name is for *)
Definition add_name (c : gmap nat centry) (x : gmap nat xrow) (n : name) (s : fsck) : nat * fsck :=
  match pick (filter (fun kv => kv.2.1 = n) (map_to_list (names s))) with
  | Some (id, (_, r)) => (id, set_names (<[id := (n, (r + 1)%Z)]> (names s)) s)
  | None => let id := new (dom (names s)) in (id, set_captured (bool_decide (uses c x id <> 0%Z)) (set_names (<[id := (n, 1%Z)]> (names s)) s))
  end.
(** _del_name, 1238-1242 *)
Definition drop_name (id : nat) (m : gmap nat (name * Z)) : gmap nat (name * Z) :=
  match m !! id with
  | Some (n, r) => if decide (r - 1 = 0)%Z then delete id m else <[id := (n, (r - 1)%Z)]> m
  | None => m
  end.
Definition del_name (id : nat) (s : fsck) : fsck := set_names (drop_name id (names s)) s.
(** UNIQUE (parent_inode, name_id); UNIQUE (inode, name_id) *)
Definition unique (c : gmap nat centry) : Prop :=
  map_Forall (fun k1 r1 => map_Forall (fun k2 r2 => c_parent r1 = c_parent r2 /\ c_name r1 = c_name r2 -> k1 = k2) c) c.
Global Instance unique_dec c : Decision (unique c).
Proof. unfold unique. apply _. Defined.
Definition put_contents (c : gmap nat centry) (s : fsck) : option fsck := if decide (unique c) then Some (set_contents c s) else None.
Definition xunique (x : gmap nat xrow) : Prop :=
  map_Forall (fun k1 r1 => map_Forall (fun k2 r2 => x_inode r1 = x_inode r2 /\ x_name r1 = x_name r2 -> k1 = k2) x) x.
Global Instance xunique_dec c : Decision (xunique c).
Proof. unfold xunique. apply _. Defined.
Definition put_xattrs (x : gmap nat xrow) (s : fsck) : option fsck := if decide (xunique x) then Some (set_xattrs x s) else None.
(** create_inode, 827-849 *)
Definition create_inode (k : kind) (r : Z) (s : fsck) : nat * fsck :=
  let i := new (dom (inodes s)) in (i, set_inodes (<[i := Irow k r 0 0]> (inodes s)) s).
(** inode_for_path(b'/lost+found'), common.py 88-110 *)
Definition lost_found (s : fsck) : option nat := c_inode ∘ snd <$> entry s ROOT (Blob LOF).
(** resolve_free, 1188-1222; None: KeyError *)
Definition shorten (n : list nat) : list nat := if decide (max_name - 4 < length n) then take 120 n ++ DOTS ++ drop (length n - 120) n else n.
Definition candidate (n : list nat) (i : nat) : list nat := match i with 0 => n | _ => n ++ DASH ++ dec i end.
Fixpoint search (used : list nat -> bool) (n : list nat) (i fuel : nat) : option (list nat) :=
  match fuel with
  | 0 => None
  | S fuel => if used (candidate n i) then search used n (S i) fuel else Some (candidate n i)
  end.
Definition used (s : fsck) (p : nat) (n : list nat) : bool := match entry s p (Blob n) with Some _ => true | None => false end.
Definition resolve_free (s : fsck) (n : list nat) : option (nat * list nat) :=
  match lost_found s with
  | Some p => match search (used s p) (shorten n) 0 (S (size (contents s))) with Some n' => Some (p, n') | None => None end
  | None => None
  end.

(** check_lof, 342-402 *)
Definition lof_directory (i : nat) (nid : nat) (s : fsck) : option fsck :=     (* 383-402 *)
  match inodes s !! i with
  | None => None
  | Some r => if decide (i_kind r = Dir) then Some s else
      let (j, s1) := create_inode Dir 1 (report true s) in
      put_contents ((fun e => if decide (c_name e = nid /\ c_parent e = ROOT) then Centry (c_name e) j (c_parent e) else e) <$> contents s1) s1
  end.
Definition check_lof (s : fsck) : option fsck :=
  match entry s ROOT (Blob LOF) with
  | Some (_, e) => lof_directory (c_inode e) (c_name e) s
  | None =>
      match filter (fun kv => c_parent kv.2 = c_inode kv.2 /\ name_of s (c_name kv.2) = Some (Blob LOF)) (map_to_list (contents s)) with
      | _ :: _ :: _ => None
      | [(_, e)] =>
          match put_contents ((fun e' => if decide (c_inode e' = c_inode e) then Centry (c_name e') (c_inode e') ROOT else e') <$> contents s) (report true s) with
          | Some s1 => lof_directory (c_inode e) (c_name e) s1
          | None => None
          end
      | [] =>
          let (i, s1) := create_inode Dir 1 (report true s) in
          let (nid, s2) := add_name (contents s1) (xattrs s1) (Blob LOF) s1 in
          put_contents (<[new (dom (contents s2)) := Centry nid i ROOT]> (contents s2)) s2
      end
  end.

(** check_cache, 231-340, for one cached block; uploads succeed *)
Definition block_row (s : fsck) (i : nat) (b : Z) : option (nat * brow) := pick (filter (fun kv => b_inode kv.2 = i /\ b_no kv.2 = b) (map_to_list (blocks s))).
Definition by_hash (s : fsck) (h : nat) : option (nat * orow) := pick (filter (fun kv => o_hash kv.2 = Some h) (map_to_list (objects s))).
Definition addref (z : Z) (r : orow) : orow := Orow (o_hash r) (o_ref r + z) (o_phys r) (o_len r).
Definition cache_clean (s : fsck) (i : nat) (b : Z) (h : nat) : bool :=           (* 275-297 *)
  match block_row s i b with
  | Some (_, r) => match objects s !! b_obj r with Some o => bool_decide (o_hash o = Some h) | None => false end
  | None => false
  end.
Definition cache_upload (d : data) (h : nat) (s : fsck) : nat * fsck :=           (* 302-318 *)
  match by_hash s h with
  | Some (id, o) => (id, set_objects (<[id := addref 1 o]> (objects s)) s)
  | None => let id := new (dom (objects s)) in
      (id, set_store (<[id := d]> (store s)) (set_objects (<[id := Orow (Some h) 1 (stored_size d) (Z.of_nat (length d))]> (objects s)) s))
  end.
Definition cache_link (i : nat) (b : Z) (id : nat) (s : fsck) : fsck :=           (* 320-337 *)
  match block_row s i b with
  | None => set_blocks (<[new (dom (blocks s)) := Brow i b id]> (blocks s)) s
  | Some (k, r) => set_unlinked ({[b_obj r]} ∪ unlinked s) (set_objects (alter (addref (-1)) (b_obj r) (objects s)) (set_blocks (<[k := Brow i b id]> (blocks s)) s))
  end.
Definition check_cached (keep : bool) (k : nat * Z) (s : fsck) : option fsck :=
  match cache s !! k with
  | None => None
  | Some d =>
      let s1 := if cache_clean s k.1 k.2 (sha256 d) then s else let (id, s1) := cache_upload d (sha256 d) (report true s) in cache_link k.1 k.2 id s1 in
      Some (if keep then s1 else set_cache (delete k (cache s1)) s1)
  end.
Definition check_cache (keep : bool) (s : fsck) : option fsck := each (scan _ (fst <$> map_to_list (cache s))) (check_cached keep) s.

(** check_names_refcount, 851-898: every name has a row in the table of counts, so none is ever removed *)
Definition check_names_refcount (s : fsck) : fsck :=
  report (bool_decide (~ map_Forall (fun id nr => nr.2 = uses (contents s) (xattrs s) id) (names s)))
    (set_names (map_imap (fun id nr => Some (nr.1, uses (contents s) (xattrs s) id)) (names s)) s).

(** Give an entry another name and parent. *)
Definition move_entry (k nid parent : nat) (s : fsck) : option fsck :=
  match contents s !! k with
  | Some e => put_contents (<[k := Centry nid (c_inode e) parent]> (contents s)) s
  | None => Some s
  end.
(** check_contents_name, 404-435 *)
Definition fix_contents_name (k : nat) (s : fsck) : option fsck :=
  match contents s !! k with
  | None => Some s
  | Some e => match names s !! c_name e with
      | Some _ => Some s
      | None =>
          match (match get_path s (c_parent e) None with Path p => Some (name1 (Some p) (c_inode e)) | NoRow => Some (name1 None (c_inode e)) | Crash => None end) with
          | None => None
          | Some n => match resolve_free s n with
              | None => None
              | Some (p, n') => let (nid, s1) := add_name (delete k (contents s)) (xattrs s) (Blob n') (report true s) in move_entry k nid p s1
              end
          end
      end
  end.
Definition check_contents_name (s : fsck) : option fsck := each (rows (contents s)) (fun kv => fix_contents_name kv.1) s.
(** check_contents_inode, 464-490 *)
Definition fix_contents_inode (k : nat) (s : fsck) : option fsck :=
  match contents s !! k with
  | None => Some s
  | Some e => match inodes s !! c_inode e with
      | Some _ => Some s
      | None => match get_path s (c_inode e) None with Crash => None | _ => Some (del_name (c_name e) (set_contents (delete k (contents s)) (report true s))) end
      end
  end.
Definition check_contents_inode (s : fsck) : option fsck := each (rows (contents s)) (fun kv => fix_contents_inode kv.1) s.
(** check_contents_parent_inode, 437-462 *)
Definition fix_contents_parent (k : nat) (s : fsck) : option fsck :=
  match contents s !! k with
  | None => Some s
  | Some e => match inodes s !! c_parent e with
      | Some _ => Some s
      | None => match name_of s (c_name e) with
          | Some (Blob n) => match resolve_free s (name2 (c_parent e) n) with
              | None => None
              | Some (p, n') => let (nid, s1) := add_name (delete k (contents s)) (xattrs s) (Blob n') (del_name (c_name e) (report true s)) in move_entry k nid p s1
              end
          | _ => None
          end
      end
  end.
Definition check_contents_parent (s : fsck) : option fsck := each (rows (contents s)) (fun kv => fix_contents_parent kv.1) s.

(** check_objects_hash, 807-825 *)
Definition check_objects_hash (s : fsck) : fsck :=
  report (bool_decide (~ map_Forall (fun _ o => o_hash o <> None) (objects s))) (set_objects (filter (fun kv => o_hash kv.2 <> None) (objects s)) s).
(** check_objects_refcount, 1030-1083 *)
Definition refs (s : fsck) (o : nat) : Z := cnt (fun kv => b_obj kv.2 = o) (blocks s).
Definition set_ref (z : Z) (r : orow) : orow := Orow (o_hash r) z (o_phys r) (o_len r).
Definition check_objects_refcount (s : fsck) : fsck :=
  let wrong := bool_decide (~ map_Forall (fun id o => o_ref o = refs s id /\ (refs s id = 0%Z -> id ∈ unlinked s)) (objects s)) in
  let s1 := report wrong (set_objects (map_imap (fun id o => if decide (refs s id = 0)%Z then None else Some (set_ref (refs s id) o)) (objects s)) s) in
  (* 1080-1083 *)
  set_store (filter (fun kv => (o_ref <$> objects s1 !! kv.1) <> Some 0%Z) (store s1)) (set_objects (filter (fun kv => o_ref kv.2 <> 0%Z) (objects s1)) s1).
(** check_objects_id, 1113-1171 *)
Definition check_objects_id (s : fsck) : fsck :=
  let spurious := listed (store s) ∖ dom (objects s) in
  let s1 := report (bool_decide (~ spurious ⊆ unlinked s)) (set_store (filter (fun kv => kv.1 ∉ spurious) (store s)) s) in
  report (bool_decide (~ dom (objects s1) ⊆ listed (store s) ∪ dom (store s1))) (set_objects (filter (fun kv => kv.1 ∈ listed (store s) ∪ dom (store s1)) (objects s1)) s1).
(** check_objects_phys_size, 1173-1186 *)
Definition fix_phys_size (id : nat) (s : fsck) : option fsck :=
  match objects s !! id with
  | Some o => if decide (o_phys o = -1)%Z then
      match store s !! id with Some d => Some (report true (set_objects (<[id := Orow (o_hash o) (o_ref o) (stored_size d) (o_len o)]> (objects s)) s)) | None => None end
    else Some s
  | None => Some s
  end.
Definition check_objects_phys_size (s : fsck) : option fsck := each (rows (objects s)) (fun kv => fix_phys_size kv.1) s.

(** check_inode_blocks_obj_id, 747-786 *)
Definition move_lost (ke : nat * centry) (s : fsck) : option fsck :=                (* 772-784 *)
  match ke.2, name_of s (c_name ke.2) with
  | e, Some (Blob n) => match get_path s (c_parent e) (Some n) with
      | Path p => match resolve_free s (escape_fsck p) with
          | None => None
          | Some (q, n') => let (nid, s1) := add_name (contents s) (xattrs s) (Blob n') s in
              match move_entry ke.1 nid q s1 with Some s2 => Some (del_name (c_name e) s2) | None => None end
          end
      | _ => None
      end
  | _, _ => None
  end.
(** contents_v: only entries with a name *)
Definition entries_of (s : fsck) (i : nat) : list (nat * centry) :=
  scan _ (filter (fun kv => c_inode kv.2 = i /\ name_of s (c_name kv.2) <> None) (map_to_list (contents s))).
Definition fix_block_object (kv : nat * brow) (s : fsck) : option fsck :=
  match objects s !! b_obj kv.2 with
  | Some _ => Some s
  | None => match each (entries_of s (b_inode kv.2)) move_lost (report true s) with
      | Some s1 => Some (set_blocks (delete kv.1 (blocks s1)) s1)
      | None => None
      end
  end.
Definition check_block_objects (s : fsck) : option fsck := each (rows (blocks s)) fix_block_object s.
(** check_inode_blocks_inode, 720-745 *)
Definition fix_block_inode (kv : nat * brow) (s : fsck) : fsck :=
  match inodes s !! b_inode kv.2 with
  | Some _ => s
  | None => set_unlinked ({[b_obj kv.2]} ∪ unlinked s) (set_objects (alter (addref (-1)) (b_obj kv.2) (objects s)) (set_blocks (delete kv.1 (blocks s)) (report true s)))
  end.
Definition check_block_inodes (s : fsck) : option fsck := each (rows (blocks s)) (fun kv s => Some (fix_block_inode kv s)) s.

(** check_inodes_refcount, 663-718 *)
Definition entries (s : fsck) (i : nat) : Z := cnt (fun kv => c_inode kv.2 = i) (contents s).
Definition set_iref (z : Z) (r : irow) : irow := Irow (i_kind r) z (i_size r) (i_rdev r).
Definition fix_inode_refcount (ic : nat * Z) (s : fsck) : option fsck :=
  let (i, c) := ic in
  if decide (i = ROOT \/ i = CTRL) then Some s else
  if decide (c = 0)%Z then
    match resolve_free s (INODE_ ++ dec i) with
    | None => None
    | Some (p, n) => let (nid, s1) := add_name (contents s) (xattrs s) (Blob n) (report true s) in
        match put_contents (<[new (dom (contents s1)) := Centry nid i p]> (contents s1)) s1 with
        | Some s2 => Some (set_inodes (alter (set_iref 1) i (inodes s2)) s2)
        | None => None
        end
    end
  else match get_path s i None with Path _ => Some (set_inodes (alter (set_iref c) i (inodes s)) (report true s)) | _ => None end.
Definition wrong_refcounts (s : fsck) : list (nat * Z) :=
  omap (fun kv : nat * irow => let c := entries s kv.1 in if decide (c = 0%Z \/ i_ref kv.2 <> c) then Some (kv.1, c) else None) (rows (inodes s)).
Definition check_inodes_refcount (s : fsck) : option fsck := each (wrong_refcounts s) fix_inode_refcount s.
(** check_inodes_size, 620-661 *)
Definition ends (s : fsck) (i : nat) : list Z :=
  omap (fun kv : nat * brow => if decide (b_inode kv.2 = i) then (fun o => (b_no kv.2 * max_obj_size + o_len o)%Z) <$> objects s !! b_obj kv.2 else None) (map_to_list (blocks s)).
Definition min_size (s : fsck) (i : nat) : option Z := match ends s i with [] => None | z :: l => Some (foldr Z.max z l) end.
Definition set_isize (z : Z) (r : irow) : irow := Irow (i_kind r) (i_ref r) z (i_rdev r).
Definition wrong_sizes (s : fsck) : list (nat * Z) :=
  omap (fun kv : nat * irow => match min_size s kv.1 with Some m => if decide (i_size kv.2 < m)%Z then Some (kv.1, m) else None | None => None end) (rows (inodes s)).
Definition fix_inode_size (im : nat * Z) (s : fsck) : option fsck :=
  match get_path s im.1 None with Path _ => Some (set_inodes (alter (set_isize im.2) im.1 (inodes s)) (report true s)) | _ => None end.
Definition check_inodes_size (s : fsck) : option fsck := each (wrong_sizes s) fix_inode_size s.

(** get_path with a name that must be of type bytes *)
Definition path_ok (s : fsck) (p nid : nat) : Prop :=
  match name_of s nid with Some (Blob n) => match get_path s p (Some n) with Path _ => True | _ => False end | _ => False end.
Global Instance path_ok_dec s p nid : Decision (path_ok s p nid).
Proof. unfold path_ok. destruct (name_of s nid) as [[]|]; [destruct (get_path s p (Some l))| |]; apply _. Defined.
(** check_ext_attributes_name, 492-526. The number in the name and the row to be changed are the same variable: if the first name is
    in use, another row is changed (525). *)
Fixpoint rename_attribute (k n i : nat) (fuel : nat) (s : fsck) : option fsck :=
  match fuel with
  | 0 => None
  | S fuel =>
      let (nid, s1) := add_name (contents s) (delete k (xattrs s)) (Text (LOF_ ++ dec n)) s in
      if decide (map_Forall (fun _ r => ~ (x_name r = nid /\ x_inode r = i)) (xattrs s1))
      then put_xattrs (alter (fun r => Xrow (x_inode r) nid) n (xattrs s1)) s1
      else rename_attribute k (S n) i fuel (set_taken true (del_name nid s1))
  end.
Definition fix_attribute_name (k : nat) (s : fsck) : option fsck :=
  match xattrs s !! k with
  | None => Some s
  | Some r => match names s !! x_name r with
      | Some _ => Some s
      | None =>
          if decide (Forall (fun ke : nat * centry => path_ok s (c_parent ke.2) (c_name ke.2)) (entries_of s (x_inode r)))
          then rename_attribute k k (x_inode r) (S (size (xattrs s))) (report true s) else None
      end
  end.
Definition check_attribute_names (s : fsck) : option fsck := each (rows (xattrs s)) (fun kv => fix_attribute_name kv.1) s.
(** check_ext_attributes_inode, 528-549 *)
Definition fix_attribute_inode (k : nat) (s : fsck) : option fsck :=
  match xattrs s !! k with
  | None => Some s
  | Some r => match inodes s !! x_inode r with
      | Some _ => Some s
      | None => Some (del_name (x_name r) (set_xattrs (delete k (xattrs s)) (report true s)))
      end
  end.
Definition check_attribute_inodes (s : fsck) : option fsck := each (rows (xattrs s)) (fun kv => fix_attribute_inode kv.1) s.
(** check_symlinks_inode, 788-805 *)
Definition check_symlinks (s : fsck) : fsck :=
  report (bool_decide (~ dom (links s) ⊆ dom (inodes s))) (set_links (filter (fun kv => kv.1 ∈ dom (inodes s)) (links s)) s).

(** check_loops, 551-618. [up]: table loopcheck, an entry for every inode with children; [left]: loopcheck2 *)
Definition parent_of (s : fsck) (i : nat) : option nat := c_parent ∘ snd <$> pick (filter (fun kv => c_inode kv.2 = i) (map_to_list (contents s))).
Definition loopcheck (s : fsck) : gmap nat (option nat) := set_to_map (fun i => (i, parent_of s i)) (list_to_set ((fun kv => c_parent kv.2) <$> map_to_list (contents s)) : gset nat).
Definition children (up : gmap nat (option nat)) (p : nat) : list nat := fst <$> scan _ (filter (fun kv => kv.2 = Some p) (map_to_list up)).
(** delete_tree, 571-576; None: RecursionError *)
Fixpoint delete_tree (fuel : nat) (up : gmap nat (option nat)) (p : nat) (left : gset nat) : option (gset nat) :=
  match fuel with
  | 0 => None
  | S fuel =>
      match foldr (fun i acc => match acc with Some l => delete_tree fuel up i l | None => None end) (Some left) (children up p) with
      | Some l => Some (l ∖ {[p]})
      | None => None
      end
  end.
Definition culprit (left : gset nat) (s : fsck) : option nat :=                   (* 588-599 *)
  match pick (filter (fun kv => c_inode kv.2 ∈ left /\ c_parent kv.2 = c_inode kv.2) (map_to_list (contents s))) with
  | Some (_, e) => Some (c_inode e)
  | None => pick (elements left)
  end.
Fixpoint anchor (fuel : nat) (up : gmap nat (option nat)) (left : gset nat) (root : nat) (s : fsck) : option fsck :=
  match fuel with
  | 0 => None
  | S fuel =>
      match delete_tree recursion_limit up root left with
      | None => None
      | Some left1 =>
          match culprit left1 s with
          | None => Some s
          | Some i =>
              match entry_of s i with
              | Some (_, e) => match name_of s (c_name e) with
                  | Some (Blob n) => match resolve_free s n with
                      | None => None
                      | Some (p, n') =>
                          let (nid, s1) := add_name (contents s) (xattrs s) (Blob n') (report true s) in
                          match put_contents ((fun e' => if decide (c_inode e' = i /\ c_name e' = c_name e) then Centry nid i p else e') <$> contents s1) s1 with
                          | Some s2 => anchor fuel (<[i := Some p]> up) left1 i (del_name (c_name e) s2)
                          | None => None
                          end
                      end
                  | _ => None
                  end
              | None => None
              end
          end
      end
  end.
Definition check_loops (s : fsck) : option fsck :=
  let up := loopcheck s in anchor (S (size up)) up (dom up) ROOT s.

(** check_unix, 900-1028: only inodes without a type are changed *)
Definition has_children (s : fsck) (i : nat) : bool := bool_decide (~ map_Forall (fun _ e => c_parent e <> i) (contents s)).
Definition typed (s : fsck) (i : nat) (r : irow) : irow :=
  if decide (i_kind r = NoType) then Irow (if has_children s i then Dir else Reg) (i_ref r) (i_size r) (i_rdev r) else r.
Definition odd (s : fsck) (i : nat) (r : irow) : Prop :=
  let k := i_kind (typed s i r) in
  i_kind r = NoType \/ (k = Lnk /\ links s !! i <> Some (i_size r)) \/ (i_size r <> 0%Z /\ k <> Reg /\ k <> Lnk /\ k <> Dir) \/ (links s !! i <> None /\ k <> Lnk) \/
  (i_rdev r <> 0%Z /\ k <> Dev) \/ (has_children s i = true /\ k <> Dir) \/ (k <> Reg /\ ~ map_Forall (fun _ b => b_inode b <> i) (blocks s)).
Global Instance odd_dec s i r : Decision (odd s i r).
Proof. unfold odd. apply _. Defined.
Definition long_name (s : fsck) (e : centry) : Prop := match name_of s (c_name e) with Some (Blob n) => 255 < length n | Some (Text n) => 255 < length n | None => False end.
Global Instance long_name_dec s e : Decision (long_name s e).
Proof. unfold long_name. destruct (name_of s (c_name e)) as [[]|]; apply _. Defined.
Definition has_path (s : fsck) (i : nat) : bool := match get_path s i None with Path _ => true | _ => false end.
Definition check_unix (s : fsck) : option fsck :=
  if decide (map_Forall (fun i r => odd s i r -> has_path s i = true) (inodes s) /\ map_Forall (fun _ e => long_name s e -> path_ok s (c_parent e) (c_name e)) (contents s)) then
    let s1 := report (bool_decide (~ map_Forall (fun i r => ~ odd s i r) (inodes s))) (set_inodes (map_imap (fun i r => Some (typed s i r)) (inodes s)) s) in
    Some (report (bool_decide (~ map_Forall (fun _ e => ~ long_name s1 e) (contents s1))) s1)
  else None.
(** check_foreign_keys, 189-229; 840 *)
Definition resolved (s : fsck) : Prop :=
  map_Forall (fun _ e => is_Some (names s !! c_name e) /\ is_Some (inodes s !! c_inode e) /\ is_Some (inodes s !! c_parent e)) (contents s) /\
  map_Forall (fun _ r => is_Some (inodes s !! b_inode r) /\ is_Some (objects s !! b_obj r)) (blocks s) /\
  map_Forall (fun _ r => is_Some (inodes s !! x_inode r) /\ is_Some (names s !! x_name r)) (xattrs s) /\
  map_Forall (fun i _ => is_Some (inodes s !! i)) (links s).
Global Instance resolved_dec s : Decision (resolved s).
Proof. unfold resolved. apply _. Defined.
Definition check_foreign_keys (s : fsck) : fsck := let b := bool_decide (~ resolved s) in set_uncorrectable b (report b s).

(** check, 127-179 *)
Definition check (with_cache keep : bool) (s : fsck) : option fsck :=
  s ← check_lof s; s ← (if with_cache : bool then check_cache keep s else Some s);
  let s := check_names_refcount s in
  s ← check_contents_name s; s ← check_contents_inode s; s ← check_contents_parent s;
  let s := check_objects_id (check_objects_refcount (check_objects_hash s)) in
  s ← check_objects_phys_size s; s ← check_block_objects s; s ← check_block_inodes s;
  s ← check_inodes_refcount s; s ← check_inodes_size s;
  s ← check_attribute_names s; s ← check_attribute_inodes s;
  let s := check_symlinks s in
  s ← check_loops s; s ← check_unix s; Some (check_foreign_keys s).
End fsck.
