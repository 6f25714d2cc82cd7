(** Model of copy_tree (src/s3ql/fs.py 504-638), which s3qlcp requests through the control file.

    A loop over a queue (here with the element popped next first), like lock_tree (FsTreeModel.v); a batch may end after any number of rows.
    Simplified: no other request is handled while the tree is copied (the code lets others run at the end of a batch and while cached blocks are written,
    561); cached blocks have been written (560-561).  The rows of the source that are read while rows are inserted are those of the beginning of the
    query: no row is inserted for the directory that is read.  invalidate_inode (635) has no effect on the tables. *)
From stdpp Require Import prelude gmap strings sorting.
From Coq Require Import ZArith String.
From Verif Require Import FsModel FsTreeModel.
Local Close Scope string_scope.
Local Open Scope Z_scope.

(** INSERT … SELECT: the rows of inode [i] are inserted for inode [j].  (Inode [j] is new and has no rows, so no UNIQUE constraint is violated.) *)
Definition dup {A} (i j : nat) (m : gmap (nat * nat) A) : gmap (nat * nat) A :=
  map_fold (fun x v acc => if decide (x.1 = i) then <[(j, x.2) := v]> acc else acc) m m.
(** UPDATE names SET refcount = refcount + 1 WHERE … *)
Definition bump (P : nat -> Prop) `{!forall k, Decision (P k)} (m : gmap string (nat * Z)) : gmap string (nat * Z) :=
  (fun x => (x.1, if decide (P x.1) then x.2 + 1 else x.2)) <$> m.

(** 523-524 *)
Definition copy_attrs (a t : attr) : attr := Attr (mode a) (uid a) (gid a) (size t) (rdev t) (atime a) (mtime a) (ctime a) (refcount t) (locked t).
(** 565-575 *)
Definition new_attrs (a : attr) : attr := Attr (mode a) (uid a) (gid a) (size a) (rdev a) (atime a) (mtime a) (ctime a) 1 false.
(** 564-611: a new inode with the attributes [a] of inode [i], its symlink target, extended attributes and blocks *)
Definition copy_inode (i : nat) (a : attr) (s : fs) : fs * nat :=
  let j := seq s in
  let s := set_seq (S j) (set_inodes (<[j := new_attrs a]> (inodes s)) s) in
  let s := set_symlinks (match symlinks s !! i with Some t => <[j := t]> (symlinks s) | None => symlinks s end) s in
  let s := set_names (bump (fun k => is_Some (xattrs s !! (i, k))) (names s)) (set_xattrs (dup i j (xattrs s)) s) in
  let s := set_blocks (dup i j (blocks s)) (objects s) s in
  (set_blocks (blocks s) (map_imap (fun o rc => Some (rc + count_obj (filter (fun kv => kv.1.1 = j) (blocks s)) o)) (objects s)) s, j).
(** 619-623; [None]: the constraint UNIQUE (parent_inode, name_id) is violated *)
Definition add_row (q k j : nat) (s : fs) : option fs :=
  match contents s !! (q, k) with
  | Some _ => None
  | None => Some (set_names (bump (fun k' => k' = k) (names s)) (set_contents (<[(q, k) := j]> (contents s)) s))
  end.
Definition task : Type := nat * nat * Z.
(** One row, 555-623.  [cache]: id_cache. *)
Definition copy_row (q k i : nat) (cache : gmap nat nat) (s : fs) : fs * gmap nat nat * list task * res :=
  match cache !! i with
  | None =>
    match inodes s !! i with
    | None => (s, cache, [], Crash)
    | Some a =>
      let '(s1, j) := copy_inode i a s in
      let cache := if decide (refcount a <> 1) then <[i := j]> cache else cache in
      let push := if has_children s1 i then [(i, j, -1)] else [] in
      match add_row q k j s1 with Some s2 => (s2, cache, push, Done) | None => (s1, cache, push, Crash) end
    end
  | Some j =>
    match inodes s !! j with
    | None => (s, cache, [], Crash)
    | Some _ => let s1 := upd_inode j (set_refcount Z.succ) s in
      match add_row q k j s1 with Some s2 => (s2, cache, [], Done) | None => (s1, cache, [], Crash) end
    end
  end.
Fixpoint copy_rows (q : nat) (l : list (nat * nat)) (cache : gmap nat nat) (s : fs) : fs * gmap nat nat * list task * res :=
  match l with
  | [] => (s, cache, [], Done)
  | (k, i) :: l =>
    match copy_row q k i cache s with
    | (s, cache, push, Done) => let '(s', cache', push', r) := copy_rows q l cache s in (s', cache', push' ++ push, r)
    | x => x
    end
  end.
(** One pass 545-633.  [brk = Some m]: the loop is left after [m + 1] rows (627-629). *)
Definition copy_pass (brk : option nat) (p q : nat) (off : Z) (cache : gmap nat nat) (s : fs) : fs * gmap nat nat * list task * res :=
  let rs := crows s p off in
  match brk with
  | None => copy_rows q rs cache s
  | Some m => let '(s', cache', push, r) := copy_rows q (take (S m) rs) cache s in
      (s', cache', match last (take (S m) rs) with Some (k, _) => (p, q, Z.of_nat k) :: push | None => push end, r)
  end.
Inductive copy_loop : list task -> gmap nat nat -> fs -> fs -> res -> Prop :=
  | copy_end cache s : copy_loop [] cache s s Done
  | copy_next brk p q off rest cache s s1 cache1 push s' r : copy_pass brk p q off cache s = (s1, cache1, push, Done) -> copy_loop (push ++ rest) cache1 s1 s' r ->
      copy_loop ((p, q, off) :: rest) cache s s' r
  | copy_crash brk p q off rest cache s s1 cache1 push r : copy_pass brk p q off cache s = (s1, cache1, push, r) -> r <> Done ->
      copy_loop ((p, q, off) :: rest) cache s s1 r.
(** 636-639: the rows of the temporary directory become those of the target *)
Definition adopt (tmp tgt : nat) (s : fs) : fs * res :=
  if decide (filter (fun kv => kv.1.1 = tmp /\ is_Some (contents s !! (tgt, kv.1.2))) (contents s) = ∅)
  then (set_inodes (delete tmp (inodes s)) (set_contents (filter (fun kv => kv.1.1 <> tmp) (dup tmp tgt (contents s))) s), Done)
  else (s, Crash).
(** 526-531: the temporary directory *)
Definition make_tmp (now : Z) (s : fs) : fs * nat := (set_seq (S (seq s)) (set_inodes (<[seq s := Attr 0 0 0 0 0 now now now 0 false]> (inodes s)) s), seq s).
Inductive copy_tree (src tgt : nat) (now : Z) : fs -> fs -> res -> Prop :=
  | copy_failsafe s : failsafe s = true -> copy_tree src tgt now s s (Err EPERM)
  | copy_noent s : failsafe s = false -> inodes s !! src = None \/ inodes s !! tgt = None -> copy_tree src tgt now s s (Err ENOENT)
  | copy_fails s a b s1 tmp s2 r : failsafe s = false -> inodes s !! src = Some a -> inodes s !! tgt = Some b -> make_tmp now (upd_inode tgt (copy_attrs a) s) = (s1, tmp) ->
      copy_loop [(src, tmp, -1)] ∅ s1 s2 r -> r <> Done -> copy_tree src tgt now s s2 r
  | copy_done s a b s1 tmp s2 s' r : failsafe s = false -> inodes s !! src = Some a -> inodes s !! tgt = Some b -> make_tmp now (upd_inode tgt (copy_attrs a) s) = (s1, tmp) ->
      copy_loop [(src, tmp, -1)] ∅ s1 s2 Done -> adopt tmp tgt s2 = (s', r) -> copy_tree src tgt now s s' r.
