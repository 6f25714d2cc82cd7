(** Model of lock_tree and remove_tree (src/s3ql/fs.py 379-517), which s3qllock and s3qlrm request through the
    control file.

    Both are loops over a queue (here with the element popped next first).  They give other requests a chance to
    run after a number of rows that depends on how long the batch before has taken (database.py 606-650); here:
    after any number of rows.  lock_tree waits only between two passes of the loop.  remove_tree also waits while
    the blocks of a removed file are deleted. *)
From stdpp Require Import prelude gmap strings sorting.
From Coq Require Import ZArith String.
From Verif Require Import FsModel FsSpec.
Local Close Scope string_scope.
Local Open Scope Z_scope.

(** SELECT name_id, inode FROM contents WHERE parent_inode=? AND name_id > ? ORDER BY name_id (400-404) *)
Definition crow_le (x y : nat * nat) : Prop := (x.1 <= y.1)%nat.
Global Instance crow_le_dec x y : Decision (crow_le x y).
Proof. unfold crow_le. apply _. Defined.
Definition crows (s : fs) (p : nat) (off : Z) : list (nat * nat) :=
  merge_sort crow_le (omap (fun x : nat * nat * nat => let '((q, k), i) := x in if decide (q = p /\ off < Z.of_nat k) then Some (k, i) else None) (map_to_list (contents s))).

(** 405-412: the rows are handled one after the other; the second component is what is appended to the queue (last one first). *)
Fixpoint lock_rows (l : list (nat * nat)) (s : fs) : fs * list (nat * Z) * res :=
  match l with
  | [] => (s, [], Done)
  | (_, i) :: l =>
    match lock i s with
    | (s, Done) => let '(s', q, r) := lock_rows l s in (s', q ++ (if has_children s i then [(i, -1)] else []), r)
    | (s, r) => (s, [], r)
    end
  end.
(** One pass 395-421.  [brk = Some m]: the loop is left after [m + 1] rows (416-418). *)
Definition lock_pass (brk : option nat) (p : nat) (off : Z) (s : fs) : fs * list (nat * Z) * res :=
  let rs := crows s p off in
  match brk with
  | None => lock_rows rs s
  | Some m => let '(s', q, r) := lock_rows (take (S m) rs) s in
      (s', match last (take (S m) rs) with Some (k, _) => (p, Z.of_nat k) :: q | None => q end, r)
  end.
(** The loop, with any other calls [h] in between. *)
Inductive lock_loop (max_obj_size : Z) (exact : bool) : list (nat * Z) -> fs -> list (call * res) -> fs -> Prop :=
  | lock_end s : lock_loop max_obj_size exact [] s [] s
  | lock_next brk p off q s s1 q1 h s' : lock_pass brk p off s = (s1, q1, Done) -> lock_loop max_obj_size exact (q1 ++ q) s1 h s' ->
      lock_loop max_obj_size exact ((p, off) :: q) s h s'
  | lock_other q s c s1 r h s' : allowed max_obj_size exact s c -> exec max_obj_size c s = (s1, r) -> r <> Crash ->
      lock_loop max_obj_size exact q s1 h s' -> lock_loop max_obj_size exact q s ((c, r) :: h) s'.
(** lock_tree 379-424 (382: fail-safe mode is checked only here) *)
Definition lock_tree (max_obj_size : Z) (exact : bool) (i0 : nat) (s : fs) (h : list (call * res)) (s' : fs) : Prop :=
  failsafe s = false /\ exists s1, lock i0 s = (s1, Done) /\ lock_loop max_obj_size exact [(i0, -1)] s1 h s'.

Section remove.
Context (max_obj_size : Z).
(** 460-477: the rows of a chunk; directories that are not empty are appended to the queue (last one first).
    The same time is used for all rows. *)
Fixpoint remove_rows (p : nat) (l : list (string * nat)) (now : Z) (s : fs) : fs * list nat * res :=
  match l with
  | [] => (s, [], Done)
  | (n, i) :: l =>
    if has_children s i then let '(s', q, r) := remove_rows p l now s in (s', q ++ [i], r)
    else match remove max_obj_size p n i true now s with
    | (s, Done) => remove_rows p l now s
    | (s, r) => (s, [], r)
    end
  end.
(** SELECT name, name_id, inode FROM contents_v WHERE parent_inode=? LIMIT batch_size (450-456): any rows *)
Definition chunk (s : fs) (p : nat) (size : nat) (l : list (string * nat)) : Prop :=
  NoDup l.*1 /\ (forall n i, (n, i) ∈ l -> entry s p n = Some i) /\
  (List.length l = size \/ (List.length l < size)%nat /\ forall n i, entry s p n = Some i -> (n, i) ∈ l).
(** One pass 446-487 *)
Inductive remove_pass : list nat * fs -> list nat * fs -> res -> Prop :=
  | pass p q s size l now s' pushed r : (0 < size)%nat -> chunk s p size l -> remove_rows p l now s = (s', pushed, r) ->
      remove_pass (p :: q, s)
        ((if decide (pushed <> []) then pushed ++ p :: q else if decide (List.length l = size) then p :: q else q), s') r.
Inductive remove_loop : list nat -> fs -> fs -> res -> Prop :=
  | rloop_end s : remove_loop [] s s Done
  | rloop_next q s q1 s1 s' r : remove_pass (q, s) (q1, s1) Done -> remove_loop q1 s1 s' r -> remove_loop q s s' r
  | rloop_fail q s q1 s1 r : remove_pass (q, s) (q1, s1) r -> r <> Done -> remove_loop q s s1 r.
(** remove_tree 426-517 *)
Inductive remove_tree (p0 : nat) (n0 : string) : fs -> fs -> res -> Prop :=
  | rtree_failsafe s : failsafe s = true -> remove_tree p0 n0 s s (Err EPERM)
  | rtree_noparent s : failsafe s = false -> inodes s !! p0 = None -> remove_tree p0 n0 s s Crash
  | rtree_locked s a : failsafe s = false -> inodes s !! p0 = Some a -> locked a = true -> remove_tree p0 n0 s s (Err EPERM)
  | rtree_lookup s a s1 r : failsafe s = false -> inodes s !! p0 = Some a -> locked a = false -> lookup_ p0 n0 s = (s1, inl r) -> remove_tree p0 n0 s s1 r
  | rtree_loop s a s1 i0 s2 r : failsafe s = false -> inodes s !! p0 = Some a -> locked a = false -> lookup_ p0 n0 s = (s1, inr i0) ->
      remove_loop [i0] s1 s2 r -> r <> Done -> remove_tree p0 n0 s s2 r
  | rtree_remove s a s1 i0 s2 now s3 r : failsafe s = false -> inodes s !! p0 = Some a -> locked a = false -> lookup_ p0 n0 s = (s1, inr i0) ->
      remove_loop [i0] s1 s2 Done -> remove max_obj_size p0 n0 i0 true now s2 = (s3, r) -> r <> Done -> remove_tree p0 n0 s s3 r
  | rtree_end s a s1 i0 s2 now s3 s' r : failsafe s = false -> inodes s !! p0 = Some a -> locked a = false -> lookup_ p0 n0 s = (s1, inr i0) ->
      remove_loop [i0] s1 s2 Done -> remove max_obj_size p0 n0 i0 true now s2 = (s3, Done) -> forget max_obj_size [(i0, 1)] s3 = (s', r) ->
      remove_tree p0 n0 s s' r.
End remove.
