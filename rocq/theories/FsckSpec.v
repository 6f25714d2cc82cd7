(** What a consistent file system is, stated on the tables alone. *)
From stdpp Require Import prelude gmap.
From Coq Require Import ZArith.
From Verif Require Import FsckModel.
Local Open Scope Z_scope.

(** The number of rows for which [p] holds. *)
Definition count {A} (p : A -> bool) (m : gmap nat A) : Z := Z.of_nat (length (List.filter p (snd <$> map_to_list m))).
Definition same (a b : nat) : bool := Nat.eqb a b.

Record references_resolve (s : fsck) : Prop := {
  entries_resolve : forall k e, contents s !! k = Some e -> c_name e ∈ dom (names s) /\ c_inode e ∈ dom (inodes s) /\ c_parent e ∈ dom (inodes s);
  blocks_resolve : forall k b, blocks s !! k = Some b -> b_inode b ∈ dom (inodes s) /\ b_obj b ∈ dom (objects s);
  attributes_resolve : forall k x, xattrs s !! k = Some x -> x_inode x ∈ dom (inodes s) /\ x_name x ∈ dom (names s);
  targets_resolve : forall i z, links s !! i = Some z -> i ∈ dom (inodes s) }.
(** Names are counted by entries and attributes, inodes by entries, objects by blocks. *)
Record counts_right (s : fsck) : Prop := {
  names_counted : forall id n r, names s !! id = Some (n, r) -> r = count (fun e => same (c_name e) id) (contents s) + count (fun x => same (x_name x) id) (xattrs s);
  inodes_counted : forall i r, inodes s !! i = Some r -> i <> ROOT -> i <> CTRL -> i_ref r = count (fun e => same (c_inode e) i) (contents s) /\ 0 < i_ref r;
  objects_counted : forall id o, objects s !! id = Some o -> o_ref o = count (fun b => same (b_obj b) id) (blocks s) }.
(** The data of a file does not reach beyond its size. *)
Definition sizes_cover (blocksize : Z) (s : fsck) : Prop :=
  forall k b o r, blocks s !! k = Some b -> objects s !! b_obj b = Some o -> inodes s !! b_inode b = Some r -> b_no b * blocksize + o_len o <= i_size r.
(** Every object has a hash, a known size, and is in the backend. *)
Definition objects_stored (s : fsck) : Prop :=
  forall id o, objects s !! id = Some o -> o_hash o <> None /\ o_phys o <> -1 /\ exists d, store s !! id = Some d.
Record consistent (blocksize : Z) (s : fsck) : Prop := {
  c_references : references_resolve s; c_counts : counts_right s; c_sizes : sizes_cover blocksize s; c_objects : objects_stored s }.

(** Objects in the backend that nothing refers to *)
Definition no_garbage (s : fsck) : Prop := forall id d, store s !! id = Some d -> exists o, objects s !! id = Some o /\ 0 < o_ref o.
(** /lost+found *)
Definition has_lost_found (s : fsck) : Prop :=
  (exists k e r, contents s !! k = Some e /\ c_parent e = ROOT /\ names s !! c_name e = Some (Blob LOF, r)) /\
  (forall k e r, contents s !! k = Some e -> c_parent e = ROOT -> names s !! c_name e = Some (Blob LOF, r) -> exists i, inodes s !! c_inode e = Some i /\ i_kind i = Dir).
Definition is_parent (s : fsck) (i : nat) : Prop := exists k e, contents s !! k = Some e /\ c_parent e = i.
(** The directories form a tree under the root, of less than [limit] levels. *)
Definition is_tree (limit : nat) (s : fsck) : Prop :=
  (forall i, is_parent s i -> i = ROOT \/ exists k e, contents s !! k = Some e /\ c_inode e = i) /\
  exists depth : nat -> nat, forall k e, contents s !! k = Some e -> is_parent s (c_inode e) ->
    c_inode e <> ROOT /\ (depth (c_inode e) = S (depth (c_parent e)) /\ depth (c_inode e) < limit)%nat.
(** File types agree with the rest of the row and the other tables. *)
Record well_typed (s : fsck) : Prop := {
  type_known : forall i r, inodes s !! i = Some r -> i_kind r <> NoType;
  link_target : forall i r, inodes s !! i = Some r -> i_kind r = Lnk <-> links s !! i <> None;
  link_size : forall i r z, inodes s !! i = Some r -> links s !! i = Some z -> z = i_size r;
  type_size : forall i r, inodes s !! i = Some r -> i_size r <> 0 -> i_kind r = Reg \/ i_kind r = Lnk \/ i_kind r = Dir;
  type_rdev : forall i r, inodes s !! i = Some r -> i_rdev r <> 0 -> i_kind r = Dev;
  type_parent : forall i r, inodes s !! i = Some r -> is_parent s i -> i_kind r = Dir;
  type_blocks : forall k b r, blocks s !! k = Some b -> inodes s !! b_inode b = Some r -> i_kind r = Reg }.
Definition names_short (s : fsck) : Prop :=
  forall k e r n, contents s !! k = Some e -> names s !! c_name e = Some (n, r) -> (match n with Blob l | Text l => length l end <= 255)%nat.
Record clean (blocksize : Z) (limit : nat) (s : fsck) : Prop := {
  cl_consistent : consistent blocksize s; cl_garbage : no_garbage s; cl_refs : forall id o, objects s !! id = Some o -> 0 < o_ref o;
  cl_lost_found : has_lost_found s; cl_tree : is_tree limit s; cl_typed : well_typed s; cl_names : names_short s }.

(** The name [n] is in use in the directory [p]. *)
Definition in_use (s : fsck) (p : nat) (n : list nat) : Prop := exists k e r, contents s !! k = Some e /\ c_parent e = p /\ names s !! c_name e = Some (Blob n, r).

(** What a block of a file holds; what an undamaged block is *)
Definition block_data (s : fsck) (i : nat) (b : Z) (d : data) : Prop :=
  exists k id o, blocks s !! k = Some (Brow i b id) /\ objects s !! id = Some o /\ store s !! id = Some d.
Definition sound_block (s : fsck) (k i : nat) (b : Z) (id : nat) (h : nat) (d : data) : Prop :=
  blocks s !! k = Some (Brow i b id) /\ i ∈ dom (inodes s) /\ (exists o, objects s !! id = Some o /\ o_hash o = Some h) /\ store s !! id = Some d.

(** What must not be lost: inodes with their type, device and at least their size; undamaged blocks; attributes, symlink targets and
    entries of inodes that exist. *)
Record kept (s s' : fsck) : Prop := {
  kept_inodes : forall i r, inodes s !! i = Some r -> exists r', inodes s' !! i = Some r' /\ (i_kind r' = i_kind r \/ i_kind r = NoType) /\ i_rdev r' = i_rdev r /\ i_size r <= i_size r';
  kept_blocks : forall k i b id h d, sound_block s k i b id h d -> sound_block s' k i b id h d;
  kept_attributes : forall k x, xattrs s !! k = Some x -> x_inode x ∈ dom (inodes s) -> exists x', xattrs s' !! k = Some x' /\ x_inode x' = x_inode x;
  kept_targets : forall i z, links s !! i = Some z -> i ∈ dom (inodes s) -> links s' !! i = Some z;
  kept_entries : forall k e, contents s !! k = Some e -> c_inode e ∈ dom (inodes s) -> exists e', contents s' !! k = Some e' /\ c_inode e' = c_inode e }.

(** Directories that can be reached from the root *)
Inductive reach (s : fsck) : nat -> Prop :=
  | reach_root : reach s ROOT
  | reach_entry k e : contents s !! k = Some e -> reach s (c_parent e) -> reach s (c_inode e).

(** The state for another run *)
Definition again (s : fsck) : fsck :=
  Fsck (names s) (contents s) (inodes s) (blocks s) (objects s) (xattrs s) (links s) (store s) (cache s) ∅ false false false false.
