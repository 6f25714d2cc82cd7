(** Properties of the inode cache (C12).  [n] is CACHE_SIZE. *)
From stdpp Require Import prelude list gmap.
From Verif Require Import InodeCacheModel InodeCacheSpec InodeCacheProofs.

(** Working through the cache gives the same answers as working on the table directly. *)
Theorem inode_cache_is_transparent {A} (n : nat) (tb : gmap nat A) (next : nat) (os : list (op A)) :
  0 < n -> (forall id, is_Some (tb !! id) -> id < next) -> careful None (Table tb next ∅) os ->
  (run n (init n tb next) os).2 = (trun (Table tb next ∅) os).2.
Proof.
  intros Hn Hf Hc. exact (proj1 (run_refines n os _ _ _ (init_inv n tb next Hn Hf) Hc)).
Qed.

(** After a flush (or drop) the table holds what the callers see, and after a drop the cache is empty
    (the assertion inode_cache.py:281 holds). *)
Theorem flush_updates_table {A} (n : nat) (tb : gmap nat A) (next : nat) (os : list (op A)) :
  0 < n -> (forall id, is_Some (tb !! id) -> id < next) -> careful None (Table tb next ∅) os ->
  let s := (run n (init n tb next) os).1 in
  let t := (trun (Table tb next ∅) os).1 in
  db (flush s) = t_rows t /\ db (destroy s) = t_rows t /\ attrs (destroy s) = ∅ /\
  forall id, db (flush_id id s) !! id = t_rows t !! id.
Proof.
  intros Hn Hf Hc. destruct (proj2 (run_refines n os _ _ _ (init_inv n tb next Hn Hf) Hc)) as [cur Hi].
  exact (conj (proj2 (inv_flush _ _ _ _ Hi)) (conj (proj2 (proj2 (inv_destroy _ _ _ _ Hi)))
          (conj (proj1 (proj2 (inv_destroy _ _ _ _ Hi))) (fun id => flush_id_db _ _ _ _ id Hi)))).
Qed.

(** At most [n] inodes are cached, and an object with unsaved changes is still in the cache: the
    alert of [_Inode.__del__] (inode_cache.py:118-131) is never raised. *)
Theorem inode_cache_is_bounded {A} (n : nat) (tb : gmap nat A) (next : nat) (os : list (op A)) :
  0 < n -> (forall id, is_Some (tb !! id) -> id < next) -> careful None (Table tb next ∅) os ->
  let s := (run n (init n tb next) os).1 in
  size (attrs s) <= n /\
  forall oid id a, objs s !! oid = Some (Obj id a true) -> attrs s !! id = Some oid.
Proof.
  intros Hn Hf Hc. destruct (proj2 (run_refines n os _ _ _ (init_inv n tb next Hn Hf) Hc)) as [cur Hi].
  exact (conj (inv_bounded _ _ _ _ Hi) (i_dirty _ _ _ _ Hi)).
Qed.

(** The rule is needed: with the real cache size, an object that is kept while 100 other inodes are
    looked at loses its update. *)
Definition others : list (op nat) := map (fun i => Get 1 (2 + i)) (seq 0 100).
Definition stale_ops : list (op nat) := Get 0 1 :: others ++ [Assign 0 7; Get 2 1].
Definition stale_table : gmap nat nat := list_to_map (map (fun i => (i, 0)) (seq 1 101)).

Theorem kept_inode_refuted :
  last (run 100 (init 100 stale_table 102) stale_ops).2 = Some (AAttrs 1 0) /\
  last (trun (Table stale_table 102 ∅) stale_ops).2 = Some (AAttrs 1 7).
Proof. split; vm_compute; reflexivity. Qed.

(** Three inodes through a cache of two, with a deletion, a creation and a drop. *)
Definition ops_example : list (op nat) :=
  [Get 0 1; Assign 0 11; Get 0 2; Assign 0 12; Get 0 3; Peek 0; Create 0 4; Assign 0 14; Del 2; Get 0 2;
   Flush; Get 0 1; Drop; Get 0 4; Peek 0].
Definition table_example : gmap nat nat := {[1 := 1; 2 := 2; 3 := 3]}.
Example inode_cache_example :
  (forall id, is_Some (table_example !! id) -> id < 4) /\
  careful None (Table table_example 4 ∅) ops_example /\
  (run 2 (init 2 table_example 4) ops_example).2
  = [AAttrs 1 1; ADone; AAttrs 2 2; ADone; AAttrs 3 3; AAttrs 3 3; AAttrs 4 4; ADone; ADone; AError; ADone;
     AAttrs 1 11; ADone; AAttrs 4 14; AAttrs 4 14].
Proof.
  split; [|split].
  - intros id [x Hx]. unfold table_example in Hx.
    repeat (apply lookup_insert_Some in Hx as [[<- _]|[_ Hx]]; [lia|]).
    apply lookup_singleton_Some in Hx as [<- _]. lia.
  - repeat split.
  - vm_compute. reflexivity.
Qed.

Print Assumptions inode_cache_is_transparent.
Print Assumptions flush_updates_table.
Print Assumptions inode_cache_is_bounded.
Print Assumptions kept_inode_refuted.
