(** What a lock per key promises, stated on the sequence of acquisitions and releases. *)
From stdpp Require Import prelude list.
From Verif Require Import MultiLockModel.

(** Between two acquisitions of the same key there is a release of it. *)
Definition mutual_exclusion (tr : list obs) : Prop :=
  forall l1 t1 k l2 t2 l3,
    tr = l1 ++ Acquired t1 k :: l2 ++ Acquired t2 k :: l3 -> exists t, Released t k ∈ l2.

(** A key is only released while it is held. *)
Definition no_spurious_release (tr : list obs) : Prop :=
  forall l1 t k l2, tr = l1 ++ Released t k :: l2 ->
    exists a t' b, l1 = a ++ Acquired t' k :: b /\ forall t'', Released t'' k ∉ b.

(** The key is held after [tr]: it was acquired and not released since. *)
Definition held_after (tr : list obs) (k : nat) : Prop :=
  exists a t b, tr = a ++ Acquired t k :: b /\ forall t', Released t' k ∉ b.

(** Number of times the owner of the inner lock continued. *)
Definition runs (es : list event) : nat := length (filter (fun e => e = Run) es).
