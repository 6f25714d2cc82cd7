(** Specification of the expiration of backups. *)
From stdpp Require Import prelude list.
From Coq Require Import ZArith.
Local Open Scope Z_scope.

(** The age ranges: from 0 to the first boundary, from each boundary to the next. *)
Definition age_range (cycles : list Z) (lo hi : Z) : Prop :=
  (lo = 0 /\ head cycles = Some hi) \/ exists i, cycles !! i = Some lo /\ cycles !! S i = Some hi.
(** After [t] more backups, with none removed, there is a backup in an age range. *)
Definition covered (state : list (Z * Z)) (t : Z) (lo hi : Z) : Prop :=
  (exists x age, (x, age) ∈ state /\ lo <= age + t < hi) \/ (exists age, 0 <= age < t /\ lo <= age < hi).
(** What the ages would be if no backup were ever removed: [l], the backups in the order in which they were made. *)
Fixpoint all_ages (l : list Z) : list (Z * Z) := match l with [] => [] | x :: l => (x, Z.of_nat (length l)) :: all_ages l end.
