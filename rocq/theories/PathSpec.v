(** What paths mean. *)
From stdpp Require Import prelude.
From Coq.Strings Require Import Byte.
From Verif Require Import Bytes Text PathModel.

(** The rows lead from [i] through the names to [j]. *)
Inductive leads (t : rows) : nat -> list bytes -> nat -> Prop :=
  | leads_nil i : leads t i [] i
  | leads_cons i n j ns k : (i, n, j) ∈ t -> leads t j ns k -> leads t i (n :: ns) k.
(** A directory has at most one entry of a name, and names are not empty and contain no slash. *)
Definition unique (t : rows) : Prop := forall p n i j, (p, n, i) ∈ t -> (p, n, j) ∈ t -> i = j.
Definition good_name (n : bytes) : Prop := n <> [] /\ SLASH ∉ n.
Definition good_names (t : rows) : Prop := forall p n i, (p, n, i) ∈ t -> good_name n.
(** The row that is found by its inode may be any. *)
Definition picks (pick : rows -> nat -> option (bytes * nat)) : Prop := forall t i,
  match pick t i with Some (n, p) => (p, n, i) ∈ t | None => forall p n, (p, n, i) ∉ t end.
(** However one goes up from [i], the root is reached after at most [d] steps. *)
Inductive within (t : rows) : nat -> nat -> Prop :=
  | within_root d : within t ROOT d
  | within_up i d : (exists p n, (p, n, i) ∈ t) -> (forall p n, (p, n, i) ∈ t -> within t p d) -> within t i (S d).
(** A path as it is written: each name preceded by a slash. *)
Definition written (ns : list bytes) : bytes := ns ≫= fun n => SLASH :: n.
