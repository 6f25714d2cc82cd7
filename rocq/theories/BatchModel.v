(** Batching helpers: split_by_n (src/s3ql/common.py 265-270) and BatchedTransactionManager (src/s3ql/database.py 606-652). *)
From stdpp Require Import prelude.
From Coq Require Import ZArith.
Local Open Scope Z_scope.

(** split_by_n as a generator: [yields n l bs]: the loop ends after yielding the batches [bs]. *)
Inductive yields {A} (n : nat) : list A -> list (list A) -> Prop :=
  | yields_end : yields n [] []
  | yields_next l bs : l <> [] -> yields n (drop n l) bs -> yields n l (take n l :: bs).
(** The first [k] batches. *)
Fixpoint batches {A} (k n : nat) (l : list A) : list (list A) :=
  match k, l with
  | O, _ | _, [] => []
  | S k, _ => take n l :: batches k n (drop n l)
  end.

(** The statements that reach the database. *)
Inductive stmt (W : Type) := Begin | Commit | Work (w : W) | Checkpoint.
Arguments Begin {W}. Arguments Commit {W}. Arguments Work {W} w. Arguments Checkpoint {W}.
Record mgr (W : Type) := Mgr { in_tx : bool; batch_size : Z; log : list (stmt W) }.
Arguments Mgr {W}. Arguments in_tx {W}. Arguments batch_size {W}. Arguments log {W}.
(** Errors in executing BEGIN or COMMIT are not modelled; [checkpoint] may fail.  [quot p dt]: int(p * dt_target / dt),
    None if it raises (640-643); any function. *)
Section mgr.
Context {W : Type} (quot : Z -> Z -> option Z).
Implicit Types m : mgr W.
Definition init : mgr W := Mgr false 100 [].                                                        (* 607-612 *)
Definition start_batch m : mgr W := Mgr true (batch_size m) (log m ++ [Begin]).                     (* 627-630 *)
Definition finish_batch (processed dt : Z) (fails : bool) m : mgr W * bool :=                       (* 632-643; false: exception *)
  if in_tx m then
    let m := Mgr false (batch_size m) (log m ++ [Commit]) in
    if fails then (m, false)
    else let m := Mgr false (batch_size m) (log m ++ [Checkpoint]) in
      match quot processed dt with Some q => (Mgr false (Z.max 100 q) (log m), true) | None => (m, false) end
  else (m, false).
Definition aexit m : mgr W := if in_tx m then Mgr false (batch_size m) (log m ++ [Commit]) else m.   (* 618-625 *)
(** The way it is used (fs.py 394-423, 445-487, 541-625): work, and from time to time a new batch; the block may be left
    by an exception at any point. *)
Inductive action := Do (w : W) | Next (processed dt : Z) (fails : bool) | Raise.
Fixpoint body (l : list action) m : mgr W * bool :=
  match l with
  | [] => (m, true)
  | Do w :: l => body l (Mgr (in_tx m) (batch_size m) (log m ++ [Work w]))
  | Next p dt f :: l => let (m, ok) := finish_batch p dt f m in if ok then body l (start_batch m) else (m, false)
  | Raise :: l => (m, false)
  end.
Definition run (l : list action) : mgr W * bool := let (m, ok) := body l (start_batch init) in (aexit m, ok).
End mgr.
Arguments action : clear implicits.
