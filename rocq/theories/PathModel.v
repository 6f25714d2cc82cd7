(** Paths: src/s3ql/common.py 86-143.

    The table contents_v is a list of rows (parent_inode, name, inode).  [SELECT ... WHERE inode=? LIMIT 1] (129) may
    return any matching row: [pick].  The type checks 94 and 123 are not modelled. *)
From stdpp Require Import prelude.
From Coq.Strings Require Import Byte.
From Verif Require Import Bytes Text.

Definition ROOT : nat := 1.
Notation rows := (list (nat * bytes * nat)).
Inductive res (A : Type) := Ok (a : A) | KeyError | NoSuchRow | RuntimeError.
Arguments Ok {A} a.
Arguments KeyError {A}.
Arguments NoSuchRow {A}.
Arguments RuntimeError {A}.
Definition SLASH : byte := "/"%byte.

(** conn.get_inode_val("SELECT inode FROM contents_v WHERE name=? AND parent_inode=?") 104-106 *)
Definition entry (t : rows) (p : nat) (n : bytes) : option nat :=
  snd <$> head (filter (fun x : nat * bytes * nat => x.1 = (p, n)) t).
(** 101-109 *)
Fixpoint walk (t : rows) (i : nat) (els : list bytes) : option nat :=
  match els with
  | [] => Some i
  | el :: els => match entry t i el with Some j => walk t j els | None => None end
  end.
Definition inode_for_path (path : bytes) (t : rows) : res nat :=
  match walk t ROOT (split SLASH (rstrip SLASH (lstrip SLASH path))) with Some i => Ok i | None => KeyError end.

(** 127-138: [n] is maxdepth - 1. *)
Fixpoint up (pick : rows -> nat -> option (bytes * nat)) (t : rows) (n : nat) (i : nat) (path : list bytes) : res (list bytes) :=
  if decide (i = ROOT) then Ok path
  else match pick t i with
    | None => NoSuchRow
    | Some (name, p) => match n with O => RuntimeError | S n => up pick t n p (path ++ [name]) end
    end.
(** get_path 113-143 *)
Definition get_path (pick : rows -> nat -> option (bytes * nat)) (i : nat) (t : rows) (name : option bytes) : res bytes :=
  match up pick t 254 i (match name with None => [] | Some n => [n] end) with
  | Ok path => Ok (join SLASH (reverse (path ++ [[]])))
  | KeyError => KeyError | NoSuchRow => NoSuchRow | RuntimeError => RuntimeError
  end.
