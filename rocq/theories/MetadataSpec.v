(** Specification side of the metadata theorems. *)
From stdpp Require Import prelude list gmap.
From Verif Require Import Files MetadataModel.

(** An event that leaves no gap between blocks: a write starts no later than in the block where the
    file ends (in particular every write at or before the end of the file, and SQLite's jump over
    its never written lock page at 1 GiB), and truncation only shrinks the file. *)
Definition hole_free (bs : nat) (s : state) (e : event) : Prop :=
  match e with
  | EWrite off _ => off / bs <= length (db_data (st_db s)) / bs
  | ETruncate size => size <= length (db_data (st_db s))
  | _ => True
  end.

Fixpoint run_hole_free (hash : file -> list byte) (bs : nat) (s : state) (es : list event) : Prop :=
  match es with
  | [] => True
  | e :: es => hole_free bs s e /\
    match step hash bs s e with Some s' => run_hole_free hash bs s' es | None => True end
  end.


(** [o] is the newest stored version of block [b]. *)
Definition newest (r : remote) (b : nat) (o : list byte) : Prop :=
  exists v : nat, objs r !! (b, v) = Some o /\
    forall (v' : nat) o', objs r !! (b, v') = Some o' -> v' <= v.
