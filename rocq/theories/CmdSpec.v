(** Trees, independent of how the tools use them: a directory is in one directory only, which is its parent; no entry has a special name. *)
From stdpp Require Import prelude gmap.
From Coq Require Import NArith.
From Verif Require Import CodecModel CmdModel.
Local Open Scope N_scope.

Definition regular (c : text) : Prop := c <> [] /\ c <> DOT /\ c <> DOTDOT.
Definition proper (t : tree) : Prop := forall d p es c i, t !! d = Some (Dir p es) -> es !! c = Some i -> regular c /\ forall q es', t !! i = Some (Dir q es') -> q = d.
(** The entry that a command to remove refers to *)
Definition entry (t : tree) (p : N) (c : text) : option N := match t !! p with Some (Dir _ es) => es !! c | _ => None end.
