(** What a server does with headers, independent of how the program uses them: it keeps those whose names start with its prefix for metadata, without the
    spaces around the values, and adds any other headers. *)
From stdpp Require Import prelude gmap.
From Coq Require Import NArith.
From Verif Require Import CodecModel HeaderModel HdrModel.
Local Open Scope N_scope.

Definition kept (ns : text) (sent answer : headers) : Prop := forall k, ns `prefix_of` k -> answer !! k = strip <$> sent !! k.
(** No header of a table is in the name space *)
Definition foreign (ns : text) (h : headers) : Prop := forall k, ns `prefix_of` k -> h !! k = None.
