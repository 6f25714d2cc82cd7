(** Specification of the configuration. *)
From stdpp Require Import prelude list gmap.
From Coq Require Import NArith ZArith.
Local Open Scope N_scope.
Notation text := (list N) (only parsing).

(** A section is a list of options and values; the storage URL it is for is one of them, [url_key]. *)
Definition has_option (sec : list (text * text)) (k v : text) : Prop := exists i, sec !! i = Some (k, v) /\ forall j w, (j < i)%nat -> sec !! j <> Some (k, w).
Definition lacks_option (sec : list (text * text)) (k : text) : Prop := forall v, (k, v) ∉ sec.
Definition applies (url_key url : text) (sec : list (text * text)) : Prop := exists p, has_option sec url_key p /\ p <> [] /\ exists rest, url = p ++ rest.
(** The value of an option: from the last section that applies and has the option. *)
Definition configured (url_key url : text) (secs : list (list (text * text))) (k v : text) : Prop :=
  exists before sec after, secs = before ++ sec :: after /\ applies url_key url sec /\ has_option sec k v /\ Forall (fun s => applies url_key url s -> lacks_option s k) after.

(** Options for a backend, as a user writes them: separated by commas, with a value or without *)
Definition written (o : text * option text) : text := match o with (k, Some v) => k ++ 61 :: v | (k, None) => k end.
Fixpoint separated (l : list text) : text := match l with [] => [] | [w] => w | w :: l => w ++ 44 :: separated l end.
(** The last one counts *)
Definition last_option (l : list (text * option text)) (k : text) (v : option text) : Prop := exists before after, l = before ++ (k, v) :: after /\ forall w, (k, w) ∉ after.
