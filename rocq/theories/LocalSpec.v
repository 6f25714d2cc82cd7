(** What a store of objects is: independent of files and directories. *)
From stdpp Require Import prelude gmap.
From Verif Require Import LocalModel.

Section spec.
Context {byte meta : Type} `{!EqDecision byte}.
Context (header : list byte) (pack : nat -> list byte) (unpack : list byte -> nat) (freeze : meta -> list byte) (thaw : list byte -> option meta) (ident : str).
Local Notation state := (state byte meta).
Local Notation step := (step header pack unpack freeze thaw ident).
(** Objects change when a write completes and when an object is deleted; a read is of the object that was there when it
    opened the file. *)
Local Notation objects := (gmap str (meta * list byte)).
Definition after (e : event byte meta) (o : outcome byte meta) (s : state) (st : objects) : objects :=
  match e, o with
  | Commit t, Stored _ => match tasks s !! t with Some (Writing key m d _ _ _) => <[key := (m, d)]> st | _ => st end
  | Delete key, _ => delete key st
  | _, _ => st
  end.
Definition seen (e : event byte meta) (s : state) (st : objects) (ex : gmap nat (meta * list byte)) : gmap nat (meta * list byte) :=
  match e with
  | OpenRead t => match tasks s !! t with Some (Reader key) => partial_alter (fun _ => st !! key) t ex | _ => ex end
  | _ => ex
  end.
(** Where it works: names are regular, writes to the disk are complete, and no two uploads of the same key overlap. *)
Definition is_regular (key : str) : Prop := key <> [] /\ key <> DOT /\ key <> DOTDOT.
Definition allowed (e : event byte meta) (s : state) : Prop :=
  match e with
  | BeginWrite _ key _ _ | BeginRead _ key | Delete key => is_regular key
  | OpenWrite t _ => forall key m d t' m' d' i pos todo, tasks s !! t = Some (Writer key m d) -> tasks s !! t' <> Some (Writing key m' d' i pos todo)
  | WriteSome t n => forall key m d i pos l ls, tasks s !! t = Some (Writing key m d i pos (l :: ls)) -> length l <= n
  | _ => True
  end.
Inductive history : state -> objects -> gmap nat (meta * list byte) -> Prop :=
  | hist_empty : history empty_dir ∅ ∅
  | hist_step s st ex e s' o : history s st ex -> allowed e s -> step e s = Some (s', o) -> history s' (after e o s st) (seen e s st ex).
End spec.
