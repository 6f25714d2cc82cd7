(** Case-insensitive dictionary: src/s3ql/http.py 938-979.

    [_store] is a python dict from the lowered key to the key and the value: an association list in the order of
    insertion, in which assigning to an existing key leaves it at its place.  [str.lower] is a parameter.
    The methods inherited from MutableMapping are modelled as far as they are listed here (collections.abc). *)
From stdpp Require Import prelude.

Section model.
Context {K V L : Type} `{!EqDecision L} (lower : K -> L).
Notation store := (list (L * (K * V))).
(** dict.__setitem__, __getitem__, __delitem__ (None: KeyError) *)
Fixpoint dict_set (l : L) (x : K * V) (d : store) : store :=
  match d with
  | [] => [(l, x)]
  | (l', y) :: d => if decide (l' = l) then (l', x) :: d else (l', y) :: dict_set l x d
  end.
Definition dict_get (l : L) (d : store) : option (K * V) := snd <$> head (filter (fun p : L * (K * V) => p.1 = l) d).
Definition dict_del (l : L) (d : store) : option store :=
  match dict_get l d with None => None | Some _ => Some (filter (fun p : L * (K * V) => p.1 <> l) d) end.

Inductive op := Set_ (k : K) (v : V) | Get (k : K) | Del (k : K) | Iter | Len
  | Contains (k : K) | SetDefault (k : K) (v : V) | Pop (k : K) | Clear | Items.
Inductive answer := ADone | AValue (v : V) | AKeyError | AKeys (l : list K) | ALen (n : nat) | ABool (b : bool) | AItems (l : list (K * V)).

Definition setitem (k : K) (v : V) (d : store) : store := dict_set (lower k) (k, v) d.          (* 963-964 *)
Definition getitem (k : K) (d : store) : option V := snd <$> dict_get (lower k) d.              (* 966-967 *)
Definition delitem (k : K) (d : store) : option store := dict_del (lower k) d.                  (* 969-970 *)
Definition iter (d : store) : list K := (fun p => p.2.1) <$> d.                                 (* 972-973 *)
(** popitem removes the first key of the iteration, until there is none. *)
Fixpoint clear (n : nat) (d : store) : option store :=
  match n, iter d with
  | _, [] => Some d
  | O, _ => None
  | S n, k :: _ => match getitem k d, delitem k d with Some _, Some d => clear n d | _, _ => None end
  end.
(** Mapping.items: the value of each key is looked up. *)
Fixpoint items (ks : list K) (d : store) : option (list (K * V)) :=
  match ks with
  | [] => Some []
  | k :: ks => match getitem k d, items ks d with Some v, Some l => Some ((k, v) :: l) | _, _ => None end
  end.
Definition exec (o : op) (d : store) : store * answer :=
  match o with
  | Set_ k v => (setitem k v d, ADone)
  | Get k => (d, match getitem k d with Some v => AValue v | None => AKeyError end)
  | Del k => match delitem k d with Some d => (d, ADone) | None => (d, AKeyError) end
  | Iter => (d, AKeys (iter d))
  | Len => (d, ALen (length d))                                                                  (* 975-976 *)
  | Contains k => (d, ABool (match getitem k d with Some _ => true | None => false end))
  | SetDefault k v => match getitem k d with Some v => (d, AValue v) | None => (setitem k v d, AValue v) end
  | Pop k => match getitem k d, delitem k d with Some v, Some d => (d, AValue v) | _, _ => (d, AKeyError) end
  | Clear => match clear (length d) d with Some d => (d, ADone) | None => (d, AKeyError) end
  | Items => match items (iter d) d with Some l => (d, AItems l) | None => (d, AKeyError) end
  end.
Fixpoint run (l : list op) (d : store) : store * list answer :=
  match l with
  | [] => (d, [])
  | o :: l => let (d, a) := exec o d in let (d, r) := run l d in (d, a :: r)
  end.
End model.
Notation store K V L := (list (L * (K * V))).
Arguments op : clear implicits.
Arguments answer : clear implicits.
