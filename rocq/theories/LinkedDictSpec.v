(** An ordered dictionary: a list of pairs with distinct keys, oldest first. *)
From stdpp Require Import prelude list.
From Verif Require Import LinkedDictModel.

Section spec.
Context {V : Type}.
Notation entries := (list (nat * V)).

Fixpoint find (k : nat) (l : entries) : option V :=
  match l with [] => None | (k', v) :: l => if decide (k' = k) then Some v else find k l end.
Definition remove (k : nat) (l : entries) : entries := filter (fun e => e.1 <> k) l.
Definition update (k : nat) (v : V) (l : entries) : entries :=
  match find k l with
  | Some _ => map (fun e => if decide (e.1 = k) then (k, v) else e) l
  | None => l ++ [(k, v)]
  end.

(** Contents after an operation. *)
Definition effect (l : entries) (o : op V) : entries :=
  match o with
  | SetItem k v => update k v l
  | Del k | Pop k => remove k l
  | Move k => match find k l with Some v => remove k l ++ [(k, v)] | None => l end
  | _ => l
  end.
Definition contents (l : entries) (os : list (op V)) : entries := foldl effect l os.

(** Answers of the dictionary operations (iterators are specified below). *)
Definition reply (l : entries) (o : op V) (a : answer V) : Prop :=
  match o with
  | Len => a = ANum (length l)
  | Contains k => a = ABool (bool_decide (is_Some (find k l)))
  | GetItem k => a = match find k l with Some v => AVal (Some v) | None => AKeyError end
  | GetDef k => a = AVal (find k l)
  | SetItem _ _ => a = ADone
  | Del k => a = match find k l with Some _ => ADone | None => AKeyError end
  | Pop k => a = match find k l with Some v => AVal (Some v) | None => AKeyError end
  | Move k => a = match find k l with Some _ => ADone | None => AKeyError end
  | LinkLen => exists n, a = ANum n
  | Next _ => a = AStop \/ exists k v, a = AYield k v /\ find k l = Some v
  | Close _ => a = ADone
  end.
Fixpoint replies (l : entries) (os : list (op V)) (ans : list (answer V)) : Prop :=
  match os, ans with
  | [], [] => True
  | o :: os, a :: ans => reply l o a /\ replies (effect l o) os ans
  | _, _ => False
  end.

(** An operation leaves the entry for [k] where it is. *)
Definition stays (k : nat) (o : op V) : Prop :=
  match o with Del k' | Pop k' | Move k' => k' <> k | _ => True end.

(** How often iterator [g] produced key [k]. *)
Fixpoint yields (g k : nat) (os : list (op V)) (ans : list (answer V)) : nat :=
  match os, ans with
  | Next g' :: os, AYield k' _ :: ans =>
    (if decide (g' = g /\ k' = k) then 1 else 0) + yields g k os ans
  | _ :: os, _ :: ans => yields g k os ans
  | _, _ => 0
  end.
End spec.
