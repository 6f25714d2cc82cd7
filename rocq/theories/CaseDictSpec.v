(** A map with case-insensitive keys, as a function of the history. *)
From stdpp Require Import prelude.
From Verif Require Import CaseDictModel.

Section spec.
Context {K V L : Type} `{!EqDecision L} (lower : K -> L).
(** The keys that are set after a history (the latest operation first): their latest spelling and value. *)
Fixpoint last_set (h : list (op K V)) (k : K) : option (K * V) :=
  match h with
  | [] => None
  | o :: h =>
    match o with
    | Set_ k' v => if decide (lower k' = lower k) then Some (k', v) else last_set h k
    | SetDefault k' v => match last_set h k with Some x => Some x | None => if decide (lower k' = lower k) then Some (k', v) else None end
    | Del k' | Pop k' => if decide (lower k' = lower k) then None else last_set h k
    | Clear => None
    | _ => last_set h k
    end
  end.
(** [ks] are the spellings of the keys that are set, each once. *)
Definition keys_of (h : list (op K V)) (ks : list K) : Prop :=
  NoDup (lower <$> ks) /\ forall k, k ∈ ks <-> exists v, last_set h k = Some (k, v).
Definition correct (h : list (op K V)) (o : op K V) (a : answer K V) : Prop :=
  match o with
  | Set_ _ _ | Clear => a = ADone
  | Get k => a = match last_set h k with Some (_, v) => AValue v | None => AKeyError end
  | Del k => a = match last_set h k with Some _ => ADone | None => AKeyError end
  | Iter => exists ks, a = AKeys ks /\ keys_of h ks
  | Len => exists ks, a = ALen (length ks) /\ keys_of h ks
  | Contains k => a = ABool (match last_set h k with Some _ => true | None => false end)
  | SetDefault k v => a = AValue (match last_set h k with Some (_, v) => v | None => v end)
  | Pop k => a = match last_set h k with Some (_, v) => AValue v | None => AKeyError end
  | Items => exists l, a = AItems l /\ keys_of h l.*1 /\ forall k v, (k, v) ∈ l -> last_set h k = Some (k, v)
  end.
Fixpoint all_correct (h : list (op K V)) (os : list (op K V)) (as_ : list (answer K V)) : Prop :=
  match os, as_ with
  | [], [] => True
  | o :: os, a :: as_ => correct h o a /\ all_correct (o :: h) os as_
  | _, _ => False
  end.
End spec.
