(** The inodes table without any cache: a map from ids to attributes. *)
From stdpp Require Import prelude list gmap.
From Verif Require Import InodeCacheModel.

Section spec.
Context {A : Type}.

(** [t_vars]: which inode a caller's variable stands for. *)
Record table := Table { t_rows : gmap nat A; t_next : nat; t_vars : gmap nat nat }.

Definition tstep (t : table) (o : op A) : table * answer A :=
  match o with
  | Get v id => match t_rows t !! id with
                | Some a => (Table (t_rows t) (t_next t) (<[v := id]> (t_vars t)), AAttrs id a)
                | None => (t, AError)
                end
  | Create v a =>
    (Table (<[t_next t := a]> (t_rows t)) (S (t_next t)) (<[v := t_next t]> (t_vars t)),
     AAttrs (t_next t) a)
  | Assign v a => match t_vars t !! v with
                  | Some id => (Table (<[id := a]> (t_rows t)) (t_next t) (t_vars t), ADone)
                  | None => (t, AError)
                  end
  | Peek v => match t_vars t !! v with
              | Some id => match t_rows t !! id with
                           | Some a => (t, AAttrs id a)
                           | None => (t, AError)
                           end
              | None => (t, AError)
              end
  | Del id => match t_rows t !! id with
              | Some _ => (Table (delete id (t_rows t)) (t_next t) (t_vars t), ADone)
              | None => (t, AError)
              end
  | FlushId _ | Flush | Drop => (t, ADone)
  end.

Fixpoint trun (t : table) (os : list (op A)) : table * list (answer A) :=
  match os with
  | [] => (t, [])
  | o :: os => let (t, a) := tstep t o in let (t, l) := trun t os in (t, a :: l)
  end.

(** The documented rule (inode_cache.py:155-169): an object is only used as long as no other call was
    made that may expire it.  [cur] is the variable that may be used. *)
Fixpoint careful (cur : option nat) (t : table) (os : list (op A)) : Prop :=
  match os with
  | [] => True
  | o :: os =>
    let (t', a) := tstep t o in
    match o with
    | Get v _ | Create v _ =>
      careful (match a with AError => None | _ => Some v end) t' os
    | Assign v _ | Peek v => cur = Some v /\ careful cur t' os
    | Del _ | Drop => careful None t' os
    | FlushId _ | Flush => careful cur t' os
    end
  end.
End spec.
Arguments table : clear implicits.
