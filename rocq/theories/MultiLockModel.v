(** MultiLock (src/s3ql/multi_lock.py) on top of trio's Condition and Lock.

    Tasks and keys are numbers.  One step is what a task does between two points where trio may switch
    to another task.  trio (not part of /repo) is modelled by its documented behaviour: the lock is
    handed to the longest waiting task, [notify_all] moves all tasks waiting on the condition to the
    end of the lock's queue, a cancelled waiter of the condition takes the lock again before it
    continues, and only waiting tasks (or tasks entering an operation) can be cancelled. *)
From stdpp Require Import prelude list gmap.

(** Where a task is inside an operation.
    [PAcq k w]: in [acquire] (multi_lock.py:72-79), about to test [key in self.locked_keys];
    [w] tells whether it has been waiting on the condition.
    [PRel k noerror]: in [release] (81-92), about to remove the key.
    [PExit]: cancelled inside [cond.wait()], about to leave [async with self.cond]. *)
Inductive pc := PAcq (k : nat) (w : bool) | PRel (k : nat) (noerror : bool) | PExit.

(** [owner], [lq]: owner and queue of the condition's lock; [cl]: tasks waiting on the condition;
    [keys]: locked_keys; [pcs]: tasks inside an operation. *)
Record state := State {
  owner : option nat;
  lq : list nat;
  cl : list nat;
  keys : gset nat;
  pcs : gmap nat pc
}.

Inductive event :=
| StartAcquire (t k : nat)
| StartRelease (t k : nat) (noerror : bool)
| TryAcquire (t k : nat)    (* acquire_nowait, multi_lock.py:52-70 *)
| Run                       (* the owner of the condition's lock continues *)
| Cancel (t : nat).

(** Observable effects: a task now holds the key / the key was released by a task. *)
Inductive obs := Acquired (t k : nat) | Released (t k : nat).

(** trio.Lock.release *)
Definition unlock (s : state) : state :=
  match lq s with
  | [] => State None [] (cl s) (keys s) (pcs s)
  | t :: q => State (Some t) q (cl s) (keys s) (pcs s)
  end.

(** trio.Lock.acquire up to the point where the task sleeps, with [p] what it does next. *)
Definition lock_cond (t : nat) (p : pc) (s : state) : state :=
  match owner s with
  | None => State (Some t) (lq s) (cl s) (keys s) (<[t := p]> (pcs s))
  | Some _ => State (owner s) (lq s ++ [t]) (cl s) (keys s) (<[t := p]> (pcs s))
  end.

Definition set_keys (f : gset nat -> gset nat) (s : state) : state :=
  State (owner s) (lq s) (cl s) (f (keys s)) (pcs s).
Definition leave (t : nat) (s : state) : state :=
  State (owner s) (lq s) (cl s) (keys s) (delete t (pcs s)).
Definition without (t : nat) (l : list nat) : list nat := filter (fun x => x <> t) l.

Definition step (s : state) (e : event) : state * list obs :=
  match e with
  | StartAcquire t k =>
    match pcs s !! t with
    | Some _ => (s, [])                 (* a task is in one operation at a time *)
    | None => (lock_cond t (PAcq k false) s, [])
    end
  | StartRelease t k noerror =>
    match pcs s !! t with
    | Some _ => (s, [])
    | None => (lock_cond t (PRel k noerror) s, [])
    end
  | TryAcquire t k =>
    match pcs s !! t, owner s with
    | None, None =>
      if decide (k ∈ keys s) then (s, []) else (set_keys (fun ks => {[k]} ∪ ks) s, [Acquired t k])
    | _, _ => (s, [])                   (* trio.WouldBlock: returns False *)
    end
  | Run =>
    match owner s with
    | None => (s, [])
    | Some t =>
      match pcs s !! t with
      | None => (s, [])
      | Some (PAcq k _) =>
        if decide (k ∈ keys s) then
          (* cond.wait(): release the lock and sleep *)
          (unlock (State (owner s) (lq s) (cl s ++ [t]) (keys s) (<[t := PAcq k true]> (pcs s))), [])
        else (unlock (leave t (set_keys (fun ks => {[k]} ∪ ks) s)), [Acquired t k])
      | Some (PRel k noerror) =>
        if decide (k ∈ keys s) then
          let s := set_keys (fun ks => ks ∖ {[k]}) s in
          (unlock (leave t (State (owner s) (lq s ++ cl s) [] (keys s) (pcs s))), [Released t k])
        else if noerror then
          (unlock (leave t (State (owner s) (lq s ++ cl s) [] (keys s) (pcs s))), [])
        else (* KeyError *)
          (unlock (leave t s), [])
      | Some PExit => (unlock (leave t s), [])
      end
    end
  | Cancel t =>
    match pcs s !! t with
    | None => (s, [])
    | Some p =>
      if decide (t ∈ cl s) then
        (lock_cond t PExit (State (owner s) (lq s) (without t (cl s)) (keys s) (pcs s)), [])
      else if decide (t ∈ lq s) then
        match p with
        | PExit => (s, [])              (* shielded *)
        | PAcq _ true =>
          (State (owner s) (without t (lq s) ++ [t]) (cl s) (keys s) (<[t := PExit]> (pcs s)), [])
        | _ => (leave t (State (owner s) (without t (lq s)) (cl s) (keys s) (pcs s)), [])
        end
      else (s, [])
    end
  end.

Fixpoint run (s : state) (es : list event) : state * list obs :=
  match es with
  | [] => (s, [])
  | e :: es => let (s, o) := step s e in let (s, o') := run s es in (s, o ++ o')
  end.

(** multi_lock.py:40-42 *)
Definition init : state := State None [] [] ∅ ∅.

#[global] Instance event_eq_dec : EqDecision event.
Proof. solve_decision. Defined.
