(** ParallelPipeline: src/s3ql/common.py 426-484.

    The producer runs in the task that called [run], next to [n_workers] consumers; they are connected by a memory
    channel of trio (a queue: [buffer_size] items, and the one that [send] waits with).  A consumer takes one item after
    the other and handles it until the channel is closed and empty, or it raises an exception.  If a task of the nursery
    fails, the others are cancelled at their next checkpoint, and [run] raises an exception when all have ended. *)
From stdpp Require Import prelude.

Section model.
Context {A : Type} (n_workers buffer_size : nat).
Inductive worker := Idle | Busy (x : A) | Ended.
Record state := State { todo : list A; queue : list A; workers : list worker; closed : bool; failing : bool;
  started : list A; finished : list A; lost : list A; result : option bool }.
(** 450-469; [sized]: the number of jobs is known (459-460) *)
Definition init (sized : bool) (jobs : list A) : state :=
  State jobs [] (replicate (if sized then min n_workers (length jobs) else n_workers) Idle) false false [] [] [] None.
Inductive event := Send | CloseSend | Recv (w : nat) | Finish (w : nat) | End (w : nat) | Fail (w : nat) | ProducerFails | Cancel (w : nat) | Return.
Definition set_worker (w : nat) (x : worker) (s : state) : state :=
  State (todo s) (queue s) (<[w := x]> (workers s)) (closed s) (failing s) (started s) (finished s) (lost s) (result s).
Definition set_failing (s : state) : state :=
  State (todo s) (queue s) (workers s) (closed s) true (started s) (finished s) (lost s) (result s).
Definition running (s : state) : bool := match result s with None => true | Some _ => false end.
Definition ended (x : worker) : bool := match x with Ended => true | _ => false end.
Definition step (e : event) (s : state) : option state :=
  if running s then
  match e with
  | Send =>                    (* 474-478; the one before has been sent.  Without receivers: BrokenResourceError *)
      if closed s || failing s then None else
      match todo s with
      | [] => None
      | x :: l => if forallb ended (workers s) then Some (set_failing s)
          else if decide (length (queue s) <= buffer_size)
          then Some (State l (queue s ++ [x]) (workers s) (closed s) (failing s) (started s) (finished s) (lost s) (result s)) else None
      end
  | CloseSend =>               (* 473 *)
      if closed s then None else
      if failing s then Some (State (todo s) (queue s) (workers s) true true (started s) (finished s) (lost s) (result s)) else
      if decide (todo s = [] /\ length (queue s) <= buffer_size)
      then Some (State (todo s) (queue s) (workers s) true (failing s) (started s) (finished s) (lost s) (result s)) else None
  | Recv w => if failing s then None else
      match workers s !! w, queue s with
      | Some Idle, x :: q => Some (State (todo s) q (<[w := Busy x]> (workers s)) (closed s) (failing s) (started s ++ [x]) (finished s) (lost s) (result s))
      | _, _ => None
      end
  | Finish w => match workers s !! w with
      | Some (Busy x) => Some (State (todo s) (queue s) (<[w := Idle]> (workers s)) (closed s) (failing s) (started s) (finished s ++ [x]) (lost s) (result s))
      | _ => None
      end
  | End w =>                   (* the iteration ends *)
      match workers s !! w, queue s with Some Idle, [] => if closed s then Some (set_worker w Ended s) else None | _, _ => None end
  | Fail w => match workers s !! w with
      | Some (Busy x) => Some (State (todo s) (queue s) (<[w := Ended]> (workers s)) (closed s) true (started s) (finished s) (lost s ++ [x]) (result s))
      | _ => None
      end
  | ProducerFails => if closed s then None else Some (set_failing s)
  | Cancel w => if failing s then match workers s !! w with
      | Some Idle => Some (set_worker w Ended s)
      | Some (Busy x) => Some (State (todo s) (queue s) (<[w := Ended]> (workers s)) (closed s) true (started s) (finished s) (lost s ++ [x]) (result s))
      | _ => None end else None
  | Return =>                  (* 465, 479-480 *)
      if closed s && forallb ended (workers s)
      then Some (State (todo s) (queue s) (workers s) (closed s) (failing s) (started s) (finished s) (lost s) (Some (negb (failing s)))) else None
  end
  else None.
Inductive reachable (sized : bool) (jobs : list A) : state -> Prop :=
  | reach_init : reachable sized jobs (init sized jobs)
  | reach_step s e s' : reachable sized jobs s -> step e s = Some s' -> reachable sized jobs s'.
Definition busy (s : state) : list A := omap (fun x => match x with Busy x => Some x | _ => None end) (workers s).
End model.
Arguments worker : clear implicits.
Arguments state : clear implicits.
