(** The connection pool: Pool in src/s3ql/http.py 982-1068.

    Borrowers are tasks; between two steps of a task any other task may run.  What a borrower does with its
    connection is arbitrary: [Use] gives it any new state.  [trio.CapacityLimiter] grants a token as long as less
    than [max_connections] are held; it is modelled by the set of the tasks that hold one. *)
From stdpp Require Import prelude gmap.

Section model.
Context {C : Type} (is_idle : C -> bool) (fresh : C) (max_connections : nat).
Inductive phase :=
  | Waiting                 (* in [async with self._limiter] 1042 *)
  | Popping                 (* in [_pop_conn] 1014-1026 *)
  | Closing (c : nat)       (* awaiting aclose 1020 *)
  | Using (c : nat)         (* 1045 *)
  | Leaving (c : nat).      (* awaiting aclose 1050 *)
Record pool := Pool { conns : gmap nat C; idle : list nat; tasks : gmap nat phase; closed : bool; next : nat }.
Inductive event := Get (t : nat) | Acquire (t : nat) | Pop (t : nat) | Closed (t : nat) | Use (t : nat) (x : C) | Exit (t : nat)
  | Left_ (t : nat) | Cancel (t : nat) | Close.
Definition holds (p : phase) : bool := match p with Waiting => false | _ => true end.
Definition conn_of (p : phase) : option nat := match p with Closing c | Using c | Leaving c => Some c | _ => None end.
Definition count (P : phase -> bool) (m : gmap nat phase) : nat := size (filter (fun kv : nat * phase => P kv.2 = true) m).
Definition set_task (t : nat) (p : phase) (s : pool) : pool := Pool (conns s) (idle s) (<[t := p]> (tasks s)) (closed s) (next s).
Definition end_task (t : nat) (s : pool) : pool := Pool (conns s) (idle s) (delete t (tasks s)) (closed s) (next s).
Definition close (c : nat) (s : pool) : pool := Pool (delete c (conns s)) (idle s) (tasks s) (closed s) (next s).
Definition step (e : event) (s : pool) : option pool :=
  match e with
  | Get t => if decide (tasks s !! t = None /\ closed s = false) then Some (set_task t Waiting s) else None      (* 1040-1041 *)
  | Acquire t => match tasks s !! t with
      | Some Waiting => if decide (count holds (tasks s) < max_connections) then Some (set_task t Popping s) else None
      | _ => None end
  | Pop t => match tasks s !! t with
      | Some Popping => match last (idle s) with
          | None => Some (set_task t (Using (next s)) (Pool (<[next s := fresh]> (conns s)) (idle s) (tasks s) (closed s) (S (next s))))
          | Some c => let s := Pool (conns s) (take (length (idle s) - 1) (idle s)) (tasks s) (closed s) (next s) in
              match conns s !! c with
              | Some x => Some (set_task t (if is_idle x then Using c else Closing c) s)
              | None => None end
          end
      | _ => None end
  | Closed t => match tasks s !! t with Some (Closing c) => Some (set_task t Popping (close c s)) | _ => None end
  | Use t x => match tasks s !! t with
      | Some (Using c) => Some (Pool (<[c := x]> (conns s)) (idle s) (tasks s) (closed s) (next s)) | _ => None end
  | Exit t => match tasks s !! t with
      | Some (Using c) => match conns s !! c with
          | Some x => if negb (closed s) && is_idle x
                      then Some (end_task t (Pool (conns s) (idle s ++ [c]) (tasks s) (closed s) (next s)))     (* 1047-1048 *)
                      else Some (set_task t (Leaving c) s)
          | None => None end
      | _ => None end
  | Left_ t => match tasks s !! t with Some (Leaving c) => Some (end_task t (close c s)) | _ => None end
  | Cancel t => match tasks s !! t with                          (* cancelled while it waits *)
      | Some Waiting => Some (end_task t s)
      | Some (Closing c) | Some (Leaving c) => Some (end_task t (close c s))
      | _ => None end
  | Close => Some (Pool (foldr (fun c m => delete c m) (conns s) (idle s)) [] (tasks s) true (next s))          (* 1052-1058 *)
  end.
Definition init : pool := Pool ∅ [] ∅ false 0.
Inductive reachable : pool -> Prop :=
  | reach_init : reachable init
  | reach_step s e s' : reachable s -> step e s = Some s' -> reachable s'.
End model.
Arguments pool : clear implicits.
Arguments event : clear implicits.
