(** Access tokens shared by concurrent requests: src/s3ql/backends/gs.py 319-330 (is_temp_failure), 526-570 (_ensure_token, _get_access_token), 625-660 (_do_request).

    Tasks are numbered; a step of a task is the code between two places where it waits (trio switches tasks only there). What the service answers and when
    is part of the event. Tokens and times (in seconds) are numbers. An attempt may be aborted (time out, lost connection, cancellation) wherever it waits.
    Left out: contents of requests and replies, the connections, several refresh tokens in one process (the table then has one entry for each). *)
From stdpp Require Import prelude.

Definition upd {A} (f : nat -> A) (i : nat) (x : A) : nat -> A := fun j => if decide (j = i) then x else f j.

Inductive pc :=
  | Idle
  | WaitLock                        (* no usable token: waits for _refresh_lock, 539 *)
  | Refreshing                      (* holds the lock, _get_access_token, 542 *)
  | Sent (t : nat)                  (* waits for the reply *)
  | Rejected (t : nat).             (* AccessTokenExpired raised, 655-657 *)
(** [cache]: the entry of _tokens for the refresh token in use, with its deadline *)
Record state := State { now : Z; cache : option (nat * Z); lock : option nat; at_ : nat -> pc }.
Inductive event :=
  | Tick (d : N)                    (* time passes *)
  | Start (i : nat)                 (* a request is to be sent *)
  | Lock (i : nat)
  | Refresh (i t : nat) (life : Z)  (* new token and its lifetime *)
  | Accept (i : nat)
  | Reject (i : nat)
  | Pop (i : nat)                   (* is_temp_failure *)
  | Abort (i : nat).
Inductive obs :=
  | OAsk (i : nat) (at_ : Z)        (* a token is asked for *)
  | OIssued (i t : nat) (at_ life : Z)
  | OReq (i t : nat) (at_ : Z)
  | OReject (i t : nat).

(** _TOKEN_SAFETY_MARGIN, gs.py 168 *)
Definition margin : Z := 300.
Definition init (t0 : Z) : state := State t0 None None (fun _ => Idle).
Definition go (s : state) (i : nat) (c : pc) : state := State (now s) (cache s) (lock s) (upd (at_ s) i c).
Definition release (s : state) (i : nat) : state := State (now s) (cache s) (if decide (lock s = Some i) then None else lock s) (at_ s).
(** 535-537, 540-541 *)
Definition usable (s : state) : option nat :=
  match cache s with Some (t, d) => if decide (now s < d)%Z then Some t else None | None => None end.

Definition step (s : state) (e : event) : option (state * list obs) :=
  match e with
  | Tick d => Some (State (now s + Z.of_N d) (cache s) (lock s) (at_ s), [])
  | Start i =>
      match at_ s i with
      | Idle =>
          match usable s with
          | Some t => Some (go s i (Sent t), [OReq i t (now s)])
          | None => Some (go s i WaitLock, [])
          end
      | _ => None
      end
  | Lock i =>
      match at_ s i, lock s with
      | WaitLock, None =>
          match usable s with
          | Some t => Some (go s i (Sent t), [OReq i t (now s)])
          | None => Some (State (now s) (cache s) (Some i) (upd (at_ s) i Refreshing), [OAsk i (now s)])
          end
      | _, _ => None
      end
  | Refresh i t life =>
      match at_ s i with
      | Refreshing =>
          Some (State (now s) (Some (t, now s + life - margin)%Z) None (upd (at_ s) i (Sent t)), [OIssued i t (now s) life; OReq i t (now s)])
      | _ => None
      end
  | Accept i => match at_ s i with Sent _ => Some (go s i Idle, []) | _ => None end
  | Reject i => match at_ s i with Sent t => Some (go s i (Rejected t), [OReject i t]) | _ => None end
  | Pop i => match at_ s i with Rejected _ => Some (State (now s) None (lock s) (upd (at_ s) i Idle), []) | _ => None end
  | Abort i => Some (release (go s i Idle) i, [])
  end.
Fixpoint run (s : state) (es : list event) : option (state * list obs) :=
  match es with
  | [] => Some (s, [])
  | e :: es => '(s1, o1) ← step s e; '(s2, o2) ← run s1 es; Some (s2, o1 ++ o2)
  end.
