(** Access tokens shared by concurrent requests: src/s3ql/backends/swift.py 318-345 (_borrow_conn), 410-465 (_do_request), 939-951 (_do_authentication_expired).

    Tasks are numbered; a step of a task is the code between two places where it waits (trio switches tasks only there). What the service answers and when
    is part of the event. Tokens, path prefixes and hosts are numbers. An attempt may be aborted (time out, lost connection, cancellation) wherever it waits.
    Left out: contents of requests and replies, the limit on connections (a task waits for a connection as long as it likes), the close of the back-end,
    detected features, the retries inside swiftks._authenticate (one login here). *)
From stdpp Require Import prelude.

Definition upd {A} (f : nat -> A) (i : nat) (x : A) : nat -> A := fun j => if decide (j = i) then x else f j.

(** _AuthResult *)
Record auth := Auth { token : nat; prefix : nat; host : nat }.
Inductive pc :=
  | Idle
  | WaitAuth                        (* no pool: waits for _auth_lock, 326-327 *)
  | LoggingIn                       (* holds the lock, _authenticate, 330 *)
  | Detecting (a : auth)            (* holds the lock, _detect_features, 333 *)
  | WaitConn (h : nat)              (* in get() of a pool of connections to h, 344 *)
  | Conn (h : nat)                  (* has a connection *)
  | Sent (h t p : nat)              (* waits for the reply to a request with token t, prefix p *)
  | Rejected (t : nat).             (* waits for _auth_lock, 948 *)
(** [cur]: self.auth_token and self.auth_prefix; [pool]: self._pool, by the host of its connections; [lock]: who holds self._auth_lock *)
Record state := State { cur : option (nat * nat); pool : option nat; lock : option nat; at_ : nat -> pc }.
Inductive event :=
  | Borrow (i : nat)                (* an attempt of an operation starts *)
  | Lock (i : nat)                  (* gets the lock in _borrow_conn *)
  | Login (i : nat) (a : auth)      (* reply to the login *)
  | Detected (i : nat)
  | Get (i : nat)                   (* gets a connection *)
  | Send (i : nat)                  (* _do_request *)
  | Accept (i : nat)                (* reply other than 401 *)
  | Reject (i : nat)                (* 401 *)
  | Drop (i : nat)                  (* gets the lock in _do_authentication_expired *)
  | Done (i : nat)                  (* end of the operation *)
  | Abort (i : nat).
(** What can be seen from outside *)
Inductive obs :=
  | OLogin (i : nat)                (* login sent *)
  | OIssued (i : nat) (a : auth)    (* reply to the login *)
  | OReady (i : nat) (a : auth)     (* the login and the question for the features have succeeded *)
  | OReq (i h t p : nat)            (* request sent to host h with token t and prefix p *)
  | OReject (i t : nat).            (* request with token t answered with 401 *)

Definition init : state := State None None None (fun _ => Idle).
Definition go (s : state) (i : nat) (c : pc) : state := State (cur s) (pool s) (lock s) (upd (at_ s) i c).
Definition release (s : state) (i : nat) : state := State (cur s) (pool s) (if decide (lock s = Some i) then None else lock s) (at_ s).

Definition step (s : state) (e : event) : option (state * list obs) :=
  match e with
  | Borrow i =>
      match at_ s i with
      | Idle => Some (go s i (match pool s with None => WaitAuth | Some h => WaitConn h end), [])
      | _ => None
      end
  | Lock i =>
      match at_ s i, lock s with
      | WaitAuth, None =>
          match pool s with
          | None => Some (State (cur s) (pool s) (Some i) (upd (at_ s) i LoggingIn), [OLogin i])
          | Some h => Some (go s i (WaitConn h), [])
          end
      | _, _ => None
      end
  | Login i a =>
      match at_ s i with
      | LoggingIn => Some (State (Some (token a, prefix a)) (pool s) (lock s) (upd (at_ s) i (Detecting a)), [OIssued i a])
      | _ => None
      end
  | Detected i =>
      match at_ s i with
      | Detecting a => Some (State (cur s) (Some (host a)) None (upd (at_ s) i (WaitConn (host a))), [OReady i a])
      | _ => None
      end
  | Get i => match at_ s i with WaitConn h => Some (go s i (Conn h), []) | _ => None end
  | Send i =>
      match at_ s i, cur s with
      | Conn h, Some (t, p) => Some (go s i (Sent h t p), [OReq i h t p])
      | _, _ => None
      end
  | Accept i => match at_ s i with Sent h _ _ => Some (go s i (Conn h), []) | _ => None end
  | Reject i => match at_ s i with Sent _ t _ => Some (go s i (Rejected t), [OReject i t]) | _ => None end
  | Drop i =>
      match at_ s i, lock s with
      | Rejected t, None =>
          Some (State (cur s) (if decide (fst <$> cur s = Some t) then None else pool s) (lock s) (upd (at_ s) i Idle), [])
      | _, _ => None
      end
  | Done i => match at_ s i with Conn _ => Some (go s i Idle, []) | _ => None end
  | Abort i => Some (release (go s i Idle) i, [])
  end.
Fixpoint run (s : state) (es : list event) : option (state * list obs) :=
  match es with
  | [] => Some (s, [])
  | e :: es => '(s1, o1) ← step s e; '(s2, o2) ← run s1 es; Some (s2, o1 ++ o2)
  end.
