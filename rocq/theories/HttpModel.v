(** HTTPConnection: src/s3ql/http.py 230-880, and the part of h11 it relies on.

    The world answers every operation that waits: a write succeeds, or fails after part of the bytes went out; the next
    event of the peer arrives, or does not.  When the answers have run out, the task is cancelled in that operation, so
    that every point of cancellation is covered as well.  After a write has failed because the peer is gone, the
    operating system lets no later one on this connection succeed.

    Simplified: headers other than the announced length, Expect and Connection are left out; DNS, proxies and TLS are
    the single answer of [connect]; a response whose length is announced as 0 (or that can have no body) ends at once;
    invalid values of Content-Length are h11's protocol errors. *)
From stdpp Require Import prelude.

Section model.
Context {byte : Type} (bufsize : nat).

Inductive our_state := OIdle | OBody (rest : nat) | ODone | OMustClose | OError.
Inductive their_state := TIdle | TResponse | TBody | TDone | TMustClose | TClosed | TError.
(** What went out for one request on this TCP connection: [m_head]: the header, completely. *)
Record msg := Msg { m_announced : nat; m_expect : bool; m_head : bool; m_sent : list byte }.
(** 237-262; [wire] has the newest message first; [responses] counts the final responses read from this connection. *)
Record conn := Conn { stream : bool; our : our_state; their : their_state; keep_alive : bool;
  pending : bool; response_open : bool; wire : list msg; broken : bool; responses : nat }.
Definition new_conn : conn := Conn false OIdle TIdle true false false [] false 0.

Inductive wanswer := WOk | WClosed (k : nat) | WTimeout (k : nat) | WCancel (k : nat).
Inductive event := EInfo (status : nat) | EResponse (status : nat) (close empty : bool) | EData (l : list byte) | EEnd
  | EPeerClosed | EPaused | EInvalid | EClosed | ETimeout.
Record world := World { writes : list wanswer; events : list event }.
Inductive exn := ConnectionClosed | ConnectionTimedOut | StateError | ExcessBodyData | InvalidResponse | ConnectError | ValueError | Cancelled.
Definition M (T : Type) := conn * world -> (conn * world) * (exn + T).
Definition ret {T} (x : T) : M T := fun s => (s, inr x).
Definition raise {T} (e : exn) : M T := fun s => (s, inl e).
Definition bind {T U} (m : M T) (f : T -> M U) : M U := fun s => match m s with (s', inr x) => f x s' | (s', inl e) => (s', inl e) end.
Definition get : M conn := fun s => (s, inr s.1).
Definition modify (f : conn -> conn) : M unit := fun s => ((f s.1, s.2), inr tt).
Local Notation "x <- m ;; k" := (bind m (fun x => k)) (at level 100, m at next level, k at level 200, right associativity).
Local Notation "m ;; k" := (bind m (fun _ => k)) (at level 100, k at level 200, right associativity).

Definition set_our (o : our_state) (c : conn) := Conn (stream c) o (their c) (keep_alive c) (pending c) (response_open c) (wire c) (broken c) (responses c).
Definition set_their (t : their_state) (c : conn) := Conn (stream c) (our c) t (keep_alive c) (pending c) (response_open c) (wire c) (broken c) (responses c).
Definition set_pending (b : bool) (c : conn) := Conn (stream c) (our c) (their c) (keep_alive c) b (response_open c) (wire c) (broken c) (responses c).
Definition set_open (b : bool) (c : conn) := Conn (stream c) (our c) (their c) (keep_alive c) (pending c) b (wire c) (broken c) (responses c).
Definition set_wire (w : list msg) (c : conn) := Conn (stream c) (our c) (their c) (keep_alive c) (pending c) (response_open c) w (broken c) (responses c).
Definition set_broken (c : conn) := Conn (stream c) (our c) (their c) (keep_alive c) (pending c) (response_open c) (wire c) true (responses c).
Definition no_keep_alive (c : conn) := Conn (stream c) (our c) (their c) false (pending c) (response_open c) (wire c) (broken c) (responses c).
Definition count_response (c : conn) := Conn (stream c) (our c) (their c) (keep_alive c) (pending c) (response_open c) (wire c) (broken c) (S (responses c)).
(** h11, _state.py: transitions triggered by the states *)
Definition fire (c : conn) : conn :=
  let c := if keep_alive c then c else
    set_their (match their c with TDone => TMustClose | t => t end) (set_our (match our c with ODone => OMustClose | o => o end) c) in
  match their c with
  | TClosed => set_our (match our c with OIdle | ODone => OMustClose | OError => ODone | o => o end) c
  | _ => c
  end.

(** connect, 272-316 *)
Definition connect (ok : bool) : M unit :=
  if ok then modify (fun _ => Conn true OIdle TIdle true false false [] false 0) else raise ConnectError.
(** What one write puts on the wire: a header, or data of the newest message. *)
Inductive chunk := Head (announced : nat) (expect : bool) | Body (l : list byte).
Definition transmit (full : bool) (k : nat) (d : chunk) (c : conn) : conn :=
  match d with
  | Head a e => set_wire (Msg a e full [] :: wire c) c
  | Body l => match wire c with
              | m :: ms => set_wire (Msg (m_announced m) (m_expect m) (m_head m) (m_sent m ++ (if full then l else take k l)) :: ms) c
              | [] => c
              end
  end.
(** _raw_write, 387-394.  On a broken connection nothing more goes out. *)
Definition raw_write (d : chunk) : M unit := fun '(c, w) =>
  match writes w with
  | [] => ((if broken c then c else transmit false 0 d c, w), inl Cancelled)
  | a :: ws => let w' := World ws (events w) in
      if broken c then ((c, w'), inl ConnectionClosed) else
      match a with
      | WOk => ((transmit true 0 d c, w'), inr tt)
      | WClosed k => ((set_broken (transmit false k d c), w'), inl ConnectionClosed)
      | WTimeout k => ((transmit false k d c, w'), inl ConnectionTimedOut)
      | WCancel k => ((transmit false k d c, w'), inl Cancelled)
      end
  end.
(** _send_event, 591-600: h11 checks the announced length. *)
Definition send_head (announced : nat) (expect close : bool) : M unit :=
  c <- get;;
  match our c, their c with
  | OIdle, TIdle => modify (fun c => fire (set_our (OBody announced) (set_their TResponse (if close then no_keep_alive c else c))));; raw_write (Head announced expect)
  | _, _ => modify (set_our OError);; raise StateError
  end.
Definition send_data (l : list byte) : M unit :=
  c <- get;;
  match our c with
  | OBody rest => if decide (length l <= rest) then modify (set_our (OBody (rest - length l)));; raw_write (Body l)
                  else modify (set_our OError);; raise StateError
  | _ => modify (set_our OError);; raise StateError
  end.
Definition send_end : M unit :=
  c <- get;;
  match our c with
  | OBody 0 => modify (fun c => fire (set_our ODone c))
  | _ => modify (set_our OError);; raise StateError
  end.

(** _next_event, 784-812 *)
Definition next_event : M event := fun '(c, w) =>
  match events w with
  | [] => ((c, w), inl Cancelled)
  | e :: es => let w' := World (writes w) es in
      match e, their c with
      | EClosed, _ => ((set_their TError c, w'), inl ConnectionClosed)
      | ETimeout, _ => ((c, w'), inl ConnectionTimedOut)
      | EInfo status, TResponse => if decide (100 <= status < 200) then ((c, w'), inr e) else ((set_their TError c, w'), inl InvalidResponse)
      | EResponse status close _, TResponse => if decide (200 <= status)
          then ((count_response (fire (set_their TBody (if close then no_keep_alive c else c))), w'), inr e) else ((set_their TError c, w'), inl InvalidResponse)
      | EData _, TBody => ((c, w'), inr e)
      | EEnd, TBody => ((fire (set_their TDone c), w'), inr e)
      | EPeerClosed, (TIdle | TDone | TMustClose) => ((fire (set_their TClosed c), w'), inr e)
      | EPaused, (TDone | TMustClose | TClosed) => ((c, w'), inr e)
      | _, _ => ((set_their TError c, w'), inl InvalidResponse)       (* RemoteProtocolError, 623, 708 *)
      end
  end.
(** _finish_cycle, 818-848 *)
Definition finish_cycle : M unit :=
  modify (fun c => set_open false (set_pending false c));;
  c <- get;;
  match our c, their c with
  | OBody _, _ => modify (fun c => Conn (stream c) OIdle TIdle true (pending c) (response_open c) (wire c) (broken c) (responses c))
  | ODone, TDone => modify (fun c => set_our OIdle (set_their TIdle c))
  | OMustClose, _ | _, TMustClose | _, TClosed => ret tt
  | _, _ => raise StateError
  end.
(** _read_response and _make_response, 602-692 *)
Fixpoint read_response_n (n : nat) : M nat :=
  match n with
  | 0 => raise Cancelled                     (* not reached: one event more than there are *)
  | S n =>
    e <- next_event;;
    match e with
    | EInfo status => if decide (status = 100) then ret 100 else read_response_n n
    | EResponse status _ empty =>
        if empty then modify (fun c => fire (set_their TDone c));; finish_cycle;; ret status
        else modify (set_open true);; ret status
    | _ => raise InvalidResponse
    end
  end.
Definition read_response : M nat := fun s => read_response_n (S (length (events s.2))) s.
(** read, 694-722 *)
Fixpoint read_n (n : nat) : M (list byte) :=
  match n with
  | 0 => raise Cancelled
  | S n =>
    e <- next_event;;
    match e with
    | EData [] => read_n n
    | EData l => ret l
    | EEnd | EPaused => finish_cycle;; ret []
    | _ => raise InvalidResponse
    end
  end.
Definition read : M (list byte) := fun s =>
  if stream s.1 then if response_open s.1 then read_n (S (length (events s.2))) s else ret [] s else raise ConnectionClosed s.

(** A file, as what its reads return in turn; it may have another length than the one announced. *)
Inductive item := Bytes (l : list byte) | File (chunks : list (list byte)).
Definition content (i : item) : list byte := match i with Bytes l => l | File cs => concat cs end.
(** _stream_file, 560-589 *)
Fixpoint stream_file (fuel : nat) (chunks : list (list byte)) (remaining : nat) : M nat :=
  match fuel with
  | 0 => ret remaining                       (* not reached: see [fuel_enough] *)
  | S fuel =>
    if decide (remaining = 0) then ret 0 else
    let n := min bufsize remaining in
    match chunks with
    | [] => ret remaining
    | [] :: cs => stream_file fuel cs remaining
    | c :: cs => send_data (take n c);; stream_file fuel (drop n c :: cs) (remaining - length (take n c))
    end
  end.
Definition fuel_of (chunks : list (list byte)) : nat := S (length chunks + length (concat chunks)).
(** _stream_body, 537-558 *)
Fixpoint stream_body (body : list item) (remaining : nat) : M unit :=
  match body with
  | [] => if decide (0 < remaining) then raise StateError else ret tt
  | i :: body =>
    if decide (remaining = 0) then ret tt else
    match i with
    | Bytes l => if decide (remaining < length l) then raise ExcessBodyData
                 else (if decide (l = []) then ret tt else send_data l);; stream_body body (remaining - length l)
    | File cs => r <- stream_file (fuel_of cs) cs remaining;; stream_body body r
    end
  end.
(** aclose, 850-858; reset *)
Definition close_stream (c : conn) : conn := Conn false (our c) (their c) (keep_alive c) (pending c) (response_open c) (wire c) (broken c) (responses c).
Definition is_closing (c : conn) : bool :=
  match our c, their c with OMustClose, _ | _, TMustClose | _, TClosed => true | _, _ => false end.
Definition is_file (i : item) : bool := match i with File _ => true | _ => false end.
(** 443-449 *)
Definition announced (body : list item) (body_len : option nat) : nat := default (length (concat (content <$> body))) body_len.
Definition expects (body : list item) (expect100 : option bool) : bool := default (existsb is_file body) expect100.
(** 517-533: the body, and what is done when the peer closes the connection meanwhile *)
Definition send_body (body : list item) (total : nat) : M nat := fun s =>
  match (stream_body body total;; send_end) s with
  | (s', inr _) => read_response s'
  | (s', inl ConnectionClosed) =>
      match read_response s' with
      | (s'', inr status) => (s'', inr status)
      | (s'', inl Cancelled) => (s'', inl Cancelled)
      | (s'', inl _) => ((close_stream s''.1, s''.2), inl ConnectionClosed)
      end
  | (s', inl e) => (s', inl e)
  end.
(** send_request, 406-535; [close]: the caller's headers ask for the connection to be closed *)
Definition send_request (connect_ok : bool) (body : list item) (body_len : option nat) (expect100 : option bool) (close : bool) : M nat :=
  let total := announced body body_len in
  let expect := expects body expect100 in
  if expect && (match body with [] => true | _ => false end) then raise ValueError else
  c0 <- get;;
  (if stream c0 then ret tt else connect connect_ok);;
  c <- get;;
  if is_closing c then raise ConnectionClosed else
  if response_open c || pending c then raise StateError else
  match our c with
  | OIdle =>
      send_head total expect close;;
      modify (set_pending true);;
      match body with
      | [] => send_end;; read_response
      | _ => if expect then status <- read_response;; if decide (status = 100) then send_body body total else ret status
             else send_body body total
      end
  | _ => raise StateError
  end.
(** is_idle, 866-874 *)
Definition is_idle (c : conn) : bool := stream c && match our c, their c with OIdle, TIdle => true | _, _ => false end.

(** A connection in use: requests, reads and closing, in any order. *)
Inductive call := Request (connect_ok : bool) (body : list item) (body_len : option nat) (expect100 : option bool) (close : bool) | Read | Close.
Definition exec (k : call) (w : world) (c : conn) : conn :=
  match k with
  | Request ok b l e cl => (send_request ok b l e cl (c, w)).1.1
  | Read => (read (c, w)).1.1
  | Close => close_stream c
  end.
Inductive reachable : conn -> Prop :=
  | reach_new : reachable new_conn
  | reach_call c k w : reachable c -> reachable (exec k w c).
End model.
Arguments msg : clear implicits.
Arguments conn : clear implicits.
Arguments event : clear implicits.
Arguments world : clear implicits.
Arguments item : clear implicits.
Arguments call : clear implicits.
Arguments M : clear implicits.
