(** Requests and their bodies (C43). *)
From stdpp Require Import prelude.
From Verif Require Import HttpModel HttpProofs.

(** What the peer can make of the bytes of a request: it is [Whole] when as many bytes of body came as were announced,
    [Refused] when the client asked whether to send the body, was told not to, and sent none of it. *)
Definition Whole {byte} (m : msg byte) : Prop := m_head m = true /\ length (m_sent m) = m_announced m.
Definition Refused {byte} (m : msg byte) : Prop := m_head m = true /\ m_expect m = true /\ m_sent m = [].

Section props.
Context {byte : Type} (bufsize : nat) (Hbuf : 0 < bufsize).
Local Notation reachable := (reachable (byte := byte) bufsize).
Local Notation send_request := (send_request (byte := byte) bufsize).

(** A request that gets its response has sent exactly the announced number of bytes - the first ones of the body -, or
    its body was refused, or the peer closed the connection while it was sent. *)
Theorem body_exact c ok body bl e100 cl w c' w' status : reachable c -> send_request ok body bl e100 cl (c, w) = ((c', w'), inr status) ->
  exists m old, wire c' = m :: old /\ m_announced m = default (length (concat (content <$> body))) bl /\
    ((Whole m /\ m_sent m = take (m_announced m) (concat (content <$> body))) \/ (Refused m /\ status <> 100) \/ broken c' = true).
Proof.
  intros Hr H. apply send_request_spec in H as [_ (m & Hw & Hh & Ha & He & Hc & Hb)]; [|done|by apply (reachable_inv bufsize Hbuf)]. exists m. eexists. split; [exact Hw|]. split; [done|].
  destruct Hb as [[Hb Hl]|[(Hx & Hb & Hs)|Hb]]; [left|right; left|by right; right].
  - rewrite Ha. split; [|done]. split; [done|]. rewrite Hb, Ha, take_length. lia.
  - split; [|done]. split; [done|]. split; [congruence|done].
Qed.
(** Without an explicit length it is the whole body. *)
Theorem whole_body_sent c ok body e100 cl w c' w' status : reachable c -> send_request ok body None e100 cl (c, w) = ((c', w'), inr status) ->
  exists m old, wire c' = m :: old /\ (m_sent m = concat (content <$> body) \/ (Refused m /\ status <> 100) \/ broken c' = true).
Proof.
  intros Hr H. apply (body_exact c) in H as (m & old & Hw & Ha & Hb); [|done]. exists m, old. split; [done|]. destruct Hb as [[_ Hb]|Hb]; [left|by right]. rewrite Hb, Ha. cbn. by rewrite take_ge.
Qed.
(** A body that does not have as many bytes as announced is never taken for sent. *)
Theorem short_body_fails c ok body bl e100 cl w c' w' status : reachable c -> send_request ok body bl e100 cl (c, w) = ((c', w'), inr status) ->
  length (concat (content <$> body)) < default (length (concat (content <$> body))) bl -> (exists m old, wire c' = m :: old /\ Refused m) \/ broken c' = true.
Proof.
  intros Hr H Hl. apply (body_exact c) in H as (m & old & Hw & Ha & Hb); [|done]. destruct Hb as [[[_ H1] H2]|[[? _]|?]]; [|eauto|by right].
  rewrite H2, take_length in H1. lia.
Qed.
(** On every TCP connection, at every time: whatever precedes the newest request was sent completely or refused, so that
    the peer reads the newest one as a request. *)
Theorem requests_separated c : reachable c -> Forall (fun m => Whole m \/ Refused m) (tail (wire c)).
Proof.
  intros Hr%(reachable_inv bufsize Hbuf). eapply Forall_impl; [apply Hr|]. intros m [Hh [Hm|[He Hm]]]; [left|right]; done.
Qed.
(** A connection that is handed to the next user is between requests: everything was sent, all responses were read - or
    the peer is gone. *)
Theorem idle_is_clean c : reachable c -> is_idle c = true -> responses c = length (wire c) /\ (broken c = true \/ Forall (fun m => Whole m \/ Refused m) (wire c)).
Proof.
  intros Hr%(reachable_inv bufsize Hbuf) Hi. unfold is_idle in Hi. apply andb_true_iff in Hi as [Hs Ho]. destruct (our c) eqn:Eo; try done.
  destruct (v_idle _ Hr Hs Eo) as (_ & _ & _ & Hc & Hw & _). split; [done|]. destruct Hw as [Hw|Hw]; [by left|right]. eapply Forall_impl; [exact Hw|]. intros m [Hh [Hm|[He Hm]]]; [left|right]; done.
Qed.
(** A connection that either side wants closed is not handed out again (after a refused body it is, though: [refused_close_refuted]). *)
Theorem closing_not_idle c : reachable c -> is_idle c = true -> keep_alive c = true.
Proof.
  intros Hr%(reachable_inv bufsize Hbuf) Hi. unfold is_idle in Hi. apply andb_true_iff in Hi as [Hs Ho]. destruct (our c) eqn:Eo; try done. by destruct (v_idle _ Hr Hs Eo) as (_ & _ & _ & _ & _ & ?).
Qed.
(** The response that is returned is the one to this request: as many final responses were read as requests were sent. *)
Theorem response_matches c ok body bl e100 cl w c' w' status : reachable c -> send_request ok body bl e100 cl (c, w) = ((c', w'), inr status) -> status <> 100 ->
  responses c' = length (wire c').
Proof. intros Hr H Hs. apply send_request_spec in H as [_ (m & Hw & Hh & Ha & He & Hc & Hb)]; [|done|by apply (reachable_inv bufsize Hbuf)]. by destruct Hc. Qed.
(** A request that fails after it has begun leaves a connection that is not used again. *)
Theorem failed_not_idle c ok body bl e100 cl w c' w' e : reachable c -> send_request ok body bl e100 cl (c, w) = ((c', w'), inl e) -> is_idle c' = true -> c' = c.
Proof. intros Hr H. by apply send_request_spec in H as [_ H]; [|done|by apply (reachable_inv bufsize Hbuf)]. Qed.
End props.

(** The three exceptions are real.  The peer answers and closes the connection in the middle of the body: the connection
    counts as idle, with half a body on it (the next request on it fails). *)
Definition w1 : world nat := World [WOk; WClosed 2] [EResponse 413 false true].
Theorem broken_idle_refuted : exists c : conn nat, reachable 4 c /\ is_idle c = true /\ ~ Forall (fun m => Whole m \/ Refused m) (wire c).
Proof.
  exists (exec 4 (Request true [Bytes [1; 2; 3]] None None false) w1 new_conn). split; [apply reach_call, reach_new|]. split; [done|].
  intros H. vm_compute in H. inversion_clear H as [|? ? [[_ H1]|[_ [H1 _]]]]; done.
Qed.
(** The server refuses the body and announces that it closes the connection: it counts as idle. *)
Theorem refused_close_refuted : exists (w : world nat) c w', send_request 4 true [Bytes [1; 2]] None (Some true) false (new_conn, w) = ((c, w'), inr 403) /\ is_idle c = true /\ events w = [EResponse 403 true true].
Proof. exists (World [WOk] [EResponse 403 true true]). eexists _, _. split; [vm_compute; reflexivity|]. done. Qed.
(** A body longer than announced is cut off without an error when the surplus begins with an item of its own. *)
Theorem overlong_body_refuted : exists (w : world nat) c w', send_request 4 true [Bytes [1; 2]; Bytes [3]] (Some 2) None false (new_conn, w) = ((c, w'), inr 200) /\
  length (concat (content <$> [Bytes [1; 2]; Bytes [3]])) = 3 /\ m_sent <$> wire c = [[1; 2]].
Proof. exists (World [WOk; WOk] [EResponse 200 false true]). eexists _, _. split; [vm_compute; reflexivity|]. done. Qed.
(** A "100 Continue" nobody asked for is returned as the response. *)
Theorem unsolicited_continue_refuted : exists (w : world nat) c w', send_request 4 true [Bytes [1; 2]] None (Some false) false (new_conn, w) = ((c, w'), inr 100) /\ responses c = 0.
Proof. exists (World [WOk; WOk] [EInfo 100; EResponse 200 false true]). eexists _, _. split; [vm_compute; reflexivity|]. done. Qed.

(** A file sent after "100 Continue" in blocks of at most 4, its response read, and a second request on the same connection. *)
Definition c1 : conn nat := exec 4 (Request true [Bytes [1]; File [[2; 3; 4; 5; 6]; [7]]] None None false) (World [WOk; WOk; WOk; WOk; WOk] [EInfo 100; EInfo 102; EResponse 200 false false]) new_conn.
Definition c2 : conn nat := exec 4 Read (World [] [EEnd]) c1.
Definition c3 : conn nat := exec 4 (Request true [File [[8]]] None None false) (World [WOk] [EResponse 403 false true]) c2.
Definition c4 : conn nat := exec 4 (Request true [] None None false) (World [WOk] [EResponse 204 false true]) c3.
Example connection_used : reachable 4 c4 /\ is_idle c1 = false /\ is_idle c4 = true /\ broken c4 = false /\ responses c4 = 3 /\
  wire c4 = [Msg 0 false true []; Msg 1 true true []; Msg 7 true true [1; 2; 3; 4; 5; 6; 7]].
Proof. split; [do 4 apply reach_call; apply reach_new|]. vm_compute. done. Qed.
(** A file that is shorter than announced. *)
Example short_file : exists c w', send_request 4 true [File [[1; 2]]] (Some 3) None false (new_conn, World [WOk; WOk] [EInfo 100]) = ((c, w'), inl StateError) /\ is_idle c = false /\
  exists c2 w2, send_request 4 true [] None None false (c, World [WOk] [EResponse 200 false true]) = ((c2, w2), inl StateError) /\ wire c2 = wire c.
Proof. eexists _, _. split; [vm_compute; reflexivity|]. split; [done|]. eexists _, _. split; [vm_compute; reflexivity|]. done. Qed.
Print Assumptions body_exact.
Print Assumptions whole_body_sent.
Print Assumptions short_body_fails.
Print Assumptions requests_separated.
Print Assumptions idle_is_clean.
Print Assumptions response_matches.
Print Assumptions failed_not_idle.
Print Assumptions closing_not_idle.
