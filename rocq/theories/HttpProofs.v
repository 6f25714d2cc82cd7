(** HTTP connections: what every operation keeps. *)
From stdpp Require Import prelude.
From Verif Require Import HttpModel.

Section proofs.
Context {byte : Type} (bufsize : nat) (Hbuf : 0 < bufsize).
Local Notation conn := (conn byte).
Local Notation world := (world byte).
Local Notation msg := (msg byte).

(** A message after which the peer expects a new request: complete, or its body was asked for and refused. *)
Definition clean (m : msg) : Prop := m_head m = true /\ (length (m_sent m) = m_announced m \/ (m_expect m = true /\ m_sent m = [])).
Definition quiet (c : conn) : Prop :=
  pending c = false /\ response_open c = false /\ their c = TIdle /\ responses c = length (wire c) /\ (broken c = true \/ Forall clean (wire c)) /\ keep_alive c = true.
Definition receiving (c : conn) : Prop :=
  pending c = true /\ our c <> OIdle /\ our c <> OError /\ (their c = TBody \/ their c = TError) /\ responses c = length (wire c) /\
  (broken c = true \/ Forall clean (wire c)).
Record inv (c : conn) : Prop := Inv {
  v_tail : Forall clean (tail (wire c));
  v_count : responses c <= length (wire c);
  v_idle : stream c = true -> our c = OIdle -> quiet c;
  v_open : stream c = true -> response_open c = true -> receiving c }.
Lemma new_inv : inv new_conn.
Proof. constructor; cbn; try done; constructor. Qed.
Lemma bind_inv {T U} (m : M byte T) (f : T -> M byte U) s s' r : bind m f s = (s', r) ->
  (exists s1 x, m s = (s1, inr x) /\ f x s1 = (s', r)) \/ (exists e, m s = (s', inl e) /\ r = inl e).
Proof. unfold bind. destruct (m s) as [s1 [e|x]]; [|eauto]. intros [= <- <-]. eauto. Qed.

(** Waiting for the response. *)
Record waiting (c : conn) : Prop := Waiting {
  w_pending : pending c = true; w_open : response_open c = false; w_their : their c = TResponse;
  w_count : S (responses c) = length (wire c); w_our : our c <> OIdle /\ our c <> OError;
  w_tail : Forall clean (tail (wire c)); w_wire : broken c = true \/ Forall clean (wire c) }.
Definition same_wire (c c' : conn) : Prop := wire c' = wire c /\ broken c' = broken c /\ stream c' = stream c.
Lemma fire_facts (c : conn) : wire (fire c) = wire c /\ broken (fire c) = broken c /\ stream (fire c) = stream c /\ pending (fire c) = pending c /\
  response_open (fire c) = response_open c /\ responses (fire c) = responses c /\ keep_alive (fire c) = keep_alive c.
Proof. destruct c as [st o t k p ro wi br re]. unfold fire. by destruct k, t, o. Qed.
Lemma finish_spec c w c' w' r : finish_cycle (c, w) = ((c', w'), r) -> responses c = length (wire c) -> our c <> OIdle -> our c <> OError -> (their c = TDone /\ keep_alive c = true) \/ their c = TMustClose ->
  Forall clean (tail (wire c)) -> broken c = true \/ Forall clean (wire c) -> same_wire c c' /\ inv c' /\ responses c' = length (wire c') /\ w' = w /\ response_open c' = false /\ r = inr tt.
Proof.
  unfold finish_cycle, bind, modify, get, raise, ret, same_wire. cbn. intros H Hc H1 H2 H3 Ht Hw.
  destruct (our c) eqn:Eo, (their c) eqn:Et; try done; try (by destruct H3 as [[? ?]|?]); injection H as <- <- <-; cbn.
  all: split; [done|split; [|done]]; constructor; cbn; try done; try lia.
  all: rewrite ?Eo; try done.
  destruct H3 as [[_ Hk]|?]; [|done]. intros _ _. unfold quiet. cbn. done.
Qed.
Lemma fire_their (c : conn) t : their c = t -> t <> TClosed -> (t = TDone /\ (their (fire c) = TDone \/ their (fire c) = TMustClose)) \/ their (fire c) = t.
Proof. destruct c as [st o t' k p ro wi br re]. cbn. intros -> Ht. destruct k, t, o; cbn; auto; done. Qed.
Lemma fire_done (c : conn) : their (fire (set_their TDone c)) = TDone /\ keep_alive (fire (set_their TDone c)) = true \/ their (fire (set_their TDone c)) = TMustClose.
Proof. destruct c as [st o t k p ro wi br re]. destruct k, o; cbn; auto. Qed.
Lemma fire_our (c : conn) : their c <> TClosed -> our c <> OIdle -> our c <> OError -> our (fire c) <> OIdle /\ our (fire c) <> OError.
Proof. destruct c as [st o t k p ro wi br re]. cbn. destruct k, t, o; cbn; auto; done. Qed.
Lemma read_response_spec n c w c' w' r : read_response_n n (c, w) = ((c', w'), r) -> waiting c ->
  same_wire c c' /\ match r with inr status => (status = 100 /\ c' = c) \/ (200 <= status /\ inv c' /\ responses c' = length (wire c')) | inl _ => inv c' /\ our c' <> OIdle end.
Proof.
  revert c w. induction n as [|n IH]; intros c w H [H1 H2 H3 H4 [H5 H5'] H6 H7].
  { injection H as <- <- <-. split; [done|]. split; [|done]. constructor; try done; try lia; try congruence. }
  cbn in H. apply bind_inv in H as [([c1 w1] & e & He & H)|(e & He & ->)].
  - unfold next_event in He. destruct (events w) as [|e0 es]; [done|]. rewrite H3 in He.
    destruct e0 as [st|st cl em| | | | | | |]; try done; case_decide as D; try done; injection He as <- <- <-.
    + case_decide as D1; [injection H as <- <- <-; split; [done|by left]|]. by apply (IH c (World (writes w) es)).
    + set (c1 := count_response (fire (set_their TBody (if cl then no_keep_alive c else c)))) in *.
      assert (wire c1 = wire c /\ broken c1 = broken c /\ stream c1 = stream c /\ pending c1 = true /\ response_open c1 = false /\ responses c1 = length (wire c) /\ their c1 = TBody /\ our c1 <> OIdle /\ our c1 <> OError) as (E1 & E2 & E3 & E4 & E5 & E6 & E7 & E8 & E9).
      { subst c1. cbn. set (c2 := set_their TBody (if cl then no_keep_alive c else c)). assert (wire c2 = wire c /\ broken c2 = broken c /\ stream c2 = stream c /\ pending c2 = true /\ response_open c2 = false /\ responses c2 = responses c /\ their c2 = TBody /\ our c2 = our c) as (F1 & F2 & F3 & F4 & F5 & F6 & F7 & F8) by (subst c2; destruct cl; done).
        destruct (fire_facts c2) as (-> & -> & -> & -> & -> & -> & _). rewrite F1, F2, F3, F4, F5, F6. repeat split; try done.
        - destruct (fire_their c2 TBody F7) as [[? _]|?]; done.
        - apply fire_our; congruence.
        - apply fire_our; congruence. }
      clearbody c1. destruct em.
      * apply bind_inv in H as [(s2 & [] & Hm & H)|(? & ? & _)]; [|done]. injection Hm as <-. set (c2 := fire (set_their TDone c1)) in *.
        destruct (fire_facts (set_their TDone c1)) as (F1 & F2 & F3 & F4 & F5 & F6 & _). fold c2 in F1, F2, F3, F4, F5, F6. cbn in F1, F2, F3, F4, F5, F6.
        pose proof (fire_done c1) as Ht. fold c2 in Ht.
        destruct (fire_our (set_their TDone c1)) as [G1 G2]; try done. fold c2 in G1, G2. clearbody c2.
        apply bind_inv in H as [([c3 w3] & [] & Hf & H)|(x & Hf & ->)].
        -- injection H as <- <- <-. eapply finish_spec in Hf as ((S1 & S2 & S3) & S4 & S5 & _); try done; try congruence; rewrite ?F1, ?F2, ?E1, ?E2; try done; try congruence.
           split; [unfold same_wire; split_and!; congruence|]. right. done.
        -- eapply finish_spec in Hf as (_ & _ & _ & _ & _ & ?); try done; try congruence; rewrite ?F1, ?F2, ?E1, ?E2; try done; try congruence.
      * injection H as <- <- <-. split; [done|]. right. split; [done|]. split; [|by cbn; rewrite E1]. constructor; cbn; rewrite ?E1, ?E6; try done; try lia.
        intros _ _. unfold receiving. cbn. rewrite E1, E2, E4, E6, E7. auto 10.
  - unfold next_event in He. destruct (events w) as [|e0 es]. { injection He as <- <- <-. split; [done|]. split; [|done]. constructor; try done; try lia; congruence. }
    rewrite H3 in He. destruct e0 as [st|st cl em| | | | | | |]; try done; try (case_decide; try done); injection He as <- <- <-; (split; [done|]); (split; [|done]); constructor; cbn; try done; try lia; congruence.
Qed.
Lemma read_n_spec n c w c' w' r : read_n n (c, w) = ((c', w'), r) -> receiving c -> response_open c = true -> Forall clean (tail (wire c)) -> same_wire c c' /\ inv c'.
Proof.
  revert c w. induction n as [|n IH]; intros c w H HR Ho Ht.
  { injection H as <- <- <-. split; [done|]. destruct HR as (? & ? & ? & ? & ? & ?). constructor; try done; lia. }
  pose proof HR as (H1 & H2 & H3 & H4 & H5 & H6). cbn in H. apply bind_inv in H as [([c1 w1] & e & He & H)|(e & He & ->)].
  - unfold next_event in He. destruct (events w) as [|e0 es]; [done|].
    destruct H4 as [H4|H4]; rewrite H4 in He; destruct e0 as [st|st cl em|l| | | | | |]; try done; injection He as <- <- <-.
    + destruct l as [|x l]; [by apply (IH c (World (writes w) es))|]. injection H as <- <- <-. split; [done|]. constructor; try done; lia.
    + set (c2 := fire (set_their TDone c)) in *. destruct (fire_facts (set_their TDone c)) as (F1 & F2 & F3 & F4 & F5 & F6 & _). fold c2 in F1, F2, F3, F4, F5, F6. cbn in F1, F2, F3, F4, F5, F6.
      pose proof (fire_done c) as Ht2. fold c2 in Ht2.
      destruct (fire_our (set_their TDone c)) as [G1 G2]; try done. fold c2 in G1, G2. clearbody c2.
      apply bind_inv in H as [([c3 w3] & [] & Hf & H)|(x & Hf & ->)].
      * injection H as <- <- <-. eapply finish_spec in Hf as ((S1 & S2 & S3) & S4 & S5 & _); try done; try congruence; rewrite ?F1, ?F2; try done; try congruence.
        split; [unfold same_wire; split_and!; congruence|]. done.
      * eapply finish_spec in Hf as ((S1 & S2 & S3) & S4 & S5 & _); try done; try congruence; rewrite ?F1, ?F2; try done; try congruence.
        split; [unfold same_wire; split_and!; congruence|]. done.
  - unfold next_event in He. destruct (events w) as [|e0 es]. { injection He as <- <- <-. split; [done|]. constructor; try done; lia. }
    destruct H4 as [H4|H4]; rewrite H4 in He; destruct e0 as [st|st cl em|l| | | | | |]; try done; injection He as <- <- <-; (split; [done|]); (constructor; cbn; [done|lia|done|]); intros _ _; unfold receiving; cbn; rewrite ?H4; auto 10.
Qed.
(** Sending a body. *)
Definition with_sent (m : msg) (l : list byte) : msg := Msg (m_announced m) (m_expect m) (m_head m) l.
Record sending (c : conn) (m : msg) (ms : list msg) (rest : nat) : Prop := Sending {
  s_pending : pending c = true; s_open : response_open c = false; s_their : their c = TResponse; s_stream : stream c = true;
  s_count : S (responses c) = length (wire c); s_our : our c = OBody rest; s_broken : broken c = false;
  s_wire : wire c = m :: ms; s_ms : Forall clean ms; s_head : m_head m = true; s_rest : length (m_sent m) + rest = m_announced m }.
Record stopped (c : conn) (e : exn) (m : msg) (ms : list msg) : Prop := Stopped {
  p_pending : pending c = true; p_open : response_open c = false; p_their : their c = TResponse; p_stream : stream c = true;
  p_count : S (responses c) = length (wire c); p_our : our c <> OIdle; p_closed : e = ConnectionClosed -> broken c = true /\ our c <> OError;
  p_wire : exists l, wire c = with_sent m l :: ms; p_ms : Forall clean ms }.
Lemma stopped_with c e m l ms : stopped c e (with_sent m l) ms -> stopped c e m ms.
Proof. intros [H1 H2 H3 H4 H5 H6 H7 [l1 Hm] H9]. constructor; try done. by exists l1. Qed.
Lemma stopped_inv c e m ms : stopped c e m ms -> inv c.
Proof. intros [H1 H2 H3 H4 H5 H6 H7 [l Hm] H9]. constructor; try done; try lia; try congruence. by rewrite Hm. Qed.
Lemma stopped_idle c e m ms : stopped c e m ms -> is_idle c = false.
Proof. intros [H1 H2 H3 H4 H5 H6 H7 [l Hm] H9]. unfold is_idle. rewrite H4. by destruct (our c). Qed.
Lemma not_idle (c : conn) : our c <> OIdle -> is_idle c = false.
Proof. unfold is_idle. destruct (stream c), (our c); done. Qed.
Lemma stopped_waiting c m ms : stopped c ConnectionClosed m ms -> waiting c.
Proof. intros [H1 H2 H3 H4 H5 H6 H7 [l Hm] H9]. destruct (H7 eq_refl). constructor; try done; [by rewrite Hm|by left]. Qed.
Lemma send_data_spec l c w c' w' r m ms rest : send_data l (c, w) = ((c', w'), r) -> sending c m ms rest -> length l <= rest ->
  match r with inr _ => sending c' (with_sent m (m_sent m ++ l)) ms (rest - length l) | inl e => stopped c' e m ms end.
Proof.
  intros H [H1 H2 H3 H4 H5 H6 H7 H8 H9 H10 H11] Hl. unfold send_data, bind, get, modify in H. cbn in H. rewrite H6 in H. rewrite decide_True in H by done.
  cbn in H. unfold raw_write in H. cbn in H. rewrite H7, H8 in H. destruct (writes w) as [|[|k|k|k] ws]; injection H as <- <- <-; constructor; cbn; try done; rewrite ?H8; try done; try (by eexists); try (by exists (m_sent m); destruct m).
  all: try (rewrite H8 in H5; done).
  rewrite app_length. lia.
Qed.
Lemma stream_file_spec fuel cs rest c w c' w' r m ms : stream_file bufsize fuel cs rest (c, w) = ((c', w'), r) -> sending c m ms rest -> length cs + length (concat cs) < fuel ->
  match r with inr rest' => sending c' (with_sent m (m_sent m ++ take rest (concat cs))) ms rest' /\ rest' = rest - length (concat cs) | inl e => stopped c' e m ms end.
Proof.
  revert cs rest c w m. induction fuel as [|fuel IH]; intros cs rest c w m H Hs Hf; [lia|]. cbn -[concat Nat.min] in H.
  assert (forall c0 r0, sending c0 m ms r0 -> sending c0 (with_sent m (m_sent m ++ [])) ms r0) as Hnil by (intros; rewrite app_nil_r; by destruct m).
  destruct (decide (rest = 0)) as [->|Hr]. { injection H as <- <- <-. cbn. auto. }
  destruct cs as [|[|x l] cs]. { injection H as <- <- <-. cbn. rewrite take_nil. split; [auto|lia]. }
  { eapply IH in H; [exact H|exact Hs|]. cbn in Hf. lia. }
  set (n := bufsize `min` rest) in *. assert (0 < n <= rest) as Hn by lia. clearbody n.
  assert (length (take n (x :: l)) <= rest) as Hlen by (rewrite take_length; lia).
  apply bind_inv in H as [([c1 w1] & [] & Hd & H)|(e & Hd & ->)]; [|by eapply send_data_spec in Hd].
  eapply send_data_spec in Hd; [|done|done]. eapply IH in H; [|exact Hd|].
  2: { cbn [concat length] in Hf |- *. rewrite app_length in *. rewrite drop_length. cbn [length] in *. lia. }
  destruct r as [e|r]; [by eapply stopped_with|]. destruct H as [H ->].
  assert (take rest (concat ((x :: l) :: cs)) = take n (x :: l) ++ take (rest - length (take n (x :: l))) (concat (drop n (x :: l) :: cs))) as E.
  { cbn [concat]. rewrite <- (take_drop n (x :: l)) at 1. rewrite <- app_assoc. rewrite take_app_ge by done. done. }
  split.
  - rewrite E, app_assoc. by destruct m.
  - cbn [concat]. rewrite !app_length, take_length, drop_length. cbn [length]. lia.
Qed.
Lemma stream_body_spec body rest c w c' w' r m ms : stream_body bufsize body rest (c, w) = ((c', w'), r) -> sending c m ms rest ->
  match r with inr _ => sending c' (with_sent m (m_sent m ++ take rest (concat (content <$> body)))) ms 0 /\ rest <= length (concat (content <$> body)) | inl e => stopped c' e m ms end.
Proof.
  revert rest c w m. induction body as [|i body IH]; intros rest c w m H Hs; cbn -[fuel_of] in H.
  { case_decide as D; injection H as <- <- <-; destruct Hs as [H1 H2 H3 H4 H5 H6 H7 H8 H9 H10 H11].
    - constructor; try done; [by rewrite H6|exists (m_sent m); rewrite H8; by destruct m].
    - assert (rest = 0) as -> by lia. cbn. rewrite app_nil_r. split; [|lia]. by constructor; destruct m. }
  destruct (decide (rest = 0)) as [->|Hr].
  { injection H as <- <- <-. cbn. rewrite app_nil_r. split; [|lia]. by destruct m. }
  destruct i as [l|cs]; cbn [fmap list_fmap content concat].
  - case_decide as D.
    { injection H as <- <- <-. destruct Hs as [H1 H2 H3 H4 H5 H6 H7 H8 H9 H10 H11]. constructor; try done; [by rewrite H6|exists (m_sent m); rewrite H8; by destruct m]. }
    apply bind_inv in H as [([c1 w1] & [] & Hd & H)|(e & Hd & ->)].
    + assert (sending c1 (with_sent m (m_sent m ++ l)) ms (rest - length l)) as Hs1.
      { case_decide as Dl; [subst l; injection Hd as <- <-; cbn; rewrite app_nil_r, Nat.sub_0_r; by destruct m|]. eapply send_data_spec in Hd; [done|done|lia]. }
      eapply IH in H; [|exact Hs1]. destruct r as [e|[]]; [by eapply stopped_with|]. destruct H as [H Hle]. rewrite app_length. split; [|lia].
      rewrite take_app_ge by lia. rewrite app_assoc. by destruct m.
    + case_decide as Dl; [done|]. eapply send_data_spec in Hd; [done|done|lia].
  - apply bind_inv in H as [([c1 w1] & rest' & Hd & H)|(e & Hd & ->)].
    + eapply stream_file_spec in Hd as [Hs1 ->]; [|done|unfold fuel_of; lia]. eapply IH in H; [|exact Hs1]. destruct r as [e|[]]; [by eapply stopped_with|]. destruct H as [H Hle]. rewrite app_length. split; [|lia].
      destruct (decide (length (concat cs) <= rest)) as [D|D].
      * rewrite (take_ge _ _ D) in H. rewrite take_app_ge by done. rewrite app_assoc. by destruct m.
      * rewrite take_app_le by lia. replace (rest - length (concat cs)) with 0 in H by lia. rewrite take_0, app_nil_r in H. by destruct m.
    + eapply stream_file_spec in Hd; [done|done|unfold fuel_of; lia].
Qed.
Lemma send_head_spec total expect cl c w c' w' r : send_head total expect cl (c, w) = ((c', w'), r) -> inv c -> stream c = true -> our c = OIdle ->
  match r with inr _ => sending (set_pending true c') (Msg total expect true []) (wire c) total | inl _ => inv c' /\ our c' <> OIdle end.
Proof.
  intros H Hi Hst Ho. destruct (v_idle _ Hi Hst Ho) as (H1 & H2 & H3 & H4 & H5 & _). destruct c as [st o t k p ro wi br re]. cbn in *. subst o t st p ro.
  unfold send_head, bind, get, modify in H. cbn in H.
  assert (forall c0 b, fire (set_our (OBody total) (set_their TResponse (if cl then no_keep_alive (Conn true OIdle TIdle c0 false false wi b re) else Conn true OIdle TIdle c0 false false wi b re))) =
    Conn true (OBody total) TResponse (if cl then false else c0) false false wi b re) as E by (intros [] b; destruct cl; done).
  rewrite E in H. clear E. unfold raw_write in H. cbn in H.
  destruct br; destruct (writes w) as [|[|j|j|j] ws]; injection H as <- <- <-.
  all: try (split; [|done]).
  all: try (constructor; cbn; try done; try lia; try (by destruct H5); try (by destruct wi; try done; apply (v_tail _ Hi))).
Qed.
Lemma send_end_spec c w c' w' r m ms rest : send_end (c, w) = ((c', w'), r) -> sending c m ms rest ->
  match r with inr _ => rest = 0 /\ waiting c' /\ wire c' = m :: ms /\ broken c' = false /\ stream c' = true | inl e => stopped c' e m ms end.
Proof.
  intros H [H1 H2 H3 H4 H5 H6 H7 H8 H9 H10 H11]. unfold send_end, bind, get, modify in H. cbn in H. rewrite H6 in H. destruct rest as [|rest]; injection H as <- <- <-.
  - destruct (fire_facts (set_our ODone c)) as (F1 & F2 & F3 & F4 & F5 & F6 & _). cbn in *.
    destruct (fire_our (set_our ODone c)) as [G1 G2]; try done; [by cbn; rewrite H3|]. split_and!; try done; try congruence. constructor; try done; try congruence.
    + destruct (fire_their (set_our ODone c) TResponse H3) as [[? _]|?]; done.
    + by rewrite F1, H8.
    + right. rewrite F1, H8. constructor; [|done]. split; [done|left]. lia.
  - constructor; cbn; try done. exists (m_sent m). rewrite H8. by destruct m.
Qed.
Definition outcome (c' : conn) (old : list msg) (total : nat) (expect : bool) (data : list byte) (status : nat) : Prop :=
  exists m, wire c' = m :: old /\ m_head m = true /\ m_announced m = total /\ m_expect m = expect /\
    (status = 100 \/ responses c' = length (wire c')) /\
    ((m_sent m = take total data /\ total <= length data) \/ (expect = true /\ m_sent m = [] /\ status <> 100) \/ broken c' = true).
Lemma send_body_spec body total c w c' w' r m ms : send_body bufsize body total (c, w) = ((c', w'), r) -> sending c m ms total -> m_sent m = [] ->
  inv c' /\ match r with inr status => outcome c' ms total (m_expect m) (concat (content <$> body)) status | inl _ => is_idle c' = false end.
Proof.
  intros H Hs Hm. unfold send_body in H. assert (m_announced m = total) as Ha by (rewrite <- (s_rest _ _ _ _ Hs), Hm; done). pose proof (s_head _ _ _ _ Hs) as Hh.
  destruct (bind _ _ _) as [[c1 w1] o] eqn:E in H. apply bind_inv in E as [([c0 w0] & [] & E1 & E2)|(e & E1 & ->)].
  - eapply stream_body_spec in E1 as [Hs1 Hle]; [|done]. pose proof (send_end_spec _ _ _ _ _ _ _ _ E2 Hs1) as E3.  destruct o as [e|[]].
    + cbn in E3. pose proof (stopped_inv _ _ _ _ E3) as Hi. assert (e <> ConnectionClosed) as Hne.
      { unfold send_end, bind, get, modify in E2. cbn in E2. rewrite (s_our _ _ _ _ Hs1) in E2. by injection E2 as <- <-. }
      pose proof (stopped_idle _ _ _ _ E3). destruct e; try done; injection H as <- <- <-; done.
    + destruct E3 as (_ & Hw & Hwire & Hbr & Hst). unfold read_response in H. cbn [snd] in H. apply read_response_spec in H as [(S1 & S2 & S3) H]; [|done].
      destruct r as [e|status]; [destruct H; split; [done|by apply not_idle]|]. destruct H as [[-> ->]|(Hst2 & Hi & Hc)].
      * split; [|exists (with_sent m (m_sent m ++ take total (concat (content <$> body)))); rewrite Hwire, Hm; cbn; split_and!; auto].
        destruct Hw as [W1 W2 W3 W4 [W5 W6] W7 W8]. constructor; try done; try lia; congruence.
      * split; [done|]. exists (with_sent m (m_sent m ++ take total (concat (content <$> body)))). rewrite S1, Hwire, Hm. cbn. split_and!; auto. right. rewrite Hc, S1, Hwire. done.
  - eapply stream_body_spec in E1; [|done]. cbn in E1. pose proof (stopped_inv _ _ _ _ E1) as Hi. pose proof (stopped_idle _ _ _ _ E1) as Hidle. destruct e; try (injection H as <- <- <-; done).
    pose proof (stopped_waiting _ _ _ E1) as Hw. destruct E1 as [P1 P2 P3 P4 P5 P6 P7 [l1 P8] P9]. destruct (P7 eq_refl) as [Hbr _].
    destruct (read_response (c1, w1)) as [[c2 w2] [e|status]] eqn:E2; unfold read_response in E2; cbn [snd] in E2; apply read_response_spec in E2 as [(S1 & S2 & S3) E2]; try done.
    + destruct E2 as [E2 E3]. apply not_idle in E3. assert (inv (close_stream c2)) as Hi2 by (destruct E2; constructor; done). by destruct e; injection H as <- <- <-.
    + injection H as <- <- <-. destruct E2 as [[-> ->]|(Hst2 & Hi2 & Hc)]; (split; [done|]); exists (with_sent m l1); cbn; rewrite ?S1, ?S2; split_and!; auto; right; congruence.
Qed.
Lemma sending_waiting c m ms rest : sending c m ms rest -> m_expect m = true -> m_sent m = [] -> waiting c.
Proof.
  intros [H1 H2 H3 H4 H5 H6 H7 H8 H9 H10 H11] He Hs. constructor; try done; [by rewrite H6|by rewrite H8|]. right. rewrite H8. constructor; [|done]. split; [done|right; done].
Qed.
Lemma send_request_spec ok body bl e100 cl c w c' w' r : send_request bufsize ok body bl e100 cl (c, w) = ((c', w'), r) -> inv c ->
  inv c' /\ match r with
    | inr status => outcome c' (if stream c then wire c else []) (announced body bl) (expects body e100) (concat (content <$> body)) status
    | inl _ => is_idle c' = true -> c' = c end.
Proof.
  intros H Hi. unfold send_request in H. cbv zeta in H. destruct (_ && _) eqn:Eb in H. { injection H as <- <- <-. done. }
  apply bind_inv in H as [(s0 & c0 & H0 & H)|(e & He & ->)]; [|done]. injection H0 as <- <-.
  apply bind_inv in H as [([c1 w1] & [] & H1 & H)|(e & He & ->)].
  2: { destruct (stream c); [done|]. destruct ok; [done|]. by injection He as <- <- <-. }
  apply bind_inv in H as [(s2 & c2 & H2 & H)|(e & He & ->)]; [|done]. injection H2 as <- <-.
  assert (inv c1 /\ stream c1 = true /\ wire c1 = (if stream c then wire c else []) /\ (c1 = c \/ (our c1 = OIdle /\ is_closing c1 = false /\ response_open c1 || pending c1 = false))) as (Hi1 & Hst1 & Hw1 & Hc1).
  { destruct (stream c) eqn:Est; [injection H1 as <- <-; rewrite Est; auto|]. destruct ok; [|done]. injection H1 as <- <-. split_and!; auto. constructor; cbn; [constructor|done| |done]. intros _ _. unfold quiet. cbn. split_and!; try done. right. constructor. }
  rewrite <- Hw1. cbn [fst] in H.
  destruct (is_closing c1) eqn:Ecl. { injection H as <- <- <-. split; [done|]. destruct Hc1 as [->|(?&?&?)]; [done|congruence]. }
  destruct (response_open c1 || pending c1) eqn:Ero. { injection H as <- <- <-. split; [done|]. destruct Hc1 as [->|(?&?&?)]; [done|congruence]. }
  destruct (our c1) eqn:Eo; try (injection H as <- <- <-; split; [done|]; by destruct Hc1 as [->|(?&?&?)]).
  apply bind_inv in H as [([c2 w2] & [] & Hh & H)|(e & Hh & ->)]; pose proof (send_head_spec _ _ _ _ _ _ _ _ Hh Hi1 Hst1 Eo) as Hs; cbn in Hs.
  2: { destruct Hs as [Hi2 Ho2]. split; [done|]. rewrite not_idle by done. done. }
  apply bind_inv in H as [(s3 & [] & Hm & H)|(e & Hm & ->)]; [|done]. injection Hm as <-. cbn [fst snd] in H. set (c3 := set_pending true c2) in *. clearbody c3.
  destruct body as [|i body].
  - apply bind_inv in H as [([c4 w4] & [] & Hm & H)|(e & Hm & ->)]; pose proof (send_end_spec _ _ _ _ _ _ _ _ Hm Hs) as He; cbn in He.
    2: { split; [by eapply stopped_inv|]. by rewrite (stopped_idle _ _ _ _ He). }
    destruct He as (E0 & Hw & Hwire & Hbr & Hst). unfold read_response in H. cbn [snd] in H. apply read_response_spec in H as [(S1 & S2 & S3) H]; [|done].
    destruct r as [e|status]. { destruct H as [H Hn]. split; [done|]. by rewrite not_idle. }
    destruct H as [[-> ->]|(Hst2 & Hi2 & Hc)].
    + split. { destruct Hw as [W1 W2 W3 W4 [W5 W6] W7 W8]. constructor; try done; try lia; congruence. }
      eexists. rewrite Hwire. split; [done|]. cbn. rewrite E0. split_and!; auto.
    + split; [done|]. eexists. rewrite S1, Hwire. split; [done|]. cbn. rewrite E0. split_and!; auto. right. rewrite Hc, S1, Hwire. done.
  - destruct (expects (i :: body) e100) eqn:Ee.
    + apply bind_inv in H as [([c4 w4] & status & Hm & H)|(e & Hm & ->)]; unfold read_response in Hm; cbn [snd] in Hm; apply read_response_spec in Hm as [(S1 & S2 & S3) Hm]; try (by eapply sending_waiting).
      2: { destruct Hm as [Hm Hn]. split; [done|]. by rewrite not_idle. }
      destruct Hm as [[-> ->]|(Hst2 & Hi2 & Hc)].
      * rewrite decide_True in H by done. eapply send_body_spec in H as [Hi4 H]; [|done|done]. split; [done|]. destruct r as [e|status]; [by rewrite H|done].
      * rewrite decide_False in H by lia. injection H as <- <- <-. split; [done|]. eexists. rewrite S1, (s_wire _ _ _ _ Hs). split; [done|]. cbn. split_and!; auto.
        -- right. rewrite Hc, S1, (s_wire _ _ _ _ Hs). done.
        -- right. left. split_and!; try done. lia.
    + eapply send_body_spec in H as [Hi4 H]; [|done|done]. split; [done|]. destruct r as [e|status]; [by rewrite H|done].
Qed.
Lemma read_spec c w c' w' r : read (c, w) = ((c', w'), r) -> inv c -> inv c' /\ wire c' = wire c.
Proof.
  unfold read. cbn [fst snd]. intros H Hi. destruct (stream c) eqn:Est; [|by injection H as <- <- <-]. destruct (response_open c) eqn:Eo; [|by injection H as <- <- <-].
  apply read_n_spec in H as [(S1 & _ & _) ?]; [done|by apply Hi|done|apply Hi].
Qed.
Lemma reachable_inv c : reachable bufsize c -> inv c.
Proof.
  induction 1 as [|c k w _ IH]; [apply new_inv|]. destruct k as [ok b l e cl| |]; cbn.
  - destruct (send_request bufsize ok b l e cl (c, w)) as [[c' w'] r] eqn:E. by apply send_request_spec in E as [? _].
  - destruct (read (c, w)) as [[c' w'] r] eqn:E. by apply read_spec in E as [? _].
  - destruct IH. by constructor.
Qed.
End proofs.
