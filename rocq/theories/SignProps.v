(** Signed requests are accepted, and refer to what was meant (C66). *)
From stdpp Require Import prelude gmap sorting.
From Coq Require Import String.
From Verif Require Import Text Decimal CodecModel CodecProps ConfigModel ConfigProps SignModel SignSpec SignProofs.
Local Close Scope string_scope.
Local Close Scope N_scope.
Local Open Scope nat_scope.
Local Open Scope list_scope.

(** Specification. The headers the callers give: names and values as HTTP allows them, and none that send_request replaces *)
Definition good_headers (h : gmap text text) : Prop :=
  forall n v, h !! n = Some v -> 58%N ∉ n /\ 59%N ∉ n /\ 10%N ∉ n /\ 10%N ∉ v /\ n <> lit "content-length"%string /\ n <> lit "expect"%string.
Definition good_call (k : call) : Prop :=
  match k with
  | Delete k | Head k | Get k => bytes k
  | ListPage p _ t => bytes p /\ match t with Some t => bytes t | None => True end
  | Put k h => bytes k /\ good_headers h
  | DeleteMulti h => good_headers h
  | Probe => True
  end.

(** ** Headers *)
Lemma send_lookup c len expect h n v : h !! n = Some v -> n <> lit "content-length"%string -> n <> lit "expect"%string -> (n = lit "host"%string -> v = wire_host c) ->
  send_headers c len expect h !! n = Some v.
Proof.
  intros Hn N1 N2 Hh. unfold send_headers. set (h1 := <[lit "content-length"%string := _]> h).
  assert (h1 !! n = Some v) as H1 by (unfold h1; by rewrite lookup_insert_ne by congruence). clearbody h1.
  set (h2 := if expect then _ else h1). assert (h2 !! n = Some v) as H2 by (unfold h2; destruct expect; [by rewrite lookup_insert_ne by congruence|done]). clearbody h2.
  set (h3 := <[lit "host"%string := _]> h2). assert (h3 !! n = Some v) as H3.
  { unfold h3. destruct (decide (n = lit "host"%string)) as [->|Hne]; [rewrite lookup_insert; by rewrite Hh|by rewrite lookup_insert_ne by congruence]. }
  clearbody h3. assert (forall k w (g : gmap text text), g !! n = Some v -> setdefault k w g !! n = Some v) as K; [|by apply K, K].
  intros k w g Hg. unfold setdefault. destruct (g !! k) eqn:E; [done|]. rewrite lookup_insert_ne; [done|]. congruence.
Qed.
Lemma send_host c len expect h : send_headers c len expect h !! lit "host"%string = Some (wire_host c).
Proof.
  unfold send_headers. set (h1 := <[lit "content-length"%string := _]> h). set (h2 := if expect then _ else h1). assert (forall k v g w, g !! lit "host"%string = Some w -> setdefault k v g !! lit "host"%string = Some w) as K.
  { intros k v g w Hg. unfold setdefault. destruct (g !! k) eqn:E; [done|]. rewrite lookup_insert_ne; [done|]. intros ->. by rewrite Hg in E. }
  apply K, K. apply lookup_insert.
Qed.
Lemma send_dom c len expect h n : is_Some (send_headers c len expect h !! n) ->
  is_Some (h !! n) \/ n ∈ lit <$> ["content-length"; "expect"; "host"; "accept-encoding"; "connection"]%string.
Proof.
  unfold send_headers. set (h1 := <[lit "content-length"%string := _]> h).
  set (h2 := if expect then _ else h1). set (h3 := <[lit "host"%string := _]> h2).
  assert (forall k w (g : gmap text text), is_Some (setdefault k w g !! n) -> is_Some (g !! n) \/ n = k) as K.
  { intros k w g. unfold setdefault. destruct (g !! k) eqn:E; [by left|]. destruct (decide (n = k)) as [->|Hne]; [by right|]. rewrite lookup_insert_ne by congruence. by left. }
  cbn [fmap list_fmap]. intros [[H| ->]%K| ->]%K; [|set_solver..]. revert H. unfold h3. destruct (decide (n = lit "host"%string)) as [->|Hne]; [set_solver|]. rewrite lookup_insert_ne by congruence.
  unfold h2. intros H. assert (is_Some (h1 !! n) \/ n = lit "expect"%string) as [H'| ->]; [|clear H|set_solver].
  { destruct expect; [|by left]. destruct (decide (n = lit "expect"%string)) as [->|Hne']; [by right|]. rewrite lookup_insert_ne in H by congruence. by left. }
  revert H'. unfold h1. destruct (decide (n = lit "content-length"%string)) as [->|Hne']; [set_solver|]. rewrite lookup_insert_ne by congruence. by left.
Qed.
Lemma names_elem h n : n ∈ names h <-> is_Some (h !! n).
Proof.
  unfold names. rewrite (sorted_perm lex). rewrite elem_of_list_fmap. split.
  - intros ([k v] & -> & H%elem_of_map_to_list). by eexists.
  - intros [v H]. exists (n, v). split; [done|]. by apply elem_of_map_to_list.
Qed.
Lemma names_nodup h : NoDup (names h).
Proof. unfold names. rewrite (sorted_perm lex). apply NoDup_fst_map_to_list. Qed.
Lemma v4_lookup c time h n v : v4_headers c time h !! n = Some v ->
  (n = lit "host"%string /\ v = sign_host c) \/ (n = lit "x-amz-date"%string /\ v = time) \/ (n = lit "x-amz-content-sha256"%string /\ v = UNSIGNED) \/
  (h !! n = Some v /\ n <> lit "host"%string).
Proof.
  unfold v4_headers. rewrite lookup_delete_Some. intros [_ H]. rewrite lookup_insert_Some in H. destruct H as [[<- <-]|[_ H]]; [right; right; left; done|].
  rewrite lookup_insert_Some in H. destruct H as [[<- <-]|[_ H]]; [right; left; done|]. rewrite lookup_insert_Some in H. destruct H as [[<- <-]|[Hn H]]; [by left|]. right; right; right. done.
Qed.
Lemma v4_host c time h : v4_headers c time h !! lit "host"%string = Some (sign_host c).
Proof. unfold v4_headers. rewrite lookup_delete_ne by done. rewrite !lookup_insert_ne by done. apply lookup_insert. Qed.
Lemma v4_date c time h : v4_headers c time h !! lit "x-amz-date"%string = Some time.
Proof. unfold v4_headers. rewrite lookup_delete_ne by done. rewrite lookup_insert_ne by done. apply lookup_insert. Qed.
Lemma v4_sha c time h : v4_headers c time h !! lit "x-amz-content-sha256"%string = Some UNSIGNED.
Proof. unfold v4_headers. rewrite lookup_delete_ne by done. apply lookup_insert. Qed.
Lemma good_v4 c time h n v : good_headers h -> 10%N ∉ hostname c -> 10%N ∉ time -> v4_headers c time h !! n = Some v ->
  58%N ∉ n /\ 59%N ∉ n /\ 10%N ∉ n /\ n <> lit "content-length"%string /\ n <> lit "expect"%string.
Proof.
  intros Hg H1 H2 [[-> _]|[[-> _]|[[-> _]|[H _]]]]%v4_lookup; [split_and!; try done; apply (bool_decide_unpack _); by vm_compute..|]. apply Hg in H as (? & ? & ? & ? & ? & ?). done.
Qed.

(** ** The target *)
Lemma not_in_quoted p : bytes p -> 63%N ∉ quoted safe_path p.
Proof. intros H. apply quoted_lacks; (done || lia). Qed.
Lemma bytes_number n : bytes (number n).
Proof. unfold number. apply Forall_fmap, Forall_forall. intros x Hx. apply dec_digits in Hx. cbn. lia. Qed.
Lemma params_back l : l <> [] -> Forall (fun kv => bytes kv.1 /\ bytes kv.2) l -> param <$> split 38%N (join 38%N (urlencode quote_plus l)) = l.
Proof.
  intros Hl H. rewrite split_join.
  - unfold urlencode. rewrite <- list_fmap_compose. rewrite <- (list_fmap_id l) at 2. apply Forall_fmap_ext_1. eapply Forall_impl; [exact H|]. intros [k v] [Hk Hv]. cbn in *.
    unfold param. rewrite upto_app by (apply quote_plus_lacks; (done || lia)). by rewrite !plus_decode_quote.
  - by destruct l.
  - unfold urlencode. apply Forall_fmap. eapply Forall_impl; [exact H|]. intros [k v] [Hk Hv]. cbn in *. rewrite elem_of_app, elem_of_cons.
    intros [F|[F|F]]; [revert F; apply quote_plus_lacks; (done || lia)|done|revert F; apply quote_plus_lacks; (done || lia)].
Qed.
Lemma full_path_bytes c k : good_call k -> bytes (bucket c) -> bytes (full_path c (request_of k)).
Proof.
  intros Hk Hb. assert (bytes (path (request_of k))) as Hp by (destruct k; cbn in *; (constructor; [lia|]); try done; by destruct Hk).
  unfold full_path. destruct (starts_with _ _); [done|]. constructor; [lia|]. by apply Forall_app.
Qed.
Lemma text_le_lit a b : lex a b = true -> a <> b -> forall v w, pair_le (a, v) (b, w).
Proof. intros H N v w. right. split; [done|]. by apply lex_spec. Qed.
Lemma target_query c r : query r <> [] -> subres r = None -> target c r = quoted safe_path (full_path c r) ++ 63%N :: join 38%N (urlencode quote_plus (query r)).
Proof. unfold target. intros H1 H2. rewrite H2. by destruct (query r). Qed.
Lemma target_plain c r : query r = [] -> subres r = None -> target c r = quoted safe_path (full_path c r).
Proof. unfold target. intros -> ->. apply app_nil_r. Qed.
Lemma target_shape c k : good_call k -> bytes (bucket c) ->
  bytes (full_path c (request_of k)) /\ target_path (target c (request_of k)) = quoted safe_path (full_path c (request_of k)) /\
  exists params, params ≡ₚ ((fun kv => (uri_encode false kv.1, uri_encode false kv.2)) <$> target_params (target c (request_of k))) /\ StronglySorted pair_le params /\
    join 38%N ((fun kv => kv.1 ++ [61%N] ++ kv.2) <$> params) = canonical_query (request_of k).
Proof.
  intros Hk Hb. pose proof (full_path_bytes c k Hk Hb) as Hf. split; [done|].
  assert (63%N ∉ quoted safe_path (full_path c (request_of k))) as Hq by (by apply not_in_quoted).
  assert (query (request_of k) = [] -> subres (request_of k) = None -> target_path (target c (request_of k)) = quoted safe_path (full_path c (request_of k)) /\ target_params (target c (request_of k)) = [] /\ canonical_query (request_of k) = []) as Hnone.
  { intros H1 H2. rewrite target_plain by done. unfold target_path, target_params. rewrite (upto_none 63%N) by done. unfold canonical_query. by rewrite H1, H2. }
  destruct k as [key|p n t|key|key|key h|h|]; try (destruct Hnone as (T1 & T2 & T3); [done..|]; split; [exact T1|]; rewrite T2, T3; exists []; split_and!; [done|constructor|done]).
  - clear Hnone. rewrite target_query by done. set (l := query (request_of (ListPage p n t))).
    assert (l <> []) as Hl by done. assert (Forall (fun kv => bytes kv.1 /\ bytes kv.2) l) as Hbl.
    { destruct Hk as [Hp Ht]. unfold l. repeat constructor; cbn; try done; try apply bytes_number; try (apply (bool_decide_unpack _); by vm_compute).
      destruct t as [t|]; [|done]. repeat constructor; cbn; try done; apply (bool_decide_unpack _); by vm_compute. }
    unfold target_path, target_params. rewrite upto_app by done. split; [done|]. rewrite params_back by done.
    unfold canonical_query. change (subres (request_of (ListPage p n t))) with (@None text). fold l. cbn match. rewrite app_nil_r.
    assert (forall x, bytes x -> uri_encode false x = quoted unreserved x) as Eq by (intros x Hx; by apply (uri_encode_eq false)).
    destruct Hk as [Hp Ht]. pose proof (bytes_number n) as Hn.
    destruct t as [t|].
    + exists [(lit "marker"%string, uri_encode false t); (lit "max-keys"%string, uri_encode false (number n)); (lit "prefix"%string, uri_encode false p)]. split_and!.
      * etrans; [apply Permutation_rev|]. reflexivity.
      * repeat apply SSorted_cons; try apply SSorted_nil; repeat (apply Forall_cons_2; [apply text_le_lit; by vm_compute|]); apply Forall_nil_2.
      * unfold l. cbn [request_of query fmap list_fmap app fst snd]. rewrite !Eq by done. reflexivity.
    + exists [(lit "max-keys"%string, uri_encode false (number n)); (lit "prefix"%string, uri_encode false p)]. split_and!.
      * etrans; [apply Permutation_rev|]. reflexivity.
      * repeat apply SSorted_cons; try apply SSorted_nil; repeat (apply Forall_cons_2; [apply text_le_lit; by vm_compute|]); apply Forall_nil_2.
      * unfold l. cbn [request_of query fmap list_fmap app fst snd]. rewrite !Eq by done. reflexivity.
  - clear Hnone. change (target c (request_of (DeleteMulti h))) with (quoted safe_path (full_path c (request_of (DeleteMulti h))) ++ 63%N :: lit "delete"%string).
    unfold target_path, target_params. rewrite upto_app by done. split; [done|].
    exists [(lit "delete"%string, [])]. split_and!; [by vm_compute|repeat constructor|by vm_compute].
Qed.

Lemma zip_diag {A B C} (f : A -> B -> C) (g : A -> B) l : zip_with f l (g <$> l) = (fun x => f x (g x)) <$> l.
Proof. induction l as [|x l IH]; [done|]. cbn. by rewrite IH. Qed.
Lemma list_eq_cons {A} (x y : A) l k : x :: l = y :: k -> x = y /\ l = k.
Proof. intros H. by injection H. Qed.
Lemma list_fmap_ext_in' {A B} (f g : A -> B) (l : list A) : (forall x, x ∈ l -> f x = g x) -> f <$> l = g <$> l.
Proof. intros H. apply Forall_fmap_ext_1, Forall_forall, H. Qed.
Section v4.
Context (sha256hex : text -> text) (hmac hmachex : text -> text -> text).
(** The name of the host as it is signed is the one that is sent. *)
Lemma host_signed c : 58%N ∉ hostname c -> (ssl c = true \/ port c <> 80 /\ port c <> 443) -> sign_host c = wire_host c.
Proof.
  intros H1 H2. unfold sign_host, wire_host. rewrite (decide_False (P := 58%N ∈ hostname c)) by done. destruct (ssl c); [done|]. destruct H2 as [H2|[H2 H3]]; [done|]. by rewrite !decide_False.
Qed.
(** The key in the cache is the one for its day and the current region. *)
Definition cache_ok (c : config) (cached : option (text * text)) : Prop := forall k d, cached = Some (k, d) -> k = derive hmac (password c) d (region c).
Theorem cached_key_right c es : let s' := foldl (event_step hmac) (c, None) es in cache_ok s'.1 s'.2 /\ password s'.1 = password c /\ bucket s'.1 = bucket c /\ login s'.1 = login c.
Proof.
  intros s'. unfold s'. clear s'. assert (cache_ok c None) as H by done.
  assert (forall es c0 cached, cache_ok c0 cached -> password c0 = password c /\ bucket c0 = bucket c /\ login c0 = login c -> let s' := foldl (event_step hmac) (c0, cached) es in
    cache_ok s'.1 s'.2 /\ password s'.1 = password c /\ bucket s'.1 = bucket c /\ login s'.1 = login c) as K; [|by apply K].
  clear. induction es as [|e es IH]; intros c0 cached Hc Hp; [done|]. cbn [foldl]. destruct e as [ymd|host prt rg]; cbn [event_step].
  - apply IH; [|done]. intros k d [= E]. unfold key_for in E. destruct cached as [[k0 d0]|]; [|by injection E as <- <-]. case_decide as D; [injection E as <- <-; by apply Hc|by injection E as <- <-].
  - destruct rg as [rg|]; [case_decide as D|]; apply IH; try done.
Qed.
Lemma key_right c cached ymd : cache_ok c cached -> (key_for hmac c cached ymd).1 = derive hmac (password c) ymd (region c).
Proof. intros H. unfold key_for. destruct cached as [[k d]|]; [|done]. case_decide as D; [|done]. subst d. by apply H. Qed.

(** C66. Every request is accepted: what is signed is what the service computes from what arrives. *)
Theorem v4_accepted c cached time len expect k : good_call k -> bytes (bucket c) -> 58%N ∉ hostname c -> 10%N ∉ hostname c -> 10%N ∉ time ->
  (ssl c = true \/ port c <> 80 /\ port c <> 443) -> cache_ok c cached ->
  v4_accepts sha256hex hmac hmachex (password c) (region c) (v4_send sha256hex hmac hmachex c cached (take 8 time) time len expect (request_of k)).
Proof.
  intros Hk Hb Hh1 Hh2 Ht Hs Hc. destruct (target_shape c k Hk Hb) as (Hf & Tp & params & P1 & P2 & P3).
  unfold v4_send. set (r := request_of k) in *. set (g := <[lit "host"%string := hostname c]> (headers r)). set (h := v4_headers c time g).
  assert (good_headers (headers r)) as Hg0 by (destruct k; cbn in Hk |- *; try (by intros ? ? ?%lookup_empty_Some); [by destruct Hk|done]).
  assert (forall n v, h !! n = Some v -> 58%N ∉ n /\ 59%N ∉ n /\ 10%N ∉ n /\ n <> lit "content-length"%string /\ n <> lit "expect"%string) as Hgood.
  { intros n v Hn. assert (h !! n = Some v) as Hn' by done. apply v4_lookup in Hn' as [[-> _]|[[-> _]|[[-> _]|[H Hne]]]]; [split_and!; try done; apply (bool_decide_unpack _); by vm_compute..|].
    unfold g in H. rewrite lookup_insert_ne in H by congruence. apply Hg0 in H as (? & ? & ? & ? & ? & ?). done. }
  assert (Hhost : h !! lit "host"%string = Some (sign_host c)) by apply v4_host. assert (Hdate : h !! lit "x-amz-date"%string = Some time) by apply v4_date.
  assert (Hsha : h !! lit "x-amz-content-sha256"%string = Some UNSIGNED) by apply v4_sha. clearbody h.
  assert (Hsp : split 59%N (join 59%N (names h)) = names h).
  { apply split_join; [|apply Forall_forall; intros n [v Hn]%names_elem; by apply Hgood in Hn as (_ & ? & _)]. assert (lit "host"%string ∈ names h) as Hin by (apply names_elem; by eexists). intros F. rewrite F in Hin. by apply elem_of_nil in Hin. }
  assert (Hsend : forall n v, h !! n = Some v -> send_headers c len expect h !! n = Some v).
  { intros n v Hn. destruct (Hgood n v Hn) as (_ & _ & _ & N1 & N2). apply send_lookup; [done..|]. intros ->. rewrite Hhost in Hn. injection Hn as <-. by apply host_signed. }
  split; [|split; [done|]].
  - unfold names_ok. cbn [w_auth a_signed w_headers]. rewrite Hsp. split_and!; [apply sorted_sorted|apply names_elem; by eexists|].
    intros n Hn [x Hx]. apply names_elem. apply send_dom in Hn as [Hn|Hn]; [done|]. exfalso. subst n. cbn [fmap list_fmap] in Hn. rewrite !elem_of_cons, elem_of_nil in Hn. destruct Hn as [F|[F|[F|[F|[F|[]]]]]]; by vm_compute in F.
  - eexists _, time. split_and!.
    + exists params, ((fun n => default [] (h !! n)) <$> names h), UNSIGNED. cbn [w_target w_auth a_signed w_headers w_method]. rewrite Hsp. split_and!; [exact P1|exact P2| |by apply Hsend|reflexivity|reflexivity].
      apply Forall2_fmap_r, Forall_Forall2_diag, Forall_forall. intros n [v Hn]%names_elem. cbn. rewrite Hn. by apply Hsend.
    + by apply Hsend.
    + done.
    + cbn [w_auth a_sig w_method w_target]. rewrite key_right by done. unfold derive. f_equal. rewrite Tp. rewrite unquote_quoted by done. rewrite (uri_encode_eq true) by done. rewrite P3.
      unfold string_to_sign. cbn [join]. rewrite <- !app_assoc. cbn [app].
      assert (canonical (method r) (full_path c r) (canonical_query r) h = join 10%N (method r :: quoted safe_path (full_path c r) :: canonical_query r ::
        zip_with (fun n v => n ++ 58%N :: strip v) (names h) ((fun n => default [] (h !! n)) <$> names h) ++ [[]; join 59%N (names h); UNSIGNED])) as <-; [|reflexivity].
      unfold canonical. rewrite zip_diag, Hsha. reflexivity.
Qed.

(** C66. In particular at any point of a session with requests of other days and changes of the endpoint and the region. *)
Theorem v4_history c es time len expect k : let s := foldl (event_step hmac) (c, None) es in
  good_call k -> bytes (bucket c) -> 58%N ∉ hostname s.1 -> 10%N ∉ hostname s.1 -> 10%N ∉ time -> (ssl s.1 = true \/ port s.1 <> 80 /\ port s.1 <> 443) ->
  v4_accepts sha256hex hmac hmachex (password c) (region s.1) (v4_send sha256hex hmac hmachex s.1 s.2 (take 8 time) time len expect (request_of k)).
Proof.
  intros s Hk Hb H1 H2 Ht Hs. destruct (cached_key_right c es) as (Hc & Hp & Hb' & _). fold s in Hc, Hp, Hb'. rewrite <- Hp. apply v4_accepted; try done. by rewrite Hb'.
Qed.

(** ** What is signed determines the request. *)
Lemma strip_lacks d v : d ∉ v -> d ∉ strip v.
Proof.
  assert (forall v, d ∉ v -> d ∉ lstrip_space v) as K. { intros w Hw. destruct (lstrip_suffix w) as [p Hp]. intros F. apply Hw. rewrite Hp. apply elem_of_app. by right. }
  intros H. unfold strip. rewrite elem_of_reverse. apply K. rewrite elem_of_reverse. by apply K.
Qed.
Definition printable (h : gmap text text) : Prop := forall n v, h !! n = Some v -> 58%N ∉ n /\ 59%N ∉ n /\ 10%N ∉ n /\ 10%N ∉ v.
Lemma lines_lack h : printable h -> Forall (fun w => 10%N ∉ w) (header_line h <$> names h).
Proof.
  intros H. apply Forall_fmap, Forall_forall. intros n [v Hn]%names_elem. cbn. unfold header_line. rewrite Hn. cbn. apply H in Hn as (_ & _ & H1 & H2).
  rewrite elem_of_app, elem_of_cons. intros [F|[F|F]]; [done|done|by apply strip_lacks in F].
Qed.
Lemma signed_lack h : printable h -> 10%N ∉ join 59%N (names h).
Proof.
  intros H. assert (forall l, Forall (fun w => 10%N ∉ w) l -> 10%N ∉ join 59%N l) as K.
  { induction 1 as [|w l Hw Hl IH]; [by intros ?%elem_of_nil|]. destruct l as [|w' l]; [done|]. change (join 59%N (w :: w' :: l)) with (w ++ 59%N :: join 59%N (w' :: l)). rewrite elem_of_app, elem_of_cons. intros [?|[?|?]]; [done|done|by apply IH]. }
  apply K, Forall_forall. intros n [v Hn]%names_elem. by apply H in Hn as (_ & _ & ? & _).
Qed.
Lemma header_lines_inj h h' : printable h -> printable h' -> header_line h <$> names h = header_line h' <$> names h' -> forall n, strip <$> h !! n = strip <$> h' !! n.
Proof.
  intros P P' E. assert (forall g, printable g -> upto 58%N <$> (header_line g <$> names g) = (fun n => Some (n, strip (default [] (g !! n)))) <$> names g) as K.
  { intros g Pg. rewrite <- list_fmap_compose. apply list_fmap_ext_in'. intros n [v Hn]%names_elem. cbn. unfold header_line. apply upto_app. by apply Pg in Hn as (? & _). }
  apply (f_equal (fmap (upto 58%N))) in E. rewrite !K in E by done.
  assert (forall g g' n, (fun n => Some (n, strip (default [] (g !! n)))) <$> names g = (fun n => Some (n, strip (default [] (g' !! n)))) <$> names g' -> forall v, g !! n = Some v -> strip <$> g' !! n = Some (strip v)) as L.
  { intros g g' n Eg v Hv. assert (Some (n, strip v) ∈ (fun n => Some (n, strip (default [] (g !! n)))) <$> names g) as Hin.
    { apply elem_of_list_fmap. exists n. split; [by rewrite Hv|]. apply names_elem. by eexists. }
    rewrite Eg in Hin. apply elem_of_list_fmap in Hin as (n' & [= <- Hs] & [v' Hn']%names_elem). rewrite Hn' in Hs |- *. cbn in *. by rewrite Hs. }
  intros n. destruct (h !! n) as [v|] eqn:E1.
  - symmetry. by apply (L h h').
  - destruct (h' !! n) as [v'|] eqn:E2; [|done]. assert (strip <$> h !! n = Some (strip v')) as F by (by apply (L h' h)). by rewrite E1 in F.
Qed.
Theorem canonical_inj m p q h m' p' q' h' : 10%N ∉ m -> 10%N ∉ q -> bytes p -> printable h -> 10%N ∉ m' -> 10%N ∉ q' -> bytes p' -> printable h' ->
  canonical m p q h = canonical m' p' q' h' -> m = m' /\ p = p' /\ q = q' /\ forall n, strip <$> h !! n = strip <$> h' !! n.
Proof.
  intros A1 A2 A3 A4 B1 B2 B3 B4. unfold canonical.
  assert (forall m p q h, 10%N ∉ m -> 10%N ∉ q -> bytes p -> printable h ->
    Forall (fun w => 10%N ∉ w) ([m; quoted safe_path p; q] ++ (header_line h <$> names h) ++ [[]; join 59%N (names h); default [] (h !! lit "x-amz-content-sha256"%string)])) as K.
  { clear. intros m p q h H1 H2 H3 H4. repeat apply Forall_app_2; [|by apply lines_lack|]; repeat apply Forall_cons_2; try apply Forall_nil_2; try done.
    - apply quoted_lacks; (done || lia).
    - by intros ?%elem_of_nil.
    - by apply signed_lack.
    - destruct (h !! lit "x-amz-content-sha256"%string) eqn:E; [by apply H4 in E as (_ & _ & _ & ?)|by intros ?%elem_of_nil]. }
  intros E. apply join_inj in E; [|by apply K|by apply K|done|done]. cbn [app] in E. injection E as -> Ep -> E.
  split; [done|]. split; [by apply (quoted_inj safe_path)|]. split; [done|]. apply header_lines_inj; [done..|]. by apply app_inj_2 in E as [E _].
Qed.
Lemma quoted_app safe a b : quoted safe (a ++ b) = quoted safe a ++ quoted safe b.
Proof. apply flat_map_app. Qed.
Lemma canonical_query_list p n t : canonical_query (request_of (ListPage p n t)) =
  join 38%N (match t with Some t => [lit "marker="%string ++ quoted unreserved t] | None => [] end ++ [lit "max-keys="%string ++ quoted unreserved (number n); lit "prefix="%string ++ quoted unreserved p]).
Proof. destruct t; reflexivity. Qed.
(** The parameters are determined by the canonical query. *)
Lemma canonical_query_inj k k' : good_call k -> good_call k' -> canonical_query (request_of k) = canonical_query (request_of k') ->
  query (request_of k) = query (request_of k') /\ subres (request_of k) = subres (request_of k').
Proof.
  assert (forall l b, bytes b -> 38%N ∉ l -> 38%N ∉ l ++ quoted unreserved b) as L. { intros l b Hb Hl. rewrite elem_of_app. intros [F|F]; [done|]. revert F. apply quoted_lacks; (done || lia). }
  assert (forall p n t, bytes p -> match t with Some t => bytes t | None => True end -> Forall (fun w => 38%N ∉ w)
    (match t with Some t => [lit "marker="%string ++ quoted unreserved t] | None => [] end ++ [lit "max-keys="%string ++ quoted unreserved (number n); lit "prefix="%string ++ quoted unreserved p])) as F.
  { intros p n t Hp Ht. apply Forall_app_2; [destruct t; [|apply Forall_nil_2]|]; repeat apply Forall_cons_2; try apply Forall_nil_2; apply L; try done; try apply bytes_number; apply (bool_decide_unpack _); by vm_compute. }
  assert (forall p n t k, bytes p -> match t with Some t => bytes t | None => True end -> canonical_query (request_of (ListPage p n t)) = k -> k = [] \/ k = lit "delete="%string -> False) as G.
  { intros p n t q Hp Ht Eq Hq. rewrite canonical_query_list in Eq. destruct t as [t|]; cbn in Eq; destruct Hq as [-> | ->]; discriminate Eq. }
  destruct k as [|p n t| | | | |], k' as [|p' n' t'| | | | |]; intros Hk Hk' E; try done;
    try (exfalso; cbn in Hk; destruct Hk as [Hp Ht]; eapply (G p n t); [done|done|exact E|]; ((by left) || (by right)));
    try (exfalso; cbn in Hk'; destruct Hk' as [Hp Ht]; symmetry in E; eapply (G p' n' t'); [done|done|exact E|]; ((by left) || (by right))); try (by vm_compute in E).
  split; [|done]. destruct Hk as [Hp Ht], Hk' as [Hp' Ht']. rewrite !canonical_query_list in E. apply join_inj in E; [|by apply F|by apply F|by destruct t|by destruct t'].
  destruct t as [t|], t' as [t'|]; try (apply (f_equal List.length) in E; discriminate E).
  - cbn [app] in E. apply list_eq_cons in E as [E1 E]. apply list_eq_cons in E as [E2 E]. apply list_eq_cons in E as [E3 _]. apply app_inv_head in E1, E2, E3.
    apply quoted_inj in E1; [|done..]. apply quoted_inj in E2; [|done|apply bytes_number..]. apply quoted_inj in E3; [|done..]. cbn [request_of query]. by rewrite E1, E2, E3.
  - cbn [app] in E. apply list_eq_cons in E as [E2 E]. apply list_eq_cons in E as [E3 _]. apply app_inv_head in E2, E3.
    apply quoted_inj in E2; [|done|apply bytes_number..]. apply quoted_inj in E3; [|done..]. cbn [request_of query]. by rewrite E2, E3.
Qed.
Lemma method_lacks k : 10%N ∉ method (request_of k).
Proof. destruct k; apply (bool_decide_unpack _); by vm_compute. Qed.
Lemma query_lacks k : good_call k -> 10%N ∉ canonical_query (request_of k).
Proof.
  intros Hk. assert (forall l b, bytes b -> 10%N ∉ l -> 10%N ∉ l ++ quoted unreserved b) as L. { intros l b Hb Hl. rewrite elem_of_app. intros [F|F]; [done|]. revert F. apply quoted_lacks; (done || lia). }
  destruct k as [|p n t| | | | |]; try (apply (bool_decide_unpack _); by vm_compute). rewrite canonical_query_list. destruct Hk as [Hp Htt].
  assert (10%N ∉ lit "max-keys="%string ++ quoted unreserved (number n)) as L1 by (apply L; [apply bytes_number|apply (bool_decide_unpack _); by vm_compute]).
  assert (10%N ∉ lit "prefix="%string ++ quoted unreserved p) as L2 by (apply L; [done|apply (bool_decide_unpack _); by vm_compute]).
  destruct t as [t|]; cbn [app join]; [rewrite elem_of_app, elem_of_cons; intros [F|[F|F]]; [revert F; apply L; [done|apply (bool_decide_unpack _); by vm_compute]|done|revert F]|];
    rewrite elem_of_app, elem_of_cons; intros [F|[F|F]]; done.
Qed.
Lemma call_headers k : good_call k -> good_headers (headers (request_of k)).
Proof. intros Hk. destruct k; cbn in Hk |- *; try (by intros ? ? ?%lookup_empty_Some); [by destruct Hk|done]. Qed.
Lemma number_lacks d n : (d < 48)%N \/ (57 < d)%N -> d ∉ number n.
Proof. intros H F. unfold number in F. apply elem_of_list_fmap in F as (x & Fd & Hd). apply dec_digits in Hd. lia. Qed.
Lemma signed_printable c k time : good_call k -> 10%N ∉ hostname c -> 10%N ∉ time -> printable (v4_headers c time (<[lit "host"%string := hostname c]> (headers (request_of k)))).
Proof.
  intros Hk Hh Ht n v Hn. pose proof (call_headers k Hk) as Hg.
  apply v4_lookup in Hn as [[-> ->]|[[-> ->]|[[-> ->]|[H Hne]]]]; [|split_and!; try done; apply (bool_decide_unpack _); by vm_compute..|].
  - split_and!; try (apply (bool_decide_unpack _); by vm_compute). unfold sign_host. case_decide; [done|]. rewrite elem_of_app, elem_of_cons. intros [F|[F|F]]; [done|done|].
    revert F. apply number_lacks. lia.
  - rewrite lookup_insert_ne in H by congruence. apply Hg in H as (? & ? & ? & ? & _). done.
Qed.
(** C66. Two requests (of any time) with the same signed text are the same: method, path, parameters, and headers. *)
Theorem v4_unambiguous c k k' time time' : good_call k -> good_call k' -> bytes (bucket c) -> 10%N ∉ hostname c -> 10%N ∉ time -> 10%N ∉ time' ->
  let h k time := v4_headers c time (<[lit "host"%string := hostname c]> (headers (request_of k))) in
  let can k time := canonical (method (request_of k)) (full_path c (request_of k)) (canonical_query (request_of k)) (h k time) in
  can k time = can k' time' ->
  method (request_of k) = method (request_of k') /\ path (request_of k) = path (request_of k') /\ query (request_of k) = query (request_of k') /\
  subres (request_of k) = subres (request_of k') /\ forall n, strip <$> h k time !! n = strip <$> h k' time' !! n.
Proof.
  intros Hk Hk' Hb Hh Ht Ht' h can E.
  apply canonical_inj in E as (E1 & E2 & E3 & E4); [|by apply method_lacks|by apply query_lacks|by apply full_path_bytes|by apply signed_printable|by apply method_lacks|by apply query_lacks|by apply full_path_bytes|by apply signed_printable].
  apply canonical_query_inj in E3 as [E3 E3']; [|done..]. split_and!; try done. revert E2. unfold full_path. destruct (starts_with _ _); [done|]. intros E2%list_eq_cons. destruct E2 as [_ E2]. by apply app_inv_head in E2.
Qed.

Lemma join_lacks d x (l : list text) : d <> x -> d ∉ join x l <-> Forall (fun w => d ∉ w) l.
Proof.
  intros Hd. induction l as [|w l IH]; [split; [intros _; apply Forall_nil_2|by intros _ ?%elem_of_nil]|]. rewrite Forall_cons, <- IH. destruct l as [|w' l].
  - cbn. split; [intros H; split; [done|by intros ?%elem_of_nil]|by intros [H _]].
  - change (join x (w :: w' :: l)) with (w ++ x :: join x (w' :: l)). rewrite elem_of_app, elem_of_cons. tauto.
Qed.
Lemma host_differs c : ssl c = false -> port c = 80 \/ port c = 443 -> 58%N ∉ hostname c -> strip (hostname c) = hostname c -> hostname c <> [] -> strip (sign_host c) <> strip (wire_host c).
Proof.
  intros Hs Hp Hc Hst Hne. assert (forall n, strip (hostname c ++ 58%N :: number n) = hostname c ++ 58%N :: number n) as K.
  { intros n. apply strip_id.
    - intros x Hx. destruct (hostname c) as [|y h] eqn:E; [done|]. cbn in Hx. injection Hx as <-. rewrite <- E in Hst. destruct (is_space y) eqn:Ey; [|done]. exfalso. apply (f_equal List.length) in Hst. unfold strip in Hst. rewrite E in Hst. cbn [lstrip_space] in Hst. rewrite Ey in Hst. rewrite reverse_length in Hst.
      destruct (lstrip_suffix h) as [p1 P1]. destruct (lstrip_suffix (reverse (lstrip_space h))) as [p2 P2]. apply (f_equal List.length) in P1, P2. rewrite app_length in P1, P2. rewrite reverse_length in P2. cbn in Hst. lia.
    - intros x Hx. rewrite last_app_cons in Hx. assert (x ∈ 58%N :: number n) as Hin by (by apply last_Some_elem_of). apply elem_of_cons in Hin as [->|Hin]; [done|].
      unfold number in Hin. apply elem_of_list_fmap in Hin as (d & -> & Hd). apply dec_digits in Hd.
      assert (d = 48 \/ d = 49 \/ d = 50 \/ d = 51 \/ d = 52 \/ d = 53 \/ d = 54 \/ d = 55 \/ d = 56 \/ d = 57) as Dd by lia. by repeat (destruct Dd as [->|Dd]; [done|]); subst d. }
  unfold sign_host, wire_host. rewrite Hs. rewrite (decide_False (P := 58%N ∈ hostname c)) by done. intros F. destruct Hp as [Hp|Hp].
  - rewrite (decide_False (P := port c = 443)), (decide_True (P := port c = 80)) in F by lia. rewrite K, Hst in F. apply (f_equal List.length) in F. rewrite app_length in F. cbn [List.length] in F. lia.
  - rewrite (decide_True (P := port c = 443)), (decide_False (P := port c = 80)) in F by lia. rewrite K, Hst in F. apply (f_equal List.length) in F. rewrite app_length in F. cbn [List.length] in F. lia.
Qed.
(** If the name of the host that is signed is not the one that is sent, the service cannot accept any request unless the digests collide. *)
Theorem host_mismatch c cached time len expect k : (forall a b, sha256hex a = sha256hex b -> a = b) -> (forall k a b, hmachex k a = hmachex k b -> a = b) ->
  good_call k -> bytes (bucket c) -> 10%N ∉ hostname c -> 10%N ∉ time -> cache_ok c cached -> strip (sign_host c) <> strip (wire_host c) ->
  ~ v4_accepts sha256hex hmac hmachex (password c) (region c) (v4_send sha256hex hmac hmachex c cached (take 8 time) time len expect (request_of k)).
Proof.
  intros I1 I2 Hk Hb Hh2 Ht Hc Hdiff (_ & _ & can & time' & (params & values & payload & P1 & P2 & P3 & P4 & Ppay & ->) & Htime & _ & Hsig).
  destruct (target_shape c k Hk Hb) as (Hf & Tp & params0 & Q1 & Q2 & Q3).
  revert P1 P3 P4 Htime Hsig. unfold v4_send. set (r := request_of k) in *. set (h := v4_headers c time _). cbn [w_target w_auth a_signed w_headers w_method a_sig].
  intros P1 P3 P4 Htime Hsig.
  assert (good_headers (headers r)) as Hg0 by (destruct k; cbn in Hk |- *; try (by intros ? ? ?%lookup_empty_Some); [by destruct Hk|done]).
  assert (Hhost : h !! lit "host"%string = Some (sign_host c)) by apply v4_host.
  assert (forall n v, h !! n = Some v -> 59%N ∉ n /\ 10%N ∉ n /\ n <> lit "content-length"%string /\ n <> lit "expect"%string) as Hgood.
  { intros n v Hn. assert (h !! n = Some v) as Hn' by done. apply v4_lookup in Hn' as [[-> _]|[[-> _]|[[-> _]|[H Hneq]]]]; [split_and!; try done; apply (bool_decide_unpack _); by vm_compute..|].
    rewrite lookup_insert_ne in H by congruence. apply Hg0 in H as (? & ? & ? & ? & ? & ?). done. }
  assert (Hdate : send_headers c len expect h !! lit "x-amz-date"%string = Some time) by (apply send_lookup; [apply v4_date|done..]).
  rewrite Hdate in Htime. injection Htime as <-.
  assert (Hsp : split 59%N (join 59%N (names h)) = names h).
  { apply split_join; [|apply Forall_forall; intros n [v Hn]%names_elem; by apply Hgood in Hn as (? & _)]. assert (lit "host"%string ∈ names h) as Hin by (apply names_elem; by eexists). intros F. rewrite F in Hin. by apply elem_of_nil in Hin. }
  rewrite Hsp in P3, Hsig. rewrite key_right in Hsig by done. apply I2 in Hsig.
  change (string_to_sign sha256hex (take 8 time) time (region c) (canonical (method r) (full_path c r) (canonical_query r) h)) with
    (lit "AWS4-HMAC-SHA256"%string ++ 10%N :: time ++ 10%N :: (take 8 time ++ 47%N :: region c ++ lit "/s3/aws4_request"%string) ++ 10%N :: sha256hex (canonical (method r) (full_path c r) (canonical_query r) h)) in Hsig.
  match type of Hsig with _ = join _ [_; _; _; sha256hex ?x] => set (X := x) in Hsig end.
  change (join 10%N [lit "AWS4-HMAC-SHA256"%string; time; join 47%N [take 8 time; region c; lit "s3"%string; lit "aws4_request"%string]; sha256hex X]) with
    (lit "AWS4-HMAC-SHA256"%string ++ 10%N :: time ++ 10%N :: (take 8 time ++ 47%N :: region c ++ lit "/s3/aws4_request"%string) ++ 10%N :: sha256hex X) in Hsig.
  apply app_inv_head, list_eq_cons in Hsig as [_ Hsig]. apply app_inv_head, list_eq_cons in Hsig as [_ Hsig]. apply app_inv_head, list_eq_cons in Hsig as [_ Hsig]. apply I1 in Hsig.
  unfold X, canonical in Hsig. clear X. rewrite Tp, unquote_quoted in Hsig by done. rewrite (uri_encode_eq true) in Hsig by done.
  assert (Hval : forall n v, n ∈ names h -> send_headers c len expect h !! n = Some v -> 10%N ∉ v).
  { intros n v [v' Hn]%names_elem Hv. destruct (decide (n = lit "host"%string)) as [->|N].
    - rewrite send_host in Hv. injection Hv as <-. unfold wire_host. assert (10%N ∉ (if decide (58%N ∈ hostname c) then 91%N :: hostname c ++ [93%N] else hostname c)) as Hb1.
      { case_decide; [|done]. rewrite elem_of_cons, elem_of_app, elem_of_list_singleton. intros [F|[F|F]]; done. }
      destruct (decide (port c = _)); [done|]. rewrite elem_of_app, elem_of_cons. intros [F|[F|F]]; [done|done|revert F; apply number_lacks; lia].
    - assert (send_headers c len expect h !! n = Some v') as E by (destruct (Hgood n v' Hn) as (_ & _ & ? & ?); by apply send_lookup). rewrite E in Hv. injection Hv as <-. by apply (signed_printable c k time Hk Hh2 Ht) in Hn as (_ & _ & _ & ?). }
  assert (payload = UNSIGNED) as ->. { clear Ppay. assert (send_headers c len expect h !! lit "x-amz-content-sha256"%string = Some UNSIGNED) as F by (apply send_lookup; [apply v4_sha|done..]). rewrite F in P4. by injection P4. }
  assert (Hpr : printable h) by (by apply signed_printable).
  apply join_inj in Hsig; [| | |done|done].
  2: { repeat apply Forall_app_2; [|by apply lines_lack|]; repeat apply Forall_cons_2; try apply Forall_nil_2; [apply method_lacks|apply quoted_lacks; (done || lia)|by apply query_lacks|by intros ?%elem_of_nil|by apply signed_lack|].
       unfold h. rewrite v4_sha. apply (bool_decide_unpack _). by vm_compute. }
  2: { repeat apply Forall_app_2; [| |]; repeat apply Forall_cons_2; try apply Forall_nil_2; [apply method_lacks|apply quoted_lacks; (done || lia)| | |by intros ?%elem_of_nil|by apply signed_lack|apply (bool_decide_unpack _); by vm_compute].
       - apply join_lacks; [done|]. rewrite P1, <- Q1. apply (join_lacks 10%N 38%N); [done|]. rewrite Q3. by apply query_lacks.
       - apply Forall_forall. intros w Hw. apply elem_of_lookup_zip_with in Hw as (i & n & v & -> & Hn & Hv). cbn [app]. rewrite elem_of_app, elem_of_cons.
         destruct (Forall2_lookup_l _ _ _ _ _ P3 Hn) as (v' & Hv' & Hs'). rewrite Hv in Hv'. injection Hv' as <-. apply elem_of_list_lookup_2 in Hn.
         assert (10%N ∉ n) as N1. { apply names_elem in Hn as [v' Hn]. by apply Hgood in Hn as (_ & ? & _). }
         intros [F|[F|F]]; [done|done|]. apply strip_lacks in F; [done|]. by apply (Hval n). }
  cbn [app] in Hsig. apply list_eq_cons in Hsig as [_ Hsig]. apply list_eq_cons in Hsig as [_ Hsig]. apply list_eq_cons in Hsig as [_ Hsig]. apply app_inj_2 in Hsig as [Hsig _]; [|done].
  assert (lit "host"%string ∈ names h) as Hin by (apply names_elem; by eexists). apply elem_of_list_lookup in Hin as [i Hi]. destruct (Forall2_lookup_l _ _ _ _ _ P3 Hi) as (v & Hv & Hs'). rewrite send_host in Hs'. injection Hs' as <-.
  apply (f_equal (.!! i)) in Hsig. rewrite list_lookup_fmap, Hi in Hsig. rewrite lookup_zip_with, Hi, Hv in Hsig. cbn [fmap option_fmap option_map mbind option_bind] in Hsig. injection Hsig as Hsig.
  unfold header_line in Hsig. rewrite Hhost in Hsig. done.
Qed.
(** Without TLS, on port 80 (the default then) or 443 *)
Theorem nossl_refuted c cached time len expect k : (forall a b, sha256hex a = sha256hex b -> a = b) -> (forall k a b, hmachex k a = hmachex k b -> a = b) ->
  good_call k -> bytes (bucket c) -> 58%N ∉ hostname c -> 10%N ∉ hostname c -> strip (hostname c) = hostname c -> hostname c <> [] -> 10%N ∉ time -> ssl c = false -> port c = 80 \/ port c = 443 ->
  cache_ok c cached ->
  ~ v4_accepts sha256hex hmac hmachex (password c) (region c) (v4_send sha256hex hmac hmachex c cached (take 8 time) time len expect (request_of k)).
Proof. intros I1 I2 Hk Hb Hh1 Hh2 Hst Hne Ht Hs Hp Hc. apply host_mismatch; try done. by apply host_differs. Qed.
(** With an IPv6 address as the name of the host: it is sent with brackets, and signed without. *)
Theorem ipv6_refuted c cached time len expect k : (forall a b, sha256hex a = sha256hex b -> a = b) -> (forall k a b, hmachex k a = hmachex k b -> a = b) ->
  good_call k -> bytes (bucket c) -> 58%N ∈ hostname c -> 10%N ∉ hostname c -> 91%N ∉ hostname c -> 10%N ∉ time -> cache_ok c cached ->
  ~ v4_accepts sha256hex hmac hmachex (password c) (region c) (v4_send sha256hex hmac hmachex c cached (take 8 time) time len expect (request_of k)).
Proof.
  intros I1 I2 Hk Hb Hh1 Hh2 Hh3 Ht Hc. apply host_mismatch; try done. intros F.
  assert (91%N ∉ strip (sign_host c)) as N1. { apply strip_lacks. unfold sign_host. case_decide; [done|]. rewrite elem_of_app, elem_of_cons. intros [?|[?|G]]; [done|done|revert G; apply number_lacks; lia]. }
  apply N1. rewrite F. unfold wire_host. rewrite (decide_True (P := 58%N ∈ hostname c)) by done. set (w := if decide (port c = _) then _ else _). assert (exists v, w = 91%N :: v) as [v ->] by (unfold w; case_decide; by eexists).
  clear. unfold strip. change (lstrip_space (91%N :: v)) with (91%N :: v). rewrite reverse_cons. apply elem_of_reverse. assert (forall l, 91%N ∈ lstrip_space (l ++ [91%N])) as K; [|apply K].
  induction l as [|x l IH]; [left|]. cbn. destruct (is_space x); [done|]. right. apply elem_of_app. right. left.
Qed.
End v4.

(** * Addressing *)
(** Every key is stored in the bucket: if the host is the endpoint and its name does not begin with the name of the bucket, or if it is the bucket's own name. *)
Theorem addressed_right c endpoint key : 47%N ∉ bucket c -> (hostname c = endpoint /\ ~ bucket c `prefix_of` endpoint) \/ hostname c = bucket c ++ 46%N :: endpoint ->
  forall k, path (request_of k) = 47%N :: key -> addresses endpoint (hostname c) (full_path c (request_of k)) (bucket c) key.
Proof.
  intros Hs H k Hp. unfold full_path. rewrite Hp. destruct H as [[Hh Hn]|Hh].
  - destruct (starts_with (bucket c) (hostname c)) eqn:E; [apply starts_with_spec in E; by rewrite Hh in E|]. by apply PathStyle.
  - destruct (starts_with (bucket c) (hostname c)) eqn:E; [by apply HostStyle|]. exfalso. assert (starts_with (bucket c) (hostname c) = true) as F by (apply starts_with_spec; rewrite Hh; by eexists). congruence.
Qed.
(** Otherwise (for example bucket "backup" of the service "backup.example.com"), the bucket is left out: requests refer to a different bucket, or to none. *)
Theorem addressed_refuted c endpoint key : hostname c = endpoint -> bucket c `prefix_of` endpoint -> (forall r, key <> bucket c ++ 47%N :: r) ->
  forall k, path (request_of k) = 47%N :: key -> forall key', ~ addresses endpoint (hostname c) (full_path c (request_of k)) (bucket c) key'.
Proof.
  intros Hh Hp Hk k Ek key' Ha. unfold full_path in Ha. rewrite Ek in Ha. destruct (starts_with (bucket c) (hostname c)) eqn:E; [|assert (starts_with (bucket c) (hostname c) = true) as F by (apply starts_with_spec; by rewrite Hh); congruence].
  remember (bucket c) as b. destruct Ha as [b' k' Hh' Hs Hp'|b' k' Hh' Hp'].
  - injection Hp' as Hp'. by apply (Hk k').
  - rewrite Hh in Hh'. apply (f_equal List.length) in Hh'. rewrite app_length in Hh'. cbn in Hh'. lia.
Qed.
(** A request refers to one object only. *)
Theorem addresses_fun endpoint host p b k b' k' : addresses endpoint host p b k -> addresses endpoint host p b' k' -> b = b' /\ k = k'.
Proof.
  intros [b1 k1 -> H1 ->|b1 k1 -> ->] H; inversion H as [? ? E1 H1' E2|? ? E1 E2]; subst.
  - injection E2 as E2. pose proof (split_app_sep 47%N _ k1 H1) as S1. pose proof (split_app_sep 47%N _ k' H1') as S2. rewrite <- E2, S1 in S2. injection S2 as -> _. apply app_inv_head in E2. by injection E2.
  - apply (f_equal List.length) in E1. rewrite app_length in E1. cbn in E1. lia.
  - apply (f_equal List.length) in E1. rewrite app_length in E1. cbn in E1. lia.
  - injection E2 as ->. assert (List.length b1 = List.length b') as El by (apply (f_equal List.length) in E1; rewrite !app_length in E1; cbn in E1; lia). by apply app_inj_1 in E1 as [-> _].
Qed.
(** Names of Backblaze buckets (no dot, at least six characters) are never the begin of the name of the host. *)
Theorem b2_addressing b rest : 46%N ∉ b -> 3 <= List.length b -> starts_with b (lit "s3."%string ++ rest) = false.
Proof.
  intros Hd Hl. destruct (starts_with b _) eqn:E; [|done]. apply starts_with_spec in E as [r E]. exfalso. destruct b as [|x [|y [|z b]]]; cbn in Hl; try lia. cbn in E. injection E as <- <- <- _. apply Hd. do 2 right. left.
Qed.

(** * Version 2 *)
Lemma sorted_filter (P : text -> Prop) `{!forall x, Decision (P x)} l : StronglySorted text_le l -> StronglySorted text_le (filter P l).
Proof.
  induction 1 as [|x l Hs IH Hf]; [constructor|]. rewrite filter_cons. case_decide; [|done]. constructor; [done|]. apply Forall_forall. intros y [_ Hy]%elem_of_list_filter. rewrite Forall_forall in Hf. by apply Hf.
Qed.
Lemma join_last (l : list text) r : join 10%N (l ++ [r]) = flat_map (fun w => w ++ [10%N]) l ++ r.
Proof. induction l as [|w l IH]; [done|]. cbn [app flat_map]. rewrite <- app_assoc, <- IH. destruct (l ++ [r]) eqn:E; [by apply app_eq_nil in E as [_ ?]|]. cbn [join]. by rewrite <- app_assoc. Qed.
Lemma urlencode_lacks l : Forall (fun kv => bytes kv.1 /\ bytes kv.2) l -> Forall (fun w => 38%N ∉ w) (urlencode quote_plus l).
Proof.
  intros H. unfold urlencode. apply Forall_fmap. eapply Forall_impl; [exact H|]. intros [k v] [Hk Hv]. cbn in *. rewrite elem_of_app, elem_of_cons.
  intros [F|[F|F]]; [revert F; apply quote_plus_lacks; (done || lia)|done|revert F; apply quote_plus_lacks; (done || lia)].
Qed.
(** The resource as it is signed is the one the service finds. *)
Lemma v2_resource c k : good_call k -> bytes (bucket c) -> let r := request_of k in
  quoted safe_path (if starts_with (bucket c) (hostname c) then 47%N :: bucket c ++ full_path c r else full_path c r) ++ match subres r with Some s => 63%N :: s | None => [] end =
  match (if starts_with (bucket c) (hostname c) then Some (bucket c) else None) with Some b => 47%N :: uri_encode true b | None => [] end ++ target_path (target c r) ++
  match upto 63%N (target c r) with Some (_, q) => if decide (lit "delete"%string ∈ split 38%N q) then lit "?delete"%string else [] | None => [] end.
Proof.
  intros Hk Hb r. destruct (target_shape c k Hk Hb) as (Hf & Tp & _). fold r in Hf, Tp. rewrite Tp.
  assert (63%N ∉ quoted safe_path (full_path c r)) as Hq by (by apply not_in_quoted).
  assert (match upto 63%N (target c r) with Some (_, q) => if decide (lit "delete"%string ∈ split 38%N q) then lit "?delete"%string else [] | None => [] end = match subres r with Some s => 63%N :: s | None => [] end) as ->.
  { assert (query r = [] -> subres r = None -> upto 63%N (target c r) = None) as N. { intros H1 H2. rewrite target_plain by done. by apply upto_none. }
    destruct k as [key|p n t|key|key|key h|h|]; try (by rewrite N).
    - rewrite target_query by done. rewrite upto_app by done. change (subres r) with (@None text). rewrite decide_False; [done|]. rewrite split_join.
      + unfold urlencode. intros ([a b] & E & _)%elem_of_list_fmap. assert (61%N ∉ lit "delete"%string) as F by (apply (bool_decide_unpack _); by vm_compute). apply F. rewrite E. cbn. apply elem_of_app. right. left.
      + done.
      + apply urlencode_lacks. destruct Hk as [Hp Ht]. cbn [query r request_of app]. repeat apply Forall_cons_2; cbn [fst snd]; try (split; [apply (bool_decide_unpack _); by vm_compute|try done; apply bytes_number]).
        destruct t as [t|]; [|apply Forall_nil_2]. apply Forall_cons_2; [|apply Forall_nil_2]. split; [apply (bool_decide_unpack _); by vm_compute|done].
    - change (target c r) with (quoted safe_path (full_path c r) ++ 63%N :: lit "delete"%string). rewrite upto_app by done. rewrite decide_True; [done|]. apply (bool_decide_unpack _). by vm_compute. }
  destruct (starts_with (bucket c) (hostname c)); [|done]. rewrite (uri_encode_eq true) by done. change (47%N :: bucket c ++ full_path c r) with ([47%N] ++ bucket c ++ full_path c r). rewrite !quoted_app. change (quoted safe_path [47%N]) with [47%N]. rewrite <- !app_assoc. done.
Qed.
Theorem v2_accepted hmacsha1 c date len expect k : good_call k -> bytes (bucket c) ->
  v2_accepts hmacsha1 (password c) (if starts_with (bucket c) (hostname c) then Some (bucket c) else None) (v2_send hmacsha1 c date len expect (request_of k)).
Proof.
  intros Hk Hb. destruct (target_shape c k Hk Hb) as (Hf & Tp & _). unfold v2_send. set (r := request_of k) in *. set (h := <[lit "date"%string := date]> _).
  assert (good_headers (headers r)) as Hg0 by (destruct k; cbn in Hk |- *; try (by intros ? ? ?%lookup_empty_Some); [by destruct Hk|done]).
  assert (forall n v, h !! n = Some v -> n <> lit "host"%string -> n <> lit "content-length"%string /\ n <> lit "expect"%string) as Hgood.
  { intros n v Hn N1. unfold h in Hn. rewrite lookup_insert_Some in Hn. destruct Hn as [[<- _]|[_ Hn]]; [done|]. rewrite lookup_insert_ne in Hn by congruence. apply Hg0 in Hn as (_ & _ & _ & _ & ? & ?). done. }
  assert (forall n, n <> lit "host"%string -> n ∉ lit <$> ["content-length"; "expect"; "accept-encoding"; "connection"]%string -> send_headers c len expect h !! n = h !! n) as Hsend.
  { intros n N1 N2. destruct (h !! n) as [v|] eqn:E.
    - destruct (Hgood n v E N1). by apply send_lookup.
    - destruct (send_headers c len expect h !! n) as [v|] eqn:E2; [|done]. exfalso. assert (is_Some (send_headers c len expect h !! n)) as [F|F]%send_dom by (by eexists); [by rewrite E in F; destruct F|]. cbn [fmap list_fmap] in *. set_solver. }
  assert (forall n, lit "x-amz-"%string `prefix_of` n -> send_headers c len expect h !! n = h !! n) as Hamz.
  { intros n [x ->]. apply Hsend; [done|]. cbn [fmap list_fmap]. rewrite !elem_of_cons, elem_of_nil. intros [F|[F|[F|[F|[]]]]]; by vm_compute in F. }
  exists (filter (fun n => amz n = true) (names h)). cbn [w_headers w_auth a_sig w_method w_target]. split_and!.
  - intros n. rewrite elem_of_list_filter. unfold amz. rewrite starts_with_spec, names_elem. split; [intros [H1 H2]; split; [by rewrite Hamz|done]|intros [H1 H2]; split; [done|by rewrite Hamz in H1]].
  - apply NoDup_filter, names_nodup.
  - apply sorted_filter, sorted_sorted.
  - f_equal. rewrite app_assoc, join_last. rewrite flat_map_app. unfold v2_string. rewrite !Hsend; [|apply (bool_decide_unpack _); by vm_compute..].
    assert (flat_map (fun w : text => w ++ [10%N]) ((fun n => n ++ [58%N] ++ strip (default [] (send_headers c len expect h !! n))) <$> filter (fun n => amz n = true) (names h)) =
      flat_map (fun n => n ++ 58%N :: strip (opt_header h n) ++ [10%N]) (filter (fun n => amz n = true) (names h))) as ->.
    { assert (Forall (fun n => amz n = true) (filter (fun n => amz n = true) (names h))) as F by (apply Forall_forall; by intros n [? _]%elem_of_list_filter).
      revert F. generalize (filter (fun n => amz n = true) (names h)). induction 1 as [|n l Hn F IH]; [done|]. cbn [fmap list_fmap flat_map]. fold (list_fmap text text). rewrite IH. f_equal. rewrite Hamz by (by apply starts_with_spec). unfold opt_header. rewrite <- !app_assoc. done. }
    pose proof (v2_resource c k Hk Hb) as R. fold r in R. rewrite <- R. cbn [flat_map app]. rewrite <- !app_assoc. done.
Qed.

(** * Examples *)
Definition ex_config : config := Config (lit "s3.example.com"%string) 443 true (lit "backup"%string) (lit "me"%string) (lit "secret"%string) (lit "eu-1"%string).
Definition ex_put : call := Put (lit "fs/s3ql_data_1 2"%string) {[ lit "x-amz-meta-data"%string := lit " b "%string; lit "content-type"%string := lit "application/octet-stream"%string ]}.
Definition ex_list : call := ListPage (lit "fs/s3ql_data_"%string) 10 (Some (lit "fs/s3ql_data_1+2"%string)).
Lemma ex_good : good_call ex_put /\ good_call ex_list /\ bytes (bucket ex_config) /\ 58%N ∉ hostname ex_config /\ 10%N ∉ hostname ex_config /\ strip (hostname ex_config) = hostname ex_config /\ 47%N ∉ bucket ex_config.
Proof.
  assert (bytes (lit "fs/s3ql_data_1 2"%string)) as B1 by (apply (bool_decide_unpack _); by vm_compute).
  assert (bytes (lit "fs/s3ql_data_"%string)) as B2 by (apply (bool_decide_unpack _); by vm_compute).
  assert (bytes (lit "fs/s3ql_data_1+2"%string)) as B3 by (apply (bool_decide_unpack _); by vm_compute).
  split; [|split; [exact (conj B2 B3)|split_and!; apply (bool_decide_unpack _); by vm_compute]]. split; [exact B1|]. intros n v.
  rewrite lookup_insert_Some, lookup_singleton_Some. intros [[<- <-]|[_ [<- <-]]]; split_and!; try done; apply (bool_decide_unpack _); by vm_compute.
Qed.
Definition ex_time : text := lit "20261115T101112Z"%string.
(** Requests of two days, of two regions, and of a listing *)
Example ex_accepted sha256hex hmac hmachex :
  let s := foldl (event_step hmac) (ex_config, None) [Sign (lit "20261114"%string); Retarget (lit "backup.s3.eu-2.example.com"%string) 443 (Some (lit "eu-2"%string)); Sign (lit "20261115"%string)] in
  v4_accepts sha256hex hmac hmachex (lit "secret"%string) (lit "eu-2"%string) (v4_send sha256hex hmac hmachex s.1 s.2 (lit "20261115"%string) ex_time 3 true (request_of ex_put)).
Proof.
  destruct ex_good as (G1 & G2 & G3 & _).
  apply (v4_history sha256hex hmac hmachex ex_config [Sign (lit "20261114"%string); Retarget (lit "backup.s3.eu-2.example.com"%string) 443 (Some (lit "eu-2"%string)); Sign (lit "20261115"%string)] ex_time 3 true ex_put);
    [done|done| | | |by left]; apply (bool_decide_unpack _); by vm_compute.
Qed.
Example ex_target : target ex_config (request_of ex_list) = lit "/backup/?prefix=fs%2Fs3ql_data_&max-keys=10&marker=fs%2Fs3ql_data_1%2B2"%string /\
  canonical_query (request_of ex_list) = lit "marker=fs%2Fs3ql_data_1%2B2&max-keys=10&prefix=fs%2Fs3ql_data_"%string.
Proof. by vm_compute. Qed.
Example ex_v2 hmacsha1 : v2_accepts hmacsha1 (lit "secret"%string) None (v2_send hmacsha1 ex_config (lit "Sun, 15 Nov 2026 10:11:12 GMT"%string) 3 true (request_of ex_put)).
Proof. destruct ex_good as (G1 & G2 & G3 & _). by apply (v2_accepted hmacsha1 ex_config _ 3 true ex_put). Qed.
(** Without TLS, with digests that do not collide *)
Example ex_nossl : let c := Config (lit "s3.example.com"%string) 80 false (lit "backup"%string) (lit "me"%string) (lit "secret"%string) (lit "eu-1"%string) in
  ~ v4_accepts id (fun k x => k) (fun k x => x) (lit "secret"%string) (lit "eu-1"%string) (v4_send id (fun k x => k) (fun k x => x) c None (lit "20261115"%string) ex_time 3 true (request_of ex_put)).
Proof.
  intros c. destruct ex_good as (G1 & G2 & G3 & G4 & G5 & G6 & _).
  refine (nossl_refuted id (fun k x => k) (fun k x => x) c None ex_time 3 true ex_put _ _ G1 G3 G4 G5 G6 _ _ eq_refl (or_introl eq_refl) _); try done. apply (bool_decide_unpack _). by vm_compute.
Qed.
Example ex_ipv6 : let c := Config (lit "2001:db8::1"%string) 443 true (lit "backup"%string) (lit "me"%string) (lit "secret"%string) (lit "eu-1"%string) in
  ~ v4_accepts id (fun k x => k) (fun k x => x) (lit "secret"%string) (lit "eu-1"%string) (v4_send id (fun k x => k) (fun k x => x) c None (lit "20261115"%string) ex_time 3 true (request_of ex_put)).
Proof.
  intros c. destruct ex_good as (G1 & G2 & G3 & _).
  refine (ipv6_refuted id (fun k x => k) (fun k x => x) c None ex_time 3 true ex_put _ _ G1 G3 _ _ _ _ _); try done; apply (bool_decide_unpack _); by vm_compute.
Qed.
Example ex_addressed : addresses (lit "s3.example.com"%string) (hostname ex_config) (full_path ex_config (request_of ex_put)) (lit "backup"%string) (lit "fs/s3ql_data_1 2"%string).
Proof.
  destruct ex_good as (_ & _ & _ & _ & _ & _ & G). apply (addressed_right ex_config (lit "s3.example.com"%string) _ G); [|done]. left. split; [done|]. intros H%starts_with_spec. by vm_compute in H.
Qed.
Example ex_not_addressed : let c := Config (lit "backup.example.com"%string) 443 true (lit "backup"%string) (lit "me"%string) (lit "secret"%string) (lit "eu-1"%string) in
  forall key, ~ addresses (lit "backup.example.com"%string) (hostname c) (full_path c (request_of ex_put)) (lit "backup"%string) key.
Proof. intros c. apply (addressed_refuted c _ (lit "fs/s3ql_data_1 2"%string)); [done|by eexists (lit ".example.com"%string)|intros r H; by vm_compute in H|done]. Qed.

Print Assumptions v4_history. Print Assumptions v4_accepted. Print Assumptions v4_unambiguous. Print Assumptions cached_key_right. Print Assumptions v2_accepted. Print Assumptions nossl_refuted. Print Assumptions ipv6_refuted.
Print Assumptions addressed_right. Print Assumptions addressed_refuted. Print Assumptions addresses_fun. Print Assumptions b2_addressing.
