(** C78: whom the back-ends talk to, what is encrypted, and which proxy is used *)
From Verif Require Import DialModel DialSpec DialProofs.

(** The password goes to the server that is to check it, at the port of the storage URL, and encrypted unless no-ssl is given. *)
Theorem dial_password o env b reqs p l : p ∈ (run o env b reqs).1 -> what p = Login l ->
  exists h, login_host b = Some h /\ addr p = (h, login_port b) /\ (no_ssl o = false -> tls p = Some h).
Proof.
  intros Hp Hw. destruct (run_send _ _ _ _ _ Hp) as (c & x & Hx & ->); [congruence|]. cbn in Hw. subst x.
  destruct Hx as [(h & l' & Hh & _ & Hc & Hport & Htls & _)|(h & sch & named & _ & _ & _ & _ & [(? & _)|(a & r & m & ? & _)])]; [|done|done].
  exists h. split; [done|]. split; [rewrite addr_send by done; congruence|]. intros Hs. cbn. rewrite Htls, Hc. unfold login_tls. rewrite Hs. by destruct b.
Qed.

(** Everything else goes to a server that the storage URL names, or that the server it names has named: encrypted if that was an https URL, or no http URL and no-ssl is not
    given; with the token that came along with it, or a signature for its region; at the port that was named or else the usual one. *)
Theorem dial_storage o env b reqs p : p ∈ (run o env b reqs).1 -> (what p = Info \/ exists a r m, what p = Data a r m) ->
  exists h sch named, storage b h sch named /\ (addr p).1 = h /\ (encrypted o sch -> tls p = Some h) /\ (~ encrypted o sch -> tls p = None) /\
    (what p <> Info \/ named <> Some 0%N -> (addr p).2 = port_for named (bool_decide (tls p <> None))) /\
    forall a r m, what p = Data a r m -> credentials b h a.
Proof.
  intros Hp Hw. destruct (run_send _ _ _ _ _ Hp) as (c & x & Hx & ->); [intros h n Hc; rewrite Hc in Hw; naive_solver|]. cbn in Hw.
  destruct Hx as [(h & l' & Hh & -> & _)|(h & sch & named & Hst & Hh & Htls & Hpr & Hx)]; [naive_solver|].
  assert (Ha : addr (send c x) = (c_host c, c_port c)).
  { apply addr_send. intros h' n ->. naive_solver. }
  assert (Hbd : bool_decide (tls (send c x) <> None) = c_tls c) by (cbn; destruct (c_tls c); done).
  exists h, sch, named. rewrite Ha, Hbd. split; [done|]. split; [done|]. cbn [tls send what fst snd]. split; [intros He; apply Htls in He; rewrite He; congruence|].
  split; [intros He; destruct (c_tls c); [by destruct He; apply Htls|done]|]. destruct Hx as [(-> & _ & Hport)|(a & r & m & -> & Hport & Hcr & _)].
  - split; [intros [?|H0]; [done|auto]|done].
  - split; [done|]. intros a' r' m' [= <- <- <-]. done.
Qed.

(** Without no-ssl, and if no server names an http URL, nothing but the name of a server and a port can be read on the way, by a proxy or anyone else. *)
Theorem dial_secret o env b reqs p : no_ssl o = false -> (forall h sch named, storage b h sch named -> sch <> "http") ->
  p ∈ (run o env b reqs).1 -> tls p = None -> exists h n, what p = Connect h n.
Proof.
  intros Ho Hsch Hp Htls. destruct (what p) as [l| |h n|a r m] eqn:Hw.
  - destruct (dial_password _ _ _ _ _ _ Hp Hw) as (h & _ & _ & H). specialize (H Ho). congruence.
  - destruct (dial_storage _ _ _ _ _ Hp (or_introl Hw)) as (h & sch & named & Hst & _ & H & _). rewrite H in Htls; [done|]. right. split; [by eapply Hsch|done].
  - eauto.
  - destruct (dial_storage _ _ _ _ _ Hp) as (h & sch & named & Hst & _ & H & _); [eauto|]. rewrite H in Htls; [done|]. right. split; [by eapply Hsch|done].
Qed.

(** Every message takes the way the environment asks for: https_proxy if it is encrypted, http_proxy if it is not. Exceptions: the login of the B2 back-end, and unencrypted
    messages of the Swift back-ends. *)
Lemma get_proxy_via env ssl q : get_proxy env ssl = inr q ->
  match (if ssl then https_proxy env else http_proxy env) with
  | None => q = None
  | Some s => exists h n, proxy_text s h n /\ q = Some (h, n)
  end.
Proof.
  unfold get_proxy. destruct (if ssl then https_proxy env else http_proxy env) as [s|]; [|by intros [= <-]].
  destruct (parse_proxy s) as [[h n]|] eqn:Hs; [|done]. intros [= <-]. exists h, n. split; [by apply parse_proxy_spec|done].
Qed.
Theorem dial_proxy o env b reqs p : p ∈ (run o env b reqs).1 -> what p <> Login Basic ->
  (sent_on b -> secure p \/ http_proxy env = https_proxy env) -> proxied env p.
Proof.
  intros Hp Hbasic Hsent. destruct (run_elem _ _ _ _ _ Hp) as (c & x & Hx & Hpc & _).
  assert (Hsec : secure p <-> c_tls c = true).
  { destruct Hpc as [Hc| ->].
    - apply connect_elem in Hc as (a & _ & Ht & ->). split; [done|]. intros _. right. cbn. eauto.
    - unfold secure. cbn. destruct (c_tls c); split; [done|by left| |done]. intros [?|(h & n & ->)]; [done|]. by destruct (part_not_connect _ _ _ _ _ h n Hx). }
  assert (Hvar : exists ssl, get_proxy env ssl = inr (c_proxy c) /\ (ssl = c_tls c \/ http_proxy env = https_proxy env)).
  { destruct Hx as [(h & l & Hh & -> & _ & _ & Htls & Hq)|(h & sch & named & Hst & Hh & Htls & Hq & Hx)].
    - destruct b; cbn in Hh; try done.
      + destruct Hq as [Hnone ->]. destruct Hpc as [Hc| ->]; [|done]. apply connect_elem in Hc as (a & Ha & _). congruence.
      + destruct Hq as [Hq _]. exists true. split; [done|]. by left.
      + destruct Hq as [Hq _]. exists true. split; [done|]. destruct (Hsent I) as [Hs|Hs]; [|by right]. left. by apply Hsec in Hs.
      + destruct Hq as [Hq _]. exists true. split; [done|]. destruct (Hsent I) as [Hs|Hs]; [|by right]. left. by apply Hsec in Hs.
      + destruct Hq as [Hq _]. exists true. split; [done|]. destruct (Hsent I) as [Hs|Hs]; [|by right]. left. by apply Hsec in Hs.
    - exists (proxy_var o b). split; [done|]. assert (Hd : sent_on b \/ ~ sent_on b) by (destruct b; cbn; tauto).
      destruct Hd as [Hd|Hd].
      + destruct (Hsent Hd) as [Hs|Hs]; [|by right]. left. apply Hsec in Hs. rewrite Hs. by destruct b.
      + left. inversion Hst; subst b; cbn in Hd |- *; try (by destruct Hd); subst sch.
        1-5: apply eq_true_iff_eq; by rewrite Htls, encrypted_plain.
        symmetry. apply Htls. by left. }
  destruct Hvar as (ssl & Hg & Hssl). apply get_proxy_via in Hg.
  assert (Hvia : via (if ssl then https_proxy env else http_proxy env) p).
  { unfold via. destruct (if ssl then https_proxy env else http_proxy env) as [s|].
    - destruct Hg as (h & n & Ht & Hq). exists h, n. split; [done|]. destruct Hpc as [Hc| ->].
      + apply connect_elem in Hc as (a & Ha & _ & ->). cbn. split; [congruence|]. right. eauto.
      + rewrite addr_send by (intros; by eapply part_not_connect). cbn. rewrite Hq. cbn. auto.
    - destruct Hpc as [Hc| ->]; [apply connect_elem in Hc as (a & Ha & _); congruence|].
      rewrite addr_send by (intros; by eapply part_not_connect). cbn. rewrite Hg. split; [done|]. split; [done|]. intros. by eapply part_not_connect. }
  split; intros Hs.
  - destruct Hssl as [-> |He]; [|by destruct ssl; [|rewrite <- He]]. apply Hsec in Hs. by rewrite Hs in Hvia.
  - destruct Hssl as [-> |He]; [|by destruct ssl; [rewrite He|]]. destruct (c_tls c); [by destruct Hs; apply Hsec|done].
Qed.

(** A variable that names no proxy ends the program before anything is sent *)
Theorem dial_proxy_invalid o env b reqs s : (if proxy_var o b then https_proxy env else http_proxy env) = Some s ->
  (forall h n, ~ proxy_text s h n) -> run o env b reqs = ([], Some QuietError).
Proof.
  intros Hs Hn%parse_proxy_none. assert (Hg : get_proxy env (proxy_var o b) = inl QuietError) by (unfold get_proxy; by rewrite Hs, Hn).
  destruct b; cbn in Hg |- *; [unfold s3c_session|unfold s3_session|unfold b2_session|unfold gs_session|unfold swift_session|
    unfold swiftks_session, keystone_session|unfold rackspace_session, keystone_session]; by rewrite Hg.
Qed.

(** What goes through a proxy encrypted does so in a tunnel to the server that can decrypt it; and no other tunnels are asked for. *)
Theorem dial_tunnel o env b reqs p h a : p ∈ (run o env b reqs).1 -> tls p = Some h -> target p = Some a ->
  a.1 = h /\ Packet (to p) None None (Connect a.1 a.2) ∈ (run o env b reqs).1.
Proof.
  intros Hp Ht Hta. destruct (run_elem _ _ _ _ _ Hp) as (c & x & Hx & [Hc| ->] & Hsub); [apply connect_elem in Hc as (q & _ & _ & ->); done|].
  cbn in *. destruct (c_tls c) eqn:Htls; [|done]. injection Ht as <-. destruct (c_proxy c) as [q|] eqn:Hq; [|done]. injection Hta as <-. split; [done|].
  apply Hsub. unfold connect. rewrite Hq, Htls. left.
Qed.
Theorem dial_connect o env b reqs p h n : p ∈ (run o env b reqs).1 -> what p = Connect h n ->
  login_host b = Some h /\ n = login_port b \/ exists sch named, storage b h sch named /\ encrypted o sch /\ (n = port_for named true \/ named = Some 0%N).
Proof.
  intros Hp Hw. destruct (run_elem _ _ _ _ _ Hp) as (c & x & Hx & [Hc| ->] & Hsub); [|cbn in Hw; by eapply part_not_connect in Hx].
  apply connect_elem in Hc as (q & Hq & Ht & ->). cbn in Hw. injection Hw as <- <-.
  destruct Hx as [(h & l & Hh & -> & -> & -> & _)|(h & sch & named & Hst & -> & Htls & _ & Hx)]; [by left|]. right. exists sch, named. split; [done|].
  split; [by apply Htls|]. rewrite Ht in Hx. destruct Hx as [(-> & _ & Hport)|(a & r & m & -> & Hport & _)]; [|by left].
  destruct (decide (named = Some 0%N)); [by right|left; auto].
Qed.

(** Uploads that are not encrypted are compared with a check sum, except by the Swift back-ends *)
Theorem dial_checksum o env b reqs p a m : p ∈ (run o env b reqs).1 -> what p = Data a Upload m -> tls p = None -> ~ sent_on b -> m = true.
Proof.
  intros Hp Hw Ht Hb. destruct (run_send _ _ _ _ _ Hp) as (c & x & Hx & ->); [congruence|]. cbn in Hw, Ht. subst x.
  destruct Hx as [(h & l' & Hh & ? & _)|(h & sch & named & _ & _ & _ & _ & [(? & _)|(a' & r & m' & [= <- <- <-] & _ & _ & Hm)])]; [done|done|].
  apply Hm; [done|done|]. by destruct (c_tls c).
Qed.

(** If the servers answer as they should and the proxy can be understood, nothing is raised; then all requests are sent, in order (after a probe of the S3 back-end). *)
Lemma requests_app l1 l2 : requests (l1 ++ l2) = requests l1 ++ requests l2.
Proof. apply omap_app. Qed.
Lemma requests_connect c : requests (connect c) = [].
Proof. unfold connect. destruct (c_proxy c); [|done]. by destruct (c_tls c). Qed.
Lemma requests_talk c a md5 reqs : requests (talk c (contents a md5 reqs)) = reqs.
Proof.
  assert (H : requests (map (send c) (contents a md5 reqs)) = reqs).
  { induction reqs as [|r reqs IH]; [done|]. cbn. f_equal. exact IH. }
  unfold talk. destruct reqs as [|r reqs]; [done|]. rewrite <- H at 2. cbn [contents map]. rewrite requests_app, requests_connect. done.
Qed.
Lemma requests_login c ls : (forall x, x ∈ ls -> exists l, x = Login l) -> requests (talk c ls) = [].
Proof.
  intros H. assert (Hm : requests (map (send c) ls) = []).
  { induction ls as [|x ls IH]; [done|]. destruct (H x) as (l & ->); [left|]. cbn. apply IH. intros y Hy. apply H. by right. }
  unfold talk. destruct ls; [done|]. rewrite requests_app, requests_connect. exact Hm.
Qed.
Lemma requests_one c l : requests (talk c [Login l]) = [].
Proof. apply requests_login. intros x ->%elem_of_list_singleton. eauto. Qed.
Lemma requests_swift o proxy a f reqs l : swift_requests o proxy a f reqs = (l, None) -> requests l = reqs.
Proof.
  unfold swift_requests. destruct (no_feature_detection o || f) eqn:Hf; [|done]. intros [= <-]. rewrite requests_app, requests_talk.
  destruct (no_feature_detection o); [done|]. unfold talk. rewrite requests_app, requests_connect. done.
Qed.
Theorem dial_requests o env b reqs l : run o env b reqs = (l, None) -> requests l = (match b with S3 _ _ => [Read] | _ => [] end) ++ reqs.
Proof.
  destruct b as [h p|region a|st bd|g|h p rs f|h p region parts k f|region parts k f]; cbn [run].
  - unfold s3c_session. destruct (get_proxy _ _); [done|]. intros Hl%(f_equal fst); cbn [fst] in Hl; subst l. apply requests_talk.
  - unfold s3_session. destruct (get_proxy _ _) as [|proxy]; [done|].
    assert (Hpr : forall c, requests (talk c [Data (Sig region) Read false]) = [Read]).
    { intros c. unfold talk. rewrite requests_app, requests_connect. done. }
    destruct (negb (is_3xx (status a))).
    + destruct (is_2xx (status a)); [|done]. intros Hl%(f_equal fst); cbn [fst] in Hl; subst l. by rewrite requests_app, Hpr, requests_talk.
    + destruct (location a) as [u|]; [|done]. destruct (hostname u); [|done]. intros Hl%(f_equal fst); cbn [fst] in Hl; subst l. by rewrite requests_app, Hpr, requests_talk.
  - unfold b2_session. destruct (get_proxy _ _); [done|]. destruct (bool_decide _); [done|]. destruct (bool_decide _); [done|]. destruct (negb _); [done|].
    destruct bd as [|n t]; [done|]. destruct (match n with Some _ => _ | None => _ end) as [u|]; [|done]. destruct (b2_region _) as [g|]; [|done].
    destruct (if bool_decide _ then _ else _) as [h' r']. intros Hl%(f_equal fst); cbn [fst] in Hl; subst l. by rewrite requests_app, requests_one, requests_talk.
  - unfold gs_session. destruct (get_proxy _ _); [done|]. destruct g; [|done]. intros Hl%(f_equal fst); cbn [fst] in Hl; subst l. by rewrite requests_app, requests_one, requests_talk.
  - unfold swift_session. destruct (get_proxy _ _) as [|proxy]; [done|]. destruct (try_paths _ _ _) as [ls x] eqn:Ht. destruct x as [e|a]; [done|].
    destruct (swift_requests o proxy a f reqs) as [l' e] eqn:Hs. intros Hl; pose proof (f_equal snd Hl) as He; apply (f_equal fst) in Hl; cbn [fst snd] in Hl, He; subst l e. rewrite requests_app, (requests_swift _ _ _ _ _ _ Hs), requests_login; [done|].
    intros x Hx. apply try_paths_spec in Ht as [Ht _]. apply Ht in Hx as (path & -> & _). eauto.
  - unfold swiftks_session, keystone_session. destruct (get_proxy _ _) as [|proxy]; [done|]. destruct (login_body o parts) as [|lg]; [done|].
    destruct (bool_decide _); [done|]. destruct (negb _); [done|]. destruct (scan _ _ _); [|done]. destruct (from_url _ _ _) as [|a]; [done|].
    destruct (swift_requests o proxy a f reqs) as [l' e] eqn:Hs. intros Hl; pose proof (f_equal snd Hl) as He; apply (f_equal fst) in Hl; cbn [fst snd] in Hl, He; subst l e. by rewrite requests_app, (requests_swift _ _ _ _ _ _ Hs), requests_one.
  - unfold rackspace_session, keystone_session. destruct (get_proxy _ _) as [|proxy]; [done|]. destruct (login_body o parts) as [|lg]; [done|].
    destruct (bool_decide _); [done|]. destruct (negb _); [done|]. destruct (scan _ _ _); [|done]. destruct (from_url _ _ _) as [|a]; [done|].
    destruct (swift_requests o proxy a f reqs) as [l' e] eqn:Hs. intros Hl; pose proof (f_equal snd Hl) as He; apply (f_equal fst) in Hl; cbn [fst snd] in Hl, He; subst l e. by rewrite requests_app, (requests_swift _ _ _ _ _ _ Hs), requests_one.
Qed.

Lemma first_usable_inj region l u v : first_usable region l u -> first_usable region l v -> u = v.
Proof.
  intros (l1 & x & l2 & Hl & Hx & H1) (k1 & y & k2 & Hk & Hy & H2). rewrite Hl in Hk.
  assert (Hlen : length l1 = length k1).
  { destruct (Nat.lt_trichotomy (length l1) (length k1)) as [Hlt|[He|Hlt]]; [exfalso|done|exfalso].
    - assert (Hx' : x ∈ k1). { apply (elem_of_list_lookup_2 _ (length l1)). rewrite <- (lookup_app_l k1 (y :: k2)) by done. rewrite <- Hk. by apply list_lookup_middle. }
      by apply (H2 x u Hx').
    - assert (Hy' : y ∈ l1). { apply (elem_of_list_lookup_2 _ (length k1)). rewrite <- (lookup_app_l l1 (x :: l2)) by done. rewrite Hk. by apply list_lookup_middle. }
      by apply (H1 y v Hy'). }
  apply app_inj_1 in Hk as [-> [= -> ->]]; [|done]. destruct Hx as (_ & _ & Hx), Hy as (_ & _ & Hy). unfold public in *. destruct Hx, Hy; congruence.
Qed.
Lemma swift_requests_ok o proxy a f reqs : detects o f -> (swift_requests o proxy a f reqs).2 = None.
Proof. intros [-> |H]; unfold swift_requests; [by rewrite orb_true_r|by rewrite H]. Qed.
Lemma ok_not n m : ok n -> ~ ok m -> n <> m.
Proof. intros H Hm ->. done. Qed.
Lemma from_url_ok ssl u tok : hostname u <> None -> exists a, from_url ssl u tok = inr a.
Proof. intros H. unfold from_url. destruct (hostname u); [eauto|done]. Qed.
Lemma good_login_body o parts : good_login o parts <-> exists l, login_body o parts = inr l.
Proof.
  unfold good_login, login_body. destruct (domain o) as [d|].
  - split.
    + intros (t & u & -> & Ht). rewrite bool_decide_eq_false_2 by done. eauto.
    + destruct parts as [|t [|u [|v parts]]]; [intros [l H]; done|intros [l H]; done| |intros [l H]; done].
      intros [l H]. exists t, u. split; [done|]. intros ->. done.
  - split.
    + intros (t & u & [-> | ->]); eauto.
    + destruct parts as [|t [|u [|v parts]]]; [intros [l H]; done| | |intros [l H]; done]; intros _; [exists "", t; by left|exists t, u; by right].
Qed.
Lemma keystone_ok o env host port region parts k f reqs proxy : get_proxy env true = inr proxy -> detects o f -> good_login o parts -> good_catalog region k ->
  (keystone_session o env host port region parts k f reqs).2 = None.
Proof.
  intros Hp Hf (l & Hl)%good_login_body (Hok & u & Hu & Hh). unfold keystone_session. rewrite Hp, Hl.
  rewrite bool_decide_eq_false_2 by (apply ok_not; [done|unfold ok; lia]). rewrite (proj2 (is_2xx_ok _) Hok). cbn [negb].
  pose proof (scan_spec region (k_catalog k) []) as Hs. destruct (scan region (k_catalog k) []) as [v|a]; [|destruct Hs as [_ Hs]; by destruct (Hs u)].
  rewrite (first_usable_inj _ _ _ _ Hs Hu). destruct (from_url_ok (negb (no_ssl o)) u (k_token k) Hh) as [a ->].
  pose proof (swift_requests_ok o proxy a f reqs Hf) as Hr. destruct (swift_requests o proxy a f reqs). cbn in *. done.
Qed.
Theorem dial_works o env b reqs : (forall s, (if proxy_var o b then https_proxy env else http_proxy env) = Some s -> exists h n, proxy_text s h n) ->
  answers_ok o b -> (run o env b reqs).2 = None.
Proof.
  intros Hpx. assert (Hp : exists proxy, get_proxy env (proxy_var o b) = inr proxy).
  { unfold get_proxy. destruct (if proxy_var o b then https_proxy env else http_proxy env) as [s|]; [|eauto].
    destruct (Hpx s eq_refl) as (h & n & Ht). apply parse_proxy_spec in Ht. rewrite Ht. eauto. }
  clear Hpx. destruct Hp as [proxy Hp]. destruct b as [h p|region a|st bd|g|h p rs f|h p region parts k f|region parts k f]; cbn [run answers_ok proxy_var] in *.
  - intros _. unfold s3c_session. by rewrite Hp.
  - unfold s3_session. rewrite Hp. intros [Hok|(H3 & u & Hu & Hh)].
    + assert (H3 : is_3xx (status a) = false). { apply not_true_is_false. rewrite is_3xx_spec. unfold ok in Hok. lia. }
      rewrite H3. cbn [negb]. by rewrite (proj2 (is_2xx_ok _) Hok).
    + apply is_3xx_spec in H3. rewrite H3, Hu. cbn [negb]. destruct (hostname u); done.
  - unfold b2_session. rewrite Hp. intros (Hok & u & g & Hb & Hh & Hg).
    rewrite !bool_decide_eq_false_2 by (apply ok_not; [done|unfold ok; lia]). rewrite (proj2 (is_2xx_ok _) Hok). cbn [negb].
    assert (Hbd : exists n t, bd = Json n t /\ match n with Some u => Some u | None => t end = Some u) by (destruct Hb as (v & [-> | ->]); eauto).
    destruct Hbd as (n & t & -> & ->). assert (Hd : b2_region (default "" (hostname u)) = Some g) by (rewrite Hh; apply b2_region_spec; done). rewrite Hd.
    destruct (if bool_decide _ then _ else _). done.
  - intros ->. unfold gs_session. by rewrite Hp.
  - intros (Hf & r & rs' & (Hok & Hh) & Hrs). unfold swift_session. rewrite Hp.
    assert (Hgood : forall path paths rs', try_paths (negb (no_ssl o)) (path :: paths) (r :: rs') = ([Login (V1 path)], from_url (negb (no_ssl o)) (a_url r) (a_token r))).
    { intros path paths rs0. cbn. rewrite !bool_decide_eq_false_2 by (apply ok_not; [done|unfold ok; lia]). by rewrite (proj2 (is_2xx_ok _) Hok). }
    destruct (from_url_ok (negb (no_ssl o)) (a_url r) (a_token r) Hh) as [a Ha].
    assert (Ht : exists ls, try_paths (negb (no_ssl o)) ["/v1.0"; "/auth/v1.0"] rs = (ls, inr a)).
    { destruct Hrs as [-> |(r0 & Hr0 & ->)]; [rewrite Hgood, Ha; eauto|].
      assert (H0 : bool_decide (a_status r0 = 404%N) || bool_decide (a_status r0 = 412%N) = true) by (apply orb_true_iff; rewrite !bool_decide_eq_true; exact Hr0).
      specialize (Hgood "/auth/v1.0" [] rs'). cbn [try_paths] in Hgood |- *. rewrite H0, Hgood, Ha. eauto. }
    destruct Ht as [ls ->]. pose proof (swift_requests_ok o proxy a f reqs Hf) as Hr. destruct (swift_requests o proxy a f reqs). cbn in *. done.
  - intros (Hf & Hl & Hk). by eapply keystone_ok.
  - intros (Hf & Hl & Hk). by eapply keystone_ok.
Qed.

(** No endpoint in the region: an error that names the others, if there are few. *)
Theorem dial_dangling o env b reqs regions : (run o env b reqs).2 = Some (DanglingStorageURLError regions) ->
  exists region k, (exists h p parts f, b = SwiftKS h p region parts k f \/ b = Rackspace region parts k f) /\
    ok (k_status k) /\ (forall u, ~ first_usable region (k_catalog k) u) /\
    regions = (if decide (length (other_regions region (catalog (k_catalog k))) < 10) then Some (other_regions region (catalog (k_catalog k))) else None).
Proof.
  assert (Hreq : forall proxy a f, (swift_requests o proxy a f reqs).2 <> Some (DanglingStorageURLError regions)).
  { intros proxy a f. unfold swift_requests. by destruct (_ || _). }
  assert (Hks : forall host port region parts k f, (keystone_session o env host port region parts k f reqs).2 = Some (DanglingStorageURLError regions) ->
    ok (k_status k) /\ (forall u, ~ first_usable region (k_catalog k) u) /\
    regions = (if decide (length (other_regions region (catalog (k_catalog k))) < 10) then Some (other_regions region (catalog (k_catalog k))) else None)).
  { intros host port region parts k f. unfold keystone_session, get_proxy.
    destruct (match https_proxy env with Some _ => _ | None => _ end) as [e|proxy] eqn:Hp.
    { cbn. intros [= ->]. destruct (https_proxy env) as [s|]; [destruct (parse_proxy s)|]; done. }
    destruct (login_body o parts) as [e|lg] eqn:Hl.
    { cbn. intros [= ->]. unfold login_body in Hl. destruct (match parts with [user] => _ | _ => _ end) as [[tenant user]|]; [|done]. destruct (domain o); [destruct tenant|]; done. }
    destruct (bool_decide _); [done|]. destruct (is_2xx (k_status k)) eqn:H2; cbn [negb]; [|done]. apply is_2xx_ok in H2.
    pose proof (scan_spec region (k_catalog k) []) as Hs. destruct (scan region (k_catalog k) []) as [u|avail].
    - unfold from_url. destruct (hostname u) as [h|]; [|done]. specialize (Hreq proxy).
      match goal with |- context [swift_requests _ _ ?a _ _] => specialize (Hreq a f); destruct (swift_requests o proxy a f reqs) as [l e] end. cbn in *. done.
    - destruct Hs as [-> Hs]. cbn [app fail snd]. intros [= <-]. split; [done|]. split; [done|].
      destruct (Nat.ltb_spec (length (other_regions region (catalog (k_catalog k)))) 10); case_decide; [done|lia|lia|done]. }
  destruct b as [h p|region a|st bd|g|h p rs f|h p region parts k f|region parts k f]; cbn [run].
  - unfold s3c_session, get_proxy. destruct (if negb _ then _ else _) as [s|]; [destruct (parse_proxy s)|]; done.
  - unfold s3_session, get_proxy. destruct (match (if negb _ then _ else _) with Some _ => _ | None => _ end) as [e|proxy] eqn:Hp.
    { cbn. intros [= ->]. destruct (if negb _ then _ else _) as [s|]; [destruct (parse_proxy s)|]; done. }
    destruct (negb (is_3xx _)); [by destruct (is_2xx _)|]. destruct (location a) as [u|]; [|done]. by destruct (hostname u).
  - unfold b2_session, get_proxy. destruct (match (if negb _ then _ else _) with Some _ => _ | None => _ end) as [e|proxy] eqn:Hp.
    { cbn. intros [= ->]. destruct (if negb _ then _ else _) as [s|]; [destruct (parse_proxy s)|]; done. }
    destruct (bool_decide _); [done|]. destruct (bool_decide _); [done|]. destruct (negb (is_2xx st)); [done|]. destruct bd as [|n t]; [done|].
    destruct (match n with Some _ => _ | None => _ end) as [u|]; [|done]. destruct (b2_region _) as [g|]; [|done]. by destruct (if bool_decide _ then _ else _).
  - unfold gs_session, get_proxy. destruct (https_proxy env) as [s|]; [destruct (parse_proxy s)|]; by destruct g.
  - unfold swift_session, get_proxy. destruct (match https_proxy env with Some _ => _ | None => _ end) as [e|proxy] eqn:Hp.
    { cbn. intros [= ->]. destruct (https_proxy env) as [s|]; [destruct (parse_proxy s)|]; done. }
    destruct (try_paths _ _ rs) as [ls x] eqn:Ht. destruct x as [e|a].
    + cbn. intros [= ->]. exfalso. revert ls Ht. generalize ["/v1.0"; "/auth/v1.0"]. intros paths. revert rs. induction paths as [|path paths IH]; intros rs ls; [done|].
      cbn. destruct rs as [|r rs]; [done|]. destruct (_ || _).
      * destruct (try_paths (negb (no_ssl o)) paths rs) as [ls' x'] eqn:Ht'. intros [= <- ->]. by eapply IH.
      * destruct (bool_decide _); [done|]. destruct (negb (is_2xx _)); [done|]. unfold from_url. by destruct (hostname (a_url r)).
    + specialize (Hreq proxy a f). destruct (swift_requests o proxy a f reqs) as [l e]. cbn in *. done.
  - intros H%Hks. exists region, k. split; [by exists h, p, parts, f; left|done].
  - intros H%Hks. exists region, k. split; [by exists "", None, parts, f; right|done].
Qed.

(** What the login says: tenant and user as configured; without a domain version 2 of the protocol, with one version 3. More than one colon in the login, or none if there is
    a domain: ValueError. *)
Theorem dial_login o parts l : login_body o parts = inr l <->
  match domain o with
  | None => (exists u, parts = [u] /\ l = V2 u None) \/ (exists t u, parts = [t; u] /\ l = V2 u (if decide (t = "") then None else Some t))
  | Some d => exists t u, parts = [t; u] /\ t <> "" /\
      l = V3 (match identity_url o with Some p => p | None => "/v3/auth/tokens" end) u (domain_is_name o, d) (tenant_is_name o, t)
             (if domain_is_name o then true else project_domain_is_name o, match project_domain o with Some pd => pd | None => d end)
  end.
Proof.
  unfold login_body. destruct parts as [|t [|u [|v parts]]].
  - destruct (domain o); split; [done|intros (t & u & ? & _); done|done|intros [(u & ? & _)|(t & u & ? & _)]; done].
  - destruct (domain o); split; [done|intros (t' & u & ? & _); done|intros [= <-]; left; eauto|intros [(u & [= <-] & ->)|(t' & u & ? & _)]; done].
  - destruct (domain o) as [d|].
    + destruct (bool_decide_reflect (t = "")) as [-> |Ht]; split; [done|intros (t' & u' & [= <- <-] & ? & _); done| |].
      * intros [= <-]. exists t, u. split; [done|]. split; [done|]. by destruct (identity_url o), (project_domain o), (domain_is_name o), (project_domain_is_name o).
      * intros (t' & u' & [= <- <-] & _ & ->). by destruct (identity_url o), (project_domain o), (domain_is_name o), (project_domain_is_name o).
    + split; [intros [= <-]; right; exists t, u; split; [done|]; f_equal; case_decide; by case_bool_decide|].
      intros [(u' & ? & _)|(t' & u' & [= <- <-] & ->)]; [done|]. f_equal. f_equal. case_decide; by case_bool_decide.
  - destruct (domain o); split; [done|intros (t' & u' & ? & _); done|done|intros [(u' & ? & _)|(t' & u' & ? & _)]; done].
Qed.

(** Exceptions, and what they look like *)
Definition plain_options : options := Options false false None None false false false None.
Definition no_ssl_options : options := Options true false None None false false false None.
Definition no_env : environ := Environ None None.
Definition swift_storage (sch : string) : areply := AReply 204 "AUTH_tk1" (Url sch (Some "storage.example.com") None).

(** Swift: unencrypted messages go through https_proxy *)
Theorem dial_proxy_swift_refuted : exists o env b reqs p, p ∈ (run o env b reqs).1 /\ sent_on b /\ ~ proxied env p.
Proof.
  exists no_ssl_options, (Environ None (Some "proxy:3128")), (Swift "auth.example.com" (Some 80%N) [swift_storage "http"] true), [Read],
    (Packet ("proxy", 3128%N) None (Some ("auth.example.com", 80%N)) (Login (V1 "/v1.0"))).
  split; [vm_compute; left|]. split; [done|]. intros [_ H]. destruct H as (H & _); [|done]. intros [?|(h & n & ?)]; done.
Qed.
(** B2: the login ignores the proxy *)
Theorem dial_proxy_b2_refuted : exists o env st b reqs p, p ∈ (run o env (B2 st b) reqs).1 /\ no_ssl o = false /\ ~ proxied env p.
Proof.
  exists plain_options, (Environ None (Some "proxy:3128")), 200%N, (Json (Some (Url "https" (Some "s3.eu-central-003.backblazeb2.com") None)) None), [Read],
    (Packet ("api.backblazeb2.com", 443%N) (Some "api.backblazeb2.com") None (Login Basic)).
  split; [vm_compute; left|]. split; [done|]. intros [H _]. destruct H as (h & n & _ & _ & [H|(h' & n' & H)]); [by left|done|done].
Qed.
(** no-ssl without a port: the password is sent unencrypted, but to the port of the encrypted service; Swift and B2 *)
Theorem dial_port_refuted : exists o env h rs f reqs p l, p ∈ (run o env (Swift h None rs f) reqs).1 /\ what p = Login l /\ tls p = None /\ (addr p).2 <> port_for None false.
Proof.
  exists no_ssl_options, no_env, "auth.example.com", [swift_storage "https"], true, [], (Packet ("auth.example.com", 443%N) None None (Login (V1 "/v1.0"))), (V1 "/v1.0").
  split; [vm_compute; left|]. done.
Qed.
Theorem dial_port_b2_refuted : exists o env st b reqs p, p ∈ (run o env (B2 st b) reqs).1 /\ what p = Login Basic /\ tls p = None /\ (addr p).2 <> port_for None false.
Proof.
  exists no_ssl_options, no_env, 500%N, BadJson, [], (Packet ("api.backblazeb2.com", 443%N) None None (Login Basic)). split; [vm_compute; left|]. done.
Qed.
(** Swift: unencrypted uploads are not checked *)
Theorem dial_checksum_refuted : exists o env b reqs p a, p ∈ (run o env b reqs).1 /\ tls p = None /\ what p = Data a Upload false.
Proof.
  exists plain_options, no_env, (Swift "auth.example.com" None [swift_storage "http"] true), [Upload],
    (Packet ("storage.example.com", 80%N) None None (Data (Token "AUTH_tk1") Upload false)), (Token "AUTH_tk1").
  split; [vm_compute; right; right; left|]. done.
Qed.
(** and without no-ssl the server that checks the password can have the token and the data sent unencrypted *)
Theorem dial_http_refuted : exists o env b reqs p a r, no_ssl o = false /\ p ∈ (run o env b reqs).1 /\ tls p = None /\ what p = Data a r false.
Proof.
  exists plain_options, no_env, (Swift "auth.example.com" None [swift_storage "http"] true), [Read],
    (Packet ("storage.example.com", 80%N) None None (Data (Token "AUTH_tk1") Read false)), (Token "AUTH_tk1"), Read.
  split; [done|]. split; [vm_compute; right; right; left|]. done.
Qed.

(** Keystone version 3 behind a proxy: the second service has the storage; its internal endpoint and that of another region are passed over *)
Definition ks_options : options := Options false false (Some "default") None false false true None.
Definition ks_catalog : list service :=
  [Service "image" [Endpoint "RegionOne" (Interface "public" (Url "https" (Some "image.example.com") None))];
   Service "object-store" [Endpoint "RegionTwo" (Interface "public" (Url "https" (Some "two.example.com") None));
                           Endpoint "RegionOne" (Interface "internal" (Url "http" (Some "internal.example.com") None));
                           Endpoint "RegionOne" (Interface "public" (Url "https" (Some "one.example.com") (Some 8443%N)))]].
Definition ks_setup : setup := SwiftKS "auth.example.com" (Some 5000%N) "RegionOne" ["project"; "user"] (KReply 201 "tok" ks_catalog) true.
Definition ks_env : environ := Environ None (Some "http://proxy.example.com:3128/").
Example dial_keystone : run ks_options ks_env ks_setup [Read; Upload] =
  (let px := ("proxy.example.com", 3128%N) in let a := ("auth.example.com", 5000%N) in let s := ("one.example.com", 8443%N) in
   [Packet px None None (Connect "auth.example.com" 5000);
    Packet px (Some "auth.example.com") (Some a) (Login (V3 "/v3/auth/tokens" "user" (false, "default") (true, "project") (false, "default")));
    Packet px None None (Connect "one.example.com" 8443); Packet px (Some "one.example.com") (Some s) Info;
    Packet px None None (Connect "one.example.com" 8443); Packet px (Some "one.example.com") (Some s) (Data (Token "tok") Read false);
    Packet px (Some "one.example.com") (Some s) (Data (Token "tok") Upload false)], None).
Proof. vm_compute. reflexivity. Qed.
Lemma ks_first : first_usable "RegionOne" ks_catalog (Url "https" (Some "one.example.com") (Some 8443%N)).
Proof.
  pose proof (scan_spec "RegionOne" ks_catalog []) as H. vm_compute (scan _ _ _) in H. exact H.
Qed.
(** It meets the hypotheses of dial_works, dial_secret and dial_proxy *)
Example dial_keystone_hypotheses : answers_ok ks_options ks_setup /\ (exists h n, proxy_text "http://proxy.example.com:3128/" h n) /\
  (forall h sch named, storage ks_setup h sch named -> sch <> "http") /\ forall p, p ∈ (run ks_options ks_env ks_setup [Read; Upload]).1 -> secure p.
Proof.
  split; [|split; [|split]].
  - split; [by left|]. split; [exists "project", "user"; done|]. split; [done|]. eexists. split; [exact ks_first|done].
  - exists "proxy.example.com", 3128%N. by apply parse_proxy_spec.
  - intros h sch named H. inversion H; subst. match goal with Hf : first_usable _ _ ?u |- _ => rewrite (first_usable_inj _ _ u _ Hf ks_first) end. done.
  - rewrite dial_keystone. cbn [fst]. intros p Hp. unfold secure. repeat (apply elem_of_cons in Hp as [-> |Hp]; [cbn; naive_solver|]). by apply elem_of_nil in Hp.
Qed.
(** S3, sent to another region *)
Example dial_s3_moved : run plain_options no_env (S3 "us-east-1" (Head 307 (Some (Url "http" (Some "s3.eu-west-1.amazonaws.com") None)) (Some "eu-west-1"))) [Upload] =
  ([Packet ("s3.us-east-1.amazonaws.com", 443%N) (Some "s3.us-east-1.amazonaws.com") None (Data (Sig "us-east-1") Read false);
    Packet ("s3.eu-west-1.amazonaws.com", 443%N) (Some "s3.eu-west-1.amazonaws.com") None (Data (Sig "eu-west-1") Upload false)], None).
Proof. vm_compute. reflexivity. Qed.
(** A region without storage *)
Example dial_no_region : (run ks_options no_env (Rackspace "RegionX" ["project"; "user"] (KReply 201 "tok" ks_catalog) true) [Read]).2 =
  Some (DanglingStorageURLError (Some ["RegionTwo"; "RegionOne"; "RegionOne"])).
Proof. vm_compute. reflexivity. Qed.
(** An unencrypted upload that is checked; a proxy that cannot be understood *)
Example dial_plain_upload : run no_ssl_options (Environ (Some "proxy") None) (S3C "s3.example.com" None) [Upload] =
  ([Packet ("proxy", 80%N) None (Some ("s3.example.com", 80%N)) (Data Sig2 Upload true)], None).
Proof. vm_compute. reflexivity. Qed.
Example dial_bad_proxy : run plain_options (Environ None (Some "http://user@proxy:3128")) (S3C "s3.example.com" None) [Upload] = ([], Some QuietError) /\
  forall h n, ~ proxy_text "http://user@proxy:3128" h n.
Proof. split; [vm_compute; reflexivity|]. apply parse_proxy_none. vm_compute. reflexivity. Qed.

Print Assumptions dial_password.
Print Assumptions dial_storage.
Print Assumptions dial_secret.
Print Assumptions dial_proxy.
Print Assumptions dial_proxy_invalid.
Print Assumptions dial_tunnel.
Print Assumptions dial_connect.
Print Assumptions dial_checksum.
Print Assumptions dial_requests.
Print Assumptions dial_works.
Print Assumptions dial_dangling.
Print Assumptions dial_login.
