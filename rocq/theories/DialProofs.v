(** Lemmas about DialModel *)
From Verif Require Import DialModel DialSpec.
Local Arguments String.append : simpl nomatch.

Lemma app_s_assoc (a b c : string) : ((a ++ b) ++ c = a ++ (b ++ c))%string.
Proof. induction a; cbn; congruence. Qed.
Lemma app_s_nil (a : string) : (a ++ "" = a)%string.
Proof. induction a; cbn; congruence. Qed.
Lemma strip_spec pre s r : strip pre s = Some r <-> s = (pre ++ r)%string.
Proof.
  revert s; induction pre as [|a pre IH]; intros s; cbn; [split; [intros [= ->]|intros ->]; done|].
  destruct s as [|b s]; [split; done|]. destruct (ascii_dec a b) as [->|Hn].
  - rewrite IH. split; [intros ->; done|intros [= ->]; done].
  - split; [done|intros [= -> ->]; done].
Qed.
Lemma strip_not pre s r : strip pre s = None -> s <> (pre ++ r)%string.
Proof. intros H Hs. apply strip_spec in Hs. congruence. Qed.

Definition all_c (p : ascii -> bool) (s : string) : Prop := chars (fun c => p c = true) s.
Definition stops (p : ascii -> bool) (s : string) : Prop := match s with "" => True | String c _ => p c = false end.
Lemma span_exact p s a b : span p s = (a, b) <-> s = (a ++ b)%string /\ all_c p a /\ stops p b.
Proof.
  revert a b; induction s as [|c s IH]; intros a b; cbn.
  - split; [intros [= <- <-]; repeat split; constructor|]. intros (H & _ & _). destruct a; [|done]. cbn in H. by subst b.
  - destruct (p c) eqn:Hc.
    + destruct (span p s) as [a' b'] eqn:Hs. split.
      * intros [= <- <-]. destruct (proj1 (IH a' b') eq_refl) as (-> & Ha & Hb). split; [done|]. split; [by constructor|done].
      * intros (H & Ha & Hb). destruct a as [|c' a]; cbn in H.
        { subst b. cbn in Hb. congruence. }
        injection H as <- ->. apply Forall_cons in Ha as [_ Ha]. assert ((a', b') = (a, b)) as [= -> ->]; [|done]. apply IH. done.
    + split.
      * intros [= <- <-]. repeat split; [constructor|done].
      * intros (H & Ha & Hb). destruct a as [|c' a]; cbn in H; [by subst b|]. injection H as <- ->. apply Forall_cons in Ha as [Ha _]. cbn in Ha. congruence.
Qed.

Lemma in_range_spec a b c : in_range a b c = true <-> between a b c.
Proof. unfold in_range, between, nat_of_ascii. rewrite andb_true_iff, !N.leb_le. lia. Qed.
Lemma digit_spec c : is_digit c = true <-> digit c.
Proof. apply in_range_spec. Qed.
Lemma host_char_spec c : is_host_char c = true <-> host_char c.
Proof. unfold is_host_char, host_char. rewrite !orb_true_iff, !bool_decide_eq_true. unfold is_lower, is_upper. rewrite !in_range_spec, digit_spec. tauto. Qed.
Lemma region_char_spec c : is_region_char c = true <-> region_char c.
Proof. unfold is_region_char, region_char. rewrite !orb_true_iff, !bool_decide_eq_true. unfold is_lower. rewrite in_range_spec, digit_spec. tauto. Qed.
Lemma chars_iff (P Q : ascii -> Prop) s : (forall c, P c <-> Q c) -> chars P s <-> chars Q s.
Proof. intros H. unfold chars. rewrite !Forall_forall. split; intros Hx c Hc; apply H; by apply Hx. Qed.

Lemma value_app l c : (value (l ++ [c]) = value l + (N_of_ascii c - 48) * 10 ^ N.of_nat (length l))%N.
Proof.
  induction l as [|d l IH]; cbn [app value length]; [cbn [N.of_nat]; rewrite N.pow_0_r; lia|]. rewrite IH, Nat2N.inj_succ, N.pow_succ_r'.
  generalize (N_of_ascii c - 48)%N (N_of_ascii d - 48)%N (10 ^ N.of_nat (length l))%N. intros. lia.
Qed.
Lemma number_value acc s : (number_from acc s = value (rev (list_ascii_of_string s)) + acc * 10 ^ N.of_nat (length (list_ascii_of_string s)))%N.
Proof.
  revert acc; induction s as [|c s IH]; intros acc; cbn [number_from list_ascii_of_string rev length]; [cbn; lia|].
  rewrite IH, value_app, rev_length, Nat2N.inj_succ, N.pow_succ_r'. generalize (N_of_ascii c - 48)%N (10 ^ N.of_nat (length (list_ascii_of_string s)))%N. intros. lia.
Qed.

Lemma at_end_spec s : at_end s = true <-> exists slash nl, s = (slash ++ nl)%string /\ (slash = "" \/ slash = "/") /\ (nl = "" \/ nl = newline).
Proof.
  unfold at_end. rewrite !orb_true_iff, !bool_decide_eq_true. split.
  - intros [[[-> | ->]| ->]| ->]; [exists "", ""|exists "/", ""|exists "", newline|exists "/", newline]; split; auto.
  - intros (sl & nl & -> & [-> | ->] & [-> | ->]); cbn; auto.
Qed.

(** What follows the scheme *)
Definition parse2 (r : string) : option (string * N) :=
  let '(h, r1) := span is_host_char r in
  if bool_decide (h = "") then None
  else match strip ":" r1 with
       | Some r2 => let '(d, r3) := span is_digit r2 in
                    if bool_decide (d = "") then None else if at_end r3 then Some (h, number_from 0 d) else None
       | None => if at_end r1 then Some (h, 80%N) else None
       end.
Definition tail_text (r h : string) (n : N) : Prop :=
  exists d slash nl, r = (h ++ d ++ slash ++ nl)%string /\ h <> "" /\ chars host_char h /\
    (d = "" /\ n = 80%N \/ exists e, d = (":" ++ e)%string /\ e <> "" /\ chars digit e /\ n = value (rev (list_ascii_of_string e))) /\
    (slash = "" \/ slash = "/") /\ (nl = "" \/ nl = newline).
Lemma tail_stops (p : ascii -> bool) slash nl : p "/"%char = false -> p (ascii_of_nat 10) = false -> (slash = "" \/ slash = "/") -> (nl = "" \/ nl = newline) -> stops p (slash ++ nl).
Proof. intros H1 H2 [-> | ->] [-> | ->]; cbn; done. Qed.
Lemma parse2_spec r h n : parse2 r = Some (h, n) <-> tail_text r h n.
Proof.
  unfold parse2. split.
  - destruct (span is_host_char r) as [h' r1] eqn:Hs. apply span_exact in Hs as (-> & Hh & _).
    destruct (bool_decide_reflect (h' = "")) as [|Hne]; [done|]. destruct (strip ":" r1) as [r2|] eqn:Hr1.
    + apply strip_spec in Hr1 as ->. destruct (span is_digit r2) as [d r3] eqn:Hd. apply span_exact in Hd as (-> & Hd & _).
      destruct (bool_decide_reflect (d = "")) as [|Hd0]; [done|]. destruct (at_end r3) eqn:He; [|done]. intros [= <- <-].
      apply at_end_spec in He as (sl & nl & -> & Hsl & Hnl). exists (":" ++ d)%string, sl, nl. split; [by rewrite app_s_assoc|].
      split; [done|]. split; [by apply (chars_iff _ _ _ host_char_spec)|]. split; [|done]. right. exists d. split; [done|]. split; [done|].
      split; [by apply (chars_iff _ _ _ digit_spec)|]. rewrite number_value. lia.
    + destruct (at_end r1) eqn:He; [|done]. intros [= <- <-]. apply at_end_spec in He as (sl & nl & -> & Hsl & Hnl).
      exists "", sl, nl. split; [done|]. split; [done|]. split; [by apply (chars_iff _ _ _ host_char_spec)|]. auto.
  - intros (d & sl & nl & -> & Hne & Hh & Hd & Hsl & Hnl).
    assert (Hspan : span is_host_char (h ++ d ++ sl ++ nl)%string = (h, (d ++ sl ++ nl)%string)).
    { apply span_exact. split; [done|]. split; [by apply (chars_iff _ _ _ host_char_spec)|].
      destruct Hd as [[-> _]|(e & -> & _)]; [|reflexivity]. apply (tail_stops is_host_char sl nl); [reflexivity|reflexivity|done|done]. }
    rewrite Hspan, bool_decide_eq_false_2 by done. destruct Hd as [[-> ->]|(e & -> & He & Hde & ->)].
    + cbn [append]. assert (Hst : strip ":" (sl ++ nl)%string = None) by (destruct Hsl as [-> | ->], Hnl as [-> | ->]; done). rewrite Hst.
      rewrite (proj2 (at_end_spec _)); [done|]. eauto.
    + assert (Hst : strip ":" ((":" ++ e) ++ sl ++ nl)%string = Some (e ++ sl ++ nl)%string) by (apply strip_spec; by rewrite app_s_assoc).
      rewrite Hst. assert (Hspan2 : span is_digit (e ++ sl ++ nl)%string = (e, (sl ++ nl)%string)).
      { apply span_exact. split; [done|]. split; [by apply (chars_iff _ _ _ digit_spec)|]. apply (tail_stops is_digit sl nl); [reflexivity|reflexivity|done|done]. }
      rewrite Hspan2, bool_decide_eq_false_2 by done. rewrite (proj2 (at_end_spec _)) by eauto. rewrite number_value. do 2 f_equal. lia.
Qed.
Lemma parse_proxy_spec s h n : parse_proxy s = Some (h, n) <-> proxy_text s h n.
Proof.
  assert (Heq : parse_proxy s = parse2 (match strip "https://" s with Some r => r | None => match strip "http://" s with Some r => r | None => s end end)) by done.
  rewrite Heq. split.
  - intros H. apply parse2_spec in H as (d & sl & nl & Hr & Hx).
    destruct (strip "https://" s) as [r|] eqn:H1; [apply strip_spec in H1 as ->; exists "https://", d, sl, nl; subst r; tauto|].
    destruct (strip "http://" s) as [r|] eqn:H2; [apply strip_spec in H2 as ->; exists "http://", d, sl, nl; subst r; tauto|].
    exists "", d, sl, nl. tauto.
  - intros (pre & d & sl & nl & Hs & Hpre & Hx).
    assert (Ht : tail_text (h ++ d ++ sl ++ nl) h n) by (exists d, sl, nl; tauto). destruct Hpre as [-> |[-> | ->]].
    + cbn [append] in Hs. rewrite <- Hs in Ht. pose proof (proj2 (parse2_spec s h n) Ht) as Hp.
      destruct (strip "https://" s) as [r|] eqn:H1; [apply strip_spec in H1 as ->; vm_compute in Hp; done|].
      destruct (strip "http://" s) as [r|] eqn:H2; [apply strip_spec in H2 as ->; vm_compute in Hp; done|]. done.
    + destruct (strip "https://" s) as [r|] eqn:H1; [apply strip_spec in H1; rewrite H1 in Hs; done|].
      rewrite (proj2 (strip_spec "http://" s _) Hs). by apply parse2_spec.
    + rewrite (proj2 (strip_spec "https://" s _) Hs). by apply parse2_spec.
Qed.
Lemma parse_proxy_none s : parse_proxy s = None <-> forall h n, ~ proxy_text s h n.
Proof.
  split.
  - intros H h n Hp. apply parse_proxy_spec in Hp. congruence.
  - intros H. destruct (parse_proxy s) as [[h n]|] eqn:Hp; [|done]. apply parse_proxy_spec in Hp. by apply H in Hp.
Qed.

(** The catalog *)
Lemma scan_endpoints_spec region l avail :
  match scan_endpoints region l avail with
  | Found u => exists l1 e l2, l = l1 ++ e :: l2 /\ e_region e = region /\ public (e_access e) u /\ forall y v, y ∈ l1 -> e_region y = region -> ~ public (e_access y) v
  | NotFound a => a = avail ++ filter (fun r => r <> region) (map e_region l) /\ forall y v, y ∈ l -> e_region y = region -> ~ public (e_access y) v
  end.
Proof.
  revert avail; induction l as [|e l IH]; intros avail; cbn [scan_endpoints].
  - cbn. rewrite app_nil_r. split; [done|]. intros y v Hy. by apply elem_of_nil in Hy.
  - destruct (bool_decide_reflect (e_region e = region)) as [Hr|Hr]; cbn [negb].
    + assert (Hsame : forall avail', (forall u, ~ public (e_access e) u) -> avail' = avail ->
        match scan_endpoints region l avail' with
        | Found u => exists l1 e' l2, e :: l = l1 ++ e' :: l2 /\ e_region e' = region /\ public (e_access e') u /\ forall y v, y ∈ l1 -> e_region y = region -> ~ public (e_access y) v
        | NotFound a => a = avail ++ filter (fun r => r <> region) (map e_region (e :: l)) /\ forall y v, y ∈ e :: l -> e_region y = region -> ~ public (e_access y) v
        end).
      { intros avail' Hn ->. specialize (IH avail). destruct (scan_endpoints region l avail) as [u|a].
        - destruct IH as (l1 & e' & l2 & -> & H1 & H2 & H3). exists (e :: l1), e', l2. split; [done|]. split; [done|]. split; [done|].
          intros y v [-> |Hy]%elem_of_cons Hyr; [apply Hn|by apply H3].
        - destruct IH as [-> H]. split; [cbn [map]; rewrite filter_cons_False by (intros Hx; by apply Hx); done|].
          intros y v [-> |Hy]%elem_of_cons Hyr; [apply Hn|by apply H]. }
      destruct (e_access e) as [u|k u] eqn:Hacc.
      * exists [], e, l. split; [done|]. split; [done|]. split; [left; done|]. intros y v Hy. by apply elem_of_nil in Hy.
      * destruct (bool_decide_reflect (k = "public")) as [-> |Hk]; cbn [negb].
        -- exists [], e, l. split; [done|]. split; [done|]. split; [right; done|]. intros y v Hy. by apply elem_of_nil in Hy.
        -- rewrite <- Hacc in Hsame. apply Hsame; [|done]. rewrite Hacc. intros v [Hv|Hv]; [done|]. injection Hv as ->. done.
    + specialize (IH (avail ++ [e_region e])). destruct (scan_endpoints region l (avail ++ [e_region e])) as [u|a].
      * destruct IH as (l1 & e' & l2 & -> & H1 & H2 & H3). exists (e :: l1), e', l2. split; [done|]. split; [done|]. split; [done|].
        intros y v [-> |Hy]%elem_of_cons Hyr; [done|by apply H3].
      * destruct IH as [-> H]. split; [cbn [map]; rewrite filter_cons_True by done; by rewrite <- app_assoc|].
        intros y v [-> |Hy]%elem_of_cons Hyr; [done|by apply H].
Qed.
Lemma catalog_cons s l : catalog (s :: l) = map (fun e => (s_type s, e)) (s_endpoints s) ++ catalog l.
Proof. done. Qed.
Lemma scan_spec region l avail :
  match scan region l avail with
  | Found u => first_usable region l u
  | NotFound a => a = avail ++ other_regions region (catalog l) /\ forall u, ~ first_usable region l u
  end.
Proof.
  revert avail; induction l as [|s l IH]; intros avail; cbn [scan].
  - split; [cbn; by rewrite app_nil_r|]. intros u (l1 & x & l2 & H & _). cbn in H. by destruct l1.
  - assert (Hskip : forall a, (forall y v, y ∈ map (fun e => (s_type s, e)) (s_endpoints s) -> ~ usable region y v) ->
      match scan region l a with Found u => first_usable region (s :: l) u
      | NotFound a' => a' = a ++ other_regions region (catalog l) /\ forall u, ~ first_usable region (s :: l) u end).
    { intros a Hn. specialize (IH a). destruct (scan region l a) as [u|a'].
      - destruct IH as (l1 & x & l2 & Hl & Hu & H1). eexists (_ ++ l1), x, l2. rewrite catalog_cons, Hl, <- app_assoc. split; [done|]. split; [done|].
        intros y v [Hy|Hy]%elem_of_app; [by apply Hn|by apply H1].
      - destruct IH as [-> H]. split; [done|]. intros u (l1 & x & l2 & Hl & Hu & H1). rewrite catalog_cons in Hl.
        assert (Hx : x ∈ map (fun e => (s_type s, e)) (s_endpoints s) ++ catalog l) by (rewrite Hl; apply elem_of_app; right; left).
        apply elem_of_app in Hx as [Hx|Hx]; [by apply (Hn x u)|].
        apply app_eq_inv in Hl as [(k & He & Hk)|(k & He & Hk)].
        + destruct k as [|z k]; [cbn in Hk|].
          * apply (H u). exists [], x, l2. split; [done|]. split; [done|]. intros y v Hy. by apply elem_of_nil in Hy.
          * injection Hk as -> Hk. apply (Hn z u); [|done]. rewrite He. apply elem_of_app. right. left.
        + apply (H u). exists k, x, l2. split; [done|]. split; [done|]. intros y v Hy. apply H1. rewrite He. apply elem_of_app. by right. }
    destruct (bool_decide_reflect (s_type s = "object-store")) as [Ht|Ht]; cbn [negb].
    + pose proof (scan_endpoints_spec region (s_endpoints s) avail) as He. destruct (scan_endpoints region (s_endpoints s) avail) as [u|a].
      * destruct He as (l1 & e & l2 & He & Hr & Hp & H1). exists (map (fun e => (s_type s, e)) l1), (s_type s, e), (map (fun e => (s_type s, e)) l2 ++ catalog l).
        split; [rewrite catalog_cons, He, map_app, <- app_assoc; done|]. split; [done|].
        intros y v Hy (_ & Hyr & Hyp). apply elem_of_list_fmap in Hy as (e' & -> & Hy). by apply (H1 e' v).
      * destruct He as [-> He]. specialize (Hskip (avail ++ filter (fun r => r <> region) (map e_region (s_endpoints s)))).
        assert (Hn : forall y v, y ∈ map (fun e => (s_type s, e)) (s_endpoints s) -> ~ usable region y v).
        { intros y v Hy (_ & Hyr & Hyp). apply elem_of_list_fmap in Hy as (e' & -> & Hy). by apply (He e' v). }
        specialize (Hskip Hn). destruct (scan region l _) as [u|a]; [done|]. destruct Hskip as [-> H]. split; [|done].
        rewrite <- app_assoc. f_equal. rewrite catalog_cons. unfold other_regions. rewrite filter_app, map_app, filter_app. f_equal.
        f_equal. clear -Ht. induction (s_endpoints s) as [|e l' IHl]; [done|]. cbn [map]. rewrite filter_cons_True by done. cbn [map]. f_equal. exact IHl.
    + specialize (Hskip avail). destruct (scan region l avail) as [u|a].
      * apply Hskip. intros y v Hy (Hy1 & _). apply elem_of_list_fmap in Hy as (e' & -> & Hy). done.
      * destruct Hskip as [-> H].
        { intros y v Hy (Hy1 & _). apply elem_of_list_fmap in Hy as (e' & -> & Hy). done. }
        split; [|done]. f_equal. rewrite catalog_cons. unfold other_regions. rewrite filter_app.
        assert (Hz : filter (fun x : string * endpoint => x.1 = "object-store") (map (fun e => (s_type s, e)) (s_endpoints s)) = []).
        { clear -Ht. induction (s_endpoints s) as [|e l' IHl]; [done|]. cbn [map]. rewrite filter_cons_False by done. exact IHl. }
        by rewrite Hz.
Qed.

(** Every request is one of: a login, a question for the features, a request to the storage *)
Definition login_tls (o : options) (b : setup) : bool := match b with GS _ => true | _ => negb (no_ssl o) end.
Definition login_part (o : options) (env : environ) (b : setup) (c : conn) (x : content) : Prop :=
  exists h l, login_host b = Some h /\ x = Login l /\ c_host c = h /\ c_port c = login_port b /\ c_tls c = login_tls o b /\
    match b with B2 _ _ => c_proxy c = None /\ l = Basic | _ => get_proxy env true = inr (c_proxy c) /\ l <> Basic end.
Definition storage_part (o : options) (env : environ) (b : setup) (c : conn) (x : content) : Prop :=
  exists h sch named, storage b h sch named /\ c_host c = h /\ (c_tls c = true <-> encrypted o sch) /\ get_proxy env (proxy_var o b) = inr (c_proxy c) /\
    (x = Info /\ sent_on b /\ (named <> Some 0%N -> c_port c = port_for named (c_tls c)) \/
     exists a r m, x = Data a r m /\ c_port c = port_for named (c_tls c) /\ credentials b h a /\ (~ sent_on b -> r = Upload -> c_tls c = false -> m = true)).
Definition part (o : options) (env : environ) (b : setup) (c : conn) (x : content) : Prop := login_part o env b c x \/ storage_part o env b c x.
Definition parts_of (P : conn -> content -> Prop) (l : list packet) : Prop :=
  exists ts, l = concat (map (fun t => talk t.1 t.2) ts) /\ forall c cs x, (c, cs) ∈ ts -> x ∈ cs -> P c x.
Lemma parts_nil P : parts_of P [].
Proof. exists []. split; [done|]. intros c cs x H. by apply elem_of_nil in H. Qed.
Lemma parts_app P l1 l2 : parts_of P l1 -> parts_of P l2 -> parts_of P (l1 ++ l2).
Proof.
  intros (t1 & -> & H1) (t2 & -> & H2). exists (t1 ++ t2). split; [by rewrite map_app, concat_app|].
  intros c cs x [H|H]%elem_of_app; eauto.
Qed.
Lemma parts_talk (P : conn -> content -> Prop) c cs : (forall x, x ∈ cs -> P c x) -> parts_of P (talk c cs).
Proof.
  intros H. exists [(c, cs)]. split; [cbn; by rewrite app_nil_r|]. intros c' cs' x Hin Hx. apply elem_of_list_singleton in Hin as [= -> ->]. auto.
Qed.
Lemma parts_single (P : conn -> content -> Prop) c x : P c x -> parts_of P (talk c [x]).
Proof. intros H. apply parts_talk. intros y ->%elem_of_list_singleton. done. Qed.
Lemma elem_of_contents a md5 reqs x : x ∈ contents a md5 reqs -> exists r, x = Data a r (match r with Upload => md5 | Read => false end).
Proof. intros (r & -> & _)%elem_of_list_fmap. eauto. Qed.

Lemma encrypted_plain o : negb (no_ssl o) = true <-> encrypted o "".
Proof. unfold encrypted. destruct (no_ssl o); cbn; split; [done|intros [?|[_ ?]]; done|auto|done]. Qed.
Lemma is_2xx_ok n : is_2xx n = true <-> ok n.
Proof. unfold is_2xx, ok. rewrite andb_true_iff, !N.leb_le. lia. Qed.
Lemma is_3xx_spec n : is_3xx n = true <-> (300 <= n < 400)%N.
Proof. unfold is_3xx. rewrite andb_true_iff, !N.leb_le. lia. Qed.
Lemma storage_s3 r a : storage (S3 r a) (s3_host r) "" None.
Proof.
  unfold s3_host. destruct (strip "cn-" r) as [t|] eqn:H.
  - apply strip_spec in H as ->. exact (st_s3_cn t a).
  - apply st_s3. intros t. by apply strip_not.
Qed.

Lemma s3c_parts o env h p reqs : parts_of (part o env (S3C h p)) (s3c_session o env h p reqs).1.
Proof.
  unfold s3c_session. destruct (get_proxy env (negb (no_ssl o))) as [e|proxy] eqn:Hp; [apply parts_nil|]. cbn [fst].
  apply parts_talk. intros x (r & ->)%elem_of_contents. right. exists h, "", p. split; [constructor|]. split; [done|]. split; [apply encrypted_plain|].
  split; [done|]. right. do 3 eexists. split; [done|]. split; [by destruct p|]. split; [constructor|]. cbn. intros _ ->. by destruct (no_ssl o).
Qed.
Lemma s3_parts o env region a reqs : parts_of (part o env (S3 region a)) (s3_session o env region a reqs).1.
Proof.
  unfold s3_session. destruct (get_proxy env (negb (no_ssl o))) as [e|proxy] eqn:Hp; [apply parts_nil|].
  set (c := HTTPConnection (s3_host region) (Some (if negb (no_ssl o) then 443%N else 80%N)) (negb (no_ssl o)) proxy).
  assert (Hst : forall r m, (r = Upload -> negb (no_ssl o) = false -> m = true) -> part o env (S3 region a) c (Data (Sig region) r m)).
  { intros r m Hm. right. exists (s3_host region), "", None. split; [apply storage_s3|]. split; [done|]. split; [apply encrypted_plain|].
    split; [done|]. right. do 3 eexists. split; [done|]. split; [done|]. split; [constructor|]. intros _. exact Hm. }
  assert (Hprobe : parts_of (part o env (S3 region a)) (talk c [Data (Sig region) Read false])) by (apply parts_single, Hst; done).
  destruct (is_3xx (status a)) eqn:H3; cbn [negb].
  - apply is_3xx_spec in H3. destruct (location a) as [u|] eqn:Hl; [|exact Hprobe]. destruct (hostname u) as [h|] eqn:Hh; [|exact Hprobe].
    cbn [fst]. apply parts_app; [exact Hprobe|]. apply parts_talk. intros x (r & ->)%elem_of_contents. right. exists h, "", (port_of u).
    split; [by econstructor|]. split; [done|]. split; [apply encrypted_plain|]. split; [done|]. right. do 3 eexists. split; [done|].
    split; [cbn; by destruct (port_of u)|]. split.
    + destruct (bucket_region a) as [g|] eqn:Hg; [by eapply cr_s3_moved|constructor].
    + cbn. intros _ ->. by destruct (no_ssl o).
  - destruct (is_2xx (status a)); [|exact Hprobe]. cbn [fst]. apply parts_app; [exact Hprobe|]. apply parts_talk.
    intros x (r & ->)%elem_of_contents. apply Hst. intros ->. by destruct (no_ssl o).
Qed.
Lemma b2_region_spec h g : b2_region h = Some g <-> h = ("s3." ++ g ++ ".backblazeb2.com")%string /\ g <> "" /\ chars region_char g.
Proof.
  unfold b2_region. split.
  - destruct (strip "s3." h) as [r|] eqn:Hs; [|done]. apply strip_spec in Hs as ->. destruct (span is_region_char r) as [g' r'] eqn:Hg.
    apply span_exact in Hg as (-> & Hg & _). destruct (bool_decide_reflect (g' = "")); [done|]. destruct (bool_decide_reflect (r' = ".backblazeb2.com")) as [-> |]; [|done].
    intros [= <-]. split; [done|]. split; [done|]. by apply (chars_iff _ _ _ region_char_spec).
  - intros (-> & Hne & Hg). rewrite (proj2 (strip_spec "s3." _ _) eq_refl).
    assert (Hsp : span is_region_char (g ++ ".backblazeb2.com")%string = (g, ".backblazeb2.com")).
    { apply span_exact. split; [done|]. split; [by apply (chars_iff _ _ _ region_char_spec)|reflexivity]. }
    rewrite Hsp, bool_decide_eq_false_2 by done. by rewrite bool_decide_eq_true_2.
Qed.
Lemma b2_parts o env st b reqs : parts_of (part o env (B2 st b)) (b2_session o env st b reqs).1.
Proof.
  unfold b2_session. destruct (get_proxy env (negb (no_ssl o))) as [e|proxy] eqn:Hp; [apply parts_nil|].
  assert (Hl : parts_of (part o env (B2 st b)) (talk (HTTPConnection "api.backblazeb2.com" (Some 443%N) (negb (no_ssl o)) None) [Login Basic])).
  { apply parts_single. left. exists "api.backblazeb2.com", Basic. done. }
  destruct (bool_decide (st = 401%N)); [exact Hl|]. destruct (bool_decide (st = 403%N)); [exact Hl|]. destruct (negb (is_2xx st)); [exact Hl|].
  destruct b as [|nested top]; [exact Hl|]. destruct (match nested with Some u => Some u | None => top end) as [u|]; [|exact Hl].
  destruct (b2_region (default "" (hostname u))) as [g|] eqn:Hg; [|exact Hl]. apply b2_region_spec in Hg as (Hh & Hne & Hg).
  set (hr := if bool_decide (g = default_region) then _ else _).
  assert (Hhr : hr = (("s3." ++ g ++ ".backblazeb2.com")%string, g)).
  { unfold hr. rewrite Hh. destruct (bool_decide_reflect (g = default_region)) as [-> |]; done. }
  rewrite Hhr. cbn [fst]. apply parts_app; [exact Hl|]. apply parts_talk. intros x (r & ->)%elem_of_contents. right. do 3 eexists.
  split; [by apply (st_b2 _ _ g)|]. split; [done|]. split; [apply encrypted_plain|]. split; [done|]. right. do 3 eexists. split; [done|]. split; [done|].
  split; [constructor|]. cbn. intros _ ->. by destruct (no_ssl o).
Qed.
Lemma gs_parts o env g reqs : parts_of (part o env (GS g)) (gs_session env g reqs).1.
Proof.
  unfold gs_session. destruct (get_proxy env true) as [e|proxy] eqn:Hp; [apply parts_nil|].
  assert (Hl : parts_of (part o env (GS g)) (talk (HTTPConnection "accounts.google.com" (Some 443%N) true proxy) [Login Refresh])).
  { apply parts_single. left. exists "accounts.google.com", Refresh. done. }
  destruct g; [|exact Hl]. cbn [fst]. apply parts_app; [exact Hl|]. apply parts_talk. intros x (r & ->)%elem_of_contents. right. do 3 eexists.
  split; [constructor|]. split; [done|]. split; [split; [left; done|done]|]. split; [done|]. right. do 3 eexists. split; [done|]. split; [done|].
  split; [constructor|]. done.
Qed.

Lemma from_url_spec o u tok a : from_url (negb (no_ssl o)) u tok = inr a ->
  hostname u = Some (storage_host a) /\ storage_port a = port_of u /\ token a = tok /\ (storage_tls a = true <-> encrypted o (scheme u)).
Proof.
  unfold from_url. destruct (hostname u) as [h|]; [|done]. intros [= <-]. cbn. split; [done|]. split; [done|]. split; [done|]. unfold encrypted.
  destruct (bool_decide_reflect (scheme u = "https")) as [H|H]; [tauto|]. destruct (bool_decide_reflect (scheme u = "http")) as [H'|H'].
  - split; [done|]. intros [?|[? _]]; done.
  - destruct (no_ssl o); cbn; split; [done|intros [?|[_ ?]]; done|auto|done].
Qed.
Lemma requests_parts o env b proxy a features reqs sch : sent_on b -> proxy_var o b = true -> get_proxy env true = inr proxy ->
  storage b (storage_host a) sch (storage_port a) -> (storage_tls a = true <-> encrypted o sch) -> credentials b (storage_host a) (Token (token a)) ->
  parts_of (part o env b) (swift_requests o proxy a features reqs).1.
Proof.
  intros Hb Hv Hp Hst Htls Hcr. unfold swift_requests.
  match goal with |- context [HTTPConnection _ (Some ?d) _ _] => set (dport := d) end.
  assert (Hinfo : parts_of (part o env b) (if no_feature_detection o then [] else talk (HTTPConnection (storage_host a) (Some dport) (storage_tls a) proxy) [Info])).
  { destruct (no_feature_detection o); [apply parts_nil|]. apply parts_single. right. exists (storage_host a), sch, (storage_port a). split; [done|]. split; [done|].
    split; [done|]. split; [by rewrite Hv|]. left. split; [done|]. split; [done|]. cbn. intros H0. unfold dport. destruct (storage_port a) as [p|]; [|done].
    rewrite bool_decide_eq_false_2; [done|]. congruence. }
  destruct (no_feature_detection o || features); [|exact Hinfo]. cbn [fst]. apply parts_app; [exact Hinfo|]. apply parts_talk.
  intros x (r & ->)%elem_of_contents. right. exists (storage_host a), sch, (storage_port a). split; [done|]. split; [done|]. split; [done|]. split; [by rewrite Hv|].
  right. do 3 eexists. split; [done|]. split; [done|]. split; [done|]. done.
Qed.
Lemma try_paths_spec ssl paths rs ls x : try_paths ssl paths rs = (ls, x) ->
  (forall y, y ∈ ls -> exists path, y = Login (V1 path) /\ path ∈ paths) /\
  forall a, x = inr a -> exists r, r ∈ rs /\ ok (a_status r) /\ from_url ssl (a_url r) (a_token r) = inr a.
Proof.
  revert rs ls x; induction paths as [|path paths IH]; intros rs ls x; cbn [try_paths].
  { intros [= <- <-]. split; [|done]. intros y Hy. by apply elem_of_nil in Hy. }
  assert (H1 : forall y, y ∈ [Login (V1 path)] -> exists path', y = Login (V1 path') /\ path' ∈ path :: paths).
  { intros y ->%elem_of_list_singleton. exists path. split; [done|]. left. }
  destruct rs as [|r rs]; [intros [= <- <-]; split; [exact H1|done]|]. destruct (_ || _).
  - destruct (try_paths ssl paths rs) as [ls' x'] eqn:Ht. intros [= <- <-]. destruct (IH _ _ _ Ht) as [Ha Hb]. split.
    + intros y [-> |Hy]%elem_of_cons; [apply H1; left|]. apply Ha in Hy as (p & -> & Hy). exists p. split; [done|]. by right.
    + intros a ->. destruct (Hb a eq_refl) as (r' & Hr & H). exists r'. split; [by right|done].
  - destruct (bool_decide (a_status r = 401%N)); [intros [= <- <-]; split; [exact H1|done]|].
    destruct (is_2xx (a_status r)) eqn:H2; cbn [negb]; intros [= <- <-]; (split; [exact H1|]); [|done]. intros a Ha. exists r. split; [left|]. split; [by apply is_2xx_ok|done].
Qed.
Lemma swift_parts o env h p rs f reqs : parts_of (part o env (Swift h p rs f)) (swift_session o env h p rs f reqs).1.
Proof.
  unfold swift_session. destruct (get_proxy env true) as [e|proxy] eqn:Hp; [apply parts_nil|].
  destruct (try_paths (negb (no_ssl o)) ["/v1.0"; "/auth/v1.0"] rs) as [ls x] eqn:Ht. destruct (try_paths_spec _ _ _ _ _ Ht) as [Ha Hb].
  assert (Hl : parts_of (part o env (Swift h p rs f)) (talk (HTTPConnection h (Some (swift_port p)) (negb (no_ssl o)) proxy) ls)).
  { apply parts_talk. intros y (path & -> & _)%Ha. left. exists h, (V1 path). split; [done|]. split; [done|]. split; [done|]. split; [by destruct p|]. split; [done|]. done. }
  destruct x as [e|a]; [exact Hl|]. destruct (Hb a eq_refl) as (r & Hr & Hok & Hu). apply from_url_spec in Hu as (Hh & Hport & Htok & Htls).
  pose proof (requests_parts o env (Swift h p rs f) proxy a f reqs (scheme (a_url r))) as Hq.
  destruct (swift_requests o proxy a f reqs) as [l e]. cbn [fst] in *. apply parts_app; [exact Hl|]. apply Hq; [done|done|done| |done|].
  - rewrite Hport. by apply st_swift.
  - rewrite Htok. by apply cr_swift.
Qed.
Lemma login_body_not_basic o parts l : login_body o parts = inr l -> l <> Basic.
Proof.
  unfold login_body. destruct (match parts with [user] => _ | _ => _ end) as [[tenant user]|]; [|done]. destruct (domain o); [destruct tenant|]; try done; intros [= <-]; done.
Qed.
Lemma keystone_parts o env b host port region parts k f reqs : login_host b = Some host -> login_port b = port -> sent_on b ->
  (forall h, ok (k_status k) -> credentials b h (Token (k_token k))) ->
  (forall u h, ok (k_status k) -> first_usable region (k_catalog k) u -> hostname u = Some h -> storage b h (scheme u) (port_of u)) ->
  parts_of (part o env b) (keystone_session o env host port region parts k f reqs).1.
Proof.
  intros Hhost Hport Hb Hcr Hst. unfold keystone_session. destruct (get_proxy env true) as [e|proxy] eqn:Hp; [apply parts_nil|].
  destruct (login_body o parts) as [e|l] eqn:Hbody; [apply parts_nil|].
  assert (Hl : parts_of (part o env b) (talk (HTTPConnection host (Some port) (negb (no_ssl o)) proxy) [Login l])).
  { apply parts_single. left. exists host, l. split; [done|]. split; [done|]. split; [done|]. split; [done|]. split; [by destruct b|].
    apply login_body_not_basic in Hbody. by destruct b. }
  destruct (bool_decide (k_status k = 401%N)); [exact Hl|]. destruct (is_2xx (k_status k)) eqn:H2; cbn [negb]; [|exact Hl]. apply is_2xx_ok in H2.
  pose proof (scan_spec region (k_catalog k) []) as Hs. destruct (scan region (k_catalog k) []) as [u|avail]; [|exact Hl].
  destruct (from_url (negb (no_ssl o)) u (k_token k)) as [e|a] eqn:Hu; [exact Hl|]. apply from_url_spec in Hu as (Hh & Hpt & Htok & Htls).
  pose proof (requests_parts o env b proxy a f reqs (scheme u)) as Hq. destruct (swift_requests o proxy a f reqs) as [ls e]. cbn [fst] in *.
  apply parts_app; [exact Hl|]. apply Hq; [done|by destruct b|done| |done|].
  - rewrite Hpt. auto.
  - rewrite Htok. auto.
Qed.
Lemma run_parts o env b reqs : parts_of (part o env b) (run o env b reqs).1.
Proof.
  destruct b as [h p|region a|st bd|g|h p rs f|h p region parts k f|region parts k f]; cbn [run].
  - apply s3c_parts.
  - apply s3_parts.
  - apply b2_parts.
  - apply gs_parts.
  - apply swift_parts.
  - apply keystone_parts; [done|by destruct p|done|by constructor|]. intros. by apply st_swiftks.
  - apply keystone_parts; [done|done|done|by constructor|]. intros. by apply st_rackspace.
Qed.

(** A message belongs to a connection *)
Lemma talk_elem c cs p : p ∈ talk c cs -> exists x, x ∈ cs /\ (p ∈ connect c \/ p = send c x) /\ connect c ⊆ talk c cs.
Proof.
  unfold talk. destruct cs as [|y cs]; [by intros ?%elem_of_nil|]. intros [H|H]%elem_of_app.
  - exists y. split; [left|]. split; [by left|]. set_solver.
  - apply elem_of_list_fmap in H as (x & -> & Hx). exists x. split; [done|]. split; [by right|]. set_solver.
Qed.
Lemma connect_elem c p : p ∈ connect c -> exists a, c_proxy c = Some a /\ c_tls c = true /\ p = Packet a None None (Connect (c_host c) (c_port c)).
Proof.
  unfold connect. destruct (c_proxy c) as [a|]; [|by intros ?%elem_of_nil]. destruct (c_tls c); [|by intros ?%elem_of_nil]. intros ->%elem_of_list_singleton. eauto.
Qed.
Lemma run_elem o env b reqs p : p ∈ (run o env b reqs).1 ->
  exists c x, part o env b c x /\ (p ∈ connect c \/ p = send c x) /\ connect c ⊆ (run o env b reqs).1.
Proof.
  destruct (run_parts o env b reqs) as (ts & -> & H). intros Hp. rewrite <- flat_map_concat_map in *.
  apply elem_of_list_In, in_flat_map in Hp as ([c cs] & Hin & Hp). apply elem_of_list_In in Hp, Hin. cbn in Hp. apply talk_elem in Hp as (x & Hx & Hp & Hsub).
  exists c, x. split; [by apply (H c cs)|]. split; [done|]. intros q Hq. apply Hsub in Hq. apply elem_of_list_In, in_flat_map. exists (c, cs). split; apply elem_of_list_In; done.
Qed.
Lemma run_send o env b reqs p : p ∈ (run o env b reqs).1 -> (forall h n, what p <> Connect h n) -> exists c x, part o env b c x /\ p = send c x.
Proof.
  intros Hp Hn. apply run_elem in Hp as (c & x & H & [Hc|Hs] & _); [|eauto]. apply connect_elem in Hc as (a & _ & _ & ->). by destruct (Hn (c_host c) (c_port c)).
Qed.
Lemma addr_send c x : (forall h n, x <> Connect h n) -> addr (send c x) = (c_host c, c_port c).
Proof. intros H. unfold addr, send. cbn. destruct x as [l|  |h n|a r m]; [| |by destruct (H h n)|]; by destruct (c_proxy c). Qed.
Lemma part_not_connect o env b c x h n : part o env b c x -> x <> Connect h n.
Proof.
  intros [(h' & l & _ & -> & _)|(h' & sch & named & _ & _ & _ & _ & [(-> & _)|(a & r & m & -> & _)])]; done.
Qed.
