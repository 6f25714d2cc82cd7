(** Configuration files, options and storage URLs (C55). *)
From stdpp Require Import prelude list gmap.
From Coq Require Import NArith ZArith.
From Coq Require String.
Import String.StringSyntax.
From Verif Require Import Text CodecModel ConfigModel ConfigSpec.
Local Open Scope N_scope.

(** * Interpolation *)
Lemma interpolate_plain depth vars : forall s fuel, (length s < fuel)%nat -> 37 ∉ s -> interpolate (S depth) vars fuel s = Some s.
Proof.
  induction s as [|c s IH]; intros fuel Hf Hs; (destruct fuel as [|fuel]; [cbn in Hf; lia|]); [done|]. apply not_elem_of_cons in Hs as [Hc Hs]. cbn in Hf.
  specialize (IH fuel). cbn [interpolate] in *. rewrite decide_False by congruence. rewrite IH by (done || lia). done.
Qed.
(** A value without % is taken as it is; any value can be written by doubling every %. *)
Theorem value_plain dflt sec v : 37 ∉ v -> expand dflt sec v = Some v.
Proof. intros H. unfold expand. apply interpolate_plain; [lia|done]. Qed.
Lemma interpolate_escaped_len depth vars (s : text) : forall fuel, (length (Text.replace 37%N [37; 37]%N s) < fuel)%nat -> interpolate (S depth) vars fuel (Text.replace 37 [37; 37] s) = Some s.
Proof.
  induction s as [|c s IH]; intros fuel Hf; (destruct fuel as [|fuel]; [cbn in Hf; lia|]); [done|]. specialize (IH fuel). unfold Text.replace in *. cbn [mbind list_bind] in *. destruct (decide (c = 37)) as [-> |N].
  - cbn [app] in *. cbn [interpolate] in *. rewrite decide_True by done. rewrite decide_True by done. rewrite IH by (cbn in Hf; lia). done.
  - cbn [app] in *. cbn [interpolate] in *. rewrite decide_False by done. rewrite IH by (cbn in Hf; lia). done.
Qed.
Theorem value_escaped dflt sec v : expand dflt sec (Text.replace 37 [37; 37] v) = Some v.
Proof. unfold expand. apply interpolate_escaped_len. lia. Qed.

(** * Which value is used *)
Lemma assoc_iff k v d : assoc k d = Some v <-> has_option d k v.
Proof.
  unfold has_option. induction d as [|[k' v'] d IH]; cbn.
  - split; [done|]. intros (i & H & _). done.
  - unfold assoc in *. cbn. destruct (bool_decide (k' = k)) eqn:E.
    + apply bool_decide_eq_true in E as ->. cbn. split.
      * intros [= ->]. exists 0%nat. split; [done|]. intros; lia.
      * intros ([|i] & H & Hn); [by injection H as ->|]. exfalso. apply (Hn 0%nat v'); [lia|done].
    + apply bool_decide_eq_false in E. rewrite IH. split.
      * intros (i & H & Hn). exists (S i). split; [done|]. intros [|j] w Hj; [cbn; congruence|]. apply Hn. lia.
      * intros ([|i] & H & Hn); [cbn in H; congruence|]. exists i. split; [done|]. intros j w Hj. apply (Hn (S j)). lia.
Qed.
Lemma assoc_none k d : assoc k d = None <-> lacks_option d k.
Proof.
  unfold lacks_option, assoc. induction d as [|[k' v'] d IH]; cbn; [split; [intros _ v H; by apply elem_of_nil in H|done]|]. destruct (bool_decide (k' = k)) eqn:E.
  - apply bool_decide_eq_true in E as ->. cbn. split; [done|]. intros H. exfalso. apply (H v'). left.
  - apply bool_decide_eq_false in E. rewrite IH. split; [intros H v [[= <- <-]|Hin]%elem_of_cons; [done|by apply (H v)]|intros H v Hin; apply (H v); by right].
Qed.
(** The section is used *)
Definition used (dflt : list (text * text)) (url : text) (sec : list (text * text)) : Prop :=
  exists raw p, raw_get dflt sec storage_url_key = Some raw /\ expand dflt sec raw = Some p /\ p <> [] /\ p `prefix_of` url.
Lemma raw_get_keys dflt sec k : is_Some (raw_get dflt sec k) <-> k ∈ keys_of dflt sec.
Proof.
  assert (forall d, assoc k d = None <-> k ∉ d.*1) as K.
  { intros d. rewrite assoc_none. unfold lacks_option. split; [intros H ([k' v] & -> & Hin)%elem_of_list_fmap; by apply (H v)|intros H v Hin; apply H; apply elem_of_list_fmap; by exists (k, v)]. }
  unfold raw_get, keys_of. rewrite elem_of_app, elem_of_list_filter. destruct (assoc k sec) as [v|] eqn:E.
  - split; [intros _; left|by eexists]. destruct (decide (k ∈ sec.*1)); [done|]. apply K in n. congruence.
  - apply K in E. destruct (assoc k dflt) as [v|] eqn:E2.
    + split; [intros _; right; split; [done|]|by eexists]. destruct (decide (k ∈ dflt.*1)); [done|]. apply K in n. congruence.
    + apply K in E2. split; [by intros [? ?]|tauto].
Qed.
Lemma add_items_cons dflt sec k ks m : add_items dflt sec (k :: ks) m =
  match raw_get dflt sec k with
  | Some raw => match expand dflt sec raw with Some v => add_items dflt sec ks (if decide (k = storage_url_key) then m else <[k := v]> m) | None => None end
  | None => None
  end.
Proof. reflexivity. Qed.
Lemma add_items_lookup dflt sec ks : forall m m' k, add_items dflt sec ks m = Some m' -> k <> storage_url_key ->
  (k ∈ ks -> exists raw, raw_get dflt sec k = Some raw /\ m' !! k = expand dflt sec raw /\ is_Some (m' !! k)) /\ (k ∉ ks -> m' !! k = m !! k).
Proof.
  induction ks as [|k0 ks IH]; intros m m' k.
  - cbn [add_items]. intros [= <-] Hk. split; [intros H; by apply elem_of_nil in H|done].
  - rewrite add_items_cons. destruct (raw_get dflt sec k0) as [raw|] eqn:E1; [|done]. destruct (expand dflt sec raw) as [v|] eqn:E2; [|done]. intros H Hk. destruct (IH _ _ k H Hk) as [IH1 IH2]. split.
    + intros [-> |Hin]%elem_of_cons; [|by apply IH1]. destruct (decide (k0 ∈ ks)) as [Hin|Hn]; [by apply IH1|]. exists raw. rewrite IH2 by done. rewrite decide_False by done. rewrite lookup_insert. split; [done|]. by rewrite E2.
    + intros [Hne Hn]%not_elem_of_cons. rewrite IH2 by done. case_decide; [done|]. by rewrite lookup_insert_ne.
Qed.
Lemma add_items_total dflt sec ks : forall m, (forall k raw, k ∈ ks -> raw_get dflt sec k = Some raw -> is_Some (expand dflt sec raw)) -> (forall k, k ∈ ks -> is_Some (raw_get dflt sec k)) -> is_Some (add_items dflt sec ks m).
Proof.
  induction ks as [|k ks IH]; intros m H1 H2; [by eexists|]. rewrite add_items_cons. destruct (H2 k) as [raw E]; [left|]. rewrite E. destruct (H1 k raw) as [v Ev]; [left|done|]. rewrite Ev. apply IH; [intros k' r Hk; apply H1; by right|intros k' Hk; apply H2; by right].
Qed.
Lemma add_section_lookup dflt url sec m m' : add_section dflt url (Some m) sec = Some m' ->
  (used dflt url sec /\ forall k, k <> storage_url_key -> match raw_get dflt sec k with Some raw => m' !! k = expand dflt sec raw /\ is_Some (m' !! k) | None => m' !! k = m !! k end) \/ (~ used dflt url sec /\ m' = m).
Proof.
  unfold add_section. cbn [mbind option_bind]. destruct (raw_get dflt sec storage_url_key) as [raw|] eqn:E.
  - destruct (expand dflt sec raw) as [p|] eqn:Ep; [|done]. cbn [mbind option_bind]. case_decide as D1; [|case_decide as D2].
    + intros [= <-]. right. split; [|done]. intros (raw' & p' & H1 & H2 & H3 & H4). congruence.
    + intros H. left. split; [by exists raw, p|]. intros k Hk. destruct (add_items_lookup _ _ _ _ _ k H Hk) as [A1 A2]. destruct (raw_get dflt sec k) as [r|] eqn:Er.
      * destruct A1 as (r' & Hr' & A); [apply raw_get_keys; by rewrite Er|]. congruence.
      * apply A2. rewrite <- raw_get_keys, Er. by intros [? ?].
    + intros [= <-]. right. split; [|done]. intros (raw' & p' & H1 & H2 & H3 & H4). congruence.
  - intros [= <-]. right. split; [|done]. intros (raw' & p' & H1 & _). congruence.
Qed.
Lemma merge_none dflt url secs : foldl (add_section dflt url) None secs = None.
Proof. induction secs as [|s secs IH]; [done|]. cbn. done. Qed.
(** The value of an option is that of the last section that is used and has it, itself or from the section DEFAULT. *)
Theorem config_value c url m k v : merge c url = Some m -> k <> storage_url_key ->
  m !! k = Some v <-> exists before sec after raw, sections c = before ++ sec :: after /\ used (defaults c) url sec /\ raw_get (defaults c) sec k = Some raw /\ expand (defaults c) sec raw = Some v /\
    Forall (fun s => used (defaults c) url s -> raw_get (defaults c) s k = None) after.
Proof.
  unfold merge. generalize (sections c). intros secs H Hk. revert m H v. induction secs as [|sec secs IH] using rev_ind; intros m H v.
  - injection H as <-. rewrite lookup_empty. split; [done|]. intros (before & sec & after & raw & E & _). by destruct before.
  - rewrite foldl_app in H. cbn [foldl] in H. destruct (foldl (add_section (defaults c) url) (Some ∅) secs) as [m0|] eqn:E0; [|done]. specialize (IH m0 eq_refl).
    destruct (add_section_lookup _ _ _ _ _ H) as [[Hu Hl]|[Hu ->]].
    + specialize (Hl k Hk). destruct (raw_get (defaults c) sec k) as [raw|] eqn:Er.
      * destruct Hl as [Hl [w Hw]]. split.
        -- intros Hv. exists secs, sec, [], raw. split; [done|]. split; [done|]. split; [done|]. split; [congruence|constructor].
        -- intros (before & s & after & r & Es & Hs & Hr & Hv & Hf). destruct after as [|s' after _] using rev_ind.
           ++ apply app_inj_tail in Es as [-> ->]. congruence.
           ++ rewrite app_comm_cons, app_assoc in Es. apply app_inj_tail in Es as [_ ->]. apply Forall_app in Hf as [_ Hf]. apply Forall_cons in Hf as [Hf _]. specialize (Hf Hu). congruence.
      * rewrite Hl, IH. split.
        -- intros (before & s & after & r & Es & Hs & Hr & Hv & Hf). exists before, s, (after ++ [sec]), r. rewrite app_comm_cons, app_assoc, <- Es. split; [done|]. do 3 (split; [done|]). apply Forall_app. split; [done|]. by apply Forall_singleton.
        -- intros (before & s & after & r & Es & Hs & Hr & Hv & Hf). destruct after as [|s' after _] using rev_ind; [apply app_inj_tail in Es as [-> ->]; congruence|].
           rewrite app_comm_cons, app_assoc in Es. apply app_inj_tail in Es as [-> ->]. apply Forall_app in Hf as [Hf _]. by exists before, s, after, r.
    + rewrite IH. split.
      * intros (before & s & after & r & Es & Hs & Hr & Hv & Hf). exists before, s, (after ++ [sec]), r. rewrite app_comm_cons, app_assoc, <- Es. split; [done|]. do 3 (split; [done|]). apply Forall_app. split; [done|]. apply Forall_singleton. done.
      * intros (before & s & after & r & Es & Hs & Hr & Hv & Hf). destruct after as [|s' after _] using rev_ind; [apply app_inj_tail in Es as [-> ->]; done|].
        rewrite app_comm_cons, app_assoc in Es. apply app_inj_tail in Es as [-> ->]. apply Forall_app in Hf as [Hf _]. by exists before, s, after, r.
Qed.
(** Without a section DEFAULT and without % in values, reading never fails and the value is literally that of the last section that applies and has the option. *)
Definition plain (c : config) : Prop := defaults c = [] /\ forall sec k v, sec ∈ sections c -> (k, v) ∈ sec -> 37 ∉ v.
Lemma plain_raw sec k : raw_get [] sec k = assoc k sec.
Proof. unfold raw_get. by destruct (assoc k sec). Qed.
Lemma has_option_in sec k v : has_option sec k v -> (k, v) ∈ sec.
Proof. intros (i & H & _). by eapply elem_of_list_lookup_2. Qed.
Lemma plain_used url sec : (forall k v, (k, v) ∈ sec -> 37 ∉ v) -> used [] url sec <-> applies storage_url_key url sec.
Proof.
  intros Hp. unfold used, applies. split.
  - intros (raw & p & H1 & H2 & H3 & [rest H4]). rewrite plain_raw in H1. apply assoc_iff in H1. rewrite value_plain in H2 by (eapply Hp, has_option_in; done). injection H2 as <-. exists raw. split; [done|]. split; [done|]. by exists rest.
  - intros (p & H1 & H2 & rest & H3). exists p, p. rewrite plain_raw, assoc_iff. split; [done|]. split; [apply value_plain; eapply Hp, has_option_in; done|]. split; [done|]. by exists rest.
Qed.
Theorem config_plain c url : plain c -> exists m, merge c url = Some m /\ forall k v, k <> storage_url_key -> m !! k = Some v <-> configured storage_url_key url (sections c) k v.
Proof.
  intros [Hd Hp]. assert (is_Some (merge c url)) as [m Hm].
  { unfold merge. rewrite Hd. revert Hp. generalize (sections c). intros secs Hp. induction secs as [|sec secs IH] using rev_ind; [by eexists|]. rewrite foldl_app. destruct IH as [m0 E]; [intros s k v Hs; apply Hp; apply elem_of_app; by left|]. cbn [foldl]. rewrite E. unfold add_section. cbn [mbind option_bind].
    assert (forall k v, (k, v) ∈ sec -> 37 ∉ v) as Hps by (intros k v; apply Hp; apply elem_of_app; right; left).
    assert (forall k raw, raw_get [] sec k = Some raw -> expand [] sec raw = Some raw) as He by (intros k raw; rewrite plain_raw, assoc_iff; intros Hh; apply value_plain; eapply Hps, has_option_in; done).
    destruct (raw_get [] sec storage_url_key) as [raw|] eqn:Er; [|by eexists]. rewrite (He _ _ Er). cbn [mbind option_bind]. case_decide; [by eexists|]. case_decide; [|by eexists].
    apply add_items_total; [intros k r _ Hr; rewrite (He _ _ Hr); by eexists|]. intros k Hk. by apply raw_get_keys. }
  exists m. split; [done|]. intros k v Hk. rewrite (config_value _ _ _ _ _ Hm Hk), Hd. unfold configured. split.
  - intros (before & sec & after & raw & Es & Hu & Hr & Hv & Hf). exists before, sec, after. assert (forall s, s ∈ sections c -> forall k v, (k, v) ∈ s -> 37 ∉ v) as Hps by (intros s Hs k' v'; by apply Hp).
    assert (sec ∈ sections c) as Hin by (rewrite Es; apply elem_of_app; right; left). split; [done|]. split; [apply plain_used; [by apply Hps|done]|]. rewrite plain_raw, assoc_iff in Hr. rewrite value_plain in Hv by (eapply Hps; [done|by apply has_option_in]). injection Hv as <-. split; [done|].
    apply Forall_forall. intros s Hs Ha. rewrite Forall_forall in Hf. apply assoc_none. rewrite <- plain_raw. apply Hf; [done|]. apply plain_used; [|done]. apply Hps. rewrite Es. apply elem_of_app. right. by right.
  - intros (before & sec & after & Es & Ha & Hv & Hf). exists before, sec, after, v. assert (forall s, s ∈ sections c -> forall k v, (k, v) ∈ s -> 37 ∉ v) as Hps by (intros s Hs k' v'; by apply Hp).
    assert (sec ∈ sections c) as Hin by (rewrite Es; apply elem_of_app; right; left). split; [done|]. split; [apply plain_used; [by apply Hps|done]|]. rewrite plain_raw, assoc_iff. split; [done|]. split; [apply value_plain; eapply Hps; [done|by apply has_option_in]|].
    apply Forall_forall. intros s Hs Hu. rewrite Forall_forall in Hf. rewrite plain_raw, assoc_none. apply Hf; [done|]. apply plain_used; [|done]. apply Hps. rewrite Es. apply elem_of_app. right. by right.
Qed.
(** A value in the section DEFAULT replaces one that an earlier section gives explicitly, if a later section that is used does not have the option. *)
Theorem default_overrides_refuted : exists c url m, merge c url = Some m /\
  sections c = [[(storage_url_key, lit "s3://eu/bucket"); (lit "backend-login", lit "mine")]; [(storage_url_key, lit "s3://"); (lit "compress", lit "zlib-6")]] /\
  defaults c = [(lit "backend-login", lit "other")] /\ url = lit "s3://eu/bucket/" /\ m !! lit "backend-login" = Some (lit "other").
Proof.
  exists (Config [(lit "backend-login", lit "other")] [[(storage_url_key, lit "s3://eu/bucket"); (lit "backend-login", lit "mine")]; [(storage_url_key, lit "s3://"); (lit "compress", lit "zlib-6")]]), (lit "s3://eu/bucket/"). eexists. split; [vm_compute; reflexivity|]. split; [reflexivity|]. split; [reflexivity|]. split; [reflexivity|]. vm_compute. reflexivity.
Qed.
(** A single % in any value of a section that is used, or in the URL of any section, is an exception. *)
Theorem percent_refuted : merge (Config [] [[(storage_url_key, lit "s3://"); (lit "backend-password", lit "50%off")]]) (lit "s3://eu/bucket/") = None /\
  merge (Config [] [[(storage_url_key, lit "local:///a%20b"); (lit "fs-passphrase", lit "x")]]) (lit "s3://eu/bucket/") = None.
Proof. split; vm_compute; reflexivity. Qed.

(** * Validation *)
Section validation.
Context (parse_int : text -> option Z) (dir : text).
Lemma known_all (m : gmap text text) : forallb known (map_to_list m).*1 = true <-> forall k v, m !! k = Some v -> known k = true.
Proof.
  rewrite forallb_forall. split.
  - intros H k v Hk. apply H. apply elem_of_list_In, elem_of_list_fmap. exists (k, v). split; [done|]. by apply elem_of_map_to_list.
  - intros H k Hk. apply elem_of_list_In, elem_of_list_fmap in Hk as ([k' v] & -> & Hk). apply elem_of_map_to_list in Hk. by eapply H.
Qed.
(** What is returned when all is well: only known options, and the configured values, or the defaults. *)
Theorem config_accepted mode c url a : from_file parse_int dir (Some (mode, c)) url = inr a ->
  N.land mode 36 = 0 /\ exists m, merge c url = Some m /\ (forall k v, m !! k = Some v -> known k = true) /\
    field m (lit "backend-login") = Some (backend_login a) /\ field m (lit "backend-password") = Some (backend_password a) /\ field m (lit "fs-passphrase") = Some (fs_passphrase a) /\
    (exists o, field m (lit "backend-options") = Some o /\ backend_options a = default [] o) /\ (exists o, field m (lit "cachedir") = Some o /\ cachedir a = default dir o) /\
    (exists o, field m (lit "max-connections") = Some o /\ conv parse_int 32%Z o = Some (max_connections a)) /\
    (exists o, field m (lit "max-threads") = Some o /\ match o with None => max_threads a = None | Some v => max_threads a = parse_int v /\ is_Some (parse_int v) end) /\
    (exists o, field m (lit "compress") = Some o /\ conv parse_compress (LZMA, 6%Z) o = Some (compress a)).
Proof.
  unfold from_file. case_decide as D; [done|]. destruct (merge c url) as [m|]; [|done]. intros H. split; [destruct (N.eq_dec (N.land mode 36) 0); [done|by exfalso]|]. exists m. split; [done|]. unfold validate in H. destruct (forallb known (map_to_list m).*1) eqn:Ek; [|done]. pose proof (proj1 (known_all m) Ek) as Ek2. split; [done|].
  destruct (field m (lit "backend-login")) as [login|]; [|done]. destruct (field m (lit "backend-password")) as [password|]; [|done]. destruct (field m (lit "fs-passphrase")) as [pass|]; [|done].
  destruct (field m (lit "backend-options")) as [opts|]; [|done]. destruct (field m (lit "cachedir")) as [d|]; [|done]. destruct (field m (lit "max-connections")) as [conns|]; [|done]. cbn [mbind option_bind] in H. destruct (conv parse_int 32%Z conns) as [n|] eqn:En; [|done]. cbn [mbind option_bind] in H.
  destruct (field m (lit "max-threads")) as [threads|]; [|done]. cbn [mbind option_bind] in H. destruct (conv (fun v => Some <$> parse_int v) None threads) as [t|] eqn:Et; [|done]. cbn [mbind option_bind] in H.
  destruct (field m (lit "compress")) as [compr|]; [|done]. cbn [mbind option_bind] in H. destruct (conv parse_compress (LZMA, 6%Z) compr) as [cs|] eqn:Ec; [|done]. cbn [mbind option_bind] in H. injection H as <-. cbn [backend_login backend_password fs_passphrase backend_options cachedir max_connections max_threads compress].
  do 3 (split; [done|]). split; [by exists opts|]. split; [by exists d|]. split; [by exists conns|]. split; [exists threads; split; [done|]|by exists compr].
  destruct threads as [v|]; [|by injection Et as <-]. cbn in Et. destruct (parse_int v); [|done]. injection Et as <-. split; [done|by eexists].
Qed.
(** An unknown option in a section that is used is rejected. *)
Lemma merge_has c url m sec k : merge c url = Some m -> sec ∈ sections c -> used (defaults c) url sec -> is_Some (raw_get (defaults c) sec k) -> k <> storage_url_key -> is_Some (m !! k).
Proof.
  unfold merge. generalize (sections c). intros secs H Hin Hu Hr Hk. revert m H. induction secs as [|s secs IH] using rev_ind; intros m H; [by apply elem_of_nil in Hin|].
  rewrite foldl_app in H. cbn [foldl] in H. destruct (foldl (add_section (defaults c) url) (Some ∅) secs) as [m0|] eqn:E0; [|done].
  destruct (add_section_lookup _ _ _ _ _ H) as [[Hs Hl]|[Hs ->]].
  - specialize (Hl k Hk). destruct (raw_get (defaults c) s k) as [raw|] eqn:Er; [by destruct Hl|]. rewrite Hl. apply elem_of_app in Hin as [Hin| ->%elem_of_list_singleton]; [by apply IH|]. rewrite Er in Hr. by destruct Hr.
  - apply elem_of_app in Hin as [Hin| ->%elem_of_list_singleton]; [by apply IH|done].
Qed.
Theorem config_unknown mode c url sec k raw : sec ∈ sections c -> used (defaults c) url sec -> raw_get (defaults c) sec k = Some raw -> k <> storage_url_key -> known k = false ->
  exists e, from_file parse_int dir (Some (mode, c)) url = inl e.
Proof.
  intros Hin Hu Hr Hk Hn. destruct (from_file parse_int dir (Some (mode, c)) url) as [e|a] eqn:E; [by exists e|]. exfalso. apply config_accepted in E as (_ & m & Hm & Hkn & _).
  destruct (merge_has _ _ _ _ k Hm Hin Hu) as [v Hv]; [by rewrite Hr|done|]. apply Hkn in Hv. congruence.
Qed.
(** A file that others may read is rejected. *)
Theorem config_insecure mode c url : N.testbit mode 5 = true \/ N.testbit mode 2 = true -> from_file parse_int dir (Some (mode, c)) url = inl Insecure.
Proof.
  intros H. unfold from_file. rewrite decide_True; [done|]. intros E. assert (forall i, N.testbit (N.land mode 36) i = false) as K by (intros i; rewrite E; apply N.bits_0). destruct H as [H|H]; [specialize (K 5)|specialize (K 2)]; rewrite N.land_spec, H in K; done.
Qed.
(** Without a file: the defaults. *)
Theorem config_no_file url : from_file parse_int dir None url = inr (Authinfo None None None [] dir 32 None (LZMA, 6%Z)).
Proof. vm_compute. reflexivity. Qed.
End validation.
(** Malformed values are rejected: what is accepted as a compression *)
Lemma span_spec p s a b : span p s = (a, b) <-> s = a ++ b /\ Forall (fun c => p c = true) a /\ match b with [] => True | c :: _ => p c = false end.
Proof.
  revert a b. induction s as [|c s IH]; intros a b; cbn.
  - split; [intros [= <- <-]; done|]. intros (E & _ & _). symmetry in E. apply app_nil in E as [-> ->]. done.
  - destruct (p c) eqn:Ep.
    + destruct (span p s) as [a' b'] eqn:Es. destruct (IH a' b') as [IH1 _]. destruct IH1 as (E & Hf & Hb); [done|]. split.
      * intros [= <- <-]. split; [cbn; by rewrite <- E|]. split; [by constructor|done].
      * intros (E' & Hf' & Hb'). destruct a as [|x a]; [cbn in E'; subst b; congruence|]. injection E' as <- E'. apply Forall_cons in Hf' as [_ Hf']. assert ((a', b') = (a, b)) as K by (apply IH; done). apply pair_equal_spec in K as [-> ->]. done.
    + split; [intros [= <- <-]; split; [done|]; split; [constructor|done]|]. intros (E' & Hf' & Hb'). destruct a as [|x a]; [cbn in E'; by subst|]. injection E' as <- E'. apply Forall_cons in Hf' as [Hf' _]. congruence.
Qed.
Definition algorithm_name (a : algorithm) : text := match a with LZMA => lit "lzma" | BZIP2 => lit "bzip2" | ZLIB => lit "zlib" | NONE => lit "none" end.
Lemma algorithm_of_iff s a : algorithm_of s = Some a <-> s = algorithm_name a.
Proof. unfold algorithm_of. split; [repeat case_decide; intros [= <-]; done|]. intros ->. by destruct a. Qed.
Theorem compress_accepted s a l : parse_compress s = Some (a, l) <->
  exists nl, (nl = [] \/ nl = [10]) /\ ((l = 6%Z /\ s = algorithm_name a ++ nl) \/ exists d, d <= 9 /\ l = Z.of_N d /\ s = algorithm_name a ++ [45; 48 + d] ++ nl).
Proof.
  assert (forall r, at_end r = true <-> r = [] \/ r = [10]) as Hend.
  { intros r. unfold at_end. destruct r as [|c r]; [split; [by left|done]|]. split; [|intros [?|E]; [done|injection E as -> ->; done]]. intros H. right. repeat (match goal with H : context [match ?x with _ => _ end] |- _ => destruct x end; try done). }
  assert (Forall (fun c => is_word c = true) (algorithm_name a)) as Hw by (destruct a; repeat constructor).
  assert (forall b, match b with [] => True | c :: _ => is_word c = false end -> span is_word (algorithm_name a ++ b) = (algorithm_name a, b)) as Hspan by (intros b Hb; apply span_spec; done).
  unfold parse_compress. split.
  - destruct (span is_word s) as [word rest] eqn:Es. apply span_spec in Es as (-> & _ & _). destruct (algorithm_of word) as [a'|] eqn:Ea; [|done]. apply algorithm_of_iff in Ea as ->. cbn [mbind option_bind]. destruct (at_end rest) eqn:Er.
    + intros [= <- <-]. apply Hend in Er. exists rest. split; [done|]. by left.
    + destruct rest as [|c rest]; [done|]. destruct (decide (c = 45)) as [-> |N]; [|repeat (match goal with |- context [match ?x with _ => _ end] => destruct x end; try done)]. destruct rest as [|d rest]; [done|].
      destruct (is_digit d && at_end rest) eqn:Ed; [|done]. intros [= <- <-]. apply andb_true_iff in Ed as [Ed Er']. apply Hend in Er'. unfold is_digit in Ed. apply andb_true_iff in Ed as [H1 H2]. apply N.leb_le in H1, H2. exists rest. split; [done|]. right. exists (d - 48). split; [lia|]. split; [done|]. by replace (48 + (d - 48)) with d by lia.
  - intros (nl & Hnl & [[-> ->]|(d & Hd & -> & ->)]).
    + rewrite Hspan by (destruct Hnl as [-> | ->]; done). rewrite (proj2 (algorithm_of_iff _ a)) by done. cbn [mbind option_bind]. rewrite (proj2 (Hend nl)) by done. done.
    + rewrite Hspan by done. rewrite (proj2 (algorithm_of_iff _ a)) by done. cbn [mbind option_bind app]. change (at_end (45 :: 48 + d :: nl)) with false. cbn iota.
      assert (is_digit (48 + d) = true) as -> by (unfold is_digit; apply andb_true_iff; split; apply N.leb_le; lia). rewrite (proj2 (Hend nl)) by done. cbn [andb]. do 2 f_equal. lia.
Qed.

(** * Options of backends *)
(** Command line options win. *)
Theorem options_cli known_options s a b : resolve_options known_options (Some s) a = resolve_options known_options (Some s) b.
Proof. done. Qed.
Theorem options_config known_options a : resolve_options known_options None a = resolve_options known_options (Some (backend_options a)) a.
Proof. done. Qed.
Theorem options_known known_options cli a opts : resolve_options known_options cli a = Some opts <-> opts = (if decide (pick cli (backend_options a) = []) then ∅ else parse_suboptions (pick cli (backend_options a))) /\ forall k v, opts !! k = Some v -> k ∈ known_options.
Proof.
  unfold resolve_options. cbn zeta. set (o := if decide (pick cli (backend_options a) = []) then ∅ else parse_suboptions (pick cli (backend_options a))). clearbody o.
  assert (forallb (fun k => bool_decide (k ∈ known_options)) (map_to_list o).*1 = true <-> forall k v, o !! k = Some v -> k ∈ known_options) as K.
  { rewrite forallb_forall. split.
    - intros H k v Hk. eapply bool_decide_eq_true, H. apply elem_of_list_In, elem_of_list_fmap. exists (k, v). split; [done|]. by apply elem_of_map_to_list.
    - intros H k Hk. apply elem_of_list_In, elem_of_list_fmap in Hk as ([k' v] & -> & Hk). apply elem_of_map_to_list in Hk. apply bool_decide_eq_true. by eapply H. }
  destruct (forallb _ _); split; [intros [= <-]; split; [done|]; by apply K|by intros [-> _]|done|intros [-> H]; exfalso; apply K in H; done].
Qed.
Lemma strip_id s : (forall c, head s = Some c -> is_space c = false) -> (forall c, last s = Some c -> is_space c = false) -> strip s = s.
Proof.
  intros H1 H2. assert (forall s, (forall c, head s = Some c -> is_space c = false) -> lstrip_space s = s) as K by (intros [|c l] Hc; [done|]; cbn; by rewrite Hc).
  unfold strip. rewrite (K s) by done. rewrite K; [apply reverse_involutive|]. intros c Hc. apply H2. by rewrite <- head_reverse.
Qed.
Lemma lstrip_head s c : head (lstrip_space s) = Some c -> is_space c = false.
Proof. induction s as [|x s IH]; cbn; [done|]. destruct (is_space x) eqn:E; [done|]. intros [= <-]. done. Qed.
Lemma lstrip_suffix s : exists p, s = p ++ lstrip_space s.
Proof. induction s as [|x s [p IH]]; cbn; [by exists []|]. destruct (is_space x); [exists (x :: p); cbn; by rewrite <- IH|by exists []]. Qed.
Lemma stripped s : strip s = s -> (forall c, head s = Some c -> is_space c = false) /\ (forall c, last s = Some c -> is_space c = false).
Proof.
  intros H. split.
  - intros c Hc. unfold strip in H. destruct (lstrip_suffix (reverse (lstrip_space s))) as [p Hp]. apply (f_equal reverse) in Hp. rewrite reverse_involutive, reverse_app, H in Hp. destruct s as [|x s]; [done|]. injection Hc as ->. apply (lstrip_head (c :: s)). by rewrite Hp.
  - intros c Hc. rewrite <- H in Hc. unfold strip in Hc. rewrite last_reverse in Hc. by apply lstrip_head in Hc.
Qed.
Lemma upto_app stop a b : stop ∉ a -> upto stop (a ++ stop :: b) = Some (a, b).
Proof. induction a as [|c a IH]; cbn; [by rewrite decide_True|]. intros [H1 H2]%not_elem_of_cons. rewrite decide_False by congruence. by rewrite IH. Qed.
Lemma upto_none stop a : stop ∉ a -> upto stop a = None.
Proof. induction a as [|c a IH]; cbn; [done|]. intros [H1 H2]%not_elem_of_cons. rewrite decide_False by congruence. by rewrite IH. Qed.
Lemma upto_some stop s a b : upto stop s = Some (a, b) -> s = a ++ stop :: b /\ stop ∉ a.
Proof.
  revert a b. induction s as [|c s IH]; intros a b; cbn; [done|]. case_decide as D; [intros [= <- <-]; subst; split; [done|apply not_elem_of_nil]|]. destruct (upto stop s) as [[a' b']|]; [|done]. cbn. intros [= <- <-]. destruct (IH a' b' eq_refl) as [-> Hn]. split; [done|]. apply not_elem_of_cons. done.
Qed.
Lemma upto_none_inv stop s : upto stop s = None -> stop ∉ s.
Proof. induction s as [|c s IH]; cbn; [intros _; apply not_elem_of_nil|]. case_decide; [done|]. destruct (upto stop s); [done|]. intros _. apply not_elem_of_cons. split; [done|by apply IH]. Qed.
(** Options are found as they were written: names without comma and =, values without comma, both without white space at the ends. *)
Definition option_ok (o : text * option text) : Prop := o.1 <> [] /\ 44 ∉ o.1 /\ 61 ∉ o.1 /\ strip o.1 = o.1 /\ match o.2 with None => True | Some v => 44 ∉ v /\ strip v = v end.
Lemma add_written opts o : option_ok o -> add_option opts (written o) = <[o.1 := o.2]> opts.
Proof.
  destruct o as [k v]. intros (Hk & H44 & H61 & Hs & Hv). cbn [fst snd] in *. destruct (stripped _ Hs) as [Hh Hl]. destruct v as [v|]; cbn [written].
  - destruct Hv as [Hv1 Hv2]. destruct (stripped _ Hv2) as [Hvh Hvl]. unfold add_option. rewrite strip_id.
    + rewrite decide_False by (by destruct k). rewrite upto_app by done. by rewrite Hs, Hv2.
    + intros c Hc. apply Hh. by destruct k.
    + intros c Hc. destruct v as [|x v] using rev_ind; [rewrite last_snoc in Hc; by injection Hc as <-|]. rewrite app_comm_cons, app_assoc, last_snoc in Hc. apply Hvl. by rewrite last_snoc.
  - unfold add_option. rewrite Hs. rewrite decide_False by done. by rewrite upto_none.
Qed.
Lemma separated_join l : separated l = Text.join 44 l.
Proof. induction l as [|w l IH]; [done|]. cbn. destruct l; [done|]. by rewrite IH. Qed.
Theorem options_roundtrip l k v : Forall option_ok l -> parse_suboptions (separated (written <$> l)) !! k = Some v <-> last_option l k v.
Proof.
  intros Hl. assert (parse_suboptions (separated (written <$> l)) = foldl (fun m o => <[o.1 := o.2]> m) ∅ l) as ->.
  { unfold parse_suboptions. rewrite separated_join. destruct l as [|o l]; [done|]. rewrite split_join; [|done|].
    - generalize (∅ : gmap text (option text)). induction Hl as [|o' l' Ho _ IH]; intros m; [done|]. cbn. rewrite add_written by done. apply IH.
    - apply Forall_fmap. eapply Forall_impl; [exact Hl|]. intros [k' v'] (_ & H44 & _ & _ & Hv). cbn in *. destruct v' as [v'|]; cbn; [|done]. destruct Hv as [Hv _]. rewrite not_elem_of_app, not_elem_of_cons. done. }
  unfold last_option. clear Hl. induction l as [|o l IH] using rev_ind.
  - cbn. rewrite lookup_empty. split; [done|]. intros ([|? ?] & ? & ? & _); done.
  - rewrite foldl_app. cbn. destruct o as [k' v']. cbn. destruct (decide (k' = k)) as [-> |N].
    + rewrite lookup_insert. split.
      * intros [= ->]. exists l, []. split; [done|]. intros w. apply not_elem_of_nil.
      * intros (before & after & E & Hn). destruct after as [|o after _] using rev_ind; [apply app_inj_tail in E as [_ [= ->]]; done|]. rewrite app_comm_cons, app_assoc in E. apply app_inj_tail in E as [_ Eo]. subst o. exfalso. apply (Hn v'). apply elem_of_app. right. left.
    + rewrite lookup_insert_ne by done. rewrite IH. split.
      * intros (before & after & -> & Hn). exists before, (after ++ [(k', v')]). split; [by rewrite <- app_assoc|]. intros w. rewrite not_elem_of_app, elem_of_list_singleton. split; [done|]. congruence.
      * intros (before & after & E & Hn). destruct after as [|o after _] using rev_ind; [apply app_inj_tail in E as [_ Eo]; congruence|]. rewrite app_comm_cons, app_assoc in E. apply app_inj_tail in E as [El Eo]. subst l o. exists before, after. split; [done|]. intros w Hw. apply (Hn w). apply elem_of_app. by left.
Qed.

(** * Storage URLs *)
(** A URL: scheme, "://", the rest *)
Definition url_of (scheme rest : text) : text := scheme ++ lit "://" ++ rest.
Lemma split_url_of scheme rest : scheme <> [] -> Forall (fun c => is_alnum c = true) scheme -> split_url (url_of scheme rest) = Some (scheme, rest).
Proof.
  intros Hne Hf. unfold split_url, url_of. assert (span is_alnum (scheme ++ lit "://" ++ rest) = (scheme, lit "://" ++ rest)) as -> by (apply span_spec; split; [done|]; split; [done|]; vm_compute; done).
  rewrite decide_False by done. done.
Qed.
Lemma split_url_inv v scheme rest : split_url v = Some (scheme, rest) -> v = url_of scheme rest /\ scheme <> [] /\ Forall (fun c => is_alnum c = true) scheme.
Proof.
  unfold split_url. destruct (span is_alnum v) as [s r] eqn:E. apply span_spec in E as (-> & Hf & _). case_decide as D; [done|]. intros H. assert (exists r', r = lit "://" ++ r' /\ Some (s, r') = Some (scheme, rest)) as (r' & -> & E).
  { change (lit "://") with [58; 47; 47]. repeat (match goal with H : context [match ?x with _ => _ end] |- _ => destruct x end; try done). eexists. split; [reflexivity|done]. }
  injection E as -> ->. done.
Qed.
Notation slash_schemes := [lit "gs"; lit "s3c"; lit "s3c4"; lit "swift"; lit "swiftks"; lit "rackspace"].
Lemma one_location_inv rest a p : one_location rest = Some ([a], p) -> one_part a = true /\ (rest = a ++ 47 :: p \/ (rest = a /\ p = [])).
Proof.
  unfold one_location, one_part. destruct (upto 47 rest) as [[[|c x] y]|] eqn:E; [done| |].
  - intros [= <- <-]. apply upto_some in E as [-> Hn]. split; [apply bool_decide_eq_true; done|by left].
  - case_decide; [done|]. intros [= <- <-]. apply upto_none_inv in E. split; [by apply bool_decide_eq_true|by right].
Qed.
Lemma one_location_shape rest l p : one_location rest = Some (l, p) -> exists a, l = [a].
Proof. unfold one_location. destruct (upto 47 rest) as [[[|c x] y]|]; [done|intros [= <- <-]; by eexists|]. case_decide; [done|]. intros [= <- <-]. by eexists. Qed.
Lemma one_part_noslash a : one_part a = true -> a <> [] /\ 47 ∉ a.
Proof. apply bool_decide_eq_true. Qed.
Lemma not_one_part a p : one_part (a ++ 47 :: p) = false.
Proof. apply bool_decide_eq_false. intros [_ H]. apply H. apply elem_of_app. right. left. Qed.
Lemma parts_one (a : text) : mjoin ((fun a => a ++ [47]) <$> [a]) = a ++ [47].
Proof. cbn. by rewrite app_nil_r. Qed.
Lemma parts_two (a b : text) : mjoin ((fun a => a ++ [47]) <$> [a; b]) = a ++ 47 :: b ++ [47].
Proof. cbn. by rewrite app_nil_r, <- app_assoc. Qed.
(** The rest of a canonical URL is determined by the location. *)
Lemma canonical_rest cwd v c scheme rest parts p : canonicalize cwd v = Some c -> split_url v = Some (scheme, rest) -> scheme ∈ slash_schemes -> location scheme rest = Some (parts, p) ->
  c = url_of scheme (mjoin ((fun a => a ++ [47]) <$> parts) ++ p).
Proof.
  intros Hc Hs Hin Hl. unfold canonicalize in Hc. rewrite Hs in Hc. apply split_url_inv in Hs as (-> & _ & _). destruct (negb (dots_end rest)); [done|]. case_decide as D1; [done|].
  assert (scheme <> lit "local") as Hloc by (intros ->; revert Hin; vm_compute; intros H; repeat (apply elem_of_cons in H as [H|H]; [done|]); by apply elem_of_nil in H). rewrite decide_False in Hc by done.
  unfold location in Hl. destruct (decide (scheme ∈ [lit "gs"; lit "b2"])) as [Hg|Hg].
  - assert (scheme = lit "gs") as ->. { apply elem_of_cons in Hg as [?|Hg]; [done|]. apply elem_of_list_singleton in Hg as ->. exfalso. revert Hin. vm_compute. intros H. repeat (apply elem_of_cons in H as [H|H]; [done|]). by apply elem_of_nil in H. }
    destruct (one_location_shape _ _ _ Hl) as [a ->]. apply one_location_inv in Hl as [Ha Hr]. rewrite (bool_decide_eq_true_2 (lit "gs" ∈ [lit "s3"; lit "gs"])) in Hc by (right; left). rewrite (bool_decide_eq_false_2 (lit "gs" ∈ _)) in Hc by (vm_compute; intros H; repeat (apply elem_of_cons in H as [H|H]; [done|]); by apply elem_of_nil in H).
    cbn [andb orb] in Hc. rewrite orb_false_r in Hc. destruct Hr as [-> |[-> ->]].
    + rewrite not_one_part in Hc. injection Hc as <-. by rewrite parts_one, <- app_assoc.
    + rewrite Ha in Hc. apply (inj Some) in Hc as <-. unfold url_of. by rewrite parts_one, app_nil_r, <- !app_assoc.
  - rewrite decide_False in Hl by done. destruct (upto 47 rest) as [[[|x y] r]|] eqn:E; [done| |done]. destruct (one_location r) as [[l p']|] eqn:El; [|done]. cbn in Hl. injection Hl as <- <-. destruct (one_location_shape _ _ _ El) as [b ->]. apply one_location_inv in El as [Hb Hr].
    assert (one_part (x :: y) = true) as Hp by (apply upto_some in E as [_ ?]; apply bool_decide_eq_true; done). assert (rest = (x :: y) ++ 47 :: r) as Er by (by apply upto_some in E as [? _]).
    assert (one_part rest = false) as Hone by (rewrite Er; apply not_one_part). rewrite Hone, andb_false_r, orb_false_l in Hc. rewrite bool_decide_eq_true_2 in Hc.
    2: { apply elem_of_cons in Hin as [-> |Hin]; [exfalso; apply Hg; left|]. exact Hin. }
    cbn [andb] in Hc. unfold two_parts in Hc. rewrite E, Hp in Hc. cbn [andb] in Hc. rewrite Er in Hc. destruct Hr as [-> |[-> ->]].
    + rewrite not_one_part in Hc. injection Hc as <-. rewrite parts_two, <- !app_assoc. cbn [app]. by rewrite <- app_assoc.
    + rewrite Hb in Hc. apply (inj Some) in Hc as <-. unfold url_of. rewrite parts_two, app_nil_r. rewrite <- !app_assoc. by cbn [app].
Qed.
(** For most backends, all URLs of a location have the same canonical form (and therefore the same cache directory). *)
Theorem canonical_location cwd v1 v2 c1 c2 scheme r1 r2 : canonicalize cwd v1 = Some c1 -> canonicalize cwd v2 = Some c2 -> split_url v1 = Some (scheme, r1) -> split_url v2 = Some (scheme, r2) ->
  scheme ∈ slash_schemes -> is_Some (location scheme r1) -> location scheme r1 = location scheme r2 -> c1 = c2.
Proof.
  intros H1 H2 S1 S2 Hin [[parts p] Hl] Heq. rewrite (canonical_rest _ _ _ _ _ _ _ H1 S1 Hin Hl). symmetry. rewrite Hl in Heq. symmetry in Heq. apply (canonical_rest _ _ _ _ _ _ _ H2 S2 Hin Heq).
Qed.
(** Canonicalization keeps the location. *)
Theorem canonical_same_location cwd v c scheme rest parts p : canonicalize cwd v = Some c -> split_url v = Some (scheme, rest) -> scheme <> lit "local" -> location scheme rest = Some (parts, p) ->
  exists rest', split_url c = Some (scheme, rest') /\ location scheme rest' = Some (parts, p).
Proof.
  intros Hc Hs Hloc Hl. pose proof (split_url_inv _ _ _ Hs) as (-> & Hne & Hf). unfold canonicalize in Hc. rewrite Hs in Hc. destruct (negb (dots_end rest)); [done|]. case_decide; [done|]. rewrite decide_False in Hc by done.
  destruct (_ || _) eqn:Eb; apply (inj Some) in Hc as <-; [|by exists rest]. exists (rest ++ [47]). split; [unfold url_of; rewrite <- !app_assoc; by apply split_url_of|].
  apply orb_true_iff in Eb as [Eb|Eb]; apply andb_true_iff in Eb as [Eb1 Eb2]; apply bool_decide_eq_true in Eb1.
  - apply one_part_noslash in Eb2 as [Hr1 Hr2]. unfold location in *. case_decide.
    + unfold one_location in *. rewrite (upto_none 47 rest) in Hl by done. rewrite decide_False in Hl by done. injection Hl as <- <-. rewrite upto_app by done. by destruct rest.
    + rewrite decide_False in Hl by done. by rewrite (upto_none 47 rest) in Hl.
  - unfold two_parts in Eb2. destruct (upto 47 rest) as [[a b]|] eqn:Eu; [|done]. apply andb_true_iff in Eb2 as [Ha Hb]. apply one_part_noslash in Ha as [Ha1 Ha2], Hb as [Hb1 Hb2]. apply upto_some in Eu as [-> _].
    assert (scheme ∉ [lit "gs"; lit "b2"]) as Hng. { intros Hg. clear -Eb1 Hg. assert (forall s : text, s ∈ [lit "gs"; lit "b2"] -> s ∈ lit <$> ["s3c"; "s3c4"; "swift"; "swiftks"; "rackspace"]%string -> False) as K; [|by eapply K]. intros s H1 H2. apply elem_of_cons in H1 as [-> |H1]; [|apply elem_of_list_singleton in H1 as ->]; revert H2; vm_compute; intros H; repeat (apply elem_of_cons in H as [H|H]; [done|]); by apply elem_of_nil in H. }
    unfold location in *. rewrite decide_False in * by done. rewrite decide_False in * by done. rewrite <- app_assoc. cbn [app]. rewrite upto_app in * by done. destruct a as [|x a]; [done|]. unfold one_location in *. rewrite (upto_none 47 b) in Hl by done. rewrite decide_False in Hl by done. cbn in Hl. injection Hl as <- <-. rewrite upto_app by done. by destruct b.
Qed.
(** s3://region/bucket and s3://region/bucket/ are the same place but keep their different names, likewise for b2. *)
Theorem canonical_refuted cwd : let u := lit "s3://eu-west-1/bucket" in let w := lit "b2://bucket" in
  canonicalize cwd u = Some u /\ canonicalize cwd (u ++ [47]) = Some (u ++ [47]) /\ location (lit "s3") (lit "eu-west-1/bucket") = Some ([lit "eu-west-1"; lit "bucket"], []) /\ location (lit "s3") (lit "eu-west-1/bucket/") = Some ([lit "eu-west-1"; lit "bucket"], []) /\
  canonicalize cwd w = Some w /\ canonicalize cwd (w ++ [47]) = Some (w ++ [47]) /\ location (lit "b2") (lit "bucket") = Some ([lit "bucket"], []) /\ location (lit "b2") (lit "bucket/") = Some ([lit "bucket"], []).
Proof. cbn zeta. split_and!; vm_compute; reflexivity. Qed.

(** ** Local directories *)
Definition comp_ok (c : text) : Prop := c <> [] /\ c <> [46] /\ c <> [46; 46] /\ 47 ∉ c.
Lemma norm_ok comps : Forall (fun w => 47 ∉ w) comps -> forall acc, Forall comp_ok acc -> Forall comp_ok (foldl (norm_step true) acc comps).
Proof.
  induction 1 as [|w comps Hw _ IH]; intros acc Ha; [done|]. cbn [foldl]. apply IH. unfold norm_step. case_decide as D1; [done|]. case_decide as D2; [constructor; [|done]; unfold comp_ok; tauto|]. destruct acc as [|c acc]; [done|]. apply Forall_cons in Ha as [Hc Ha]. rewrite decide_False by apply Hc. done.
Qed.
Lemma norm_id comps : Forall comp_ok comps -> forall acc, foldl (norm_step true) acc comps = reverse comps ++ acc.
Proof.
  induction 1 as [|w comps (H1 & H2 & H3 & _) _ IH]; intros acc; [done|]. cbn [foldl]. rewrite IH. unfold norm_step. rewrite decide_False by tauto. rewrite decide_True by done. by rewrite reverse_cons, <- app_assoc.
Qed.
Lemma split_rooted n comps : Forall comp_ok comps -> comps <> [] -> Text.split 47 (replicate n 47 ++ Text.join 47 comps ++ [47]) = replicate n [] ++ comps ++ [[]].
Proof.
  intros Hc Hne. induction n as [|n IH].
  - cbn. assert (Text.join 47 comps ++ [47] = Text.join 47 (comps ++ [[]])) as ->.
    { clear Hc. induction comps as [|w comps IH]; [done|]. destruct comps as [|w' comps]; [done|]. cbn [app Text.join] in *. rewrite <- IH by done. by rewrite <- app_assoc. }
    apply split_join; [by destruct comps|]. apply Forall_app. split; [eapply Forall_impl; [exact Hc|]; intros w (_ & _ & _ & ?); done|]. apply Forall_singleton. apply not_elem_of_nil.
  - cbn [replicate app]. etransitivity; [apply (split_app_sep 47 []); apply not_elem_of_nil|]. by rewrite IH.
Qed.
Lemma norm_nil acc : norm_step true acc [] = acc.
Proof. unfold norm_step. by rewrite decide_True by (by left). Qed.
Lemma norm_blank n acc : foldl (norm_step true) acc (replicate n []) = acc.
Proof. induction n as [|n IH]; [done|]. cbn [replicate foldl]. unfold norm_step at 2. by rewrite decide_True by (by left). Qed.
(** The form of an absolute path: one or two slashes, then the normal components *)
Lemma abspath_form cwd p : head cwd = Some 47 -> exists n comps, (n = 1 \/ n = 2)%nat /\ Forall comp_ok comps /\ abspath cwd p = replicate n 47 ++ Text.join 47 comps.
Proof.
  intros Hc. unfold abspath. set (q := match p with 47 :: _ => p | _ => match last cwd with Some 47 => cwd ++ p | _ => cwd ++ 47 :: p end end). assert (exists r, q = 47 :: r) as [r Hq].
  { unfold q. destruct cwd as [|x cwd]; [done|]. injection Hc as ->. repeat (match goal with |- context [match ?x with _ => _ end] => destruct x end; try (by eexists)). }
  clearbody q. subst q. unfold normpath. rewrite decide_False by done.
  assert (slashes (47 :: r) = 1%nat \/ slashes (47 :: r) = 2%nat) as Hn. { unfold slashes. repeat (match goal with |- context [match ?x with _ => _ end] => destruct x end; try (by left); try (by right)). }
  rewrite bool_decide_eq_true_2 by (destruct Hn as [-> | ->]; done). set (comps := reverse _). exists (slashes (47 :: r)), comps. split; [done|]. split.
  - unfold comps. apply Forall_reverse. apply norm_ok; [apply split_no_sep|constructor].
  - rewrite decide_False; [done|]. destruct Hn as [-> | ->]; done.
Qed.
Lemma slashes_form n comps : (n = 1 \/ n = 2)%nat -> Forall comp_ok comps -> comps <> [] -> slashes (replicate n 47 ++ Text.join 47 comps ++ [47]) = n.
Proof.
  intros Hn Hc Hne. destruct comps as [|[|c w] comps]; [done|apply Forall_cons in Hc as [(? & _) _]; done|]. apply Forall_cons in Hc as [(_ & _ & _ & Hw) _]. apply not_elem_of_cons in Hw as [Hw _].
  assert (exists r, Text.join 47 ((c :: w) :: comps) ++ [47] = c :: r) as [r ->] by (destruct comps; cbn; by eexists). destruct Hn as [-> | ->]; cbn; unfold slashes.
  - repeat (match goal with |- context [match ?x with _ => _ end] => destruct x end; try done).
  - repeat (match goal with |- context [match ?x with _ => _ end] => destruct x end; try done).
Qed.
(** A canonical local URL is left alone, whatever the working directory is, unless it is the root directory. *)
Theorem canonical_local cwd cwd' rest c : head cwd = Some 47 -> canonicalize cwd (url_of (lit "local") rest) = Some c -> abspath cwd rest <> [47] -> abspath cwd rest <> [47; 47] -> canonicalize cwd' c = Some c \/ 10 ∈ c.
Proof.
  intros Hcwd Hc N1 N2. unfold canonicalize in Hc. rewrite split_url_of in Hc by (done || (vm_compute; repeat constructor)). destruct (negb (dots_end rest)); [done|]. rewrite decide_False in Hc by (intros H; apply H; vm_compute; right; left). rewrite decide_True in Hc by done. apply (inj Some) in Hc as <-.
  destruct (abspath_form cwd rest Hcwd) as (n & comps & Hn & Hok & E). rewrite E in *. destruct (decide (10 ∈ lit "local://" ++ (replicate n 47 ++ Text.join 47 comps) ++ [47])) as [Hnl|Hnl]; [by right|left].
  assert (comps <> []) as Hne by (intros ->; destruct Hn as [-> | ->]; done).
  set (r := (replicate n 47 ++ Text.join 47 comps) ++ [47]) in *. assert (abspath cwd' r = replicate n 47 ++ Text.join 47 comps) as Ea.
  { unfold abspath. assert (exists r', r = 47 :: r') as [r' Er] by (unfold r; destruct Hn as [-> | ->]; cbn; by eexists). rewrite Er. cbn iota. rewrite <- Er. unfold normpath. rewrite decide_False by (by rewrite Er). unfold r. rewrite <- app_assoc. rewrite slashes_form by done. rewrite split_rooted by done.
    rewrite bool_decide_eq_true_2 by (destruct Hn as [-> | ->]; done). rewrite !foldl_app, norm_blank, (norm_id comps) by done. cbn [foldl]. rewrite norm_nil, app_nil_r, reverse_involutive. apply decide_False. destruct Hn as [-> | ->]; done. }
  change (lit "local://" ++ r) with (url_of (lit "local") r). unfold canonicalize. rewrite split_url_of by (done || (vm_compute; repeat constructor)).
  assert (dots_end r = true) as ->. { unfold dots_end. assert (last r = Some 47) as -> by (unfold r; by rewrite last_snoc). apply bool_decide_eq_true. split; [unfold r; by destruct (replicate n 47 ++ Text.join 47 comps)|]. intros Hin. apply Hnl. apply elem_of_app. by right. }
  cbn [negb]. rewrite decide_False by (intros H; apply H; vm_compute; right; left). rewrite decide_True by done. rewrite Ea. done.
Qed.
(** For the root directory, each application adds a slash. *)
Theorem canonical_root_refuted cwd : canonicalize cwd (lit "local:///") = Some (lit "local:////") /\ canonicalize cwd (lit "local:////") = Some (lit "local://///").
Proof. split; vm_compute; reflexivity. Qed.

(** * Examples *)
Definition sample : config := Config [] [[(storage_url_key, lit "s3://"); (lit "backend-login", lit "a"); (lit "backend-password", lit "b")]; [(storage_url_key, lit "gs://"); (lit "colour", lit "x")]; [(storage_url_key, lit "s3://eu/my"); (lit "backend-login", lit "c"); (lit "compress", lit "zlib-2")]].
Example config_sample : plain sample /\ from_file (fun _ => None) [] (Some (384, sample)) (lit "s3://eu/mydata/") = inr (Authinfo (Some (lit "c")) (Some (lit "b")) None [] [] 32 None (ZLIB, 2%Z)) /\
  from_file (fun _ => None) [] (Some (384, sample)) (lit "gs://eu/") = inl Usage /\ from_file (fun _ => None) [] (Some (420, sample)) (lit "s3://eu/mydata/") = inl Insecure.
Proof.
  split; [|split; [|split]; vm_compute; reflexivity]. split; [done|]. intros sec k v Hs Hk. vm_compute in Hs. repeat (apply elem_of_cons in Hs as [-> |Hs]; [repeat (apply elem_of_cons in Hk as [[= -> ->]|Hk]; [vm_compute; intros H; repeat (apply elem_of_cons in H as [H|H]; [done|]); by apply elem_of_nil in H|]); by apply elem_of_nil in Hk|]). by apply elem_of_nil in Hs.
Qed.
Example options_sample : resolve_options [lit "no-ssl"; lit "tcp-timeout"] (Some (lit " no-ssl,tcp-timeout = 42,")) (Authinfo None None None (lit "other") [] 32 None (LZMA, 6%Z)) = Some (<[lit "tcp-timeout" := Some (lit "42")]> (<[lit "no-ssl" := None]> ∅)) /\
  resolve_options [lit "no-ssl"; lit "tcp-timeout"] None (Authinfo None None None (lit "other") [] 32 None (LZMA, 6%Z)) = None.
Proof. split; vm_compute; reflexivity. Qed.
Example canonical_sample : canonicalize (lit "/home/me") (lit "local://data/../x/") = Some (lit "local:///home/me/x/") /\ canonicalize [] (lit "gs://bucket") = Some (lit "gs://bucket/") /\ canonicalize [] (lit "swift://host/bucket") = Some (lit "swift://host/bucket/") /\ canonicalize [] (lit "ftp://host/") = None.
Proof. split_and!; vm_compute; reflexivity. Qed.

Print Assumptions value_plain.
Print Assumptions value_escaped.
Print Assumptions config_value.
Print Assumptions config_plain.
Print Assumptions default_overrides_refuted.
Print Assumptions percent_refuted.
Print Assumptions config_accepted.
Print Assumptions config_unknown.
Print Assumptions config_insecure.
Print Assumptions config_no_file.
Print Assumptions compress_accepted.
Print Assumptions options_known.
Print Assumptions options_roundtrip.
Print Assumptions canonical_location.
Print Assumptions canonical_same_location.
Print Assumptions canonical_refuted.
Print Assumptions canonical_local.
Print Assumptions canonical_root_refuted.
