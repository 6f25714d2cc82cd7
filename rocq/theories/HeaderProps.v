(** C41: metadata survives the encoding in HTTP headers. *)
From stdpp Require Import prelude.
From Coq Require Import NArith ZArith Lia.
From Verif Require Import CodecModel CodecProps FreezeModel FreezeProps HeaderModel.
Local Open Scope N_scope.

Lemma sum_list_app (l k : list nat) : sum_list (l ++ k) = (sum_list l + sum_list k)%nat.
Proof. apply sum_list_with_app. Qed.
(** * Chunks *)
Lemma chunks_concat fuel cs l : (0 < cs)%nat -> (length l <= fuel)%nat -> concat (chunks fuel cs l) = l.
Proof.
  intros Hc. revert l. induction fuel as [|fuel IH]; intros l L; cbn [chunks]; [by destruct l; [|cbn in L; lia]|]. destruct l as [|c l]; [done|]. cbn [concat]. rewrite IH; [by rewrite take_drop|]. rewrite drop_length. cbn [length] in *. lia.
Qed.
Lemma chunks_small fuel cs l : Forall (fun p => (length p <= cs)%nat) (chunks fuel cs l).
Proof. revert l. induction fuel as [|fuel IH]; intros l; cbn [chunks]; [constructor|]. destruct l as [|c l]; [constructor|]. constructor; [|apply IH]. rewrite take_length. lia. Qed.
Lemma parts_concat cs buf : (0 < cs)%nat -> concat (header_parts cs buf) = buf.
Proof. intros Hc. unfold header_parts. case_decide; [cbn; by rewrite app_nil_r|by apply chunks_concat]. Qed.
Lemma parts_small cs buf : Forall (fun p => (length p <= cs)%nat) (header_parts cs buf).
Proof. unfold header_parts. case_decide; [constructor; [lia|constructor]|apply chunks_small]. Qed.

(** * Spaces *)
(** A part that passes unchanged *)
Definition clean (p : text) : Prop := head p <> Some 32 /\ last p <> Some 32.
Lemma skip_head l : head l <> Some 32 -> skip l = l.
Proof. destruct l as [|c l]; [done|]. intros H. apply skip_id. cbn in H. congruence. Qed.
Lemma strip_clean p : clean p -> strip p = p.
Proof. intros [H1 H2]. unfold strip, rstrip. rewrite (skip_head p) by done. rewrite skip_head by (by rewrite head_reverse). apply reverse_involutive. Qed.
Lemma clean_no_space p : 32 ∉ p -> clean p.
Proof. intros H. split; intros E; apply H; [by apply head_Some_elem_of|by apply last_Some_elem_of]. Qed.
Lemma strip_one x y : 32 ∉ x -> 32 ∉ y -> strip (x ++ 32 :: y) = x ++ 32 :: y \/ strip (x ++ 32 :: y) = x ++ y.
Proof.
  intros Hx Hy. destruct x as [|a x].
  - right. cbn [app]. unfold strip. cbn [skip]. apply (strip_clean y), clean_no_space, Hy.
  - assert (head ((a :: x) ++ 32 :: y) <> Some 32) as Hh by (cbn; intros [= ->]; apply Hx; left). destruct y as [|b y].
    + right. rewrite app_nil_r. unfold strip, rstrip. rewrite (skip_head ((a :: x) ++ [32])) by done. rewrite reverse_app. change (reverse [32]) with [32]. cbn [app]. change (skip (32 :: reverse (a :: x))) with (skip (reverse (a :: x))). rewrite (skip_head (reverse (a :: x))); [apply reverse_involutive|]. rewrite head_reverse. intros E. by apply Hx, last_Some_elem_of.
    + left. apply strip_clean. split; [done|]. rewrite last_app_cons, last_cons_cons. intros E. by apply Hy, last_Some_elem_of.
Qed.
(** If there is one space at most, it is lost or not, and nothing else. *)
Lemma strip_no_space ps : 32 ∉ concat ps -> concat (strip <$> ps) = concat ps.
Proof. induction ps as [|p ps IH]; [done|]. cbn [concat fmap list_fmap]. rewrite elem_of_app. intros H. rewrite IH by tauto. rewrite strip_clean; [done|]. apply clean_no_space. tauto. Qed.
Lemma strip_parts ps x y : concat ps = x ++ 32 :: y -> 32 ∉ x -> 32 ∉ y -> concat (strip <$> ps) = x ++ 32 :: y \/ concat (strip <$> ps) = x ++ y.
Proof.
  revert x. induction ps as [|p ps IH]; intros x E Hx Hy; [by destruct x|]. cbn [concat fmap list_fmap] in *. apply app_eq_inv in E as [(k & -> & E)|(k & -> & E)]. 2: {
    rewrite elem_of_app in Hx. destruct (IH k) as [-> | ->]; [done|tauto|done| |]; rewrite <- !app_assoc, (strip_clean p) by (apply clean_no_space; tauto); auto. }
  destruct k as [|c k].
    + cbn [app] in E. rewrite app_nil_r. destruct (IH [] (eq_sym E)) as [-> | ->]; [apply not_elem_of_nil|done| |]; rewrite (strip_clean x) by (by apply clean_no_space); auto.
    + cbn [app] in E. injection E as <- ->. rewrite elem_of_app in Hy. rewrite strip_no_space by tauto. destruct (strip_one x k) as [-> | ->]; [done|tauto| |]; rewrite <- app_assoc; auto.
Qed.

Section header.
Context (printable : N -> bool) {F : Type} `{EqDecision F} (fshow : F -> text) (fread : text -> option F) (md5 : @mapping F -> option text) (lossy : text -> text).
Notation value := (@value F). Notation mapping := (@mapping F).
Notation repr := (@repr printable F fshow). Notation literal := (@literal F fread). Notation items := (@items F _ fread).
Notation part := (@part printable F fshow). Notation add_loop := (@add_loop printable F fshow). Notation add_meta := (@add_meta printable F fshow md5). Notation extract := (@extract F _ fread md5 lossy).
Notation freezable := (@freezable F fshow fread). Notation good := (@good F).

(** Quoting piece by piece *)
Lemma quote_app s1 s2 : quote safe (s1 ++ s2) = q1 ← quote safe s1; q2 ← quote safe s2; Some (q1 ++ q2).
Proof. unfold quote. rewrite utf8_encode_app. destruct (utf8_encode s1) as [b1|]; [|done]. cbn. destruct (utf8_encode s2) as [b2|]; [|done]. cbn. by rewrite flat_map_app. Qed.
Lemma utf8_space s b : utf8_encode s = Some b -> 32 ∈ b -> 32 ∈ s.
Proof.
  revert b. induction s as [|c s IH]; intros b E H; cbn [utf8_encode] in E; [by injection E as <-|]. destruct (encodable c); [|done]. destruct (utf8_encode s) as [b'|]; [|done]. injection E as <-. apply elem_of_app in H as [H|H]; [|right; by eapply IH].
  assert (c = 32) as ->; [|left]. unfold utf8_char in H. repeat case_match; rewrite ?elem_of_cons, ?elem_of_nil in H; lia.
Qed.
Lemma quote_space s q : quote safe s = Some q -> 32 ∉ s -> 32 ∉ q.
Proof.
  unfold quote. destruct (utf8_encode s) as [b|] eqn:Eb; [|done]. cbn. intros [= <-] Hs H. apply elem_of_list_In, in_flat_map in H as (x & Hx%elem_of_list_In & H%elem_of_list_In). unfold quote_byte in H. destruct (safe x); [apply elem_of_list_singleton in H as <-; apply Hs; by eapply utf8_space|].
  assert (Forall (fun x => x < 256) b) as Hb by by eapply utf8_bytes. rewrite Forall_forall in Hb. apply Hb in Hx. assert (x / 16 < 16 /\ x mod 16 < 16) as [H1 H2] by (split; [apply N.div_lt_upper_bound; lia|apply N.mod_lt; lia]). unfold HEXDIGIT in H. rewrite !elem_of_cons, elem_of_nil in H. destruct H as [H|[H|[H|[]]]]; [done| |]; case_match; lia.
Qed.
(** The text of an entry, with or without the space *)
Definition entry (n : nat) (k v : value) : text := repr k ++ 58 :: replicate n 32 ++ repr (elementary v) ++ [44].
Lemma esc_space q c : q <> 32 -> c <> 32 -> 32 ∉ esc printable q c.
Proof.
  intros Hq Hc. assert (forall w, 32 ∉ hexn w c) as Hh by (intros w H%hexn_chars; lia). unfold esc, BACKSLASH. repeat case_match; rewrite ?elem_of_cons, ?elem_of_nil; intros H'; decompose [or] H'; try done; try congruence; by eapply Hh.
Qed.
Definition no_space (v : value) : Prop := match v with VStr s => 32 ∉ s | _ => True end.
Lemma repr_space v : freezable v -> no_space v -> 32 ∉ repr (elementary v).
Proof.
  intros Hf Hn H. destruct v as [s|b|z|[]| |f]; cbn [elementary FreezeModel.repr no_space FreezeProps.freezable] in *.
  - unfold repr_str in H. assert (the_quote s <> 32) as Hq by (destruct (the_quote_cases s) as [-> | ->]; done). rewrite elem_of_cons, elem_of_app, elem_of_list_singleton in H. destruct H as [?|[H|?]]; [congruence| |congruence].
    apply elem_of_list_In, in_flat_map in H as (c & Hc%elem_of_list_In & H%elem_of_list_In). apply esc_space in H; [done|done|]. by intros ->.
  - unfold repr_bytes in H. rewrite !elem_of_cons, elem_of_app, elem_of_list_singleton in H. destruct H as [?|[?|[H|?]]]; [done|done| |done]. apply b64encode_chars in Hf. rewrite Forall_forall in Hf. apply Hf in H. unfold b64char in H. lia.
  - unfold repr_int, dec in H. destruct (z <? 0)%Z; [apply elem_of_cons in H as [?|H]; [done|]|]; pose proof (decN_digits printable _ _ _ H) as [? ?]; lia.
  - unfold TRUE in H. rewrite !elem_of_cons, elem_of_nil in H. by decompose [or] H.
  - unfold FALSE in H. rewrite !elem_of_cons, elem_of_nil in H. by decompose [or] H.
  - unfold NONE in H. rewrite !elem_of_cons, elem_of_nil in H. by decompose [or] H.
  - destruct Hf as [E _]. unfold FreezeModel.literal in E. destruct (fshow f) as [|c l] eqn:Ef; [done|]. destruct ((c =? QUOTE) || (c =? DQUOTE)); [destruct (string_rest _ c l) as [[]|]; done|]. destruct (c =? 98).
    { destruct l as [|q l]; [done|]. destruct ((q =? QUOTE) || (q =? DQUOTE)); [|done]. destruct (bytes_rest q l) as [[]|]; done. }
    destruct (c =? 84); [destruct (strip_prefix TRUE _); done|]. destruct (c =? 70); [destruct (strip_prefix FALSE _); done|]. destruct (c =? 78); [destruct (strip_prefix NONE _); done|].
    destruct (num_span (c :: l)) as [a r] eqn:En. destruct (number fread a) as [v'|]; [|done]. injection E as -> ->. assert (Forall (fun c => is_num c = true) (c :: l)) as Hn' by (apply num_span_num; by rewrite En). rewrite Forall_forall in Hn'. by apply Hn' in H.
Qed.
(** An entry passes unharmed if there are no spaces in its strings, or none at the ends of a part. *)
Definition passes (cs : nat) (kv : value * value) : Prop := (no_space kv.1 /\ no_space kv.2) \/ (forall buf, part kv.1 kv.2 = Some buf -> Forall clean (header_parts cs buf)).
Lemma part_arrives cs k v buf : (0 < cs)%nat -> freezable k -> freezable v -> (exists s, k = VStr s) -> passes cs (k, v) -> part k v = Some buf ->
  exists n, quote safe (entry n k v) = Some (concat (strip <$> header_parts cs buf)).
Proof.
  intros Hc Hk Hv (s & ->) [[N1 N2]|Hp] E.
  - assert (32 ∉ repr (VStr s)) as K1 by exact (repr_space (VStr s) Hk N1). assert (32 ∉ repr (elementary v)) as K2 by by apply repr_space. unfold HeaderModel.part in E. rewrite !quote_app in E.
    destruct (quote safe (repr (VStr s))) as [q1|] eqn:E1; [|done]. destruct (quote safe [58; 32]) as [q2|] eqn:E2; [|done]. destruct (quote safe (repr (elementary v))) as [q3|] eqn:E3; [|done]. destruct (quote safe [44]) as [q4|] eqn:E4; [|done]. cbn [mbind option_bind] in E. injection E as <-.
    assert (q2 = [58; 32]) as -> by (vm_compute in E2; by injection E2 as <-). assert (q4 = [44]) as -> by (vm_compute in E4; by injection E4 as <-).
    destruct (strip_parts (header_parts cs (q1 ++ [58; 32] ++ q3 ++ [44])) (q1 ++ [58]) (q3 ++ [44])) as [-> | ->].
    + rewrite parts_concat by done. rewrite <- !app_assoc. done.
    + rewrite elem_of_app, elem_of_list_singleton. intros [H|?]; [|done]. by apply (quote_space _ _ E1 K1).
    + rewrite elem_of_app, elem_of_list_singleton. intros [H|?]; [|done]. by apply (quote_space _ _ E3 K2).
    + exists 1%nat. unfold entry. cbn [replicate]. change (58 :: [32] ++ repr (elementary v) ++ [44]) with ([58; 32] ++ repr (elementary v) ++ [44]). rewrite !quote_app, E1, E2, E3, E4. cbn [mbind option_bind]. by rewrite <- !app_assoc.
    + exists 0%nat. unfold entry. cbn [replicate app]. change (58 :: repr (elementary v) ++ [44]) with ([58] ++ repr (elementary v) ++ [44]). rewrite !quote_app, E1, E3, E4. change (quote safe [58]) with (Some [58]). cbn [mbind option_bind]. by rewrite <- !app_assoc.
  - exists 1%nat. specialize (Hp _ E). assert (strip <$> header_parts cs buf = header_parts cs buf) as ->; [|by rewrite parts_concat]. induction Hp as [|p ps Hp1 _ IH]; [done|]. cbn. rewrite strip_clean by done. f_equal. exact IH.
Qed.
(** What the loop gives *)
Definition partsof (cs : nat) (d : mapping) : list text := mjoin ((fun kv => match part kv.1 kv.2 with Some buf => header_parts cs buf | None => [] end) <$> d).
Lemma add_loop_spec cs d ps len ps' m : add_loop cs d ps len = Added ps' m -> ps' = ps ++ partsof cs d /\ Forall (fun kv => (exists s, kv.1 = VStr s) /\ exists buf, part kv.1 kv.2 = Some buf) d.
Proof.
  revert ps len. induction d as [|[k v] d IH]; intros ps len E; cbn [HeaderModel.add_loop] in E.
  - case_decide; [|done]. injection E as <- <-. split; [by rewrite app_nil_r|constructor].
  - destruct k as [s| | | | |]; try done. destruct (part (VStr s) v) as [buf|] eqn:Ep; [|done]. cbv zeta in E. case_decide; [done|]. apply IH in E as [-> Hf]. unfold partsof. cbn [fmap list_fmap mjoin list_join fst snd]. rewrite Ep. split; [by rewrite <- app_assoc|]. constructor; [cbn; eauto|done].
Qed.
Lemma items_entries d es acc fuel sp : Forall2 (fun kv e => exists n, e = entry n kv.1 kv.2) d es -> Forall (fun kv => freezable kv.1 /\ freezable kv.2 /\ exists s, kv.1 = VStr s) d -> NoDup (acc.*1 ++ d.*1) -> (length d < fuel)%nat ->
  items fuel acc (replicate sp 32 ++ concat es ++ [32; 125]) = Some (acc ++ stored d, []).
Proof.
  intros H2. revert acc fuel sp. induction H2 as [|[k v] e d es (n & ->) H2 IH]; intros acc fuel sp Hf Nd L; (destruct fuel as [|fuel]; [cbn in L; lia|]).
  - cbn [concat app FreezeModel.items]. rewrite skip_spaces. cbn. by rewrite app_nil_r.
  - apply Forall_cons in Hf as [(Hk & Hv & s & Es) Hf]. cbn [fst snd] in *. subst k. cbn [concat]. unfold entry at 1. cbn [length] in L. cbn [fmap list_fmap fst] in Nd.
    assert (NoDup ((acc ++ [(VStr s, elementary v)]).*1 ++ d.*1)) as Nd' by (rewrite fmap_app, <- app_assoc; exact Nd). assert (VStr s ∉ acc.*1) as Hn by (apply NoDup_app in Nd as (_ & Nd & _); intros Q; apply (Nd _ Q); left).
    replace (replicate sp 32 ++ ((repr (VStr s) ++ 58 :: replicate n 32 ++ repr (elementary v) ++ [44]) ++ concat es) ++ [32; 125]) with (replicate sp 32 ++ repr (VStr s) ++ 58 :: replicate n 32 ++ repr (elementary v) ++ (44 :: replicate 0 32 ++ concat es ++ [32; 125]))
      by (rewrite <- !app_assoc; cbn [app replicate]; rewrite <- !app_assoc; done).
    rewrite (items_step printable fread fuel acc sp n _ _ (VStr s) (elementary v)); [|by apply (literal_repr printable fshow fread (VStr s))|by apply literal_repr|cbn; tauto]. rewrite skip_id by done. rewrite put_new by done. rewrite IH; [|done|done|lia]. rewrite <- app_assoc. done.
Qed.
Lemma decode_all_stored d : good d -> decode_all (stored d) = d.
Proof.
  induction 1 as [|[k v] d Hv _ IH]; [done|]. unfold decode_all, stored in *. cbn [fmap list_fmap fst snd] in *. rewrite IH. destruct v; try done. cbn [elementary]. by rewrite b64_roundtrip.
Qed.
Lemma freezable_good d : Forall (fun kv => freezable kv.1 /\ freezable kv.2 /\ exists s, kv.1 = VStr s) d -> good d.
Proof. intros H. eapply Forall_impl; [exact H|]. intros [k v] (_ & Hv & _). cbn in *. by destruct v. Qed.
Lemma quote_concat es qs : Forall2 (fun e q => quote safe e = Some q) es qs -> quote safe (concat es) = Some (concat qs).
Proof. induction 1 as [|e q es qs H _ IH]; [done|]. cbn [concat]. by rewrite quote_app, H, IH. Qed.
Lemma entry_no_zero n k v : freezable v -> freezable k -> (exists s, k = VStr s) -> 0 ∉ entry n k v.
Proof.
  intros Hv Hk (s & ->). unfold entry. rewrite elem_of_app, elem_of_cons, !elem_of_app, elem_of_list_singleton. intros [H|[H|[H|[H|H]]]]; [|done| | |done].
  - by apply (repr_no_zero printable fshow fread (VStr s)) in H; [| |apply (literal_repr printable fshow fread (VStr s))].
  - apply elem_of_replicate in H as [? _]. done.
  - apply (repr_no_zero printable fshow fread) in H; [done| |by apply literal_repr]. apply stored_storable. by destruct v.
Qed.
Lemma concat_length (es : list text) : Forall (fun e => e <> []) es -> (length es <= length (concat es))%nat.
Proof. induction 1 as [|e es He _ IH]; [done|]. cbn [concat length]. rewrite app_length. destruct e; [done|]. cbn. lia. Qed.

(** What was accepted for upload is what is extracted afterwards. *)
Theorem headers_roundtrip cs d ps m : (0 < cs)%nat -> Forall (fun kv => freezable kv.1 /\ freezable kv.2) d -> NoDup d.*1 -> Forall (passes cs) d -> add_meta cs d = Added ps m -> extract (strip <$> ps) m = Extracted d.
Proof.
  intros Hc Hf Nd Hp E. unfold HeaderModel.add_meta in E. destruct (add_loop cs d [] 0) as [ps0 m0| | | |] eqn:El; try done. destruct (md5 d) as [m1|] eqn:Em; [|done]. injection E as <- <-. apply add_loop_spec in El as [-> Hb]. cbn [app].
  assert (Forall (fun kv => freezable kv.1 /\ freezable kv.2 /\ exists s, kv.1 = VStr s) d) as Hs. { apply Forall_forall. intros kv Hkv. rewrite Forall_forall in Hf, Hb. destruct (Hf _ Hkv), (Hb _ Hkv) as [? _]. auto. }
  assert (exists es, Forall2 (fun kv e => exists n, e = entry n kv.1 kv.2) d es /\ quote safe (concat es) = Some (concat (strip <$> partsof cs d))) as (es & H2 & Hq).
  { clear Em Nd Hf. induction d as [|[k v] d IH]; [by exists []|]. apply Forall_cons in Hp as [Hp1 Hp]. apply Forall_cons in Hb as [[Hs1 (buf & Ebuf)] Hb]. apply Forall_cons in Hs as [(F1 & F2 & _) Hs]. cbn [fst snd] in *. destruct (IH Hp Hb Hs) as (es & H2 & Hq). destruct (part_arrives cs k v buf) as (n & Hn); try done.
    exists (entry n k v :: es). split; [constructor; [by exists n|done]|]. cbn [concat]. rewrite quote_app, Hn, Hq. unfold partsof. cbn [fmap list_fmap mjoin list_join fst snd]. rewrite Ebuf. cbn [mbind option_bind]. rewrite fmap_app, concat_app. done. }
  unfold HeaderModel.extract. rewrite (quote_roundtrip safe (concat es)) by done. cbv zeta.
  assert (literal_eval fread ([123; 32] ++ concat es ++ [32; 125]) = Mapping (stored d)) as ->; [|rewrite decode_all_stored by (by apply freezable_good); by rewrite decide_True by done].
  assert (length es = length d) as L by (symmetry; by eapply Forall2_length). unfold literal_eval. rewrite bool_decide_false.
  2: { rewrite !elem_of_app, !elem_of_cons, !elem_of_nil. intros [[?|[?|[]]]|[H|[?|[?|[]]]]]; try done. apply elem_of_list_In, in_concat in H as (e & He%elem_of_list_In & H%elem_of_list_In). apply elem_of_list_lookup in He as (i & Hi). destruct (Forall2_lookup_r _ _ _ _ _ H2 Hi) as ([k v] & Hkv & n & ->). apply elem_of_list_lookup_2 in Hkv. rewrite Forall_forall in Hs. destruct (Hs _ Hkv) as (? & ? & ?). by apply entry_no_zero in H. }
  cbn [app]. rewrite skip_id by done. change (32 :: concat es ++ [32; 125]) with (replicate 1 32 ++ concat es ++ [32; 125]). rewrite (items_entries d es []); [done|done|done|done|].
  assert (length es <= length (concat es))%nat. { apply concat_length. apply Forall_forall. intros e (i & Hi)%elem_of_list_lookup. destruct (Forall2_lookup_r _ _ _ _ _ H2 Hi) as ([k v] & _ & n & ->). unfold entry. intros E%(f_equal length). rewrite app_length in E. cbn in E. lia. }
  rewrite !app_length. cbn [length replicate]. lia.
Qed.
(** In particular for everything without spaces, as s3ql itself stores: names of algorithms, object names, bytes and numbers *)
Corollary headers_roundtrip_plain cs d ps m : (0 < cs)%nat -> Forall (fun kv => freezable kv.1 /\ freezable kv.2) d -> NoDup d.*1 -> Forall (fun kv => no_space kv.1 /\ no_space kv.2) d -> add_meta cs d = Added ps m -> extract (strip <$> ps) m = Extracted d.
Proof. intros Hc Hf Nd Hp. apply headers_roundtrip; [done..|]. eapply Forall_impl; [exact Hp|]. intros kv H. by left. Qed.

(** What is extracted, whatever was received, has the checksum that came with it. *)
Theorem extract_checked ps m d : extract ps m = Extracted d -> md5 d = Some m.
Proof. unfold HeaderModel.extract. cbv zeta. destruct (literal_eval _ _) as [d0| |]; try done. case_decide; [|done]. by intros [= <-]. Qed.

(** Limits: no header longer than the chunk size, 2048 characters in all; with these, the assertion about the number of headers cannot fail. *)
Theorem headers_small cs d ps m : add_meta cs d = Added ps m -> Forall (fun p => (length p <= cs)%nat) ps /\ (sum_list ((fun p => 4 + length p)%nat <$> ps) <= 2048)%nat.
Proof.
  unfold HeaderModel.add_meta. destruct (add_loop cs d [] 0) as [ps0 m0| | | |] eqn:El; try done. destruct (md5 d); [|done]. intros [= <- <-].
  assert (forall d ps len, add_loop cs d ps len = Added ps0 m0 -> (len = sum_list ((fun p => 4 + length p)%nat <$> ps) /\ len <= 2048)%nat -> Forall (fun p => (length p <= cs)%nat) ps -> Forall (fun p => (length p <= cs)%nat) ps0 /\ (sum_list ((fun p => 4 + length p)%nat <$> ps0) <= 2048)%nat) as K; [|by eapply K; [exact El|cbn; lia|constructor]].
  clear. intros d. induction d as [|[k v] d IH]; intros ps len E [-> L] Hs; cbn [HeaderModel.add_loop] in E.
  - case_decide; [|done]. by injection E as <- <-.
  - destruct k as [s| | | | |]; try done. destruct (part _ v) as [buf|]; [|done]. cbv zeta in E. case_decide as D; [done|]. eapply IH; [exact E|split; [|lia]|apply Forall_app; split; [done|apply parts_small]]. by rewrite fmap_app, sum_list_app.
Qed.
Theorem headers_count cs d : add_meta cs d <> AssertionError.
Proof.
  unfold HeaderModel.add_meta. destruct (add_loop cs d [] 0) as [ps0 m0| | | |] eqn:El; [by destruct (md5 d)|done|done| |done]. exfalso. revert El.
  assert (forall d ps len, (len = sum_list ((fun p => 4 + length p)%nat <$> ps) /\ len <= 2048)%nat -> add_loop cs d ps len <> AssertionError) as K; [|apply K; cbn; lia].
  clear. intros d. induction d as [|[k v] d IH]; intros ps len [-> L]; cbn [HeaderModel.add_loop].
  - case_decide as D; [done|]. exfalso. apply D. assert (4 * length ps <= sum_list ((fun p => 4 + length p)%nat <$> ps))%nat; [|lia]. clear. induction ps as [|p ps IH]; cbn [length fmap list_fmap sum_list sum_list_with]; [lia|]. cbn in *. lia.
  - destruct k as [s| | | | |]; try done. destruct (part _ v) as [buf|]; [|done]. cbv zeta. case_decide as D; [done|]. apply IH. split; [|lia]. by rewrite fmap_app, sum_list_app.
Qed.
End header.

(** * What goes wrong *)
(** A string with a space at the end of a part is accepted, and is lost. *)
Definition m0 (d : list (@value unit * @value unit)) : option text := Some (match d with [(_, VStr s)] => s | _ => [] end).
Definition long : @value unit := VStr (replicate 248 97 ++ [32] ++ replicate 20 98).
Theorem headers_space_refuted : ~ forall (d : list (@value unit * @value unit)) ps m, Forall (fun kv => freezable (fun _ => []) (fun _ => None) kv.1 /\ freezable (fun _ => []) (fun _ => None) kv.2) d -> NoDup d.*1 ->
  add_meta (fun _ => false) (fun _ => []) m0 255 d = Added ps m -> extract (fun _ => None) m0 (fun l => l) (strip <$> ps) m = Extracted d.
Proof.
  intros Q. set (d := [(@VStr unit [107], long)]). assert (exists ps m, add_meta (fun _ => false) (fun _ => []) m0 255 d = Added ps m /\ extract (fun _ => None) m0 (fun l => l) (strip <$> ps) m = BadDigest) as (ps & m & E1 & E2). { do 2 eexists. split; [vm_compute; reflexivity|]. vm_compute. reflexivity. }
  rewrite (Q d ps m) in E2; [done| | |done].
  - constructor; [|constructor]. cbn [fst snd freezable]. split; [repeat constructor|]. apply Forall_app. split; [apply Forall_replicate; done|]. apply Forall_app. split; [by repeat constructor|apply Forall_replicate; done].
  - apply NoDup_singleton.
Qed.
(** Infinity is accepted, and cannot be read: its representation is no literal. *)
Theorem headers_inf_refuted : ~ forall (d : list (@value unit * @value unit)) ps m, NoDup d.*1 -> Forall (fun kv => no_space kv.1 /\ no_space kv.2) d ->
  add_meta (fun _ => false) (fun _ => [105; 110; 102]) m0 255 d = Added ps m -> extract (fun _ => None) m0 (fun l => l) (strip <$> ps) m <> Unreadable.
Proof.
  intros Q. eapply (Q [(VStr [107], VFloat tt)]); [apply NoDup_singleton| |vm_compute; reflexivity|vm_compute; reflexivity]. constructor; [|constructor]. cbn. split; [|done]. rewrite elem_of_list_singleton. done.
Qed.
(** A mapping that takes several headers: bytes, a quote, a percent sign, characters beyond ASCII, spaces inside *)
Definition sample : list (@value unit * @value unit) := [(VStr [97; 39; 37; 955], VBytes (replicate 40 200)); (VStr [98; 32; 99], VInt (-5)); (VStr [99], VStr (replicate 30 228))].
Definition is_sample (r : @extracted unit) : bool := match r with Extracted d => bool_decide (d = sample) | _ => false end.
Example headers_sample : match add_meta (fun c => bool_decide (c = 228)) (fun _ => []) m0 100 sample with Added ps m => length ps = 4%nat /\ is_sample (extract (fun _ => None) m0 (fun l => l) (strip <$> ps) m) = true | _ => False end.
Proof. vm_compute. done. Qed.
Print Assumptions headers_roundtrip. Print Assumptions headers_roundtrip_plain. Print Assumptions extract_checked. Print Assumptions headers_small. Print Assumptions headers_count. Print Assumptions headers_space_refuted. Print Assumptions headers_inf_refuted.
