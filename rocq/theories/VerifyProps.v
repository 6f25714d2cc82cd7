(** s3ql_verify (C50). *)
From stdpp Require Import prelude gmap relations.
From Coq.Strings Require Import Byte.
From Coq Require Import String.
From Verif Require Import Decimal Bytes ComprencModel ComprencSpec ComprencProofs ComprencProps SetupModel SetupProps VerifyModel.
Local Close Scope string_scope.
Local Close Scope N_scope.
Local Open Scope nat_scope.
Local Open Scope list_scope.

Lemma byte_of_digit_inj a b : 48 <= a <= 57 -> 48 <= b <= 57 -> byte_of (N.of_nat a) = byte_of (N.of_nat b) -> a = b.
Proof.
  intros Ha Hb. assert (forall c, 48 <= c <= 57 -> c = 48 \/ c = 49 \/ c = 50 \/ c = 51 \/ c = 52 \/ c = 53 \/ c = 54 \/ c = 55 \/ c = 56 \/ c = 57) as H by lia.
  apply H in Ha. apply H in Hb. destruct Ha as [->|[->|[->|[->|[->|[->|[->|[->|[->| ->]]]]]]]]], Hb as [->|[->|[->|[->|[->|[->|[->|[->|[->| ->]]]]]]]]]; done.
Qed.
(** Objects have different names. *)
Theorem data_name_inj a b : data_name a = data_name b -> a = b.
Proof.
  unfold data_name. intros H%(inj (app _)). apply dec_inj. revert H. pose proof (dec_digits a) as Ha. pose proof (dec_digits b) as Hb.
  revert Ha Hb. generalize (dec a) (dec b). clear. intros l. induction l as [|x l IH]; intros [|y m] Ha Hb H; try done.
  rewrite !fmap_cons in H. injection H as E H. f_equal; [apply byte_of_digit_inj; [apply Ha|apply Hb|done]; left|].
  apply IH; [intros c Hc; apply Ha; by right|intros c Hc; apply Hb; by right|done].
Qed.

(** Specification. What is verified: all rows after the first [offset]. *)
Definition row_obj (r : row) : option obj := match r_hash r with Some h => Some (Obj (r_id r) h (r_len r)) | None => None end.
Definition selected (offset : Z) (rows : list row) : list obj := omap row_obj (drop (Z.to_nat offset) rows).
(** A failed upload has left a row without hash. *)
Definition no_hash (rows : list row) : Prop := exists r, r ∈ rows /\ r_hash r = None.

Lemma iter_objects_spec offset i rows :
  ((iter_objects offset i rows).2 = false <-> ~ no_hash rows) /\
  (~ no_hash rows -> (iter_objects offset i rows).1 = omap row_obj (drop (Z.to_nat (offset + 1 - Z.of_nat i)) rows)).
Proof.
  revert i. induction rows as [|[id h len] rows IH]; intros i; cbn [iter_objects].
  { split; [|intros _; cbn; by rewrite drop_nil]. split; [|done]. intros _ (r & ?%elem_of_nil & _). done. }
  destruct (IH (S i)) as [H1 H2]. destruct h as [h|].
  - assert (no_hash (Row id (Some h) len :: rows) <-> no_hash rows) as E.
    { split; intros (r & Hr & F); [apply elem_of_cons in Hr as [->|Hr]; [done|by exists r]|exists r; split; [by right|done]]. }
    destruct (iter_objects offset (S i) rows) as [l e]. cbn [fst snd] in H1, H2.
    split; [case_decide; cbn [snd]; by rewrite E, H1|]. rewrite E. intros Hn. specialize (H2 Hn). case_decide as D; cbn [fst]; rewrite H2.
    + replace (Z.to_nat (offset + 1 - Z.of_nat i)) with (S (Z.to_nat (offset + 1 - Z.of_nat (S i)))) by lia. done.
    + replace (Z.to_nat (offset + 1 - Z.of_nat i)) with 0 by lia. replace (Z.to_nat (offset + 1 - Z.of_nat (S i))) with 0 by lia. done.
  - assert (no_hash (Row id None len :: rows)) as Hn by (eexists; split; [left|done]). split; [|done]. cbn. split; [done|]. by intros [].
Qed.
Lemma iter_objects_sub offset i rows o : o ∈ (iter_objects offset i rows).1 -> exists r, r ∈ rows /\ row_obj r = Some o.
Proof.
  revert i. induction rows as [|[id h len] rows IH]; intros i; cbn [iter_objects]; [by intros ?%elem_of_nil|].
  destruct h as [h|]; [|by intros ?%elem_of_nil]. specialize (IH (S i)). destruct (iter_objects offset (S i) rows) as [l e]. cbn [fst] in *.
  case_decide; cbn [fst].
  - intros (r & Hr & E)%IH. exists r. split; [by right|done].
  - intros [->|(r & Hr & E)%IH]%elem_of_cons; [eexists; split; [left|done]|]. exists r. split; [by right|done].
Qed.

Section props.
Context (bufsize : nat) (cdec : bytes -> nat -> byte -> byte) (sha256 : bytes -> bytes) (hmac : bytes -> bytes -> bytes).
Context (decomp : algorithm -> list bytes -> option (bytes * bool * bytes)) (thaw : bytes -> option mapping).
Context (p : option bytes) (st : storage).
Notation fetch := (fetch bufsize cdec sha256 hmac decomp thaw p).
Notation consume := (consume bufsize cdec sha256 hmac decomp thaw p st).
Notation step := (step bufsize cdec sha256 hmac decomp thaw p st).

Definition result_of (full : bool) (o : obj) : outcome := (consume full [] [] o).1.
(** The buffer left by the previous object does not matter. *)
Lemma consume_result full b junk o : (consume full b junk o).1 = result_of full o.
Proof.
  unfold result_of, VerifyModel.consume. destruct (st !! _) as [[m d]|]; [|done]. destruct full; [|by destruct (lookup _ _ _ _ _ _ _)].
  destruct (readinto_fh _ _ _ _ _ _ _ _ _ _) as [[r out]| | |]; try done. rewrite !take_app. by repeat case_decide.
Qed.

Definition busy (ws : list worker) : list obj := omap (fun w => match w with Busy _ o => Some o | Idle _ => None end) ws.
Lemma busy_app a b : busy (a ++ b) = busy a ++ busy b.
Proof. apply omap_app. Qed.
Definition names (full : bool) (r : outcome) (l : list obj) : list bytes := (fun o => data_name (o_id o)) <$> filter (fun o => result_of full o = r) l.
Lemma names_snoc full r l o : names full r (l ++ [o]) = names full r l ++ (if decide (result_of full o = r) then [data_name (o_id o)] else []).
Proof. unfold names. rewrite filter_app, fmap_app. f_equal. rewrite filter_cons. by case_decide. Qed.

(** [l]: the objects checked so far, in this order. *)
Record inv (full : bool) (jobs : list obj) (e : bool) (s : vstate) (l : list obj) : Prop := {
  i_jobs : l ++ busy (workers s) ++ chan s ++ todo s ≡ₚ jobs;
  i_missing : missing s = names full IsMissing l;
  i_corrupted : corrupted s = names full IsCorrupted l;
  i_raises : raises s = e;
  i_failed : failed s = true -> e = true \/ exists o, o ∈ l /\ result_of full o = Abort;
  i_abort : failed s = false -> forall o, o ∈ l -> result_of full o <> Abort }.

Lemma step_inv full cap jobs e s s' l : step full cap s s' -> inv full jobs e s l -> exists l', inv full jobs e s' l'.
Proof.
  intros H [Hj Hm Hc Hr Hf Ha]. destruct H as [o l0 e0 ch ws m c Hcap|ch ws m c|l0 e0 o ch ws1 ws2 b m c|l0 e0 ch ws1 ws2 b o junk r b' m c Hr0]; cbn [missing corrupted raises workers chan todo failed] in *.
  - exists l. split; try done. cbn [workers chan todo]. by rewrite <- Hj, <- app_assoc.
  - exists l. split; try done. intros _. by left.
  - exists l. split; try done. cbn [workers chan todo]. rewrite <- Hj, !busy_app. cbn [busy omap list_omap]. f_equiv.
    rewrite <- !app_assoc. f_equiv. cbn [app]. by rewrite Permutation_middle.
  - assert (r = result_of full o) as Er by (rewrite <- (consume_result full b junk o), Hr0; done).
    exists (l ++ [o]). split; cbn [missing corrupted raises workers chan todo failed].
    + rewrite <- Hj, !busy_app. cbn [busy omap list_omap]. rewrite <- !app_assoc. cbn [app]. f_equiv. by rewrite Permutation_middle.
    + rewrite names_snoc, <- Hm, Er. case_decide; [done|by rewrite app_nil_r].
    + rewrite names_snoc, <- Hc, Er. case_decide; [done|by rewrite app_nil_r].
    + done.
    + intros F%bool_decide_eq_true. right. exists o. split; [apply elem_of_app; right; left|]. by rewrite <- Er.
    + intros F%bool_decide_eq_false. intros o' [Ho|Ho]%elem_of_app; [by apply Ha|]. apply elem_of_list_singleton in Ho as ->. by rewrite <- Er.
Qed.
Lemma run_inv full cap offset rows n s : rtc (step full cap) (init offset rows n) s ->
  exists l, inv full (iter_objects offset 1 rows).1 (iter_objects offset 1 rows).2 s l.
Proof.
  assert (forall s, rtc (step full cap) s s -> True) as _ by done.
  assert (exists l, inv full (iter_objects offset 1 rows).1 (iter_objects offset 1 rows).2 (init offset rows n) l) as H0.
  { exists []. unfold init. destruct (iter_objects offset 1 rows) as [l e]. split; cbn [missing corrupted raises workers chan todo failed fst snd]; try done.
    - assert (busy (replicate n (Idle [])) = []) as ->; [|done]. induction n as [|n IH]; [done|]. cbn. exact IH.
    - intros _ o ?%elem_of_nil. done. }
  intros Hr. induction Hr as [s|s1 s2 s3 Hs _ IH]; [done|]. destruct H0 as [l0 H0]. destruct (step_inv _ _ _ _ _ _ _ Hs H0) as [l1 H1]. by apply IH; exists l1.
Qed.

(** A completed run reports every object exactly once, whatever the order of the workers. *)
Lemma run_complete full cap offset rows n s : rtc (step full cap) (init offset rows n) s -> finished s ->
  missing s ≡ₚ names full IsMissing (selected offset rows) /\ corrupted s ≡ₚ names full IsCorrupted (selected offset rows) /\
  (forall o, o ∈ selected offset rows -> result_of full o <> Abort) /\ ~ no_hash rows.
Proof.
  intros Hr (Hf & Ht & He & Hch & Hw). destruct (run_inv _ _ _ _ _ _ Hr) as [l [Hj Hm Hc Hra _ Ha]].
  destruct (iter_objects_spec offset 1 rows) as [H1 H2]. rewrite <- Hra, He in H1. assert (~ no_hash rows) as Hn by by apply H1.
  specialize (H2 Hn). replace (offset + 1 - Z.of_nat 1)%Z with offset in H2 by lia. fold (selected offset rows) in H2. rewrite H2, Ht, Hch in Hj.
  assert (busy (workers s) = []) as Hb. { clear -Hw. induction Hw as [|w ws [b ->] _ IH]; [done|]. cbn. exact IH. }
  rewrite Hb in Hj. rewrite !app_nil_r in Hj.
  assert (forall r, names full r l ≡ₚ names full r (selected offset rows)) as E.
  { intros r. unfold names. apply Permutation_map. by rewrite Hj. }
  rewrite Hm, Hc. split_and!; [apply E..| |done]. intros o Ho. apply Ha; [done|]. by rewrite Hj.
Qed.

Lemma elem_of_names full r l o : NoDup (o_id <$> l) -> o ∈ l -> data_name (o_id o) ∈ names full r l <-> result_of full o = r.
Proof.
  intros Hd Ho. unfold names. rewrite elem_of_list_fmap. split.
  - intros (o' & E & [Hr Ho']%elem_of_list_filter). apply data_name_inj in E. replace o with o'; [done|]. clear Hr.
    apply elem_of_list_lookup in Ho as [i Hi]. apply elem_of_list_lookup in Ho' as [j Hj].
    assert (i = j) as ->. { eapply (NoDup_lookup (o_id <$> l)); [done|by rewrite list_lookup_fmap, Hi|by rewrite list_lookup_fmap, Hj, E]. } congruence.
  - intros Hr. exists o. split; [done|]. by apply elem_of_list_filter.
Qed.
Lemma NoDup_names full r l : NoDup (o_id <$> l) -> NoDup (names full r l).
Proof.
  unfold names. induction l as [|o l IH]; [constructor|]. rewrite fmap_cons, NoDup_cons, filter_cons. intros [Hn Hd]. case_decide; [|by apply IH].
  rewrite fmap_cons. apply NoDup_cons. split; [|by apply IH]. intros (o' & E & [_ Ho]%elem_of_list_filter)%elem_of_list_fmap. apply data_name_inj in E.
  apply Hn. rewrite E. by apply elem_of_list_fmap_1.
Qed.
Lemma selected_ids offset rows : NoDup (r_id <$> rows) -> NoDup (o_id <$> selected offset rows).
Proof.
  intros Hd. unfold selected. assert (NoDup (r_id <$> drop (Z.to_nat offset) rows)) as H.
  { rewrite <- (take_drop (Z.to_nat offset) rows), fmap_app, NoDup_app in Hd. apply Hd. }
  revert H. generalize (drop (Z.to_nat offset) rows). clear Hd. intros l. induction l as [|[id h len] l IH]; [constructor|].
  rewrite fmap_cons, NoDup_cons. intros [Hn Hd]. destruct h as [h|]; cbn; [|by apply IH]. apply NoDup_cons. split; [|by apply IH].
  intros (o & E & Ho)%elem_of_list_fmap. apply Hn. apply elem_of_list_omap in Ho as ([id' h' len'] & Hr & E'). cbn in E'. destruct h'; [|done]. injection E' as <-. cbn in E. subst. by apply (elem_of_list_fmap_1 r_id _ _ Hr).
Qed.

(** C50. With --data: a completed run lists an object as missing exactly if the storage does not hold it, and as corrupted exactly if
    the storage holds it but does not deliver the content that was stored ([orig]); nothing is listed twice, and nothing else is
    listed. The hash need only distinguish the original content from one of the same length that is delivered. *)
Theorem verify_data_exact cap offset rows n s (orig : nat -> bytes) : rtc (step true cap) (init offset rows n) s -> finished s ->
  NoDup (r_id <$> rows) ->
  (forall r, r ∈ rows -> r_hash r = Some (sha256 (orig (r_id r))) /\ r_len r = List.length (orig (r_id r))) ->
  (forall r mt c, r ∈ rows -> fetch (data_name (r_id r)) st = Some (Ok (mt, c)) -> List.length c = r_len r -> sha256 c = sha256 (orig (r_id r)) -> c = orig (r_id r)) ->
  NoDup (missing s) /\ NoDup (corrupted s) /\
  (forall k, k ∈ missing s -> exists r, r ∈ drop (Z.to_nat offset) rows /\ k = data_name (r_id r)) /\
  (forall k, k ∈ corrupted s -> exists r, r ∈ drop (Z.to_nat offset) rows /\ k = data_name (r_id r)) /\
  forall r, r ∈ drop (Z.to_nat offset) rows ->
    (data_name (r_id r) ∈ missing s <-> st !! data_name (r_id r) = None) /\
    (data_name (r_id r) ∈ corrupted s <->
       is_Some (st !! data_name (r_id r)) /\ forall mt, fetch (data_name (r_id r)) st <> Some (Ok (mt, orig (r_id r)))).
Proof.
  intros Hr Hfin Hd Ho Hcol. destruct (run_complete _ _ _ _ _ _ Hr Hfin) as (Hm & Hc & Ha & _). pose proof (selected_ids offset rows Hd) as Hs.
  rewrite Hm, Hc. split; [by apply NoDup_names|]. split; [by apply NoDup_names|].
  assert (forall res k, k ∈ names true res (selected offset rows) -> exists r, r ∈ drop (Z.to_nat offset) rows /\ k = data_name (r_id r)) as Hsub.
  { intros res k. unfold names. rewrite elem_of_list_fmap. intros (o & -> & [_ Ho']%elem_of_list_filter). apply elem_of_list_omap in Ho' as (r & Hr' & E).
    exists r. split; [done|]. unfold row_obj in E. destruct (r_hash r); [|done]. by injection E as <-. }
  split; [intros k; rewrite Hm; apply Hsub|]. split; [intros k; rewrite Hc; apply Hsub|]. intros r Hin.
  assert (r ∈ rows) as Hin'. { rewrite <- (take_drop (Z.to_nat offset) rows). apply elem_of_app. by right. }
  destruct (Ho r Hin') as [Eh El]. pose (o := Obj (r_id r) (sha256 (orig (r_id r))) (List.length (orig (r_id r)))).
  assert (o ∈ selected offset rows) as Hos. { apply elem_of_list_omap. exists r. split; [done|]. unfold row_obj. by rewrite Eh, El. }
  rewrite Hm, Hc. change (data_name (r_id r)) with (data_name (o_id o)). rewrite !elem_of_names by done.
  specialize (Ha o Hos). revert Ha. specialize (Hcol r). unfold result_of, VerifyModel.consume, SetupModel.fetch in *. cbn [o o_id o_hash o_len] in *.
  destruct (st !! data_name (r_id r)) as [[m d]|]; cbn [fst]; [|intros _; split; [done|]; split; [done|]; by intros [[? [=]] _]].
  destruct (readinto_fh _ _ _ _ _ _ _ _ _ _) as [[mt out]| | |]; cbn [fst]; try done.
  - intros _. split; [split; [|done]; by repeat case_decide|]. rewrite take_app. case_decide as D1; cbn [fst].
    + split; [|done]. intros _. split; [done|]. intros mt'. intros [= -> ->]. done.
    + case_decide as D2; cbn [fst].
      * split; [|done]. intros _. split; [done|]. intros mt'. intros [= -> ->]. done.
      * split; [done|]. intros [_ H]. exfalso. apply (H mt). rewrite (Hcol mt out); try done. rewrite El. destruct (decide (List.length out = List.length (orig (r_id r)))); congruence.
Qed.

(** Without --data, only the metadata is looked at: missing objects are listed exactly, and corrupted ones exactly if the metadata does
    not verify. *)
Theorem verify_metadata_exact cap offset rows n s : rtc (step false cap) (init offset rows n) s -> finished s ->
  NoDup (r_id <$> rows) ->
  NoDup (missing s) /\ NoDup (corrupted s) /\
  forall r, r ∈ drop (Z.to_nat offset) rows ->
    (data_name (r_id r) ∈ missing s <-> st !! data_name (r_id r) = None) /\
    (data_name (r_id r) ∈ corrupted s <->
       exists m d, st !! data_name (r_id r) = Some (m, d) /\ lookup cdec sha256 hmac thaw p (data_name (r_id r)) m = Corrupted).
Proof.
  intros Hr Hfin Hd. destruct (run_complete _ _ _ _ _ _ Hr Hfin) as (Hm & Hc & Ha & Hn). pose proof (selected_ids offset rows Hd) as Hs.
  rewrite Hm, Hc. split; [by apply NoDup_names|]. split; [by apply NoDup_names|]. intros r Hin.
  destruct (r_hash r) as [h|] eqn:Eh.
  2: { exfalso. apply Hn. exists r. split; [|done]. rewrite <- (take_drop (Z.to_nat offset) rows). apply elem_of_app. by right. }
  pose (o := Obj (r_id r) h (r_len r)).
  assert (o ∈ selected offset rows) as Hos. { apply elem_of_list_omap. exists r. split; [done|]. unfold row_obj. by rewrite Eh. }
  rewrite Hm, Hc. change (data_name (r_id r)) with (data_name (o_id o)). rewrite !elem_of_names by done.
  unfold result_of, VerifyModel.consume. cbn [o o_id]. destruct (st !! data_name (r_id r)) as [[m d]|]; cbn [fst].
  - destruct (lookup _ _ _ _ _ _ _) eqn:El; cbn [fst]; (split; [done|]); try (split; [done|intros (m' & d' & [= <- <-] & F); by rewrite El in F]).
    split; [|done]. intros _. by exists m, d.
  - split; [done|]. split; [done|]. by intros (m' & d' & [=] & _).
Qed.

(** An object that is as it was written is not reported, with or without --data. *)
Theorem verify_intact cenc comp freeze full cap offset rows n s r w : rtc (step full cap) (init offset rows n) s -> finished s -> NoDup (r_id <$> rows) ->
  0 < bufsize -> (N.of_nat bufsize < 4294967296)%N -> cipher_ok cenc cdec -> hmac_ok hmac -> compressor_ok comp decomp ->
  freeze_ok freeze thaw ((str "__size", VInt (Z.of_nat (w_len w))) :: w_meta w) -> w_now w <> [] ->
  r ∈ rows -> w_key w = data_name (r_id r) -> stored bufsize cenc sha256 hmac comp freeze p w = st !! data_name (r_id r) -> is_Some (st !! data_name (r_id r)) ->
  r_hash r = Some (sha256 (w_content w)) -> r_len r = List.length (w_content w) ->
  data_name (r_id r) ∉ missing s /\ data_name (r_id r) ∉ corrupted s.
Proof.
  intros Hr Hfin Hd Hb1 Hb2 Hci Hh Hco Hfz Hnow Hin Hk Hst [[m d] Hsome] Eh El. destruct (run_complete _ _ _ _ _ _ Hr Hfin) as (Hm & Hc & _ & _).
  rewrite Hsome in Hst. destruct (stored_is_read_back bufsize cenc cdec sha256 hmac comp decomp freeze thaw p w m d Hb1 Hb2 Hci Hh Hco Hfz Hnow Hst) as [H1 H2]. rewrite Hk in H1, H2.
  assert (forall res, res <> Fine -> data_name (r_id r) ∉ names full res (selected offset rows)) as H.
  { intros res Hres. unfold names. rewrite elem_of_list_fmap. intros (o & E & [Ho Hs]%elem_of_list_filter). apply data_name_inj in E.
    apply elem_of_list_omap in Hs as (r' & Hr' & E'). assert (r' ∈ rows) as Hin'. { rewrite <- (take_drop (Z.to_nat offset) rows). apply elem_of_app. by right. }
    assert (r' = r) as ->.
    { unfold row_obj in E'. destruct (r_hash r') eqn:E2; [|done]. injection E' as <-. cbn in E. apply elem_of_list_lookup in Hin as [i Hi]. apply elem_of_list_lookup in Hin' as [j Hj].
      assert (i = j) as ->. { eapply (NoDup_lookup (r_id <$> rows)); [done|by rewrite list_lookup_fmap, Hi|by rewrite list_lookup_fmap, Hj; cbn; rewrite E]. } congruence. }
    unfold row_obj in E'. rewrite Eh in E'. injection E' as <-. apply Hres. rewrite <- Ho. unfold result_of, VerifyModel.consume. cbn [o_id o_len o_hash]. rewrite Hsome, H1, H2.
    destruct full; [|done]. rewrite take_app, decide_False by (rewrite El; tauto). by rewrite decide_False by tauto. }
  rewrite Hm, Hc. split; by apply H.
Qed.

(** The run stops after at most three steps for every object, and it does not get stuck before it has completed or failed. *)
Definition weight (s : vstate) : nat := 3 * List.length (todo s) + 2 * List.length (chan s) + List.length (busy (workers s)) + (if failed s then 0 else 1).
Lemma step_weight full cap s s' : step full cap s s' -> weight s' < weight s.
Proof.
  unfold weight. intros [o l e ch ws m c Hcap|ch ws m c|l e o ch ws1 ws2 b m c|l e ch ws1 ws2 b o junk r b' m c Hr];
    cbn [missing corrupted raises workers chan todo failed]; rewrite ?busy_app; cbn [busy omap list_omap List.length]; rewrite ?app_length; cbn [List.length]; try lia.
  destruct (bool_decide _); lia.
Qed.
Theorem verify_terminates full cap offset rows n s k : nsteps (step full cap) k (init offset rows n) s -> k <= 3 * List.length rows + 1.
Proof.
  intros H. assert (k + weight s <= weight (init offset rows n)) as Hw.
  { induction H as [|k s1 s2 s3 Hs _ IH]; [lia|]. apply step_weight in Hs. lia. }
  enough (weight (init offset rows n) <= 3 * List.length rows + 1) by lia.
  assert (List.length (iter_objects offset 1 rows).1 <= List.length rows) as Hl.
  { generalize 1. clear. induction rows as [|[id h len] rows IH]; intros i; cbn [iter_objects List.length]; [cbn; lia|]. destruct h; [|cbn; lia].
    specialize (IH (S i)). destruct (iter_objects offset (S i) rows). cbn in IH. case_decide; cbn; lia. }
  unfold init. destruct (iter_objects offset 1 rows) as [l e]. unfold weight. cbn [missing corrupted raises workers chan todo failed fst] in *.
  assert (busy (replicate n (Idle [])) = []) as ->; [|cbn; lia]. clear. induction n as [|n IH]; [done|]. cbn. exact IH.
Qed.
Lemma step_workers full cap s s' : step full cap s s' -> List.length (workers s') = List.length (workers s).
Proof. intros []; cbn; by rewrite ?app_length. Qed.
Theorem verify_progress full cap offset rows n s : 0 < n -> 0 < cap -> rtc (step full cap) (init offset rows n) s ->
  finished s \/ failed s = true \/ exists s', step full cap s s'.
Proof.
  intros Hn Hcap Hr. assert (List.length (workers s) = n) as Hw.
  { assert (List.length (workers (init offset rows n)) = n) as H0. { unfold init. destruct (iter_objects _ _ _). cbn. by rewrite replicate_length. }
    revert H0. induction Hr as [|s1 s2 s3 Hs _ IH]; [done|]. intros H0. apply IH. by rewrite (step_workers _ _ _ _ Hs). }
  destruct s as [l e ch ws m c []]; [by right; left|]. cbn in Hw. destruct (busy ws) as [|o bs] eqn:Eb.
  - destruct ch as [|o ch].
    + destruct l as [|o l].
      * destruct e; [right; right; eexists; constructor|]. left. split_and!; try done. cbn. apply Forall_forall. intros w Hin. destruct w as [b|b o]; [by exists b|].
        assert (o ∈ busy ws) as F by (apply elem_of_list_omap; by exists (Busy b o)). rewrite Eb in F. by apply elem_of_nil in F.
      * right. right. eexists. apply step_send. done.
    + right. right. destruct ws as [|[b|b o'] ws]; [cbn in Hw; lia| |by cbn in Eb]. eexists. apply (step_receive _ _ _ _ _ _ _ _ _ _ l e o ch [] ws).
  - right. right. assert (o ∈ busy ws) as F by (rewrite Eb; left). apply elem_of_list_omap in F as (w & Hin & E). destruct w as [b|b o']; [done|]. injection E as ->.
    apply elem_of_list_split in Hin as (ws1 & ws2 & ->). destruct (consume full b [] o) as [r b'] eqn:Ec. eexists. by eapply step_check.
Qed.

(** A run fails only because of a row without hash or an object that raises another exception. What it has reported by then is true. *)
Theorem verify_failed full cap offset rows n s : rtc (step full cap) (init offset rows n) s ->
  (failed s = true -> no_hash rows \/ exists r o, r ∈ rows /\ row_obj r = Some o /\ result_of full o = Abort) /\
  (forall k, k ∈ missing s -> st !! k = None) /\ (forall k, k ∈ corrupted s -> is_Some (st !! k)).
Proof.
  intros Hr. destruct (run_inv _ _ _ _ _ _ Hr) as [l [Hj Hm Hc Hra Hf _]]. split_and!.
  - intros F. destruct (Hf F) as [E|(o & Ho & Ea)].
    + left. destruct (iter_objects_spec offset 1 rows) as [H1 _]. rewrite E in H1. destruct (decide (Exists (fun r => r_hash r = None) rows)) as [D|D].
      * apply Exists_exists in D as (r & Hin & Er). by exists r.
      * exfalso. assert (true = false); [|done]. apply H1. intros (r & Hin & Er). apply D. apply Exists_exists. by exists r.
    + right. assert (o ∈ (iter_objects offset 1 rows).1) as Hin by (rewrite <- Hj; apply elem_of_app; by left). apply iter_objects_sub in Hin as (r & Hin & E). by exists r, o.
  - intros k. rewrite Hm. unfold names. rewrite elem_of_list_fmap. intros (o & -> & [Ho _]%elem_of_list_filter). revert Ho. unfold result_of, VerifyModel.consume.
    destruct (st !! _) as [[m d]|]; [|done]. destruct full; [|by destruct (lookup _ _ _ _ _ _ _)]. destruct (readinto_fh _ _ _ _ _ _ _ _ _ _) as [[? ?]| | |]; try done. by repeat case_decide.
  - intros k. rewrite Hc. unfold names. rewrite elem_of_list_fmap. intros (o & -> & [Ho _]%elem_of_list_filter). revert Ho. unfold result_of, VerifyModel.consume.
    by destruct (st !! _) as [[m d]|].
Qed.
(** A row without hash makes every run fail, even if it is to be skipped, and so does an object that another program has stored without
    encryption: nothing is known about the objects after it. *)
Theorem verify_abort_refuted full cap offset rows n s :
  no_hash rows \/ (exists r o, r ∈ drop (Z.to_nat offset) rows /\ row_obj r = Some o /\ result_of full o = Abort) ->
  rtc (step full cap) (init offset rows n) s -> ~ finished s.
Proof.
  intros H Hr Hfin. destruct (run_complete _ _ _ _ _ _ Hr Hfin) as (_ & _ & Ha & Hn). destruct H as [?|(r & o & Hin & E & F)]; [done|].
  apply (Ha o); [|done]. apply elem_of_list_omap. by exists r.
Qed.
(** Which objects do so with --data: no encryption although there is a passphrase, or an unknown algorithm or a wrong type. *)
Theorem unencrypted_aborts o m d q full : st !! data_name (o_id o) = Some (m, d) -> p = Some q -> is_two (get m (str "format_version")) ->
  get m (str "encryption") = Some (VStr (str "None")) -> is_Some (get m (str "compression")) -> is_Some (get m (str "data")) -> result_of full o = Abort.
Proof.
  intros Hs Hp H2 He [c Hc] [b Hb]. unfold result_of, VerifyModel.consume. rewrite Hs. subst p.
  assert (verify_meta cdec sha256 hmac thaw (Some q) (data_name (o_id o)) m = NotEncrypted) as E.
  { unfold verify_meta. rewrite decide_False by tauto. rewrite He, Hc, Hb. by destruct (decide _) as [F|F]. }
  destruct full; [unfold readinto_fh|unfold lookup]; by rewrite E.
Qed.
(** Without --data, damaged content is not noticed. *)
Theorem metadata_only_refuted o m d d' : st !! data_name (o_id o) = Some (m, d) ->
  result_of false o = (VerifyModel.consume bufsize cdec sha256 hmac decomp thaw p (<[data_name (o_id o) := (m, d')]> st) false [] [] o).1.
Proof. intros Hs. unfold result_of, VerifyModel.consume. by rewrite Hs, lookup_insert. Qed.
End props.

(** * The reports *)
(** The exit code is 46 exactly if something was found; otherwise the files are removed. *)
Theorem reports_exact m_last m c : exists a b, reports false m_last m c = (a, b, if decide (m = [] /\ c = []) then 0 else 46) /\
  (m = [] /\ c = [] -> a = None /\ b = None) /\ (~ (m = [] /\ c = []) -> a = Some (lines m) /\ b = Some (lines c)).
Proof.
  assert (forall l, lines l = [] <-> l = []) as H.
  { intros [|x l]; [done|]. split; [|done]. unfold lines. rewrite fmap_cons. cbn. by destruct x. }
  unfold reports. destruct (decide (lines m <> [] \/ lines c <> [])) as [D|D]; rewrite !H in D.
  - do 2 eexists. split; [by rewrite decide_False by tauto|]. split; [tauto|done].
  - do 2 eexists. rewrite decide_True; [split; [done|]; split; [done|tauto]|]. destruct m, c; try (by exfalso; apply D; (left + right)); done.
Qed.
(** An existing report is not overwritten. *)
Theorem report_kept old : open_new old = None <-> exists b, old = Some b /\ b <> [].
Proof. destruct old as [[|x b]|]; cbn; split; try done; try (by intros (b' & [= <-] & ?)); try (by intros (b' & [=] & ?)). intros _. by eexists. Qed.
(** With the same name for both files, the reports overwrite each other, and if nothing was found, the program ends with an error. *)
Theorem same_file_refuted : reports true false [data_name 1] [data_name 2] = (Some (lines [data_name 2]), Some (lines [data_name 2]), 46) /\
  reports true true [data_name 12] [data_name 7] = (Some (lines [data_name 12]), Some (lines [data_name 12]), 46) /\ reports true false [] [] = (None, None, 1).
Proof. split_and!; by vm_compute. Qed.

(** * A concrete instance: four objects, one missing, one altered, one with the content of another one *)
Definition ex_write (i : nat) (d : bytes) : write := Write AZlib (ex_now i) (data_name i) d 0 (List.length d) [] false.
Definition ex_put (i : nat) (d : bytes) (st : storage) : storage :=
  match stored 4 ex_c ex_sha ex2_hmac ex_comp ex2_freeze (Some ex_pw) (ex_write i d) with Some o => <[data_name i := o]> st | None => st end.
Definition ex_orig (i : nat) : bytes := nth i [[]; str "one"; str "two"; []; str "four"; str "five5"] [].
Definition ex_rows : list row := (fun i => Row i (Some (ex_sha (ex_orig i))) (List.length (ex_orig i))) <$> [1; 2; 4; 5].
Definition ex_store : storage :=
  let st := ex_put 1 (ex_orig 1) (ex_put 4 (str "4444") (ex_put 5 (ex_orig 5) ∅)) in
  match st !! data_name 5 with Some (m, d) => <[data_name 5 := (m, removelast d)]> st | None => st end.
Notation ex_result := (result_of 4 ex_c ex_sha ex2_hmac ex_decomp ex2_thaw (Some ex_pw) ex_store).
Example ex_verify : (fun i => ex_result true (Obj i (ex_orig i) (List.length (ex_orig i)))) <$> [1; 2; 4; 5] = [Fine; IsMissing; IsCorrupted; IsCorrupted] /\
  (fun i => ex_result false (Obj i (ex_orig i) (List.length (ex_orig i)))) <$> [1; 2; 4; 5] = [Fine; IsMissing; Fine; Fine].
Proof. split; by vm_compute. Qed.
(** A completed run that starts after the first object. *)
Example ex_run : exists s, rtc (step 4 ex_c ex_sha ex2_hmac ex_decomp ex2_thaw (Some ex_pw) ex_store true 1) (init 1 ex_rows 1) s /\ finished s /\
  missing s = [data_name 2] /\ corrupted s = [data_name 4; data_name 5].
Proof.
  eexists. split.
  - change (init 1 ex_rows 1) with (VState [Obj 2 (ex_orig 2) 3; Obj 4 (ex_orig 4) 4; Obj 5 (ex_orig 5) 5] false [] ([] ++ Idle [] :: []) [] [] false).
    do 3 (eapply rtc_l; [apply step_send; cbn; lia|]; eapply rtc_l; [apply (step_receive _ _ _ _ _ _ _ _ _ _ _ _ _ _ [] [])|];
          eapply rtc_l; [apply (step_check _ _ _ _ _ _ _ _ _ _ _ _ _ [] [] _ _ []); vm_compute; reflexivity|]; cbn [app]).
    apply rtc_refl.
  - split; [|split; by vm_compute]. split_and!; try done. repeat constructor. by eexists.
Qed.

Print Assumptions data_name_inj. Print Assumptions verify_data_exact. Print Assumptions verify_metadata_exact. Print Assumptions verify_intact.
Print Assumptions verify_terminates. Print Assumptions verify_progress. Print Assumptions verify_failed. Print Assumptions verify_abort_refuted.
Print Assumptions unencrypted_aborts. Print Assumptions metadata_only_refuted. Print Assumptions reports_exact. Print Assumptions report_kept.
Print Assumptions same_file_refuted.
