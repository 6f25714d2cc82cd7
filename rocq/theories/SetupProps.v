(** Creating a file system and changing its passphrase (C53, C54). *)
From stdpp Require Import prelude gmap.
From Coq.Strings Require Import Byte.
From Coq Require Import String.
From Verif Require Import CodecModel CodecProps ConfigModel Files FilesFacts MetadataModel MetadataProofs Bytes NamesModel NamesProps ComprencModel ComprencSpec ComprencProofs ComprencProps SetupModel.
Local Close Scope string_scope.
Local Close Scope N_scope.
Local Open Scope nat_scope.
Local Open Scope list_scope.

Section props.
Context (bufsize : nat) (cenc cdec : bytes -> nat -> byte -> byte) (sha256 : bytes -> bytes) (hmac : bytes -> bytes -> bytes).
Context (comp : algorithm -> list bytes -> bytes) (decomp : algorithm -> list bytes -> option (bytes * bool * bytes)).
Context (freeze : mapping -> bytes) (thaw : bytes -> option mapping).
Context (serialize : attrs -> bytes) (deserialize : bytes -> option attrs) (hash : file -> list nat).
(** What is required of the cipher, the HMAC, the compressors and the serialisation, as for C31. *)
Record env_ok : Prop := {
  e_buf : 0 < bufsize; e_buf32 : (N.of_nat bufsize < 4294967296)%N; e_cipher : cipher_ok cenc cdec; e_hmac : hmac_ok hmac;
  e_comp : compressor_ok comp decomp; e_freeze : forall n, freeze_ok freeze thaw [(str "__size", VInt (Z.of_nat n))] }.
Notation store := (store bufsize cenc sha256 hmac comp freeze).
Notation stores := (stores bufsize cenc sha256 hmac comp freeze).
Notation fetch := (fetch bufsize cdec sha256 hmac decomp thaw).
Notation open_backend := (open_backend bufsize cdec sha256 hmac decomp thaw).
Notation passphrase := (passphrase bufsize cenc cdec sha256 hmac comp decomp freeze thaw).
Notation recover_key := (recover_key bufsize cenc sha256 hmac comp freeze).
Notation mkfs := (mkfs bufsize cenc sha256 hmac comp freeze serialize hash).
Notation mkfs_items := (mkfs_items serialize hash).
Notation mount := (mount bufsize cdec sha256 hmac decomp thaw deserialize hash).
Notation stored_obj := (write_fh bufsize cenc sha256 hmac comp freeze).
Implicit Types st : storage.

(** * Stores *)
Lemma stored_some p alg now k d : exists o, stored_obj p alg now k d 0 (List.length d) [] false = Some o.
Proof. unfold write_fh. rewrite decide_False by (intros H; by apply H). destruct p; eauto. Qed.
Lemma store_eq alg now x st : exists o, stored_obj (it_pass x) alg now (it_key x) (it_data x) 0 (List.length (it_data x)) [] false = Some o /\ store alg now x st = <[it_key x := o]> st.
Proof. destruct (stored_some (it_pass x) alg now (it_key x) (it_data x)) as [o E]. exists o. split; [done|]. unfold SetupModel.store. by rewrite E. Qed.
Lemma store_other alg now x st k : k <> it_key x -> store alg now x st !! k = st !! k.
Proof. intros H. destruct (store_eq alg now x st) as (o & _ & ->). by rewrite lookup_insert_ne. Qed.
Lemma store_fetch alg now x st : env_ok -> now <> [] -> fetch (it_pass x) (it_key x) (store alg now x st) = Some (Ok ([], it_data x)).
Proof.
  intros He Hn. destruct (store_eq alg now x st) as ([m d] & E & ->). unfold SetupModel.fetch. rewrite lookup_insert.
  pose proof (stored_is_read_back bufsize cenc cdec sha256 hmac comp decomp freeze thaw (it_pass x)
    (Write alg now (it_key x) (it_data x) 0 (List.length (it_data x)) [] false) m d (e_buf He) (e_buf32 He) (e_cipher He) (e_hmac He) (e_comp He) (e_freeze He _) Hn E) as [H _].
  cbn in H. rewrite H. unfold w_content. cbn. by rewrite firstn_all.
Qed.
Lemma stores_other alg now i l st k : k ∉ it_key <$> l -> stores alg now i l st !! k = st !! k.
Proof.
  revert i st. induction l as [|x l IH]; intros i st H; [done|]. cbn in *. apply not_elem_of_cons in H as [H1 H2]. rewrite IH by done. by apply store_other.
Qed.
Lemma fetch_ext p k st st' : st !! k = st' !! k -> fetch p k st = fetch p k st'.
Proof. intros H. unfold SetupModel.fetch. by rewrite H. Qed.
Lemma stores_fetch alg now i l st x : env_ok -> (forall j, now j <> []) -> NoDup (it_key <$> l) -> x ∈ l ->
  fetch (it_pass x) (it_key x) (stores alg now i l st) = Some (Ok ([], it_data x)).
Proof.
  intros He Hn. revert i st. induction l as [|y l IH]; intros i st Hd Hx; [by apply elem_of_nil in Hx|].
  cbn in Hd. apply NoDup_cons in Hd as [Hy Hd]. cbn [SetupModel.stores]. apply elem_of_cons in Hx as [->|Hx]; [|by apply IH].
  rewrite (fetch_ext _ _ _ (store alg (now i) y st)); [by apply store_fetch|]. by apply stores_other.
Qed.
(** The object that is there afterwards was stored with this passphrase, at some time. *)
Lemma stores_lookup alg now i l st x : NoDup (it_key <$> l) -> x ∈ l -> exists j o,
  stored_obj (it_pass x) alg (now j) (it_key x) (it_data x) 0 (List.length (it_data x)) [] false = Some o /\ stores alg now i l st !! it_key x = Some o.
Proof.
  revert i st. induction l as [|y l IH]; intros i st Hd Hx; [by apply elem_of_nil in Hx|].
  cbn in Hd. apply NoDup_cons in Hd as [Hy Hd]. cbn [SetupModel.stores]. apply elem_of_cons in Hx as [->|Hx]; [|by apply IH].
  destruct (store_eq alg (now i) y st) as (o & Eo & E). exists i, o. split; [done|]. rewrite stores_other by done. rewrite E. apply lookup_insert.
Qed.

(** * Reading with another passphrase *)
(** Two passphrases have the same HMAC for the metadata of the object. *)
Definition coincidence (p p' : bytes) : Prop := exists nonce t, hmac (meta_key sha256 p nonce) t = hmac (meta_key sha256 p' nonce) t.
Lemma verify_other p p' alg now k k' d m o : stored_obj (Some p) alg now k d 0 (List.length d) [] false = Some (m, o) ->
  (~ coincidence p' p) \/ k' <> k -> verify_meta cdec sha256 hmac thaw (Some p') k' m = Corrupted.
Proof.
  intros E H. apply (ComprencProofs.stored_some bufsize cenc sha256 hmac comp freeze p (Write alg now k d 0 (List.length d) [] false)) in E as (a & md & _ & _ & -> & _).
  cbn [w_key w_now w_len w_meta]. unfold w_nonce. cbn [w_key w_now]. set (nonce := now ++ k). set (sig := hmac _ _). set (sg := signed _ _ _ _ _).
  unfold verify_meta. rewrite decide_False by (intros Hx; apply Hx; by left).
  assert (get sg (str "encryption") = Some (VStr (str "AES_v2"))) as -> by done.
  assert (get sg (str "compression") = Some (VStr (token a))) as -> by done.
  assert (get sg (str "data") = Some (VBytes md)) as -> by done.
  assert (get sg (str "nonce") = Some (VBytes nonce)) as -> by done.
  assert (get sg (str "object_id") = Some (VStr k)) as -> by done.
  assert (get sg (str "signature") = Some (VBytes sig)) as -> by done.
  destruct (decide _) as [_|Hx]; [|by destruct Hx].
  assert (encoding sg = encoding (six a md nonce k)) as -> by apply encoding_signed.
  case_decide as Hs; [done|]. destruct H as [H|H].
  - destruct H. exists nonce, (encoding (six a md nonce k)). symmetry. exact Hs.
  - rewrite decide_True; [done|]. congruence.
Qed.
Lemma read_other p p' alg now k k' d m o : stored_obj (Some p) alg now k d 0 (List.length d) [] false = Some (m, o) ->
  (~ coincidence p' p) \/ k' <> k -> readinto_fh bufsize cdec sha256 hmac decomp thaw (Some p') k' m o = Corrupted.
Proof. intros E H. unfold readinto_fh. by rewrite (verify_other _ _ _ _ _ _ _ _ _ E H). Qed.

(** * The key *)
Definition keys : list bytes := [PASSPHRASE; BAK 0; BAK 1; BAK 2].
Lemma key_items_keys w pw : it_key <$> key_items w pw = keys.
Proof. done. Qed.
Lemma keys_nodup : NoDup keys.
Proof. apply (bool_decide_unpack _). by vm_compute. Qed.
Lemma take_keys n w pw : it_key <$> take n (key_items w pw) = take n keys.
Proof. by rewrite fmap_take. Qed.
Lemma NoDup_take {A} n (l : list A) : NoDup l -> NoDup (take n l).
Proof. intros H. rewrite <- (take_drop n l) in H. by apply NoDup_app in H as (? & _). Qed.
Lemma elem_of_take_sub {A} n (l : list A) x : x ∈ take n l -> x ∈ l.
Proof. intros H. rewrite <- (take_drop n l). apply elem_of_app. by left. Qed.
Lemma take_keys_nodup n : NoDup (take n keys).
Proof. apply NoDup_take, keys_nodup. Qed.
Lemma take_keys_sub n k : k ∈ take n keys -> k ∈ keys.
Proof. apply elem_of_take_sub. Qed.
Lemma first_item w pw n : 0 < n -> Item (Some w) PASSPHRASE pw ∈ take n (key_items w pw).
Proof. destruct n; [lia|]. intros _. left. Qed.

Lemma fetch_open st p pw : fetch (Some p) PASSPHRASE st = Some (Ok ([], pw)) -> open_backend p st = Opened (Some pw).
Proof.
  intros H. unfold SetupModel.open_backend. rewrite H. unfold SetupModel.fetch in H. by destruct (st !! PASSPHRASE) as [[m d]|].
Qed.
Lemma open_after w pw alg now i n st : env_ok -> (forall j, now j <> []) -> 0 < n -> open_backend w (stores alg now i (take n (key_items w pw)) st) = Opened (Some pw).
Proof.
  intros He Hn Hpos. apply fetch_open. apply (stores_fetch alg now i (take n (key_items w pw)) st (Item (Some w) PASSPHRASE pw)); [done..| |by apply first_item].
  rewrite take_keys. apply take_keys_nodup.
Qed.
Lemma open_other w w' pw alg now i l st : NoDup (it_key <$> l) -> Item (Some w) PASSPHRASE pw ∈ l -> ~ coincidence w' w ->
  open_backend w' (stores alg now i l st) = WrongPassphrase.
Proof.
  intros Hd Hx Hc. destruct (stores_lookup alg now i l st _ Hd Hx) as (j & [m o] & E & El). cbn [it_key it_pass it_data] in *.
  unfold SetupModel.open_backend, SetupModel.fetch. rewrite El. by rewrite (read_other _ _ _ _ _ _ _ _ _ E (or_introl Hc)).
Qed.

(** C53. A change of the passphrase, interrupted at any point: with the old passphrase (before the first store) or with the new
    one (afterwards) the file system opens, with the same master key as before. *)
Theorem passphrase_opens old new alg now n st pw st' ok : env_ok -> (forall j, now j <> []) ->
  open_backend old st = Opened (Some pw) -> pw <> [] -> passphrase old new alg now n st = (st', ok) ->
  ok = true /\ open_backend (if decide (n = 0) then old else new) st' = Opened (Some pw).
Proof.
  intros He Hn Ho Hp E. unfold SetupModel.passphrase in E. rewrite Ho, decide_False in E by done. injection E as <- <-. split; [done|].
  case_decide as D; [by subst n|]. apply open_after; [done..|lia].
Qed.
(** Everything but the four copies of the key stays as it is: what could be read with the master key still can. *)
Theorem passphrase_data old new alg now n st st' ok : passphrase old new alg now n st = (st', ok) ->
  forall k, k ∉ keys -> st' !! k = st !! k /\ forall p, fetch p k st' = fetch p k st.
Proof.
  intros E k Hk. assert (st' !! k = st !! k) as H; [|split; [done|intros; by apply fetch_ext]].
  unfold SetupModel.passphrase in E. repeat case_match; simplify_eq; try done. apply stores_other. rewrite take_keys. intros F. by apply Hk, (take_keys_sub n).
Qed.
(** Without the right passphrase, or if the file system is not encrypted, nothing is changed. *)
Theorem passphrase_refused old new alg now n st st' ok : (forall pw, open_backend old st <> Opened (Some pw)) ->
  passphrase old new alg now n st = (st', ok) -> st' = st /\ ok = false.
Proof. intros H E. unfold SetupModel.passphrase in E. repeat case_match; simplify_eq; try done; by edestruct H. Qed.
(** After the change no other passphrase opens the file system, in particular not the old one; unless two passphrases have the
    same HMAC for some message. *)
Theorem passphrase_others_fail old new alg now n st pw st' w : open_backend old st = Opened (Some pw) -> pw <> [] -> 0 < n ->
  passphrase old new alg now n st = (st', true) -> ~ coincidence w new -> open_backend w st' = WrongPassphrase.
Proof.
  intros Ho Hp Hpos E Hc. unfold SetupModel.passphrase in E. rewrite Ho, decide_False in E by done. injection E as <-.
  eapply open_other; [rewrite take_keys; apply take_keys_nodup|by apply first_item|done].
Qed.
(** After a complete change all four copies hold the master key, encrypted with the new passphrase. *)
Theorem passphrase_copies old new alg now n st pw st' k : env_ok -> (forall j, now j <> []) -> open_backend old st = Opened (Some pw) -> pw <> [] -> 4 <= n ->
  passphrase old new alg now n st = (st', true) -> k ∈ keys -> fetch (Some new) k st' = Some (Ok ([], pw)).
Proof.
  intros He Hn Ho Hp Hlen E Hk. unfold SetupModel.passphrase in E. rewrite Ho, decide_False in E by done. injection E as <-.
  rewrite take_ge by done. apply (stores_fetch alg now 0 (key_items new pw) st (Item (Some new) k pw)); [done..|apply keys_nodup|].
  by apply (elem_of_list_fmap_1 (fun k => Item (Some new) k pw)).
Qed.
(** The backup copies cannot take the place of a lost or damaged s3ql_passphrase: copied to this name, they are rejected like a
    wrong passphrase, because objects are bound to their names; and no program reads them under their own names. *)
Theorem backup_copy_refuted w pw alg now st i o : i < 3 ->
  stores alg now 0 (key_items w pw) st !! BAK i = Some o ->
  open_backend w (<[PASSPHRASE := o]> (stores alg now 0 (key_items w pw) st)) = WrongPassphrase.
Proof.
  intros Hi Ho. assert (Item (Some w) (BAK i) pw ∈ key_items w pw) as Hx.
  { apply (elem_of_list_fmap_1 (fun k => Item (Some w) k pw)). destruct i as [|[|[|]]]; [apply (bool_decide_unpack _); by vm_compute..|lia]. }
  destruct (stores_lookup alg now 0 (key_items w pw) st _ keys_nodup Hx) as (j & [m d] & E & El). cbn [it_key it_pass it_data] in *.
  rewrite Ho in El. injection El as ->. unfold SetupModel.open_backend, SetupModel.fetch. rewrite lookup_insert.
  rewrite (read_other w w alg (now j) (BAK i) PASSPHRASE pw m d E); [done|]. right. destruct i as [|[|[|]]]; [done..|lia].
Qed.

(** recover-key needs no passphrase: afterwards the file system opens with the new one and the given key, all else is untouched. *)
Theorem recover_opens line wrap alg now n st pw : env_ok -> (forall j, now j <> []) -> master_key line = Some pw -> 0 < n ->
  exists st', recover_key line wrap alg now n st = (st', true) /\ open_backend wrap st' = Opened (Some pw) /\
    forall k, k ∉ keys -> st' !! k = st !! k /\ forall p, fetch p k st' = fetch p k st.
Proof.
  intros He Hn Hm Hpos. unfold SetupModel.recover_key. rewrite Hm. eexists. split; [done|]. split; [by apply open_after|].
  intros k Hk. assert (stores alg now 0 (take n (key_items wrap pw)) st !! k = st !! k) as H; [|split; [done|intros; by apply fetch_ext]].
  apply stores_other. rewrite take_keys. intros F. by apply Hk, (take_keys_sub n).
Qed.
Theorem recover_malformed line wrap alg now n st : master_key line = None -> recover_key line wrap alg now n st = (st, false).
Proof. intros H. unfold SetupModel.recover_key. by rewrite H. Qed.
(** But the key is not compared with the file system: with a key of another file system, the command succeeds, the old passphrase
    is lost and no object of the file system can be read any more (unless HMACs coincide). *)
Theorem recover_wrong_refuted line wrap alg now st pw pw' old p key d m o : env_ok -> (forall j, now j <> []) ->
  master_key line = Some pw' -> ~ coincidence pw' pw -> ~ coincidence old wrap ->
  stored_obj (Some pw) alg p key d 0 (List.length d) [] false = Some (m, o) -> st !! key = Some (m, o) -> key ∉ keys ->
  exists st', recover_key line wrap alg now 4 st = (st', true) /\ open_backend old st' = WrongPassphrase /\
    open_backend wrap st' = Opened (Some pw') /\ fetch (Some pw') key st' = Some Corrupted.
Proof.
  intros He Hn Hm Hc1 Hc2 Eo Hk Hkk. destruct (recover_opens line wrap alg now 4 st pw' He Hn Hm) as (st' & E & Ho & Hs); [lia|].
  exists st'. split; [done|]. split_and!; [|done|].
  - unfold SetupModel.recover_key in E. rewrite Hm in E. apply pair_equal_spec in E as [<- _].
    apply (open_other wrap old pw' alg now 0 (take 4 (key_items wrap pw'))); [apply keys_nodup|left|done].
  - destruct (Hs key Hkk) as [E' _]. unfold SetupModel.fetch. rewrite E', Hk. f_equal. eapply read_other; [exact Eo|by left].
Qed.

(** The key as printed by mkfs is accepted, whatever white space is added. *)
Theorem master_key_accepted pw line : List.length pw = 32 -> filter (fun c => is_space c = false) line = b64encode (Byte.to_N <$> pw) -> master_key line = Some pw.
Proof.
  intros Hl Hf. unfold master_key. rewrite Hf.
  assert (Forall (fun x => (x < 256)%N) (Byte.to_N <$> pw)) as Hb.
  { apply Forall_fmap, Forall_true. intros x. pose proof (Byte.to_N_bounded x). cbn. lia. }
  rewrite decide_True.
  - rewrite b64_roundtrip by done. cbn [mbind option_bind]. rewrite decide_True by (by rewrite fmap_length).
    f_equal. rewrite <- list_fmap_compose. rewrite <- (list_fmap_id pw) at 2. apply list_fmap_ext. intros i x _. apply byte_of_to_N.
  - eapply Forall_impl; [apply b64encode_chars; exact Hb|]. intros c H. unfold b64char in H. lia.
Qed.
Lemma filter_nonspace l : Forall b64char l -> filter (fun c => is_space c = false) l = l.
Proof.
  intros H. induction H as [|c l Hc _ IH]; [done|]. rewrite filter_cons_True; [by rewrite IH|].
  destruct (is_space c) eqn:E; [|done]. unfold b64char in Hc. unfold is_space in E. exfalso.
  repeat (apply orb_prop in E as [E|E]); try apply andb_prop in E as [E1 E2];
    repeat match goal with H : (_ <=? _)%N = true |- _ => apply N.leb_le in H | H : (_ =? _)%N = true |- _ => apply N.eqb_eq in H end; lia.
Qed.
Lemma filter_unwords ws : filter (fun c => is_space c = false) (unwords ws) = filter (fun c => is_space c = false) (List.concat ws).
Proof.
  induction ws as [|w ws IH]; [done|]. cbn [unwords List.concat]. destruct ws as [|w' ws]; [by rewrite app_nil_r|].
  rewrite !filter_app, IH. f_equal.
Qed.
Lemma groups_concat fuel l : List.length l <= fuel -> List.concat (groups fuel l) = l.
Proof.
  revert l. induction fuel as [|fuel IH]; intros [|c l] H; cbn [groups List.concat List.length] in *; try done; try lia.
  rewrite IH; [apply take_drop|]. rewrite drop_length. cbn [List.length]. lia.
Qed.
Theorem printed_key_accepted pw : List.length pw = 32 -> master_key (printed_key pw) = Some pw /\ master_key (printed_key pw ++ [10%N]) = Some pw.
Proof.
  intros Hl. assert (filter (fun c => is_space c = false) (printed_key pw) = b64encode (Byte.to_N <$> pw)) as H.
  { unfold printed_key. rewrite filter_unwords, groups_concat by done. apply filter_nonspace, b64encode_chars.
    apply Forall_fmap, Forall_true. intros x. pose proof (Byte.to_N_bounded x). cbn. lia. }
  split; apply master_key_accepted; [done..|]. rewrite filter_app, H. cbn. by rewrite app_nil_r.
Qed.

(** * Entering passphrases *)
Lemma lstrip_head s : match s with [] => True | c :: _ => is_space c = false end -> lstrip_space s = s.
Proof. destruct s as [|c s]; [done|]. cbn. by intros ->. Qed.
(** A passphrase that does not end with white space is the same from a terminal and from standard input. *)
Theorem enter_same s : match last s with Some c => is_space c = false | None => True end -> enter false (s ++ [10%N]) = enter true s.
Proof.
  intros H. unfold enter, rstrip. rewrite reverse_snoc. cbn [lstrip_space]. change (is_space 10) with true. cbv iota.
  rewrite lstrip_head; [apply reverse_involutive|]. destruct s as [|c s] using rev_ind; [done|]. rewrite reverse_snoc. by rewrite last_snoc in H.
Qed.
(** Others are cut: a passphrase set on a terminal may not be accepted from standard input. *)
Theorem enter_refuted : exists s, enter true s <> enter false (s ++ [10%N]).
Proof. exists [97; 32]%N. by vm_compute. Qed.

(** * mkfs *)
Implicit Types (db : bytes) (bl : list nat).
(** C54. Nothing is changed if there is a file system. *)
Theorem mkfs_refuses wrap pw alg now sq bs db bl n st : is_Some (st !! S3QL_PARAMS) \/ is_Some (st !! S3QL_METADATA) ->
  mkfs wrap pw alg now sq bs db bl n st = (st, false).
Proof. intros H. unfold SetupModel.mkfs, exists_fs. by rewrite bool_decide_true. Qed.

Lemma special_keys k : k ∈ keys -> k ∈ special.
Proof. intros H. repeat (apply elem_of_cons in H as [->|H]; [apply (bool_decide_unpack _); by vm_compute|]). by apply elem_of_nil in H. Qed.
Lemma special_params : S3QL_PARAMS ∈ special.
Proof. apply (bool_decide_unpack _). by vm_compute. Qed.
Lemma special_metadata : S3QL_METADATA ∈ special.
Proof. apply (bool_decide_unpack _). by vm_compute. Qed.
Definition meta_items (p : option bytes) sq bs db bl : list item := (fun b => Item p (meta_name b sq) (block bs b db)) <$> bl.
Lemma meta_items_keys p sq bs db bl : it_key <$> meta_items p sq bs db bl = (fun b => meta_name b sq) <$> bl.
Proof. unfold meta_items. by rewrite <- list_fmap_compose. Qed.
Lemma items_nodup wrap pw sq bs db bl : NoDup bl -> NoDup (it_key <$> mkfs_items wrap pw sq bs db bl).
Proof.
  intros Hb. unfold SetupModel.mkfs_items. cbv zeta. set (p := match wrap with Some _ => Some pw | None => None end). fold (meta_items p sq bs db bl).
  rewrite !fmap_app, meta_items_keys. apply NoDup_app.
  assert (NoDup ((fun b => meta_name b sq) <$> bl)) as Hm. { apply NoDup_fmap; [|done]. intros b b' E. by apply meta_name_inj in E as [-> _]. }
  split_and!.
  - destruct wrap; [apply keys_nodup|constructor].
  - intros k Hk. assert (k ∈ keys) as Hk'. { by destruct wrap; [|apply elem_of_nil in Hk]. } apply not_elem_of_app. split.
    + intros (b & E & _)%elem_of_list_fmap. destruct (names_differ b sq sq k (special_keys k Hk')) as (H & _). by destruct H.
    + cbn. intros [E|[E|E%elem_of_nil]%elem_of_cons]%elem_of_cons; [| |done].
      * subst k. repeat (apply elem_of_cons in Hk' as [Hk'|Hk']; [by vm_compute in Hk'|]). by apply elem_of_nil in Hk'.
      * destruct (names_differ 0 sq sq k (special_keys k Hk')) as (_ & H & _). by destruct H.
  - apply NoDup_app. split_and!; [done| |].
    + intros k (b & -> & _)%elem_of_list_fmap. destruct (names_differ b sq sq _ special_params) as (H1 & _ & H2).
      cbn. intros [E|[E|E%elem_of_nil]%elem_of_cons]%elem_of_cons; [by destruct H1|by destruct H2|done].
    + cbn. apply NoDup_cons. split; [|apply NoDup_singleton]. intros E%elem_of_list_singleton.
      destruct (names_differ 0 sq sq _ special_params) as (_ & H & _). by destruct H.
Qed.
Lemma mkfs_true wrap pw alg now sq bs db bl n st st' : mkfs wrap pw alg now sq bs db bl n st = (st', true) ->
  exists_fs st = false /\ st' = stores alg now 0 (take n (mkfs_items wrap pw sq bs db bl)) st.
Proof. unfold SetupModel.mkfs. destruct (exists_fs st); intros E; apply pair_equal_spec in E as [E1 E2]; [done|]. by subst. Qed.
(** mkfs only touches the objects it creates. *)
Theorem mkfs_others wrap pw alg now sq bs db bl n st st' ok k : mkfs wrap pw alg now sq bs db bl n st = (st', ok) ->
  k ∉ keys -> k <> S3QL_PARAMS -> k <> params_name sq -> (forall b, k <> meta_name b sq) -> st' !! k = st !! k.
Proof.
  intros E H1 H2 H3 H4. unfold SetupModel.mkfs in E. destruct (exists_fs st); apply pair_equal_spec in E as [<- _]; [done|].
  apply stores_other. intros F. rewrite fmap_take in F. apply elem_of_take_sub in F. unfold SetupModel.mkfs_items in F.
  rewrite !fmap_app in F. apply elem_of_app in F as [F|[F|F]%elem_of_app].
  - destruct wrap; [done|by apply elem_of_nil in F].
  - rewrite <- list_fmap_compose in F. apply elem_of_list_fmap in F as (b & -> & _). by apply (H4 b).
  - cbn in F. apply elem_of_cons in F as [F|[F|F%elem_of_nil]%elem_of_cons]; done.
Qed.

(** The state in which everything up to s3ql_params is stored. *)
Lemma items_length wrap pw sq bs db bl : List.length (mkfs_items wrap pw sq bs db bl) = (match wrap with Some _ => 4 | None => 0 end) + List.length bl + 2.
Proof. unfold SetupModel.mkfs_items. rewrite !app_length, fmap_length. by destruct wrap; cbn; lia. Qed.
Definition p_of (wrap : option bytes) (pw : bytes) : option bytes := match wrap with Some _ => Some pw | None => None end.
Lemma items_take wrap pw sq bs db bl n x : List.length (mkfs_items wrap pw sq bs db bl) - 1 <= n ->
  x ∈ match wrap with Some w => key_items w pw | None => [] end ++ meta_items (p_of wrap pw) sq bs db bl ++ [Item (p_of wrap pw) S3QL_PARAMS (serialize (new_attrs hash sq bs db))] ->
  x ∈ take n (mkfs_items wrap pw sq bs db bl).
Proof.
  intros Hn Hx. rewrite items_length in Hn. unfold SetupModel.mkfs_items. cbv zeta. fold (p_of wrap pw). fold (meta_items (p_of wrap pw) sq bs db bl).
  change [Item (p_of wrap pw) S3QL_PARAMS ?s; ?y] with ([Item (p_of wrap pw) S3QL_PARAMS s] ++ [y]). rewrite !app_assoc, <- (app_assoc _ (meta_items _ _ _ _ _) [_]).
  rewrite take_app_ge; [apply elem_of_app; by left|]. rewrite !app_length. unfold meta_items. rewrite fmap_length. destruct wrap; cbn; lia.
Qed.
(** Before that mkfs can be repeated. *)
Lemma early_exists wrap pw alg now sq bs db bl n st : exists_fs st = false -> n < List.length (mkfs_items wrap pw sq bs db bl) - 1 ->
  exists_fs (stores alg now 0 (take n (mkfs_items wrap pw sq bs db bl)) st) = false.
Proof.
  intros H Hn. unfold exists_fs in *. apply bool_decide_eq_false in H. apply bool_decide_eq_false. rewrite items_length in Hn.
  assert (forall k, k ∈ [S3QL_PARAMS; S3QL_METADATA] -> stores alg now 0 (take n (mkfs_items wrap pw sq bs db bl)) st !! k = st !! k) as Hk.
  { intros k Hk. apply stores_other. unfold SetupModel.mkfs_items. cbv zeta. fold (p_of wrap pw). fold (meta_items (p_of wrap pw) sq bs db bl).
    rewrite app_assoc, take_app_le by (rewrite app_length; unfold meta_items; rewrite fmap_length; destruct wrap; cbn; lia).
    rewrite fmap_take. intros F. apply elem_of_take_sub in F. rewrite fmap_app, meta_items_keys in F.
    assert (k ∈ special) as Hs. { apply elem_of_cons in Hk as [->|Hk]; [apply special_params|]. apply elem_of_list_singleton in Hk as ->. apply special_metadata. }
    apply elem_of_app in F as [F|(b & E & _)%elem_of_list_fmap].
    - assert (k ∈ keys) as F' by (by destruct wrap; [|apply elem_of_nil in F]).
      apply elem_of_cons in Hk as [->|Hk]; [|apply elem_of_list_singleton in Hk as ->];
        repeat (apply elem_of_cons in F' as [F'|F']; [by vm_compute in F'|]); by apply elem_of_nil in F'.
    - destruct (names_differ b sq sq k Hs) as (Hx & _). by destruct Hx. }
  rewrite !Hk; [done|..]; apply (bool_decide_unpack _); by vm_compute.
Qed.

(** ** Download *)
Lemma elem_of_listing st b s : is_Some (objs (listing st) !! (b, s)) <-> exists k o, st !! k = Some o /\ parse_meta k = Some (b, s).
Proof.
  unfold listing. cbn [objs]. split.
  - intros [v H]. apply elem_of_list_to_map_2 in H. apply elem_of_list_fmap in H as (x & E & H). injection E as -> _. 
    apply elem_of_list_omap in H as (k & H & E). apply elem_of_list_fmap in H as ([k' o] & -> & H). apply elem_of_map_to_list in H. by exists k', o.
  - intros (k & o & H & E). destruct (list_to_map _ !! (b, s)) eqn:F; [done|]. apply not_elem_of_list_to_map_2 in F. destruct F.
    apply elem_of_list_fmap. exists ((b, s), []). split; [done|]. apply elem_of_list_fmap. exists (b, s). split; [done|].
    apply elem_of_list_omap. exists k. split; [|done]. apply elem_of_list_fmap. exists (k, o). split; [done|]. by apply elem_of_map_to_list.
Qed.
Lemma dl_jobs_ext bs r r' p bl : (forall b, sel r b (p_seq p) = sel r' b (p_seq p)) -> dl_jobs bs r p bl = dl_jobs bs r' p bl.
Proof. intros H. induction bl as [|b bl IH]; [done|]. cbn. rewrite IH. specialize (H b). unfold sel in H. by rewrite H. Qed.
Lemma download_blocks_run p bs st r js f : (forall b s, (b, s) ∈ js -> exists m o, fetch p (meta_name b s) st = Some (Ok (m, o)) /\ objs r !! (b, s) = Some (to_file o)) ->
  download_blocks bufsize cdec sha256 hmac decomp thaw p bs st js f = match dl_run bs r js f with inr g => Some g | inl _ => None end.
Proof.
  revert f. induction js as [|[b s] js IH]; intros f H; [done|]. cbn [download_blocks dl_run].
  destruct (H b s) as (m & o & E1 & E2); [left|]. rewrite E1, E2. apply IH. intros b' s' Hin. apply H. by right.
Qed.
Lemma to_file_take n b : to_file (take n b) = take n (to_file b).
Proof. unfold to_file. by rewrite fmap_take. Qed.
Lemma to_file_drop n b : to_file (drop n b) = drop n (to_file b).
Proof. unfold to_file. by rewrite fmap_drop. Qed.
Lemma byte_at_block bs b db i : i < bs -> byte_at (to_file (block bs b db)) i = byte_at (to_file db) (b * bs + i).
Proof. intros Hi. unfold block. rewrite to_file_take, to_file_drop, byte_at_take, decide_True by done. apply byte_at_drop. Qed.

(** The blocks of the new database, with everything else that is listed. *)
Definition new_remote bs db sq st : remote :=
  Remote (map_imap (fun (k : nat * nat) (_ : list nat) => Some (if decide (k.2 = sq) then to_file (block bs k.1 db) else [])) (objs (listing st))) ∅.
Lemma new_remote_lookup bs db sq st k : objs (new_remote bs db sq st) !! k = (fun _ => if decide (k.2 = sq) then to_file (block bs k.1 db) else []) <$> objs (listing st) !! k.
Proof. unfold new_remote. cbn [objs]. rewrite map_lookup_imap. by destruct (objs (listing st) !! k). Qed.
Lemma new_remote_some bs db sq st k : is_Some (objs (new_remote bs db sq st) !! k) <-> is_Some (objs (listing st) !! k).
Proof. rewrite new_remote_lookup. apply fmap_is_Some. Qed.
Lemma new_remote_sel bs db sq st b t : sel (listing st) b t = sel (new_remote bs db sq st) b t.
Proof.
  destruct (sel (listing st) b t) as [v|] eqn:E; symmetry.
  - apply sel_Some. apply sel_Some in E as (H1 & H2 & H3). rewrite new_remote_some. split_and!; [done..|]. intros v'. rewrite new_remote_some. apply H3.
  - apply sel_None. rewrite sel_None in E. intros v. rewrite new_remote_some. apply E.
Qed.
Lemma mount_new wrap pw sq bs db pass bl' st : 0 < bs -> (forall a, deserialize (serialize a) = Some a) ->
  open_backend pass st = Opened (p_of wrap pw) ->
  fetch (p_of wrap pw) S3QL_PARAMS st = Some (Ok ([], serialize (new_attrs hash sq bs db))) ->
  (forall b, b * bs < List.length db -> fetch (p_of wrap pw) (meta_name b sq) st = Some (Ok ([], block bs b db))) ->
  bl' ≡ₚ block_nos (listing st) -> mount pass bl' st = Mounted (new_attrs hash sq bs db) (to_file db).
Proof.
  intros Hbs Hser Ho Hp Hb Hl. unfold SetupModel.mount. rewrite Ho, Hp, Hser. cbn [a_rev a_mounted a_fsck a_bs a_seq a_size a_md5 new_attrs].
  rewrite decide_False by naive_solver. set (prm := Params _ _ _). set (r := new_remote bs db sq st).
  assert (forall b, b * bs < List.length db -> is_Some (objs (listing st) !! (b, sq))) as Hin.
  { intros b Hlt. apply elem_of_listing. specialize (Hb b Hlt). unfold SetupModel.fetch in Hb.
    destruct (st !! meta_name b sq) as [o|] eqn:E; [|done]. exists (meta_name b sq), o. split; [done|]. apply meta_name_parsed. }
  assert (forall b, b * bs < List.length db -> sel r b sq = Some sq) as Hsel.
  { intros b Hlt. unfold r. rewrite <- new_remote_sel. apply sel_Some. split_and!; [by apply Hin|done|]. intros; done. }
  rewrite (dl_jobs_ext bs (listing st) r prm bl') by (intros b; unfold r; apply new_remote_sel).
  assert (List.length (to_file db) = List.length db) as Hlen by apply fmap_length.
  assert (download_order hash bs r prm bl' = DlOk (to_file db)) as Hd.
  { apply download_ok; [done| | |by rewrite Hlen|done|].
    - intros k o E. unfold r in E. rewrite new_remote_lookup in E. apply fmap_Some in E as (? & _ & ->). case_decide; [|cbn; lia].
      unfold to_file, block. rewrite fmap_length, take_length. lia.
    - rewrite Hl. apply NoDup_Permutation; [apply nodup_block_nos..|]. intros b. rewrite !elem_of_block_nos. unfold r. by setoid_rewrite new_remote_some.
    - intros b Hlt. rewrite Hlen in Hlt. exists sq, (to_file (block bs b db)). split_and!; [by apply Hsel| |].
      + unfold r. rewrite new_remote_lookup. destruct (Hin b Hlt) as [? ->]. cbn. by rewrite decide_True.
      + intros i Hi _. by apply byte_at_block. }
  unfold download_order in Hd. destruct (dl_jobs bs r prm bl') as [|js] eqn:Ej; [done|].
  rewrite (download_blocks_run _ _ _ r).
  - destruct (dl_run bs r js []); [done|]. cbn [p_size p_md5 prm] in Hd. case_decide; [|done]. by injection Hd as ->.
  - intros b s Hjs. destruct (dl_jobs_ok bs r prm bl') as (js' & E & Ejs).
    { intros b' _ Hlt. exists sq. by apply Hsel. }
    rewrite E in Ej. injection Ej as <-. rewrite Ejs in Hjs. apply elem_of_list_omap in Hjs as (b' & _ & E'). case_decide as D; [done|].
    cbn [p_size prm] in D. cbn [p_seq prm] in E'. rewrite (Hsel b') in E' by lia. cbn in E'. injection E' as -> <-.
    exists [], (block bs b db). split; [apply Hb; lia|]. unfold r. rewrite new_remote_lookup. destruct (Hin b) as [? ->]; [lia|]. cbn. by rewrite decide_True.
Qed.
Lemma open_plain pass st : st !! PASSPHRASE = None -> is_Some (st !! S3QL_PARAMS) -> open_backend pass st = Opened None.
Proof. intros H1 H2. unfold SetupModel.open_backend. rewrite H1. by rewrite decide_True by (by left). Qed.
Lemma fetch_some p k st r : fetch p k st = Some r -> is_Some (st !! k).
Proof. unfold SetupModel.fetch. destruct (st !! k); [eauto|done]. Qed.

(** C54. Whatever the storage contains (except for an existing file system), a new file system can be mounted as soon as s3ql_params
    is stored, and has the database that mkfs created.  Without encryption: unless there is an old s3ql_passphrase. *)
Theorem mkfs_mountable wrap pw alg now sq bs db bl n st st' pass bl' : env_ok -> (forall j, now j <> []) -> 0 < bs ->
  (forall a, deserialize (serialize a) = Some a) -> bl ≡ₚ seq 0 (nblocks bs (List.length db)) ->
  mkfs wrap pw alg now sq bs db bl n st = (st', true) -> List.length (mkfs_items wrap pw sq bs db bl) - 1 <= n ->
  match wrap with Some w => pass = w | None => st !! PASSPHRASE = None end ->
  bl' ≡ₚ block_nos (listing st') -> mount pass bl' st' = Mounted (new_attrs hash sq bs db) (to_file db).
Proof.
  intros He Hn Hbs Hser Hbl E Hlen Hw Hl. apply mkfs_true in E as [Hx ->].
  assert (NoDup (it_key <$> take n (mkfs_items wrap pw sq bs db bl))) as Hd.
  { rewrite fmap_take. apply NoDup_take, items_nodup. rewrite Hbl. apply NoDup_seq. }
  assert (forall x, x ∈ take n (mkfs_items wrap pw sq bs db bl) -> fetch (it_pass x) (it_key x) (stores alg now 0 (take n (mkfs_items wrap pw sq bs db bl)) st) = Some (Ok ([], it_data x))) as Hf.
  { intros x Hin. by apply stores_fetch. }
  pose proof (fun x => items_take wrap pw sq bs db bl n x Hlen) as Hin. set (st' := stores _ _ _ _ _) in *.
  assert (fetch (p_of wrap pw) S3QL_PARAMS st' = Some (Ok ([], serialize (new_attrs hash sq bs db)))) as Hp.
  { refine (Hf (Item (p_of wrap pw) S3QL_PARAMS _) (Hin _ _)). apply elem_of_app. right. apply elem_of_app. right. left. }
  apply (mount_new wrap pw); [done..| |done| |done].
  - destruct wrap as [w|].
    + subst pass. apply fetch_open. refine (Hf (Item (Some w) PASSPHRASE pw) (Hin _ _)). apply elem_of_app. left. left.
    + apply open_plain; [|by eapply fetch_some]. unfold st'. rewrite stores_other; [done|]. rewrite fmap_take. intros F. apply elem_of_take_sub in F.
      unfold SetupModel.mkfs_items in F. cbn [app] in F. rewrite fmap_app, <- list_fmap_compose in F. apply elem_of_app in F as [(b & F & _)%elem_of_list_fmap|F].
      * cbn in F. destruct (names_differ b sq sq PASSPHRASE) as (H & _); [apply special_keys; left|]. by destruct H.
      * cbn in F. apply elem_of_cons in F as [F|[F|F%elem_of_nil]%elem_of_cons]; [by vm_compute in F| |done].
        destruct (names_differ 0 sq sq PASSPHRASE) as (_ & H & _); [apply special_keys; left|]. by destruct H.
  - intros b Hlt. refine (Hf (Item (p_of wrap pw) (meta_name b sq) (block bs b db)) (Hin _ _)). apply elem_of_app. right. apply elem_of_app. left.
    apply (elem_of_list_fmap_1 (fun b => Item (p_of wrap pw) (meta_name b sq) (block bs b db))). rewrite Hbl. apply elem_of_seq. split; [lia|]. cbn. by apply nblocks_lt.
Qed.
(** What is mounted was neither mounted nor in need of a check, and its database has the recorded size and checksum. *)
Theorem mount_checked pass bl st a f : mount pass bl st = Mounted a f -> a_rev a = CURRENT_FS_REV /\ a_mounted a = false /\ a_fsck a = false /\ hash f = a_md5 a /\ List.length f = a_size a.
Proof.
  unfold SetupModel.mount. intros E. destruct (open_backend pass st) as [p| | |]; [|done..]. destruct (fetch p S3QL_PARAMS st) as [[[? buf]| | |]|]; [|done..]. destruct (deserialize buf) as [a'|]; [|done].
  destruct (decide _) as [|N]; [done|]. destruct (dl_jobs _ _ _ _) as [|js]; [done|]. destruct (download_blocks _ _ _ _ _) as [f'|]; [|done]. destruct (decide (hash _ = _)) as [H|]; [|done]. injection E as <- <-.
  split_and!; [destruct (decide (a_rev a' = CURRENT_FS_REV)); [done|tauto]|destruct (a_mounted a'); [tauto|done]|destruct (a_fsck a'); [tauto|done]|done|]. 
  unfold ftrunc. rewrite app_length, take_length, replicate_length. lia.
Qed.
(** Wherever mkfs is interrupted: either it can be repeated, or the file system can already be mounted. *)
Theorem mkfs_interrupted wrap pw alg now sq bs db bl n st st' pass bl' : env_ok -> (forall j, now j <> []) -> 0 < bs ->
  (forall a, deserialize (serialize a) = Some a) -> bl ≡ₚ seq 0 (nblocks bs (List.length db)) ->
  mkfs wrap pw alg now sq bs db bl n st = (st', true) ->
  match wrap with Some w => pass = w | None => st !! PASSPHRASE = None end -> bl' ≡ₚ block_nos (listing st') ->
  (forall wrap2 pw2 alg2 now2 sq2 bs2 db2 bl2 n2, exists st2, mkfs wrap2 pw2 alg2 now2 sq2 bs2 db2 bl2 n2 st' = (st2, true)) \/
  mount pass bl' st' = Mounted (new_attrs hash sq bs db) (to_file db).
Proof.
  intros He Hn Hbs Hser Hbl E Hw Hl. destruct (decide (List.length (mkfs_items wrap pw sq bs db bl) - 1 <= n)) as [D|D].
  - right. by eapply mkfs_mountable.
  - left. intros. apply mkfs_true in E as [Hx ->]. unfold SetupModel.mkfs at 1. rewrite early_exists; [by eexists|done|lia].
Qed.

(** Without encryption, an s3ql_passphrase left by an interrupted mkfs (or by an interrupted removal) makes the new file system
    unusable: it is taken for an encrypted one, and no passphrase opens it. *)
Theorem plain_leftover_refuted pw alg now sq bs db bl n st : NoDup bl -> is_Some (st !! PASSPHRASE) -> exists_fs st = false ->
  exists st', mkfs None pw alg now sq bs db bl n st = (st', true) /\ forall pass bl', mount pass bl' st' = MountError.
Proof.
  intros Hbl [o Ho] Hx. unfold SetupModel.mkfs. rewrite Hx. eexists. split; [done|]. intros pass bl'.
  set (st' := stores _ _ _ _ _). unfold SetupModel.mount, SetupModel.open_backend.
  assert (st' !! PASSPHRASE = st !! PASSPHRASE) as Hp.
  { apply stores_other. rewrite fmap_take. intros F. apply elem_of_take_sub in F.
    unfold SetupModel.mkfs_items in F. cbn [app] in F. rewrite fmap_app, <- list_fmap_compose in F. apply elem_of_app in F as [(b & F & _)%elem_of_list_fmap|F].
    * cbn in F. destruct (names_differ b sq sq PASSPHRASE) as (H & _); [apply special_keys; left|]. by destruct H.
    * cbn in F. apply elem_of_cons in F as [F|[F|F%elem_of_nil]%elem_of_cons]; [by vm_compute in F| |done].
      destruct (names_differ 0 sq sq PASSPHRASE) as (_ & H & _); [apply special_keys; left|]. by destruct H. }
  rewrite Hp, Ho. destruct (fetch (Some pass) PASSPHRASE st') as [[[m pw']| | |]|]; try done.
  destruct (fetch (Some pw') S3QL_PARAMS st') as [[[m' buf]| | |]|] eqn:E; try done. exfalso.
  destruct (decide (List.length (mkfs_items None pw sq bs db bl) - 1 <= n)) as [D|D].
  - assert (Item None S3QL_PARAMS (serialize (new_attrs hash sq bs db)) ∈ take n (mkfs_items None pw sq bs db bl)) as Hin.
    { apply items_take; [done|]. apply elem_of_app. right. apply elem_of_app. right. left. }
    apply (stores_lookup alg now 0 _ st) in Hin as (j & [m2 o2] & E2 & El); [|rewrite fmap_take; by apply NoDup_take, items_nodup].
    cbn [it_key it_pass it_data] in *. unfold SetupModel.fetch in E. fold st' in El. rewrite El in E. injection E as E.
    apply (encryption_is_not_mixed bufsize cdec sha256 hmac decomp thaw (Some pw') S3QL_PARAMS m2 o2) in E as [_ E].
    enough (Some pw' = None) by done. apply E. unfold write_fh in E2. rewrite decide_False in E2 by (intros F; by apply F). injection E2 as <- <-. done.
  - unfold SetupModel.fetch in E. assert (exists_fs st' = false) as Hf by (apply early_exists; [done|lia]).
    unfold exists_fs in Hf. apply bool_decide_eq_false in Hf. destruct (st' !! S3QL_PARAMS) eqn:Es; [|done]. apply Hf. left. done.
Qed.
(** mkfs does not notice a file system whose s3ql_params is lost, although its metadata and the older s3ql_params_* are there: all
    copies of the master key are overwritten. *)
Theorem params_lost_refuted w pw sq bs db bl alg now st w2 pw2 sq2 db2 bl2 now2 alg2 : env_ok -> (forall j, now2 j <> []) -> NoDup bl2 ->
  st !! S3QL_METADATA = None ->
  let st1 := delete S3QL_PARAMS (stores alg now 0 (mkfs_items (Some w) pw sq bs db bl) st) in
  exists st2, mkfs (Some w2) pw2 alg2 now2 sq2 bs db2 bl2 (List.length (mkfs_items (Some w2) pw2 sq2 bs db2 bl2)) st1 = (st2, true) /\
    (forall k, k ∈ keys -> fetch (Some w2) k st2 = Some (Ok ([], pw2))) /\
    (~ coincidence w w2 -> open_backend w st2 = WrongPassphrase).
Proof.
  intros He Hn Hb Hm st1. assert (exists_fs st1 = false) as Hx.
  { unfold exists_fs. apply bool_decide_eq_false. unfold st1. rewrite lookup_delete, lookup_delete_ne by done. rewrite stores_other; [rewrite Hm; by intros [[? [=]]|[? [=]]]|].
    intros F. unfold SetupModel.mkfs_items in F. rewrite !fmap_app in F. apply elem_of_app in F as [F|[F|F]%elem_of_app].
    - repeat (apply elem_of_cons in F as [F|F]; [by vm_compute in F|]). by apply elem_of_nil in F.
    - rewrite <- list_fmap_compose in F. apply elem_of_list_fmap in F as (b & F & _). cbn in F. destruct (names_differ b sq sq _ special_metadata) as (H & _). by destruct H.
    - cbn in F. apply elem_of_cons in F as [F|[F|F%elem_of_nil]%elem_of_cons]; [by vm_compute in F| |done].
      destruct (names_differ 0 sq sq _ special_metadata) as (_ & H & _). by destruct H. }
  unfold SetupModel.mkfs. rewrite Hx. eexists. split; [done|]. rewrite firstn_all. pose proof (items_nodup (Some w2) pw2 sq2 bs db2 bl2 Hb) as Hd.
  assert (forall k, k ∈ keys -> Item (Some w2) k pw2 ∈ mkfs_items (Some w2) pw2 sq2 bs db2 bl2) as Hin.
  { intros k Hk. unfold SetupModel.mkfs_items. apply elem_of_app. left. by apply (elem_of_list_fmap_1 (fun k => Item (Some w2) k pw2)). }
  split.
  - intros k Hk. by apply (stores_fetch alg2 now2 0 _ st1 (Item (Some w2) k pw2)); [..|apply Hin].
  - intros Hc. eapply open_other; [done|apply Hin; left|done].
Qed.
End props.

(** * A concrete instance *)
Definition ex2_freeze (m : mapping) : bytes := match m with [(_, VInt z)] => replicate (Z.to_nat z) x01 | _ => [] end.
Definition ex2_thaw (b : bytes) : option mapping := Some [(str "__size", VInt (Z.of_nat (List.length b)))].
Fixpoint unary (l : list nat) : bytes := match l with [] => [] | n :: l => replicate n x01 ++ [x00] ++ unary l end.
Fixpoint un_unary (acc : nat) (b : bytes) : list nat :=
  match b with [] => [] | x :: b => if decide (x = x00) then acc :: un_unary 0 b else un_unary (S acc) b end.
Definition bit (b : bool) : nat := if b then 1 else 0.
Definition ex_ser (a : attrs) : bytes := unary ([a_rev a; a_seq a; a_size a; bit (a_mounted a); bit (a_fsck a); a_bs a] ++ a_md5 a).
Definition ex_deser (b : bytes) : option attrs :=
  match un_unary 0 b with r :: s :: z :: m :: f :: bs :: md5 => Some (Attrs r s z md5 (bool_decide (m = 1)) (bool_decide (f = 1)) bs) | _ => None end.
Definition ex_hash (f : file) : list nat := [List.length f; nth 0 f 0].
Definition ex_now (i : nat) : bytes := byte_of (N.of_nat i) :: str "234567".
(** Depends on the key, so that a wrong passphrase is noticed. *)
Definition ex2_hmac (k t : bytes) : bytes := take 32 (take 16 (k ++ replicate 16 x00) ++ rev t ++ replicate 32 x00).
Example ex2_hmac_ok : hmac_ok ex2_hmac.
Proof. intros k t. unfold ex2_hmac. rewrite !take_length, !app_length, !take_length, !replicate_length. lia. Qed.
Definition ex_env : env_ok 4 ex_c ex_c ex2_hmac ex_comp ex_decomp ex2_freeze ex2_thaw.
Proof.
  split; [lia|done|apply ex_cipher|apply ex2_hmac_ok|apply ex_compressor|]. intros n. unfold freeze_ok, ex2_thaw, ex2_freeze. by rewrite replicate_length, Nat2Z.id.
Qed.
Lemma un_unary_replicate n acc b : un_unary acc (replicate n x01 ++ x00 :: b) = (acc + n) :: un_unary 0 b.
Proof. revert acc. induction n as [|n IH]; intros acc; cbn [replicate app un_unary]; [by rewrite decide_True, Nat.add_0_r by done|]. rewrite decide_False by done. rewrite IH. f_equal. lia. Qed.
Lemma un_unary_unary l : un_unary 0 (unary l) = l.
Proof. induction l as [|n l IH]; [done|]. cbn [unary app]. by rewrite un_unary_replicate, IH. Qed.
Example ex_ser_ok a : ex_deser (ex_ser a) = Some a.
Proof. unfold ex_deser, ex_ser. rewrite un_unary_unary. destruct a as [? ? ? ? [] []]; done. Qed.
Example ex_now_ok j : ex_now j <> [].
Proof. done. Qed.
Notation ex_mkfs := (mkfs 4 ex_c ex_sha ex2_hmac ex_comp ex2_freeze ex_ser ex_hash).
Notation ex_mount := (mount 4 ex_c ex_sha ex2_hmac ex_decomp ex2_thaw ex_deser ex_hash).
Notation ex_open := (open_backend 4 ex_c ex_sha ex2_hmac ex_decomp ex2_thaw).
Notation ex_change := (passphrase 4 ex_c ex_c ex_sha ex2_hmac ex_comp ex_decomp ex2_freeze ex2_thaw).
Definition ex_pw : bytes := str "0123456789abcdef0123456789ABCDEF".
Definition ex_db : bytes := str "database".
(** Left by an interrupted mkfs: a key and a metadata block of another file system. *)
Definition ex_left : storage := (ex_mkfs (Some (str "other")) (str "x") AZlib ex_now 4 3 (str "zzzz") [0; 1] 5 ∅).1.
Definition ex_fs : storage := (ex_mkfs (Some (str "pass")) ex_pw AZlib ex_now 5 3 ex_db [1; 0; 2] 9 ex_left).1.
Example ex_mkfs_ok : exists_fs ex_left = false /\ size ex_left = 5 /\ size ex_fs = 10 /\ List.length (mkfs_items ex_ser ex_hash (Some (str "pass")) ex_pw 5 3 ex_db [1; 0; 2]) = 9 /\
  [1; 0; 2] ≡ₚ seq 0 (nblocks 3 (List.length ex_db)).
Proof. split_and!; [by vm_compute..|]. change (seq 0 (nblocks 3 (List.length ex_db))) with [0; 1; 2]. constructor. Qed.
Example ex_mount_ok : ex_mount (str "pass") [2; 1; 0] ex_fs = Mounted (Attrs 26 5 8 [8; 100] false false 3) (to_file ex_db) /\ ex_open (str "other") ex_fs = WrongPassphrase /\
  (ex_mkfs (Some (str "again")) (str "y") AZlib ex_now 6 3 ex_db [] 9 ex_fs).2 = false.
Proof. split_and!; by vm_compute. Qed.
Example ex_passphrase : ex_open (str "pass") ex_fs = Opened (Some ex_pw) /\ (forall n, n < 5 ->
  let st := (ex_change (str "pass") (str "new one") ANone (fun i => ex_now (20 + i)) n ex_fs).1 in
  ex_open (if decide (n = 0) then str "pass" else str "new one") st = Opened (Some ex_pw) /\ ex_mount (if decide (n = 0) then str "pass" else str "new one") [2; 1; 0] st <> MountError).
Proof. split; [by vm_compute|]. intros n Hn. do 5 (destruct n as [|n]; [split; by vm_compute|]). lia. Qed.
(** With the wrong master key, or after mkfs --plain over a left key, nothing can be read. *)
Example ex_recover : master_key (printed_key ex_pw) = Some ex_pw /\
  let st := (recover_key 4 ex_c ex_sha ex2_hmac ex_comp ex2_freeze (printed_key (replicate 32 x41)) (str "pass") ANone (fun i => ex_now (20 + i)) 4 ex_fs).1 in
  ex_open (str "pass") st = Opened (Some (replicate 32 x41)) /\ ex_mount (str "pass") [2; 1; 0] st = MountError.
Proof. split; [by vm_compute|]. split; by vm_compute. Qed.
Example ex_plain : ex_mount [] [1; 0; 2] (ex_mkfs None [] AZlib ex_now 5 3 ex_db [1; 0; 2] 5 ∅).1 <> MountError /\
  (ex_mkfs None [] AZlib ex_now 5 3 ex_db [1; 0; 2] 5 ex_left).2 = true /\
  ex_mount (str "other") [1; 0; 2] (ex_mkfs None [] AZlib ex_now 5 3 ex_db [1; 0; 2] 5 ex_left).1 = MountError.
Proof. split_and!; by vm_compute. Qed.

Print Assumptions passphrase_opens. Print Assumptions passphrase_data. Print Assumptions passphrase_refused. Print Assumptions passphrase_others_fail.
Print Assumptions passphrase_copies. Print Assumptions backup_copy_refuted. Print Assumptions recover_opens. Print Assumptions recover_malformed.
Print Assumptions recover_wrong_refuted. Print Assumptions master_key_accepted. Print Assumptions printed_key_accepted. Print Assumptions enter_same.
Print Assumptions enter_refuted. Print Assumptions mkfs_refuses. Print Assumptions mkfs_others. Print Assumptions mkfs_mountable.
Print Assumptions mkfs_interrupted. Print Assumptions mount_checked. Print Assumptions plain_leftover_refuted. Print Assumptions params_lost_refuted.
