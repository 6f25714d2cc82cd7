(** Property theorems: encrypted and compressed storage (C31-C34). *)
From stdpp Require Import prelude.
From Coq.Strings Require Import Byte.
From Coq Require Import String Sorted.
From Verif Require Import Bytes ComprencModel ComprencSpec ComprencProofs.
Local Close Scope string_scope.
Local Open Scope list_scope.

(** C31. What write_fh stores is read back by readinto_fh, metadata and content. *)
Theorem stored_is_read_back bufsize cenc cdec sha256 hmac comp decomp freeze thaw p w m d :
  0 < bufsize -> (N.of_nat bufsize < 4294967296)%N -> cipher_ok cenc cdec -> hmac_ok hmac -> compressor_ok comp decomp ->
  freeze_ok freeze thaw ((str "__size", VInt (Z.of_nat (w_len w))) :: w_meta w) -> w_now w <> [] ->
  stored bufsize cenc sha256 hmac comp freeze p w = Some (m, d) ->
  readinto_fh bufsize cdec sha256 hmac decomp thaw p (w_key w) m d = Ok (w_meta w, w_content w) /\
  lookup cdec sha256 hmac thaw p (w_key w) m = Ok (w_meta w).
Proof. intros. by eapply write_read. Qed.
(** The streams alone, for every key and every length. *)
Theorem decrypt_after_encrypt bufsize cenc cdec hmac k d len :
  0 < bufsize -> (N.of_nat bufsize < 4294967296)%N -> cipher_ok cenc cdec -> hmac_ok hmac ->
  decrypt_fh bufsize cdec hmac k (encrypt_fh bufsize cenc hmac k d len) = Ok (take len d).
Proof. intros. by apply encrypt_decrypt. Qed.

(** C32. Whatever replaces the data of an encrypted object, reading it fails, unless the replacement
    contains a valid HMAC of a message that was never authenticated. *)
Theorem altered_data_is_detected bufsize cenc cdec sha256 hmac comp decomp freeze thaw p hist w m d d' r :
  0 < bufsize -> (N.of_nat bufsize < 4294967296)%N -> cipher_ok cenc cdec -> hmac_ok hmac -> compressor_ok comp decomp ->
  history_ok bufsize cenc sha256 hmac comp freeze thaw p hist -> no_collision sha256 p hist (w_nonce w) ->
  w ∈ hist -> stored bufsize cenc sha256 hmac comp freeze (Some p) w = Some (m, d) -> d' <> d ->
  readinto_fh bufsize cdec sha256 hmac decomp thaw (Some p) (w_key w) m d' = Ok r ->
  forged bufsize cenc cdec sha256 hmac comp freeze p hist m d'.
Proof. intros. by eapply altered_detected. Qed.

(** C32, C33. Whatever metadata and data are presented under a name: reading them fails, or gives exactly the
    metadata and content of a write under this name, or contains a forgery. *)
Theorem read_is_authentic bufsize cenc cdec sha256 hmac comp decomp freeze thaw p hist key m d meta out :
  0 < bufsize -> (N.of_nat bufsize < 4294967296)%N -> cipher_ok cenc cdec -> hmac_ok hmac -> compressor_ok comp decomp ->
  history_ok bufsize cenc sha256 hmac comp freeze thaw p hist ->
  (forall nonce, get m (str "nonce") = Some (VBytes nonce) -> no_collision sha256 p hist nonce) ->
  nul_free key -> sorted m -> mapping_ok m ->
  readinto_fh bufsize cdec sha256 hmac decomp thaw (Some p) key m d = Ok (meta, out) ->
  forged bufsize cenc cdec sha256 hmac comp freeze p hist m d \/
  exists w, w ∈ hist /\ w_key w = key /\ meta = w_meta w /\ out = w_content w.
Proof.
  intros. destruct (read_authentic bufsize ltac:(done) ltac:(done) cenc cdec sha256 hmac comp decomp freeze thaw ltac:(done) ltac:(done) ltac:(done) p hist key m d meta out)
    as [?|(w & ? & ? & _ & ? & ?)]; [done..|by left|]. right. by exists w.
Qed.
(** C33. The same for lookup, which only sees the metadata. *)
Theorem lookup_is_authentic bufsize cenc cdec sha256 hmac comp freeze thaw p hist key m meta :
  cipher_ok cenc cdec ->
  history_ok bufsize cenc sha256 hmac comp freeze thaw p hist ->
  (forall nonce, get m (str "nonce") = Some (VBytes nonce) -> no_collision sha256 p hist nonce) ->
  nul_free key -> sorted m -> mapping_ok m -> mapping_clean m ->
  lookup cdec sha256 hmac thaw (Some p) key m = Ok meta ->
  forged bufsize cenc cdec sha256 hmac comp freeze p hist m [] \/ exists w, w ∈ hist /\ w_key w = key /\ meta = w_meta w.
Proof. intros. by eapply lookup_authentic. Qed.
(** C33. Encrypted and unencrypted objects are not mixed. *)
Theorem encryption_is_not_mixed bufsize cdec sha256 hmac decomp thaw p key m d :
  (forall r, lookup cdec sha256 hmac thaw p key m = Ok r -> (p = None <-> get m (str "encryption") = Some (VStr (str "None")))) /\
  (forall r, readinto_fh bufsize cdec sha256 hmac decomp thaw p key m d = Ok r -> (p = None <-> get m (str "encryption") = Some (VStr (str "None")))).
Proof. split; intros r; [apply mixed_rejected|apply mixed_rejected_read]. Qed.
(** The condition about names ending in "meta" is necessary: the key that encrypts the data of the object
    [key ++ "meta"] is the key that signs and encrypts the metadata of the object [key] written at the same
    time. *)
Theorem key_separation_refuted sha256 p now key :
  data_key sha256 p (now ++ (key ++ str "meta")) = meta_key sha256 p (now ++ key).
Proof. unfold data_key, meta_key. by rewrite !app_assoc. Qed.

(** C34. Mappings without NUL bytes in strings have different encodings. *)
Theorem encoding_is_injective m1 m2 : mapping_ok m1 -> mapping_ok m2 -> mapping_clean m1 -> mapping_clean m2 ->
  encoding m1 = encoding m2 -> unsigned m1 = unsigned m2.
Proof. exact (encoding_inj m1 m2). Qed.
(** With NUL bytes, two different mappings have the same encoding and therefore the same signature. *)
Theorem encoding_refuted : exists m1 m2, mapping_ok m1 /\ mapping_ok m2 /\ sorted m1 /\ sorted m2 /\
  unsigned m1 <> unsigned m2 /\ encoding m1 = encoding m2.
Proof.
  exists [(str "a", VStr (str "x")); (str "b", VStr (str "y"))], [(str "a", VStr (str "x" ++ x00 :: str "b" ++ x00 :: str "sy"))].
  split; [by repeat constructor|]. split; [by repeat constructor|]. split; [by repeat constructor|]. split; [by repeat constructor|].
  split; [by vm_compute|by vm_compute].
Qed.

(** * A concrete instance *)
Definition flip (b : byte) : byte := match Byte.to_bits b with (a, (b, (c, (d, (e, (f, (g, h))))))) =>
  Byte.of_bits (negb a, (negb b, (negb c, (negb d, (negb e, (negb f, (negb g, negb h))))))) end.
Definition ex_c (k : bytes) (i : nat) (b : byte) : byte := if Nat.even (i + List.length k) then flip b else b.
Definition ex_sha (b : bytes) : bytes := b.
Definition ex_hmac (k t : bytes) : bytes := take 32 (rev t ++ k ++ replicate 32 x00).
Definition ex_comp (a : algorithm) (cs : list bytes) : bytes := List.concat ((fun b => [x01; b]) <$> List.concat cs) ++ [x00].
Fixpoint ex_parse (d : bytes) : option (bytes * bool * bytes) :=
  match d with
  | [] => Some ([], false, [])
  | [b] => if Byte.eqb b x00 then Some ([], true, []) else None
  | b :: c :: d => if Byte.eqb b x00 then Some ([], true, c :: d)
    else match ex_parse d with Some (out, e, r) => Some (c :: out, e, r) | None => None end
  end.
Definition ex_decomp (a : algorithm) (ds : list bytes) := ex_parse (List.concat ds).
Definition ex_freeze (m : mapping) : bytes := List.concat (enc_item <$> m).
Definition ex_w1 := Write AZlib (str "12345678") (str "s3ql_data_1") (str "xxhello, hello, world") 2 19 [(str "k", VStr (str "v"))] false.
Definition ex_w2 := Write AZlib (str "12345679") (str "s3ql_data_2") (str "secret") 0 6 [] true.
Definition ex_m1 := (str "__size", VInt (Z.of_nat (w_len ex_w1))) :: w_meta ex_w1.
Definition ex_m2 := (str "__size", VInt (Z.of_nat (w_len ex_w2))) :: w_meta ex_w2.
Definition ex_thaw (b : bytes) : option mapping :=
  if decide (b = ex_freeze ex_m1) then Some ex_m1 else if decide (b = ex_freeze ex_m2) then Some ex_m2 else None.
Definition ex_hist := [ex_w1; ex_w2].
Definition ex_p := str "passphrase".
Notation ex_stored p w := (stored 4 ex_c ex_sha ex_hmac ex_comp ex_freeze p w).
Notation ex_read := (readinto_fh 4 ex_c ex_sha ex_hmac ex_decomp ex_thaw).

Example ex_cipher : cipher_ok ex_c ex_c.
Proof. assert (forall b, flip (flip b) = b) by (by intros []). split; intros k i b; unfold ex_c; by case_match. Qed.
Example ex_hmac_ok : hmac_ok ex_hmac.
Proof. intros k t. unfold ex_hmac. rewrite take_length, !app_length, replicate_length. lia. Qed.
Example ex_compressor : compressor_ok ex_comp ex_decomp.
Proof.
  intros a cs ds _ E. unfold ex_decomp. rewrite E. unfold ex_comp. induction (List.concat cs) as [|b l IH]; [done|]. cbn in *. by rewrite IH.
Qed.
Example ex_history : history_ok 4 ex_c ex_sha ex_hmac ex_comp ex_freeze ex_thaw ex_p ex_hist.
Proof.
  assert (forall w, w ∈ ex_hist -> w = ex_w1 \/ w = ex_w2) as Hc.
  { intros w Hw. apply elem_of_cons in Hw as [->|Hw]; [by left|]. apply elem_of_list_singleton in Hw. by right. }
  constructor.
  - intros w [-> | ->]%Hc; eexists; (split; [reflexivity|]); cbn; repeat constructor.
  - intros w [-> | ->]%Hc; by vm_compute.
  - intros w [-> | ->]%Hc; apply (bool_decide_unpack _); by vm_compute.
  - intros w [-> | ->]%Hc; done.
  - intros w w' [-> | ->]%Hc [-> | ->]%Hc; by vm_compute.
  - intros w n [-> | ->]%Hc E; apply (f_equal (@rev byte)) in E; rewrite rev_app_distr in E; by vm_compute in E.
Qed.
Example ex_no_collision nonce : no_collision ex_sha ex_p ex_hist nonce.
Proof. by intros w a b _ _ _ E. Qed.
(** Written and read back, with and without a passphrase. *)
Example ex_roundtrip : forall p, p = None \/ p = Some ex_p -> forall w, w = ex_w1 \/ w = ex_w2 ->
  match ex_stored p w with Some (m, d) => ex_read p (w_key w) m d = Ok (w_meta w, w_content w) | None => False end.
Proof. intros p [-> | ->] w [-> | ->]; by vm_compute. Qed.
Example ex_content : w_content ex_w1 = str "hello, hello, world".
Proof. done. Qed.
(** Swapped objects, altered, truncated and extended data are detected. *)
Example ex_swapped : match ex_stored (Some ex_p) ex_w1, ex_stored (Some ex_p) ex_w2 with
  | Some (m1, d1), Some (m2, d2) =>
    ex_read (Some ex_p) (w_key ex_w1) m2 d2 = Corrupted /\ ex_read (Some ex_p) (w_key ex_w1) m1 d2 = Corrupted /\
    ex_read (Some ex_p) (w_key ex_w1) m1 (take 62 d1 ++ x42 :: drop 63 d1) = Corrupted /\ ex_read (Some ex_p) (w_key ex_w1) m1 (take 20 d1) = Corrupted /\
    ex_read (Some ex_p) (w_key ex_w1) m1 (d1 ++ [x00]) = Corrupted
  | _, _ => False end.
Proof. by vm_compute. Qed.
Example ex_mixed : match ex_stored None ex_w1, ex_stored (Some ex_p) ex_w1 with
  | Some (m1, d1), Some (m2, d2) => ex_read (Some ex_p) (w_key ex_w1) m1 d1 = NotEncrypted /\ ex_read None (w_key ex_w1) m2 d2 = Corrupted
  | _, _ => False end.
Proof. by vm_compute. Qed.

Print Assumptions stored_is_read_back.
Print Assumptions decrypt_after_encrypt.
Print Assumptions altered_data_is_detected.
Print Assumptions read_is_authentic.
Print Assumptions lookup_is_authentic.
Print Assumptions encryption_is_not_mixed.
Print Assumptions key_separation_refuted.
Print Assumptions encoding_is_injective.
Print Assumptions encoding_refuted.
