(** Specification of the encrypted and compressed storage. *)
From stdpp Require Import prelude.
From Coq.Strings Require Import Byte.
From Coq Require Import String Sorted.
From Verif Require Import Bytes ComprencModel.
Local Close Scope string_scope.
Local Open Scope list_scope.

(** One call of write_fh. *)
Record write := Write {
  w_compress : algorithm; w_now : bytes; w_key : bytes; w_file : bytes; w_pos : nat; w_len : nat;
  w_meta : mapping; w_dont : bool }.
Definition w_content (w : write) : bytes := take (w_len w) (drop (w_pos w) (w_file w)).
Definition w_nonce (w : write) : bytes := w_now w ++ w_key w.

(** Values that Python can represent and checksum_basic_mapping accepts: floats have eight bytes, the
    length of byte strings is less than 2^32. *)
Definition val_ok (v : val) : Prop :=
  match v with VFloat d => List.length d = 8 | VBytes b => (N.of_nat (List.length b) < 4294967296)%N | _ => True end.
Definition val_clean (v : val) : Prop := match v with VStr s => nul_free s | _ => True end.
Definition mapping_ok (m : mapping) : Prop := Forall (fun kv => val_ok kv.2) m.
Definition mapping_clean (m : mapping) : Prop := Forall (fun kv => nul_free kv.1 /\ val_clean kv.2) m.
Definition sorted (m : mapping) : Prop := StronglySorted (fun a b : bytes * val => blt a.1 b.1 = true) m.

Section spec.
Context (bufsize : nat) (cenc cdec : bytes -> nat -> byte -> byte) (sha256 : bytes -> bytes) (hmac : bytes -> bytes -> bytes).
Context (comp : algorithm -> list bytes -> bytes) (decomp : algorithm -> list bytes -> option (bytes * bool * bytes)).
Context (freeze : mapping -> bytes) (thaw : bytes -> option mapping).

(** The cipher can be inverted and is a stream cipher; the HMAC has 32 bytes. *)
Definition cipher_ok : Prop := (forall k i b, cdec k i (cenc k i b) = b) /\ (forall k i b, cenc k i (cdec k i b) = b).
Definition hmac_ok : Prop := forall k t, List.length (hmac k t) = 32.
(** A decompressor restores what was compressed, however both are cut into (non-empty) pieces, and
    recognises the end of the stream. *)
Definition compressor_ok : Prop := forall a cs ds, Forall (fun d => d <> []) ds -> List.concat ds = comp a cs ->
  decomp a ds = Some (List.concat cs, true, []).
(** The serialised metadata can be restored (C30), for this metadata. *)
Definition freeze_ok (m : mapping) : Prop := thaw (freeze m) = Some m.

(** What write_fh passes to the underlying backend. *)
Definition stored (p : option bytes) (w : write) : option (mapping * bytes) :=
  write_fh bufsize cenc sha256 hmac comp freeze p (w_compress w) (w_now w) (w_key w) (w_file w) (w_pos w) (w_len w) (w_meta w) (w_dont w).

(** Everything that was authenticated with the passphrase: pairs of a key and a message for which the HMAC
    was computed by a write. *)
Definition authenticated (p : bytes) (hist : list write) (k t : bytes) : Prop :=
  exists w m d, w ∈ hist /\ stored (Some p) w = Some (m, d) /\
    ((k = meta_key sha256 p (w_nonce w) /\ t = encoding m) \/
     (k = data_key sha256 p (w_nonce w) /\ d = upd (cenc k) 0 (t ++ hmac k t))).
(** What is presented to a reader contains the valid HMAC of a message that was never authenticated. *)
Definition forged (p : bytes) (hist : list write) (m : mapping) (d : bytes) : Prop :=
  exists nonce k t, get m (str "nonce") = Some (VBytes nonce) /\ ~ authenticated p hist k t /\
    ((k = meta_key sha256 p nonce /\ t = encoding m /\ get m (str "signature") = Some (VBytes (hmac k t))) \/
     (k = data_key sha256 p nonce /\ exists off, upd (cdec k) 0 (drop off d) = t ++ hmac k t)).

(** The history of an encrypted file system: every write is accepted, metadata can be serialised, names do
    not contain NUL bytes, no nonce is used twice and none ends with "meta" (otherwise a data key would be
    a metadata key). *)
Record history_ok (p : bytes) (hist : list write) : Prop := {
  h_stored : forall w, w ∈ hist -> exists md, stored (Some p) w = Some md /\ mapping_ok md.1;
  h_freeze : forall w, w ∈ hist -> freeze_ok ((str "__size", VInt (Z.of_nat (w_len w))) :: w_meta w);
  h_names : forall w, w ∈ hist -> nul_free (w_key w);
  h_now : forall w, w ∈ hist -> List.length (w_now w) = 8;
  h_nonce : forall w w', w ∈ hist -> w' ∈ hist -> w_nonce w = w_nonce w' -> w = w';
  h_meta : forall w n, w ∈ hist -> w_nonce w <> n ++ str "meta"
}.
(** The hash has no collisions between the inputs used by the writes and those used for the presented nonce. *)
Definition no_collision (p : bytes) (hist : list write) (nonce : bytes) : Prop :=
  forall w a b, w ∈ hist -> a = p ++ w_nonce w \/ a = p ++ w_nonce w ++ str "meta" ->
    b = p ++ nonce \/ b = p ++ nonce ++ str "meta" -> sha256 a = sha256 b -> a = b.
End spec.
