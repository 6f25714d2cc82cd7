(** Compression, encryption and authentication of stored objects: backends/comprenc.py and
    checksum_basic_mapping (backends/common.py:585-631).

    The cipher (AES in CTR mode, comprenc.py:89-108), the hash (SHA-256), the HMAC, the compressors and the
    serialisation of mappings are parameters.  The choice between running in a thread or directly is not
    modelled.  A mapping is a list sorted by key. *)
From stdpp Require Import prelude.
From stdpp Require Import pretty strings.
From Coq.Strings Require Import Byte.
From Coq Require Import String Ascii.
From Verif Require Import Bytes.
Local Close Scope string_scope.
Local Open Scope list_scope.

Inductive val := VStr (s : bytes) | VNone | VBool (b : bool) | VInt (z : Z) | VFloat (d : bytes) | VBytes (b : bytes).
Notation mapping := (list (bytes * val)).
Global Instance val_eq_dec : EqDecision val.
Proof. solve_decision. Defined.

(** '%d' % z *)
Definition decimal (z : Z) : bytes := str (pretty z).
(** One item of checksum_basic_mapping, backends/common.py:611-629; struct.pack('<d') yields 8 bytes. *)
Definition enc_val (v : val) : bytes :=
  match v with
  | VStr s => [x00; "s"%byte] ++ s ++ [x00]
  | VNone => [x00; "n"%byte]
  | VBool b => if b then [x00; "t"%byte] else [x00; "f"%byte]
  | VInt z => [x00; "i"%byte] ++ decimal z ++ [x00]
  | VFloat d => [x00; "d"%byte] ++ d
  | VBytes b => [x00; "b"%byte] ++ pack32 (N.of_nat (List.length b)) ++ b
  end.
Definition enc_item (kv : bytes * val) : bytes := kv.1 ++ enc_val kv.2.
Definition unsigned (m : mapping) : mapping := filter (fun kv => kv.1 <> str "signature") m.
(** The bytes that are authenticated by checksum_basic_mapping. *)
Definition encoding (m : mapping) : bytes := List.concat (enc_item <$> unsigned m).

Fixpoint get (m : mapping) (k : bytes) : option val :=
  match m with [] => None | (k', v) :: m => if decide (k' = k) then Some v else get m k end.

Inductive result (A : Type) := Ok (a : A) | Corrupted | NotEncrypted | OtherError.
Arguments Ok {A} a.
Arguments Corrupted {A}.
Arguments NotEncrypted {A}.
Arguments OtherError {A}.

Inductive algorithm := ANone | AZlib | ABzip2 | ALzma.
Global Instance algorithm_eq_dec : EqDecision algorithm.
Proof. solve_decision. Defined.
(** _METADATA_TOKEN 61-66, _ALGORITHM_BY_TOKEN 67 *)
Definition token (a : algorithm) : bytes :=
  match a with ANone => str "None" | AZlib => str "ZLIB" | ABzip2 => str "BZIP2" | ALzma => str "LZMA" end.
Definition algorithm_by_token (t : bytes) : option algorithm :=
  if decide (t = str "None") then Some ANone else if decide (t = str "ZLIB") then Some AZlib
  else if decide (t = str "BZIP2") then Some ABzip2 else if decide (t = str "LZMA") then Some ALzma else None.

Section comprenc.
Context (bufsize : nat).
(** encrypt and decrypt the byte at a position of the stream, for a key *)
Context (cenc cdec : bytes -> nat -> byte -> byte).
Context (sha256 : bytes -> bytes) (hmac : bytes -> bytes -> bytes).
(** the complete output of a compressor for a sequence of inputs (compress, ..., compress, flush) *)
Context (comp : algorithm -> list bytes -> bytes).
(** what a decompressor returns for a sequence of inputs: output, eof, unused_data; [None]: an exception *)
Context (decomp : algorithm -> list bytes -> option (bytes * bool * bytes)).
Context (freeze : mapping -> bytes) (thaw : bytes -> option mapping).

(** CipherContext.update *)
Definition upd (f : nat -> byte -> byte) (i : nat) (b : bytes) : bytes := imap (fun j x => f (i + j) x) b.

(** The chunks read by the loops of compress_fh, encrypt_fh and copyfh: at most [len] bytes, in pieces of
    at most BUFSIZE (comprenc.py:523-530, 545-551); [fuel] is at least the number of bytes. *)
Fixpoint chunks (fuel len : nat) (d : bytes) : list bytes :=
  match fuel with
  | 0 => []
  | S fuel =>
    if decide (0 < len) then
      let b := take (min bufsize len) d in
      if decide (b = []) then [] else b :: chunks fuel (len - List.length b) (drop (min bufsize len) d)
    else []
  end.

(** compress_fh 518-536 *)
Definition compress_fh (a : algorithm) (d : bytes) (len : nat) : bytes := comp a (chunks (S (List.length d)) len d).
(** decompress_fh 567-581 *)
Definition decompress_fh (a : algorithm) (d : bytes) : result bytes :=
  match decomp a (chunks (S (List.length d)) (List.length d) d) with
  | None => Corrupted
  | Some (out, eof, unused) => if negb eof then Corrupted else if decide (unused = []) then Ok out else Corrupted
  end.

(** What encrypt_fh passes to the cipher and to the HMAC: every chunk preceded by its length, and a zero. *)
Definition frame (b : bytes) : bytes := pack32 (N.of_nat (List.length b)) ++ b.
Definition transcript (cs : list bytes) : bytes := List.concat (frame <$> cs) ++ pack32 0.
(** encrypt_fh 539-564 *)
Definition encrypt_fh (k : bytes) (d : bytes) (len : nat) : bytes :=
  let t := transcript (chunks (S (List.length d)) len d) in upd (cenc k) 0 (t ++ hmac k t).

(** decrypt_fh 584-617.  [i]: bytes decrypted so far; [l]: rest of the input; [t]: input of the HMAC so
    far; [out]: what has been written to ofh. *)
Fixpoint read_packet (fuel : nat) (k : bytes) (n i : nat) (l t out : bytes) : option (nat * bytes * bytes * bytes) :=
  match fuel with
  | 0 => None
  | S fuel =>
    if decide (n = 0) then Some (i, l, t, out)
    else
      let b := take (min n bufsize) l in
      if decide (b = []) then None                                        (* Premature end of stream *)
      else
        let p := upd (cdec k) i b in
        read_packet fuel k (n - List.length b) (i + List.length b) (drop (min n bufsize) l) (t ++ p) (out ++ p)
  end.
Fixpoint read_packets (fuel : nat) (k : bytes) (i : nat) (l t out : bytes) : option (nat * bytes * bytes * bytes) :=
  match fuel with
  | 0 => None
  | S fuel =>
    let b := take 4 l in
    if decide (b = []) then None                                          (* Premature end of stream *)
    else
      let p := upd (cdec k) i b in
      if decide (List.length p <> 4) then None                            (* Short read during decryption *)
      else
        let n := N.to_nat (unpack32 p) in
        if decide (n = 0) then Some (i + 4, drop 4 l, t ++ p, out)
        else
          match read_packet (S (List.length l)) k n (i + 4) (drop 4 l) (t ++ p) out with
          | None => None
          | Some (i, l, t, out) => read_packets fuel k i l t out
          end
  end.
Definition decrypt_fh (k : bytes) (l : bytes) : result bytes :=
  match read_packets (S (List.length l)) k 0 l [] [] with
  | None => Corrupted
  | Some (i, l, t, out) =>
    let tag := upd (cdec k) i (take 32 l) in
    if decide (take bufsize (drop 32 l) = []) then if decide (tag = hmac k t) then Ok out else Corrupted
    else Corrupted                                                        (* Extraneous data *)
  end.

(** 253, 487; 287, 494 *)
Definition meta_key (p nonce : bytes) : bytes := sha256 (p ++ nonce ++ str "meta").
Definition data_key (p nonce : bytes) : bytes := sha256 (p ++ nonce).

(** Python's == 2: also true for the float 2.0 *)
Definition is_two (v : option val) : Prop := v = Some (VInt 2) \/ v = Some (VFloat [x00; x00; x00; x00; x00; x00; x00; x40]).
Global Instance is_two_dec v : Decision (is_two v).
Proof. unfold is_two. apply _. Defined.
(** _verify_meta 202-271 *)
Definition verify_meta (passphrase : option bytes) (key : bytes) (m : mapping) : result (option bytes * mapping) :=
  if decide (~ is_two (get m (str "format_version"))) then Corrupted
  else match get m (str "encryption"), get m (str "compression"), get m (str "data") with
  | Some encr, Some _, Some data =>
    match passphrase, decide (encr <> VStr (str "None")) with
    | None, left _ => Corrupted
    | Some _, right _ => NotEncrypted
    | None, right _ =>
      match data with
      | VBytes b => match thaw b with Some m => Ok (None, m) | None => Corrupted end
      | _ => Corrupted
      end
    | Some p, left _ =>
      match data, get m (str "nonce"), get m (str "signature"), get m (str "object_id") with
      | VBytes b, Some (VBytes nonce), Some (VBytes sig), Some (VStr stored_key) =>
        if decide (sig <> hmac (meta_key p nonce) (encoding m)) then Corrupted
        else if decide (stored_key <> key) then Corrupted
        else match thaw (upd (cdec (meta_key p nonce)) 0 b) with Some m => Ok (Some nonce, m) | None => Corrupted end
      | _, _, _, _ => Corrupted
      end
    end
  | _, _, _ => Corrupted
  end.

Definition pop_size (m : mapping) : mapping := filter (fun kv => kv.1 <> str "__size") m.
(** lookup 183-187; [m]: the metadata delivered by the underlying backend *)
Definition lookup (passphrase : option bytes) (key : bytes) (m : mapping) : result mapping :=
  match verify_meta passphrase key m with
  | Ok (_, meta) => Ok (pop_size meta)
  | Corrupted => Corrupted | NotEncrypted => NotEncrypted | OtherError => OtherError
  end.

(** readinto_fh 273-380; [m], [d]: what the underlying backend delivers.  Returns the metadata and the data. *)
Definition readinto_fh (passphrase : option bytes) (key : bytes) (m : mapping) (d : bytes) : result (mapping * bytes) :=
  match verify_meta passphrase key m with
  | Corrupted => Corrupted | NotEncrypted => NotEncrypted | OtherError => OtherError
  | Ok (nonce, meta) =>
    let dkey := match passphrase, nonce with
      | Some p, Some n => if decide (n = []) then None else Some (data_key p n) | _, _ => None end in   (* 285-290 *)
    match get m (str "compression"), get m (str "encryption") with
    | Some (VStr ct), Some (VStr ea) =>
      if decide (ea <> str "AES_v2" /\ ea <> str "None") then OtherError
      else match algorithm_by_token ct with
      | None => OtherError
      | Some alg =>
        match match get m (str "payload_offset") with
              | None => Some 0 | Some (VInt z) => if decide (0 <= z)%Z then Some (Z.to_nat z) else None | Some _ => None end with
        | None => OtherError
        | Some off =>
          let buf := drop off d in
          let plain := match dkey with Some k => decrypt_fh k buf | None => Ok buf end in
          match plain with
          | Ok b =>
            match (if decide (alg = ANone) then Ok b else decompress_fh alg b) with
            | Ok out => Ok (pop_size meta, out)
            | Corrupted => Corrupted | NotEncrypted => NotEncrypted | OtherError => OtherError
            end
          | Corrupted => Corrupted | NotEncrypted => NotEncrypted | OtherError => OtherError
          end
        end
      end
    | _, _ => OtherError
    end
  end.

(** write_fh 386-436 and _compress_sync 438-498: [len] bytes of [d] from position [pos]; [now]: the 8 bytes
    of struct.pack('<d', time.time()).  Returns what is passed to the underlying backend, [None] if a
    ValueError is raised. *)
Definition write_fh (passphrase : option bytes) (compress : algorithm) (now key : bytes) (d : bytes) (pos len : nat)
    (metadata : mapping) (dont_compress : bool) : option (mapping * bytes) :=
  if decide (get metadata (str "__size") <> None) then None
  else
    let meta_buf := freeze ((str "__size", VInt (Z.of_nat len)) :: metadata) in
    let alg := if dont_compress then ANone else compress in
    let d1 :=
      if decide (alg = ANone) then
        match passphrase with
        | None => if decide (pos <> 0 \/ List.length d <> len) then List.concat (chunks (S (List.length d)) len (drop pos d)) else d
        | Some _ => take len (drop pos d)    (* read by encrypt_fh below, from the current position *)
        end
      else compress_fh alg (drop pos d) len in
    match passphrase with
    | None => Some ([(str "compression", VStr (token alg)); (str "data", VBytes meta_buf); (str "encryption", VStr (str "None"));
                     (str "format_version", VInt 2)], d1)
    | Some p =>
      let nonce := now ++ key in
      let m := [(str "compression", VStr (token alg)); (str "data", VBytes (upd (cenc (meta_key p nonce)) 0 meta_buf));
                (str "encryption", VStr (str "AES_v2")); (str "format_version", VInt 2); (str "nonce", VBytes nonce);
                (str "object_id", VStr key)] in
      Some (m ++ [(str "signature", VBytes (hmac (meta_key p nonce) (encoding m)))], encrypt_fh (data_key p nonce) d1 (List.length d1))
    end.
End comprenc.
