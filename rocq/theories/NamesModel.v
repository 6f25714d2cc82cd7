(** Names of metadata and parameter objects (src/s3ql/database.py 62-65, 878-897, 1056-1065, 1270) and of data objects
    (block_cache.py 373, fsck.py 1122-1135). *)
From stdpp Require Import prelude.
From Coq.Strings Require Import Byte.
From Coq Require Import String.
From Verif Require Import Bytes.
Local Close Scope string_scope.
Local Open Scope list_scope.

(** '%x' % n *)
Definition hexdig (d : nat) : byte := nth d (str "0123456789abcdef") x30.
Fixpoint hex_fuel (fuel n : nat) : bytes :=
  match fuel with O => [] | S fuel => (if decide (n < 16) then [] else hex_fuel fuel (n / 16)) ++ [hexdig (n mod 16)] end.
Definition hex (n : nat) : bytes := hex_fuel (S n) n.
(** '%0<w>x' % n *)
Definition hexpad (w n : nat) : bytes := replicate (w - List.length (hex n)) x30 ++ hex n.
(** [0-9a-f] and int(…, base=16) *)
Definition unhexdig (c : byte) : option nat :=
  let v := N.to_nat (Byte.to_N c) in
  if decide (48 <= v <= 57) then Some (v - 48) else if decide (97 <= v <= 102) then Some (v - 87) else None.
Fixpoint unhex (acc : nat) (s : bytes) : option nat :=
  match s with [] => Some acc | c :: s => d ← unhexdig c; unhex (acc * 16 + d) s end.
(** METADATA_OBJ_NAME 64; 's3ql_params_%010x' 1270 *)
Definition META : bytes := str "s3ql_metadata_".
Definition PARAMS : bytes := str "s3ql_params_".
Definition meta_name (b s : nat) : bytes := META ++ hexpad 12 b ++ [x5f] ++ hexpad 10 s.
Definition params_name (s : nat) : bytes := PARAMS ++ hexpad 10 s.
(** The longest beginning of hexadecimal digits. *)
Fixpoint span_hex (s : bytes) : bytes * bytes :=
  match s with
  | [] => ([], [])
  | c :: s' => match unhexdig c with Some _ => let (a, r) := span_hex s' in (c :: a, r) | None => ([], s) end
  end.
Definition strip_prefix (p s : bytes) : option bytes := if decide (take (List.length p) s = p) then Some (drop (List.length p) s) else None.
(** METADATA_OBJ_RE 65 and 892-893.  Simplification: '$' also matches before a final newline. *)
Definition parse_meta (k : bytes) : option (nat * nat) :=
  s ← strip_prefix META k;
  let (a, r) := span_hex s in
  match a, r with
  | _ :: _, u :: c :: r => if decide (u = x5f) then b ← unhex 0 a; s ← unhex 0 (c :: r); Some (b, s) else None
  | _, _ => None
  end.
(** get_available_seq_nos 1056-1065 *)
Definition parse_params (k : bytes) : option nat :=
  s ← strip_prefix PARAMS k; if decide (s = []) then None else unhex 0 s.
