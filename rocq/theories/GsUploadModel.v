(** Objects in Google Storage: src/s3ql/backends/gs.py 341-344, 409-412 and 442-445 (paths), 457-518 (write_fh), 676-688 (_wrap_user_meta), 691-732 (_unwrap_user_meta),
    with json.dumps (python's json.encoder, ASCII only) of the mapping that write_fh builds.
    Texts are lists of characters (N), contents lists of bytes. repr and literal_eval are those of FreezeModel. Left out: complex numbers as values; literals that
    repr never writes are errors here; a reply is the list of attributes that it contains (its JSON syntax is left to the library). *)
From stdpp Require Import prelude.
From Coq Require Import NArith ZArith Ascii String.
From Verif Require Import CodecModel FreezeModel.
Local Open Scope N_scope.

Definition lit (s : string) : text := (fun c => N_of_ascii c) <$> list_ascii_of_string s.

(** ** json.dumps: json/encoder.py ESCAPE_ASCII, py_encode_basestring_ascii *)
Definition jchar (c : N) : text :=
  if c =? 34 then [92; 34] else if c =? 92 then [92; 92] else if c =? 10 then [92; 110] else if c =? 13 then [92; 114] else if c =? 9 then [92; 116]
  else if c =? 12 then [92; 102] else if c =? 8 then [92; 98]
  else if (32 <=? c) && (c <=? 126) then [c]
  else if c <? 0x10000 then 92 :: 117 :: hexn 4 c
  else 92 :: 117 :: hexn 4 (0xd800 + (c - 0x10000) / 1024) ++ 92 :: 117 :: hexn 4 (0xdc00 + (c - 0x10000) mod 1024).
Definition jstr (s : text) : text := 34 :: flat_map jchar s ++ [34].
Definition jattrs (d : list (text * text)) : text := 123 :: comma ((fun kv => jstr kv.1 ++ [58; 32] ++ jstr kv.2) <$> d) ++ [125].

Section gs.
Context (printable : N -> bool) {F : Type} `{EqDecision F} (fshow : F -> text) (fread : text -> option F).
Notation value := (@value F). Notation mapping := (@mapping F).

(** 676-688; [None]: TypeError *)
Fixpoint wrap (d : mapping) : option (list (text * text)) :=
  match d with
  | [] => Some []
  | (VStr k, v) :: d => r ← wrap d; Some ((k, repr printable fshow (elementary v)) :: r)
  | _ :: _ => None
  end.

(** literal_eval of a single value; [None]: an exception *)
Definition value_eval (l : text) : option value :=
  if bool_decide (0 ∈ l) then None else match literal fread (skip l) with Some (v, r) => match skip r with [] => Some v | _ => None end | None => None end.
Fixpoint attr (k : text) (d : list (text * text)) : option text := match d with [] => None | (k', v) :: d => if decide (k' = k) then Some v else attr k d end.
(** 702-706 *)
Definition legacy (d : list (text * text)) : bool :=
  bool_decide (attr (lit "format") d = Some (lit "raw2")) && bool_decide (is_Some (attr (lit "md5") d)) &&
  forallb (fun kv => bool_decide (kv.1 = lit "format") || bool_decide (kv.1 = lit "md5") || match kv.1 with [a; b; c] => is_digit a && is_digit b && is_digit c | _ => false end) d.
(** '%03d' *)
Definition padded (n : N) : text := let l := dec n in replicate (3 - List.length l) 48 ++ l.
Fixpoint parts (fuel : nat) (n : N) (d : list (text * text)) : text :=
  match fuel with O => [] | S fuel => match attr (padded n) d with Some p => p ++ parts fuel (n + 1) d | None => [] end end.
Fixpoint values (d : list (text * text)) : option mapping :=
  match d with
  | [] => Some []
  | (k, l) :: d =>
      v ← value_eval l;
      v ← match v with VBytes b => VBytes <$> b64decode b | _ => Some v end;
      r ← values d; Some ((VStr k, v) :: r)
  end.
Definition unwrap (d : list (text * text)) : option mapping :=
  if legacy d then match literal_eval fread (lit "{ " ++ parts (S (List.length d)) 0 d ++ lit " }") with Mapping m => decode_values m | _ => None end
  else values d.

(** 694-696: a reply without the member 'metadata' *)
Definition unwrap_reply (r : option (list (text * text))) : option mapping := match r with Some d => unwrap d | None => Some [] end.

(** ** write_fh *)
Definition metadata_s (d : list (text * text)) (name : text) : text := lit "{""metadata"": " ++ jattrs d ++ lit ", ""name"": " ++ jstr name ++ [125].
Definition boundary : text := lit "foo_bar_baz".
Definition content_type : text := lit "multipart/related; boundary=" ++ boundary.
Definition body_prefix (m : text) : text :=
  lit "--" ++ boundary ++ 10 :: lit "Content-Type: application/json; charset=UTF-8" ++ 10 :: 10 :: m ++ 10 ::
  lit "--" ++ boundary ++ 10 :: lit "Content-Type: application/octet-stream" ++ 10 :: [10].
Definition body_suffix : text := 10 :: lit "--" ++ boundary ++ lit "--" ++ [10].
Definition write_body (d : mapping) (name : text) (data : list N) : option (list N) := a ← wrap d; Some (body_prefix (metadata_s a name) ++ data ++ body_suffix).
End gs.

(** ** Paths: urllib.parse.quote(s, safe='') *)
Definition unreserved (c : N) : bool :=
  ((48 <=? c) && (c <=? 57)) || ((65 <=? c) && (c <=? 90)) || ((97 <=? c) && (c <=? 122)) || (c =? 45) || (c =? 46) || (c =? 95) || (c =? 126).
Definition object_path (bucket name : text) : option text :=
  b ← quote unreserved bucket; n ← quote unreserved name; Some (lit "/storage/v1/b/" ++ b ++ lit "/o/" ++ n).
(** 499 *)
Definition upload_path (bucket : text) : option text := b ← quote unreserved bucket; Some (lit "/upload/storage/v1/b/" ++ b ++ lit "/o").
