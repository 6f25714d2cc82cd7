(** Encodings of the python library that s3ql relies on: utf-8 (str.encode, bytes.decode), base64 (b64encode, b64decode without validation, as in binascii.c),
    hexadecimal digits, quote and unquote of urllib.parse. Characters and bytes are numbers. *)
From stdpp Require Import prelude.
From Coq Require Import NArith.
Local Open Scope N_scope.
Notation text := (list N).

(** * utf-8 *)
(** Characters that can be encoded: no surrogates *)
Definition encodable (c : N) : bool := (c <? 0x110000) && negb ((0xd800 <=? c) && (c <? 0xe000)).
Definition utf8_char (c : N) : text :=
  if c <? 0x80 then [c] else if c <? 0x800 then [0xc0 + c / 64; 0x80 + c mod 64]
  else if c <? 0x10000 then [0xe0 + c / 4096; 0x80 + (c / 64) mod 64; 0x80 + c mod 64]
  else [0xf0 + c / 262144; 0x80 + (c / 4096) mod 64; 0x80 + (c / 64) mod 64; 0x80 + c mod 64].
(** s.encode('utf-8'); [None]: UnicodeEncodeError *)
Fixpoint utf8_encode (s : text) : option text := match s with
  | [] => Some []
  | c :: s => if encodable c then match utf8_encode s with Some b => Some (utf8_char c ++ b) | None => None end else None end.
(** A continuation byte *)
Definition cont (b : N) : option N := if (0x80 <=? b) && (b <? 0xc0) then Some (b - 0x80) else None.
(** b.decode('utf-8'), strict: no overlong forms, no surrogates. [None]: UnicodeDecodeError *)
Definition utf8_ok (low c : N) : option N := if (low <=? c) && encodable c then Some c else None.
Fixpoint utf8_decode (b : text) : option text := match b with
  | [] => Some []
  | x :: b =>
      if x <? 0x80 then cons x <$> utf8_decode b
      else if (0xc0 <=? x) && (x <? 0xe0) then match b with
        | y :: b => y ← cont y; c ← utf8_ok 0x80 ((x - 0xc0) * 64 + y); cons c <$> utf8_decode b
        | _ => None end
      else if (0xe0 <=? x) && (x <? 0xf0) then match b with
        | y :: z :: b => y ← cont y; z ← cont z; c ← utf8_ok 0x800 ((x - 0xe0) * 4096 + y * 64 + z); cons c <$> utf8_decode b
        | _ => None end
      else if (0xf0 <=? x) && (x <? 0xf8) then match b with
        | y :: z :: w :: b => y ← cont y; z ← cont z; w ← cont w; c ← utf8_ok 0x10000 ((x - 0xf0) * 262144 + y * 4096 + z * 64 + w); cons c <$> utf8_decode b
        | _ => None end
      else None
  end.

(** * base64 *)
Definition digit64 (n : N) : N := if n <? 26 then 65 + n else if n <? 52 then 71 + n else if n <? 62 then n - 4 else if n =? 62 then 43 else 47.
Definition undigit64 (c : N) : option N :=
  if (65 <=? c) && (c <=? 90) then Some (c - 65) else if (97 <=? c) && (c <=? 122) then Some (c - 71) else if (48 <=? c) && (c <=? 57) then Some (c + 4)
  else if c =? 43 then Some 62 else if c =? 47 then Some 63 else None.
Fixpoint b64encode (b : text) : text := match b with
  | [] => []
  | [x] => [digit64 (x / 4); digit64 (x mod 4 * 16); 61; 61]
  | [x; y] => [digit64 (x / 4); digit64 (x mod 4 * 16 + y / 16); digit64 (y mod 16 * 4); 61]
  | x :: y :: z :: b => digit64 (x / 4) :: digit64 (x mod 4 * 16 + y / 16) :: digit64 (y mod 16 * 4 + z / 64) :: digit64 (z mod 64) :: b64encode b
  end.
(** a2b_base64 without strict mode: other characters are skipped, everything after complete padding is ignored. [pos]: the position in a group of four.
    [None]: binascii.Error *)
Fixpoint b64_loop (l : text) (pos lft pads : N) : option text := match l with
  | [] => if pos =? 0 then Some [] else None
  | c :: l => if c =? 61 then
        if 2 <=? pos then if 4 <=? pos + pads + 1 then Some [] else b64_loop l pos lft (pads + 1) else b64_loop l pos lft pads
      else match undigit64 c with
        | None => b64_loop l pos lft pads
        | Some d => if pos =? 0 then b64_loop l 1 d 0
            else if pos =? 1 then cons (lft * 4 + d / 16) <$> b64_loop l 2 (d mod 16) 0
            else if pos =? 2 then cons (lft * 16 + d / 4) <$> b64_loop l 3 (d mod 4) 0
            else cons (lft * 64 + d) <$> b64_loop l 0 0 0
        end
  end.
Definition b64decode (l : text) : option text := b64_loop l 0 0 0.

(** * Hexadecimal *)
Definition hexdigit (n : N) : N := if n <? 10 then 48 + n else 87 + n.
Definition HEXDIGIT (n : N) : N := if n <? 10 then 48 + n else 55 + n.
Definition unhex (c : N) : option N := if (48 <=? c) && (c <=? 57) then Some (c - 48) else if (97 <=? c) && (c <=? 102) then Some (c - 87) else if (65 <=? c) && (c <=? 70) then Some (c - 55) else None.
(** [w] digits *)
Fixpoint hexn (w : nat) (n : N) : text := match w with O => [] | S w => hexn w (n / 16) ++ [hexdigit (n mod 16)] end.
Fixpoint unhexn (w : nat) (acc : N) (l : text) : option (N * text) := match w with
  | O => Some (acc, l)
  | S w => match l with c :: l => d ← unhex c; unhexn w (16 * acc + d) l | [] => None end end.

(** * quote and unquote *)
(** quote(s, safe) encodes as utf-8 and writes all bytes but the safe ones as %XX; letters, digits and _.-~ are always safe. *)
Definition quote_byte (safe : N -> bool) (b : N) : text := if safe b then [b] else [37; HEXDIGIT (b / 16); HEXDIGIT (b mod 16)].
Definition quote (safe : N -> bool) (s : text) : option text := b ← utf8_encode s; Some (flat_map (quote_byte safe) b).
(** unquote: sequences of %XX in between are decoded as utf-8. For texts of ASCII characters, as header values are, this is the same as decoding all
    (with errors replaced, here: [None]). *)
Fixpoint unquote_bytes (l : text) : text := match l with
  | 37 :: ((a :: b :: l'') as l') => match unhex a, unhex b with Some x, Some y => 16 * x + y :: unquote_bytes l'' | _, _ => 37 :: unquote_bytes l' end
  | c :: l => c :: unquote_bytes l
  | [] => [] end.
Definition unquote (l : text) : option text := utf8_decode (unquote_bytes l).
