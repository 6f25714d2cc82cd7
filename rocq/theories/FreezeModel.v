(** Serialisation of mappings: src/s3ql/common.py, thaw_basic_mapping (332-356) and freeze_basic_mapping (359-391).
    repr and ast.literal_eval of python are modelled for strings, bytes, integers, booleans, None and mappings of these; floats by a pair of functions;
    complex numbers are left out. Not modelled of the syntax of literals: octal and named escapes, comments, other containers, underscores in numbers,
    concatenation of adjacent strings; [literal] gives [None] for these. The limit of 4300 digits for integers is left out (repr raises an exception there). *)
From stdpp Require Import prelude.
From Coq Require Import NArith ZArith.
From Verif Require Import CodecModel.
Local Open Scope N_scope.

Section freeze.
(** [printable]: str.isprintable for characters from 127 on. Floats: their repr, and what a number that is not an integer means *)
Context (printable : N -> bool) {F : Type} `{EqDecision F} (fshow : F -> text) (fread : text -> option F).
Inductive value := VStr (s : text) | VBytes (b : text) | VInt (z : Z) | VBool (b : bool) | VNone | VFloat (f : F).
Global Instance value_eq : EqDecision value.
Proof. solve_decision. Defined.
Definition mapping := list (value * value).

(** * repr *)
Definition QUOTE := 39. Definition DQUOTE := 34. Definition BACKSLASH := 92.
(** unicode_repr of python: the quote is ' unless there are ' and no double quotes in the string *)
Definition the_quote (s : text) : N := if bool_decide (QUOTE ∈ s) && negb (bool_decide (DQUOTE ∈ s)) then DQUOTE else QUOTE.
Definition esc (q c : N) : text :=
  if (c =? BACKSLASH) || (c =? q) then [BACKSLASH; c]
  else if c =? 9 then [BACKSLASH; 116] else if c =? 10 then [BACKSLASH; 110] else if c =? 13 then [BACKSLASH; 114]
  else if (c <? 32) || (c =? 127) then BACKSLASH :: 120 :: hexn 2 c
  else if (c <? 127) || printable c then [c]
  else if c <? 256 then BACKSLASH :: 120 :: hexn 2 c
  else if c <? 65536 then BACKSLASH :: 117 :: hexn 4 c
  else BACKSLASH :: 85 :: hexn 8 c.
Definition repr_str (s : text) : text := let q := the_quote s in q :: flat_map (esc q) s ++ [q].
(** Of bytes that need no escapes (base64) *)
Definition repr_bytes (b : text) : text := 98 :: QUOTE :: b ++ [QUOTE].
Fixpoint decN (fuel : nat) (n : N) : text := match fuel with O => [] | S fuel => if n <? 10 then [48 + n] else decN fuel (n / 10) ++ [48 + n mod 10] end.
Definition dec (n : N) : text := decN (S (N.size_nat n)) n.
Definition repr_int (z : Z) : text := if (z <? 0)%Z then 45 :: dec (Z.to_N (- z)) else dec (Z.to_N z).
Definition TRUE : text := [84; 114; 117; 101]. Definition FALSE : text := [70; 97; 108; 115; 101]. Definition NONE : text := [78; 111; 110; 101].
Definition repr (v : value) : text := match v with
  | VStr s => repr_str s | VBytes b => repr_bytes b | VInt z => repr_int z | VBool true => TRUE | VBool false => FALSE | VNone => NONE | VFloat f => fshow f end.

(** * literal_eval *)
(** The rest of a string after the opening quote, and what follows. A line must not end in it. *)
Fixpoint string_rest (fuel : nat) (q : N) (l : text) : option (text * text) := match fuel with O => None | S fuel => match l with
  | [] => None
  | c :: l => if c =? q then Some ([], l) else if (c =? 10) || (c =? 13) then None
      else if c =? BACKSLASH then match l with
        | [] => None
        | e :: l =>
            let char c l := match string_rest fuel q l with Some (s, r) => Some (c :: s, r) | None => None end in
            if (e =? BACKSLASH) || (e =? QUOTE) || (e =? DQUOTE) then char e l
            else if e =? 116 then char 9 l else if e =? 110 then char 10 l else if e =? 114 then char 13 l
            else if e =? 120 then match unhexn 2 0 l with Some (c, l) => char c l | None => None end
            else if e =? 117 then match unhexn 4 0 l with Some (c, l) => char c l | None => None end
            else if e =? 85 then match unhexn 8 0 l with Some (c, l) => if c <? 0x110000 then char c l else None | None => None end
            else None
        end
      else match string_rest fuel q l with Some (s, r) => Some (c :: s, r) | None => None end
  end end.
(** The same of bytes, without escapes *)
Fixpoint bytes_rest (q : N) (l : text) : option (text * text) := match l with
  | [] => None
  | c :: l => if c =? q then Some ([], l) else if (c =? 10) || (c =? 13) || (c =? BACKSLASH) || (128 <=? c) then None
      else match bytes_rest q l with Some (s, r) => Some (c :: s, r) | None => None end end.
Definition is_digit (c : N) : bool := (48 <=? c) && (c <=? 57).
(** Characters of numbers *)
Definition is_num (c : N) : bool := is_digit c || (c =? 46) || (c =? 101) || (c =? 43) || (c =? 45).
Fixpoint num_span (l : text) : text * text := match l with c :: l' => if is_num c then let '(a, b) := num_span l' in (c :: a, b) else ([], l) | [] => ([], []) end.
Definition valN (l : text) : N := fold_left (fun a d => 10 * a + (d - 48)) l 0.
(** 0, 17, but not 017 *)
Definition digits (l : text) : option N := match l with
  | [] => None | [d] => if is_digit d then Some (d - 48) else None
  | d :: l' => if is_digit d && negb (d =? 48) && forallb is_digit l' then Some (valN l) else None end.
Definition number (l : text) : option value := match l with
  | [] => None
  | 45 :: l' => match digits l' with Some n => Some (VInt (- Z.of_N n)) | None => VFloat <$> fread l end
  | _ => match digits l with Some n => Some (VInt (Z.of_N n)) | None => VFloat <$> fread l end end.
Fixpoint strip_prefix (p l : text) : option text := match p, l with [], _ => Some l | x :: p, y :: l => if x =? y then strip_prefix p l else None | _, [] => None end.
Definition literal (l : text) : option (value * text) := match l with
  | [] => None
  | c :: l' =>
      if (c =? QUOTE) || (c =? DQUOTE) then match string_rest (length l) c l' with Some (s, r) => Some (VStr s, r) | None => None end
      else if c =? 98 then match l' with q :: l'' => if (q =? QUOTE) || (q =? DQUOTE) then match bytes_rest q l'' with Some (s, r) => Some (VBytes s, r) | None => None end else None | [] => None end
      else if c =? 84 then r ← strip_prefix TRUE l; Some (VBool true, r)
      else if c =? 70 then r ← strip_prefix FALSE l; Some (VBool false, r)
      else if c =? 78 then r ← strip_prefix NONE l; Some (VNone, r)
      else let '(a, r) := num_span l in v ← number a; Some (v, r)
  end.
Fixpoint skip (l : text) : text := match l with 32 :: l => skip l | _ => l end.
(** A mapping: later values replace earlier ones *)
Fixpoint put (k v : value) (d : mapping) : mapping := match d with [] => [(k, v)] | (k', v') :: d => if decide (k' = k) then (k', v) :: d else (k', v') :: put k v d end.
(** After the opening brace, or a comma *)
Fixpoint items (fuel : nat) (d : mapping) (l : text) : option (mapping * text) := match fuel with O => None | S fuel =>
  match skip l with
  | 125 :: r => Some (d, r)
  | l => match literal l with
      | None => None
      | Some (k, r) => match skip r with
          | 58 :: r => match literal (skip r) with
              | None => None
              | Some (v, r) => match skip r with
                  | 44 :: r => items fuel (put k v d) r
                  | 125 :: r => Some (put k v d, r)
                  | _ => None
                  end
              end
          | _ => None
          end
      end
  end end.
(** What literal_eval gives: a mapping, something else, or SyntaxError or ValueError. A byte zero is a ValueError. *)
Inductive evaluated := Mapping (d : mapping) | NoMapping | Failed.
Definition literal_eval (l : text) : evaluated := if bool_decide (0 ∈ l) then Failed else
  match skip l with
  | 123 :: r => match items (S (length r)) [] r with Some (d, r) => match skip r with [] => Mapping d | _ => Failed end | None => Failed end
  | l => match literal l with Some (v, r) => match skip r with [] => NoMapping | _ => Failed end | None => Failed end
  end.

(** * freeze, 359-391 *)
Definition elementary (v : value) : value := match v with VBytes b => VBytes (b64encode b) | _ => v end.
(** [None]: an exception (a key that is no string, a value that is not read back: 382-386) *)
Definition element (k v : value) : option text := match k with
  | VStr _ => let v := elementary v in
      if decide (literal (repr k) = Some (k, []) /\ literal (repr v) = Some (v, [])) then Some (repr k ++ [58; 32] ++ repr v) else None
  | _ => None end.
Fixpoint elements (d : mapping) : option (list text) := match d with [] => Some [] | (k, v) :: d => e ← element k v; es ← elements d; Some (e :: es) end.
(** ', '.join *)
Fixpoint comma (es : list text) : text := match es with [] => [] | [e] => e | e :: es => e ++ [44; 32] ++ comma es end.
Definition freeze (d : mapping) : option text := es ← elements d; utf8_encode ([123; 32] ++ comma es ++ [32; 125]).

(** * thaw, 332-356 *)
Inductive thawed := Thawed (d : mapping) | ThawError | AttributeError.
Fixpoint decode_values (d : mapping) : option mapping := match d with
  | [] => Some []
  | (k, v) :: d => v' ← match v with VBytes b => VBytes <$> b64decode b | _ => Some v end; d' ← decode_values d; Some ((k, v') :: d') end.
Definition thaw (b : text) : thawed := match utf8_decode b with
  | None => ThawError
  | Some l => match literal_eval l with
      | Failed => ThawError
      | NoMapping => AttributeError
      | Mapping d => match decode_values d with Some d' => Thawed d' | None => ThawError end
      end
  end.
End freeze.
