(** Metadata in HTTP headers: _add_meta_headers (s3c.py 444-481, swift.py 118-153 alike) and _extractmeta (s3c.py 694-745, swift.py 155-...), with the
    transport in between, which removes spaces around header values.
    Simplified: the headers meta-000, meta-001, … are a list (a request starts without such headers, 405), and meta-format is always 'raw2'. *)
From stdpp Require Import prelude.
From Coq Require Import NArith.
From Verif Require Import CodecModel FreezeModel.
Local Open Scope N_scope.

Section header.
Context (printable : N -> bool) {F : Type} `{EqDecision F} (fshow : F -> text) (fread : text -> option F).
(** checksum_basic_mapping in base64, [None]: a string cannot be encoded (UnicodeEncodeError) *)
Context (md5 : @mapping F -> option text).
(** What unquote gives for a text that is not utf-8 *)
Context (lossy : text -> text).
Notation value := (@value F). Notation mapping := (@mapping F).

(** 460: letters, digits and _.-~ are always safe *)
Definition alnum (c : N) : bool := ((48 <=? c) && (c <=? 57)) || ((65 <=? c) && (c <=? 90)) || ((97 <=? c) && (c <=? 122)).
Definition SAFE : text := [33; 64; 35; 36; 94; 42; 40; 41; 61; 43; 47; 63; 45; 95; 39; 34; 62; 60; 92; 124; 32; 96; 46; 44; 59; 58; 126].
Definition safe (c : N) : bool := alnum c || bool_decide (c ∈ SAFE).
(** 456-460 *)
Definition part (k v : value) : option text := quote safe (repr printable fshow k ++ [58; 32] ++ repr printable fshow (elementary v) ++ [44]).
(** 466-473 *)
Fixpoint chunks (fuel cs : nat) (l : text) : list text := match fuel with O => [] | S fuel => match l with [] => [] | _ => take cs l :: chunks fuel cs (drop cs l) end end.
(** 461-473 *)
Definition header_parts (cs : nat) (buf : text) : list text := if decide (length buf < cs)%nat then [buf] else chunks (length buf) cs buf.
Inductive added := Added (ps : list text) (m : text) | NotStr | TooLarge | AssertionError | BadUnicode.
(** The loop, with hdr_count the length of [ps] *)
Fixpoint add_loop (cs : nat) (d : mapping) (ps : list text) (len : nat) : added := match d with
  | [] => if decide (length ps <= 999)%nat then Added ps [] else AssertionError (* 478 *)
  | (k, v) :: d => match k with
      | VStr _ => match part k v with
          | None => BadUnicode
          | Some buf => let hs := header_parts cs buf in let len := (len + sum_list ((fun h => 4 + length h)%nat <$> hs))%nat in
              if decide (2048 < len)%nat then TooLarge else add_loop cs d (ps ++ hs) len (* 475-476 *)
          end
      | _ => NotStr end
  end.
Definition add_meta (cs : nat) (d : mapping) : added := match add_loop cs d [] 0 with
  | Added ps _ => match md5 d with Some m => Added ps m | None => BadUnicode end (* 479-481 *)
  | r => r end.

(** On the way *)
Definition rstrip (l : text) : text := reverse (skip (reverse l)).
Definition strip (l : text) : text := rstrip (skip l).

Inductive extracted := Extracted (d : mapping) | BadDigest | Unreadable.
(** 716-725 *)
Definition decode_all (d : mapping) : mapping := (fun kv => (kv.1, match kv.2 with VBytes b => match b64decode b with Some b' => VBytes b' | None => VNone end | v => v end)) <$> d.
Definition extract (ps : list text) (m : text) : extracted :=
  let buf := match unquote (concat ps) with Some b => b | None => lossy (concat ps) end in (* 702-711 *)
  match literal_eval fread ([123; 32] ++ buf ++ [32; 125]) with (* 712 *)
  | Mapping d => let d := decode_all d in if decide (md5 d = Some m) then Extracted d else BadDigest (* 734-743 *)
  | _ => Unreadable
  end.
End header.
