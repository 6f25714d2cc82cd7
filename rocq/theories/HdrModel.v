(** Metadata in the table of HTTP headers: _add_meta_headers (s3c.py 444-481, swift.py 118-153) and _extractmeta (s3c.py 694-742, swift.py 155-203), with
    the names of the headers, and the reading of objects written by an earlier Backblaze backend (b2ng.py 170-191).
    The texts themselves are those of HeaderModel, which has them as a list.
    Simplified: tables of headers (CaseInsensitiveDict, http.py 946-990; email.message in the response) are maps from the name in lower case to the value;
    a response has each header once. *)
From stdpp Require Import prelude gmap.
From Coq Require Import NArith.
From Verif Require Import CodecModel FreezeModel HeaderModel.
Local Open Scope N_scope.

Notation headers := (gmap text text).
(** http.py 953-967: the key of a header is its name in lower case *)
Definition lower (c : N) : N := if (65 <=? c) && (c <=? 90) then c + 32 else c.
(** "meta-", "format", "md5", "raw2" *)
Definition META : text := [109; 101; 116; 97; 45].
Definition FORMAT : text := [102; 111; 114; 109; 97; 116].
Definition MD5 : text := [109; 100; 53].
Definition RAW2 : text := [114; 97; 119; 50].
(** '%smeta-…' % self.hdr_prefix *)
Definition hname (p s : text) : text := lower <$> (p ++ META ++ s).
(** '%03d' % i *)
Fixpoint dec (fuel : nat) (n : N) : text := match fuel with O => [] | S fuel => (if n <? 10 then [] else dec fuel (n / 10)) ++ [48 + n mod 10] end.
Definition fmt03 (i : nat) : text := let d := dec (S i) (N.of_nat i) in replicate (3 - length d) 48 ++ d.

Section hdr.
Context (printable : N -> bool) {F : Type} `{EqDecision F} (fshow : F -> text) (fread : text -> option F) (md5 : @mapping F -> option text) (lossy : text -> text).
Notation mapping := (@mapping F).

(** s3c.py 462-473: headers['%smeta-%03d' % (self.hdr_prefix, hdr_count)] = …; hdr_count += 1 *)
Fixpoint put_parts (p : text) (i : nat) (ps : list text) (h : headers) : headers := match ps with [] => h | t :: ps => put_parts p (S i) ps (<[hname p (fmt03 i) := t]> h) end.
(** s3c.py 444-481, [None]: an exception *)
Definition write_headers (p : text) (cs : nat) (d : mapping) (h : headers) : option headers := match add_meta printable fshow md5 cs d with
  | Added ps m => Some (<[hname p MD5 := m]> (<[hname p FORMAT := RAW2]> (put_parts p 0 ps h)))
  | _ => None end.

(** CorruptedObjectError, BadDigestError, and another exception (from literal_eval) *)
Inductive outcome := Got (d : mapping) | Corrupted | Digest | Fails.
(** s3c.py 701-708 *)
Fixpoint collect (fuel : nat) (p : text) (i : nat) (h : headers) : option (list text) := match fuel with
  | O => None
  | S fuel => match h !! hname p (fmt03 i) with None => Some [] | Some t => cons t <$> collect fuel p (S i) h end end.
(** "s3ql_passphrase", "s3ql_metadata" *)
Definition special (key : text) : bool := bool_decide (key = [115; 51; 113; 108; 95; 112; 97; 115; 115; 112; 104; 114; 97; 115; 101]) || bool_decide (key = [115; 51; 113; 108; 95; 109; 101; 116; 97; 100; 97; 116; 97]).
(** s3c.py 694-742, [None]: does not end *)
Definition read_headers (p : text) (h : headers) (key : text) : option outcome :=
  if decide (h !! hname p FORMAT = Some RAW2) then (* 697-699; without the header, 'raw' *)
    match collect (S (size h)) p 0 h with
    | None => None
    | Some ps =>
        let bad := if special key then Corrupted else Digest in (* 738-740 *)
        Some match h !! hname p MD5 with (* 709-730 *)
          | Some m => match extract fread md5 lossy ps m with Extracted d => Got d | BadDigest => bad | Unreadable => Fails end
          | None => match extract fread (fun _ => None) lossy ps [] with Extracted d => Got d | BadDigest => bad | Unreadable => Fails end
          end
    end
  else Some Corrupted.

(** b2ng.py 170-191: with self.hdr_prefix before and after *)
Definition b2_read (p : text) (h : headers) (key : text) : option outcome * text :=
  if decide (is_Some (h !! hname p FORMAT)) then (read_headers p h key, p) (* 180-181 *)
  else if decide (is_Some (h !! hname p (META ++ FORMAT))) then
    let saved := p in let p := p ++ META in let r := read_headers p h key in (r, saved) (* 186-191 *)
  else (read_headers p h key, p). (* 182-185 *)
(** A session: one answer after the other *)
Fixpoint b2_session (p : text) (rs : list (headers * text)) : list (option outcome) := match rs with
  | [] => []
  | (h, key) :: rs => let '(r, p) := b2_read p h key in r :: b2_session p rs end.
End hdr.
