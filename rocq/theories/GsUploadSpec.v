(** What the service does with an upload, independently of the program: JSON (RFC 8259, strings and objects), parts of a request (multipart/related), paths. *)
From stdpp Require Import prelude.
From Coq Require Import NArith String.
From Verif Require Import CodecModel Text GsUploadModel.
Local Open Scope N_scope.

(** ** JSON *)
Inductive json := JStr (s : text) | JObj (l : list (text * json)).
(** After the opening quote: the characters, and what follows the closing quote *)
Fixpoint jstring (fuel : nat) (l : text) : option (text * text) :=
  match fuel with
  | O => None
  | S fuel =>
    let go c l := match jstring fuel l with Some (s, r) => Some (c :: s, r) | None => None end in
    match l with
    | [] => None
    | c :: l =>
      if c =? 34 then Some ([], l)
      else if c =? 92 then
        match l with
        | 34 :: l => go 34 l | 92 :: l => go 92 l | 47 :: l => go 47 l | 98 :: l => go 8 l | 102 :: l => go 12 l | 110 :: l => go 10 l | 114 :: l => go 13 l | 116 :: l => go 9 l
        | 117 :: l =>
          match unhexn 4 0 l with
          | Some (u, l) =>
            if (0xd800 <=? u) && (u <? 0xdc00) then
              match l with
              | 92 :: 117 :: l => match unhexn 4 0 l with
                | Some (v, l) => if (0xdc00 <=? v) && (v <? 0xe000) then go (0x10000 + (u - 0xd800) * 1024 + (v - 0xdc00)) l else None
                | None => None end
              | _ => None
              end
            else if (0xdc00 <=? u) && (u <? 0xe000) then None else go u l
          | None => None
          end
        | _ => None
        end
      else if c <? 32 then None else go c l
    end
  end.
Fixpoint blank (l : text) : text := match l with 32 :: l => blank l | _ => l end.
Fixpoint jvalue (fuel : nat) (l : text) : option (json * text) :=
  match fuel with
  | O => None
  | S fuel =>
    match blank l with
    | 34 :: r => match jstring (List.length l) r with Some (s, r) => Some (JStr s, r) | None => None end
    | 123 :: r => match blank r with 125 :: r => Some (JObj [], r) | _ => match jmembers fuel r with Some (d, r) => Some (JObj d, r) | None => None end end
    | _ => None
    end
  end
with jmembers (fuel : nat) (l : text) : option (list (text * json) * text) :=
  match fuel with
  | O => None
  | S fuel =>
    match blank l with
    | 34 :: r =>
      match jstring (List.length l) r with
      | Some (k, r) =>
        match blank r with
        | 58 :: r =>
          match jvalue fuel r with
          | Some (v, r) =>
            match blank r with
            | 44 :: r => match jmembers fuel r with Some (d, r) => Some ((k, v) :: d, r) | None => None end
            | 125 :: r => Some ([(k, v)], r)
            | _ => None
            end
          | None => None
          end
        | _ => None
        end
      | None => None
      end
    | _ => None
    end
  end.
Definition jparse (l : text) : option json := match jvalue (List.length l) l with Some (j, r) => match blank r with [] => Some j | _ => None end | None => None end.
Fixpoint member (k : text) (l : list (text * json)) : option json := match l with [] => None | (k', v) :: l => if decide (k' = k) then Some v else member k l end.
Fixpoint strings (l : list (text * json)) : option (list (text * text)) :=
  match l with [] => Some [] | (k, JStr s) :: l => r ← strings l; Some ((k, s) :: r) | _ => None end.

(** ** The parts of a request *)
Fixpoint begins (p l : text) : option text := match p, l with [], _ => Some l | x :: p, y :: l => if x =? y then begins p l else None | _, [] => None end.
(** The first occurrence of [d]: what is in front of it, and what follows *)
Fixpoint cut (d l : text) : option (text * text) :=
  match begins d l with
  | Some r => Some ([], r)
  | None => match l with [] => None | c :: l => match cut d l with Some (a, r) => Some (c :: a, r) | None => None end end
  end.
Definition ends_with (s l : text) : option text := let n := (List.length l - List.length s)%nat in if decide (drop n l = s) then Some (take n l) else None.
Record object := Object { o_name : text; o_attrs : list (text * text); o_data : list N }.
(** [by_length]: the data end where the request ends with the last line; otherwise at the first line that begins like it (RFC 2046) *)
Definition receive (by_length : bool) (ctype : text) (body : list N) : option object :=
  b ← begins (lit "multipart/related; boundary=") ctype;
  let line := lit "--" ++ b in
  l ← begins (line ++ [10]) body;
  l ← begins (lit "Content-Type: application/json") l;
  '(_, l) ← cut [10; 10] l;
  '(m, l) ← cut (10 :: line ++ [10]) l;
  l ← begins (lit "Content-Type: application/octet-stream") l;
  l ← begins [10; 10] l;
  data ← (if by_length then ends_with (10 :: line ++ lit "--" ++ [10]) l else fst <$> cut (10 :: line) l);
  match jparse m with
  | Some (JObj o) =>
      match member (lit "name") o, member (lit "metadata") o with
      | Some (JStr n), Some (JObj a) => a ← strings a; Some (Object n a data)
      | _, _ => None
      end
  | _ => None
  end.
(** ** Paths *)
Definition refers (path : text) : option (text * text) :=
  match split 47 path with
  | [[]; p1; p2; p3; b; p4; n] =>
      if decide (p1 = lit "storage" /\ p2 = lit "v1" /\ p3 = lit "b" /\ p4 = lit "o") then b ← unquote b; n ← unquote n; Some (b, n) else None
  | _ => None
  end.
Definition refers_upload (path : text) : option text :=
  match split 47 path with
  | [[]; p0; p1; p2; p3; b; p4] => if decide (p0 = lit "upload" /\ p1 = lit "storage" /\ p2 = lit "v1" /\ p3 = lit "b" /\ p4 = lit "o") then unquote b else None
  | _ => None
  end.
