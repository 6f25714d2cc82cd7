(** What file contents should look like: every file is a plain byte array. *)
From stdpp Require Import prelude list gmap.
From Verif Require Import Files FileModel.

(** One byte array per file, and the set of write-protected files. *)
Record files := Files_ { arrays : gmap nat file; prot : gset nat }.

(** The answer and the new arrays when nothing goes wrong. *)
Definition ideal (a : files) (o : op) : files * answer :=
  match o with
  | Create ino =>
    match arrays a !! ino with
    | Some _ => (a, AErr Raised)
    | None => (Files_ (<[ino := []]> (arrays a)) (prot a), ADone)
    end
  | Read ino off len =>
    match arrays a !! ino with
    | Some f => (a, AData (fread off len f))
    | None => (a, AErr Raised)
    end
  | Write ino off buf =>
    match arrays a !! ino with
    | Some f => if decide (ino ∈ prot a) then (a, AErr EPERM)
                else (Files_ (<[ino := fwrite off buf f]> (arrays a)) (prot a), ANum (length buf))
    | None => (a, AErr Raised)
    end
  | Truncate ino len =>
    match arrays a !! ino with
    | Some f => if decide (ino ∈ prot a) then (a, AErr EPERM)
                else (Files_ (<[ino := ftrunc len f]> (arrays a)) (prot a), ADone)
    | None => (a, AErr Raised)
    end
  | Size ino =>
    match arrays a !! ino with
    | Some f => (a, ANum (length f))
    | None => (a, AErr Raised)
    end
  | Purge ino =>
    match arrays a !! ino with
    | Some _ => (Files_ (delete ino (arrays a)) (prot a), ADone)
    | None => (a, AErr Raised)
    end
  | SetLocked ino => (Files_ (arrays a) ({[ino]} ∪ prot a), ADone)
  | Damage _ _ => (a, ADone)
  end.

Fixpoint ideal_run (a : files) (os : list op) : files * list answer :=
  match os with
  | [] => (a, [])
  | o :: os => let (a, r) := ideal a o in let (a, l) := ideal_run a os in (a, r :: l)
  end.

(** When stored blocks may be damaged: besides the ideal behaviour, a call may fail.  A failed read
    changes nothing; a failed write may have written a prefix of its data, never beyond the old end
    of the file; a failed truncation has set the size; in fail-safe mode modifying calls fail. *)
Inductive allowed (a : files) : op -> files -> answer -> Prop :=
| Ideal o a' r : ideal a o = (a', r) -> allowed a o a' r
| ReadFails ino off len : allowed a (Read ino off len) a (AErr EIO)
| WriteFails ino off buf f n :
    arrays a !! ino = Some f ->
    allowed a (Write ino off buf)
      (Files_ (<[ino := take (length f) (fwrite off (take n buf) f)]> (arrays a)) (prot a))
      (AErr EIO)
| TruncateFails ino len f e :
    arrays a !! ino = Some f -> e = EIO \/ e = Raised ->
    allowed a (Truncate ino len) (Files_ (<[ino := ftrunc len f]> (arrays a)) (prot a)) (AErr e)
| FailsafeCreate ino : allowed a (Create ino) a (AErr EPERM)
| FailsafeWrite ino off buf : allowed a (Write ino off buf) a (AErr EPERM)
| FailsafeTruncate ino len : allowed a (Truncate ino len) a (AErr EPERM).

Inductive allowed_run : files -> list op -> files -> list answer -> Prop :=
| Allowed_nil a : allowed_run a [] a []
| Allowed_cons a o a1 r os a2 l :
    allowed a o a1 r -> allowed_run a1 os a2 l -> allowed_run a (o :: os) a2 (r :: l).

(** Writes that carry data or start within the file.  The kernel sends no empty writes; see
    [empty_write_extends_refuted] for what would happen. *)
Definition nonempty_writes (o : op) : Prop :=
  match o with Write _ _ buf => buf <> [] | _ => True end.
Definition no_damage (o : op) : Prop := match o with Damage _ _ => False | _ => True end.

(** File sizes below 2^53 bytes (8 PiB), where the division in the code is exact; see
    [truncated_bytes_return_refuted] for larger files. *)
Definition below_limit (n : nat) : Prop := (Z.of_nat n < 2 ^ 53)%Z.
Definition small_op (o : op) : Prop :=
  match o with
  | Write _ off buf => below_limit (off + length buf)
  | Truncate _ len => below_limit len
  | _ => True
  end.
