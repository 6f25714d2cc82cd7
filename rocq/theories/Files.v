(** A POSIX file as a byte list: the assumptions about the operating system that several models
    share.  (No /repo code; this is pwrite(2)/ftruncate(2)/pread(2) on one regular file.) *)
From stdpp Require Import prelude list.

(** Bytes are natural numbers; nothing below depends on their range. *)
Notation byte := nat (only parsing).
Notation file := (list nat) (only parsing).

(** The byte at offset [i], zero beyond the end (what a sparse file shows). *)
Definition byte_at (f : file) (i : nat) : byte := nth i f 0.

(** pwrite: a write of no bytes changes nothing; a gap before [off] is filled with zeros. *)
Definition fwrite (off : nat) (d : list byte) (f : file) : file :=
  match d with
  | [] => f
  | _ => take off f ++ replicate (off - length f) 0 ++ d ++ drop (off + length d) f
  end.

(** ftruncate: cut off or extend with zeros. *)
Definition ftrunc (size : nat) (f : file) : file :=
  take size f ++ replicate (size - length f) 0.

(** pread of up to [n] bytes at [off]. *)
Definition fread (off n : nat) (f : file) : list byte := take n (drop off f).
