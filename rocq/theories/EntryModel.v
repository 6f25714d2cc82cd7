(** Files of cached blocks: src/s3ql/block_cache.py 45-141 (CacheEntry), the accesses to them in src/s3ql/fs.py 1289-1372 (_readwrite) and 985-1000 (setattr), the loops that read them for upload:
    src/s3ql/common.py 156-164 (sha256_fh), 398-423 (copyfh), backends/comprenc.py 454-463, 523-535 and 545-558 (reading), http.py 94-114 (fh_size),
    and the file that a local backend writes: backends/local.py 150-200.
    Both kinds of files are opened without buffering (block_cache.py 82, local.py 180), so that each write is one system call. It may accept a part of the data (write(2): e.g. if the disk gets full), or fail.
    Simplified: reading from a file gets all the bytes that are there; bytes are numbers; last_write is in Commit. *)
From stdpp Require Import prelude.
From Coq Require Import ZArith Lia.

(** The file of the operating system: contents and position *)
Record file := File { bytes : list N; at_ : nat }.
(** pwrite(2): fill up to the position with zeros, replace *)
Definition put (off : nat) (buf l : list N) : list N := match buf with [] => l | _ => take off l ++ replicate (off - length l) 0%N ++ buf ++ drop (off + length buf) l end.
Definition os_read (n : option nat) (f : file) : list N * file :=
  let r := match n with Some n => take n (drop (at_ f) (bytes f)) | None => drop (at_ f) (bytes f) end in (r, File (bytes f) (at_ f + length r)).
(** How much the system accepts: [None] raises OSError *)
Definition os_write (w : option nat) (buf : list N) (f : file) : option file := k ← w; Some (File (put (at_ f) (take k buf) (bytes f)) (at_ f + length (take k buf))).
Definition os_truncate (n : nat) (f : file) : file := File (take n (bytes f) ++ replicate (n - length (bytes f)) 0%N) (at_ f).

(** 59-91 *)
Record entry := Entry { fh : file; pos : nat; size : nat; dirty : bool }.
Definition opened (content : list N) : entry := Entry (File content 0) 0 (length content) false.

Inductive result := RNone | RBytes (l : list N) | RPos (n : nat) | RErr.
(** 93-96 *)
Definition read (n : option nat) (e : entry) : list N * entry := let '(r, f) := os_read n (fh e) in (r, Entry f (pos e + length r) (size e) (dirty e)).
(** 101-108; whence 0, 1 and 2 *)
Definition seek (off : nat) (e : entry) : entry := if pos e =? off then e else Entry (File (bytes (fh e)) off) off (size e) (dirty e).
Definition seek_to (base : nat) (d : Z) (e : entry) : result * entry :=
  let z := (Z.of_nat base + d)%Z in if (z <? 0)%Z then (RErr, e) else (RPos (Z.to_nat z), Entry (File (bytes (fh e)) (Z.to_nat z)) (Z.to_nat z) (size e) (dirty e)).
Definition seek_cur (d : Z) (e : entry) : result * entry := seek_to (at_ (fh e)) d e.
Definition seek_end (d : Z) (e : entry) : result * entry := seek_to (length (bytes (fh e))) d e.
(** 110-111 *)
Definition tell (e : entry) : nat := pos e.
(** 113-119 *)
Definition truncate (n : option nat) (e : entry) : entry := match n with None => Entry (os_truncate (at_ (fh e)) (fh e)) (pos e) (pos e) true | Some n => Entry (os_truncate n (fh e)) (pos e) n true end.
(** 121-126: the number of bytes accepted is not looked at *)
Definition write (w : option nat) (buf : list N) (e : entry) : bool * entry :=
  match os_write w buf (fh e) with
  | None => (false, Entry (fh e) (pos e) (size e) true)
  | Some f => (true, Entry f (pos e + length buf) (Nat.max (pos e + length buf) (size e)) true)
  end.

Inductive op := Read (n : option nat) | Seek (off : nat) | SeekCur (d : Z) | SeekEnd (d : Z) | Tell | Truncate (n : option nat) | Write (w : option nat) (buf : list N).
Definition step (o : op) (e : entry) : result * entry :=
  match o with
  | Read n => let '(r, e) := read n e in (RBytes r, e)
  | Seek off => let e := seek off e in (RPos (tell e), e)
  | SeekCur d => seek_cur d e
  | SeekEnd d => seek_end d e
  | Tell => (RPos (tell e), e)
  | Truncate n => (RNone, truncate n e)
  | Write w buf => let '(ok, e) := write w buf e in (if ok then RNone else RErr, e)
  end.

(** fs.py 1337-1372: one block *)
Definition block_read (off len : nat) (e : entry) : list N * entry := let '(r, e) := read (Some len) (seek off e) in (r ++ replicate (len - length r) 0%N, e).
Definition block_write (w : option nat) (off : nat) (buf : list N) (e : entry) : bool * entry := write w buf (seek off e).
(** fs.py 996-998 *)
Definition block_truncate (n : nat) (e : entry) : entry := truncate (Some n) e.

Section loops.
Context (B : nat).
(** common.py 159-163, 414-421 without a length: until nothing is read *)
Fixpoint chunks (fuel : nat) (e : entry) : list (list N) * entry :=
  match fuel with
  | O => ([], e)
  | S fuel => let '(b, e) := read (Some B) e in match b with [] => ([], e) | _ => let '(l, e) := chunks fuel e in (b :: l, e) end
  end.
(** with a length; comprenc.py 523-529, 545-551 *)
Fixpoint chunks_len (fuel len : nat) (e : entry) : list (list N) * entry :=
  match fuel with
  | O => ([], e)
  | S fuel => if len =? 0 then ([], e) else let '(b, e) := read (Some (Nat.min B len)) e in match b with [] => ([], e) | _ => let '(l, e) := chunks_len fuel (len - length b) e in (b :: l, e) end
  end.
Definition fuel (e : entry) : nat := S (length (bytes (fh e))).
(** block_cache.py 453-454: what is hashed *)
Definition hashed (e : entry) : list N * entry := let e := seek 0 e in let '(l, e) := chunks (fuel e) (seek 0 e) in (concat l, e).
(** block_cache.py 370-378, comprenc.py 452-496: what is read for compression or encryption; otherwise the file, or a copy of it, is given to the backend, which reads it from the start (the parts in which it is read) *)
Definition packed (e : entry) : list N * entry := let e := seek 0 e in let '(l, e) := chunks_len (S (size e)) (size e) e in (concat l, e).
Definition plain (e : entry) : list (list N) * entry :=
  let e := seek 0 e in
  let len := size e in
  let off := tell e in
  let '(differs, e) := if off =? 0 then let '(r, e) := seek_end 0 e in (negb (tell e =? len), e) else (true, e) in
  if differs then let '(l, e) := chunks_len (S len) len (seek off e) in let c := opened (concat l) in let '(l, _) := chunks (fuel c) c in (l, e)
  else let e := seek 0 e in chunks (fuel e) e.

(** local.py 168-200: the parts are written one after the other; the result of each write is not looked at. [Some]: the file is renamed, and its position is returned *)
Fixpoint dump (ws : list (option nat)) (parts : list (list N)) (f : file) {struct parts} : option file :=
  match parts with
  | [] => Some f
  | p :: parts => match ws with [] => None | w :: ws => f ← os_write w p f; dump ws parts f end
  end.
Definition local_write (ws : list (option nat)) (head : list (list N)) (parts : list (list N)) : option (list N * nat) := f ← dump ws (head ++ parts) (File [] 0); Some (bytes f, at_ f).
End loops.
