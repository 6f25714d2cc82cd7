(** File contents: read, write, truncate and purge as in fs.py, on top of the per-block operations
    of the block cache.  The block cache itself (eviction, upload, download) is modelled in
    BlockCacheModel; here a block simply holds what was last written to it, or cannot be fetched. *)
From stdpp Require Import prelude list gmap.
From Verif Require Import Files.

(** Why a block cannot be fetched: [NoSuchObject] or [CorruptedObjectError]
    (block_cache.py:700-735, backends/common.py). *)
Inductive damage := Missing | Corrupt.

(** What a call ends with. [EIO], [EPERM]: FUSEError of that errno; [Raised]: an exception that is
    not a FUSEError (NoSuchObject out of setattr fs.py:993, KeyError for an unknown inode);
    [Stuck]: a loop of the model ran out of fuel (proved impossible). *)
Inductive error := EIO | EPERM | Raised | Stuck.
Inductive res (A : Type) := Ok (a : A) | Err (e : error).
Arguments Ok {A} a. Arguments Err {A} e.

(** [sizes]: inodes.size; [locked]: inodes.locked; [blks]: content of each block that exists (in the
    cache or as an object); [lost]: blocks whose object is gone or damaged, they are not in [blks];
    [failsafe]: fs.failsafe; [broken]: fs.broken_blocks (fs.py:150). *)
Record fstate := FState {
  sizes : gmap nat nat;
  locked : gset nat;
  blks : gmap (nat * nat) (list byte);
  lost : gmap (nat * nat) damage;
  failsafe : bool;
  broken : gset (nat * nat)
}.

Definition set_sizes f s := FState (f (sizes s)) (locked s) (blks s) (lost s) (failsafe s) (broken s).
Definition set_blks f s := FState (sizes s) (locked s) (f (blks s)) (lost s) (failsafe s) (broken s).

(** [self.failsafe = True; self.broken_blocks[id_].add(blockno)] fs.py:1346-1347 *)
Definition set_broken (k : nat * nat) (s : fstate) : fstate :=
  FState (sizes s) (locked s) (blks s) (lost s) true ({[k]} ∪ broken s).

(** What [async with self.cache.get(...)] yields: the content of the block, empty for a block that
    does not exist (block_cache.py:690-694). *)
Definition content (s : fstate) (k : nat * nat) : list byte := default [] (blks s !! k).

(** [Operations._readwrite] with [length] given, fs.py:1299-1370. *)
Definition readwrite_read (bs : nat) (s : fstate) (ino off len : nat) : fstate * res (list byte) :=
  let blockno := off / bs in
  let off_rel := off - blockno * bs in
  let k := (ino, blockno) in
  if decide (k ∈ broken s) then (s, Err EIO) else
  let len := if decide (bs < off_rel + len) then bs - off_rel else len in
  match lost s !! k with
  | Some _ => (set_broken k s, Err EIO)
  | None =>
    let buf := fread off_rel len (content s k) in
    (set_blks (insert k (content s k)) s,
     Ok (if decide (length buf = len) then buf else buf ++ replicate (len - length buf) 0))
  end.

(** [Operations._readwrite] with [buf] given, fs.py:1299-1370; returns the number of bytes written. *)
Definition readwrite_write (bs : nat) (s : fstate) (ino off : nat) (buf : list byte)
  : fstate * res nat :=
  let blockno := off / bs in
  let off_rel := off - blockno * bs in
  let k := (ino, blockno) in
  if decide (k ∈ broken s) then (s, Err EIO) else
  let len := if decide (bs < off_rel + length buf) then bs - off_rel else length buf in
  match lost s !! k with
  | Some _ => (set_broken k s, Err EIO)
  | None => (set_blks (insert k (fwrite off_rel (take len buf) (content s k))) s, Ok len)
  end.

(** The loop of [Operations.read], fs.py:1247-1251. *)
Fixpoint read_loop (fuel bs : nat) (s : fstate) (ino off len : nat) (acc : list byte)
  : fstate * res (list byte) :=
  if decide (len = 0) then (s, Ok acc) else
  match fuel with
  | 0 => (s, Err Stuck)
  | S fuel =>
    match readwrite_read bs s ino off len with
    | (s, Ok tmp) => read_loop fuel bs s ino (off + length tmp) (len - length tmp) (acc ++ tmp)
    | (s, Err e) => (s, Err e)
    end
  end.

(** [Operations.read], fs.py:1231-1259 (access time left out). *)
Definition do_read (bs : nat) (s : fstate) (ino off len : nat) : fstate * res (list byte) :=
  match sizes s !! ino with
  | None => (s, Err Raised)
  | Some size => let len := min (size - off) len in read_loop len bs s ino off len []
  end.

(** The loop of [Operations.write], fs.py:1273-1276. *)
Fixpoint write_loop (fuel bs : nat) (s : fstate) (ino off : nat) (buf : list byte)
  : fstate * res unit :=
  if decide (buf = []) then (s, Ok tt) else
  match fuel with
  | 0 => (s, Err Stuck)
  | S fuel =>
    match readwrite_write bs s ino off buf with
    | (s, Ok written) => write_loop fuel bs s ino (off + written) (drop written buf)
    | (s, Err e) => (s, Err e)
    end
  end.

(** [Operations.write], fs.py:1261-1288 (times left out). *)
Definition do_write (bs : nat) (s : fstate) (ino off : nat) (buf : list byte) : fstate * res nat :=
  match sizes s !! ino with
  | None => (s, Err Raised)
  | Some _ =>
    if decide (failsafe s = true \/ ino ∈ locked s) then (s, Err EPERM) else
    match write_loop (length buf) bs s ino off buf with
    | (s, Err e) => (s, Err e)
    | (s, Ok _) =>
      (set_sizes (alter (fun size => max size (off + length buf)) ino) s, Ok (length buf))
    end
  end.

(** [BlockCache.remove(inode, start, end)], block_cache.py:788-841, its effect on the blocks. *)
Definition cache_remove (s : fstate) (ino from to : nat) : fstate :=
  FState (sizes s) (locked s)
    (filter (fun kv => ~ (kv.1.1 = ino /\ from <= kv.1.2 < to)) (blks s))
    (filter (fun kv => ~ (kv.1.1 = ino /\ from <= kv.1.2 < to)) (lost s))
    (failsafe s) (broken s).

(** [int(math.ceil(size / self.max_obj_size))] (fs.py:983, 678) is an argument [ceilf] of the model:
    [float_ceil] (FloatModel) is what the code computes, [ceil_div] is the exact value. *)
Definition ceil_div (size bs : nat) : nat := (size + bs - 1) / bs.

(** [Operations.setattr] with [update_size] only, fs.py:938-1015. *)
Definition do_truncate (ceilf : nat -> nat -> nat) (bs : nat) (s : fstate) (ino len : nat) : fstate * res unit :=
  match sizes s !! ino with
  | None => (s, Err Raised)
  | Some size =>
    if decide (failsafe s = true \/ ino ∈ locked s) then (s, Err EPERM) else
    let last_block := len / bs in
    let cutoff := len mod bs in
    let total_blocks := ceilf size bs in
    let s := set_sizes (insert ino len) s in
    if decide (cutoff = 0) then (cache_remove s ino last_block total_blocks, Ok tt) else
    let s := cache_remove s ino (last_block + 1) total_blocks in
    let k := (ino, last_block) in
    match lost s !! k with
    | Some Missing => (s, Err Raised)
    | Some Corrupt => (set_broken k s, Err EIO)
    | None => (set_blks (insert k (ftrunc cutoff (content s k))) s, Ok tt)
    end
  end.

(** A new regular file, fs.py:1179-1229 (the id is fresh: AUTOINCREMENT). *)
Definition do_create (s : fstate) (ino : nat) : fstate * res unit :=
  match sizes s !! ino with
  | Some _ => (s, Err Raised)
  | None => if failsafe s then (s, Err EPERM) else (set_sizes (insert ino 0) s, Ok tt)
  end.

(** [_purge_inode] fs.py:671-693, the part about blocks; called when the last reference is gone. *)
Definition do_purge (ceilf : nat -> nat -> nat) (bs : nat) (s : fstate) (ino : nat) : fstate * res unit :=
  match sizes s !! ino with
  | None => (s, Err Raised)
  | Some size =>
    (set_sizes (delete ino) (cache_remove s ino 0 (ceilf size bs)), Ok tt)
  end.

(** Calls, plus the environment losing or damaging stored blocks at any time. *)
Inductive op :=
| Create (ino : nat)
| Read (ino off len : nat)
| Write (ino off : nat) (buf : list byte)
| Truncate (ino len : nat)
| Size (ino : nat)          (* st_size of getattr, fs.py:196-202 *)
| Purge (ino : nat)
| SetLocked (ino : nat)     (* lock_tree fs.py:379-424, one inode *)
| Damage (k : nat * nat) (d : damage).

Inductive answer := AData (d : list byte) | ANum (n : nat) | ADone | AErr (e : error).

Definition answer_of {A} (f : A -> answer) (r : fstate * res A) : fstate * answer :=
  match r with (s, Ok a) => (s, f a) | (s, Err e) => (s, AErr e) end.

Definition step (ceilf : nat -> nat -> nat) (bs : nat) (s : fstate) (o : op) : fstate * answer :=
  match o with
  | Create ino => answer_of (fun _ => ADone) (do_create s ino)
  | Read ino off len => answer_of AData (do_read bs s ino off len)
  | Write ino off buf => answer_of ANum (do_write bs s ino off buf)
  | Truncate ino len => answer_of (fun _ => ADone) (do_truncate ceilf bs s ino len)
  | Size ino => match sizes s !! ino with Some n => (s, ANum n) | None => (s, AErr Raised) end
  | Purge ino => answer_of (fun _ => ADone) (do_purge ceilf bs s ino)
  | SetLocked ino =>
    (FState (sizes s) ({[ino]} ∪ locked s) (blks s) (lost s) (failsafe s) (broken s), ADone)
  | Damage k d =>
    match blks s !! k with
    | Some _ => (FState (sizes s) (locked s) (delete k (blks s)) (<[k := d]> (lost s)) (failsafe s)
                        (broken s), ADone)
    | None => (s, ADone)
    end
  end.

(** A run returns the answers in order. *)
Fixpoint run (ceilf : nat -> nat -> nat) (bs : nat) (s : fstate) (os : list op) : fstate * list answer :=
  match os with
  | [] => (s, [])
  | o :: os => let (s, a) := step ceilf bs s o in let (s, l) := run ceilf bs s os in (s, a :: l)
  end.

Definition init : fstate := FState ∅ ∅ ∅ ∅ false ∅.
