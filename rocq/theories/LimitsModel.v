(** Model of the limits that mount computes and of the statistics that the file system reports.

    Numbers are integers.  Python's floating point numbers are exact for the sizes in question: memory in bytes is assumed to be below 2^53.
    Not modelled: how the operating system determines the number of cores, memory and the limit for descriptors (arguments here); the messages. *)
From stdpp Require Import prelude list.
From Coq Require Import ZArith.
Local Open Scope Z_scope.

(** * src/s3ql/mount.py *)
(** authinfo.py 46-57: CompressAlgorithm *)
Inductive alg := LZMA | BZIP2 | ZLIB | NONE.
Global Instance alg_eq : EqDecision alg. Proof. solve_decision. Defined.
(** 515-526: LZMA_MEMORY in MiB; None: KeyError (CompressSpec.parse only accepts one digit, authinfo.py 74) *)
Definition lzma_memory (level : Z) : option Z :=
  match level with 0 => Some 3 | 1 => Some 9 | 2 => Some 17 | 3 => Some 32 | 4 => Some 48 | 5 => Some 94 | 6 => Some 94 | 7 => Some 186 | 8 => Some 370 | 9 => Some 674 | _ => None end.
(** 546-553; [compress]: algorithm and level *)
Definition mem_per_thread (compress : option (alg * Z)) : option Z :=
  match compress with
  | Some (LZMA, level) => m ← lzma_memory level; Some (m * 1024 ^ 2)
  | _ => Some 0
  end.
(** determine_threads 529-577.  [cores] and [memory]: -1 if unknown.  memory / 2 is a float; (memory / 2) // m is the quotient rounded down. *)
Definition determine_threads (cores memory : Z) (compress : option (alg * Z)) : option Z :=
  m ← mem_per_thread compress;
  if decide (cores = -1) then Some 2
  else if decide (memory = -1 /\ m <> 0) then Some 2
  else if decide (0 < m /\ 2 * (2 * cores * m) > memory) then
    let threads := Z.min (memory / (2 * m)) 10 in
    if decide (0 < threads) then Some threads else Some 1
  else Some (Z.min (2 * cores) 10).
(** _determine_max_cache_entries 453-481.  [hard]: the hard limit for open files, None: no limit.  None: "Not enough available file descriptors" *)
Definition avail_fd (hard : option Z) (max_connections : Z) : Z := default 4096 hard - (32 + 3 * max_connections).
Definition max_cache_entries (hard : option Z) (requested : option Z) (max_connections : Z) : option Z :=
  let avail := avail_fd hard max_connections in
  match requested with
  | None => if decide (avail <= 64) then None else Some avail
  | Some n => if decide (n > avail) then Some avail else Some n
  end.

(** * src/s3ql/fs.py: statfs 1066-1113 *)
Record statvfs := Statvfs { f_frsize : Z; f_bsize : Z; f_blocks : Z; f_bfree : Z; f_bavail : Z; f_files : Z; f_ffree : Z; f_favail : Z }.
(** What the queries 1083-1085 return: the numbers of objects and inodes and the sum of the lengths of the objects *)
Record counts := Counts { n_objects : Z; n_inodes : Z; total : Z }.
(** 1091-1113 *)
Definition statvfs_of (c : counts) : statvfs :=
  let frsize := if decide (n_objects c = 0) then 4096 else Z.max 4096 (total c / n_objects c) in
  let fs_size := Z.max (2 * total c) (1024 ^ 4) in
  let total_inodes := Z.max (2 * n_inodes c) 1000000 in
  {| f_frsize := frsize; f_bsize := frsize; f_blocks := fs_size / frsize; f_bfree := (fs_size - total c) / frsize; f_bavail := (fs_size - total c) / frsize;
     f_files := total_inodes; f_ffree := total_inodes - n_inodes c; f_favail := total_inodes - n_inodes c |}.
(** 1077-1086: the cached counts with the time at which they were determined.  Time in any unit, [thirty]: 30 seconds. *)
Definition statfs (thirty now : Z) (db : counts) (cache : option (counts * Z)) : statvfs * option (counts * Z) :=
  match cache with
  | Some (c, t) => if decide (now - t < thirty) then (statvfs_of c, cache) else (statvfs_of db, Some (db, now))
  | None => (statvfs_of db, Some (db, now))
  end.
(** Several calls: times and contents of the database *)
Fixpoint statfs_calls (thirty : Z) (calls : list (Z * counts)) (cache : option (counts * Z)) : list statvfs :=
  match calls with [] => [] | (now, db) :: calls => let '(r, cache') := statfs thirty now db cache in r :: statfs_calls thirty calls cache' end.

(** * src/s3ql/fs.py: extstat 1037-1064 *)
(** sqlite's SUM over integers: None on overflow of a partial sum ("integer overflow") *)
Fixpoint sql_sum (acc : Z) (l : list Z) : option Z :=
  match l with [] => Some acc | x :: l => let acc := acc + x in if decide (- 2 ^ 63 <= acc < 2 ^ 63) then sql_sum acc l else None end.
(** The sizes: of all files, of all objects before and after compression.  [inodes]: size of every inode, [objects]: length and phys_size of every object.  None: an exception *)
Definition extstat_sizes (inodes : list Z) (objects : list (Z * Z)) : option (Z * Z * Z) :=
  fs_size ← sql_sum 0 inodes;
  dedup_size ← sql_sum 0 objects.*1;
  compr_size ← sql_sum 0 (filter (fun x => 0 < x) objects.*2);
  (* struct.pack('Q') *)
  if decide (0 <= fs_size /\ 0 <= dedup_size /\ 0 <= compr_size) then Some (fs_size, dedup_size, compr_size) else None.
