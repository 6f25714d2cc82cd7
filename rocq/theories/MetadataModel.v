(** Metadata storage: database file, write tracker, metadata objects, upload, download and expiry.
    Models src/s3ql/database.py:864-1330 and src/s3ql/_sqlite3ext.cpp:121-197. *)
From stdpp Require Import prelude list gmap sorting.
From Verif Require Import Files.

(** Blocks of a file. database.py:1192, 950 *)
Definition blk_off (bs b : nat) : nat := b * bs.

(** [math.ceil(size / bs)] (database.py:1089, 1173), in exact arithmetic.
    Simplification: the code divides floats; exact for sizes below 2^53 (see FloatModel, float_ceil_is_exact). *)
Definition nblocks (bs size : nat) : nat := size / bs + (if decide (size mod bs = 0) then 0 else 1).

(** ** The write tracker (_sqlite3ext.cpp) *)

(** Blocks marked by [vfstraceWrite] (_sqlite3ext.cpp:149-158): from [off/bs] below the rounded up
    end. *)
Definition marked (bs off len : nat) : gset nat :=
  let end_off := off + len in
  let max_blockno := end_off / bs in
  let max_blockno := if decide (max_blockno * bs < end_off) then S max_blockno else max_blockno in
  list_to_set (seq (off / bs) (max_blockno - off / bs)).

Record dbfile := DbFile { db_data : file; db_dirty : gset nat }.

(** [vfstraceWrite] (_sqlite3ext.cpp:124-160), writes not inhibited. *)
Definition vfs_write (bs off : nat) (d : list byte) (db : dbfile) : dbfile :=
  DbFile (fwrite off d (db_data db)) (db_dirty db ∪ marked bs off (length d)).

(** [vfstraceTruncate] (_sqlite3ext.cpp:165-197): drops marks above [size/bs], adds none. *)
Definition vfs_truncate (bs size : nat) (db : dbfile) : dbfile :=
  DbFile (ftrunc size (db_data db)) (filter (fun b => b <= size / bs) (db_dirty db)).

(** ** Objects in the backend *)

(** [objs] maps (block number, sequence number) to the contents of the object
    [s3ql_metadata_<blockno>_<seq>] (database.py:64); the object names themselves are modelled in
    NamesModel.  [prms] maps a sequence number to the parameters in [s3ql_params_<seq>]. *)
Record params := Params { p_seq : nat; p_size : nat; p_md5 : list byte }.

Record remote := Remote { objs : gmap (nat * nat) (list byte); prms : gmap nat params }.

(** [get_block_objects] (database.py:878-897): block number to ascending list of versions. *)
Definition versions (r : remote) (b : nat) : list nat :=
  merge_sort le (omap (fun k => if decide (k.1 = b) then Some k.2 else None)
                        (map fst (map_to_list (objs r)))).

Definition block_nos (r : remote) : list nat :=
  elements (list_to_set (map (fun k => k.1.1) (map_to_list (objs r))) : gset nat).

(** [first_le_than] (database.py:1043-1053): scan from the back; [None] is the ValueError. *)
Fixpoint first_le_rev (l : list nat) (t : nat) : option nat :=
  match l with
  | [] => None
  | e :: l => if decide (e <= t) then Some e else first_le_rev l t
  end.
Definition first_le_than (l : list nat) (t : nat) : option nat := first_le_rev (reverse l) t.

(** ** Upload (database.py:1119-1263) *)

Record job := Job { j_block : nat; j_off : nat; j_len : nat }.

(** [UploadMetadata.produce] (1178-1198) for one block. *)
Definition mk_job (bs size b : nat) : job :=
  let off := b * bs in Job b off (min bs (size - off)).

(** [UploadMetadata.consume] (1200-1208): seek, store up to [j_len] bytes. *)
Definition do_job (sq : nat) (f : file) (j : job) (o : gmap (nat * nat) (list byte)) :=
  <[(j_block j, sq) := fread (j_off j) (j_len j) f]> o.

(** ** Download (database.py:909-1040) *)

Inductive dl_result :=
| DlOk (f : file)
| DlNoVersion (b : nat)        (* RuntimeError, 969 *)
| DlMissing (b : nat)          (* NoSuchObject while fetching *)
| DlChecksum.                  (* DatabaseChecksumError, 1012 *)

(** [produce] (939-975), not failsafe. *)
Fixpoint dl_jobs (bs : nat) (r : remote) (p : params) (bl : list nat) : nat + list (nat * nat) :=
  match bl with
  | [] => inr []
  | b :: bl =>
    if decide (p_size p <= b * bs) then dl_jobs bs r p bl
    else match first_le_than (versions r b) (p_seq p) with
         | None => inl b
         | Some s => match dl_jobs bs r p bl with
                     | inl e => inl e
                     | inr js => inr ((b, s) :: js)
                     end
         end
  end.

(** [consume] (977-987): seek to the offset of the block and write the object.  Simplification: the
    workers' writes are applied one after the other (they touch disjoint ranges, and the theorem
    holds for every order of the job list). *)
Fixpoint dl_run (bs : nat) (r : remote) (js : list (nat * nat)) (f : file) : nat + file :=
  match js with
  | [] => inr f
  | (b, s) :: js => match objs r !! (b, s) with
                    | None => inl b
                    | Some o => dl_run bs r js (fwrite (b * bs) o f)
                    end
  end.

(** [finalize] (1000-1012) with [hash] for sha256; block order [bl] is the iteration order of the
    dict returned by [get_block_objects]. *)
Definition download_order (hash : file -> list byte) (bs : nat) (r : remote) (p : params)
    (bl : list nat) : dl_result :=
  match dl_jobs bs r p bl with
  | inl b => DlNoVersion b
  | inr js => match dl_run bs r js [] with
              | inl b => DlMissing b
              | inr f => let f := ftrunc (p_size p) f in
                         if decide (hash f = p_md5 p) then DlOk f else DlChecksum
              end
  end.
Definition download hash bs r p := download_order hash bs r p (block_nos r).

(** ** Expiry (database.py:1068-1107) *)

(** [metadata_objs[-n:]] and [metadata_objs[:-n]] (1076-1077); for n = 0 Python's slices are the
    whole list and the empty list (the code uses n = 32). *)
Definition seqs (r : remote) : list nat := merge_sort le (map fst (map_to_list (prms r))).
Definition last_n {A} (n : nat) (l : list A) : list A :=
  if decide (n = 0) then l else drop (length l - n) l.
Definition but_last_n {A} (n : nat) (l : list A) : list A :=
  if decide (n = 0) then [] else take (length l - n) l.

(** The loop 1081-1095 over the kept sequence numbers and all blocks: the set of needed objects, or
    [None] when [first_le_than] raises. *)
Fixpoint keep_blocks (bs : nat) (r : remote) (sq size : nat) (bl : list nat) (acc : gset (nat * nat))
    : option (gset (nat * nat)) :=
  match bl with
  | [] => Some acc
  | b :: bl =>
    (* blockno > max_blockno, with max_blockno = ceil(size/bs) - 1, which is -1 for size 0 *)
    if decide (nblocks bs size <= b) then keep_blocks bs r sq size bl acc
    else match first_le_than (versions r b) sq with
         | None => None
         | Some v => keep_blocks bs r sq size bl ({[(b, v)]} ∪ acc)
         end
  end.
Fixpoint keep_seqs (bs : nat) (r : remote) (sqs : list nat) (acc : gset (nat * nat))
    : option (gset (nat * nat)) :=
  match sqs with
  | [] => Some acc
  | sq :: sqs => match prms r !! sq with
                 | None => None
                 | Some p => match keep_blocks bs r sq (p_size p) (block_nos r) acc with
                             | None => None
                             | Some acc => keep_seqs bs r sqs acc
                             end
                 end
  end.

(** Result: the remaining objects, or [None] when the function raises before deleting anything. *)
Definition expire_objects (bs n : nat) (r : remote) : option remote :=
  match keep_seqs bs r (last_n n (seqs r)) ∅ with
  | None => None
  | Some keep =>
    Some (Remote (filter (fun kv => kv.1 ∈ keep) (objs r))
                 (filter (fun kv => kv.1 ∉ but_last_n n (seqs r)) (prms r)))
  end.

(** ** The life of a file system's metadata *)

(** How the database file relates to the last finalised upload. [Clean]: unchanged since then (the
    condition under which mount.py:589/607 may reuse or download it); [Active]: in use, with a
    working tracker; [NeedsFull]: reopened after a crash, the tracker's knowledge is lost
    (fsck.py:1465-1471). *)
Inductive mode := Clean | Active | NeedsFull.
#[global] Instance mode_eq_dec : EqDecision mode.
Proof. solve_decision. Defined.

(** [st_params] is the in-memory FsAttributes; [st_jobs] are the blocks still to be uploaded by the
    running pass, [st_final] tells whether that pass runs with update_params=True (and therefore
    with writes inhibited, or with the database closed), [st_passsize] is UploadMetadata.db_size
    (1163). *)
Record state := State {
  st_mode : mode;
  st_db : dbfile;
  st_remote : remote;
  st_params : params;
  st_pass : bool;
  st_final : bool;
  st_jobs : list job;
  st_passsize : nat
}.

Inductive event :=
| EWrite (off : nat) (d : list byte)   (* SQLite writes to the main database file *)
| ETruncate (size : nat)               (* SQLite truncates the main database file *)
| EBegin (incremental final : bool)    (* start of upload_metadata *)
| EJob (n : nat)                       (* a worker stores the n-th outstanding block *)
| EFinish                              (* end of upload_metadata; mount.py:752-776 if final *)
| EExpire (n : nat)                    (* expire_objects *)
| EReopen                              (* a later mount on the same machine, mount.py:588-590 *)
| EDownload                            (* a later mount on another machine, mount.py:605-607 *)
| ECrash (f : file).                   (* crash; [f] is what SQLite's recovery then finds *)

Definition touch (m : mode) : mode := match m with NeedsFull => NeedsFull | _ => Active end.

(** [None]: the event is impossible in this state.
    Simplifications: the clean unmount (mount.py:425-437) and the sequence number increment of the
    following mount (mount.py:364-368) are one event, EFinish, as in the periodic upload
    (mount.py:757-774); the same holds for the end of fsck.  mkfs and fsck use the same
    upload_metadata. *)
Definition step (hash : file -> list byte) (bs : nat) (s : state) (e : event) : option state :=
  match e with
  | EWrite off d =>
    (* rejected while writes are inhibited, _sqlite3ext.cpp:133 *)
    if st_final s then None else
    Some (State (touch (st_mode s)) (vfs_write bs off d (st_db s)) (st_remote s) (st_params s)
                (st_pass s) (st_final s) (st_jobs s) (st_passsize s))
  | ETruncate size =>
    if st_final s then None else
    Some (State (touch (st_mode s)) (vfs_truncate bs size (st_db s)) (st_remote s) (st_params s)
                (st_pass s) (st_final s) (st_jobs s) (st_passsize s))
  | EBegin incremental final =>
    if st_pass s then None else
    let size := length (db_data (st_db s)) in
    if incremental then
      if decide (st_mode s = NeedsFull) then None else
      (* snapshot_blocks (1163-1171): drain the tracker *)
      Some (State Active (DbFile (db_data (st_db s)) ∅) (st_remote s) (st_params s) true final
                  (map (mk_job bs size) (elements (db_dirty (st_db s)))) size)
    else if final then
      (* full upload (1173): the tracker is not drained *)
      Some (State Active (st_db s) (st_remote s) (st_params s) true final
                  (map (mk_job bs size) (seq 0 (nblocks bs size))) size)
    else None
  | EJob n =>
    if st_pass s then
      match st_jobs s !! n with
      | None => None
      | Some j =>
        Some (State (st_mode s) (st_db s)
                (Remote (do_job (p_seq (st_params s)) (db_data (st_db s)) j (objs (st_remote s)))
                        (prms (st_remote s)))
                (st_params s) true (st_final s) (delete n (st_jobs s)) (st_passsize s))
      end
    else None
  | EFinish =>
    if st_pass s then
      match st_jobs s with
      | [] =>
        if st_final s then
          (* finalize (1226-1231), upload_params, seq_no += 1, upload_params (mount.py:758-774) *)
          let sq := p_seq (st_params s) in
          let f := db_data (st_db s) in
          let p1 := Params sq (st_passsize s) (hash f) in
          let p2 := Params (S sq) (st_passsize s) (hash f) in
          Some (State Clean (st_db s)
                  (Remote (objs (st_remote s)) (<[S sq := p2]> (<[sq := p1]> (prms (st_remote s)))))
                  p2 false false [] 0)
        else
          Some (State (st_mode s) (st_db s) (st_remote s) (st_params s) false false [] 0)
      | _ => None
      end
    else None
  | EExpire n =>
    (* only ever called directly after a finalised upload: mount.py:438, 776, fsck.py:1491 *)
    if decide (st_mode s = Clean) then
    match expire_objects bs n (st_remote s) with
    | None => None
    | Some r => Some (State Clean (st_db s) r (st_params s) false false [] 0)
    end
    else None
  | EReopen =>
    (* a new Connection with an empty tracker *)
    if st_pass s then None else
    if decide (st_mode s = Clean) then
      Some (State Clean (DbFile (db_data (st_db s)) ∅) (st_remote s) (st_params s) false false [] 0
                 )
    else None
  | EDownload =>
    if st_pass s then None else
    if decide (st_mode s = Clean) then
      match download hash bs (st_remote s) (st_params s) with
      | DlOk f => Some (State Clean (DbFile f ∅) (st_remote s) (st_params s) false false [] 0
                             )
      | _ => None
      end
    else None
  | ECrash f =>
    (* fsck.py:1448-1451: the next sequence number, with the size and checksum as they were *)
    let p := Params (S (p_seq (st_params s))) (p_size (st_params s)) (p_md5 (st_params s)) in
    Some (State NeedsFull (DbFile f ∅) (Remote (objs (st_remote s)) (<[p_seq p := p]> (prms (st_remote s))))
                p false false [] 0)
  end.

Fixpoint run (hash : file -> list byte) (bs : nat) (s : state) (es : list event) : option state :=
  match es with
  | [] => Some s
  | e :: es => match step hash bs s e with None => None | Some s' => run hash bs s' es end
  end.

(** A freshly created database file before its first upload (mkfs.py): no metadata objects. *)
Definition init (sq : nat) (f : file) : state :=
  State NeedsFull (DbFile f ∅) (Remote ∅ ∅) (Params sq 0 []) false false [] 0.
