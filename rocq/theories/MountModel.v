(** Who works with which metadata: mount.py:577-614 (get_metadata), mount.py:364-438 (mounting and
    unmounting), mount.py:725-778 (MetadataUploadTask.run), fsck.py:1309-1498 (fsck), adm.py:511-582
    (restore-metadata), database.py:1266-1340 (upload_params, write_params, read_cached_params,
    read_remote_params).

    Any number of machines share one backend.  At most one operation runs at a time (s3ql does not lock the
    backend), but every operation may crash between any two of its actions.  Simplified:
    - the database and its snapshots are values of an arbitrary type [D]; that a completed upload can be
      downloaded again is proved in MetadataProps.v, an incomplete one is [None];
    - the cached blocks of a machine are represented by the database they belong to;
    - the parameters other than seq_no, is_mounted and needs_fsck (db_md5, last_modified, last_fsck, ...)
      are one number;
    - s3ql_params and s3ql_params_<seq> are stored in one action;
    - the modifications made by a file system check are a function [repair]. *)
From stdpp Require Import prelude.

(** FsAttributes, database.py:106-119 *)
Record par := Par { seq : nat; mounted : bool; needs_fsck : bool; info : nat }.
Global Instance par_eq_dec : EqDecision par.
Proof. solve_decision. Defined.

Section model.
Context {D : Type} (repair : D -> D).

(** Where an operation is; each constructor is followed by the actions that remain to be done. *)
Inductive pc :=
| MDown      (* download_metadata 604, drop the cache 607-608 *)
| MReady     (* seq_no += 1, write_params 364-366 *)
| MWrote     (* upload_params 368 *)
| Running
| U1         (* MetadataUploadTask: upload_metadata with writes inhibited 758-764 *)
| U2         (* write_params 765 *)
| U3         (* upload_params 766 *)
| U4         (* seq_no += 1, write_params 772-773 *)
| U5         (* upload_params 774 *)
| V1         (* unmount: upload_metadata 435 *)
| V2         (* write_params 436 *)
| V3         (* upload_params 437 *)
| FDown      (* fsck: download_metadata 1403-1411 *)
| FReady (rem : bool)   (* seq_no += 1, write_params 1443-1445; [rem]: outdated remote metadata is used on request *)
| F1         (* upload_params 1446 *)
| F2         (* Fsck.check 1448-1449 *)
| F3         (* upload_metadata 1477-1484 *)
| F4         (* write_params 1486 *)
| F5         (* upload_params 1487 *)
| R0 (d : D) (n : nat)   (* restore-metadata: download_metadata 555-560 *)
| R1 (d : D) (n : nat).  (* write_params 563-568; n: the new sequence number *)

Record state := State {
  rp : par;                        (* s3ql_params *)
  snap : nat -> option D;          (* the metadata snapshots in the backend *)
  lp : nat -> option par;          (* <cachepath>.params of each machine *)
  ldb : nat -> D;                  (* <cachepath>.db *)
  cache : nat -> option D;         (* <cachepath>-cache *)
  act : option (nat * pc * par)    (* the operation in progress: machine, place, its variable param *)
}.

Definition upd {A} (f : nat -> A) (k : nat) (v : A) : nat -> A := fun k' => if Nat.eqb k' k then v else f k'.
Definition set_rp p s := State p (snap s) (lp s) (ldb s) (cache s) (act s).
Definition set_snap n d s := State (rp s) (upd (snap s) n d) (lp s) (ldb s) (cache s) (act s).
Definition set_lp m p s := State (rp s) (snap s) (upd (lp s) m (Some p)) (ldb s) (cache s) (act s).
Definition set_ldb m d s := State (rp s) (snap s) (lp s) (upd (ldb s) m d) (cache s) (act s).
Definition set_cache m c s := State (rp s) (snap s) (lp s) (ldb s) (upd (cache s) m c) (act s).
Definition set_act a s := State (rp s) (snap s) (lp s) (ldb s) (cache s) a.

(** read_cached_params 1297-1312 with min_seq *)
Definition read_cached (s : state) (m : nat) : option par :=
  match lp s m with Some p => if decide (seq p < seq (rp s)) then None else Some p | None => None end.

Inductive label :=
| LMount (m : nat)
| LChange (d : D)                 (* a user modifies the file system *)
| LUpload                         (* the metadata upload task wakes up *)
| LUnmount (errors : bool)        (* errors: operations.failsafe *)
| LFsck (m : nat) (force recent remote : bool)   (* recent: last check less than 31 days ago; remote: --force-remote or confirmed *)
| LRestore (m : nat) (q : par) (n : nat)
| LGo (d : D) (i : nat)           (* the next action; d, i: downloaded or computed values that are not determined *)
| LCrash (d : D).                 (* d: what is in the database file if a download was in progress *)

(** get_metadata 577-614; [None]: refused (QuietError or AssertionError) *)
Definition get_metadata (s : state) (m : nat) : option state :=
  let p := rp s in
  match read_cached s m with
  | Some l =>
    if decide (seq p < seq l) then None                      (* 587-588 *)
    else if decide (l = p) then                              (* 590 *)
      if mounted p then None else if needs_fsck p then None else Some (set_act (Some (m, MReady, p)) s)
    else None
  | None => if mounted p then None else if needs_fsck p then None else Some (set_act (Some (m, MDown, p)) s)
  end.

Definition with_mounted (b : bool) (p : par) := Par (seq p) b (needs_fsck p) (info p).
Definition with_fsck (b : bool) (p : par) := Par (seq p) (mounted p) b (info p).
Definition with_info (i : nat) (p : par) := Par (seq p) (mounted p) (needs_fsck p) i.
Definition next_seq (p : par) := Par (S (seq p)) (mounted p) (needs_fsck p) (info p).

(** fsck.py:1313-1411; [None]: refused; the state is unchanged if the file system is considered clean *)
Definition start_fsck (s : state) (m : nat) (force recent remote : bool) : option state :=
  match read_cached s m with
  | Some l =>
    let p := if mounted l then with_fsck true l else l in     (* 1316-1321; the test 1322 is never true *)
    if negb (needs_fsck p) && recent && negb force then Some s          (* 1360-1367 *)
    else Some (set_act (Some (m, FReady false, p)) s)
  | None =>
    let p := rp s in
    if mounted p && negb remote then None                     (* 1326-1357 *)
    else
      let p := if mounted p then with_fsck true p else p in
      if negb (needs_fsck p) && recent && negb force then Some s
      else Some (set_act (Some (m, FDown, p)) (set_cache m None s))      (* 1369-1391 *)
  end.

(** One action of the operation in progress. *)
Definition go (s : state) (m : nat) (c : pc) (p : par) (d : D) (i : nat) : option state :=
  let at_ c p s := Some (set_act (Some (m, c, p)) s) in
  let done s := Some (set_act None s) in
  match c with
  | MDown =>
    match snap s (seq p) with
    | Some d => at_ MReady p (set_cache m None (set_ldb m d s))
    | None => done (set_ldb m d s)
    end
  | MReady => let p := with_mounted true (next_seq p) in at_ MWrote p (set_lp m p s)
  | MWrote => at_ Running p (set_rp p s)
  | Running => None
  | U1 => at_ U2 (with_info i p) (set_snap (seq p) (Some (ldb s m)) s)
  | U2 => at_ U3 p (set_lp m p s)
  | U3 => at_ U4 p (set_rp p s)
  | U4 => let p := next_seq p in at_ U5 p (set_lp m p s)
  | U5 => at_ Running p (set_rp p s)
  | V1 => at_ V2 (with_info i p) (set_snap (seq p) (Some (ldb s m)) s)
  | V2 => at_ V3 p (set_lp m p s)
  | V3 => done (set_rp p s)
  | FDown =>
    if mounted p then at_ (FReady true) p (set_ldb m d s)
    else match snap s (seq p) with Some d => at_ (FReady false) p (set_ldb m d s) | None => done (set_ldb m d s) end
  | FReady _ => let p := with_mounted true (next_seq p) in at_ F1 p (set_lp m p s)
  | F1 => at_ F2 p (set_rp p s)
  | F2 => at_ F3 p (set_snap (seq p) None (set_cache m (repair <$> cache s m) (set_ldb m (repair (ldb s m)) s)))
  | F3 => at_ F4 (with_info i (with_mounted false (with_fsck false p))) (set_snap (seq p) (Some (ldb s m)) s)
  | F4 => at_ F5 p (set_lp m p s)
  | F5 => done (set_rp p s)
  | R0 b n => at_ (R1 b n) p (set_ldb m b s)
  | R1 b n => done (set_lp m (Par n false true (info p)) s)
  end.

(** Places where a user can modify the file system. *)
Definition in_session (c : pc) : bool := match c with Running | U1 | U2 | U3 | U4 | U5 => true | _ => false end.
Definition downloading (c : pc) : bool := match c with MDown | FDown | R0 _ _ => true | _ => false end.

Definition step (s : state) (l : label) : option state :=
  match l, act s with
  | LMount m, None => get_metadata s m
  | LFsck m force recent remote, None => start_fsck s m force recent remote
  | LRestore m q n, None =>
    (* the backup must exist, and the new sequence number is larger than any other (adm.py:565) *)
    match snap s (seq q) with
    | Some d => if decide (seq (rp s) < n) then Some (set_act (Some (m, R0 d n, q)) s) else None
    | None => None
    end
  | LChange d, Some (m, c, _) => if in_session c then Some (set_cache m (Some d) (set_ldb m d s)) else None
  | LUpload, Some (m, Running, p) => Some (set_act (Some (m, U1, p)) (set_snap (seq p) None s))
  | LUnmount e, Some (m, Running, p) =>
    let p := Par (seq p) false (needs_fsck p || e) (info p) in
    Some (set_act (Some (m, V1, p)) (set_snap (seq p) None s))
  | LGo d i, Some (m, c, p) => go s m c p d i
  | LCrash d, Some (m, c, _) => Some (set_act None (if downloading c then set_ldb m d s else s))
  | _, _ => None
  end.
End model.
Arguments state : clear implicits.
Arguments label : clear implicits.
Arguments pc : clear implicits.
