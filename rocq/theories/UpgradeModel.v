(** Upgrading a file system: s3qladm upgrade, src/s3ql/adm.py 297-310 (get_old_rev_msg), 353-508; what mount, fsck and s3ql_verify do
    first with the result: read_remote_params (database.py 1315-1331), read_cached_params (1295-1312), get_metadata (mount.py 579-619).

    A file system of revision 25 keeps its database in the object s3ql_metadata and its parameters in the metadata of this object
    (the programs of that version are not part of /repo). The database is a value of any type [D]; uploading and downloading it in blocks is
    MetadataModel (C24), replacing the local file of parameters is atomic (C29). The times, the label, and other parameters are in
    [convert]; the dialogue is the answer [yes]. *)
From stdpp Require Import prelude gmap.
From Coq.Strings Require Import Byte.
From Coq Require Import String.
From Verif Require Import Bytes ComprencModel SetupModel.
Local Close Scope string_scope.
Local Close Scope N_scope.
Local Open Scope nat_scope.
Local Open Scope list_scope.

(** The parameters that decide: revision, sequence number, needs_fsck, is_mounted *)
Record par := Par { rev : nat; seq_no : nat; needs_fsck : bool; is_mounted : bool }.
Global Instance par_eq_dec : EqDecision par.
Proof. solve_decision. Defined.
(** REV_VER_MAP, __init__.py 35-48 *)
Definition versions : list nat := [25; 24; 23; 22; 21; 20; 16; 15; 14; 13; 12; 11].

Section upgrade.
Context {D : Type}.
(** One computer and the storage: .params and .db; s3ql_metadata (parameters and database); s3ql_params; the uploaded databases by
    sequence number ([s3ql_metadata_<block>_<seq>] with the s3ql_params_<seq> beside them) *)
Record state := State { l_params : option par; l_db : option D; r_old : option (par * D); r_params : option par; r_db : gmap nat D }.

(** Why a program ends: exit codes, messages, or an uncaught exception *)
Inductive outcome := Done | GetOldVersion (code : nat) | OldFsck (version : nat) | TooOld | Recent | Declined | KeyErr | NotFound.

(** upgrade 383-450: what is decided before the question; [None]: go on *)
Definition upgrade_check (s : state) : option outcome :=
  match l_params s, l_db s with
  | Some l, Some _ =>
    match match r_old s with
          | Some (p, _) => Some (seq_no p)                                          (* 396 *)
          | None => match r_params s with                                           (* 399-404, read_remote_params *)
                    | Some p => if decide (rev p = CURRENT_FS_REV) then Some (seq_no p) else None
                    | None => None
                    end
          end with
    | None => Some NotFound                                                         (* exit code 32 or 33 *)
    | Some remote =>
      if decide (seq_no l < remote) then Some (GetOldVersion 1)                     (* 412-418 *)
      else if decide (remote < seq_no l \/ needs_fsck l = true) then                (* 420-427 *)
        if decide (rev l ∈ versions) then Some (OldFsck (rev l)) else Some KeyErr   (* get_old_rev_msg *)
      else if decide (rev l < CURRENT_FS_REV - 1) then                              (* 429-440 *)
        if decide (rev l + 1 ∈ versions) then Some TooOld else Some KeyErr
      else if decide (CURRENT_FS_REV <= rev l) then Some Recent                     (* 442-444 *)
      else None
    end
  | _, _ => Some (GetOldVersion 1)                                                  (* 383-389 *)
  end.
(** The four changes 486-505, in this order *)
Inductive action := UploadDb | WriteParams | UploadParams | RewriteOld.
Definition actions : list action := [UploadDb; WriteParams; UploadParams; RewriteOld].
(** 463, 480-482: the parameters of the new file system; seq_no is the old one plus one *)
Definition new_par (l : par) : par := Par CURRENT_FS_REV (seq_no l + 1) (needs_fsck l) (is_mounted l).
Definition act (l : par) (db : D) (s : state) (a : action) : state :=
  let n := new_par l in
  match a with
  | UploadDb => State (l_params s) (l_db s) (r_old s) (r_params s) (<[seq_no n := db]> (r_db s))         (* 486 *)
  | WriteParams => State (Some n) (l_db s) (r_old s) (r_params s) (r_db s)                              (* 487 *)
  | UploadParams => State (l_params s) (l_db s) (r_old s) (Some n) (r_db s)                             (* 488 *)
  | RewriteOld => State (l_params s) (l_db s)                                                          (* 493-505 *)
      (match r_old s with Some (_, d) => Some (Par CURRENT_FS_REV (seq_no l + 1) (needs_fsck l) (is_mounted l), d) | None => None end) (r_params s) (r_db s)
  end.
(** upgrade, interrupted after [n] changes *)
Definition upgrade (yes : bool) (n : nat) (s : state) : state * outcome :=
  match upgrade_check s with
  | Some o => (s, o)
  | None =>
    if yes then match l_params s, l_db s with
                | Some l, Some db => (foldl (act l db) s (take n actions), Done)
                | _, _ => (s, Done)
                end
    else (s, Declined)
  end.

(** get_metadata: the database that is used, or why there is none *)
Inductive usable := Use (p : par) (d : D) | WrongRevision | RunFsck | MountedElsewhere | NoMetadata | AssertionError.
Definition read_remote (s : state) : option par := match r_params s with Some p => if decide (rev p = CURRENT_FS_REV) then Some p else None | None => None end.
Definition get_metadata (s : state) : usable :=
  match read_remote s with
  | None => WrongRevision                                                           (* 1319-1323, deserialize *)
  | Some p =>
    let check d := if is_mounted p then MountedElsewhere else if needs_fsck p then RunFsck else Use p d in
    let download := match r_db s !! seq_no p with Some d => check d | None => NoMetadata end in
    match l_params s, l_db s with
    | Some _, None => AssertionError                                                (* 1300 *)
    | Some l, Some d =>
      if decide (seq_no l < seq_no p) then download                                 (* OutdatedData *)
      else if decide (rev l <> CURRENT_FS_REV) then WrongRevision
      else if decide (seq_no p < seq_no l) then RunFsck
      else if decide (l <> p) then AssertionError                                   (* 588 *)
      else check d
    | None, _ => download
    end
  end.
End upgrade.
Arguments state : clear implicits.
Arguments usable : clear implicits.

(** The parameters as a mapping, 459-477. [fields]: the names of the fields of FsAttributes. [None]: a KeyError. *)
Definition put (m : mapping) (k : bytes) (v : val) : mapping := (k, v) :: filter (fun kv => kv.1 <> k) m.
Definition underscores (k : bytes) : bytes := (fun c => if decide (c = x2d) then x5f else c) <$> k.
Definition fields : list bytes := str <$> ["data_block_size"; "metadata_block_size"; "seq_no"; "db_size"; "revision"; "label"; "needs_fsck"; "is_mounted"; "inode_gen"; "last_fsck"; "last_modified"; "db_md5"]%string.
Definition convert (mbs : Z) (m : mapping) : option mapping :=
  let new := foldl (fun a kv => put a (underscores kv.1) kv.2) [] m in              (* the last of equal names counts *)
  match get new (str "max_obj_size") with
  | None => None
  | Some v =>
    let new := put new (str "data_block_size") v in
    let new := put new (str "metadata_block_size") (VInt (mbs * 1024)) in
    let new := put new (str "revision") (VInt (Z.of_nat CURRENT_FS_REV)) in
    Some (filter (fun kv => kv.1 ∈ fields) new)
  end.
