(** Creating a file system, opening it, and changing its passphrase: src/s3ql/mkfs.py 116-262, src/s3ql/adm.py 145-232 (passphrase,
    recover-key), src/s3ql/backends/__init__.py 103-184 (open_backend), database.py 1265-1272 (upload_params), 1315-1331
    (read_remote_params), mount.py 579-619 (get_metadata, on a computer without cached metadata).

    The storage maps names to what the underlying backend holds; storing an object is atomic (C37, C38).  Encryption is
    ComprencModel, with the same parameters.  Not modelled: the local files of mkfs (see MountModel), retries, and errors
    of the underlying backend.  Every command can be interrupted after any number of stores. *)
From stdpp Require Import prelude gmap.
From Coq.Strings Require Import Byte.
From Coq Require Import String.
From Verif Require Import CodecModel ConfigModel Files MetadataModel Bytes NamesModel ComprencModel.
Local Close Scope string_scope.
Local Close Scope N_scope.
Local Open Scope nat_scope.
Local Open Scope list_scope.
Notation byte := Byte.byte.
Global Instance byte_countable : Countable byte.
Proof. refine (inj_countable Byte.to_N Byte.of_N _). intros b. apply Byte.of_to_N. Defined.
Notation storage := (gmap bytes (mapping * bytes)).

(** FsAttributes, database.py 105-118; the label, the times and the inode generation are left out. *)
Record attrs := Attrs { a_rev : nat; a_seq : nat; a_size : nat; a_md5 : list nat; a_mounted : bool; a_fsck : bool; a_bs : nat }.
Definition CURRENT_FS_REV : nat := 26.
Definition PASSPHRASE : bytes := str "s3ql_passphrase".
Definition BAK (n : nat) : bytes := nth n [str "s3ql_passphrase_bak1"; str "s3ql_passphrase_bak2"; str "s3ql_passphrase_bak3"] [].
Definition S3QL_PARAMS : bytes := str "s3ql_params".
Definition S3QL_METADATA : bytes := str "s3ql_metadata".
Definition to_file (b : bytes) : file := (fun x => N.to_nat (Byte.to_N x)) <$> b.

Inductive opened := Opened (passphrase : option bytes) | WrongPassphrase | NoFileSystem | OpenError.
Inductive mounted := Mounted (a : attrs) (f : file) | MountError.
(** One store: the passphrase of the backend object, the name and the content. *)
Record item := Item { it_pass : option bytes; it_key : bytes; it_data : bytes }.

Section setup.
Context (bufsize : nat) (cenc cdec : bytes -> nat -> byte -> byte) (sha256 : bytes -> bytes) (hmac : bytes -> bytes -> bytes).
Context (comp : algorithm -> list bytes -> bytes) (decomp : algorithm -> list bytes -> option (bytes * bool * bytes)).
Context (freeze : mapping -> bytes) (thaw : bytes -> option mapping).
(** FsAttributes.serialize and deserialize (123-150), and the checksum of the database file *)
Context (serialize : attrs -> bytes) (deserialize : bytes -> option attrs) (hash : file -> list nat).

(** AsyncComprencBackend.store, comprenc.py 383-384, at the time [now] *)
Definition store (alg : algorithm) (now : bytes) (x : item) (st : storage) : storage :=
  match write_fh bufsize cenc sha256 hmac comp freeze (it_pass x) alg now (it_key x) (it_data x) 0 (List.length (it_data x)) [] false with
  | Some o => <[it_key x := o]> st
  | None => st
  end.
(** Several stores, the [i]-th at the time [now i]. *)
Fixpoint stores (alg : algorithm) (now : nat -> bytes) (i : nat) (l : list item) (st : storage) : storage :=
  match l with [] => st | x :: l => stores alg now (S i) l (store alg (now i) x st) end.
(** AsyncBackend.fetch; [None]: NoSuchObject *)
Definition fetch (p : option bytes) (k : bytes) (st : storage) : option (result (mapping * bytes)) :=
  match st !! k with Some (m, d) => Some (readinto_fh bufsize cdec sha256 hmac decomp thaw p k m d) | None => None end.

(** open_backend 103-184 with the passphrase the user gives. *)
Definition open_backend (pass : bytes) (st : storage) : opened :=
  match st !! PASSPHRASE with
  | None => if decide (is_Some (st !! S3QL_PARAMS) \/ is_Some (st !! S3QL_METADATA)) then Opened None else NoFileSystem    (* 174-178 *)
  | Some _ =>
    match fetch (Some pass) PASSPHRASE st with
    | Some (Ok (_, pw)) => Opened (Some pw)                                                                              (* 165, 172 *)
    | Some Corrupted => WrongPassphrase                                                                                  (* 166-171 *)
    | _ => OpenError
    end
  end.

(** The four stores of the key, adm.py 183-186, 229-232, mkfs.py 206-209 *)
Definition key_items (wrap pw : bytes) : list item := (fun k => Item (Some wrap) k pw) <$> [PASSPHRASE; BAK 0; BAK 1; BAK 2].
(** s3qladm passphrase 145-188, interrupted after [n] stores; the flag tells whether it got as far as storing. *)
Definition passphrase (old new : bytes) (alg : algorithm) (now : nat -> bytes) (n : nat) (st : storage) : storage * bool :=
  match open_backend old st with
  | Opened (Some pw) => if decide (pw = []) then (st, false) else (stores alg now 0 (take n (key_items new pw)) st, true)
  | _ => (st, false)
  end.
(** The master key as typed, adm.py 208-220: white space is removed; b64decode rejects characters that are not ASCII.
    [None]: a QuietError. *)
Definition master_key (line : text) : option bytes :=
  let s := filter (fun c => is_space c = false) line in
  if decide (Forall (fun c => (c < 128)%N) s) then
    b ← b64decode s; if decide (List.length b = 32) then Some (byte_of <$> b) else None
  else None.
(** s3qladm recover-key 191-232 *)
Definition recover_key (line : text) (wrap : bytes) (alg : algorithm) (now : nat -> bytes) (n : nat) (st : storage) : storage * bool :=
  match master_key line with
  | Some pw => (stores alg now 0 (take n (key_items wrap pw)) st, true)
  | None => (st, false)
  end.
(** What mkfs prints, mkfs.py 251-262: groups of four characters. *)
Fixpoint groups (fuel : nat) (l : text) : list text :=
  match fuel, l with O, _ | _, [] => [] | S fuel, _ => take 4 l :: groups fuel (drop 4 l) end.
Fixpoint unwords (ws : list text) : text := match ws with [] => [] | [w] => w | w :: ws => w ++ [32%N] ++ unwords ws end.
Definition printed_key (pw : bytes) : text := let s := b64encode (Byte.to_N <$> pw) in unwords (groups (List.length s) s).
(** How passphrases are entered: the terminal's line as it is, or a line of standard input without the white space at its
    end (including the newline): adm.py 173-179, mkfs.py 190-196, authinfo.py 161-165. *)
Definition rstrip (s : text) : text := reverse (lstrip_space (reverse s)).
Definition enter (tty : bool) (line : text) : text := if tty then line else rstrip line.

(** mkfs 187-188 *)
Definition exists_fs (st : storage) : bool := bool_decide (is_Some (st !! S3QL_PARAMS) \/ is_Some (st !! S3QL_METADATA)).
(** The parameters of the new file system, 221-229 and UploadMetadata.finalize (database.py 1214-1225); [bs] is in bytes. *)
Definition new_attrs (sq bs : nat) (db : bytes) : attrs := Attrs CURRENT_FS_REV sq (List.length db) (hash (to_file db)) false false bs.
Definition block (bs b : nat) (db : bytes) : bytes := take bs (drop (b * bs) db).
(** Everything that is stored: the key (206-209), the blocks of the database in the order [bl] (240; the workers are
    parallel), and the parameters (242). *)
Definition mkfs_items (wrap : option bytes) (pw : bytes) (sq bs : nat) (db : bytes) (bl : list nat) : list item :=
  let p := match wrap with Some _ => Some pw | None => None end in
  let ser := serialize (new_attrs sq bs db) in
  match wrap with Some w => key_items w pw | None => [] end ++
  ((fun b => Item p (meta_name b sq) (block bs b db)) <$> bl) ++
  [Item p S3QL_PARAMS ser; Item p (params_name sq) ser].
(** mkfs, interrupted after [n] stores; [wrap]: the passphrase ([None] with --plain), [pw]: 32 random bytes, [db]: the new
    database file. *)
Definition mkfs (wrap : option bytes) (pw : bytes) (alg : algorithm) (now : nat -> bytes) (sq bs : nat) (db : bytes) (bl : list nat)
    (n : nat) (st : storage) : storage * bool :=
  if exists_fs st then (st, false) else (stores alg now 0 (take n (mkfs_items wrap pw sq bs db bl)) st, true).

(** get_block_objects: the versions of the blocks, from the names of the objects *)
Definition listing (st : storage) : remote := Remote (list_to_map ((fun x => (x, [])) <$> omap parse_meta (map_to_list st).*1)) ∅.
(** DownloadMetadata.consume: the selected objects are fetched and written to the file. *)
Fixpoint download_blocks (p : option bytes) (bs : nat) (st : storage) (js : list (nat * nat)) (f : file) : option file :=
  match js with
  | [] => Some f
  | (b, s) :: js => match fetch p (meta_name b s) st with
                    | Some (Ok (_, o)) => download_blocks p bs st js (fwrite (b * bs) (to_file o) f)
                    | _ => None
                    end
  end.
(** mounting on a computer without cached metadata: open_backend, get_metadata 579-619, read_remote_params; the blocks are listed in the order [bl]. *)
Definition mount (pass : bytes) (bl : list nat) (st : storage) : mounted :=
  match open_backend pass st with
  | Opened p =>
    match fetch p S3QL_PARAMS st with
    | Some (Ok (_, buf)) =>
      match deserialize buf with
      | Some a =>
        if decide (a_rev a <> CURRENT_FS_REV \/ a_mounted a = true \/ a_fsck a = true) then MountError
        else match dl_jobs (a_bs a) (listing st) (Params (a_seq a) (a_size a) (a_md5 a)) bl with
             | inl _ => MountError
             | inr js =>
               match download_blocks p (a_bs a) st js [] with
               | Some f => let f := ftrunc (a_size a) f in if decide (hash f = a_md5 a) then Mounted a f else MountError
               | None => MountError
               end
             end
      | None => MountError
      end
    | _ => MountError
    end
  | _ => MountError
  end.
End setup.
