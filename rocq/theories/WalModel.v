(** The database and its write-ahead log: src/s3ql/database.py 177-335 (Connection: opening, checkpoints, inhibit_writes, close), 912-1040 (download_metadata), mount.py 577-619 (get_metadata) and 733-783
    (MetadataUploadTask), mkfs.py 217-236, adm.py 270-273. Of SQLite: a transaction is appended to <file>-wal; reading means applying the log to the file; a checkpoint first syncs the log (synchronous = NORMAL), then copies
    pages into the file, in any order; after a complete checkpoint the next transaction may start the log afresh; when the last connection is closed, everything is copied and the log is removed; when a database is opened, a log that is there
    is used, except that it is removed if the file is empty (pagerOpenWalIfPresent).
    Simplified: one connection that writes (the second one of inhibit_writes only keeps checkpoints from happening); a page that was torn by a power failure is not distinguished, since checkpoints are repeated from the log. *)
From stdpp Require Import prelude gmap.

Section wal.
Context {P : Type} `{EqDecision P}.
(** Contents of a database file: its pages. A transaction: pages written, and the number of pages after it *)
Notation db := (gmap nat P).
Notation tx := (gmap nat P * nat)%type.
Definition apply_tx (d : db) (t : tx) : db := filter (fun kv : nat * P => kv.1 < t.2) (t.1 ∪ d).
Definition view (d : db) (l : list tx) : db := foldl apply_tx d l.

(** The files <cachepath>.db and <cachepath>.db-wal; how many transactions of the log are known to be on the disk; whether the database is open; whether a checkpoint is in progress; whether the last one was complete and nothing
    has been written since; whether writes are inhibited *)
Record state := State { main : db; wal : list tx; synced : nat; opened : bool; ck : bool; full : bool; inh : bool }.
Inductive op := Open | Commit (t : tx) | Restart (t : tx) | CkStart | CkPage (p : nat) | CkEnd | Inhibit | Release | Close | Crash (lost : nat) | Download (d : db) | Unlink.
Definition step (s : state) (o : op) : option state :=
  match o with
  (* 177-222: Connection.__init__ *)
  | Open => if opened s then None else Some (if decide (main s = ∅) then State (main s) [] 0 true false false false else State (main s) (wal s) (synced s) true false false false)
  | Commit t => if opened s && negb (ck s) then Some (State (main s) (wal s ++ [t]) (synced s) true false false (inh s)) else None
  | Restart t => if opened s && negb (ck s) && full s then Some (State (main s) [t] 0 true false false (inh s)) else None
  (* 290-322: _do_checkpoint, and automatically; not while writes are inhibited *)
  | CkStart => if opened s && negb (ck s) && negb (inh s) then Some (State (main s) (wal s) (length (wal s)) true true false false) else None
  | CkPage p => if ck s then Some (State (partial_alter (fun _ => view (main s) (wal s) !! p) p (main s)) (wal s) (synced s) true true false false) else None
  | CkEnd => if ck s then Some (State (view (main s) (wal s)) (wal s) (synced s) true false true false) else None
  (* 325-372 *)
  | Inhibit => if opened s && negb (ck s) && negb (inh s) then Some (State (main s) (wal s) (synced s) true false (full s) true) else None
  | Release => if inh s then Some (State (main s) (wal s) (synced s) (opened s) (ck s) (full s) false) else None
  (* 241-245 *)
  | Close => if opened s && negb (ck s) && negb (inh s) then Some (State (view (main s) (wal s)) [] 0 false false false false) else None
  (* of the process or of the system; transactions that are not on the disk may be lost *)
  | Crash lost => if opened s && bool_decide (synced s + lost <= length (wal s)) then Some (State (main s) (take (length (wal s) - lost) (wal s)) (synced s) false false false false) else None
  (* 936-939, 977-1010: written with open(.., 'w+b'), i.e. into the same file *)
  | Download d => if opened s then None else Some (State d (wal s) (synced s) false false false false)
  (* mkfs.py 217-218, adm.py 270-273 *)
  | Unlink => if opened s then None else Some (State ∅ (wal s) (synced s) false false false false)
  end.
Fixpoint run (s : state) (ops : list op) : option state := match ops with [] => Some s | o :: ops => match step s o with Some s => run s ops | None => None end end.
(** A file without log *)
Definition stored (d : db) : state := State d [] 0 false false false false.
End wal.
Notation db P := (gmap nat P).
Notation tx P := (gmap nat P * nat)%type.
Arguments state : clear implicits. Arguments op : clear implicits.
