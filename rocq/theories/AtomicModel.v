(** Replacing a file: database.py 1274-1296 (write_params), backends/local.py 171-219 (write_fh), on a disk that may lose
    what was not yet synchronised.

    The disk: directory operations take effect in order, one at a time (a rename is one), and become durable at the
    latest when the directory is synchronised: [dirs] holds the states of the directory since then, the newest first.
    The contents of a file are durable once the file is synchronised; until then a power failure may leave anything. *)
From stdpp Require Import prelude gmap.

Section model.
Context {byte : Type}.
Definition name := nat.
Definition ino := nat.
Record file := Fl { cached : list byte; synced : bool }.
Record disk := Disk { dirs : list (gmap name ino); files : gmap ino file }.
Definition now (d : disk) : gmap name ino := default ∅ (head (dirs d)).

Inductive op := Open (n : name) | Write (n : name) (l : list byte) | Fsync (n : name) | Rename (a b : name) | FsyncDir.
(** The open file is named by the name it was opened with: nothing else renames it meanwhile. *)
Definition step (o : op) (d : disk) : disk :=
  match o with
  | Open n => match now d !! n with                   (* 'wb': creates or truncates *)
      | Some i => Disk (dirs d) (<[i := Fl [] false]> (files d))
      | None => let i := fresh (dom (files d)) in Disk (<[n := i]> (now d) :: dirs d) (<[i := Fl [] false]> (files d))
      end
  | Write n l => match now d !! n with
      | Some i => Disk (dirs d) (<[i := Fl (default [] (cached <$> files d !! i) ++ l) false]> (files d))
      | None => d
      end
  | Fsync n => match now d !! n with
      | Some i => Disk (dirs d) (<[i := Fl (default [] (cached <$> files d !! i)) true]> (files d))
      | None => d
      end
  | Rename a b => match now d !! a with
      | Some i => Disk (delete a (<[b := i]> (now d)) :: dirs d) (files d)
      | None => d
      end
  | FsyncDir => Disk [now d] (files d)
  end.
Definition run (os : list op) (d : disk) : disk := foldl (fun d o => step o d) d os.
(** What is read from [n] by a process that looks now. *)
Definition contents (d : disk) (n : name) : option (list byte) := now d !! n ≫= fun i => cached <$> files d !! i.
(** A power failure: one of the directory states survives; files that were not synchronised may hold anything. *)
Definition power_failure (d d' : disk) : Prop :=
  exists dir, dir ∈ dirs d /\ dirs d' = [dir] /\ dom (files d') = dom (files d) /\
    forall i f, files d !! i = Some f -> synced f = true -> files d' !! i = Some f.

(** write_params, 1274-1296: the temporary file is [tmp], its contents are written in any number of pieces *)
Definition write_params (f tmp : name) (pieces : list (list byte)) : list op :=
  Open tmp :: (Write tmp <$> pieces) ++ [Fsync tmp; Rename tmp f; FsyncDir].
(** write_fh, 195-217 *)
Definition write_object (f tmp : name) (pieces : list (list byte)) : list op :=
  Open tmp :: (Write tmp <$> pieces) ++ [Rename tmp f].
End model.
Arguments disk : clear implicits.
Arguments file : clear implicits.
Arguments op : clear implicits.
