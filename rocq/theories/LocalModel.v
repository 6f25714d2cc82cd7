(** The local backend: src/s3ql/backends/local.py.

    Strings are lists of code points, paths lists of components below the directory of the storage URL. *)
From stdpp Require Import prelude gmap.
From Verif Require Import Text.

Definition str := list nat.
Definition EQ : nat := 61.
Definition SLASH : nat := 47.
Definition HASH : nat := 35.
(** '=3D', '=2F', '=23' *)
Definition X3D : str := [61; 51; 68].
Definition X2F : str := [61; 50; 70].
Definition X23 : str := [61; 50; 51].
(** escape, 283-290 *)
Definition escape (s : str) : str := replace HASH X23 (replace SLASH X2F (replace EQ X3D s)).
(** s.replace(abc, x) for a text of three characters *)
Fixpoint replace3 (a b c x : nat) (s : str) : str :=
  match s with
  | [] => []
  | p :: s1 => match s1 with
      | q :: r :: s2 => if decide (p = a /\ q = b /\ r = c) then x :: replace3 a b c x s2 else p :: replace3 a b c x s1
      | _ => p :: replace3 a b c x s1
      end
  end.
(** unescape, 293-300 *)
Definition unescape (s : str) : str := replace3 61 51 68 EQ (replace3 61 50 51 HASH (replace3 61 50 70 SLASH s)).

(** 's3ql_data_' *)
Definition DATA : str := [115; 51; 113; 108; 95; 100; 97; 116; 97; 95].
Definition starts_with (p s : str) : bool := bool_decide (take (length p) s = p).
(** range(3, n, 3) *)
Definition cuts (n : nat) : list nat := (fun j => 3 * S j) <$> seq 0 ((n - 1) / 3).
(** _key_to_path, 251-268 *)
Definition path := list str.
Definition key_to_path (key : str) : path :=
  let e := escape key in
  if starts_with DATA e then DATA :: ((fun i => take i (drop 10 e)) <$> cuts (length (drop 10 e))) ++ [e] else [e].
Definition dirname (p : path) : path := removelast p.
(** 172: the temporary file; [ident]: '#', the process, the thread, '.tmp' *)
Definition tmp_path (ident : str) (p : path) : path := dirname p ++ [default [] (last p) ++ ident].
(** What the operating system makes of a path (no symbolic links). *)
Definition DOT : str := [46].
Definition DOTDOT : str := [46; 46].
Definition resolve (p : path) : path :=
  foldl (fun acc n => if decide (n = [] \/ n = DOT) then acc else if decide (n = DOTDOT) then removelast acc else acc ++ [n]) [] p.

Section objects.
Context {byte meta : Type} `{!EqDecision byte}.
(** b's3ql_1\n', struct.pack('<H', n) *)
Context (header : list byte) (pack : nat -> list byte) (unpack : list byte -> nat).
Context (freeze : meta -> list byte) (thaw : list byte -> option meta).
(** 162-164, 186-189: what is written; None: metadata too large *)
Definition encode (m : meta) (d : list byte) : option (list byte) :=
  if decide (length (freeze m) < 2 ^ 16) then Some (header ++ pack (length (freeze m)) ++ freeze m ++ d) else None.
(** _read_meta, 271-280, and the rest, 138-143; None: CorruptedObjectError *)
Definition decode (l : list byte) : option (meta * list byte) :=
  let b := take 9 l in
  if decide (take (length header) b = header) then
    let n := unpack (drop (length b - 2) b) in
    match thaw (take n (drop 9 l)) with Some m => Some (m, drop n (drop 9 l)) | None => None end
  else None.

(** The directory tree, and the operations on their way.  A file is known by its inode: it keeps its contents when its
    name goes to another file.  A writer has its own position in the file. *)
Inductive task :=
  | Writer (key : str) (m : meta) (d : list byte)                                        (* before the file is opened *)
  | Writing (key : str) (m : meta) (d : list byte) (i pos : nat) (todo : list (list byte))
  | Reader (key : str)
  | Reading (key : str) (i : nat) (got : list byte).
Record state := State { names : gmap path nat; dirs : gset path; data : gmap nat (list byte); tasks : gmap nat task }.
Definition empty_dir : state := State ∅ ∅ ∅ ∅.
Context (ident : str).
Definition obj (key : str) : path := key_to_path key.
Definition tmp (key : str) : path := tmp_path ident (obj key).
Definition parents (p : path) : list path := (fun n => take n p) <$> seq 1 (length p - 1).
Definition write_at (pos : nat) (l c : list byte) : list byte := take pos c ++ l ++ drop (pos + length l) c.

Inductive event :=
  | BeginWrite (t : nat) (key : str) (m : meta) (d : list byte) | OpenWrite (t : nat) (pieces : list (list byte)) | WriteSome (t n : nat) | Commit (t : nat)
  | BeginRead (t : nat) (key : str) | OpenRead (t : nat) | ReadSome (t n : nat)
  | Abort (t : nat) | Delete (key : str) | Crash.
(** What a finished operation returns. *)
Inductive outcome := Nothing | Stored (size : nat) | NoSuchObject | Data (r : option (meta * list byte)) | Failed.
Definition set_task (t : nat) (x : option task) (s : state) : state := State (names s) (dirs s) (data s) (partial_alter (fun _ => x) t (tasks s)).
Definition step (e : event) (s : state) : option (state * outcome) :=
  match e with
  | BeginWrite t key m d => if decide (tasks s !! t = None) then Some (set_task t (Some (Writer key m d)) s, Nothing) else None
  | OpenWrite t pieces =>         (* 161-184; pieces: the header, the length, the metadata, and the blocks of copyfh *)
      match tasks s !! t with
      | Some (Writer key m d) =>
          match encode m d with
          | None => Some (set_task t None s, Failed)                          (* ValueError *)
          | Some l => if decide (concat pieces = l) then
              if decide (Exists (fun p => is_Some (names s !! p)) (parents (obj key)) \/ tmp key ∈ dirs s) then Some (set_task t None s, Failed) else   (* ENOTDIR, EISDIR *)
              let dirs' := dirs s ∪ list_to_set (parents (obj key)) in
              let i := default (fresh (dom (data s))) (names s !! tmp key) in
              Some (State (<[tmp key := i]> (names s)) dirs' (<[i := []]> (data s)) (<[t := Writing key m d i 0 pieces]> (tasks s)), Nothing)
            else None
          end
      | _ => None
      end
  | WriteSome t n =>              (* a write to an unbuffered file may be short; its result is not looked at, 186-189, common.py 419 *)
      match tasks s !! t with
      | Some (Writing key m d i pos (l :: ls)) =>
          Some (State (names s) (dirs s) (<[i := write_at pos (take n l) (default [] (data s !! i))]> (data s)) (<[t := Writing key m d i (pos + length (take n l)) ls]> (tasks s)), Nothing)
      | _ => None
      end
  | Commit t =>                   (* 190-193 *)
      match tasks s !! t with
      | Some (Writing key m d i pos []) =>
          match names s !! tmp key with
          | Some j => if decide (obj key ∈ dirs s) then Some (set_task t None s, Failed) else
              Some (State (delete (tmp key) (<[obj key := j]> (names s))) (dirs s) (data s) (delete t (tasks s)), Stored pos)
          | None => Some (set_task t None s, Failed)                          (* FileNotFoundError *)
          end
      | _ => None
      end
  | BeginRead t key => if decide (tasks s !! t = None) then Some (set_task t (Some (Reader key)) s, Nothing) else None
  | OpenRead t => match tasks s !! t with
      | Some (Reader key) => match names s !! obj key with
          | Some i => Some (set_task t (Some (Reading key i [])) s, Nothing)
          | None => Some (set_task t None s, NoSuchObject)
          end
      | _ => None
      end
  | ReadSome t n =>               (* at the end of the file the operation returns *)
      match tasks s !! t with
      | Some (Reading key i got) =>
          let c := default [] (data s !! i) in
          if decide (drop (length got) c = []) then Some (set_task t None s, Data (decode got))
          else Some (set_task t (Some (Reading key i (got ++ take (S n) (drop (length got) c)))) s, Nothing)
      | _ => None
      end
  | Abort t => Some (set_task t None s, Nothing)                              (* an exception, or cancelled *)
  | Delete key => Some (State (delete (obj key) (names s)) (dirs s) (data s) (tasks s), Nothing)    (* 216-220 *)
  | Crash => Some (State (names s) (dirs s) (data s) ∅, Nothing)
  end.
End objects.
Arguments state : clear implicits.
Arguments task : clear implicits.
Arguments event : clear implicits.
Arguments outcome : clear implicits.

(** list, 222-249: the names are visited directory by directory, in any order within a directory. *)
Section listing.
Context (files dirs : list path).
Definition files_in (dir : path) : list str := omap (fun p => if decide (dirname p = dir) then last p else None) files.
Definition dirs_in (dir : path) : list str := omap (fun p => if decide (dirname p = dir) then last p else None) dirs.
(** 229-238: do not look in wrong directories *)
Definition descend (prefix : str) (dir : path) (name : str) : bool :=
  bool_decide (prefix = []) ||
  (let pll := unescape (concat dir ++ name) in starts_with (take (length pll) prefix) pll).
(** 240-249 *)
Definition yield (prefix : str) (name : str) : option str :=
  if decide (HASH ∈ name) then None else
  let key := unescape name in if starts_with prefix key then Some key else None.
Fixpoint walk (fuel : nat) (prefix : str) (dir : path) : list str :=
  match fuel with
  | 0 => []
  | S fuel => omap (yield prefix) (files_in dir) ++ (filter (descend prefix dir) (dirs_in dir) ≫= fun n => walk fuel prefix (dir ++ [n]))
  end.
Definition depth : nat := S (foldr max 0 (length <$> dirs)).
(** 223-226 *)
Definition list_keys (prefix : str) : list str :=
  walk depth prefix (if decide (prefix = []) then [] else dirname (key_to_path prefix)).
End listing.
