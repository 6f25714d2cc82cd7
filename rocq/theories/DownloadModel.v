(** Downloading an object into a file: backends/s3c.py 354-389 (swift.py 508-548 is the same up to error classes), backends/gs.py 428-456,
    backends/common.py 316-330 (fetch, read). Bytes are numbers. The server and the connection are reduced to what each attempt gets; the chunks in
    which conn.readinto_fh writes make no difference to the file. Metadata is opaque. *)
From stdpp Require Import prelude.
Notation byte := nat.
Notation bytes := (list nat).

(** A file object: content and position. write() beyond the end fills with zeros, as BytesIO and files do. *)
Record file := File { content : bytes; pos : nat }.
Definition write (d : bytes) (f : file) : file :=
  match d with
  | [] => f
  | _ => File (take (pos f) (content f) ++ replicate (pos f - length (content f)) 0 ++ d ++ drop (pos f + length d) (content f)) (pos f + length d)
  end.
Definition seek (off : nat) (f : file) : file := File (content f) off.

Section download.
Context {meta digest : Type} `{EqDecision digest} (md5 : bytes -> digest).

(** How an attempt goes: the request or the metadata check fails; the connection breaks after some bytes; the body is complete.
    [temporary] is is_temp_failure of the exception (s3c.py 213-247). *)
Inductive attempt :=
  | NoAnswer (temporary : bool)
  | Breaks (got : bytes) (temporary : bool)
  | Completes (etag : digest) (m : meta) (got : bytes).

(** _readinto_fh with @retry, s3c.py 363-389: the file, the metadata if it returned, and the attempts not used. A wrong checksum is a BadDigestError,
    which is temporary. [None]: the list of attempts ends before the method does. *)
Fixpoint s3_readinto (attempts : list attempt) (off : nat) (f : file) : option (file * option meta) :=
  match attempts with
  | [] => None
  | NoAnswer true :: rest => s3_readinto rest off f
  | NoAnswer false :: _ => Some (f, None)
  | Breaks got true :: rest => s3_readinto rest off (write got (seek off f))
  | Breaks got false :: _ => Some (write got (seek off f), None)
  | Completes etag m got :: rest => let f' := write got (seek off f) in
      if decide (etag = md5 got) then Some (f', Some m) else s3_readinto rest off f'
  end.
(** readinto_fh, 354-361 *)
Definition s3_readinto_fh (attempts : list attempt) (f : file) := s3_readinto attempts (pos f) f.
(** fetch, common.py 316-324 *)
Definition s3_fetch (attempts : list attempt) : option (bytes * option meta) := match s3_readinto_fh attempts (File [] 0) with Some (f, m) => Some (content f, m) | None => None end.

(** gs: the metadata is a request of its own; there is no checksum and no seek. *)
Inductive gs_attempt :=
  | GsNoMeta (temporary : bool)
  | GsNoAnswer (m : meta) (temporary : bool)
  | GsBreaks (m : meta) (got : bytes) (temporary : bool)
  | GsCompletes (m : meta) (got : bytes).
(** gs.py 437-456 *)
Fixpoint gs_readinto (attempts : list gs_attempt) (off : nat) (f : file) : option (file * option meta) :=
  match attempts with
  | [] => None
  | GsNoMeta true :: rest | GsNoAnswer _ true :: rest => gs_readinto rest off f
  | GsNoMeta false :: _ | GsNoAnswer _ false :: _ => Some (f, None)
  | GsBreaks _ got true :: rest => gs_readinto rest off (write got f)
  | GsBreaks _ got false :: _ => Some (write got f, None)
  | GsCompletes m got :: _ => Some (write got f, Some m)
  end.
Definition gs_readinto_fh (attempts : list gs_attempt) (f : file) := gs_readinto attempts (pos f) f.
Definition gs_fetch (attempts : list gs_attempt) : option (bytes * option meta) := match gs_readinto_fh attempts (File [] 0) with Some (f, m) => Some (content f, m) | None => None end.
End download.
