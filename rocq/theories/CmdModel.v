(** Commands for a mounted file system: s3qlcp (cp.py 60-98), s3qllock (lock.py 52-58), s3qlrm (remove.py 52-76) and s3qlctrl (ctrl.py 60-118) send a text as
    the value of an extended attribute of the control file; the file system reads it (fs.py 281-344, common.py 284-324).
    Python's repr and literal_eval as in FreezeModel, with escapes in bytes. Simplified: literal_eval gives an error for numbers that are not integers, for
    \u and \U in bytes, for a comma at the end of a tuple, and for nested values (the types are wrong then anyway, except for the comma).
    Paths: a tree with directories, symbolic links and files, resolved as path_resolution(7) says, on one file system; a path is a list of components
    (empty ones between two slashes), starting at the current directory or at the root. *)
From stdpp Require Import prelude gmap.
From Coq Require Import NArith ZArith.
From Verif Require Import CodecModel FreezeModel.
Local Open Scope N_scope.

(** * Texts *)
Notation val := (@value unit).
Definition literal0 : text -> option (val * text) := @literal unit (fun _ => None).
(** repr of bytes: as of strings, with nothing above 127 printable *)
Definition repr_b (b : text) : text := 98 :: repr_str (fun _ => false) b.
Definition lit (l : text) : option (val * text) := match l with
  | c :: q :: r => if (c =? 98) && ((q =? QUOTE) || (q =? DQUOTE))
      then match string_rest (S (length r)) q r with
        | Some (s, r') => if forallb (fun c => c <? 128) (take (length r - length r') r) && forallb (fun c => c <? 256) s then Some (VBytes s, r') else None (* bytes are written in ASCII *)
        | None => None end
      else literal0 l
  | _ => literal0 l end.
(** parse_literal, common.py 284-301, before the type is checked *)
Definition decode (b : text) : option text := match utf8_decode b with Some l => if bool_decide (0 ∈ l) then None else Some l | None => None end.
Definition parse_one (b : text) : option val := l ← decode b; match lit (skip l) with Some (v, r) => match skip r with [] => Some v | _ => None end | None => None end.
(** parse_literal_tuple, common.py 304-324 *)
Definition parse_pair (b : text) : option (val * val) := l ← decode b;
  match skip l with
  | 40 :: r => match lit (skip r) with
      | Some (v, r) => match skip r with
          | 44 :: r => match lit (skip r) with
              | Some (w, r) => match skip r with 41 :: r => match skip r with [] => Some (v, w) | _ => None end | _ => None end
              | None => None end
          | _ => None end
      | None => None end
  | _ => None end.

(** * What the tools send *)
Inductive command :=
  | Flush | Drop | UploadMeta
  | Copy (source target : N) | Lock (inode : N) | Rm (parent : N) (name : text)
  | Logging (level : Z) (modules : list text) | CacheSize (bytes : Z).
(** ','.join(modules) *)
Fixpoint join (ms : list text) : text := match ms with [] => [] | [m] => m | m :: ms => m ++ 44 :: join ms end.
Section send.
Context (printable : N -> bool).
(** The name of the attribute as a number, and the value; [None]: UnicodeEncodeError *)
Inductive attribute := AFlush | ADrop | AUpload | ACopy | ALock | ARm | ALog | ASize.
Definition DUMMY : text := [100; 117; 109; 109; 121].
Definition pair (a b : text) : text := 40 :: a ++ [44; 32] ++ b ++ [41].
Definition send (c : command) : attribute * option text := match c with
  | Flush => (AFlush, Some DUMMY) | Drop => (ADrop, Some DUMMY) | UploadMeta => (AUpload, Some DUMMY)
  | Copy s t => (ACopy, utf8_encode (pair (dec s) (dec t)))          (* cp.py 98 *)
  | Lock i => (ALock, utf8_encode (dec i))                          (* lock.py 58 *)
  | Rm p n => (ARm, utf8_encode (pair (dec p) (repr_b n)))           (* remove.py 66 *)
  | Logging l ms => (ALog, utf8_encode (pair (repr_int l) (repr_str printable (join ms)))) (* ctrl.py 107-109 *)
  | CacheSize z => (ASize, utf8_encode (repr_int z))                (* ctrl.py 80 *)
  end.
End send.
(** * What the file system does, [None]: EINVAL *)
(** str.split(',') *)
Fixpoint split (s : text) : list text := match s with
  | [] => [[]]
  | c :: s => if c =? 44 then [] :: split s else match split s with m :: ms => (c :: m) :: ms | [] => [[c]] end end.
(** Integers as inodes: negative ones are passed on as they are, too; here they are errors *)
Definition inode (v : val) : option N := match v with VInt z => if (z <? 0)%Z then None else Some (Z.to_N z) | _ => None end.
(** fs.py 284-344. An empty text of modules means none (331). *)
Definition receive (a : attribute) (b : text) : option command := match a with
  | AFlush => Some Flush | ADrop => Some Drop | AUpload => Some UploadMeta
  | ACopy => '(v, w) ← parse_pair b; s ← inode v; t ← inode w; Some (Copy s t)
  | ALock => v ← parse_one b; i ← inode v; Some (Lock i)
  | ARm => '(v, w) ← parse_pair b; p ← inode v; match w with VBytes n => Some (Rm p n) | _ => None end
  | ALog => '(v, w) ← parse_pair b; match v, w with VInt l, VStr m => Some (Logging l (if decide (m = []) then [] else split m)) | _, _ => None end
  | ASize => v ← parse_one b; match v with VInt z => Some (CacheSize z) | _ => None end
  end.

(** * Paths *)
Inductive node := Dir (parent : N) (entries : gmap text N) | Link (from_root : bool) (path : list text) | File.
Notation tree := (gmap N node).
Definition DOT : text := [46]. Definition DOTDOT : text := [46; 46].
(** path_resolution(7). [follow]: whether a link at the end is followed. [None]: ENOENT, ENOTDIR, or (without fuel) ELOOP *)
Fixpoint walk (fuel : nat) (t : tree) (root : N) (follow : bool) (cur : N) (cs : list text) : option N := match fuel with
  | O => None
  | S fuel => match cs with
      | [] => Some cur
      | c :: cs => match t !! cur with
          | Some (Dir parent es) =>
              if decide (c = [] \/ c = DOT) then walk fuel t root follow cur cs
              else if decide (c = DOTDOT) then walk fuel t root follow parent cs
              else match es !! c with
                | None => None
                | Some i => match t !! i with
                    | Some (Link r l) => if negb follow && bool_decide (cs = []) then Some i else walk fuel t root follow (if r then root else cur) (l ++ cs)
                    | _ => walk fuel t root follow i cs
                    end
                end
          | _ => None
          end
      end
  end.
(** name.rstrip('/') *)
Fixpoint rstrip_slash (cs : list text) : list text := match cs with [] => [] | c :: cs => match rstrip_slash cs with [] => if decide (c = []) then [] else [c] | cs' => c :: cs' end end.
(** remove.py 52-66, from the current directory (or the root) [cur]. [None]: an error. os.path.ismount is false for links. *)
Definition s3qlrm (fuel : nat) (t : tree) (root cur : N) (path : list text) : option command :=
  let name := rstrip_slash path in
  if decide (walk fuel t root false cur name = Some root) then None                (* 54-55 *)
  else p ← walk fuel t root true cur (name ++ [DOTDOT]); Some (Rm p (default [] (last name))). (* 57-66 *)
(** lock.py 52-58 *)
Definition s3qllock (fuel : nat) (t : tree) (root cur : N) (path : list text) : option command :=
  let name := rstrip_slash path in
  if decide (walk fuel t root false cur name = Some root) then None else i ← walk fuel t root true cur name; Some (Lock i).
