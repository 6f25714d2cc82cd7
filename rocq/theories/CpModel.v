(** s3qlcp up to the command it sends (cp.py 57-98), in a tree of several file systems: every node has a device and, on this, a number.
    Paths as in CmdModel. Simplified: no permissions; os.path.ismount looks at a link itself, and is then false;
    with an absolute path, [cur] is the root and [cwd] is empty. pyfuse3.syncfs (90) and os.scandir (94) change no names. os.stat of a link that leads nowhere fails, and
    os.mkdir fails if the last component is there in any form. *)
From stdpp Require Import prelude gmap.
From Coq Require Import NArith.
From Verif Require Import CodecModel CmdModel.
Local Open Scope N_scope.

(** os.path.abspath: os.path.normpath of the path of the current directory and the given one, without looking at the file system *)
Definition norm_step (acc : list text) (c : text) : list text := if decide (c = [] \/ c = DOT) then acc else if decide (c = DOTDOT) then tail acc else c :: acc.
Definition abspath (cwd path : list text) : list text := reverse (foldl norm_step [] (cwd ++ path)).
(** os.path.dirname of a normal path *)
Definition dirname (cs : list text) : list text := reverse (tail (reverse cs)).
Definition is_dir (t : tree) (i : N) : bool := match t !! i with Some (Dir _ _) => true | _ => false end.
(** Where mkdir(2) makes a directory: slashes at the end do not matter *)
Definition mkdir_in (fuel : nat) (t : tree) (root cur : N) (path : list text) : option (N * text) :=
  let name := rstrip_slash path in
  match last name with
  | None => None
  | Some b => q ← walk fuel t root true cur (removelast name);
      if is_dir t q && bool_decide (walk fuel t root false cur name = None) && negb (bool_decide (b = DOT \/ b = DOTDOT)) then Some (q, b) else None
  end.
Section cp.
(** Devices; [ino]: number of a node on its device; [fresh]: the number that a new node in a directory gets; [mountpoint]: the root of a file system *)
Context (dev ino fresh : N -> N) (mountpoint : N -> bool).
(** The command, and where the new directory is: device and number. [None]: an error *)
Definition s3qlcp (fuel : nat) (t : tree) (root cur : N) (cwd source target : list text) : option (command * (N * N)) :=
  let source := rstrip_slash source in let target := rstrip_slash target in              (* 57-58 *)
  s ← walk fuel t root true cur source;                                                (* 60-61 *)
  if decide (is_Some (walk fuel t root true cur target)) then None else                (* 63-64 *)
  p ← walk fuel t root true root (dirname (abspath cwd target));                       (* 66-68 *)
  if is_dir t s && is_dir t p && bool_decide (dev p = dev s) && negb (match walk fuel t root false cur source with Some i => mountpoint i | None => false end) then (* 70-81 *)
    '(q, b) ← mkdir_in fuel t root cur target;                                         (* 84-87 *)
    Some (Copy (ino s) (fresh q), (dev q, fresh q))                                    (* 96-98 *)
  else None.
End cp.
