(** Options given as in fstab: src/s3ql/mount.py 637-686 (_expand_fstab_options, called by main at 449). *)
From stdpp Require Import prelude strings.
From Coq Require Import Ascii.
From Verif Require Text.
Local Open Scope string_scope.

Notation text := (list ascii).
Definition txt : string -> text := String.list_ascii_of_string.
Inductive outcome (A : Type) := Done (x : A) | Quiet | IndexError | ValueError.
Arguments Done {A} x. Arguments Quiet {A}. Arguments IndexError {A}. Arguments ValueError {A}.

(** 656-681 *)
Definition ignored : list text := txt <$> ["rw"; "defaults"; "auto"; "noauto"; "user"; "nouser"; "dev"; "nodev"; "suid"; "nosuid"; "atime"; "diratime"; "exec"; "noexec"; "group"; "mand"; "nomand"; "_netdev"; "nofail"; "norelatime"; "strictatime"; "owner"; "users"; "nobootwait"].
(** list.index; list.insert at a position within the list; del *)
Fixpoint index (x : text) (l : list text) : option nat := match l with [] => None | y :: l => if decide (y = x) then Some 0 else S <$> index x l end.
Definition insert_at (n : nat) (x : text) (l : list text) : list text := take n l ++ x :: drop n l.
Definition del (n : nat) (l : list text) : list text := take n l ++ drop (S n) l.
Definition eq_ : ascii := "="%char.
Definition comma : ascii := ","%char.
(** 649-684, one option *)
Definition one (pos : nat) (opt : text) (args : list text) : outcome (list text) :=
  if decide (eq_ ∈ opt) then
    match Text.split eq_ opt with
    | [key; val] => Done (insert_at pos ((txt "--" ++ key)%list) (insert_at pos val args))
    | _ => ValueError
    end
  else if decide (opt ∈ ignored) then Done args
  else if decide (opt = txt "ro") then Quiet
  else Done (insert_at pos ((txt "--" ++ opt)%list) args).
Fixpoint loop (pos : nat) (opts : list text) (args : list text) : outcome (list text) :=
  match opts with [] => Done args | o :: opts => match one pos o args with Done args => loop pos opts args | r => r end end.
(** 641-648 *)
Definition expand (args : list text) : outcome (list text) :=
  let max_idx := default (length args) (index (txt "--") args) in
  if decide (txt "-o" ∈ take max_idx args) then
    let pos := default 0 (index (txt "-o") args) in
    match args !! S pos with
    | None => IndexError
    | Some val => loop pos (reverse (Text.split comma val)) (del pos (del pos args))
    end
  else Done args.
