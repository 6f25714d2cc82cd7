(** Unmounting: src/s3ql/umount.py 90-233 (get_cmdline, blocking_umount, lazy_umount, umount), together with what happens meanwhile: the daemon (mount.s3ql) finishes its uploads after it was unmounted
    (mount.py 364-438, see Mount), it may fail at any time, and its number may be given to another process afterwards.
    Simplified: one file system, one process that unmounts it; times are counted in tenths of a second (with floating point numbers, ten times 0.1 is less than 1, so that the longest pause is 1.1 s and not 1 s). *)
From stdpp Require Import prelude.
From Coq Require Import String.

(** The daemon: serving requests, finishing after the unmount, or gone; [Gone true]: everything was uploaded *)
Inductive phase := Serving | Finishing | Gone (complete : bool).
(** What umount.s3ql does next. [c]: command line of the daemon as it was read before *)
Inductive pc :=
  | Fuser | Flush | GetPid | GetCmd | Unmount (c : option string)
  | Kill (c : option string) (step : nat) | Cmd (c : option string) (step : nat) | Sleep (c : option string) (step : nat)
  | Exit (code : nat) | Crash.
Record state := State { daemon : phase; proc : option string (* command line of the process with this number, if there is one *); at_ : pc }.

Section umount.
(** The command line of the daemon; whether its process can be seen by umount.s3ql (it cannot from another PID namespace or with hidepid) *)
Context (cmd : string) (visible : bool).
Definition see (p : option string) : option string := if visible then p else None.

(** umount.s3ql, non-lazy *)
Inductive own : state -> state -> Prop :=
  (* 119-121, 222 *)
  | o_used d p : own (State d p Fuser) (State d p (Exit 1))
  | o_unused d p : own (State d p Fuser) (State d p Flush)
  (* 126 and 130: requests to the control file, answered by the daemon *)
  | o_flush p : own (State Serving p Flush) (State Serving p GetPid)
  | o_flush_err d p : own (State d p Flush) (State d p Crash)
  | o_pid p : own (State Serving p GetPid) (State Serving p GetCmd)
  | o_pid_err d p : own (State d p GetPid) (State d p Crash)
  (* 134 *)
  | o_cmd d p : own (State d p GetCmd) (State d p (Unmount (see p)))
  (* 145-146: the subprocess fails, or the file system is unmounted *)
  | o_fail d p c : own (State d p (Unmount c)) (State d p (Exit 2))
  | o_unmount p c : own (State Serving p (Unmount c)) (State Finishing p (Kill c 1))
  (* if the daemon is gone, its mount point can still be unmounted *)
  | o_unmount_gone b p c : own (State (Gone b) p (Unmount c)) (State (Gone b) p (Kill c 1))
  (* 152-156 *)
  | o_kill_none d p c n : see p = None -> own (State d p (Kill c n)) (State d p (Exit 0))
  | o_kill d p c n : see p <> None -> own (State d p (Kill c n)) (State d p (Cmd c n))
  (* 160-168 *)
  | o_cmd_none d p c n : see p = None -> own (State d p (Cmd c n)) (State d p (Exit 0))
  | o_cmd_same d p c n : see p <> None -> see p = c -> own (State d p (Cmd c n)) (State d p (Sleep c n))
  | o_cmd_other d p c n : see p <> None -> see p <> c -> own (State d p (Cmd c n)) (State d p (Exit 0))
  (* 171-174 *)
  | o_sleep d p c n : own (State d p (Sleep c n)) (State d p (Kill c (if n <? 10 then S n else n))).
(** Meanwhile *)
Inductive other : state -> state -> Prop :=
  (* the daemon terminates; the process disappears, or stays for a while as a zombie (with an empty command line) *)
  | e_finish b p a p' : p' = None \/ p' = Some ""%string -> other (State Finishing p a) (State (Gone b) p' a)
  | e_crash p a p' : p' = None \/ p' = Some ""%string -> other (State Serving p a) (State (Gone false) p' a)
  (* somebody else unmounts it *)
  | e_unmounted p a : other (State Serving p a) (State Finishing p a)
  (* later, its number is used by any processes *)
  | e_reuse b p a p' : other (State (Gone b) p a) (State (Gone b) p' a).
Definition step (s s' : state) : Prop := own s s' \/ other s s'.
Definition start : state := State Serving (Some cmd) Fuser.
End umount.
(** 77-89, 206-207: lazily; returns at once *)
Definition lazy_umount (call_ok : bool) (d : phase) : nat * phase := if call_ok then (0, match d with Serving => Finishing | d => d end) else (2, d).
