(** Messages for the user: src/s3ql/logging.py 60-96 (ConsoleHandler), 98-194 (create_handler, setup_logging), 258-312 (add_stdout_logging, LogFilter); of Python's logging module the part that decides which
    handlers get a message: Logger.isEnabledFor, getEffectiveLevel, callHandlers, Handler.handle.
    Simplified: the name of a logger is the list of its parts; arguments of a message are text, including exc_info; times of the monotonic clock are integers. *)
From stdpp Require Import prelude strings gmap.
From Coq Require Import Ascii.
Local Open Scope string_scope.

Notation name := (list string).
Notation text := (list ascii).
(** A message. [rate] is 0 if there is no limit. [shown_as]: as it is written to the console *)
Record record := Rec { logger : name; level : nat; msg : string; args : string; once : bool; rate : nat; last : bool; update : bool; shown_as : text }.
Definition oid (r : record) : name * nat * string * string := (logger r, level r, msg r, args r).
Definition kind (r : record) : name * nat * string := (logger r, level r, msg r).
Definition NOTSET := 0. Definition DEBUG := 10. Definition INFO := 20. Definition WARNING := 30.

Section hashes.
(** Python's hash of the tuples *)
Context (h1 : name * nat * string * string -> Z) (h2 : name * nat * string -> Z).

(** * LogFilter, 279-312 *)
Record cache := Cache { seen : gset Z; stamp : gmap Z Z }.
Definition fresh : cache := Cache ∅ ∅.
Definition pass (r : record) (now : Z) (c : cache) : bool * cache :=
  if once r && bool_decide (h1 (oid r) ∈ seen c) then (false, c)
  else
    let c := if once r then Cache ({[h1 (oid r)]} ∪ seen c) (stamp c) else c in
    if decide (rate r = 0) then (true, c)
    else
      let last_log := default 0%Z (stamp c !! h2 (kind r)) in
      if bool_decide (now - last_log < Z.of_nat (rate r))%Z && negb (last r) then (false, c)
      else (true, Cache (seen c) (<[h2 (kind r) := now]> (stamp c))).
(** The filter is asked again and again *)
Fixpoint asked (evs : list (record * Z)) (c : cache) : list bool :=
  match evs with [] => [] | (r, now) :: evs => let (b, c) := pass r now c in b :: asked evs c end.

(** * Logger.callHandlers and Handler.handle: [hs] are the levels of the handlers in the order in which they were added; all of them have the same filter (161-167). A call of the logger comes with the
      times at which the filter is asked by each of the handlers. *)
Definition asks (hs : list nat) (call : record * list Z) : list (nat * record * Z) :=
  let (r, ts) := call in omap (fun x : nat * (nat * Z) => let '(i, (l, t)) := x in if decide (l <= level r) then Some (i, r, t) else None) (zip (seq 0 (length hs)) (zip hs ts)).
Definition all_asks (hs : list nat) (calls : list (record * list Z)) : list (nat * record * Z) := calls ≫= asks hs.
(** What is written by which handler *)
Definition written (hs : list nat) (calls : list (record * list Z)) : list (nat * record * bool) :=
  let l := all_asks hs calls in zip_with (fun (x : nat * record * Z) b => (x.1, b)) l (asked ((fun x : nat * record * Z => (x.1.2, x.2)) <$> l) fresh).

(** * ConsoleHandler, 75-96 *)
Definition CR : ascii := "013"%char. Definition LF : ascii := "010"%char.
Definition truthy (x : option Z) : bool := match x with Some z => negb (z =? 0)%Z | None => false end.
Definition emit (is_console : bool) (last_msg : option Z) (r : record) : text * option Z :=
  if is_console && update r then
    let id := h2 (kind r) in
    let start := if decide (last_msg = Some id) then [CR] else if truthy last_msg then [LF] else [] in
    if last r then ((start ++ shown_as r ++ [LF])%list, None) else ((start ++ shown_as r)%list, Some id)
  else (((if truthy last_msg then [LF] else []) ++ shown_as r ++ [LF])%list, if truthy last_msg then None else last_msg).
Fixpoint emits (is_console : bool) (last_msg : option Z) (rs : list record) : text * option Z :=
  match rs with [] => ([], last_msg) | r :: rs => let (a, m) := emit is_console last_msg r in let (b, m) := emits is_console m rs in ((a ++ b)%list, m) end.
End hashes.

(** * setup_logging, 138-194 and 258-274. Levels of the console and of the log file, if there is one; levels of the root logger and of others; logging.disable *)
Record config := Config { console : nat; file : option nat; root : nat; own : list (name * nat); disabled : nat }.
Definition setup (quiet : bool) (log : option string) (debug : bool) (modules : list name) (systemd : bool) : config :=
  let dl := if debug && negb (bool_decide (["s3ql"] ∈ modules)) then (modules ++ [["s3ql"]])%list else modules in
  let out := if negb systemd && quiet then WARNING else INFO in
  let debugging := negb (bool_decide (dl = [])) in
  Config (if log then out else if debugging then NOTSET else out) (match log with Some _ => Some NOTSET | None => None end)
    (if debugging && bool_decide (["all"] ∈ dl) then DEBUG else INFO)
    (if debugging then (["__main__"], DEBUG) :: (if bool_decide (["all"] ∈ dl) then [] else (fun m => (m, DEBUG)) <$> dl) else [])
    (if debugging then NOTSET else DEBUG).
(** 157-158: the option as given *)
Definition log_target (lower : string -> string) (log : option string) : option string := match log with Some l => if decide (lower l = "none") then None else if decide (l = "") then None else Some l | None => None end.
(** Logger.getEffectiveLevel, from the logger to its parents; the name is reversed *)
Fixpoint effective (c : config) (rev_name : name) : nat :=
  match list_find (fun x : name * nat => x.1 = reverse rev_name) (own c) with
  | Some (_, (_, l)) => l
  | None => match rev_name with [] => root c | _ :: parent => effective c parent end
  end.
Definition enabled (c : config) (n : name) (l : nat) : bool := if decide (l <= disabled c) then false else bool_decide (effective c (reverse n) <= l).
Definition handlers (c : config) : list nat := console c :: from_option (fun l => [l]) [] (file c).
