(** The periodic upload of modified blocks: src/s3ql/mount.py 825-866 (CommitTask), with the parts of block_cache.py it depends on: CacheEntry 80-125 (dirty, last_write),
    get 609-650 and _get_entry 656-740 (order of use), upload_if_dirty 420-460, _do_upload 364-405, evict, drop and remove, and _linked_dict.py mutable_values 186-233.

    The cache is the list of its entries, the least recently used first. While the task iterates, its cursor stands between [before] and [after]; otherwise
    [before] is empty. Times are numbers of seconds. Requests and uploads by others (evict, flush) may happen between any two steps of the task; the block lock is
    held while an entry is in transit, so that it is not accessed meanwhile. Left out: contents (BlockCacheModel), the end of the task (stop_event). *)
From stdpp Require Import prelude.

(** [la]: the time of the last access, which the program does not store *)
Record entry := Entry { key : nat; dirty : bool; transit : bool; lw : nat; la : nat }.
Inductive task := Sleep (until : nat) | Scan (stamp : nat) (did : bool) | Wait (k : nat) (stamp : nat).
Record state := State { now : nat; before : list entry; after : list entry; pc : task }.
Inductive op := Read | Write | Truncate.
Inductive event :=
  | Tick (d : nat)                  (* time passes *)
  | New (k : nat)                   (* a block is created or downloaded *)
  | Access (k : nat) (o : op)
  | Remove (k : nat)                (* evict, drop, remove *)
  | Begin (k : nat)                 (* others start an upload *)
  | End (k : nat) (ok : bool)       (* an upload ends *)
  | TStart | TNext | TAcquire.      (* steps of the task *)

Definition entries (s : state) : list entry := before s ++ after s.
Definition find (k : nat) (s : state) : option entry := list_find (fun e => key e = k) (entries s) ≫= fun x => Some x.2.
(** _unlink *)
Definition without (k : nat) (l : list entry) : list entry := filter (fun e => key e <> k) l.
Definition change (k : nat) (f : entry -> entry) (s : state) : state :=
  let g e := if decide (key e = k) then f e else e in State (now s) (g <$> before s) (g <$> after s) (pc s).
(** CacheEntry.write, truncate, and move_to_tail *)
Definition touched (t : nat) (o : op) (e : entry) : entry :=
  match o with
  | Read => Entry (key e) (dirty e) (transit e) (lw e) t
  | Write => Entry (key e) true (transit e) t t
  | Truncate => Entry (key e) true (transit e) (lw e) t
  end.
Definition mark (e : entry) : entry := Entry (key e) (dirty e) true (lw e) (la e).
Definition ended (ok : bool) (e : entry) : entry := Entry (key e) (if ok then false else dirty e) false (lw e) (la e).

Section delay.
Context (delay : nat).
(** 845-863: the end of an iteration *)
Definition finish (did : bool) (s : state) : state := State (now s) [] (entries s) (Sleep (if did then now s else now s + 5)).
Definition step (s : state) (e : event) : option state :=
  match e with
  | Tick d => Some (State (now s + d) (before s) (after s) (pc s))
  | New k => match find k s with None => Some (State (now s) (before s) (after s ++ [Entry k false false 0 (now s)]) (pc s)) | Some _ => None end
  | Access k o =>
    match find k s with
    | Some e => if transit e then None else Some (State (now s) (without k (before s)) (without k (after s) ++ [touched (now s) o e]) (pc s))
    | None => None
    end
  | Remove k => match find k s with Some e => if transit e then None else Some (State (now s) (without k (before s)) (without k (after s)) (pc s)) | None => None end
  | Begin k => match find k s with Some e => if dirty e && negb (transit e) then Some (change k mark s) else None | None => None end
  | End k ok => match find k s with Some e => if transit e then Some (change k (ended ok) s) else None | None => None end
  | TStart => match pc s with Sleep u => if decide (u <= now s) then Some (State (now s) (before s) (after s) (Scan (now s) false)) else None | _ => None end
  | TNext =>
    match pc s with
    | Scan stamp did =>
      match after s with
      | [] => Some (finish did s)
      | e :: rest =>
        (* the entry is behind the cursor before it is looked at *)
        let s' := State (now s) (before s ++ [e]) rest (pc s) in
        if decide (stamp < lw e + delay) then Some (finish did s')                            (* 847-851 *)
        else if dirty e && negb (transit e) then Some (State (now s) (before s ++ [e]) rest (Wait (key e) stamp)) else Some s'     (* 852 *)
      end
    | _ => None
    end
  | TAcquire =>                                                                               (* 853, upload_if_dirty 434-452 *)
    match pc s with
    | Wait k stamp =>
      match find k s with
      | Some e => if transit e then None else
        let s' := State (now s) (before s) (after s) (Scan stamp true) in Some (if dirty e then change k mark s' else s')
      | None => Some (State (now s) (before s) (after s) (Scan stamp true))
      end
    | _ => None
    end
  end.
Fixpoint run (s : state) (es : list event) : option state := match es with [] => Some s | e :: es => s' ← step s e; run s' es end.
End delay.
Definition start (t : nat) : state := State t [] [] (Sleep t).
