(** Requests on files that are handled at the same time: fs.py 938-1015 (setattr with a new size), 1231-1287 (read, write), 1299-1370 (_readwrite), block_cache.py 788-841 (remove). Other tasks may run whenever a block is asked for or
    given back ([async with self.cache.get]) and between the removals of two blocks; what is done with one block is one step (the lock of the block, C10; that blocks keep their contents while they are evicted, uploaded and downloaded
    is C03). One step of FileModel is used for each block.
    Simplified: as in FileModel; in addition stored objects are not damaged. *)
From stdpp Require Import prelude list gmap.
From Verif Require Import Files FileModel FloatModel.

Inductive request := RRead (ino off len : nat) | RWrite (ino off : nat) (buf : list byte) | RTrunc (ino len : nat).
(** Requests in progress. Reading: [len] after it was limited by the size, and what was read so far. Writing: how much has been written. Truncation: the blocks that remain to be removed, and the block that has to be cut, and where *)
Inductive task :=
| TRead (ino off len : nat) (acc : list byte)
| TWrite (ino off : nat) (buf : list byte) (written : nat)
| TTrunc (ino : nat) (todo : gset nat) (cut : option (nat * nat)).
Record cstate := CState { fs : fstate; tasks : gmap nat task }.
Definition cinit : cstate := CState init ∅.

(** The [t]-th request arrives; goes on with the next block; removes block [b] (remove takes them in any order: first those whose lock is free); ends. A new file *)
Inductive event := Begin (t : nat) (r : request) | Work (t : nat) | Remove (t b : nat) | Finish (t : nat) | New (ino : nat).
(** Blocks that setattr removes, fs.py 982-994 *)
Definition removed_blocks (bs size len : nat) : gset nat :=
  let last_block := len / bs in
  let from := if decide (len mod bs = 0) then last_block else last_block + 1 in
  list_to_set (seq from (float_ceil size bs - from)).
Definition begin (bs : nat) (s : cstate) (t : nat) (r : request) : cstate * option (nat * answer) :=
  match r with
  | RRead ino off len =>
      match sizes (fs s) !! ino with
      | None => (s, Some (t, AErr Raised))
      | Some size => (CState (fs s) (<[t := TRead ino off (min (size - off) len) []]> (tasks s)), None)
      end
  | RWrite ino off buf =>
      match sizes (fs s) !! ino with
      | None => (s, Some (t, AErr Raised))
      | Some _ => if decide (failsafe (fs s) = true \/ ino ∈ locked (fs s)) then (s, Some (t, AErr EPERM)) else (CState (fs s) (<[t := TWrite ino off buf 0]> (tasks s)), None)
      end
  | RTrunc ino len =>
      match sizes (fs s) !! ino with
      | None => (s, Some (t, AErr Raised))
      | Some size =>
          if decide (failsafe (fs s) = true \/ ino ∈ locked (fs s)) then (s, Some (t, AErr EPERM))
          else (CState (set_sizes (insert ino len) (fs s)) (<[t := TTrunc ino (removed_blocks bs size len) (if decide (len mod bs = 0) then None else Some (len / bs, len mod bs))]> (tasks s)), None)
      end
  end.
Definition work (bs : nat) (s : cstate) (t : nat) : option (cstate * option (nat * answer)) :=
  match tasks s !! t with
  | Some (TRead ino off len acc) =>
      if decide (len - length acc = 0) then None
      else match readwrite_read bs (fs s) ino (off + length acc) (len - length acc) with
           | (f, Ok tmp) => Some (CState f (<[t := TRead ino off len (acc ++ tmp)]> (tasks s)), None)
           | (f, Err e) => Some (CState f (delete t (tasks s)), Some (t, AErr e))
           end
  | Some (TWrite ino off buf written) =>
      if decide (drop written buf = []) then None
      else match readwrite_write bs (fs s) ino (off + written) (drop written buf) with
           | (f, Ok n) => Some (CState f (<[t := TWrite ino off buf (written + n)]> (tasks s)), None)
           | (f, Err e) => Some (CState f (delete t (tasks s)), Some (t, AErr e))
           end
  | Some (TTrunc ino todo (Some (b, cutoff))) =>
      if decide (todo = ∅)
      then match lost (fs s) !! (ino, b) with
           | Some Missing => Some (CState (fs s) (delete t (tasks s)), Some (t, AErr Raised))
           | Some Corrupt => Some (CState (set_broken (ino, b) (fs s)) (delete t (tasks s)), Some (t, AErr EIO))
           | None => Some (CState (set_blks (insert (ino, b) (ftrunc cutoff (content (fs s) (ino, b)))) (fs s)) (<[t := TTrunc ino ∅ None]> (tasks s)), None)
           end
      else None
  | _ => None
  end.
Definition finish (s : cstate) (t : nat) : option (cstate * option (nat * answer)) :=
  match tasks s !! t with
  | Some (TRead ino off len acc) => if decide (len - length acc = 0) then Some (CState (fs s) (delete t (tasks s)), Some (t, AData acc)) else None
  | Some (TWrite ino off buf written) =>
      if decide (drop written buf = []) then Some (CState (set_sizes (alter (fun size => max size (off + length buf)) ino) (fs s)) (delete t (tasks s)), Some (t, ANum (length buf))) else None
  | Some (TTrunc ino todo cut) => if decide (todo = ∅ /\ cut = None) then Some (CState (fs s) (delete t (tasks s)), Some (t, ADone)) else None
  | None => None
  end.
Definition cstep (bs : nat) (s : cstate) (e : event) : option (cstate * option (nat * answer)) :=
  match e with
  | Begin t r => match tasks s !! t with Some _ => None | None => Some (begin bs s t r) end
  | Work t => work bs s t
  | Remove t b =>
      match tasks s !! t with
      | Some (TTrunc ino todo cut) => if decide (b ∈ todo) then Some (CState (cache_remove (fs s) ino b (b + 1)) (<[t := TTrunc ino (todo ∖ {[b]}) cut]> (tasks s)), None) else None
      | _ => None
      end
  | Finish t => finish s t
  | New ino => match do_create (fs s) ino with (f, Ok _) => Some (CState f (tasks s), None) | _ => None end
  end.
(** The answers, in the order in which they are given *)
Fixpoint crun (bs : nat) (s : cstate) (evs : list event) : option (cstate * list (nat * answer)) :=
  match evs with
  | [] => Some (s, [])
  | e :: evs => match cstep bs s e with Some (s, a) => match crun bs s evs with Some (s, l) => Some (s, option_list a ++ l) | None => None end | None => None end
  end.
