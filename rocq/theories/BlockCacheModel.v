(** Model of src/s3ql/block_cache.py: BlockCache with its worker tasks, the objects and inode_blocks
    tables and the storage backend.

    A task is a stack of frames; a frame is a place in the code where the task can be suspended
    (an await), with the local variables that are still needed.  One step runs the top frame up to the
    next such place ([exec]).  Frames are only ever suspended between statements with an await, so every
    interleaving of the real program is an interleaving of these steps; a few steps are shorter than in
    the code, which only adds interleavings (noted where it happens).

    Simplifications:
    - MultiLock is a set of locked keys (see MultiLockModel for the real one).
    - LinkedDict is a list of entries and iteration cursors (see LinkedDictModel for the real one).
    - A cache file is its content (a list of bytes), open, read, seek and write are not modelled
      separately: a user of a block replaces its content.
    - BlockCache.wait() (403-418) may return at any time.
    - The backend stores or returns the whole content in one step, at the end of the transfer.
    - phys_size is the size of the content (compression and encryption: see Comprenc).
    - Exceptions other than a failed upload or a missing object, cancellation, time stamps, logging and
      the commit to disk of the database are left out. *)
From stdpp Require Import prelude list gmap.
From Coq Require Import ZArith.

Notation key := (nat * nat)%type (only parsing).   (* (inode, blockno) *)
(** Identity of a CacheEntry object: its key (which never changes) and a serial number. *)
Notation eid := (nat * nat * nat)%type (only parsing).
Notation content := (list nat) (only parsing).

Section model.
(** sha256 of the content, block_cache.py:456. *)
Context {H : Type} `{EqDecision H} (sha : content -> H).
(** Number of upload tasks (281) and capacity of the removal channel (263). *)
Context (nworkers qcap : nat).

(** CacheEntry 45-141; [size] is the length of the content. *)
Record entry := Entry { e_data : content; e_dirty : bool; e_transit : bool }.
Definition e_size (e : entry) : Z := Z.of_nat (length (e_data e)).

(** Row of the objects table, database.py:695-705. [o_phys]: phys_size, [None] stands for -1. *)
Record obj := Obj { o_ref : nat; o_hash : option H; o_len : nat; o_phys : option nat }.

(** CacheDict 144-180. *)
Inductive item := E (k : key) (e : eid) | Cur (t : nat).

(** What to do with the result of upload_if_dirty: the three callers 763, 863, 875. *)
Inductive ret :=
| RetEvict (ns ne : Z) (sth : bool) (d : option Z)
| RetStart (i : option nat)
| RetFlush (sth : bool).

Inductive frame :=
(* MultiLock.release *)
| FRelease (k : key)
(* upload_if_dirty 420-534 *)
| FUpload (e : eid) (r : ret)
| FUploadAcq (e : eid) (r : ret)
| FUploadLocked (e : eid) (r : ret)
| FSha (e : eid) (r : ret)
| FSend (e : eid) (o : nat)
(* _deref_obj 536-569; [failed]: size == -1 *)
| FDeref (o : nat)
| FDerefWait (o : nat) (failed : bool)
| FRmSend (o : nat)
(* get 608-655, _get_entry 659-740; [mw]: max_write *)
| FGet (k : key) (mw : option nat)
| FGetFastAcq (k : key) (mw : nat)
| FGetFast (k : key) (mw : nat)
| FUseFast (e : eid)
| FGetSlow (k : key)
| FGetAcq (k : key)
| FGetEntry (k : key)
| FDownWait (k : key) (o : nat)
| FDown (k : key) (o : nat)
| FDownDone (k : key) (c : content)
| FUse (e : eid) (oldsize : Z)
| FError
(* evict 742-786; [d]: the saved limit if called by drop *)
| FEvict (d : option Z)
| FEvictNext (ns ne : Z) (sth : bool) (d : option Z)
| FEvictAcq (e : eid) (ns ne : Z) (sth : bool) (d : option Z)
| FEvictLocked (e : eid)
| FWait
(* start_flush 853-864, flush 866-884, drop 886-894 *)
| FStart (i : option nat)
| FStartNext (i : option nat)
| FFlush
| FFlushNext (sth : bool)
| FDrop
(* remove 788-841 *)
| FRem0 (i : nat) (todo later : list nat)
| FRem1 (i : nat) (todo : list nat)
| FRemAcq (i b : nat)
| FRemLocked (k : key).

(** An upload task that is busy (_do_upload 365-401). *)
Inductive job := JUp (e : eid) (o : nat) | JRel (k : key).

(** Everything but the tasks. *)
Record shared := Shared {
  cache : list item; ents : gmap (nat * nat * nat) entry; next_e : nat;
  csize : Z; max_size : Z; max_entries : Z;
  locks : gset (nat * nat);
  objs : gmap nat obj; blocks : gmap (nat * nat) nat; next_o : nat;
  inflight : gset nat; transit : Z;
  store : gmap nat content;              (* the backend's s3ql_data_<id> *)
  rmq : list nat; removing : list nat;   (* removal channel, batch being deleted *)
  jobs : gmap nat job;
  failsafe : bool
}.

Definition set_cache f s := Shared (f (cache s)) (ents s) (next_e s) (csize s) (max_size s) (max_entries s)
  (locks s) (objs s) (blocks s) (next_o s) (inflight s) (transit s) (store s) (rmq s) (removing s) (jobs s) (failsafe s).
Definition set_ents f s := Shared (cache s) (f (ents s)) (next_e s) (csize s) (max_size s) (max_entries s)
  (locks s) (objs s) (blocks s) (next_o s) (inflight s) (transit s) (store s) (rmq s) (removing s) (jobs s) (failsafe s).
Definition set_next_e f s := Shared (cache s) (ents s) (f (next_e s)) (csize s) (max_size s) (max_entries s)
  (locks s) (objs s) (blocks s) (next_o s) (inflight s) (transit s) (store s) (rmq s) (removing s) (jobs s) (failsafe s).
Definition set_csize f s := Shared (cache s) (ents s) (next_e s) (f (csize s)) (max_size s) (max_entries s)
  (locks s) (objs s) (blocks s) (next_o s) (inflight s) (transit s) (store s) (rmq s) (removing s) (jobs s) (failsafe s).
Definition set_max_entries f s := Shared (cache s) (ents s) (next_e s) (csize s) (max_size s) (f (max_entries s))
  (locks s) (objs s) (blocks s) (next_o s) (inflight s) (transit s) (store s) (rmq s) (removing s) (jobs s) (failsafe s).
Definition set_locks f s := Shared (cache s) (ents s) (next_e s) (csize s) (max_size s) (max_entries s)
  (f (locks s)) (objs s) (blocks s) (next_o s) (inflight s) (transit s) (store s) (rmq s) (removing s) (jobs s) (failsafe s).
Definition set_objs f s := Shared (cache s) (ents s) (next_e s) (csize s) (max_size s) (max_entries s)
  (locks s) (f (objs s)) (blocks s) (next_o s) (inflight s) (transit s) (store s) (rmq s) (removing s) (jobs s) (failsafe s).
Definition set_blocks f s := Shared (cache s) (ents s) (next_e s) (csize s) (max_size s) (max_entries s)
  (locks s) (objs s) (f (blocks s)) (next_o s) (inflight s) (transit s) (store s) (rmq s) (removing s) (jobs s) (failsafe s).
Definition set_next_o f s := Shared (cache s) (ents s) (next_e s) (csize s) (max_size s) (max_entries s)
  (locks s) (objs s) (blocks s) (f (next_o s)) (inflight s) (transit s) (store s) (rmq s) (removing s) (jobs s) (failsafe s).
Definition set_inflight f s := Shared (cache s) (ents s) (next_e s) (csize s) (max_size s) (max_entries s)
  (locks s) (objs s) (blocks s) (next_o s) (f (inflight s)) (transit s) (store s) (rmq s) (removing s) (jobs s) (failsafe s).
Definition set_transit f s := Shared (cache s) (ents s) (next_e s) (csize s) (max_size s) (max_entries s)
  (locks s) (objs s) (blocks s) (next_o s) (inflight s) (f (transit s)) (store s) (rmq s) (removing s) (jobs s) (failsafe s).
Definition set_store f s := Shared (cache s) (ents s) (next_e s) (csize s) (max_size s) (max_entries s)
  (locks s) (objs s) (blocks s) (next_o s) (inflight s) (transit s) (f (store s)) (rmq s) (removing s) (jobs s) (failsafe s).
Definition set_rmq f s := Shared (cache s) (ents s) (next_e s) (csize s) (max_size s) (max_entries s)
  (locks s) (objs s) (blocks s) (next_o s) (inflight s) (transit s) (store s) (f (rmq s)) (removing s) (jobs s) (failsafe s).
Definition set_removing f s := Shared (cache s) (ents s) (next_e s) (csize s) (max_size s) (max_entries s)
  (locks s) (objs s) (blocks s) (next_o s) (inflight s) (transit s) (store s) (rmq s) (f (removing s)) (jobs s) (failsafe s).
Definition set_jobs f s := Shared (cache s) (ents s) (next_e s) (csize s) (max_size s) (max_entries s)
  (locks s) (objs s) (blocks s) (next_o s) (inflight s) (transit s) (store s) (rmq s) (removing s) (f (jobs s)) (failsafe s).
Definition set_failsafe f s := Shared (cache s) (ents s) (next_e s) (csize s) (max_size s) (max_entries s)
  (locks s) (objs s) (blocks s) (next_o s) (inflight s) (transit s) (store s) (rmq s) (removing s) (jobs s) (f (failsafe s)).

(** ** CacheDict *)
(** [cache.get(key)] / [cache[key]] *)
Fixpoint cget (k : key) (l : list item) : option eid :=
  match l with
  | [] => None
  | E k' e :: l => if decide (k' = k) then Some e else cget k l
  | Cur _ :: l => cget k l
  end.
Fixpoint cpop (k : key) (l : list item) : list item :=
  match l with
  | [] => []
  | E k' e :: l => if decide (k' = k) then l else E k' e :: cpop k l
  | Cur t :: l => Cur t :: cpop k l
  end.
(** [len(cache)] *)
Fixpoint clen (l : list item) : nat :=
  match l with [] => 0 | E _ _ :: l => S (clen l) | Cur _ :: l => clen l end.
(** [move_to_tail] *)
Definition cmove (k : key) (l : list item) : list item :=
  match cget k l with Some e => cpop k l ++ [E k e] | None => l end.
(** next() on the iteration of task [t] *)
Fixpoint cskip (t : nat) (l : list item) : list item * option eid :=
  match l with
  | [] => ([], None)
  | E k e :: l => (E k e :: Cur t :: l, Some e)
  | Cur t' :: l => let '(l, r) := cskip t l in (Cur t' :: l, r)
  end.
Fixpoint cnext (t : nat) (l : list item) : list item * option eid :=
  match l with
  | [] => ([], None)
  | Cur t' :: l => if decide (t' = t) then cskip t l else let '(l, r) := cnext t l in (Cur t' :: l, r)
  | E k e :: l => let '(l, r) := cnext t l in (E k e :: l, r)
  end.
(** The generator is closed. *)
Fixpoint cclose (t : nat) (l : list item) : list item :=
  match l with
  | [] => []
  | Cur t' :: l => if decide (t' = t) then l else Cur t' :: cclose t l
  | E k e :: l => E k e :: cclose t l
  end.

(** Attributes of an entry object. *)
Definition ent (s : shared) (e : eid) : entry := default (Entry [] false false) (ents s !! e).

(** CacheDict.remove 171-178 *)
Definition cremove (k : key) (s : shared) : shared :=
  match cget k (cache s) with
  | None => s
  | Some e =>
    set_csize (fun x => (x - e_size (ent s e))%Z) (set_cache (cpop k) s)
  end.
(** is_full 180 *)
Definition is_full (s : shared) : bool :=
  bool_decide (max_size s < csize s)%Z || bool_decide (max_entries s < Z.of_nat (clen (cache s)))%Z.

Definition set_entry (e : eid) (f : entry -> entry) (s : shared) : shared := set_ents <[e := f (ent s e)]> s.
Definition set_dirty (b : bool) (e : entry) : entry := Entry (e_data e) b (e_transit e).
Definition set_in_transit (b : bool) (e : entry) : entry := Entry (e_data e) (e_dirty e) b.
Definition set_data (c : content) (e : entry) : entry := Entry c true (e_transit e).

(** _mark_in_transit, _unmark_in_transit 353-363 *)
Definition mark (e : eid) (s : shared) : shared := set_transit (fun n => n + 1)%Z (set_entry e (set_in_transit true) s).
Definition unmark (e : eid) (s : shared) : shared := set_transit (fun n => n - 1)%Z (set_entry e (set_in_transit false) s).

Definition lock (k : key) (s : shared) : shared := set_locks (fun l => {[k]} ∪ l) s.
Definition unlock (k : key) (s : shared) : shared := set_locks (fun l => l ∖ {[k]}) s.

(** A new CacheEntry that is put into the cache. *)
Definition new_entry (k : key) (c : content) (s : shared) : shared * eid :=
  let e := (k, next_e s) in
  (set_csize (fun x => x + Z.of_nat (length c))%Z
    (set_cache (fun l => l ++ [E k e]) (set_ents <[e := Entry c false false]> (set_next_e S s))), e).

(** SELECT id FROM objects WHERE hash=? *)
Definition obj_by_hash (h : H) (s : shared) : option nat :=
  fst <$> head (filter (fun x => o_hash x.2 = Some h) (map_to_list (objs s))).

Definition add_ref (o : obj) : obj := Obj (S (o_ref o)) (o_hash o) (o_len o) (o_phys o).
Definition del_ref (o : obj) : obj := Obj (pred (o_ref o)) (o_hash o) (o_len o) (o_phys o).
Definition no_hash (o : obj) : obj := Obj (o_ref o) None (o_len o) (o_phys o).
Definition with_phys (n : nat) (o : obj) : obj := Obj (o_ref o) (o_hash o) (o_len o) (Some n).

(** The statement after the call of upload_if_dirty. *)
Definition resume (e : eid) (r : ret) (b : bool) : list frame :=
  match r with
  | RetEvict ns ne sth d => if b then [FEvictNext ns ne true d] else [FEvictAcq e ns ne sth d]
  | RetStart i => [FStartNext i]
  | RetFlush sth => [FFlushNext (b || sth)]
  end.
Definition deref (old : option nat) : list frame := match old with Some o => [FDeref o] | None => [] end.

(** Run the top frame of task [t]: the new state and the frames that replace it.
    [None]: the task has to wait. *)
Definition exec (t : nat) (f : frame) (s : shared) : option (shared * list frame) :=
  match f with
  | FRelease k => Some (unlock k s, [])
  | FUpload e r =>
    (* 428-434 *)
    if e_transit (ent s e) then Some (s, resume e r true)
    else if e_dirty (ent s e) then Some (s, [FUploadAcq e r])
    else Some (s, resume e r false)
  | FUploadAcq e r => if decide (e.1 ∈ locks s) then None else Some (lock e.1 s, [FUploadLocked e r])
  | FUploadLocked e r =>
    (* 437-456 *)
    if decide (cget e.1 (cache s) = Some e) then
      if e_transit (ent s e) then Some (s, FRelease e.1 :: resume e r true)
      else if e_dirty (ent s e) then Some (mark e s, [FSha e r])
      else Some (s, FRelease e.1 :: resume e r false)
    else Some (s, FRelease e.1 :: resume e r false)
  | FSha e r =>
    (* 457-534 *)
    let h := sha (e_data (ent s e)) in
    let old := blocks s !! e.1 in
    match obj_by_hash h s with
    | None =>
      let o := next_o s in
      let s := set_next_o S (set_objs <[o := Obj 1 (Some h) (length (e_data (ent s e))) None]> s) in
      let s := set_blocks <[e.1 := o]> s in
      let s := set_inflight (fun x => {[o]} ∪ x) s in
      Some (s, FSend e o :: deref old ++ resume e r true)
    | Some o =>
      if decide (old = Some o) then
        Some (unmark e (set_entry e (set_dirty false) s), FRelease e.1 :: resume e r false)
      else
        let s := set_blocks <[e.1 := o]> (set_objs (alter add_ref o) s) in
        Some (unmark e (set_entry e (set_dirty false) s), FRelease e.1 :: deref old ++ resume e r false)
    end
  | FSend e o =>
    (* 505; the channel has no buffer, an upload task must be waiting *)
    if decide (size (jobs s) < nworkers) then
      Some (set_jobs (fun m => <[fresh (dom m) := JUp e o]> m) s, [])
    else None
  | FDeref o =>
    (* 542-561 *)
    match objs s !! o with
    | None => None
    | Some ob =>
      if decide (1 < o_ref ob) then Some (set_objs (alter del_ref o) s, [])
      else Some (set_objs (delete o) s, [FDerefWait o (bool_decide (o_phys ob = None))])
    end
  | FDerefWait o failed =>
    (* 558-569 *)
    if decide (o ∈ inflight s) then None
    else if failed then Some (s, []) else Some (s, [FRmSend o])
  | FRmSend o => if decide (length (rmq s) < qcap) then Some (set_rmq (fun q => q ++ [o]) s, []) else None
  | FGet k mw => Some (s, match mw with Some mw => [FGetFastAcq k mw] | None => [FGetSlow k] end)
  | FGetFastAcq k mw => if decide (k ∈ locks s) then None else Some (lock k s, [FGetFast k mw])
  | FGetFast k mw =>
    (* 626-638 *)
    match cget k (cache s) with
    | None => Some (s, [FRelease k; FGetSlow k])
    | Some e =>
      if decide (length (e_data (ent s e)) <= mw) then Some (s, [FRelease k; FGetSlow k])
      else Some (set_cache (cmove k) s, [FUseFast e])
    end
  | FUseFast e | FUse e _ => None            (* see [leave] *)
  | FGetSlow k => Some (s, if is_full s then [FEvict None; FGetAcq k] else [FGetAcq k])
  | FGetAcq k => if decide (k ∈ locks s) then None else Some (lock k s, [FGetEntry k])
  | FGetEntry k =>
    (* 666-716, 735-738 *)
    match cget k (cache s) with
    | Some e => Some (set_cache (cmove k) s, [FUse e (e_size (ent s e))])
    | None =>
      match blocks s !! k with
      | None => let '(s, e) := new_entry k [] s in Some (s, [FUse e 0%Z])
      | Some o =>
        match objs s !! o with
        | None => let '(s, e) := new_entry k [] s in Some (s, [FUse e 0%Z])   (* the JOIN is empty *)
        | Some ob =>
          let s := match o_hash ob with None => set_failsafe (fun _ => true) s | Some _ => s end in
          Some (s, [FDownWait k o])
        end
      end
    end
  | FDownWait k o => if decide (o ∈ inflight s) then None else Some (s, [FDown k o])
  | FDown k o =>
    match store s !! o with
    | Some c => Some (s, [FDownDone k c])
    | None => Some (s, [FRelease k; FError])
    end
  | FDownDone k c => let '(s, e) := new_entry k c s in Some (s, [FUse e (Z.of_nat (length c))])
  | FError => None
  | FEvict d =>
    (* 750-756 *)
    let ns := (csize s - max_size s)%Z in
    let ne := (Z.of_nat (clen (cache s)) - max_entries s)%Z in
    if decide (ns <= 0 /\ ne <= 0)%Z then
      Some (match d with Some bak => set_max_entries (fun _ => bak) s | None => s end, [])
    else Some (set_cache (cons (Cur t)) s, [FEvictNext ns ne false d])
  | FEvictNext ns ne sth d =>
    (* 757-763, 782-784 *)
    let fin := if sth then [FWait; FEvict d] else [FEvict d] in
    match cnext t (cache s) with
    | (l, None) => Some (set_cache (fun _ => l) s, fin)
    | (l, Some e) =>
      if decide (ns <= 0 /\ ne <= 0)%Z then Some (set_cache (fun _ => cclose t l) s, fin)
      else
        Some (set_cache (fun _ => l) s, [FUpload e (RetEvict (ns - e_size (ent s e)) (ne - 1) sth d)])
    end
  | FEvictAcq e ns ne sth d =>
    if decide (e.1 ∈ locks s) then None
    else Some (lock e.1 s, [FEvictLocked e; FEvictNext ns ne sth d])
  | FEvictLocked e =>
    (* 769-780 *)
    let s := if decide (cget e.1 (cache s) = Some e /\ e_dirty (ent s e) = false) then cremove e.1 s else s in
    Some (s, [FRelease e.1])
  | FWait => Some (s, [])
  | FStart i => Some (set_cache (cons (Cur t)) s, [FStartNext i])
  | FStartNext i =>
    match cnext t (cache s) with
    | (l, None) => Some (set_cache (fun _ => l) s, [])
    | (l, Some e) =>
      if decide (i = None \/ i = Some e.1.1) then Some (set_cache (fun _ => l) s, [FUpload e (RetStart i)])
      else Some (set_cache (fun _ => l) s, [FStartNext i])
    end
  | FFlush => Some (set_cache (cons (Cur t)) s, [FFlushNext false])
  | FFlushNext sth =>
    match cnext t (cache s) with
    | (l, None) => Some (set_cache (fun _ => l) s, if sth then [FWait; FFlush] else [])
    | (l, Some e) => Some (set_cache (fun _ => l) s, [FUpload e (RetFlush sth)])
    end
  | FDrop => Some (set_max_entries (fun _ => 0%Z) s, [FEvict (Some (max_entries s))])
  | FRem0 i [] later => Some (s, [FRem1 i later])
  | FRem0 i (b :: todo) later =>
    if decide ((i, b) ∈ locks s) then Some (s, [FRem0 i todo (later ++ [b])])
    else Some (lock (i, b) s, [FRemLocked (i, b); FRem0 i todo later])
  | FRem1 i [] => Some (s, [])
  | FRem1 i (b :: todo) => Some (s, [FRemAcq i b; FRem1 i todo])
  | FRemAcq i b => if decide ((i, b) ∈ locks s) then None else Some (lock (i, b) s, [FRemLocked (i, b)])
  | FRemLocked k =>
    (* 816-840 *)
    let s := cremove k s in
    match blocks s !! k with
    | None => Some (s, [FRelease k])
    | Some o => Some (set_blocks (delete k) s, [FRelease k; FDeref o])
    end
  end.

(** Leaving the [async with] body of get(): 640 and 648-653. *)
Definition leave (f : frame) (s : shared) : option (shared * list frame) :=
  match f with
  | FUseFast e => Some (s, [FRelease e.1])
  | FUse e old => Some (set_csize (fun x => x + (e_size (ent s e) - old))%Z s, [FRelease e.1])
  | _ => None
  end.
(** The user of a block changes its content (write, truncate 111-124); on the fast path the caller has
    promised to stay within the current size. *)
Definition modify (f : frame) (c : content) (s : shared) : option shared :=
  match f with
  | FUseFast e => if decide (length c = length (e_data (ent s e))) then Some (set_entry e (set_data c) s) else None
  | FUse e _ => Some (set_entry e (set_data c) s)
  | _ => None
  end.

(** ** The whole system *)
Record state := State { sh : shared; tasks : gmap nat (list frame) }.

(** Calls from the file system. *)
Inductive call :=
| CGet (k : key) (mw : option nat)
| CRemove (i : nat) (bs : list nat)      (* the block numbers start_no..end_no-1, in any order *)
| CStart (i : option nat)
| CFlush
| CDrop.
Definition enter (c : call) : list frame :=
  match c with
  | CGet k mw => [FGet k mw]
  | CRemove i bs => [FRem0 i bs []]
  | CStart i => [FStart i]
  | CFlush => [FFlush]
  | CDrop => [FDrop]
  end.

Inductive label :=
| LCall (t : nat) (c : call)
| LRun (t : nat)
| LWrite (t : nat) (c : content)
| LLeave (t : nat)
| LUploaded (j : nat)                    (* write_fh returned *)
| LFailed (j : nat) (stored : bool)      (* write_fh raised, having stored the object or not *)
| LJobRelease (j : nat)
| LBatch                                 (* the removal task collects a batch *)
| LDeleted                               (* delete_multi returned *)
| LSkip (t : nat)                        (* acquire_nowait fails as the MultiLock itself is in use *)
| LCopy (k k' : key).                    (* copy_tree, fs.py:598-611, one row *)

Definition replace_top (t : nat) (rest : list frame) (r : option (shared * list frame)) (s : state) : option state :=
  match r with Some (sh', fs) => Some (State sh' (<[t := fs ++ rest]> (tasks s))) | None => None end.

Definition step (s : state) (l : label) : option state :=
  match l with
  | LCall t c =>
    match tasks s !! t with
    | Some (_ :: _) => None
    | _ => Some (State (sh s) (<[t := enter c]> (tasks s)))
    end
  | LRun t =>
    match tasks s !! t with Some (f :: rest) => replace_top t rest (exec t f (sh s)) s | _ => None end
  | LLeave t =>
    match tasks s !! t with Some (f :: rest) => replace_top t rest (leave f (sh s)) s | _ => None end
  | LWrite t c =>
    match tasks s !! t with
    | Some (f :: rest) => match modify f c (sh s) with Some sh' => Some (State sh' (tasks s)) | None => None end
    | _ => None
    end
  | LUploaded j =>
    (* 381-397 *)
    match jobs (sh s) !! j with
    | Some (JUp e o) =>
      let x := sh s in
      let x := set_store <[o := e_data (ent x e)]> x in
      let x := unmark e x in
      let x := set_objs (alter (with_phys (length (e_data (ent x e)))) o) x in
      let x := set_entry e (set_dirty false) x in
      let x := set_inflight (fun i => i ∖ {[o]}) x in
      Some (State (set_jobs <[j := JRel e.1]> x) (tasks s))
    | _ => None
    end
  | LFailed j stored =>
    match jobs (sh s) !! j with
    | Some (JUp e o) =>
      let x := sh s in
      let x := if stored : bool then set_store <[o := e_data (ent x e)]> x else x in
      let x := unmark e x in
      let x := set_objs (alter no_hash o) x in
      let x := set_inflight (fun i => i ∖ {[o]}) x in
      Some (State (set_jobs <[j := JRel e.1]> x) (tasks s))
    | _ => None
    end
  | LJobRelease j =>
    match jobs (sh s) !! j with
    | Some (JRel k) => Some (State (set_jobs (delete j) (unlock k (sh s))) (tasks s))
    | _ => None
    end
  | LBatch =>
    match removing (sh s), rmq (sh s) with
    | [], _ :: _ => Some (State (set_rmq (fun _ => []) (set_removing (fun _ => rmq (sh s)) (sh s))) (tasks s))
    | _, _ => None
    end
  | LDeleted =>
    match removing (sh s) with
    | [] => None
    | ids =>
      let lost := bool_decide (Exists (fun o => store (sh s) !! o = None) ids) in
      let x := set_store (fun m => foldr delete m ids) (sh s) in
      let x := if lost then set_failsafe (fun _ => true) x else x in
      Some (State (set_removing (fun _ => []) x) (tasks s))
    end
  | LSkip t =>
    match tasks s !! t with
    | Some (FRem0 i (b :: todo) later :: rest) =>
      Some (State (sh s) (<[t := FRem0 i todo (later ++ [b]) :: rest]> (tasks s)))
    | _ => None
    end
  | LCopy k k' =>
    match blocks (sh s) !! k, blocks (sh s) !! k', cget k' (cache (sh s)) with
    | Some o, None, None =>
      if decide (k' ∈ locks (sh s)) then None else
      Some (State (set_blocks <[k' := o]> (set_objs (alter add_ref o) (sh s))) (tasks s))
    | _, _, _ => None
    end
  end.

Inductive steps : state -> list label -> state -> Prop :=
| steps_nil s : steps s [] s
| steps_cons s l s1 ls s2 : step s l = Some s1 -> steps s1 ls s2 -> steps s (l :: ls) s2.
End model.
Arguments entry : clear implicits.
Arguments shared : clear implicits.
Arguments state : clear implicits.
Arguments obj : clear implicits.
