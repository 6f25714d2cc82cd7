(** Specification of the block cache.  It speaks about what users of the cache do (calls, writes,
    removals, copies of rows), about the tables, and about the stored objects. *)
From stdpp Require Import prelude list gmap.
From Coq Require Import ZArith.
From Verif Require Import BlockCacheModel.

Section spec.
Context {H : Type} `{EqDecision H} (sha : list nat -> H) (nworkers qcap : nat).
Notation shared := (shared H).
Notation state := (state H).

(** ** What the user knows: the content of every block *)
Definition contents := nat * nat -> list nat.
Definition upd (cur : contents) (k : nat * nat) (c : list nat) : contents := fun k' => if decide (k' = k) then c else cur k'.
(** The block in use by a task. *)
Definition in_use (s : state) (t : nat) : option (nat * nat) :=
  match tasks s !! t with Some (FUse e _ :: _) | Some (FUseFast e :: _) => Some e.1 | _ => None end.
(** The block that a task is about to remove. *)
Definition removes (s : state) (t : nat) : option (nat * nat) :=
  match tasks s !! t with Some (FRemLocked k :: _) => Some k | _ => None end.
Definition history (s : state) (l : label) (cur : contents) : contents :=
  match l with
  | LWrite t c => match in_use s t with Some k => upd cur k c | None => cur end
  | LRun t => match removes s t with Some k => upd cur k [] | None => cur end
  | LCopy k k' => upd cur k' (cur k)
  | _ => cur
  end.

(** The row of the block points to an object with the hash of the block's content. *)
Definition registered (x : shared) (cur : contents) (k : nat * nat) : Prop :=
  exists o ob, blocks x !! k = Some o /\ objs x !! o = Some ob /\ o_hash ob = Some (sha (cur k)).
(** Not in the cache, or in the cache and not modified. *)
Definition clean (x : shared) (k : nat * nat) : Prop :=
  match cget k (cache x) with Some e => e_dirty (ent x e) = false | None => True end.

(** The content that a task with an open block sees. *)
Definition view (s : state) (t : nat) : option (nat * nat * list nat) :=
  match tasks s !! t with Some (FUse e _ :: _) | Some (FUseFast e :: _) => Some (e.1, e_data (ent (sh s) e)) | _ => None end.
(** The get() call of a task has failed. *)
Definition failed (s : state) (t : nat) : Prop := exists fs, tasks s !! t = Some fs /\ FError ∈ fs.

(** No two different contents that occur in an execution have the same hash. *)
Definition occurs (cur : contents) (ls : list label) (c : list nat) : Prop :=
  c = [] \/ (exists k, cur k = c) \/ (exists t, LWrite t c ∈ ls).
Definition collision_free (cur : contents) (ls : list label) : Prop :=
  forall c c', occurs cur ls c -> occurs cur ls c' -> sha c = sha c' -> c = c'.

(** Executions, with the content of all blocks: rows are only copied for blocks that are registered. *)
Inductive run : state -> contents -> list label -> state -> contents -> Prop :=
| run_nil s cur : run s cur [] s cur
| run_cons s cur l s1 ls s2 cur2 :
    step sha nworkers qcap s l = Some s1 ->
    (forall k k', l = LCopy k k' -> registered (sh s) cur k) ->
    run s1 (history s l cur) ls s2 cur2 -> run s cur (l :: ls) s2 cur2.

(** An upload fails while a block that is not marked as modified depends on it. *)
Definition bad_failure (s : state) (l : label) : Prop :=
  exists j st e o k, l = LFailed j st /\ jobs (sh s) !! j = Some (JUp e o) /\
    k <> e.1 /\ blocks (sh s) !! k = Some o /\ clean (sh s) k.
(** Executions in which that does not happen. *)
Inductive good_run : state -> contents -> list label -> state -> contents -> Prop :=
| good_nil s cur : good_run s cur [] s cur
| good_cons s cur l s1 ls s2 cur2 :
    step sha nworkers qcap s l = Some s1 ->
    (forall k k', l = LCopy k k' -> registered (sh s) cur k) -> ~ bad_failure s l ->
    good_run s1 (history s l cur) ls s2 cur2 -> good_run s cur (l :: ls) s2 cur2.

(** ** Where an execution starts: the state after mounting *)
(** The content of the block can be had from the cache or from the backend. *)
Definition recoverable (x : shared) (cur : contents) (k : nat * nat) : Prop :=
  (exists e, cget k (cache x) = Some e /\ e_data (ent x e) = cur k) \/
  (cget k (cache x) = None /\ blocks x !! k = None /\ cur k = []) \/
  (exists o, cget k (cache x) = None /\ blocks x !! k = Some o /\ store x !! o = Some (cur k)) \/
  (* its object is being uploaded from the cached content of another block *)
  (exists o ob k' e', cget k (cache x) = None /\ blocks x !! k = Some o /\ o ∈ inflight x /\ blocks x !! k' = Some o /\
    objs x !! o = Some ob /\ o_hash ob = Some (sha (cur k)) /\
    cget k' (cache x) = Some e' /\ e_dirty (ent x e') = true /\ e_data (ent x e') = cur k).
(** Number of rows of inode_blocks that refer to an object. *)
Definition references (x : shared) (o : nat) : nat := length (filter (fun r => r.2 = o) (map_to_list (blocks x))).
Record mounted (s : state) (cur : contents) : Prop := {
  m_tasks : tasks s = ∅;
  m_jobs : jobs (sh s) = ∅;
  m_locks : locks (sh s) = ∅;
  m_inflight : inflight (sh s) = ∅;
  m_transit : transit (sh s) = 0%Z;
  m_rmq : rmq (sh s) = [];
  m_removing : removing (sh s) = [];
  m_failsafe : failsafe (sh s) = false;
  (* the database *)
  m_refs : forall o ob, objs (sh s) !! o = Some ob -> 0 < o_ref ob /\ o_ref ob = references (sh s) o /\ o < next_o (sh s);
  m_rows : forall k o, blocks (sh s) !! k = Some o -> exists ob, objs (sh s) !! o = Some ob;
  m_hash : forall o1 o2 ob1 ob2 h, objs (sh s) !! o1 = Some ob1 -> objs (sh s) !! o2 = Some ob2 ->
    o_hash ob1 = Some h -> o_hash ob2 = Some h -> o1 = o2;
  (* the backend *)
  m_store : forall o, store (sh s) !! o <> None <-> objs (sh s) !! o <> None;
  m_phys : forall o ob, objs (sh s) !! o = Some ob -> o_phys ob <> None;
  m_stored : forall o ob c, objs (sh s) !! o = Some ob -> store (sh s) !! o = Some c -> o_hash ob = Some (sha c);
  (* the content of the blocks *)
  m_block : forall k o, blocks (sh s) !! k = Some o -> store (sh s) !! o = Some (cur k);
  m_hole : forall k, blocks (sh s) !! k = None -> cur k = [];
  (* the blocks found in the cache directory (block_cache.py:896-939): not modified, each once *)
  m_once : NoDup (omap (fun i => match i with E k _ => Some k | Cur _ => None end) (cache (sh s)));
  m_cached : forall k e, E k e ∈ cache (sh s) -> e.1 = k /\ e.2 < next_e (sh s) /\ ent (sh s) e = Entry (cur k) false false;
  m_quiet : forall e, e_transit (ent (sh s) e) = false;
  m_size : csize (sh s) = foldr Z.add 0%Z (omap (fun i => match i with E _ e => Some (e_size (ent (sh s) e)) | Cur _ => None end) (cache (sh s)))
}.

(** Nothing is going on. *)
Record quiescent (s : state) : Prop := {
  q_tasks : forall t fs, tasks s !! t = Some fs -> fs = [];
  q_jobs : jobs (sh s) = ∅;
  q_rmq : rmq (sh s) = [];
  q_removing : removing (sh s) = []
}.

(** An object is scheduled for deletion: in the queue, or in the batch being deleted, or about to be put
    into the queue (its row is gone). *)
Definition scheduled (s : state) (o : nat) : Prop :=
  o ∈ rmq (sh s) \/ o ∈ removing (sh s) \/
  (exists t fs fl, tasks s !! t = Some fs /\ (FRmSend o ∈ fs \/ FDerefWait o fl ∈ fs)).

(** Total size of the cached blocks. *)
Definition total_size (x : shared) : Z :=
  foldr Z.add 0%Z (omap (fun i => match i with E _ e => Some (e_size (ent x e)) | Cur _ => None end) (cache x)).
Definition entries (x : shared) : nat :=
  length (omap (fun i => match i with E k _ => Some k | Cur _ => None end) (cache x)).

(** ** Calls *)
(** Task [t] makes no new call in the course of an execution. *)
Definition no_call (t : nat) (ls : list label) : Prop := forall c, LCall t c ∉ ls.
Definition returned (s : state) (t : nat) : Prop := tasks s !! t = Some [].
(** Block [k] has been written, or its upload has failed, in the course of an execution. *)
Inductive disturbed (k : nat * nat) : state -> list label -> Prop :=
| dist_write s t c ls : in_use s t = Some k -> disturbed k s (LWrite t c :: ls)
| dist_fail s j st e o ls : jobs (sh s) !! j = Some (JUp e o) -> e.1 = k -> disturbed k s (LFailed j st :: ls)
| dist_later s l s1 ls : step sha nworkers qcap s l = Some s1 -> disturbed k s1 ls -> disturbed k s (l :: ls).
(** Executions in which drop() is only called when earlier calls of drop() have returned; [d]: the task that
    made the last call of drop(), if it may not have returned. *)
Inductive one_drop : option nat -> state -> list label -> state -> option nat -> Prop :=
| one_nil d s : one_drop d s [] s d
| one_call s t s1 ls s2 d : step sha nworkers qcap s (LCall t CDrop) = Some s1 -> one_drop (Some t) s1 ls s2 d ->
    one_drop None s (LCall t CDrop :: ls) s2 d
| one_step d s l s1 ls s2 d' : step sha nworkers qcap s l = Some s1 -> (forall t, l <> LCall t CDrop) ->
    (forall t c, l = LCall t c -> d <> Some t) -> one_drop d s1 ls s2 d' -> one_drop d s (l :: ls) s2 d'
| one_done s t ls s2 d : returned s t -> one_drop None s ls s2 d -> one_drop (Some t) s ls s2 d.
(** Somebody is computing the hash of the block. *)
Definition hashing (s : state) (k : nat * nat) : Prop :=
  exists t e r rest, tasks s !! t = Some (FSha e r :: rest) /\ e.1 = k.
(** Somebody is storing the block. *)
Definition storing (s : state) (k : nat * nat) : Prop :=
  (exists t e o rest, tasks s !! t = Some (FSend e o :: rest) /\ e.1 = k) \/ (exists j e o, jobs (sh s) !! j = Some (JUp e o) /\ e.1 = k).

(** A step that is neither a new call nor a decision of a user of the cache. *)
Definition progress (l : label) : Prop :=
  match l with LRun _ | LLeave _ | LUploaded _ | LJobRelease _ | LBatch | LDeleted => True | _ => False end.
Definition unfinished (s : state) (t : nat) : Prop :=
  exists f rest, tasks s !! t = Some (f :: rest) /\ f <> FError.
End spec.
