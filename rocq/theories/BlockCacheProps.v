(** Properties of the block cache (C03 - C09, C61).  [sha]: the hash function; [nw]: number of upload tasks;
    [qc]: capacity of the removal queue.  Executions start in a state [s0] as left by mounting, with the
    content [cur0] of all blocks; [cur] is the content of all blocks according to the writes and removals
    that have been made in the meantime. *)
From stdpp Require Import prelude list gmap.
From Coq Require Import ZArith.
From Verif Require Import BlockCacheModel BlockCacheSpec BlockCacheReach BlockCacheProofs BlockCacheCalls BlockCacheInv4 BlockCacheWitness.

Section props.
Context {H : Type} `{EqDecision H} (sha : list nat -> H) (nw qc : nat).
Implicit Types s : state H.
Notation step := (step sha nw qc).
Notation steps := (steps sha nw qc).
Notation run := (run sha nw qc).
Notation good_run := (good_run sha nw qc).

(** ** C03 *)
(** Whoever has a block open sees what was written last. *)
Theorem open_block_is_current s0 cur0 ls s cur t k c :
  mounted sha s0 cur0 -> collision_free sha cur0 ls -> run s0 cur0 ls s cur -> view s t = Some (k, c) -> c = cur k.
Proof. exact (view_content sha nw qc s0 cur0 ls s cur t k c). Qed.
(** get() opens the block that was asked for. *)
Theorem get_opens_the_block s0 cur0 ls0 s cur t k mw s1 ls s2 k' c :
  mounted sha s0 cur0 -> run s0 cur0 ls0 s cur -> step s (LCall t (CGet k mw)) = Some s1 -> steps s1 ls s2 -> no_call t ls ->
  view s2 t = Some (k', c) -> k' = k.
Proof. exact (fun Hm Hr => get_opens_block sha nw qc s t k mw s1 ls s2 k' c (run_Inv sha nw qc s0 cur0 ls0 s cur Hr (mounted_Inv sha s0 cur0 Hm))). Qed.
(** get() never fails, and the file system does not degrade to fail-safe mode, unless an upload failed on
    which an unmodified block depended. *)
Theorem get_never_fails s0 cur0 ls s cur :
  mounted sha s0 cur0 -> collision_free sha cur0 ls -> good_run s0 cur0 ls s cur -> (forall t, ~ failed s t) /\ failsafe (sh s) = false.
Proof.
  exact (fun Hm Hf Hr => conj (fun t => good_reads_succeed sha nw qc s0 cur0 ls s cur t Hm Hf Hr) (good_failsafe sha nw qc s0 cur0 ls s cur Hm Hf Hr)).
Qed.

(** ** C04 *)
(** At every moment the current content of every block is in the cache or in the backend, or on its way to it. *)
Theorem no_block_is_lost s0 cur0 ls s cur k :
  mounted sha s0 cur0 -> collision_free sha cur0 ls -> good_run s0 cur0 ls s cur -> recoverable sha (sh s) cur k.
Proof. exact (good_recoverable sha nw qc s0 cur0 ls s cur k). Qed.
(** A failed upload leaves its block in the cache, still to be uploaded. *)
Theorem failed_upload_keeps_block s0 cur0 ls s cur j stored e o s' :
  mounted sha s0 cur0 -> collision_free sha cur0 ls -> run s0 cur0 ls s cur ->
  jobs (sh s) !! j = Some (JUp e o) -> step s (LFailed j stored) = Some s' ->
  cget e.1 (cache (sh s')) = Some e /\ e_dirty (ent (sh s') e) = true /\ e_data (ent (sh s') e) = cur e.1.
Proof. exact (failed_upload_keeps sha nw qc s0 cur0 ls s cur j stored e o s'). Qed.

(** ** C05 *)
Theorem reference_counts_are_exact s0 cur0 ls s cur :
  mounted sha s0 cur0 -> run s0 cur0 ls s cur -> quiescent s ->
  (forall o ob, objs (sh s) !! o = Some ob -> 0 < o_ref ob /\ o_ref ob = references (sh s) o) /\
  (forall k o, blocks (sh s) !! k = Some o -> exists ob, objs (sh s) !! o = Some ob).
Proof. exact (fun Hm Hr => refs_quiescent sha s (run_Inv sha nw qc s0 cur0 ls s cur Hr (mounted_Inv sha s0 cur0 Hm))). Qed.
Theorem hashes_are_unique s0 cur0 ls s cur :
  mounted sha s0 cur0 -> run s0 cur0 ls s cur ->
  forall o1 o2 ob1 ob2 h, objs (sh s) !! o1 = Some ob1 -> objs (sh s) !! o2 = Some ob2 ->
    o_hash ob1 = Some h -> o_hash ob2 = Some h -> o1 = o2.
Proof. exact (fun Hm Hr => h_uniq sha _ _ (v_4 sha s (run_Inv sha nw qc s0 cur0 ls s cur Hr (mounted_Inv sha s0 cur0 Hm)))). Qed.

(** ** C06 *)
(** No block refers to an object that is scheduled for deletion, now or at any later time. *)
Theorem deleted_objects_are_unreferenced s0 cur0 ls s cur o ls' s' k :
  mounted sha s0 cur0 -> run s0 cur0 ls s cur -> scheduled s o -> steps s ls' s' -> blocks (sh s') !! k <> Some o.
Proof.
  exact (fun Hm Hr Hs Hst => let HI := run_Inv sha nw qc s0 cur0 ls s cur Hr (mounted_Inv sha s0 cur0 Hm) in
    gone_unreferenced sha s' o k (steps_Inv sha nw qc s ls' s' Hst HI) (gone_steps sha nw qc s ls' s' o Hst HI (scheduled_gone sha s o HI Hs))).
Qed.
(** Nothing else is ever deleted. *)
Theorem only_scheduled_objects_are_deleted s l s' o :
  step s l = Some s' -> store (sh s) !! o <> None -> store (sh s') !! o = None -> scheduled s o.
Proof. exact (only_scheduled_deleted sha nw qc s l s' o). Qed.

(** ** C07 *)
(** When nothing is going on, every object in the backend has a row, unless an upload stored its object and
    failed nevertheless. *)
Theorem no_orphaned_objects s0 cur0 ls s cur o :
  mounted sha s0 cur0 -> run s0 cur0 ls s cur -> (forall j, LFailed j true ∉ ls) -> quiescent s ->
  store (sh s) !! o <> None -> exists ob, objs (sh s) !! o = Some ob.
Proof.
  exact (fun Hm Hr Hf => leaks_quiescent s o (run_noleak sha nw qc s0 cur0 ls s cur Hr Hf (mounted_Inv sha s0 cur0 Hm) (mounted_noleak sha s0 cur0 Hm))).
Qed.

(** ** C08 *)
(** The recorded size is the total size of the cached blocks, whenever no block is open. *)
Theorem cache_size_is_exact s0 cur0 ls s cur :
  mounted sha s0 cur0 -> run s0 cur0 ls s cur -> (forall t k, in_use s t <> Some k) -> csize (sh s) = total_size (sh s).
Proof. exact (fun Hm Hr => size_in_use sha s (run_Inv sha nw qc s0 cur0 ls s cur Hr (mounted_Inv sha s0 cur0 Hm))). Qed.
(** When the eviction returns, the cache is within both limits. *)
Theorem eviction_enforces_limits s t d rest s' :
  step s (LRun t) = Some s' -> tasks s !! t = Some (FEvict d :: rest) -> tasks s' !! t = Some rest ->
  (csize (sh s) <= max_size (sh s))%Z /\ (Z.of_nat (entries (sh s)) <= max_entries (sh s))%Z.
Proof. exact (evict_returns sha nw qc s t d rest s'). Qed.

(** ** C09 *)
(** After flush(), a block that was not written during the call, and whose upload did not fail, is not
    modified any more. *)
Theorem flush_cleans s0 cur0 ls0 s cur t s1 ls s2 k :
  mounted sha s0 cur0 -> run s0 cur0 ls0 s cur -> step s (LCall t CFlush) = Some s1 -> steps s1 ls s2 -> no_call t ls ->
  ~ disturbed sha nw qc k s1 ls -> returned s2 t -> clean (sh s2) k.
Proof. exact (fun Hm Hr => flush_sweeps sha nw qc t k s s1 ls s2 (run_Inv sha nw qc s0 cur0 ls0 s cur Hr (mounted_Inv sha s0 cur0 Hm))). Qed.
(** Its row then gives its content; the object is stored, or being stored on behalf of another block. *)
Theorem flush_makes_durable s0 cur0 ls0 s cur t s1 ls s2 cur2 k :
  mounted sha s0 cur0 -> good_run s0 cur0 ls0 s cur -> step s (LCall t CFlush) = Some s1 -> good_run s1 cur ls s2 cur2 -> no_call t ls ->
  collision_free sha cur0 (ls0 ++ LCall t CFlush :: ls) -> ~ disturbed sha nw qc k s1 ls -> returned s2 t ->
  (blocks (sh s2) !! k = None /\ cur2 k = []) \/
  (exists o ob, blocks (sh s2) !! k = Some o /\ objs (sh s2) !! o = Some ob /\ o_hash ob = Some (sha (cur2 k)) /\
    (store (sh s2) !! o = Some (cur2 k) \/ o ∈ inflight (sh s2))).
Proof.
  exact (fun Hm Hr Hs Hr2 Hn Hf Hd Hret => clean_row sha nw qc s0 cur0 _ s2 cur2 k Hm Hf (good_call sha nw qc _ _ _ _ _ _ _ _ _ _ _ Hr Hs Hr2)
    (flush_sweeps sha nw qc t k s s1 ls s2 (run_Inv sha nw qc s0 cur0 ls0 s cur (good_is_run sha nw qc _ _ _ _ _ Hr) (mounted_Inv sha s0 cur0 Hm))
      Hs (run_is_steps sha nw qc _ _ _ _ _ (good_is_run sha nw qc _ _ _ _ _ Hr2)) Hn Hd Hret)).
Qed.
(** After start_flush(), the row of such a block gives its content, unless its hash is still being computed. *)
Theorem start_flush_registers s0 cur0 ls0 s cur t i s1 ls s2 cur2 k :
  mounted sha s0 cur0 -> good_run s0 cur0 ls0 s cur -> i = None \/ i = Some k.1 ->
  step s (LCall t (CStart i)) = Some s1 -> good_run s1 cur ls s2 cur2 -> no_call t ls ->
  collision_free sha cur0 (ls0 ++ LCall t (CStart i) :: ls) -> ~ disturbed sha nw qc k s1 ls -> returned s2 t ->
  registered sha (sh s2) cur2 k \/ (blocks (sh s2) !! k = None /\ cur2 k = []) \/ hashing s2 k.
Proof.
  exact (fun Hm Hr Hi Hs Hr2 Hn Hf Hd Hret => start_registers sha nw qc s0 cur0 _ s2 cur2 k Hm Hf (good_call sha nw qc _ _ _ _ _ _ _ _ _ _ _ Hr Hs Hr2)
    (start_sweeps sha nw qc t k i s s1 ls s2 (run_Inv sha nw qc s0 cur0 ls0 s cur (good_is_run sha nw qc _ _ _ _ _ Hr) (mounted_Inv sha s0 cur0 Hm))
      Hi Hs (run_is_steps sha nw qc _ _ _ _ _ (good_is_run sha nw qc _ _ _ _ _ Hr2)) Hn Hd Hret)).
Qed.
(** When drop() returns the cache is empty, and the limit is as before. *)
Theorem drop_empties_cache s0 cur0 ls s t l s' f rest :
  mounted sha s0 cur0 -> one_drop sha nw qc None s0 ls s (Some t) -> step s l = Some s' ->
  tasks s !! t = Some (f :: rest) -> returned s' t -> entries (sh s') = 0.
Proof. exact (drop_empties sha nw qc s0 cur0 ls s t l s' f rest). Qed.
Theorem drop_restores_limit s0 cur0 ls s d :
  mounted sha s0 cur0 -> one_drop sha nw qc None s0 ls s d -> d = None \/ (exists t, d = Some t /\ returned s t) ->
  max_entries (sh s) = max_entries (sh s0).
Proof. exact (drop_restores sha nw qc s0 cur0 ls s d). Qed.

(** ** C61 *)
(** As long as some call has not returned (or failed), somebody can go on. *)
Theorem block_cache_never_deadlocks s0 cur0 ls s cur t : 0 < nw -> 0 < qc ->
  mounted sha s0 cur0 -> run s0 cur0 ls s cur -> unfinished s t -> exists l s', progress l /\ step s l = Some s'.
Proof. exact (fun Hw Hq Hm Hr => no_deadlock sha nw qc Hw Hq s t (run_Inv sha nw qc s0 cur0 ls s cur Hr (mounted_Inv sha s0 cur0 Hm))). Qed.
End props.

(** ** Examples *)
Ltac computed := vm_compute; reflexivity.
Ltac all_ok := repeat (constructor; [simpl; done|]); constructor.
Example demo_good : good_run hid 1 1 (empty_fs 100 5) (fun _ => []) demo_end (GS 5 demo_end) (GC 5 demo_end).
Proof. apply go_good; [apply go_some; computed|all_ok]. Qed.
Example demo_reads_back : view (GS 5 demo_read) 1 = Some (K1, [8; 9]) /\ GC 5 demo_read K1 = [8; 9] /\
  run hid 1 1 (empty_fs 100 5) (fun _ => []) demo_read (GS 5 demo_read) (GC 5 demo_read).
Proof. split; [computed|]. split; [computed|]. apply go_run; [apply go_some; computed|all_ok]. Qed.
Example demo_get_call : step hid 1 1 (GS 5 demo_dropped) (LCall 1 (CGet K1 None)) = Some (GS 5 (demo_dropped ++ [LCall 1 (CGet K1 None)])) /\
  steps hid 1 1 (GS 5 (demo_dropped ++ [LCall 1 (CGet K1 None)])) (runs 1 7) (GS 5 ((demo_dropped ++ [LCall 1 (CGet K1 None)]) ++ runs 1 7)) /\
  no_call 1 (runs 1 7).
Proof. split; [apply step_next; computed|]. split; [apply steps_next; computed|]. apply nocall_list. all_ok. Qed.
(** Both references of a shared object are counted; the object that is not used any more is deleted. *)
Example demo_references : quiescent (GS 5 demo_end) /\
  o_ref <$> objs (sh (GS 5 demo_end)) !! 0 = Some 2 /\ references (sh (GS 5 demo_end)) 0 = 2 /\
  store (sh (GS 5 demo_end)) !! 0 = Some [7] /\ store (sh (GS 5 demo_end)) !! 1 = None /\
  csize (sh (GS 5 demo_end)) = 1%Z /\ total_size (sh (GS 5 demo_end)) = 1%Z.
Proof. split; [|repeat (split; [computed|]); computed]. apply quietb_ok. computed. Qed.
Example demo_scheduled : scheduled (GS 5 demo_started) 1 /\ store (sh (GS 5 demo_started)) !! 1 <> None /\
  steps hid 1 1 (GS 5 demo_started) [LBatch; LDeleted] (GS 5 demo_end) /\ store (sh (GS 5 demo_end)) !! 1 = None.
Proof.
  split; [left; assert (rmq (sh (GS 5 demo_started)) = [1]) as -> by computed; by left|]. split; [by vm_compute|]. split; [|computed].
  apply steps_next. computed.
Qed.
Definition demo_evict : list label := demo_flushed ++ LCall 1 (CGet (2, 0) None) :: runs 1 9.
Example demo_eviction : step hid 1 1 (GS 1 demo_evict) (LRun 1) = Some (GS 1 (demo_evict ++ [LRun 1])) /\
  tasks (GS 1 demo_evict) !! 1 = Some [FEvict None; FGetAcq (2, 0)] /\ tasks (GS 1 (demo_evict ++ [LRun 1])) !! 1 = Some [FGetAcq (2, 0)] /\
  entries (sh (GS 1 demo_flushed)) = 2 /\ entries (sh (GS 1 demo_evict)) = 1.
Proof. split; [apply step_next; computed|]. repeat (split; [computed|]); computed. Qed.
Example demo_flush_call : good_run hid 1 1 (empty_fs 100 5) (fun _ => []) demo_write (GS 5 demo_write) (GC 5 demo_write) /\
  step hid 1 1 (GS 5 demo_write) (LCall 3 CFlush) = Some (GS 5 (demo_write ++ [LCall 3 CFlush])) /\
  good_run hid 1 1 (GS 5 (demo_write ++ [LCall 3 CFlush])) (GC 5 demo_write) demo_flush (GS 5 demo_flushed) (GC 5 demo_flushed) /\
  no_call 3 demo_flush /\ ~ disturbed hid 1 1 K1 (GS 5 (demo_write ++ [LCall 3 CFlush])) demo_flush /\ returned (GS 5 demo_flushed) 3 /\
  ~ clean (sh (GS 5 demo_write)) K1 /\ store (sh (GS 5 demo_flushed)) !! 1 = Some [8; 9].
Proof.
  split; [apply go_good; [apply go_some; computed|all_ok]|]. split; [apply step_next; computed|].
  split; [apply good_next; [computed|all_ok]|]. split; [apply nocall_list; all_ok|].
  split; [apply quiet_undisturbed; all_ok|]. split; [computed|]. split; [by vm_compute|computed].
Qed.
Example demo_start_call : good_run hid 1 1 (empty_fs 100 5) (fun _ => []) demo_start (GS 5 demo_start) (GC 5 demo_start) /\
  step hid 1 1 (GS 5 demo_start) (LCall 2 (CStart None)) = Some (GS 5 (demo_start ++ [LCall 2 (CStart None)])) /\
  good_run hid 1 1 (GS 5 (demo_start ++ [LCall 2 (CStart None)])) (GC 5 demo_start) (runs 2 11) (GS 5 demo_started) (GC 5 demo_started) /\
  no_call 2 (runs 2 11) /\ ~ disturbed hid 1 1 K1 (GS 5 (demo_start ++ [LCall 2 (CStart None)])) (runs 2 11) /\ returned (GS 5 demo_started) 2 /\
  blocks (sh (GS 5 demo_start)) !! K1 = Some 1 /\ blocks (sh (GS 5 demo_started)) !! K1 = Some 0.
Proof.
  split; [apply go_good; [apply go_some; computed|all_ok]|]. split; [apply step_next; computed|].
  split; [apply good_next; [computed|all_ok]|]. split; [apply nocall_list; all_ok|].
  split; [apply quiet_undisturbed; all_ok|]. split; [computed|]. split; computed.
Qed.
Definition demo_dropping : list label := demo_flushed ++ LCall 4 CDrop :: runs 4 13.
Example demo_drop_call : one_drop hid 1 1 None (empty_fs 100 5) demo_dropping (GS 5 demo_dropping) (Some 4) /\
  step hid 1 1 (GS 5 demo_dropping) (LRun 4) = Some (GS 5 (demo_dropping ++ [LRun 4])) /\
  tasks (GS 5 demo_dropping) !! 4 = Some [FEvict (Some 5%Z)] /\ returned (GS 5 (demo_dropping ++ [LRun 4])) 4 /\
  entries (sh (GS 5 demo_flushed)) = 2 /\ entries (sh (GS 5 (demo_dropping ++ [LRun 4]))) = 0 /\
  max_entries (sh (GS 5 demo_dropping)) = 0%Z /\ max_entries (sh (GS 5 (demo_dropping ++ [LRun 4]))) = 5%Z.
Proof.
  split; [|split; [apply step_next; computed|repeat (split; [computed|]); computed]]. eapply one_drop_app.
  - eapply steps_one_drop with (s' := GS 5 demo_flushed); [|all_ok]. eapply go_steps, go_some. computed.
  - eapply one_call with (s1 := GS 5 (demo_flushed ++ [LCall 4 CDrop])); [apply step_next; computed|].
    eapply steps_one_drop; [|all_ok]. unfold demo_dropping. rewrite (cons_middle _ demo_flushed (runs 4 13)), app_assoc. apply steps_next. computed.
Qed.
(** A task waits for the only upload task: there is an upload that can finish. *)
Definition demo_wait : list label := demo_write ++ LCall 3 (CStart None) :: runs 3 12.
Example demo_no_deadlock : unfinished (GS 5 demo_wait) 3 /\ step hid 1 1 (GS 5 demo_wait) (LRun 3) = None /\
  run hid 1 1 (empty_fs 100 5) (fun _ => []) demo_wait (GS 5 demo_wait) (GC 5 demo_wait).
Proof.
  split; [eexists _, _; split; [computed|done]|]. split; [computed|]. apply go_run; [apply go_some; computed|all_ok].
Qed.
Example demo_upload_fails : jobs (sh (GS 1 demo_fail)) !! 0 = Some (JUp (K0, 0) 0) /\
  step hid 1 1 (GS 1 demo_fail) (LFailed 0 false) = Some (GS 1 (demo_fail ++ [LFailed 0 false])) /\
  run hid 1 1 (empty_fs 100 1) (fun _ => []) demo_fail (GS 1 demo_fail) (GC 1 demo_fail).
Proof.
  split; [computed|]. split; [apply step_next; computed|]. apply go_run; [apply go_some; computed|all_ok].
Qed.

(** ** What does not hold *)
(** An upload fails after another block has been deduplicated against its object: that block is lost
    (block_cache.py:509-531 marks it as clean although the object is not stored yet). *)
Theorem deduplicated_block_lost_refuted : exists s0 cur0 ls s cur k t,
  mounted hid s0 cur0 /\ collision_free hid cur0 ls /\ run hid 1 1 s0 cur0 ls s cur /\
  cur k = [7] /\ ~ recoverable hid (sh s) cur k /\ failed s t.
Proof.
  exists (empty_fs 100 1), (fun _ => []), lost, (GS 1 lost), (GC 1 lost), K1, 4.
  split; [apply empty_mounted|]. split; [apply hid_free|]. split; [apply go_run; [apply go_some; computed|all_ok]|]. split; [computed|]. split.
  - eapply unrecoverable; computed.
  - exists [FError]. split; [computed|]. apply elem_of_list_here.
Qed.
(** An upload that stores its object and fails nevertheless leaves an object without a row. *)
Theorem failed_upload_leaks_refuted : exists s0 cur0 ls s cur o,
  mounted hid s0 cur0 /\ run hid 1 1 s0 cur0 ls s cur /\ quiescent s /\ store (sh s) !! o <> None /\ objs (sh s) !! o = None.
Proof.
  exists (empty_fs 100 1), (fun _ => []), leak, (GS 1 leak), (GC 1 leak), 0.
  split; [apply empty_mounted|]. split; [apply go_run; [apply go_some; computed|all_ok]|]. split; [|split; [by vm_compute|computed]].
  apply quietb_ok. computed.
Qed.
(** start_flush() returns although the block has no row yet, as another task is computing its hash. *)
Theorem start_flush_unregistered_refuted : exists s0 cur0 ls s cur k t,
  mounted hid s0 cur0 /\ collision_free hid cur0 ls /\ good_run hid 1 1 s0 cur0 ls s cur /\
  (exists pre suf, ls = pre ++ LCall t (CStart (Some k.1)) :: suf /\ Forall quiet suf) /\ returned s t /\
  cur k = [7] /\ blocks (sh s) !! k = None.
Proof.
  exists (empty_fs 100 1), (fun _ => []), early, (GS 1 early), (GC 1 early), K0, 4.
  split; [apply empty_mounted|]. split; [apply hid_free|]. split; [apply go_good; [apply go_some; computed|all_ok]|].
  split; [|split; [computed|]; split; computed]. exists early_pre, (runs 4 4). split; [done|all_ok].
Qed.
(** flush() returns although the object with the content of the block is not stored yet. *)
Theorem flush_not_stored_refuted : exists s0 cur0 ls s cur k t o,
  mounted hid s0 cur0 /\ collision_free hid cur0 ls /\ good_run hid 1 1 s0 cur0 ls s cur /\
  (exists pre suf s1, ls = pre ++ LCall t CFlush :: suf /\ steps hid 1 1 s0 (pre ++ [LCall t CFlush]) s1 /\ ~ disturbed hid 1 1 k s1 suf) /\ returned s t /\
  blocks (sh s) !! k = Some o /\ store (sh s) !! o = None.
Proof.
  exists (empty_fs 100 5), (fun _ => []), pending, (GS 5 pending), (GC 5 pending), K1, 3, 0.
  split; [apply empty_mounted|]. split; [apply hid_free|]. split; [apply go_good; [apply go_some; computed|all_ok]|].
  split; [|split; [computed|]; split; computed]. exists pending_pre, pending_suf, (GS 5 (pending_pre ++ [LCall 3 CFlush])).
  split; [done|]. split; [eapply go_steps, go_some; computed|]. apply disturbedb_ok. computed.
Qed.
(** Two concurrent drop() calls leave the cache with a limit of zero entries. *)
Theorem concurrent_drop_refuted : exists s0 cur0 ls s cur,
  mounted hid s0 cur0 /\ good_run hid 1 1 s0 cur0 ls s cur /\ quiescent s /\ max_entries (sh s0) = 5%Z /\ max_entries (sh s) = 0%Z.
Proof.
  exists (empty_fs 100 5), (fun _ => []), two_drops, (GS 5 two_drops), (GC 5 two_drops).
  split; [apply empty_mounted|]. split; [apply go_good; [apply go_some; computed|all_ok]|]. split; [|split; computed].
  apply quietb_ok. computed.
Qed.

Print Assumptions open_block_is_current.
Print Assumptions get_opens_the_block.
Print Assumptions get_never_fails.
Print Assumptions no_block_is_lost.
Print Assumptions failed_upload_keeps_block.
Print Assumptions reference_counts_are_exact.
Print Assumptions hashes_are_unique.
Print Assumptions deleted_objects_are_unreferenced.
Print Assumptions only_scheduled_objects_are_deleted.
Print Assumptions no_orphaned_objects.
Print Assumptions cache_size_is_exact.
Print Assumptions eviction_enforces_limits.
Print Assumptions flush_cleans.
Print Assumptions flush_makes_durable.
Print Assumptions start_flush_registers.
Print Assumptions drop_empties_cache.
Print Assumptions drop_restores_limit.
Print Assumptions block_cache_never_deadlocks.
