(** Properties of the per-block lock (C10). *)
From stdpp Require Import prelude list gmap.
From Verif Require Import MultiLockModel MultiLockSpec MultiLockProofs.

(** Whatever tasks do (including being cancelled), a key is never held twice. *)
Theorem locks_exclude_each_other (es : list event) :
  mutual_exclusion (run init es).2 /\ no_spurious_release (run init es).2.
Proof.
  pose proof (traced_run [] init es traced_init) as (H1 & H2 & _). simpl in *. exact (conj H1 H2).
Qed.

(** The key a task waits for is acquired (by it or by somebody else) once the inner lock was passed on
    often enough, unless the key is held already: no wake-up is lost. *)
Theorem free_keys_are_acquired (es es' : list event) (t k : nat) (w : bool) :
  let s := (run init es).1 in
  pcs s !! t = Some (PAcq k w) -> ~ held_after (run init es).2 k ->
  Cancel t ∉ es' -> length (lq s) < runs es' ->
  exists t', Acquired t' k ∈ (run s es').2.
Proof.
  intros s Hpc Hh Hc Hr.
  pose proof (run_wf init es init_wf) as Hwf.
  pose proof (traced_run [] init es traced_init) as (_ & _ & Hk).
  assert (k ∉ keys s) as Hnk. { intros Hin. apply Hh. exact (proj1 (Hk k) Hin). }
  exact (progress_run es' s t k w _ Hwf Hpc Hnk (waiting_ahead s t k w Hwf Hpc Hnk) Hc Hr).
Qed.

(** When nothing is left to run, everybody who is inside an operation waits for a key that somebody
    holds: different keys never block each other. *)
Theorem only_held_keys_block (es : list event) (t : nat) (p : pc) :
  let s := (run init es).1 in
  owner s = None -> pcs s !! t = Some p ->
  exists k, p = PAcq k true /\ held_after (run init es).2 k.
Proof.
  intros s Ho Hp.
  pose proof (run_wf init es init_wf) as [H1 H2 H3 H4].
  pose proof (traced_run [] init es traced_init) as (_ & _ & Hk).
  assert (t ∈ queue s) as Hq by (apply H2; by exists p).
  apply queue_elim in Hq as [Hq|[Hq|Hq]].
  - congruence.
  - fold s in H3. rewrite (H3 Ho) in Hq. by apply elem_of_nil in Hq.
  - destruct (H4 t Hq) as (k & Hpk & Hkk). fold s in Hpk. exists k. split; [congruence|].
    exact (proj1 (Hk k) Hkk).
Qed.

(** A release that is cancelled before it gets the inner lock does not happen: the key stays locked and
    everybody who wants it waits forever (multi_lock.py:44-50 releases in [finally] without a shield). *)
Theorem cancelled_release_refuted :
  exists (es : list event) (t1 t2 k : nat),
    StartRelease t1 k false ∈ es /\
    let s := (run init es).1 in
    owner s = None /\ pcs s !! t1 = None /\ pcs s !! t2 = Some (PAcq k true) /\
    forall n, run s (replicate n Run) = (s, []).
Proof.
  exists [StartAcquire 1 7; Run; StartAcquire 2 8; StartRelease 1 7 false; Cancel 1; Run;
          StartAcquire 3 7; Run], 1, 3, 7.
  split; [by repeat (first [left|right])|].
  split; [done|]. split; [done|]. split; [done|].
  intros n. apply idle_run. reflexivity.
Qed.

(** Two tasks compete for block 5, a third one uses block 6 meanwhile. *)
Example contended_run :
  (run init [StartAcquire 1 5; StartAcquire 2 5; StartAcquire 3 6; Run; Run; Run;
             StartRelease 1 5 false; Run; Run]).2
  = [Acquired 1 5; Acquired 3 6; Released 1 5; Acquired 2 5].
Proof. reflexivity. Qed.

(** The hypotheses of [free_keys_are_acquired]: task 2 waited for key 5, which was released. *)
Example free_keys_example :
  let es := [StartAcquire 1 5; StartAcquire 2 5; Run; Run; StartRelease 1 5 false; Run] in
  let s := (run init es).1 in
  pcs s !! 2 = Some (PAcq 5 true) /\ ~ held_after (run init es).2 5 /\ length (lq s) < runs [Run].
Proof.
  cbn zeta. split; [reflexivity|]. split; [|vm_compute; lia].
  change (run init _).2 with [Acquired 1 5; Released 1 5].
  intros (a & t & b & Heq & Hb). destruct a as [|o a].
  - assert (b = [Released 1 5]) as -> by (simpl in Heq; congruence). apply (Hb 1). by left.
  - destruct a as [|o' a]; [discriminate Heq|]. apply (f_equal length) in Heq. simpl in Heq.
    rewrite app_length in Heq. simpl in Heq. lia.
Qed.

(** The hypotheses of [only_held_keys_block]. *)
Example only_held_keys_example :
  let es := [StartAcquire 1 5; Run; StartAcquire 2 5; Run] in
  owner (run init es).1 = None /\ pcs (run init es).1 !! 2 = Some (PAcq 5 true).
Proof. split; reflexivity. Qed.

Print Assumptions locks_exclude_each_other.
Print Assumptions free_keys_are_acquired.
Print Assumptions only_held_keys_block.
Print Assumptions cancelled_release_refuted.
