(** Properties of mounting, unmounting, file system checks and metadata restoration. *)
From stdpp Require Import prelude.
From Verif Require Import MountModel MountSpec MountProofs.

(** C27: whenever a mount proceeds on any machine, after any sequence of mounts, modifications, metadata
    uploads, unmounts, checks (also of outdated metadata, on request), restorations and crashes at arbitrary
    moments, its database has the current content of the file system. *)
Theorem mount_uses_current_metadata {D} (repair : D -> D) s0 t0 ls s t m :
  created s0 t0 -> run repair (careful false) s0 t0 ls s t -> mounting s m -> ldb s m = t.
Proof. intros Hc Hr Hm. exact (proj1 (mount_current repair false s0 t0 ls s t m Hc Hr Hm)). Qed.
(** ... and the blocks in its cache belong to that content. *)
Theorem mount_uses_current_cache {D} (repair : D -> D) s0 t0 ls s t m :
  created s0 t0 -> run repair (careful true) s0 t0 ls s t -> mounting s m -> cache s m = None \/ cache s m = Some t.
Proof. intros Hc Hr Hm. exact (proj2 (mount_current repair true s0 t0 ls s t m Hc Hr Hm) eq_refl). Qed.
(** A file system that is marked clean can be mounted, on every machine. *)
Theorem clean_mount_succeeds {D} (repair : D -> D) strict s0 t0 ls s t m :
  created s0 t0 -> run repair (careful strict) s0 t0 ls s t ->
  act s = None -> (forall m', ~ ahead s m') -> mounted (rp s) = false -> needs_fsck (rp s) = false ->
  exists gos s2, Forall (fun l => exists d i, l = LGo d i) gos /\
    run repair (careful strict) s t (LMount m :: gos) s2 t /\ running s2 m /\ ldb s2 m = t.
Proof. intros Hc Hr. exact (mount_succeeds repair strict s t m (run_inv repair strict _ _ _ _ _ Hr (created_inv strict _ _ Hc))). Qed.

(** C28: after a crash at any moment but the last one, fsck without options and then mount work on the same
    machine, and no modification that has reached the local database is lost. *)
Theorem crash_is_repairable {D} (repair : D -> D) strict s0 t0 ls s t m d s1 recent :
  created s0 t0 -> run repair (careful strict) s0 t0 ls s t ->
  busy s m -> ~ last_moment s -> step repair s (LCrash d) = Some s1 ->
  exists ls2 s2, procedure m recent ls2 /\ run repair (careful strict) s1 t ls2 s2 (repair t) /\ running s2 m /\ ldb s2 m = repair t.
Proof. exact (recovery repair strict s0 t0 ls s t m d s1 recent). Qed.

(** After an unmount that reports errors, no machine can mount the file system before it is checked. *)
Theorem errors_require_check {D} (repair : D -> D) rules s t s1 gos s2 t2 m :
  step repair s (LUnmount true) = Some s1 -> Forall (fun l => exists d i, l = LGo d i) gos ->
  run repair rules s1 t gos s2 t2 -> act s2 = None ->
  step repair s2 (LMount m) = None /\ forall l s3, step repair s2 l = Some s3 ->
    (exists m' force recent remote, l = LFsck m' force recent remote) \/ exists m' q n, l = LRestore m' q n.
Proof. exact (unmount_with_errors repair rules s t s1 gos s2 t2 m). Qed.

(** * A concrete file system: its content is a number, checks do not modify anything. *)
Definition fix_ (d : nat) := d.
Definition fs0 : state nat :=
  State (Par 0 false false 0) (upd (fun _ => None) 0 (Some 10)) (upd (fun _ => None) 0 (Some (Par 0 false false 0)))
    (fun _ => 10) (fun _ => None) None.
Example fs0_created : created fs0 10.
Proof.
  split; try done. intros m p. cbn. unfold upd. destruct (m =? 0)%nat; [|done]. intros [= <-]. right. auto.
Qed.
Notation g := (LGo 0 0).
Ltac rule := unfold careful, one_machine, restore_completes, empty_cache; lazymatch goal with
  | |- _ /\ _ => split; rule
  | |- True => exact I
  | |- ~ restoring_over _ => let Ha := fresh in intros (? & ? & ? & ? & Ha & (? & ? & [-> | ->]) & _); vm_compute in Ha; congruence
  | |- forall m', m' <> ?m -> ~ ahead _ _ => let Hp := fresh in let Hlt := fresh in let m' := fresh in intros m' ? (? & Hp & Hlt);
     destruct m' as [|[|m']]; vm_compute in Hp; simplify_eq; cbn in Hlt; first [lia|done]
  | |- true = true -> _ => intros _; rule
  | |- _ = None => reflexivity
  end.
Ltac play := repeat (eapply run_cons; [vm_compute; reflexivity|solve [rule]|]); apply run_nil.

(** Machine 0 works and unmounts, machine 1 crashes, is checked and works, machine 0 mounts again. *)
Example two_machines : exists s, run fix_ (careful true) fs0 10
    ([LMount 0; g; g; LChange 20; LUpload; g; LChange 21; g; g; g; g; LUnmount false; g; g; g] ++
     [LMount 1; g; g; g; LChange 22; LUpload; g; g; LCrash 0] ++ [LFsck 1 false true false; g; g; g; g; g; g] ++
     [LMount 0; g]) s 22 /\ mounting s 0 /\ ldb s 0 = 22.
Proof. eexists. split; [cbn; play|]. split; [by eexists|reflexivity]. Qed.
Example unmount_errors : exists s1 s2, run fix_ (careful true) fs0 10 [LMount 0; g; g; LChange 20] s1 20 /\
  exists s1', step fix_ s1 (LUnmount true) = Some s1' /\ run fix_ (careful true) s1' 20 [g; g; g] s2 20 /\ act s2 = None.
Proof. eexists _, _. split; [cbn; play|]. eexists. split; [reflexivity|]. split; [cbn; play|]. reflexivity. Qed.
(** The state before the crash: machine 1 is busy, and machine 0 cannot mount. *)
Example crashing : exists s, run fix_ (careful true) fs0 10
    ([LMount 0; g; g; LChange 20; LUnmount false; g; g; g] ++ [LMount 1; g; g; g; LChange 22; LUpload; g; g]) s 22 /\
  busy s 1 /\ ~ last_moment s /\ exists s1, step fix_ s (LCrash 0) = Some s1 /\ step fix_ s1 (LMount 0) = None.
Proof.
  eexists. split; [cbn; play|]. split; [by eexists _, _|]. split.
  - intros (? & ? & ? & Ha & [-> | ->]); vm_compute in Ha; congruence.
  - eexists. split; [vm_compute; reflexivity|reflexivity].
Qed.

(** * Where the code does not satisfy the properties *)

(** Machine 0 crashes while mounting, after writing its local parameters and before storing them in the
    backend.  Machine 1 does not notice, works and unmounts.  fsck on machine 0 takes its own outdated
    database for the most recent one: the work done on machine 1 is lost. *)
Theorem split_brain_refuted : exists ls s, run fix_ (fun s l => restore_completes s l /\ empty_cache s l) fs0 10 ls s 20 /\
  mounting s 0 /\ ldb s 0 = 10.
Proof.
  exists ([LMount 0; g; LCrash 0] ++ [LMount 1; g; g; g; LChange 20; LUnmount false; g; g; g] ++
     [LFsck 0 false true false; g; g; g; g; g; g] ++ [LMount 0]).
  eexists. split; [cbn; play|]. split; [by eexists|reflexivity].
Qed.
(** restore-metadata is interrupted after the download: the next mount silently uses the old backup. *)
Theorem interrupted_restore_refuted : exists ls s, run fix_ (fun s l => one_machine s l /\ empty_cache s l) fs0 10 ls s 20 /\
  mounting s 0 /\ ldb s 0 = 10.
Proof.
  exists ([LMount 1; g; g; g; LChange 20; LUnmount false; g; g; g] ++ [LMount 0; g; g; g; LUnmount false; g; g; g] ++
    [LRestore 0 (Par 0 false false 0) 9; g; LCrash 0] ++ [LMount 0]).
  eexists. split; [cbn; play|]. split; [by eexists|reflexivity].
Qed.
(** restore-metadata does not empty the cache: after the check, the next mount uses the old cached blocks. *)
Theorem restored_cache_refuted : exists ls s, run fix_ (fun s l => one_machine s l /\ restore_completes s l) fs0 10 ls s 10 /\
  mounting s 0 /\ ldb s 0 = 10 /\ cache s 0 = Some 20.
Proof.
  exists ([LMount 0; g; g; LChange 20; LUnmount false; g; g; g] ++
    [LRestore 0 (Par 0 false false 0) 9; g; g] ++ [LFsck 0 false true false; g; g; g; g; g; g] ++ [LMount 0]).
  eexists. split; [cbn; play|]. split; [by eexists|]. by split.
Qed.
(** A crash at the last moment of an unmount, after the local parameters have been written: fsck considers
    the file system clean and does nothing, but mount refuses to work, on every machine. *)
Theorem crash_at_unmount_refuted : exists ls s, run fix_ (careful true) fs0 10 ls s 20 /\ act s = None /\
  step fix_ s (LFsck 0 false true false) = Some s /\ (forall m, step fix_ s (LMount m) = None).
Proof.
  exists ([LMount 0; g; g; LChange 20; LUnmount false; g; g; LCrash 0]).
  eexists. split; [cbn; play|]. split; [reflexivity|]. split; [reflexivity|].
  intros m. destruct m; reflexivity.
Qed.

Print Assumptions mount_uses_current_metadata.
Print Assumptions mount_uses_current_cache.
Print Assumptions clean_mount_succeeds.
Print Assumptions crash_is_repairable.
Print Assumptions errors_require_check.
