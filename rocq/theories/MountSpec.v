(** Specification of who works with which metadata. *)
From stdpp Require Import prelude.
From Verif Require Import MountModel.

Section spec.
Context {D : Type} (repair : D -> D).
Notation state := (state D).
Notation label := (label D).

(** The content of the file system, as its users know it: it changes when somebody modifies it, when a
    file system check repairs it, and when somebody decides to go on with a backup or with outdated metadata. *)
Definition truth_after (s : state) (l : label) (t : D) : D :=
  match l, act s with
  | LChange d, Some _ => d
  | LGo _ _, Some (_, F2, _) => repair t
  | LGo _ _, Some (m, FReady true, _) => ldb s m
  | LGo _ _, Some (_, R1 d _, _) => d
  | _, _ => t
  end.

(** A machine that has a higher sequence number than the backend. *)
Definition ahead (s : state) (m : nat) : Prop := exists p, lp s m = Some p /\ seq (rp s) < seq p.
(** A restore-metadata command is in progress, on a machine whose parameters are not outdated. *)
Definition restoring_over (s : state) : Prop :=
  exists m c p q, act s = Some (m, c, q) /\ (exists d n, c = R0 d n \/ c = R1 d n) /\ lp s m = Some p /\ seq (rp s) <= seq p.

(** What users must observe.  (1) As long as a machine is ahead of the backend (after a crash between writing
    the local and the remote parameters, or after restore-metadata), no other machine is used. *)
Definition one_machine (s : state) (l : label) : Prop :=
  match l with LMount m | LFsck m _ _ _ | LRestore m _ _ => forall m', m' <> m -> ~ ahead s m' | _ => True end.
(** (2) restore-metadata is not interrupted. *)
Definition restore_completes (s : state) (l : label) : Prop := match l with LCrash _ => ~ restoring_over s | _ => True end.
(** (3) The cache is empty when restore-metadata is used. *)
Definition empty_cache (s : state) (l : label) : Prop := match l with LRestore m _ _ => cache s m = None | _ => True end.

Definition careful (strict : bool) (s : state) (l : label) : Prop :=
  one_machine s l /\ restore_completes s l /\ (strict = true -> empty_cache s l).
Inductive run (rules : state -> label -> Prop) : state -> D -> list label -> state -> D -> Prop :=
| run_nil s t : run rules s t [] s t
| run_cons s t l s1 ls s2 t2 : step repair s l = Some s1 -> rules s l ->
    run rules s1 (truth_after s l t) ls s2 t2 -> run rules s t (l :: ls) s2 t2.

(** After mkfs.s3ql on machine [m] (or any clean unmount): the backend and at most that machine have metadata. *)
Record created (s : state) (t : D) : Prop := {
  c_act : act s = None;
  c_clean : mounted (rp s) = false;
  c_snap : snap s (seq (rp s)) = Some t;
  c_local : forall m p, lp s m = Some p -> seq p < seq (rp s) \/ (p = rp s /\ ldb s m = t /\ (cache s m = None \/ cache s m = Some t))
}.
(** The mount of machine [m] proceeds. *)
Definition mounting (s : state) (m : nat) : Prop := exists p, act s = Some (m, MReady, p).
Definition running (s : state) (m : nat) : Prop := exists p, act s = Some (m, Running, p).
(** Machine [m] has started an operation that changes the sequence number, and not finished it. *)
Definition busy (s : state) (m : nat) : Prop :=
  exists c p, act s = Some (m, c, p) /\
    match c with MWrote | Running | U1 | U2 | U3 | U4 | U5 | V1 | V2 | V3 | F1 | F2 | F3 | F4 | F5 => True | _ => False end.
(** ... and has already recorded locally that it has ended, but not in the backend. *)
Definition last_moment (s : state) : Prop := exists m c p, act s = Some (m, c, p) /\ (c = V3 \/ c = F5).

(** The advertised procedure: fsck without options, then mount, both on machine [m]. *)
Inductive procedure (m : nat) (recent : bool) : list label -> Prop :=
| proc fsck mount : Forall (fun l => exists d i, l = LGo d i) fsck -> Forall (fun l => exists d i, l = LGo d i) mount ->
    procedure m recent (LFsck m false recent false :: fsck ++ LMount m :: mount).
End spec.
