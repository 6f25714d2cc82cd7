(** Upgrading a file system (C64). *)
From stdpp Require Import prelude gmap.
From Coq.Strings Require Import Byte.
From Coq Require Import String.
From Verif Require Import Bytes ComprencModel SetupModel UpgradeModel.
Local Close Scope string_scope.
Local Close Scope N_scope.
Local Open Scope nat_scope.
Local Open Scope list_scope.

Section props.
Context {D : Type}.
Notation state := (state D).

(** Specification. A file system of the previous revision that was cleanly unmounted on this computer: *)
Definition old_fs (q : nat) (d : D) (s : state) : Prop :=
  l_params s = Some (Par (CURRENT_FS_REV - 1) q false false) /\ l_db s = Some d /\
  (exists p, r_old s = Some (p, d) /\ seq_no p = q) /\ (forall p, r_params s = Some p -> False).
(** A file system of this revision holds the database [d]: on this computer, and on any other one without (or with an older) copy. *)
Definition new_fs (d : D) (s : state) : Prop :=
  exists p, get_metadata s = Use p d /\ rev p = CURRENT_FS_REV /\
    get_metadata (State None None (r_old s) (r_params s) (r_db s)) = Use p d /\
    forall l d', seq_no l < seq_no p -> get_metadata (State (Some l) (Some d') (r_old s) (r_params s) (r_db s)) = Use p d.

Lemma old_check q d s : old_fs q d s -> upgrade_check s = None.
Proof.
  intros (Hl & Hd & (p & Ho & Hq) & Hr). unfold upgrade_check. rewrite Hl, Hd, Ho. cbn [rev seq_no needs_fsck]. rewrite Hq.
  rewrite decide_False by lia. rewrite decide_False by (intros [?|?]; [lia|done]). rewrite decide_False by lia. rewrite decide_False by (unfold CURRENT_FS_REV; lia). done.
Qed.
Notation lp q := (Par (CURRENT_FS_REV - 1) q false false).
Lemma old_upgrade q d s n : old_fs q d s -> upgrade true n s = (foldl (act (lp q) d) s (take n actions), Done).
Proof. intros H. unfold upgrade. rewrite (old_check q d s H). destruct H as (Hl & Hd & _). by rewrite Hl, Hd. Qed.

Lemma new_fs_intro (p : par) (d : D) (s : state) : l_params s = Some p -> l_db s = Some d -> r_params s = Some p -> r_db s !! seq_no p = Some d ->
  rev p = CURRENT_FS_REV -> is_mounted p = false -> needs_fsck p = false -> new_fs d s.
Proof.
  intros Hl Hd Hr Hb Hp Hm Hf. exists p. unfold get_metadata, read_remote. cbn [l_params l_db r_params r_db]. rewrite Hl, Hd, Hr. rewrite decide_True by done. rewrite Hm, Hf, Hb.
  split_and!; try done.
  - rewrite decide_False by lia. rewrite decide_False by tauto. rewrite decide_False by lia. by rewrite decide_False by tauto.
  - intros l' d' Hl'. by rewrite decide_True by done.
Qed.
(** C64. The completed upgrade: the file system can be used with the same database, here and elsewhere. *)
Theorem upgrade_complete q d s : old_fs q d s -> exists s', upgrade true 4 s = (s', Done) /\ new_fs d s' /\ l_db s' = Some d /\ upgrade_check s' = Some Recent.
Proof.
  intros H. rewrite (old_upgrade q d s 4 H). eexists. split; [done|]. destruct s as [l db o r rd]. destruct H as (Hl & Hd & (p & Ho & Hq) & Hr). cbn in Hl, Hd, Ho. subst.
  split_and!; [|done|].
  - apply (new_fs_intro (new_par (lp (seq_no p)))); try done. apply lookup_insert.
  - unfold upgrade_check. cbn [actions take foldl act l_params l_db r_old r_params r_db]. cbn [rev seq_no needs_fsck new_par].
    rewrite decide_False by lia. rewrite decide_False by (intros [?|?]; [lia|done]). rewrite decide_False by (unfold CURRENT_FS_REV; lia). by rewrite decide_True by lia.
Qed.
(** Interrupted after any number of changes: the local database is as before, and as long as the new parameters are not stored, so is the
    old object; after that, the new file system can be used with the same database. *)
Theorem upgrade_crash q d s n : old_fs q d s -> exists s', upgrade true n s = (s', Done) /\ l_db s' = Some d /\
  (n < 3 -> r_old s' = r_old s /\ r_params s' = None) /\ (3 <= n -> new_fs d s').
Proof.
  intros H. rewrite (old_upgrade q d s n H). eexists. split; [done|]. destruct s as [l db o r rd]. destruct H as (Hl & Hd & (p & Ho & Hq) & Hr). cbn in Hl, Hd, Ho, Hr. subst.
  destruct r as [r|]; [by destruct (Hr r)|].
  assert (n = 0 \/ n = 1 \/ n = 2 \/ n = 3 \/ 4 <= n) as [->|[->|[->|[->|Hn]]]] by lia; try (split_and!; [done|done|lia]).
  - split_and!; [done|lia|]. intros _. apply (new_fs_intro (new_par (lp (seq_no p)))); try done. apply lookup_insert.
  - rewrite take_ge by (cbn; lia). split_and!; [done|lia|]. intros _. apply (new_fs_intro (new_par (lp (seq_no p)))); try done. apply lookup_insert.
Qed.
(** The upgrade can be resumed if it was interrupted before the local parameters were written: the result is the same. *)
Theorem upgrade_resume q d s n : old_fs q d s -> n < 2 -> upgrade true 4 (upgrade true n s).1 = upgrade true 4 s.
Proof.
  intros H Hn. assert (old_fs q d (upgrade true n s).1) as H'.
  { rewrite (old_upgrade q d s n H). assert (n = 0 \/ n = 1) as [->| ->] by lia; [done|]. destruct H as (Hl & Hd & (p & Ho & Hq) & Hr). split_and!; try done. by exists p. }
  rewrite (old_upgrade q d _ 4 H'), (old_upgrade q d _ 4 H), (old_upgrade q d _ n H). cbn [fst].
  assert (n = 0 \/ n = 1) as [->| ->] by lia; [done|]. destruct s as [l db o r rd]. cbn [actions take foldl act l_params l_db r_old r_params r_db].
  f_equal. f_equal. by rewrite insert_insert.
Qed.
(** Interrupted between the local and the remote parameters, it cannot: upgrade ends with a KeyError, and all other programs of this
    version tell to run upgrade. (The old object is still there, see above: without the local files, the previous version can be used.) *)
Theorem upgrade_stuck_refuted q d s : old_fs q d s -> exists s', upgrade true 2 s = (s', Done) /\ get_metadata s' = WrongRevision /\
  (forall yes n, upgrade yes n s' = (s', KeyErr)) /\ upgrade_check (State None None (r_old s') (r_params s') (r_db s')) = Some (GetOldVersion 1).
Proof.
  intros H. rewrite (old_upgrade q d s 2 H). eexists. split; [done|]. destruct s as [l db o r rd]. destruct H as (Hl & Hd & (p & Ho & Hq) & Hr). cbn in Hl, Hd, Ho, Hr. subst.
  destruct r as [r|]; [by destruct (Hr r)|]. split_and!; [done| |done]. intros yes n. unfold upgrade, upgrade_check.
  cbn [actions take foldl act l_params l_db r_old r_params r_db]. cbn [rev seq_no needs_fsck new_par]. rewrite decide_False by lia. rewrite decide_True by (left; lia). done.
Qed.
(** Also after the remote parameters were stored, upgrade ends with a KeyError, but there is nothing left to do. And so it does
    for every upgraded file system that has been used since (with a higher sequence number). *)
Theorem upgrade_again_refuted q d s : old_fs q d s -> exists s', upgrade true 3 s = (s', Done) /\ new_fs d s' /\ (forall yes n, upgrade yes n s' = (s', KeyErr)) /\
  exists s4, upgrade true 4 s = (s4, Done) /\ forall q' db rdb, q + 1 < q' ->
    let p := Par CURRENT_FS_REV q' false false in let u := State (Some p) (Some db) (r_old s4) (Some p) (<[q' := db]> rdb) in
    new_fs db u /\ forall yes n, upgrade yes n u = (u, KeyErr).
Proof.
  intros H. destruct (upgrade_crash q d s 3 H) as (s' & E & Hdb & _ & Hn). specialize (Hn (Nat.le_refl 3)). exists s'. split; [done|]. split; [done|].
  rewrite (old_upgrade q d s 3 H) in E. injection E as <-. rewrite (old_upgrade q d s 4 H). clear Hn. destruct s as [l db o r rd]. destruct H as (Hl & Hd & (p & Ho & Hq) & Hr). cbn in Hl, Hd, Ho, Hr. subst.
  split.
  - intros yes n. unfold upgrade, upgrade_check.
    cbn [actions take foldl act l_params l_db r_old r_params r_db]. cbn [rev seq_no needs_fsck new_par]. rewrite decide_False by lia. rewrite decide_True by (left; lia). done.
  - eexists. split; [done|]. intros q' db' rdb Hq p0 u. split.
    + apply (new_fs_intro p0); try done. apply lookup_insert.
    + intros yes n. unfold upgrade, upgrade_check. unfold u. cbn [actions take foldl act l_params l_db r_old r_params r_db]. cbn [p0 rev seq_no needs_fsck new_par].
      rewrite decide_False by lia. rewrite decide_True by (left; lia). done.
Qed.
(** In all other cases nothing is changed: no or an outdated local copy, an unclean one, any other revision, or the answer no. *)
Theorem upgrade_refused yes n (s : state) :
  (l_params s = None \/ l_db s = None \/ yes = false \/
   (exists l p d, l_params s = Some l /\ r_old s = Some (p, d) /\ (seq_no l <> seq_no p \/ needs_fsck l = true \/ rev l <> CURRENT_FS_REV - 1)) \/
   (r_old s = None /\ r_params s = None)) ->
  exists o, upgrade yes n s = (s, o) /\ o <> Done.
Proof.
  intros H. unfold upgrade. destruct (upgrade_check s) as [o|] eqn:E.
  - exists o. split; [done|]. revert E. unfold upgrade_check. intros E ->. repeat case_match; congruence.
  - destruct yes; [|by exists Declined]. exfalso. revert E. unfold upgrade_check. destruct (l_params s) as [l|], (l_db s) as [d0|]; try done.
    destruct H as [[=]|[[=]|[[=]|[(l' & p & d & [= <-] & -> & H)|[-> ->]]]]]; [|done].
    case_decide as D1; [done|]. case_decide as D2; [by case_decide|]. case_decide as D3; [by case_decide|]. case_decide as D4; [done|]. intros _.
    apply Decidable.not_or in D2 as [D2 D2']. unfold CURRENT_FS_REV in *. destruct H as [H|[H|H]]; [lia|done|lia].
Qed.
End props.

(** * The parameters *)
Lemma get_filter (P : bytes * val -> Prop) `{!forall x, Decision (P x)} (m : mapping) k : (forall v, P (k, v)) -> get (filter P m) k = get m k.
Proof.
  intros Hk. induction m as [|[k' v] m IH]; [done|]. rewrite filter_cons. case_decide as E; cbn [get]; [by case_decide|].
  rewrite decide_False by (intros ->; by apply E). done.
Qed.
Lemma get_filter_not (P : bytes * val -> Prop) `{!forall x, Decision (P x)} (m : mapping) k : (forall v, ~ P (k, v)) -> get (filter P m) k = None.
Proof.
  intros Hk. induction m as [|[k' v] m IH]; [done|]. rewrite filter_cons. case_decide as E; cbn [get]; [|done]. by rewrite decide_False by (intros ->; by apply (Hk v)).
Qed.
Lemma get_put m k v k' : get (put m k v) k' = if decide (k = k') then Some v else get m k'.
Proof. unfold put. cbn [get]. case_decide; [done|]. apply get_filter. intros v'. cbn. congruence. Qed.
(** The last value of a name: with hyphens or with underscores *)
Fixpoint last_value (m : mapping) (k : bytes) : option val :=
  match m with [] => None | (k', v) :: m => match last_value m k with Some w => Some w | None => if decide (underscores k' = k) then Some v else None end end.
Lemma fold_put m a k : get (foldl (fun a kv => put a (underscores kv.1) kv.2) a m) k = match last_value m k with Some v => Some v | None => get a k end.
Proof.
  revert a. induction m as [|[k' v] m IH]; intros a; [done|]. cbn [foldl last_value fst snd]. rewrite IH, get_put. destruct (last_value m k); [done|]. by case_decide.
Qed.
(** The new parameters: the block size is the old maximal object size, the revision is the current one, all other fields are as before, and
    there are no other names. *)
Theorem convert_fields mbs m m' : convert mbs m = Some m' ->
  get m' (str "data_block_size") = last_value m (str "max_obj_size") /\ get m' (str "metadata_block_size") = Some (VInt (mbs * 1024)) /\
  get m' (str "revision") = Some (VInt 26) /\ (forall k, k ∉ fields -> get m' k = None) /\
  forall k, k ∈ fields -> k <> str "data_block_size" -> k <> str "metadata_block_size" -> k <> str "revision" -> get m' k = last_value m k.
Proof.
  unfold convert. rewrite (fold_put m [] (str "max_obj_size")). cbn [get]. destruct (last_value m (str "max_obj_size")) as [v|] eqn:E; [|done]. intros [= <-].
  assert (forall k, k ∈ fields -> forall m, get (filter (fun kv => kv.1 ∈ fields) m) k = get m k) as F by (intros k Hk m0; by apply get_filter).
  split_and!.
  - rewrite F by (apply (bool_decide_unpack _); by vm_compute). rewrite !get_put. by rewrite !decide_False, decide_True by done.
  - rewrite F by (apply (bool_decide_unpack _); by vm_compute). rewrite !get_put. by rewrite decide_False, decide_True by done.
  - rewrite F by (apply (bool_decide_unpack _); by vm_compute). by rewrite !get_put.
  - intros k Hk. by apply get_filter_not.
  - intros k Hk N1 N2 N3. rewrite F by done. rewrite !get_put. rewrite !decide_False by done. rewrite fold_put. by destruct (last_value m k).
Qed.
Theorem convert_defined mbs m : is_Some (convert mbs m) <-> is_Some (last_value m (str "max_obj_size")).
Proof. unfold convert. rewrite (fold_put m [] (str "max_obj_size")). cbn [get]. destruct (last_value m (str "max_obj_size")); split; intros [? ?]; by eauto. Qed.

Definition ex_old : state nat := State (Some (Par 25 41 false false)) (Some 7) (Some (Par 25 41 false false, 7)) None {[ 3 := 1 ]}.
Example ex_old_fs : old_fs 41 7 ex_old.
Proof. split_and!; try done. by eexists. Qed.
Example ex_upgrade : get_metadata (upgrade true 4 ex_old).1 = Use (Par 26 42 false false) 7 /\ get_metadata ex_old = WrongRevision /\
  (upgrade true 4 (upgrade true 2 ex_old).1).2 = KeyErr.
Proof. split_and!; by vm_compute. Qed.
Example ex_convert : convert 64 [(str "seq_no", VInt 41); (str "max_obj_size", VInt 10240); (str "label", VStr (str "x")); (str "last-modified", VInt 5); (str "revision", VInt 25)] =
  Some [(str "revision", VInt 26); (str "metadata_block_size", VInt 65536); (str "data_block_size", VInt 10240); (str "last_modified", VInt 5); (str "label", VStr (str "x")); (str "seq_no", VInt 41)].
Proof. by vm_compute. Qed.

Print Assumptions upgrade_complete. Print Assumptions upgrade_crash. Print Assumptions upgrade_resume. Print Assumptions upgrade_stuck_refuted.
Print Assumptions upgrade_again_refuted. Print Assumptions upgrade_refused. Print Assumptions convert_fields. Print Assumptions convert_defined.
