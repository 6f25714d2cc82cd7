(** C73: umount.s3ql returns after the daemon has finished. *)
From stdpp Require Import prelude strings.
From Coq Require Import String.
From Verif Require Import UmountModel.

Definition alive (d : phase) : Prop := match d with Gone _ => False | _ => True end.
Definition known (a : pc) : option (option string) := match a with Unmount c | Kill c _ | Cmd c _ | Sleep c _ => Some c | _ => None end.
Definition waiting (a : pc) : option nat := match a with Kill _ n | Cmd _ n | Sleep _ n => Some n | _ => None end.
(** While the daemon lives, its number is its own; a successful end is reached only when it is gone *)
Definition inv (cmd : string) (s : state) : Prop :=
  (alive (daemon s) -> proc s = Some cmd /\ (forall c, known (at_ s) = Some c -> c = Some cmd) /\ at_ s <> Exit 0) /\ (forall n, waiting (at_ s) = Some n -> daemon s <> Serving /\ 1 <= n <= 10).
Lemma inv_start cmd : inv cmd (start cmd). Proof. split; [|done]. intros _. split; [done|]. by split. Qed.
Lemma inv_step cmd s s' : step true s s' -> inv cmd s -> inv cmd s'.
Proof.
  intros H [I W]. destruct H as [H|H]; destruct H; cbn in *; (split; cbn); try done.
  all: try (intros Ha; destruct (I Ha) as (Hp & Hc & He)).
  all: try (split; [done|]; split; [try done|done]).
  all: try (intros c'; intros [= <-]; try done; by apply Hc).
  all: try (intros m [= <-]; destruct (W _ eq_refl); split; [done|lia]).
  all: try (subst; done).
  - intros m [= <-]. split; [done|lia].
  - intros m [= <-]. split; [done|lia].
  - exfalso. specialize (Hc c eq_refl). congruence.
  - intros m [= <-]. destruct (W _ eq_refl). split; [done|]. destruct (Nat.leb_spec n 9); lia.
  - intros m Hm. by destruct (W _ Hm).
  - intros m Hm. by destruct (W _ Hm).
  - intros m Hm. by destruct (W _ Hm).
Qed.
Lemma inv_reach cmd s : rtc (step true) (start cmd) s -> inv cmd s.
Proof. intros H. remember (start cmd) as s0. assert (inv cmd s0) as I by (subst; apply inv_start). clear Heqs0. induction H; [done|]. eauto using inv_step. Qed.

(** umount.s3ql succeeds only after the daemon has terminated. *)
Theorem umount_waits cmd s : rtc (step true) (start cmd) s -> at_ s = Exit 0 -> exists b, daemon s = Gone b.
Proof. intros H E. apply inv_reach in H as [I _]. destruct (daemon s) eqn:Ed; [| |eauto]; destruct I as (_ & _ & ?); done. Qed.
(** Hence everything is uploaded, if the daemon does not fail. *)
Inductive good : state -> state -> Prop := good_step s s' : step true s s' -> daemon s' <> Gone false -> good s s'.
Theorem umount_complete cmd s : rtc good (start cmd) s -> at_ s = Exit 0 -> daemon s = Gone true.
Proof.
  intros H E. assert (rtc (step true) (start cmd) s) as H'. { clear E. induction H as [|x y z [] _ IH]; [apply rtc_refl|eapply rtc_l; done]. } destruct (umount_waits _ _ H' E) as [[] Hb]; [done|]. exfalso. apply rtc_inv_r in H as [<-|(y & _ & Q)]; [done|]. by destruct Q.
Qed.
(** If it gives up (in use, or the unmount fails) then it has not unmounted: only others change the daemon. *)
Theorem umount_refused vis s s' : own vis s s' -> daemon s <> daemon s' -> daemon s = Serving /\ daemon s' = Finishing /\ waiting (at_ s') = Some 1.
Proof. by destruct 1. Qed.
Theorem umount_given_up vis s s' n : own vis s s' -> at_ s' = Exit n -> n <> 0 -> waiting (at_ s) = None /\ daemon s' = daemon s.
Proof. destruct 1; intros [= <-]; done. Qed.
(** It goes on until then: unless it has ended there is always a next step, and as soon as the process is gone (or another one has its number) the next check ends it; pauses are bounded. *)
Theorem umount_progress vis s : (exists n, at_ s = Exit n) \/ at_ s = Crash \/ exists s', own vis s s'.
Proof.
  destruct s as [d p a]. destruct a as [| | | |c|c n|c n|c n|n|]; cbn; eauto 6 using own.
  - right. right. destruct (decide (see vis p = None)); eauto using own.
  - right. right. destruct (decide (see vis p = None)); [eauto using own|]. destruct (decide (see vis p = c)); eauto using own.
Qed.
Theorem umount_ends vis s s' c n : own vis s s' -> at_ s = Cmd c n -> see vis (proc s) <> c -> at_ s' = Exit 0.
Proof. destruct 1; try done; cbn; intros [= -> ->]; [congruence|done..]. Qed.
Theorem umount_gone vis s s' c n : own vis s s' -> at_ s = Kill c n -> proc s = None -> at_ s' = Exit 0.
Proof. destruct 1 as [| | | | | | | | | |d p c' m H|d p c' m H| | | |]; try done; cbn; intros _ ->. by destruct vis. Qed.
Theorem pauses_bounded cmd s n : rtc (step true) (start cmd) s -> waiting (at_ s) = Some n -> 1 <= n <= 10.
Proof. intros H E. apply inv_reach in H as [_ W]. by apply W. Qed.
(** Lazily: nothing is waited for. *)
Theorem lazy_exact ok d n d' : lazy_umount ok d = (n, d') -> (n = 0 <-> ok = true) /\ (n <> 0 -> d' = d).
Proof. unfold lazy_umount. destruct ok; intros [= <- <-]; done. Qed.

(** ** Where this does not hold *)
(** If the daemon fails while it uploads the rest, umount.s3ql reports success all the same. *)
Theorem umount_failed_refuted : ~ (forall cmd s, rtc (step true) (start cmd) s -> at_ s = Exit 0 -> daemon s = Gone true).
Proof.
  intros H. assert (daemon (State (Gone false) None (Exit 0)) = Gone true) as Q; [|done]. eapply (H "x"%string); [|done]. unfold start. eapply rtc_l; [left; apply o_unused|]. eapply rtc_l; [left; apply o_flush|]. eapply rtc_l; [left; apply o_pid|]. eapply rtc_l; [left; apply o_cmd|]. eapply rtc_l; [left; apply o_unmount|]. eapply rtc_l; [right; apply (e_finish false); by left|]. eapply rtc_l; [left; by apply o_kill_none|]. apply rtc_refl.
Qed.
(** If the process of the daemon cannot be seen (another PID namespace, hidepid), umount.s3ql returns while the daemon is still uploading. *)
Theorem umount_hidden_refuted : ~ (forall vis cmd s, rtc (step vis) (start cmd) s -> at_ s = Exit 0 -> daemon s <> Finishing).
Proof.
  intros H. apply (H false "x"%string (State Finishing (Some "x"%string) (Exit 0))); [|done|done]. unfold start. eapply rtc_l; [left; apply o_unused|]. eapply rtc_l; [left; apply o_flush|]. eapply rtc_l; [left; apply o_pid|]. eapply rtc_l; [left; apply o_cmd|]. eapply rtc_l; [left; apply o_unmount|]. eapply rtc_l; [left; by apply o_kill_none|]. apply rtc_refl.
Qed.
(** If the number is used again by a process with the same command line, umount.s3ql waits for that one. *)
Theorem umount_reuse_refuted : ~ (forall cmd s s' c n, rtc (step true) (start cmd) s -> at_ s = Cmd c n -> daemon s = Gone true -> own true s s' -> at_ s' = Exit 0).
Proof.
  intros H. assert (at_ (State (Gone true) (Some "x"%string) (Sleep (Some "x"%string) 1)) = Exit 0) as Q; [|done]. eapply (H "x"%string (State (Gone true) (Some "x"%string) (Cmd (Some "x"%string) 1))); [|done|done|by apply o_cmd_same]. unfold start. eapply rtc_l; [left; apply o_unused|]. eapply rtc_l; [left; apply o_flush|]. eapply rtc_l; [left; apply o_pid|]. eapply rtc_l; [left; apply o_cmd|]. eapply rtc_l; [left; apply o_unmount|]. eapply rtc_l; [right; apply (e_finish true); by left|]. eapply rtc_l; [right; apply (e_reuse true _ _ (Some "x"%string))|]. eapply rtc_l; [left; by apply o_kill|]. apply rtc_refl.
Qed.

(** ** Example: two rounds of waiting, then success *)
Example umount_example : rtc good (start "x") (State (Gone true) (Some ""%string) (Exit 0)).
Proof.
  unfold start. Local Ltac g t := eapply rtc_l; [constructor; [t|done]|]. g ltac:(left; apply o_unused). g ltac:(left; apply o_flush). g ltac:(left; apply o_pid). g ltac:(left; apply o_cmd). g ltac:(left; apply o_unmount). g ltac:(left; by apply o_kill). g ltac:(left; by apply o_cmd_same). g ltac:(left; apply o_sleep). g ltac:(left; by apply o_kill). g ltac:(right; eapply (e_finish true); by right). g ltac:(left; by apply o_cmd_other). apply rtc_refl.
Qed.

Print Assumptions umount_waits.
Print Assumptions umount_complete.
Print Assumptions umount_refused.
Print Assumptions umount_given_up.
Print Assumptions umount_progress.
Print Assumptions umount_ends.
Print Assumptions umount_gone.
Print Assumptions pauses_bounded.
Print Assumptions lazy_exact.
Print Assumptions umount_failed_refuted.
Print Assumptions umount_hidden_refuted.
Print Assumptions umount_reuse_refuted.
