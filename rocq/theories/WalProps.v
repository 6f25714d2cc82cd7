(** C75: the database after crashes, in snapshots, after downloads; exception: a log that was left behind *)
From stdpp Require Import prelude gmap.
From Verif Require Import WalModel.

Section props.
Context {P : Type} `{EqDecision P}.
Implicit Types (d : db P) (t : tx P) (l : list (tx P)).

(** * Specification: the transactions that took place, from the operations alone *)
Definition history_step (h : list (tx P)) (o : op P) : list (tx P) := match o with Commit t | Restart t => h ++ [t] | Crash lost => take (length h - lost) h | _ => h end.
Definition history (ops : list (op P)) : list (tx P) := foldl history_step [] ops.
(** The files are not replaced *)
Definition local_op (o : op P) : Prop := match o with Download _ | Unlink => False | _ => True end.
(** A database is never without its first page *)
Definition sane_op (o : op P) : Prop := match o with Commit t | Restart t => 0 < t.2 | _ => True end.

(** * Pages *)
Lemma view_app d l1 l2 : view d (l1 ++ l2) = view (view d l1) l2.
Proof. apply foldl_app. Qed.
(** What a transaction makes of a page: something fixed, or it stays *)
Definition page (t : tx P) (p : nat) (x : option P) : option P := if decide (p < t.2) then match t.1 !! p with Some y => Some y | None => x end else None.
Lemma apply_page d t p : apply_tx d t !! p = page t p (d !! p).
Proof.
  unfold apply_tx, page. destruct (decide (p < t.2)) as [H|H].
  - destruct (t.1 !! p) as [y|] eqn:E.
    + apply map_filter_lookup_Some. split; [|done]. by apply lookup_union_Some_l.
    + destruct (d !! p) as [x|] eqn:Ed.
      * apply map_filter_lookup_Some. split; [|done]. by rewrite lookup_union_r.
      * apply map_filter_lookup_None. left. apply lookup_union_None. done.
  - apply map_filter_lookup_None. right. intros x _. done.
Qed.
Definition pages (l : list (tx P)) (p : nat) (x : option P) : option P := foldl (fun x t => page t p x) x l.
Lemma view_page d l p : view d l !! p = pages l p (d !! p).
Proof. revert d. induction l as [|t l IH]; intros d; [done|]. cbn. unfold view in IH. by rewrite IH, apply_page. Qed.
Lemma pages_const l p : (forall x, pages l p x = x) \/ (exists y, forall x, pages l p x = y).
Proof.
  induction l as [|t l IH]; [by left|]. cbn. fold (pages l p). assert (C : (forall x, page t p x = x) \/ (exists y, forall x, page t p x = y)).
  { unfold page. destruct (decide (p < t.2)); [|right; by exists None]. destruct (t.1 !! p) as [y|]; [right; by exists (Some y) | by left]. }
  destruct C as [C|[y C]].
  - destruct IH as [IH|[z IH]]; [left; intros x; unfold pages in *; by rewrite C | right; exists z; intros x; unfold pages in *; by rewrite IH].
  - right. exists (pages l p y). intros x. unfold pages. by rewrite C.
Qed.
Lemma pages_app l1 l2 p x : pages (l1 ++ l2) p x = pages l2 p (pages l1 p x).
Proof. apply foldl_app. Qed.
(** Repeating the log on a file into which some of it has been copied gives the same *)
Lemma pages_again l p x j : pages l p (pages (take j l) p x) = pages l p x.
Proof.
  rewrite <- (take_drop j l) at 1 3. rewrite !pages_app. f_equal. destruct (pages_const (take j l) p) as [C|[y C]]; by rewrite ?C.
Qed.
Definition mixed (m0 : db P) (l : list (tx P)) (n : nat) (m : db P) : Prop := forall p, exists j, j <= n /\ m !! p = view m0 (take j l) !! p.
Lemma mixed_view m0 l n m k : mixed m0 l n m -> n <= k -> view m (take k l) = view m0 (take k l).
Proof.
  intros M Hk. apply map_eq. intros p. destruct (M p) as (j & Hj & E). rewrite !view_page, E, view_page.
  rewrite <- (pages_again (take k l) p (m0 !! p) j). by rewrite take_take, Nat.min_l by lia.
Qed.
Lemma mixed_all m0 l n m : mixed m0 l n m -> n <= length l -> view m l = view m0 l.
Proof. intros M Hn. pose proof (mixed_view m0 l n m (length l) M Hn) as E. by rewrite firstn_all in E. Qed.
Lemma mixed_prefix m0 l l' n m : mixed m0 l n m -> n <= length l -> n <= length l' -> l `prefix_of` l' \/ l' `prefix_of` l -> mixed m0 l' n m.
Proof.
  intros M Hn Hn' Hp p. destruct (M p) as (j & Hj & E). exists j. split; [done|]. rewrite E. do 2 f_equal. destruct Hp as [[k ->]|[k ->]]; rewrite take_app_le by lia; done.
Qed.
Lemma mixed_refl m0 l n : mixed m0 l n m0.
Proof. intros p. exists 0. split; [lia | done]. Qed.

(** * Invariant *)
Definition inv (base : db P) (h : list (tx P)) (s : state P) : Prop := exists h0,
  h = h0 ++ wal s /\ synced s <= length (wal s) /\ mixed (view base h0) (wal s) (synced s) (main s) /\ is_Some (main s !! 0) /\ (full s = true -> main s = view base h) /\ (ck s = true -> synced s = length (wal s)).
Lemma view_first d l : is_Some (d !! 0) -> Forall (fun t : tx P => 0 < t.2) l -> is_Some (view d l !! 0).
Proof.
  intros H F. rewrite view_page. revert H. generalize (d !! 0) as x. induction F as [|t l Ht F IH]; intros x H; [done|]. cbn. apply IH. unfold page. rewrite decide_True by done. destruct (t.1 !! 0); eauto.
Qed.
Lemma inv_view base h s : inv base h s -> view (main s) (wal s) = view base h.
Proof. intros (h0 & -> & Hs & M & _). by rewrite (mixed_all _ _ _ _ M), view_app. Qed.
Lemma inv_step base h s o s' : is_Some (base !! 0) -> Forall (fun t : tx P => 0 < t.2) h -> local_op o -> sane_op o -> inv base h s -> step s o = Some s' -> inv base (history_step h o) s'.
Proof.
  intros B F Lo So I St. pose proof (inv_view _ _ _ I) as V. destruct I as (h0 & Eh & Hs & M & H0 & Hf & Hc). destruct s as [m w n op_ c f i]. cbn in *.
  assert (F0 : forall j, Forall (fun t : tx P => 0 < t.2) (h0 ++ take j w)). { intros j. rewrite Eh in F. apply Forall_app in F as [F1 F2]. apply Forall_app. split; [done|]. by apply Forall_take. }
  destruct o as [|t|t| |p| | | | |lost|d|]; cbn in *; try done.
  - destruct op_; [done|]. injection St as <-. rewrite decide_False; [|intros ->; rewrite lookup_empty in H0; by destruct H0]. exists h0. cbn. split_and!; done.
  - destruct (op_ && negb c); [|done]. injection St as <-. exists h0. cbn. rewrite app_length. cbn. split_and!; [rewrite Eh; by rewrite app_assoc | lia | | done | done | done].
    eapply mixed_prefix; [done | done | rewrite app_length; cbn; lia | left; by exists [t]].
  - destruct (op_ && negb c && f) eqn:E; [|done]. injection St as <-. apply andb_true_iff in E as [_ ->]. exists h. cbn. split_and!; [done | lia | rewrite <- Hf by done; apply mixed_refl | done | done | done].
  - destruct (op_ && negb c && negb i); [|done]. injection St as <-. exists h0. cbn. split_and!; [done | done | | done | done | done]. intros p. destruct (M p) as (j & Hj & E). exists j. split; [lia | done].
  - destruct c; [|done]. injection St as <-. specialize (Hc eq_refl). exists h0. cbn. split_and!; [done | done | | | done | done].
    + intros q. destruct (decide (q = p)) as [->|Hq].
      * exists n. split; [done|]. rewrite lookup_partial_alter, V, Eh, view_app, Hc, firstn_all. done.
      * rewrite lookup_partial_alter_ne by done. apply M.
    + destruct (decide (p = 0)) as [->|]; [rewrite lookup_partial_alter, V; by apply view_first | by rewrite lookup_partial_alter_ne].
  - destruct c; [|done]. injection St as <-. specialize (Hc eq_refl). exists h0. cbn. split_and!; [done | done | | rewrite V; by apply view_first | done | done].
    intros q. exists n. split; [done|]. by rewrite V, Eh, view_app, Hc, firstn_all.
  - destruct (op_ && negb c && negb i) eqn:E; [|done]. injection St as <-. exists h0. cbn. split_and!; done.
  - destruct i; [|done]. injection St as <-. exists h0. cbn. split_and!; done.
  - destruct (op_ && negb c && negb i); [|done]. injection St as <-. exists h. cbn. rewrite app_nil_r. split_and!; [done | lia | rewrite V; apply mixed_refl | rewrite V; by apply view_first | done | done].
  - destruct (op_ && _) eqn:E; [|done]. injection St as <-. apply andb_true_iff in E as [_ E%bool_decide_eq_true]. exists h0. cbn. rewrite take_length. split_and!; [|lia| |done|done|done].
    + rewrite Eh, app_length, take_app_ge by lia. f_equal. f_equal. lia.
    + eapply mixed_prefix; [done | done | rewrite take_length; lia|]. right. by exists (drop (length w - lost) w); rewrite take_drop.
Qed.
Lemma history_sane ops h : Forall sane_op ops -> Forall (fun t : tx P => 0 < t.2) h -> Forall (fun t : tx P => 0 < t.2) (foldl history_step h ops).
Proof.
  intros So. revert h. induction So as [|o ops Ho So IH]; intros h F; [done|]. cbn. apply IH. destruct o; cbn in *; try done; [apply Forall_app; split; [done | by repeat constructor]..|by apply Forall_take].
Qed.
Lemma inv_run base h s ops s' : is_Some (base !! 0) -> Forall (fun t : tx P => 0 < t.2) h -> Forall local_op ops -> Forall sane_op ops -> inv base h s -> run s ops = Some s' -> inv base (foldl history_step h ops) s'.
Proof.
  intros B. revert h s. induction ops as [|o ops IH]; intros h s F Lo So I R; [cbn in R; by injection R as <-|]. apply Forall_cons in Lo as [Lo Los]. apply Forall_cons in So as [So Sos]. cbn in R.
  destruct (step s o) as [s1|] eqn:St; [|done]. cbn. eapply IH; try done.
  - by apply (history_sane [o]); [constructor|].
  - by eapply inv_step.
Qed.
Lemma inv_stored base : is_Some (base !! 0) -> inv base [] (stored base).
Proof. intros B. exists []. split_and!; [done | done | apply mixed_refl | done | done | done]. Qed.
Lemma run_app (s : state P) ops1 ops2 s' : run s (ops1 ++ ops2) = Some s' <-> exists s1, run s ops1 = Some s1 /\ run s1 ops2 = Some s'.
Proof. revert s. induction ops1 as [|o ops1 IH]; intros s; cbn; [naive_solver|]. destruct (step s o); [apply IH | naive_solver]. Qed.
Lemma history_app ops1 ops2 : history (ops1 ++ ops2) = foldl history_step (history ops1) ops2.
Proof. apply foldl_app. Qed.

(** * Theorems *)
(** Whatever happens, in particular if checkpoints are interrupted: what is read are the transactions that took place *)
Theorem wal_exact base ops s : is_Some (base !! 0) -> Forall local_op ops -> Forall sane_op ops -> run (stored base) ops = Some s -> view (main s) (wal s) = view base (history ops).
Proof. intros B Lo So R. apply inv_view. eapply inv_run; try done. by apply inv_stored. Qed.
(** What was there at the last complete checkpoint (even when it began) is never lost *)
Lemma history_prefix base h0 s ops s' (k : list (tx P)) : is_Some (base !! 0) -> Forall (fun t : tx P => 0 < t.2) h0 -> Forall local_op ops -> Forall sane_op ops -> inv base h0 s -> length k + (length (wal s) - synced s) <= length h0 -> k `prefix_of` h0 -> run s ops = Some s' -> k `prefix_of` foldl history_step h0 ops.
Proof.
  intros B. revert h0 s. induction ops as [|o ops IH]; intros h0 s F Lo So I Hk Pk R; [done|]. apply Forall_cons in Lo as [Lo Los]. apply Forall_cons in So as [So Sos]. cbn in R. destruct (step s o) as [s1|] eqn:St; [|done].
  cbn. assert (I1 : inv base (history_step h0 o) s1) by (by eapply inv_step). assert (F1 : Forall (fun t : tx P => 0 < t.2) (history_step h0 o)) by (by apply (history_sane [o]); [constructor|]).
  apply (IH _ s1); try done; destruct I as (hx & Eh & Hs & M & H0 & Hf & Hc); destruct s as [m w n op_ c f i]; cbn in *.
  - destruct o as [|t|t| |p| | | | |lost|d|]; cbn in *; try done.
    + destruct op_; [done|]. injection St as <-. destruct (decide (m = ∅)); cbn; lia.
    + destruct (op_ && negb c); [|done]. injection St as <-. cbn. rewrite !app_length. cbn. lia.
    + destruct (op_ && negb c && f); [|done]. injection St as <-. cbn. rewrite app_length. cbn. lia.
    + destruct (op_ && negb c && negb i); [|done]. injection St as <-. cbn. lia.
    + destruct c; [|done]. injection St as <-. cbn. lia.
    + destruct c; [|done]. injection St as <-. cbn. lia.
    + destruct (op_ && negb c && negb i); [|done]. injection St as <-. cbn. lia.
    + destruct i; [|done]. injection St as <-. cbn. lia.
    + destruct (op_ && negb c && negb i); [|done]. injection St as <-. cbn. lia.
    + destruct (op_ && _) eqn:E; [|done]. injection St as <-. apply andb_true_iff in E as [_ E%bool_decide_eq_true]. cbn. rewrite !take_length. subst h0. rewrite app_length in *. lia.
  - destruct o as [|t|t| |p| | | | |lost|d|]; cbn in *; try done; [by apply prefix_app_r.. |].
    destruct (op_ && _) eqn:E; [|done]. apply andb_true_iff in E as [_ E%bool_decide_eq_true]. destruct Pk as [z ->]. rewrite take_app_ge by (rewrite app_length in *; lia). by apply prefix_app_r.
Qed.
Theorem wal_durable base ops1 ops2 s : is_Some (base !! 0) -> Forall local_op (ops1 ++ CkStart :: ops2) -> Forall sane_op (ops1 ++ CkStart :: ops2) -> run (stored base) (ops1 ++ CkStart :: ops2) = Some s ->
  history ops1 `prefix_of` history (ops1 ++ CkStart :: ops2).
Proof.
  intros B Lo So R. apply Forall_app in Lo as [Lo1 Lo2]. apply Forall_app in So as [So1 So2]. apply Forall_cons in Lo2 as [_ Lo2]. apply Forall_cons in So2 as [_ So2].
  apply run_app in R as (s1 & R1 & R2). cbn in R2. destruct (opened s1 && negb (ck s1) && negb (inh s1)) eqn:E; [|done].
  rewrite history_app. cbn. assert (I1 : inv base (history ops1) s1) by (eapply inv_run; try done; by apply inv_stored).
  eapply (history_prefix base (history ops1) (State (main s1) (wal s1) (length (wal s1)) true true false false) ops2 s); try done; [by apply history_sane | | cbn [wal synced]; lia].
  destruct s1 as [m w n op_ c f i]. apply (inv_step base (history ops1) (State m w n op_ c f i) CkStart); try done; [by apply history_sane|]. cbn in *. by rewrite E.
Qed.
(** Between a checkpoint and the next one the file itself is what was committed at the checkpoint: this is what is uploaded. While writes are inhibited it cannot change. *)
Definition quiet_op (o : op P) : Prop := match o with Commit _ | Restart _ | Inhibit | Release => True | _ => False end.
Lemma quiet_main (s : state P) ops s' : Forall quiet_op ops -> run s ops = Some s' -> main s' = main s.
Proof.
  intros Q. revert s. induction Q as [|o ops Ho Q IH]; intros s R; [cbn in R; by injection R as <-|]. cbn in R. destruct (step s o) as [s1|] eqn:St; [|done]. rewrite (IH _ R).
  destruct s as [m w n op_ c f i], o; cbn in *; try done; repeat case_match; simplify_eq; done.
Qed.
Theorem snapshot_exact base ops1 ops2 s : is_Some (base !! 0) -> Forall local_op ops1 -> Forall sane_op ops1 -> Forall quiet_op ops2 -> run (stored base) (ops1 ++ CkEnd :: ops2) = Some s -> main s = view base (history ops1).
Proof.
  intros B Lo So Q R. apply run_app in R as (s1 & R1 & R2). cbn in R2. destruct (ck s1); [|done]. rewrite (quiet_main _ _ _ Q R2). cbn. apply inv_view. eapply inv_run; try done. by apply inv_stored.
Qed.
Lemma inhibited_main (s : state P) ops s' : inh s = true -> ck s = false -> opened s = true -> Forall (fun o : op P => match o with Release | Crash _ => False | _ => True end) ops -> run s ops = Some s' -> main s' = main s.
Proof.
  intros Hi Hc Ho F. revert s Hi Hc Ho. induction F as [|o ops Hx F IH]; intros s Hi Hc Ho R; [cbn in R; by injection R as <-|]. cbn in R.
  destruct (step s o) as [s1|] eqn:St; [|done]. assert (X : main s1 = main s /\ inh s1 = true /\ ck s1 = false /\ opened s1 = true).
  { destruct s as [m w n op_ c f i], o; cbn in *; subst; cbn in *; try done; repeat case_match; simplify_eq; done. }
  destruct X as (<- & Hi' & Hc' & Ho'). by apply IH.
Qed.
(** While writes are inhibited the file does not change, whatever is written to the database *)
Theorem inhibited_same base ops1 ops2 s : Forall (fun o : op P => match o with Release | Crash _ => False | _ => True end) ops2 -> run (stored base) (ops1 ++ Inhibit :: ops2) = Some s -> exists s1, run (stored base) ops1 = Some s1 /\ main s = main s1.
Proof.
  intros F R. apply run_app in R as (s1 & R1 & R2). exists s1. split; [done|]. cbn in R2. destruct (opened s1 && negb (ck s1) && negb (inh s1)) eqn:E; [|done]. by apply (inhibited_main (State (main s1) (wal s1) (synced s1) true false (full s1) true) ops2).
Qed.
(** After closing, the file is complete and there is no log *)
Theorem close_exact base ops s : is_Some (base !! 0) -> Forall local_op ops -> Forall sane_op ops -> run (stored base) (ops ++ [Close]) = Some s -> s = stored (view base (history ops)).
Proof.
  intros B Lo So R. apply run_app in R as (s1 & R1 & R2). cbn in R2. destruct (_ && _); [|done]. injection R2 as <-. unfold stored. f_equal. eapply wal_exact; eauto.
Qed.
(** A downloaded database is what was uploaded if there is no log, e.g. because the database was closed before ... *)
Theorem download_exact (s : state P) d s' : opened s = false -> run s [Download d; Open] = Some s' -> view (main s') (wal s') = if decide (d = ∅) then ∅ else view d (wal s).
Proof. intros Ho R. destruct s as [m w n op_ c f i]. cbn in *. subst. cbn in R. case_decide; subst; cbn in *; simplify_eq; done. Qed.
Theorem download_closed base ops d s : is_Some (base !! 0) -> Forall local_op ops -> Forall sane_op ops -> run (stored base) (ops ++ [Close; Download d; Open]) = Some s -> view (main s) (wal s) = d.
Proof.
  intros B Lo So R. replace (ops ++ [Close; Download d; Open]) with ((ops ++ [Close]) ++ [Download d; Open]) in R by (by rewrite <- app_assoc). apply run_app in R as (s1 & R1 & R2).
  apply close_exact in R1 as ->; try done. rewrite (download_exact (stored (view base (history ops))) d s eq_refl R2). cbn. case_decide; [by subst | done].
Qed.
(** ... and a new file system is empty in any case *)
Theorem mkfs_empty (s : state P) s' : opened s = false -> run s [Unlink; Open] = Some s' -> view (main s') (wal s') = ∅.
Proof. intros Ho R. destruct s as [m w n op_ c f i]. cbn in *. subst. cbn in R. rewrite decide_True in R by done. cbn in *. by simplify_eq. Qed.
End props.
(** After a crash it is not: the log that was left behind (by no means out of date for SQLite) changes the database that was downloaded. *)
Definition page0 : db nat := {[0 := 10]}.
Definition elsewhere : db nat := {[0 := 12; 1 := 30]}.
Definition crashed : list (op nat) := [Open; Commit ({[0 := 11; 1 := 20]}, 2); Crash 0].
Theorem download_crashed_refuted : ~ forall (base : db nat) ops (d : db nat) s, is_Some (base !! 0) -> Forall local_op ops -> Forall sane_op ops -> run (stored base) (ops ++ [Download d; Open]) = Some s -> view (main s) (wal s) = d.
Proof.
  intros H. specialize (H page0 crashed elsewhere (State elsewhere [({[0 := 11; 1 := 20]}, 2)] 0 true false false false)).
  assert (E : view elsewhere [({[0 := 11; 1 := 20]}, 2)] = elsewhere).
  { apply H; [by exists 10 | by repeat constructor | repeat constructor; cbn; lia | vm_compute; reflexivity]. }
  apply (f_equal (lookup 0)) in E. vm_compute in E. discriminate E.
Qed.
(** ... also after s3qladm clear, which removes the file but not the log *)
Theorem download_cleared_refuted : ~ forall (base : db nat) ops (d : db nat) s, is_Some (base !! 0) -> Forall local_op ops -> Forall sane_op ops -> run (stored base) (ops ++ [Unlink; Download d; Open]) = Some s -> view (main s) (wal s) = d.
Proof.
  intros H. specialize (H page0 crashed elsewhere (State elsewhere [({[0 := 11; 1 := 20]}, 2)] 0 true false false false)).
  assert (E : view elsewhere [({[0 := 11; 1 := 20]}, 2)] = elsewhere).
  { apply H; [by exists 10 | by repeat constructor | repeat constructor; cbn; lia | vm_compute; reflexivity]. }
  apply (f_equal (lookup 0)) in E. vm_compute in E. discriminate E.
Qed.
(** That nothing is lost in a power failure: not what was written since the last checkpoint *)
Theorem lost_refuted : ~ forall (base : db nat) ops1 ops2 s, is_Some (base !! 0) -> Forall local_op (ops1 ++ ops2) -> Forall sane_op (ops1 ++ ops2) -> run (stored base) (ops1 ++ ops2) = Some s -> history ops1 `prefix_of` history (ops1 ++ ops2).
Proof.
  intros H. specialize (H page0 [Open; Commit ({[0 := 11]}, 1)] [Crash 1] (State page0 [] 0 false false false false)).
  assert (E : history [Open; Commit ({[0 := 11]}, 1)] `prefix_of` history ([Open; Commit ({[0 := 11]}, 1)] ++ [Crash 1])).
  { apply H; [by exists 10 | by repeat constructor | repeat constructor; cbn; lia | vm_compute; reflexivity]. }
  vm_compute in E. destruct E as [k E]. discriminate E.
Qed.
(** Non-trivial case: a checkpoint is interrupted after one page, the log is used again, then a complete one; a transaction is lost *)
Example wal_example : let ops := [Open; Commit ({[0 := 11; 1 := 20]}, 2); CkStart; CkPage 1; Crash 0; Open; Commit ({[2 := 5]}, 3); CkStart; CkPage 0; CkEnd; Restart ({[2 := 6]}, 3); Commit ({[0 := 1]}, 1); Crash 1; Open] in
  Forall local_op ops /\ Forall sane_op ops /\ (fun s => map_to_list (view (main s) (wal s))) <$> run (stored page0) ops = Some [(0, 11); (1, 20); (2, 6)].
Proof. cbv zeta. split; [by repeat constructor|]. split; [repeat constructor; cbn; lia|]. vm_compute. reflexivity. Qed.
Print Assumptions wal_exact.
Print Assumptions wal_durable.
Print Assumptions download_crashed_refuted.
