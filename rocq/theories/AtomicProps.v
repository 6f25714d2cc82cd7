(** Files that are replaced as a whole (C29). *)
From stdpp Require Import prelude gmap.
From Verif Require Import AtomicModel.

Section props.
Context {byte : Type}.
Local Notation disk := (disk byte).
(** What may be found under a name when the process is killed or the power fails at this moment. *)
Definition may_hold (d : disk) (n : name) (x : option (list byte)) : Prop :=
  contents d n = x \/ exists d', power_failure d d' /\ contents d' n = x.

(** A disk on which [f] is safe: under every state of the directory that may survive it is a synchronised file that is
    not at the same time the temporary file. *)
Record safe (f tmp : name) (d : disk) : Prop := Safe {
  f_dirs : dirs d <> [];
  f_synced : forall dir i, dir ∈ dirs d -> dir !! f = Some i -> exists l, files d !! i = Some (Fl l true);
  f_apart : forall dir i, dir ∈ dirs d -> dir !! f = Some i -> now d !! tmp <> Some i;
  f_apart' : forall dir i, dir ∈ dirs d -> dir !! f = Some i -> dir !! tmp <> Some i }.
(** The contents [f] may have. *)
Definition value (d : disk) (f : name) (dir : gmap name ino) : option (list byte) := dir !! f ≫= fun i => cached <$> files d !! i.
Definition values (d : disk) (f : name) (x : option (list byte)) : Prop := exists dir, dir ∈ dirs d /\ value d f dir = x.

Lemma now_in (d : disk) : dirs d <> [] -> now d ∈ dirs d.
Proof. unfold now. destruct (dirs d); [done|]. intros _. left. Qed.
Lemma safe_values f tmp d x : safe f tmp d -> may_hold d f x <-> values d f x.
Proof.
  intros [H1 H2 H3 H4]. split.
  - intros [<-|(d' & (dir & Hdir & Hd & Hdom & Hf) & <-)].
    + exists (now d). split; [by apply now_in|done].
    + exists dir. split; [done|]. unfold contents, value, now. rewrite Hd. cbn. destruct (dir !! f) as [i|] eqn:E; [|done]. cbn.
      destruct (H2 dir i Hdir E) as [l Hl]. rewrite Hl. by rewrite (Hf _ _ Hl eq_refl).
  - intros (dir & Hdir & <-). right. exists (Disk [dir] (files d)). split; [|done]. exists dir. split_and!; try done.
Qed.
Lemma step_open f tmp d : f <> tmp -> safe f tmp d -> safe f tmp (step (Open tmp) d) /\ (forall x, values (step (Open tmp) d) f x <-> values d f x).
Proof.
  intros Hne [H1 H2 H3 H4]. cbn. destruct (now d !! tmp) as [t|] eqn:Et.
  - assert (forall dir, dir ∈ dirs d -> value (Disk (dirs d) (<[t := Fl [] false]> (files d))) f dir = value d f dir) as Hv.
    { intros dir Hd. unfold value. cbn. destruct (dir !! f) as [i|] eqn:E; [|done]. cbn. rewrite lookup_insert_ne; [done|]. intros ->. by eapply H3. }
    split; [constructor; cbn|].
    + done.
    + intros dir i Hd E. rewrite lookup_insert_ne; [by eapply H2|]. intros ->. by eapply H3.
    + intros dir i Hd E. change (now d !! tmp <> Some i). rewrite Et. by eapply H3.
    + done.
    + intros x. split; intros (dir & Hd & <-); exists dir; (split; [done|]); [symmetry|]; by apply Hv.
  - set (i0 := fresh (dom (files d))). assert (files d !! i0 = None) as Hi0 by (apply not_elem_of_dom, is_fresh).
    assert (forall dir i, dir ∈ <[tmp := i0]> (now d) :: dirs d -> dir !! f = Some i -> i <> i0 /\ exists dir', dir' ∈ dirs d /\ dir' !! f = Some i) as Hold.
    { intros dir i Hd E. apply elem_of_cons in Hd as [->|Hd].
      - rewrite lookup_insert_ne in E by done. pose proof (now_in d H1) as Hn. split; [|eauto]. intros ->. destruct (H2 _ _ Hn E). congruence.
      - split; [|eauto]. intros ->. destruct (H2 _ _ Hd E). congruence. }
    split; [constructor; cbn|].
    + done.
    + intros dir i Hd E. destruct (Hold _ _ Hd E) as (? & dir' & Hd' & E'). rewrite lookup_insert_ne by done. by eapply H2.
    + intros dir i Hd E. destruct (Hold _ _ Hd E) as (? & _). unfold now. cbn. rewrite lookup_insert. congruence.
    + intros dir i Hd E. destruct (Hold _ _ Hd E) as (? & _). apply elem_of_cons in Hd as [->|Hd]; [rewrite lookup_insert; congruence|by eapply H4].
    + intros x. split; intros (dir & Hd & <-).
      * cbn in Hd. apply elem_of_cons in Hd as [->|Hd].
        -- exists (now d). split; [by apply now_in|]. unfold value. cbn. rewrite lookup_insert_ne by done. destruct (now d !! f) as [i|] eqn:E; [|done]. cbn.
           rewrite lookup_insert_ne; [done|]. intros <-. destruct (H2 _ _ (now_in d H1) E). congruence.
        -- exists dir. split; [done|]. unfold value. cbn. destruct (dir !! f) as [i|] eqn:E; [|done]. cbn. rewrite lookup_insert_ne; [done|]. intros <-. destruct (H2 _ _ Hd E). congruence.
      * exists dir. split; [by right|]. unfold value. cbn. destruct (dir !! f) as [i|] eqn:E; [|done]. cbn. rewrite lookup_insert_ne; [done|]. intros <-. destruct (H2 _ _ Hd E). congruence.
Qed.
(** Changing the temporary file changes nothing else. *)
Lemma step_tmp f tmp d g : safe f tmp d -> (forall t, now d !! tmp = Some t -> files g = <[t := default (Fl [] true) (files g !! t)]> (files d)) -> (now d !! tmp = None -> g = d) -> dirs g = dirs d ->
  safe f tmp g /\ (forall x, values g f x <-> values d f x).
Proof.
  intros Hs Hf Hn Hd. pose proof Hs as [H1 H2 H3 H4]. destruct (now d !! tmp) as [t|] eqn:Et; [|rewrite (Hn eq_refl); done]. specialize (Hf t eq_refl).
  assert (forall dir i, dir ∈ dirs d -> dir !! f = Some i -> files g !! i = files d !! i) as Hv.
  { intros dir i Hi E. rewrite Hf, lookup_insert_ne; [done|]. intros ->. by eapply H3. }
  assert (now g = now d) as Hng by (unfold now; by rewrite Hd).
  split; [constructor|].
  - by rewrite Hd.
  - intros dir i Hi E. rewrite Hd in Hi. rewrite (Hv dir i) by done. by eapply H2.
  - intros dir i Hi E. rewrite Hd in Hi. rewrite Hng, Et. by eapply H3.
  - intros dir i Hi E. rewrite Hd in Hi. by eapply H4.
  - intros x. split; intros (dir & Hi & <-); exists dir; rewrite Hd in *; (split; [done|]); unfold value; (destruct (dir !! f) as [i|] eqn:E; [|done]); cbn; by rewrite (Hv dir i).
Qed.
Lemma step_write f tmp d l : safe f tmp d -> safe f tmp (step (Write tmp l) d) /\ (forall x, values (step (Write tmp l) d) f x <-> values d f x).
Proof.
  intros Hs. apply step_tmp; [done| | |]; cbn; destruct (now d !! tmp) as [t|]; try done. intros ? [= <-]. cbn. by rewrite lookup_insert.
Qed.
Lemma step_fsync f tmp d : safe f tmp d -> safe f tmp (step (Fsync tmp) d) /\ (forall x, values (step (Fsync tmp) d) f x <-> values d f x).
Proof.
  intros Hs. apply step_tmp; [done| | |]; cbn; destruct (now d !! tmp) as [t|]; try done. intros ? [= <-]. cbn. by rewrite lookup_insert.
Qed.
Lemma step_rename f tmp d t l : f <> tmp -> safe f tmp d -> now d !! tmp = Some t -> files d !! t = Some (Fl l true) ->
  safe f tmp (step (Rename tmp f) d) /\ (forall x, values (step (Rename tmp f) d) f x <-> x = Some l \/ values d f x) /\ contents (step (Rename tmp f) d) f = Some l.
Proof.
  intros Hne [H1 H2 H3 H4] Et Hl. cbn. rewrite Et. split_and!.
  - constructor; cbn; [done| | |].
    + intros dir i Hd E. apply elem_of_cons in Hd as [->|Hd]; [|by eapply H2]. rewrite lookup_delete_ne, lookup_insert in E by done. injection E as <-. by exists l.
    + intros dir i Hd E. unfold now. cbn. by rewrite lookup_delete.
    + intros dir i Hd E. apply elem_of_cons in Hd as [->|Hd]; [by rewrite lookup_delete|by eapply H4].
  - intros x. split.
    + intros (dir & Hd & <-). cbn in Hd. apply elem_of_cons in Hd as [->|Hd]; [left|right; by exists dir]. unfold value. cbn. rewrite lookup_delete_ne, lookup_insert by done. cbn. by rewrite Hl.
    + intros [->|(dir & Hd & <-)]; [|exists dir; split; [by right|done]]. eexists. split; [left|]. unfold value. cbn. rewrite lookup_delete_ne, lookup_insert by done. cbn. by rewrite Hl.
  - unfold contents, now. cbn. rewrite lookup_delete_ne, lookup_insert by done. cbn. by rewrite Hl.
Qed.
Lemma step_fsyncdir f tmp d : safe f tmp d -> safe f tmp (step FsyncDir d) /\ (forall x, values (step FsyncDir d) f x <-> x = contents d f).
Proof.
  intros [H1 H2 H3 H4]. pose proof (now_in d H1) as Hn. split; [constructor; cbn|].
  - done.
  - intros dir i ->%elem_of_list_singleton E. by eapply H2.
  - intros dir i ->%elem_of_list_singleton E. unfold now. cbn. by eapply H3.
  - intros dir i ->%elem_of_list_singleton E. by eapply H3.
  - intros x. split; [intros (dir & ->%elem_of_list_singleton & <-); done|]. intros ->. exists (now d). split; [left|done].
Qed.
(** Losing power on a safe disk leaves a safe one; so does being killed, trivially. *)
Lemma power_failure_safe f tmp d d' : safe f tmp d -> power_failure d d' -> safe f tmp d'.
Proof.
  intros [H1 H2 H3 H4] (dir & Hd & Hdirs & Hdom & Hf). constructor; rewrite ?Hdirs; [done| | |].
  - intros dir' i ->%elem_of_list_singleton E. destruct (H2 _ _ Hd E) as [l Hl]. exists l. by apply Hf.
  - intros dir' i ->%elem_of_list_singleton E. unfold now. rewrite Hdirs. cbn. by eapply H4.
  - intros dir' i ->%elem_of_list_singleton E. by eapply H4.
Qed.
(** While the temporary file is written. *)
Lemma writes_safe f tmp ps d : safe f tmp d -> safe f tmp (run (Write tmp <$> ps) d) /\ (forall x, values (run (Write tmp <$> ps) d) f x <-> values d f x).
Proof.
  unfold run. revert d. induction ps as [|p ps IH]; intros d Hs; [done|]. cbn [fmap list_fmap foldl].
  destruct (step_write f tmp d p Hs) as [Hs1 Hv1]. destruct (IH _ Hs1) as [Hs2 Hv2]. split; [exact Hs2|]. intros x. rewrite <- Hv1. apply Hv2.
Qed.
Lemma writes_contents tmp (ps : list (list byte)) (d : disk) t l b : now d !! tmp = Some t -> files d !! t = Some (Fl l b) ->
  exists b', now (run (Write tmp <$> ps) d) !! tmp = Some t /\ files (run (Write tmp <$> ps) d) !! t = Some (Fl (l ++ concat ps) b').
Proof.
  unfold run. revert d l b. induction ps as [|p ps IH]; intros d l b Ht Hl; [exists b; by rewrite app_nil_r|]. cbn [fmap list_fmap foldl concat].
  destruct (IH (step (Write tmp p) d) (l ++ p) false) as (b' & ? & ?).
  - cbn. rewrite Ht. cbn. done.
  - cbn. rewrite Ht. cbn. rewrite Hl, lookup_insert. done.
  - exists b'. rewrite app_assoc. done.
Qed.
Lemma run_app (a b : list (op byte)) d : run (a ++ b) d = run b (run a d).
Proof. unfold run. by rewrite foldl_app. Qed.
Lemma open_contents tmp (d : disk) : exists t, now (step (Open tmp) d) !! tmp = Some t /\ files (step (Open tmp) d) !! t = Some (Fl [] false).
Proof.
  cbn. destruct (now d !! tmp) as [t|] eqn:Et.
  - exists t. split; [done|]. cbn. by rewrite lookup_insert.
  - eexists. unfold now. cbn. rewrite lookup_insert. split; [done|]. by rewrite lookup_insert.
Qed.
Lemma fsync_contents tmp (d : disk) t l b : now d !! tmp = Some t -> files d !! t = Some (Fl l b) ->
  now (step (Fsync tmp) d) !! tmp = Some t /\ files (step (Fsync tmp) d) !! t = Some (Fl l true).
Proof. intros Ht Hl. cbn. rewrite Ht. cbn. rewrite Hl, lookup_insert. done. Qed.
(** The states in which [write_params] can be interrupted. *)
Lemma params_steps f tmp pieces d k : f <> tmp -> safe f tmp d -> let d' := run (take k (write_params f tmp pieces)) d in
  safe f tmp d' /\ (forall x, values d' f x -> values d f x \/ x = Some (concat pieces)) /\
  (length (write_params f tmp pieces) <= k -> forall x, values d' f x <-> x = Some (concat pieces)).
Proof.
  intros Hne Hs d'. subst d'. unfold write_params. destruct k as [|k]. { cbn. split; [done|]. split; [by left|]. intros H. lia. }
  cbn [take length]. change (run (Open tmp :: ?l) d) with (run l (step (Open tmp) d)).
  destruct (step_open f tmp d Hne Hs) as [Hs1 Hv1]. destruct (open_contents tmp d) as (t & Ht1 & Hl1). set (d1 := step (Open tmp) d) in *. clearbody d1.
  rewrite firstn_app, run_app, <- fmap_take, fmap_length.
  destruct (writes_safe f tmp (take k pieces) d1 Hs1) as [Hs2 Hv2]. destruct (writes_contents tmp (take k pieces) d1 t _ _ Ht1 Hl1) as (b & Ht2 & Hl2). cbn [app] in Hl2.
  set (d2 := run (Write tmp <$> take k pieces) d1) in *. clearbody d2.
  assert (forall x, values d2 f x <-> values d f x) as Hv2' by (intros x; rewrite Hv2; apply Hv1).
  destruct (k - length pieces) as [|m] eqn:Em. { cbn. split; [done|]. split; [intros x; rewrite Hv2'; by left|]. rewrite app_length, fmap_length. cbn. lia. }
  rewrite (take_ge pieces) in Hl2 by lia. cbn [take]. change (run (Fsync tmp :: ?l) d2) with (run l (step (Fsync tmp) d2)).
  destruct (step_fsync f tmp d2 Hs2) as [Hs3 Hv3]. destruct (fsync_contents tmp d2 t _ _ Ht2 Hl2) as [Ht3 Hl3]. set (d3 := step (Fsync tmp) d2) in *. clearbody d3.
  assert (forall x, values d3 f x <-> values d f x) as Hv3' by (intros x; rewrite Hv3; apply Hv2').
  destruct m as [|m]. { cbn. split; [done|]. split; [intros x; rewrite Hv3'; by left|]. rewrite app_length, fmap_length. cbn. lia. }
  cbn [take]. change (run (Rename tmp f :: ?l) d3) with (run l (step (Rename tmp f) d3)).
  destruct (step_rename f tmp d3 t _ Hne Hs3 Ht3 Hl3) as (Hs4 & Hv4 & Hc4). set (d4 := step (Rename tmp f) d3) in *. clearbody d4.
  destruct m as [|m]. { cbn. split; [done|]. split; [intros x; rewrite Hv4, Hv3'; tauto|]. rewrite app_length, fmap_length. cbn. lia. }
  cbn [take]. rewrite take_nil. change (run [FsyncDir] d4) with (step FsyncDir d4).
  destruct (step_fsyncdir f tmp d4 Hs4) as [Hs5 Hv5]. rewrite Hc4 in Hv5. split; [done|]. split; [intros x Hx%Hv5; by right|]. intros _. apply Hv5.
Qed.
(** After any number of the steps of [write_params], whether the process is killed there or the power fails, the file
    holds what it may have held before, or the new contents; after all of them the new contents, for good. *)
Theorem params_atomic f tmp (pieces : list (list byte)) (d : disk) k x : f <> tmp -> safe f tmp d ->
  may_hold (run (take k (write_params f tmp pieces)) d) f x -> may_hold d f x \/ x = Some (concat pieces).
Proof.
  intros Hne Hs Hx. destruct (params_steps f tmp pieces d k Hne Hs) as (Hs' & Hv & _). apply (safe_values f tmp _ _ Hs') in Hx. rewrite (safe_values f tmp d x Hs). by apply Hv.
Qed.
Theorem params_durable f tmp (pieces : list (list byte)) (d : disk) x : f <> tmp -> safe f tmp d -> may_hold (run (write_params f tmp pieces) d) f x <-> x = Some (concat pieces).
Proof.
  intros Hne Hs. destruct (params_steps f tmp pieces d (length (write_params f tmp pieces)) Hne Hs) as (Hs' & _ & Hv). rewrite firstn_all in *. rewrite (safe_values f tmp _ _ Hs'). by apply Hv.
Qed.
(** The condition holds for ever: from a disk on which the file was never written, through any number of interrupted
    and completed replacements and power failures. *)
Inductive history (f tmp : name) : disk -> Prop :=
  | hist_new d : dirs d <> [] -> (forall dir, dir ∈ dirs d -> dir !! f = None) -> history f tmp d
  | hist_write d pieces k : history f tmp d -> history f tmp (run (take k (write_params f tmp pieces)) d)
  | hist_power d d' : history f tmp d -> power_failure d d' -> history f tmp d'.
Theorem history_safe f tmp d : f <> tmp -> history f tmp d -> safe f tmp d.
Proof.
  intros Hne. induction 1 as [d H1 H2|d ps k _ IH|d d' _ IH Hp].
  - constructor; [done|..]; intros dir i Hd E; rewrite (H2 _ Hd) in E; done.
  - exact (proj1 (params_steps f tmp ps d k Hne IH)).
  - by eapply power_failure_safe.
Qed.
(** An object of the local backend is replaced in one step as far as other processes, and a crash of this one, are
    concerned. *)
Theorem object_replaced f tmp (pieces : list (list byte)) (d : disk) k : f <> tmp -> dirs d <> [] -> (forall i, now d !! f = Some i -> now d !! tmp <> Some i /\ i ∈ dom (files d)) ->
  contents (run (take k (write_object f tmp pieces)) d) f = contents d f \/ contents (run (take k (write_object f tmp pieces)) d) f = Some (concat pieces).
Proof.
  intros Hne Hd Ha. unfold write_object. destruct k as [|k]; [by left|]. cbn [take]. change (run (Open tmp :: ?l) d) with (run l (step (Open tmp) d)).
  destruct (open_contents tmp d) as (t & Ht1 & Hl1).
  assert (contents (step (Open tmp) d) f = contents d f /\ now (step (Open tmp) d) !! f <> Some t) as [Hc1 Ha1].
  { cbn in *. unfold contents, now in *. destruct (dirs d) as [|dir ds]; [done|]. cbn in *. destruct (dir !! tmp) as [t0|] eqn:Et; cbn in *.
    - assert (t = t0) as -> by congruence. destruct (dir !! f) as [i|] eqn:E; [|done]. cbn. destruct (Ha i eq_refl) as [Hi _]. rewrite lookup_insert_ne by congruence. done.
    - rewrite lookup_insert in Ht1. injection Ht1 as <-. rewrite lookup_insert_ne by done. destruct (dir !! f) as [i|] eqn:E; [|done]. cbn. destruct (Ha i eq_refl) as [_ Hi].
      assert (i <> fresh (dom (files d))) as Hn. { intros ->. by apply (is_fresh (dom (files d))). } rewrite lookup_insert_ne by done. split; [done|congruence]. }
  set (d1 := step (Open tmp) d) in *. clearbody d1. rewrite firstn_app, run_app, <- fmap_take, fmap_length.
  destruct (writes_contents tmp (take k pieces) d1 t _ _ Ht1 Hl1) as (b & Ht2 & Hl2). cbn [app] in Hl2.
  assert (contents (run (Write tmp <$> take k pieces) d1) f = contents d f /\ now (run (Write tmp <$> take k pieces) d1) = now d1) as [Hc2 Hn2].
  { rewrite <- Hc1. clear -Ht1 Ha1. unfold run. generalize (take k pieces). intros ps. revert d1 Ht1 Ha1. induction ps as [|p ps IH]; intros d1 Ht Ha; [done|]. cbn [fmap list_fmap foldl].
    assert (now (step (Write tmp p) d1) = now d1) as Hn by (cbn; rewrite Ht; done). destruct (IH (step (Write tmp p) d1)) as [Hc Hn']; [by rewrite Hn|by rewrite Hn|]. split; [|by rewrite Hn'].
    rewrite Hc. unfold contents. rewrite Hn. destruct (now d1 !! f) as [i|] eqn:E; [|done]. cbn. rewrite Ht. cbn. rewrite lookup_insert_ne by congruence. done. }
  set (d2 := run (Write tmp <$> take k pieces) d1) in *. clearbody d2.
  destruct (k - length pieces) as [|m] eqn:Em; [by left|]. rewrite (take_ge pieces) in Hl2 by lia. cbn [take]. rewrite take_nil. right.
  unfold run. cbn. rewrite Ht2. unfold contents, now. cbn. rewrite lookup_delete_ne, lookup_insert by done. cbn. by rewrite Hl2.
Qed.
End props.

(** But not when the power fails: the object's data was never synchronised. *)
Definition d0 : disk nat := Disk [{[ 0 := 10 ]}] {[ 10 := Fl [1; 2] true ]}.
Theorem object_power_refuted : exists d' : disk nat, power_failure (run (write_object 0 1 [[3]; [4]]) d0) d' /\ contents d' 0 = Some [].
Proof.
  pose (d := run (write_object 0 1 [[3]; [4]]) d0). exists (Disk [now d] (<[fresh (dom (files d0)) := Fl [] false]> (files d))). split; [|done].
  exists (now d). split_and!; [left|done| |].
  - cbn [files]. rewrite dom_insert_L. apply subseteq_union_1_L, singleton_subseteq_l, elem_of_dom. vm_compute. by eexists.
  - intros i f Hi Hs. cbn [files]. destruct (decide (i = fresh (dom (files d0)))) as [->|Hne]; [|by rewrite lookup_insert_ne].
    exfalso. vm_compute in Hi. injection Hi as <-. done.
Qed.
(** A replacement that is killed after the second piece, one that completes, and a power failure in a third one. *)
Example history_example : exists d : disk nat, history 0 1 d /\ contents d 0 = Some [7; 8] /\ may_hold d 0 (Some [7; 8]) /\ may_hold d 0 (Some [5]) /\ ~ may_hold d 0 (Some [7]).
Proof.
  pose (d1 := run (take 2 (write_params 0 1 [[3]; [4]])) (Disk [∅] ∅ : disk nat)). pose (d2 := run (write_params 0 1 [[5]]) d1).
  pose (d3 := run (take 5 (write_params 0 1 [[7]; [8]])) d2).
  assert (history 0 1 d1) as H1. { apply hist_write, hist_new; [done|]. intros dir ->%elem_of_list_singleton. done. }
  assert (history 0 1 d2) as H2. { unfold d2. rewrite <- (firstn_all (write_params 0 1 [[5]])). by apply hist_write. }
  assert (history 0 1 d3) as H3 by (by apply hist_write).
  exists d3. pose proof (history_safe 0 1 d3 ltac:(done) H3) as Hs. rewrite !(safe_values 0 1 d3) by done. split; [done|]. split; [reflexivity|]. split_and!.
  - eexists. split; [left|reflexivity].
  - eexists. split; [right; left|reflexivity].
  - intros (dir & Hd & Hv). destruct (params_steps 0 1 [[7]; [8]] d2 5 ltac:(done) (history_safe 0 1 d2 ltac:(done) H2)) as (_ & Hp & _).
    destruct (Hp (Some [7])) as [(dir' & Hd' & Hv')|?]; [by exists dir| |done].
    destruct (params_steps 0 1 [[5]] d1 (length (write_params 0 1 [[5]])) ltac:(done) (history_safe 0 1 d1 ltac:(done) H1)) as (_ & _ & Hq).
    rewrite firstn_all in Hq. assert (values d2 0 (Some [7])) as Hx by (by exists dir'). apply Hq in Hx; done.
Qed.
Print Assumptions params_atomic.
Print Assumptions params_durable.
Print Assumptions history_safe.
Print Assumptions object_replaced.
Print Assumptions object_power_refuted.
