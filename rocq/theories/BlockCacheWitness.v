(** Concrete executions of the block cache, used in the examples of BlockCacheProps. *)
From stdpp Require Import prelude list gmap.
From Coq Require Import ZArith.
From Verif Require Import BlockCacheModel BlockCacheSpec.

Notation hstate := (state (list nat)).
(** The hash is the content itself. *)
Definition hid (c : list nat) : list nat := c.
Lemma hid_free cur ls : collision_free hid cur ls.
Proof. by intros c c' _ _. Qed.
(** An empty file system. *)
Definition empty_fs (maxs maxe : Z) : hstate :=
  State (Shared [] ∅ 0 0 maxs maxe ∅ ∅ ∅ 0 ∅ 0 ∅ [] [] ∅ false) ∅.
Lemma empty_mounted maxs maxe : mounted hid (empty_fs maxs maxe) (fun _ => []).
Proof.
  split; try done; try (intros; simpl in *; by rewrite ?lookup_empty in *).
  - constructor.
  - intros k e Hin. by apply elem_of_nil in Hin.
Qed.
(** Execution of a list of steps; [None] if one of them is not possible. *)
Section go.
Context {H : Type} `{EqDecision H} (sha : list nat -> H) (nw qc : nat).
Fixpoint go (s : state H) (cur : contents) (ls : list label) : option (state H * contents) :=
  match ls with
  | [] => Some (s, cur)
  | l :: ls => match step sha nw qc s l with Some s1 => go s1 (history s l cur) ls | None => None end
  end.
Definition plain (l : label) : Prop := match l with LCopy _ _ => False | _ => True end.
Definition safe (l : label) : Prop := match l with LCopy _ _ | LFailed _ _ => False | _ => True end.
Lemma go_run ls s cur s' cur' : go s cur ls = Some (s', cur') -> Forall plain ls -> run sha nw qc s cur ls s' cur'.
Proof.
  revert s cur. induction ls as [|l ls IH]; simpl; intros s cur Hg Hp; [injection Hg as -> ->; constructor|].
  apply Forall_cons in Hp as [Hl Hp]. destruct (step sha nw qc s l) as [s1|] eqn:Hs; [|done].
  econstructor; [done|by intros k k' ->|by apply IH].
Qed.
Lemma go_good ls s cur s' cur' : go s cur ls = Some (s', cur') -> Forall safe ls -> good_run sha nw qc s cur ls s' cur'.
Proof.
  revert s cur. induction ls as [|l ls IH]; simpl; intros s cur Hg Hp; [injection Hg as -> ->; constructor|].
  apply Forall_cons in Hp as [Hl Hp]. destruct (step sha nw qc s l) as [s1|] eqn:Hs; [|done].
  econstructor; [done|by intros k k' ->| |by apply IH]. by intros (j & st & e & o & k & -> & _).
Qed.
Lemma go_steps ls s cur s' cur' : go s cur ls = Some (s', cur') -> steps sha nw qc s ls s'.
Proof.
  revert s cur. induction ls as [|l ls IH]; simpl; intros s cur Hg; [injection Hg as -> ->; constructor|].
  destruct (step sha nw qc s l) as [s1|] eqn:Hs; [|done]. econstructor; [done|by eapply IH].
Qed.
End go.

(** [n] steps of task [t]. *)
Definition runs (t n : nat) : list label := replicate n (LRun t).
(** Task [t] writes a block that is not being used; [n]: number of steps of get(). *)
Definition put (t : nat) (k : nat * nat) (n : nat) (c : list nat) : list label :=
  LCall t (CGet k None) :: runs t n ++ [LWrite t c; LLeave t; LRun t].

Notation K0 := (1, 0).
Notation K1 := (1, 1).
Definition st (r : option (hstate * contents)) : hstate := match r with Some (s, _) => s | None => empty_fs 0 0 end.
Definition cu (r : option (hstate * contents)) : contents := match r with Some (_, cur) => cur | None => fun _ => [] end.
Lemma go_some r : (match r with Some _ => true | None => false end) = true -> r = Some (st r, cu r).
Proof. by destruct r as [[s cur]|]. Qed.
(** One upload task, room for one object in the removal queue. *)
Notation G e ls := (go hid 1 1 (empty_fs 100 e) (fun _ => []) ls).
Notation GS e ls := (st (G e ls)).
Notation GC e ls := (cu (G e ls)).

(** Two blocks are written, flushed, dropped and one is read again; then it gets the content of the other one. *)
Definition demo_write : list label := put 1 K0 4 [7] ++ put 2 K1 4 [8; 9].
Definition demo_flush : list label := runs 3 7 ++ [LUploaded 0; LJobRelease 0] ++ runs 3 6 ++ [LUploaded 0; LJobRelease 0] ++ runs 3 8.
Definition demo_flushed : list label := demo_write ++ LCall 3 CFlush :: demo_flush.
Definition demo_dropped : list label := demo_flushed ++ LCall 4 CDrop :: runs 4 14.
Definition demo_read : list label := demo_dropped ++ LCall 1 (CGet K1 None) :: runs 1 7.
Definition demo_start : list label := demo_read ++ [LWrite 1 [7]; LLeave 1; LRun 1].
Definition demo_started : list label := demo_start ++ LCall 2 (CStart None) :: runs 2 11.
Definition demo_end : list label := demo_started ++ [LBatch; LDeleted].

(** A block is deduplicated against an object whose upload then fails. *)
Definition demo_fail : list label := put 1 K0 4 [7] ++ put 2 K1 4 [7] ++ LCall 3 (CStart None) :: runs 3 14.
Definition lost : list label := demo_fail ++ [LFailed 0 false; LJobRelease 0] ++
  LCall 1 (CGet K0 (Some 0)) :: runs 1 3 ++ [LLeave 1; LRun 1] ++
  LCall 2 (CGet (2, 0) None) :: runs 2 10 ++
  LCall 4 (CGet K1 None) :: runs 4 7.
(** The backend stores an object and reports a failure; then the block is removed. *)
Definition leak : list label := put 1 K0 4 [7] ++ LCall 3 (CStart None) :: runs 3 8 ++ [LFailed 0 true; LJobRelease 0] ++
  LCall 1 (CRemove 1 [0]) :: runs 1 7.
(** start_flush while flush computes the hash of the block. *)
Definition early_pre : list label := put 1 K0 4 [7] ++ LCall 3 CFlush :: runs 3 5.
Definition early : list label := early_pre ++ LCall 4 (CStart (Some 1)) :: runs 4 4.
(** Two concurrent drop() calls. *)
Definition two_drops : list label := [LCall 1 CDrop; LCall 2 CDrop; LRun 1; LRun 2; LRun 1; LRun 2].
(** flush returns while the object that has the content of the block is still being uploaded for another block. *)
Definition pending_pre : list label := (LCall 1 (CGet K0 None) :: runs 1 4) ++ put 2 K1 4 [7].
Definition pending_suf : list label := runs 3 3 ++ [LWrite 1 [7]; LLeave 1; LRun 1] ++ LCall 4 (CStart (Some 1)) :: runs 4 6 ++ runs 3 7.
Definition pending : list label := pending_pre ++ LCall 3 CFlush :: pending_suf.

Section lemmas.
Context {H : Type} `{EqDecision H} (sha : list nat -> H) (nw qc : nat).
Lemma go_app ls1 ls2 (s : state H) cur : go sha nw qc s cur (ls1 ++ ls2) =
  match go sha nw qc s cur ls1 with Some (s1, cur1) => go sha nw qc s1 cur1 ls2 | None => None end.
Proof. revert s cur. induction ls1 as [|l ls1 IH]; intros s cur; simpl; [done|]. destruct (step sha nw qc s l); [apply IH|done]. Qed.
Definition quiet (l : label) : Prop := match l with LWrite _ _ | LFailed _ _ => False | _ => True end.
Lemma quiet_undisturbed k (s : state H) ls : Forall quiet ls -> ~ disturbed sha nw qc k s ls.
Proof.
  intros Hq Hd. induction Hd as [s t c ls Hu|s j st e o ls Hj He|s l s1 ls Hs Hd IH]; apply Forall_cons in Hq as [Hq1 Hq2]; [done|done|by apply IH].
Qed.
Definition nodropcall (t : option nat) (l : label) : Prop :=
  match l with LCall t' c => c <> CDrop /\ t <> Some t' | _ => True end.
Lemma steps_one_drop d (s : state H) ls s' : steps sha nw qc s ls s' -> Forall (nodropcall d) ls -> one_drop sha nw qc d s ls s' d.
Proof.
  induction 1 as [s|s l s1 ls s2 Hs Hst IH]; [intros; constructor|]. intros Hf. apply Forall_cons in Hf as [Hl Hf].
  eapply one_step; [done| | |by apply IH].
  - intros t ->. by destruct Hl.
  - intros t c ->. by destruct Hl.
Qed.
Lemma one_drop_app d (s : state H) ls s1 d1 ls' s2 d2 : one_drop sha nw qc d s ls s1 d1 -> one_drop sha nw qc d1 s1 ls' s2 d2 -> one_drop sha nw qc d s (ls ++ ls') s2 d2.
Proof. induction 1; intros Ho; simpl; [done|eapply one_call; eauto|eapply one_step; eauto|eapply one_done; eauto]. Qed.
Definition quietb (s : state H) : bool :=
  forallb (fun p => match p.2 with [] => true | _ => false end) (map_to_list (tasks s)) &&
  match map_to_list (jobs (sh s)), rmq (sh s), removing (sh s) with [], [], [] => true | _, _, _ => false end.
Lemma quietb_ok (s : state H) : quietb s = true -> quiescent s.
Proof.
  unfold quietb. intros [Ht Hr]%andb_true_iff. destruct (map_to_list (jobs (sh s))) eqn:Hj; [|done].
  destruct (rmq (sh s)) eqn:Hq; [|done]. destruct (removing (sh s)) eqn:Hm; [|done]. split; [|by apply map_to_list_empty_iff|done|done].
  intros t fs Hf. rewrite forallb_forall in Ht. apply elem_of_map_to_list, elem_of_list_In, Ht in Hf. by destruct fs.
Qed.
Lemma unrecoverable (x : shared H) cur k o : cget k (cache x) = None -> blocks x !! k = Some o -> store x !! o = None ->
  bool_decide (o ∈ inflight x) = false -> ~ recoverable sha x cur k.
Proof.
  unfold recoverable. intros H1 H2 H3 H4%bool_decide_eq_false. rewrite H1, H2.
  intros [(e & ? & _)|[(_ & ? & _)|[(o' & _ & [= <-] & Hst)|(o' & ob & k' & e & _ & [= <-] & Hin & _)]]]; try done. by rewrite H3 in Hst.
Qed.
Definition nocall (t : nat) (l : label) : Prop := match l with LCall t' _ => t' <> t | _ => True end.
Lemma nocall_list t ls : Forall (nocall t) ls -> no_call t ls.
Proof. intros Hf c Hin. rewrite Forall_forall in Hf. by apply Hf in Hin. Qed.
Fixpoint disturbedb (k : nat * nat) (s : state H) (ls : list label) : bool :=
  match ls with
  | [] => false
  | l :: ls =>
    match l with
    | LWrite t _ => bool_decide (in_use s t = Some k)
    | LFailed j _ => match jobs (sh s) !! j with Some (JUp e _) => bool_decide (e.1 = k) | _ => false end
    | _ => false
    end || match step sha nw qc s l with Some s1 => disturbedb k s1 ls | None => false end
  end.
Lemma disturbedb_ok k (s : state H) ls : disturbedb k s ls = false -> ~ disturbed sha nw qc k s ls.
Proof.
  intros Hb Hd. assert (disturbedb k s ls = true) as Ht; [|congruence]. clear Hb.
  induction Hd as [s t c ls Hu|s j st e o ls Hj He|s l s1 ls Hs Hd IH].
  - cbn [disturbedb]. by rewrite bool_decide_eq_true_2.
  - cbn [disturbedb]. rewrite Hj. by rewrite bool_decide_eq_true_2.
  - cbn [disturbedb]. rewrite Hs, IH. apply orb_true_r.
Qed.
End lemmas.

Definition ok (r : option (hstate * contents)) : bool := match r with Some _ => true | None => false end.
Lemma ok_prefix e ls ls' : ok (G e (ls ++ ls')) = true -> G e ls = Some (GS e ls, GC e ls).
Proof. rewrite go_app. destruct (G e ls) as [[s cur]|]; done. Qed.
Lemma go_next e ls ls' : ok (G e (ls ++ ls')) = true -> go hid 1 1 (GS e ls) (GC e ls) ls' = Some (GS e (ls ++ ls'), GC e (ls ++ ls')).
Proof.
  intros Hok. pose proof (ok_prefix _ _ _ Hok) as Hp. pose proof (go_some _ Hok) as Hs. rewrite <- Hs. rewrite go_app, Hp. done.
Qed.
Lemma steps_next e ls ls' : ok (G e (ls ++ ls')) = true -> steps hid 1 1 (GS e ls) ls' (GS e (ls ++ ls')).
Proof. intros Hok. eapply go_steps. by apply go_next. Qed.
Lemma step_next e ls l : ok (G e (ls ++ [l])) = true -> step hid 1 1 (GS e ls) l = Some (GS e (ls ++ [l])).
Proof. intros Hok. apply go_next in Hok. cbn [go] in Hok. destruct (step hid 1 1 (GS e ls) l); [|done]. by injection Hok as ->. Qed.
Lemma call_cur e ls t c : ok (G e (ls ++ [LCall t c])) = true -> GC e (ls ++ [LCall t c]) = GC e ls.
Proof. intros Hok. apply go_next in Hok. cbn [go] in Hok. destruct (step hid 1 1 (GS e ls) (LCall t c)); [|done]. by injection Hok as _ <-. Qed.
Lemma good_next e ls t c ls' : ok (G e (ls ++ LCall t c :: ls')) = true -> Forall safe ls' ->
  good_run hid 1 1 (GS e (ls ++ [LCall t c])) (GC e ls) ls' (GS e (ls ++ LCall t c :: ls')) (GC e (ls ++ LCall t c :: ls')).
Proof.
  intros Hok Hs. rewrite (cons_middle (LCall t c) ls ls') in *. rewrite app_assoc in *. pose proof (ok_prefix _ _ _ Hok) as Hp.
  rewrite <- (call_cur _ _ t c) by (by rewrite Hp). apply go_good; [|done]. by apply go_next.
Qed.
