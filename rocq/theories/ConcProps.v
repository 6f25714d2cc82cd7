(** C77: requests on files that are handled at the same time *)
From stdpp Require Import prelude list gmap.
From Verif Require Import Files FileModel FileSpec ConcModel ConcSpec ConcProofs.

(** Every answer is the one that byte arrays would give, on which each request takes effect at one moment while it is being handled *)
Theorem conc_answers bs evs s l t a : 0 < bs -> all_polite (World ∅ ∅ ∅) evs -> crun bs cinit evs = Some (s, l) -> (t, a) ∈ l -> due (wrun evs) !! t = Some a.
Proof. intros Hb P E. eapply run_inv; [done | apply inv_init | | done | done]. intros t' i o b. cbn. by rewrite lookup_empty. Qed.
(** The sizes are at any time those of the arrays *)
Theorem conc_size bs evs s l ino : 0 < bs -> all_polite (World ∅ ∅ ∅) evs -> crun bs cinit evs = Some (s, l) -> sizes (fs s) !! ino = length <$> arrs (wrun evs) !! ino.
Proof. intros Hb P E. eapply (run_inv bs Hb) in E as [I _]; [apply I | apply inv_init | | done]. intros t' i o b. cbn. by rewrite lookup_empty. Qed.
(** When all requests have ended, the files contain what the arrays contain *)
Theorem conc_contents bs evs s l ino a off len : 0 < bs -> all_polite (World ∅ ∅ ∅) evs -> crun bs cinit evs = Some (s, l) -> flight (wrun evs) = ∅ -> arrs (wrun evs) !! ino = Some a -> (do_read bs (fs s) ino off len).2 = Ok (fread off len a).
Proof. intros Hb P E Hq Ha. eapply (run_inv bs Hb) in E as [I _]; [by eapply quiet_read | apply inv_init | | done]. intros t' i o b. cbn. by rewrite lookup_empty. Qed.
(** Whatever the others do, a request that is being handled gets an answer if it is given the time *)
Theorem conc_ends bs evs s l t : 0 < bs -> all_polite (World ∅ ∅ ∅) evs -> crun bs cinit evs = Some (s, l) -> is_Some (flight (wrun evs) !! t) -> exists more s' a, Forall (is_of t) more /\ crun bs cinit (evs ++ more) = Some (s', l ++ [(t, a)]).
Proof.
  intros Hb P E [r Hr]. pose proof E as E'. eapply (run_inv bs Hb) in E as [I _]; [|apply inv_init | intros t' i o b; cbn; by rewrite lookup_empty | done].
  destruct (tasks s !! t) as [k|] eqn:Ht; [|apply (i_none _ _ _ I) in Ht; unfold wrun in Hr; congruence]. destruct (ends bs Hb (measure k) _ _ _ _ I Ht (le_n _)) as (more & s' & a & F & R). exists more, s', a. split; [done|]. rewrite crun_app, E', R. done.
Qed.

(** * Examples *)
Definition busy : list event :=
  [New 1; Begin 1 (RWrite 1 0 [1; 2; 3]); Begin 2 (RWrite 1 3 [4; 5]); Work 1; Work 2; Work 2; Begin 3 (RRead 1 6 2); Work 1; Finish 2; Begin 4 (RRead 1 3 9); Finish 1; Work 4; Begin 5 (RRead 1 0 9); Work 5; Work 5; Work 4; Finish 3; Work 5;
   Finish 4; Finish 5; Begin 6 (RTrunc 1 1); Remove 6 2; New 2; Remove 6 1; Work 6; Finish 6].
#[local] Instance compatible_dec r1 r2 : Decision (compatible r1 r2).
Proof. unfold compatible, apart. destruct r1, r2; apply _. Defined.
#[local] Instance polite_dec w e : Decision (polite w e).
Proof.
  destruct e as [t r| | | |]; cbn; try apply _. change (Decision (flight w !! t = None /\ due w !! t = None /\ is_Some (arrs w !! file_of r) /\ map_Forall (fun _ r' => compatible r r') (flight w) /\
    match r with RRead _ _ _ => True | RWrite _ off buf => buf <> [] /\ (Z.of_nat (off + length buf) < 2 ^ 53)%Z | RTrunc _ len => (Z.of_nat len < 2 ^ 53)%Z end)).
  assert (EqDecision answer) by (intros x y; unfold Decision; repeat decide equality). assert (EqDecision request) by (intros x y; unfold Decision; repeat decide equality). destruct r; apply _.
Defined.
#[local] Instance all_polite_dec w evs : Decision (all_polite w evs).
Proof. revert w. induction evs as [|e evs IH]; intros w; cbn; apply _. Defined.
Lemma busy_polite : all_polite (World ∅ ∅ ∅) busy.
Proof. apply (bool_decide_unpack _). vm_compute. exact I. Qed.
Example conc_example : snd <$> crun 2 cinit busy = Some [(2, ANum 2); (1, ANum 3); (3, AData []); (4, AData [4; 5]); (5, AData [1; 2; 3; 4; 5]); (6, ADone)].
Proof. vm_compute. reflexivity. Qed.
Example conc_example_arrays : arrs (wrun busy) !! 1 = Some [1] /\ flight (wrun busy) = ∅.
Proof. split; [vm_compute; reflexivity | apply map_size_empty_inv; vm_compute; reflexivity]. Qed.

(** * What does not hold for requests that overlap *)
Definition going_on (e : event) : Prop := match e with Work _ | Remove _ _ | Finish _ => True | _ => False end.
(** What is left to do, the contents, and the answers *)
Definition outcome (bs len : nat) (o : cstate * list (nat * answer)) : nat * res (list byte) * list (nat * answer) := (size (tasks o.1), (do_read bs (fs o.1) 1 0 len).2, o.2).
Lemma outcome_right bs len evs x : outcome bs len <$> crun bs cinit evs = Some x -> exists s l, crun bs cinit evs = Some (s, l) /\ (x.1.1 = 0 -> tasks s = ∅) /\ (do_read bs (fs s) 1 0 len).2 = x.1.2 /\ l = x.2.
Proof. destruct (crun bs cinit evs) as [[s l]|]; [|done]. cbn. intros [= <-]. exists s, l. split; [done|]. split; [apply map_size_empty_inv | done]. Qed.
(** Two writes to the same place: the file may contain parts of both *)
Theorem conc_writes_refuted : ~ forall bs (buf1 buf2 : list byte) evs s l, 0 < bs -> length buf1 = length buf2 -> Forall going_on evs ->
  crun bs cinit ([New 1; Begin 1 (RWrite 1 0 buf1); Begin 2 (RWrite 1 0 buf2)] ++ evs) = Some (s, l) -> tasks s = ∅ -> (do_read bs (fs s) 1 0 (length buf1)).2 = Ok buf1 \/ (do_read bs (fs s) 1 0 (length buf1)).2 = Ok buf2.
Proof.
  intros H. destruct (outcome_right 1 2 ([New 1; Begin 1 (RWrite 1 0 [1; 1]); Begin 2 (RWrite 1 0 [2; 2])] ++ [Work 1; Work 2; Work 2; Work 1; Finish 1; Finish 2]) (0, Ok [2; 1], [(1, ANum 2); (2, ANum 2)])) as (s & l & E & T & D & _); [vm_compute; reflexivity|].
  specialize (H 1 [1; 1] [2; 2] [Work 1; Work 2; Work 2; Work 1; Finish 1; Finish 2] s l ltac:(lia) eq_refl ltac:(by repeat constructor) E (T eq_refl)). change (length [1; 1]) with 2 in H. rewrite D in H. by destruct H.
Qed.
(** A read during a write: it may return part of the new and part of the old data *)
Theorem conc_read_refuted : ~ forall bs (old new : list byte) evs1 evs2 s l data, 0 < bs -> length old = length new -> Forall going_on evs1 -> Forall going_on evs2 ->
  crun bs cinit ([New 1; Begin 1 (RWrite 1 0 old)] ++ evs1 ++ [Finish 1; Begin 2 (RWrite 1 0 new); Begin 3 (RRead 1 0 (length old))] ++ evs2) = Some (s, l) -> (3, AData data) ∈ l -> data = old \/ data = new.
Proof.
  intros H. set (e2 := [Work 3; Work 2; Work 2; Work 3; Finish 3]).
  destruct (outcome_right 1 2 ([New 1; Begin 1 (RWrite 1 0 [1; 1])] ++ [Work 1; Work 1] ++ [Finish 1; Begin 2 (RWrite 1 0 [2; 2]); Begin 3 (RRead 1 0 (length [1; 1]))] ++ e2) (1, Ok [2; 2], [(1, ANum 2); (3, AData [1; 2])])) as (s & l & E & _ & _ & ->); [vm_compute; reflexivity|].
  specialize (H 1 [1; 1] [2; 2] [Work 1; Work 1] e2 s _ [1; 2] ltac:(lia) eq_refl ltac:(by repeat constructor) ltac:(by repeat constructor) E). destruct H as [X|X]; [cbn; right; left | discriminate | discriminate].
Qed.
(** A truncation during a write: the result may be neither that of writing and truncating, nor that of truncating and writing *)
Theorem conc_truncate_refuted : ~ forall bs (buf : list byte) len evs1 evs2 s l, 0 < bs -> Forall going_on evs1 -> Forall going_on evs2 -> crun bs cinit ([New 1; Begin 1 (RWrite 1 0 buf)] ++ evs1 ++ [Begin 2 (RTrunc 1 len)] ++ evs2) = Some (s, l) -> tasks s = ∅ ->
  (do_read bs (fs s) 1 0 (len + length buf)).2 = Ok (ftrunc len buf) \/ (do_read bs (fs s) 1 0 (len + length buf)).2 = Ok (fwrite 0 buf (ftrunc len [])).
Proof.
  intros H. set (e2 := [Work 2; Finish 2; Finish 1]).
  destruct (outcome_right 2 3 ([New 1; Begin 1 (RWrite 1 0 [7; 7])] ++ [Work 1] ++ [Begin 2 (RTrunc 1 1)] ++ e2) (0, Ok [7; 0], [(2, ADone); (1, ANum 2)])) as (s & l & E & T & D & _); [vm_compute; reflexivity|].
  specialize (H 2 [7; 7] 1 [Work 1] e2 s l ltac:(lia) ltac:(by repeat constructor) ltac:(by repeat constructor) E (T eq_refl)). change (1 + length [7; 7]) with 3 in H. rewrite D in H. by destruct H.
Qed.
(** A truncation during a read: it may return zeros that were never written *)
Theorem conc_read_truncate_refuted : ~ forall bs (old : list byte) len evs1 evs2 s l data, 0 < bs -> Forall going_on evs1 -> Forall going_on evs2 ->
  crun bs cinit ([New 1; Begin 1 (RWrite 1 0 old)] ++ evs1 ++ [Finish 1; Begin 2 (RRead 1 0 (length old)); Begin 3 (RTrunc 1 len)] ++ evs2) = Some (s, l) -> (2, AData data) ∈ l -> data `prefix_of` old.
Proof.
  intros H. set (e2 := [Work 2; Remove 3 1; Work 2; Finish 2]).
  destruct (outcome_right 1 2 ([New 1; Begin 1 (RWrite 1 0 [7; 7])] ++ [Work 1; Work 1] ++ [Finish 1; Begin 2 (RRead 1 0 (length [7; 7])); Begin 3 (RTrunc 1 0)] ++ e2) (1, Ok [], [(1, ANum 2); (2, AData [7; 0])])) as (s & l & E & _ & _ & ->); [vm_compute; reflexivity|].
  specialize (H 1 [7; 7] 0 [Work 1; Work 1] e2 s _ [7; 0] ltac:(lia) ltac:(by repeat constructor) ltac:(by repeat constructor) E). destruct H as [z X]; [cbn; right; left | discriminate].
Qed.
Print Assumptions conc_answers.
Print Assumptions conc_ends.
