(** Locking and removing directory trees (C21). *)
From stdpp Require Import prelude gmap strings sorting.
From Coq Require Import ZArith String.
From Verif Require Import FsModel FsSpec FsLemmas FsInv FsOps FsSteps FsHist FsLock FsDir FsTreeModel FsTree.
Local Close Scope string_scope.
Local Open Scope Z_scope.

(** When lock_tree has finished, everything below the directory is locked, whatever other calls have been handled meanwhile. *)
Theorem lock_tree_locks_everything max exact h s i0 h1 s' : 0 < max -> reachable max exact h s -> lock_tree max exact i0 s h1 s' -> unforced h1 ->
  forall j a, below s' i0 j -> inodes s' !! j = Some a -> locked a = true.
Proof. intros Hm Hre Hl Hf. by destruct (lock_tree_ok max Hm exact i0 s h1 s' (reachable_consistent max Hm _ _ _ Hre) Hl Hf). Qed.
(** Afterwards the tree stays as it is: its entries, and the contents, attributes and targets of what they lead to. *)
Theorem locked_tree_stays max exact h s i0 h1 s' h2 s'' : 0 < max -> reachable max exact h s -> lock_tree max exact i0 s h1 s' -> unforced h1 ->
  calls max exact s' h2 s'' -> unforced h2 -> forall p n j, below s' i0 p -> entry s' p n = Some j ->
  entry s'' p n = Some j /\ intact s' s'' p /\ intact s' s'' j /\ below s'' i0 j.
Proof.
  intros Hm Hre Hl Hf Hh Hf2. destruct (lock_tree_ok max Hm exact i0 s h1 s' (reachable_consistent max Hm _ _ _ Hre) Hl Hf) as [Hc' Hlk].
  assert (forall p, below s' i0 p -> is_Some (inodes s' !! p) -> is_locked_in s' p) as HL by (intros p Hp [a Ha]; exists a; split; [done|by eapply Hlk]).
  assert (forall p n j, below s' i0 p -> entry s' p n = Some j -> entry s'' p n = Some j /\ intact s' s'' p /\ intact s' s'' j) as H.
  { intros p n j Hp Hj. assert (is_Some (inodes s' !! p) /\ is_Some (inodes s' !! j)) as [Hpi Hji].
    { apply entry_Some in Hj as (k & rc & _ & Hk). destruct (c_entries _ _ _ Hc' _ _ _ Hk) as (_ & (a & Ha & _) & _ & _ & ?). split; [by eexists|done]. }
    destruct (calls_nonempty max Hm exact s' h2 s'' p n j Hc' Hh Hf2 (HL p Hp Hpi) Hj) as (Hint & _ & Hjs).
    split; [|split; [done|]]. { destruct Hint as (_ & He & _). by rewrite He. }
    apply (calls_exist max Hm exact s' h2 s'' j Hc' Hh Hf2); [|done]. apply HL; [by eapply below_entry|done]. }
  assert (forall p, below s' i0 p -> below s'' i0 p) as Hb.
  { intros p Hp. induction Hp as [|q m j Hq IH Hj]; [constructor|]. eapply below_entry; [exact IH|]. by apply H. }
  intros p n j Hp Hj. destruct (H p n j Hp Hj) as (? & ? & ?). split; [done|]. split; [done|]. split; [done|]. apply Hb. by eapply below_entry.
Qed.
(** lock_tree only locks. *)
Theorem lock_tree_is_calls max exact h s i0 h1 s' : reachable max exact h s -> lock_tree max exact i0 s h1 s' -> unforced h1 ->
  exists h', reachable max exact (h ++ h') s' /\ unforced h'.
Proof. intros Hre Hl Hf. destruct (lock_tree_calls max exact i0 s h1 s' Hl Hf) as (h' & Hh & Hf'). exists h'. split; [by eapply reachable_calls|done]. Qed.

(** remove_tree removes the entry and everything below it, and no other entry; it fails only for the reasons given, before it changes anything. *)
Theorem remove_tree_exact max exact h s p0 n0 s' r : 0 < max -> reachable max exact h s -> n0 <> CTRL_NAME -> is_Some (inodes s !! p0) ->
  remove_tree max p0 n0 s s' r ->
  (r = Done /\ exists i0, entry s p0 n0 = Some i0 /\
    (forall q m, below s i0 q \/ (q, m) = (p0, n0) -> entry s' q m = None) /\
    (forall q m, ~ (below s i0 q \/ (q, m) = (p0, n0)) -> entry s' q m = entry s q m) /\
    exists h', reachable max exact (h ++ h') s' /\ Forall (fun x => x.2 <> Crash /\ match x.1 with CLookup _ _ => True | CTreeRemove p _ _ _ => below s i0 p \/ p = p0 | CForget l => l = [(i0, 1)] | _ => False end) h') \/
  (s' = s /\ (r = Err EPERM /\ (failsafe s = true \/ is_locked_in s p0) \/ r = Err ENOENT /\ entry s p0 n0 = None)).
Proof.
  intros Hm Hre Hn0 Hp0 Ht. pose proof (reachable_consistent max Hm _ _ _ Hre) as Hc. pose proof (no_control max Hm exact h s Hre) as Hctl.
  assert (forall s1 i0, lookup_ p0 n0 s = (s1, inr i0) -> s1 = incr_open i0 s /\ entry s p0 n0 = Some i0 /\ consistent max exact s1 /\ is_Some (inodes s !! i0)) as Hlook.
  { intros s1 i0 Hl. destruct (lookup__entry max exact p0 n0 s s1 i0 Hc Hn0 Hl) as [-> He]. apply entry_Some in He as He'. destruct He' as (k & rc & _ & Hk). destruct (c_entries _ _ _ Hc _ _ _ Hk) as (_ & _ & _ & _ & Hi).
    split; [done|]. split; [done|]. split; [|done]. by apply consistent_incr. }
  assert (forall s1 i0 s2 r0, lookup_ p0 n0 s = (s1, inr i0) -> remove_loop max [i0] s1 s2 r0 -> r0 = Done /\ rinv max exact s1 i0 s2 /\ forall d m, below s1 i0 d -> entry s2 d m = None) as Hloop.
  { intros s1 i0 s2 r0 Hl Hlp. destruct (Hlook _ _ Hl) as (-> & He & Hc1 & _).
    apply (loop_ok max Hm exact (incr_open i0 s) i0 [i0] (incr_open i0 s) s2 r0); try done.
    - by apply rinv_init.
    - constructor; [constructor|constructor].
    - left. by left. }
  assert (forall s1 i0 s2 now s3 r0, lookup_ p0 n0 s = (s1, inr i0) -> remove_loop max [i0] s1 s2 Done -> remove max p0 n0 i0 true now s2 = (s3, r0) ->
    r0 = Done /\ consistent max exact s3 /\ opens s3 = opens s1 /\ (forall q m, entry s3 q m = bind (entry s2) p0 n0 None q m) /\ entry s2 p0 n0 = Some i0) as Hrem.
  { intros s1 i0 s2 now s3 r0 Hl Hlp Hr. destruct (Hloop _ _ _ _ Hl Hlp) as (_ & HR & Hno). destruct (Hlook _ _ Hl) as (-> & He & Hc1 & _).
    destruct (r_entry _ _ _ _ _ HR p0 n0) as [E|[_ E]]; [|destruct (reachable_acyclic max Hm exact h s Hre p0 n0 i0 He); apply (below_sub (incr_open i0 s)); done]. change (entry (incr_open i0 s) p0 n0) with (entry s p0 n0) in E. rewrite He in E.
    assert (has_children s2 i0 = false) as Hch.
    { destruct (has_children s2 i0) eqn:Ech; [|done]. apply (has_children_entry max exact s2 i0 (r_cons _ _ _ _ _ HR)) in Ech as (n & j & Hj). by rewrite (Hno i0 n ltac:(constructor)) in Hj. }
    destruct (remove_done max Hm exact p0 n0 i0 now s2 (r_cons _ _ _ _ _ HR) E Hch) as (s4 & Hr4 & Hc4 & Ho4 & He4 & _). rewrite Hr in Hr4. injection Hr4 as <- <-. split; [done|]. split; [done|]. split; [|done].
    rewrite Ho4. apply HR. }
  destruct Ht as [s Hfs|s Hfs Hpn|s a Hfs Hpa Hlk|s a s1 r Hfs Hpa Hlk Hl|s a s1 i0 s2 r Hfs Hpa Hlk Hl Hlp Hr|s a s1 i0 s2 now s3 r Hfs Hpa Hlk Hl Hlp Hr Hnd|s a s1 i0 s2 now s3 s' r Hfs Hpa Hlk Hl Hlp Hr Hfg].
  - right. split; [done|]. left. split; [done|by left].
  - exfalso. rewrite Hpn in Hp0. by destruct Hp0.
  - right. split; [done|]. left. split; [done|]. right. exists a. done.
  - right. unfold lookup_ in Hl. rewrite decide_False in Hl by done. destruct (entry s p0 n0) as [i|] eqn:He; [|injection Hl as <- <-; split; [done|]; by right].
    exfalso. apply entry_Some in He as (k & rc & _ & Hk). destruct (c_entries _ _ _ Hc _ _ _ Hk) as (_ & _ & _ & _ & [b Hb]). by rewrite Hb in Hl.
  - destruct (Hloop _ _ _ _ Hl Hlp) as (-> & _). done.
  - destruct (Hrem _ _ _ _ _ _ Hl Hlp Hr) as (-> & _). done.
  - left. destruct (Hrem _ _ _ _ _ _ Hl Hlp Hr) as (_ & Hc3 & Ho3 & He3 & Hi3). destruct (Hloop _ _ _ _ Hl Hlp) as (_ & HR & Hno). destruct (Hlook _ _ Hl) as (-> & He & Hc1 & Hi0).
    destruct (opens_incr_pos max exact i0 s Hc) as (c & Hop & Hcp & _). rewrite <- Ho3 in Hop.
    cbn [forget] in Hfg. destruct (forget1 max i0 1 s3) as [s4 r4] eqn:E4. destruct (forget1_ok max Hm exact i0 1 c s3 s4 r4 Hc3 Hop ltac:(lia) E4) as (-> & Hc4 & Hsh4 & Hct4 & _).
    injection Hfg as <- <-. split; [done|]. exists i0. split; [done|].
    assert (forall q m, entry s4 q m = entry s3 q m) as He4 by (apply (view_same max exact s3 s4 Hc3 Hc4); [by apply (compat_shrinks max exact)|done]).
    assert (forall q, below s i0 q <-> below (incr_open i0 s) i0 q) as Hbl by (intros q; split; apply below_sub; done).
    split; [|split].
    + intros q m [Hb|[= -> ->]]; rewrite He4, He3; unfold bind; [|by rewrite decide_True]. case_decide; [done|]. apply Hno. by apply Hbl.
    + intros q m Hnot. rewrite He4, He3. unfold bind. rewrite decide_False by (intros D; apply Hnot; by right).
      destruct (r_entry _ _ _ _ _ HR q m) as [->|[_ Hb]]; [done|]. exfalso. apply Hnot. left. by apply Hbl.
    + destruct (r_hist _ _ _ _ _ HR) as (h2 & Hh2 & Hf2). destruct Hi0 as [a0 Ha0].
      exists ((CLookup p0 n0, Entry i0 a0) :: h2 ++ [(CTreeRemove p0 n0 i0 now, Done); (CForget [(i0, 1)], Done)]). split.
      * eapply reachable_calls; [exact Hre|]. eapply (calls_cons _ _ _ (CLookup p0 n0)); [done| |done|].
        { cbn. unfold lookup. rewrite Hl. cbn. by rewrite Ha0. }
        eapply calls_app; [exact Hh2|]. eapply (calls_cons _ _ _ (CTreeRemove p0 n0 i0 now)); [done|exact Hr|done|].
        eapply (calls_cons _ _ _ (CForget [(i0, 1)])); [|cbn; rewrite E4; done|done|constructor]. cbn. split; [done|]. split; [exists c; split; [done|lia]|done].
      * constructor; [done|]. apply Forall_app. split; [|constructor; [split; [done|by right]|constructor; [done|constructor]]].
        eapply Forall_impl; [exact Hf2|]. intros x (p & n & i & now' & -> & Hb). split; [done|]. left. by apply Hbl.
Qed.
(** It ends: no sequence of passes is infinite. *)
Theorem remove_tree_ends max exact h s q : 0 < max -> reachable max exact h s -> Acc (next max) (q, s).
Proof. intros Hm Hre. apply (remove_terminates max Hm exact); [by eapply reachable_consistent|by eapply reachable_acyclic]. Qed.
Theorem no_cycles max exact h s : 0 < max -> reachable max exact h s -> acyclic s.
Proof. intros Hm. by apply reachable_acyclic. Qed.

(** * Examples *)
Definition me := Ctx 1000 1000.
Definition s0 := mkfs 1000 1000 5.
(** d (4) with the directory e (5) with a file f (6) in it, and a file g (7) in d. *)
Definition tree : list call := [CMknod ROOT "d" 16877 0 me 6; CMknod 4 "e" 16877 0 me 6; CMknod 5 "f" 33188 0 me 6; CMknod 4 "g" 33188 0 me 6; CForget [(4%nat, 1); (5%nat, 1); (6%nat, 1); (7%nat, 1)]].
Definition s1 := (run 100 tree s0).2.
Example tree_reachable : reachable 100 true (run 100 tree s0).1 s1.
Proof. apply (run_reachable 100 true tree [] s0 (reach_init _ _ _ _ _)). cbn [allowed_all tree]. repeat split; first [exact I|vm_compute; done|by (exists 1; split; [vm_compute; reflexivity|lia])|done]. Qed.
(** The tree is locked, one row at a time; meanwhile someone tries to create a file in d, and removes g before it is
    locked. *)
Lemma lock_pass_step brk p off q q1 s h s' : (lock_pass brk p off s).1.2 = q1 -> (lock_pass brk p off s).2 = Done ->
  lock_loop 100 true (q1 ++ q) (lock_pass brk p off s).1.1 h s' -> lock_loop 100 true ((p, off) :: q) s h s'.
Proof. destruct (lock_pass brk p off s) as [[s2 q2] r] eqn:E. cbn. intros -> -> Hl. by eapply lock_next. Qed.
Lemma other_step q s c r h s' : allowed 100 true s c -> (exec 100 c s).2 = r -> r <> Crash ->
  lock_loop 100 true q (exec 100 c s).1 h s' -> lock_loop 100 true q s ((c, r) :: h) s'.
Proof. destruct (exec 100 c s) as [s2 r2] eqn:E. cbn. intros Ha -> Hn Hl. by eapply lock_other. Qed.
Definition new := CMknod 4 "x" 33188 0 me 7.
Definition t1 := (lock 4 s1).1.
Definition t2 := (lock_pass (Some 0%nat) 4 (-1) t1).1.1.
Definition t3 := (exec 100 new t2).1.
Definition t4 := (lock_pass None 4 3 t3).1.1.
Definition t5 := (lock_pass None 5 (-1) t4).1.1.
Example lock_tree_example : lock_tree 100 true 4 s1 [(new, Err EPERM)] t5 /\ unforced [(new, Err EPERM)] /\
  Forall (fun i => locked <$> inodes t5 !! i = Some true) [4; 5; 6; 7]%nat /\ locked <$> inodes t5 !! ROOT = Some false.
Proof.
  split; [|split; [by repeat constructor|split; [by repeat constructor|done]]].
  split; [done|]. exists t1. split; [done|].
  eapply (lock_pass_step (Some 0%nat)); [vm_compute; reflexivity|vm_compute; reflexivity|]. fold t2.
  eapply (other_step _ _ new); [done|vm_compute; reflexivity|done|]. fold t3.
  eapply (lock_pass_step None); [vm_compute; reflexivity|vm_compute; reflexivity|]. fold t4.
  eapply (lock_pass_step None); [vm_compute; reflexivity|vm_compute; reflexivity|]. fold t5.
  apply lock_end.
Qed.
(** The tree is removed. *)
Definition entries (s : fs) (p : nat) : list (string * nat) :=
  omap (fun x : string * (nat * Z) => (fun i => (x.1, i)) <$> contents s !! (p, x.2.1)) (map_to_list (names s)).
Lemma entries_elem s p n i : (n, i) ∈ entries s p <-> entry s p n = Some i.
Proof.
  unfold entries. rewrite elem_of_list_omap, entry_Some. split.
  - intros [[m [k rc]] [Hm Hx]]. apply elem_of_map_to_list in Hm. cbn in Hx. destruct (contents s !! (p, k)) eqn:E; [|done]. injection Hx as -> ->. eauto.
  - intros (k & rc & Hn & Hk). exists (n, (k, rc)). rewrite elem_of_map_to_list. split; [done|]. cbn. by rewrite Hk.
Qed.
Lemma remove_step p q s now q1 s' r : NoDup (entries s p).*1 -> (remove_rows 100 p (entries s p) now s).1.2 = q1 -> (remove_rows 100 p (entries s p) now s).2 = Done ->
  remove_loop 100 (if decide (q1 <> []) then q1 ++ p :: q else q) (remove_rows 100 p (entries s p) now s).1.1 s' r -> remove_loop 100 (p :: q) s s' r.
Proof.
  intros Hnd. destruct (remove_rows 100 p (entries s p) now s) as [[s2 q2] r2] eqn:E. cbn. intros -> -> Hl.
  eapply rloop_next; [|exact Hl].
  pose proof (pass 100 p q s (S (List.length (entries s p))) (entries s p) now s2 q1 Done ltac:(lia)) as H.
  rewrite (decide_False (P := List.length _ = S _)) in H by lia. apply H; [|done].
  split; [done|]. split; [intros n i; apply entries_elem|]. right. split; [lia|]. intros n i. apply entries_elem.
Qed.
Definition r1 := (lookup_ ROOT "d" s1).1.
Definition r2 := (remove_rows 100 4 (entries r1 4) 8 r1).1.1.
Definition r3 := (remove_rows 100 5 (entries r2 5) 8 r2).1.1.
Definition r4 := (remove_rows 100 4 (entries r3 4) 8 r3).1.1.
Definition r5 := (remove 100 ROOT "d" 4 true 9 r4).1.
Definition r6 := (forget 100 [(4%nat, 1)] r5).1.
Lemma pair_of {A B} (x : A * B) b : x.2 = b -> x = (x.1, b).
Proof. destruct x. by intros <-. Qed.
Example remove_tree_example : remove_tree 100 ROOT "d" s1 r6 Done /\ is_Some (inodes s1 !! ROOT) /\
  (entry s1 ROOT "d" = Some 4 /\ entry s1 4 "e" = Some 5 /\ entry s1 5 "f" = Some 6)%nat /\
  (entry r6 ROOT "d" = None /\ entry r6 5 "f" = None)%nat /\ List.length (map_to_list (inodes r6)) = 3%nat.
Proof.
  split; [|repeat split; try (vm_compute; done); vm_compute; by eexists].
  eapply (rtree_end _ _ _ s1 _ r1 4%nat r4 9 r5); [done|done|done| | | |].
  - rewrite (pair_of (lookup_ ROOT "d" s1) (inr 4%nat)) by (vm_compute; reflexivity). done.
  - eapply (remove_step 4 [] r1 8); [apply (bool_decide_unpack _); vm_compute; exact I|vm_compute; reflexivity|vm_compute; reflexivity|]. fold r2.
    eapply (remove_step 5 [4%nat] r2 8); [apply (bool_decide_unpack _); vm_compute; exact I|vm_compute; reflexivity|vm_compute; reflexivity|]. fold r3.
    eapply (remove_step 4 [] r3 8); [apply (bool_decide_unpack _); vm_compute; exact I|vm_compute; reflexivity|vm_compute; reflexivity|]. fold r4.
    apply rloop_end.
  - rewrite (pair_of (remove 100 ROOT "d" 4 true 9 r4) Done) by (vm_compute; reflexivity). done.
  - rewrite (pair_of (forget 100 _ r5) Done) by (vm_compute; reflexivity). done.
Qed.

(** * A removal that another process interferes with *)
(** remove_tree reads the rows of a directory first (454-456) and removes them one after the other, and while the
    blocks of a removed file are deleted, other calls are handled.  If one of these removes a row that remove_tree
    has already read and its name is in use elsewhere, remove_tree removes it again: nothing is found to be deleted from contents, but the link
    count of the file is decremented once more.  A file that has another name is lost. *)
Definition race : list call := [CMknod ROOT "d" 16877 0 me 6; CMknod 4 "a" 33188 0 me 6; CMknod 4 "b" 33188 0 me 6; CLink 6 ROOT "c" 6; CMknod ROOT "b" 33188 0 me 6; CMknod 3 "b" 33188 0 me 6; CForget [(6%nat, 2); (5%nat, 1)]].
Definition q1 := (run 100 race s0).2.
Definition q2 := (remove 100 4 "a" 5 true 7 q1).1.
Definition q3 := (exec 100 (CUnlink 4 "b" 7) q2).1.
Definition q4 := (remove 100 4 "b" 6 true 7 q3).1.
Example race_reachable : reachable 100 true (run 100 race s0).1 q1.
Proof.
  apply (run_reachable 100 true race [] s0 (reach_init _ _ _ _ _)). cbn [allowed_all race].
  repeat (split; [first [by (vm_compute; discriminate)|by (eexists; split; [vm_compute; reflexivity|lia])|exact I|idtac]|]); try exact I.
  2-3: lia.   intros Hb. apply below_leaf in Hb; [discriminate|]. vm_compute. reflexivity.
Qed.
Theorem remove_tree_race_refuted : exists h s p a i b j now s2 s3 s4,
  reachable 100 true h s /\ (exists size l, chunk s p size ((a, i) :: (b, j) :: l)) /\
  remove 100 p a i true now s = (s2, Done) /\
  allowed 100 true s2 (CUnlink p b now) /\ exec 100 (CUnlink p b now) s2 = (s3, Done) /\
  remove 100 p b j true now s3 = (s4, Done) /\
  exists q m, entry s q m = Some j /\ (q, m) <> (p, b) /\ entry s4 q m = Some j /\ inodes s4 !! j = None /\ (exec 100 (CLookup q m) s4).2 = Crash.
Proof.
  exists (run 100 race s0).1, q1, 4%nat, "a"%string, 5%nat, "b"%string, 6%nat, 7, q2, q3, q4.
  split; [exact race_reachable|]. split; [|split; [|split; [done|split; [|split]]]].
  - exists 3%nat, []. assert (forall n i, (n, i) ∈ [("a"%string, 5%nat); ("b"%string, 6%nat)] <-> entry q1 4 n = Some i) as H.
    { intros n i. rewrite <- entries_elem. assert (entries q1 4 = [("a"%string, 5%nat); ("b"%string, 6%nat)] \/ entries q1 4 = [("b"%string, 6%nat); ("a"%string, 5%nat)]) as [->| ->] by (vm_compute; first [left; reflexivity|right; reflexivity]); [done|].
      rewrite !elem_of_cons. tauto. }
    split; [apply (bool_decide_unpack _); vm_compute; exact I|]. split; [apply H|]. right. split; [cbn; lia|apply H].
  - rewrite (pair_of (remove 100 4 "a" 5 true 7 q1) Done) by (vm_compute; reflexivity). done.
  - rewrite (pair_of (exec 100 (CUnlink 4 "b" 7) q2) Done) by (vm_compute; reflexivity). done.
  - rewrite (pair_of (remove 100 4 "b" 6 true 7 q3) Done) by (vm_compute; reflexivity). done.
  - exists ROOT, "c"%string. repeat split; try (vm_compute; reflexivity). done.
Qed.

Print Assumptions lock_tree_locks_everything.
Print Assumptions locked_tree_stays.
Print Assumptions lock_tree_is_calls.
Print Assumptions remove_tree_exact.
Print Assumptions remove_tree_ends.
Print Assumptions no_cycles.
Print Assumptions remove_tree_race_refuted.
