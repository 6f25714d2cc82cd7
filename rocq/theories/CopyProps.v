(** Copies of directory trees (C20). *)
From stdpp Require Import prelude gmap strings sorting.
From Coq Require Import ZArith String.
From Verif Require Import FsModel FsSpec FsLemmas FsInv FsOps FsSteps FsHist FsDir FsTreeModel FsTree CopyModel CopySpec CopyProofs CopyEnd.
Local Close Scope string_scope.
Local Open Scope Z_scope.

Section props.
Context (max_obj_size : Z) (Hmax : 0 < max_obj_size) (exact : bool).
Context (s : fs) (Hc : consistent max_obj_size exact s) (Hac : acyclic s) (src tgt : nat) (a b : attr) (Ha : inodes s !! src = Some a) (Hb : inodes s !! tgt = Some b).
Local Notation s0 := (upd_inode tgt (copy_attrs a) s).
Lemma start_consistent : consistent max_obj_size exact s0. Proof. apply consistent_mild; [|done]. intros t. done. Qed.
Lemma start_below x y : below s0 x y <-> below s x y.
Proof. split; apply below_sub; intros p m j He; exact He. Qed.
Lemma start_acyclic : acyclic s0. Proof. intros p n i He Hbl. apply start_below in Hbl. by apply (Hac p n i). Qed.
Lemma start_src : is_Some (inodes s0 !! src). Proof. cbn. rewrite lookup_alter_is_Some. by eexists. Qed.
Lemma start_tgt : inodes s0 !! tgt = Some (copy_attrs a b). Proof. cbn. by rewrite lookup_alter, Hb. Qed.
Lemma start_inside i : inside s0 src i <-> inside s src i.
Proof. split; intros (p & n & H1 & H2); exists p, n; (split; [by apply start_below|exact H2]). Qed.
Lemma names_apart : (forall n, entry s src n = None \/ entry s tgt n = None) <-> (forall k, contents s0 !! (src, k) = None \/ contents s0 !! (tgt, k) = None).
Proof.
  cbn. split.
  - intros H k. destruct (contents s !! (src, k)) as [i|] eqn:E; [|by left]. right. destruct (c_entries _ _ _ Hc _ _ _ E) as ((n & rc & Hn) & _). specialize (H n). unfold entry in H. rewrite Hn, E in H. by destruct H.
  - intros H n. unfold entry. destruct (names s !! n) as [[k rc]|]; [apply H|by left].
Qed.
Lemma copy_inv now s' r : failsafe s = false -> copy_tree src tgt now s s' r -> exists tmp c org cache, cp exact s0 src tmp c org cache [] /\ adopt tmp tgt c = (s', r).
Proof.
  intros Hf H. inversion H as [?|? _ [?|?]|? a' b' c0 tmp c r' _ Ha' Hb' Et Hl Nr|? a' b' c0 tmp c ? ? _ Ha' Hb' Et Hl Had]; subst; [congruence..| |]; rewrite Ha in Ha'; injection Ha' as <-.
  - apply (cp_start max_obj_size exact _ start_consistent src start_src) in Et. destruct (loop_ok max_obj_size exact _ start_consistent start_acyclic src _ _ _ _ _ _ Hl _ Et) as [-> _]. done.
  - apply (cp_start max_obj_size exact _ start_consistent src start_src) in Et. destruct (loop_ok max_obj_size exact _ start_consistent start_acyclic src _ _ _ _ _ _ Hl _ Et) as (_ & org & cache & Hcp). by exists tmp, c, org, cache.
Qed.
End props.

(** After copy_tree the target contains a copy of everything inside the source; nothing else has changed. *)
Theorem copy_tree_faithful max exact s src tgt now a b s' r : 0 < max -> consistent max exact s -> acyclic s -> failsafe s = false -> inodes s !! src = Some a -> inodes s !! tgt = Some b ->
  (forall n, entry s src n = None \/ entry s tgt n = None) -> copy_tree src tgt now s s' r -> r = Done /\ exists org, copied s s' src tgt org.
Proof.
  intros Hm Hc Hac Hf Ha Hb Hn Ht. destruct (copy_inv max exact s Hc Hac src tgt a b Ha Hb now s' r Hf Ht) as (tmp & c & org & cache & Hcp & Had).
  pose proof (start_consistent max exact s Hc tgt a) as Hc0. pose proof (start_acyclic s Hac tgt a) as Hac0. pose proof (start_src s src tgt a Ha) as Hs0. pose proof (start_tgt s tgt a b Hb) as Ht0. rewrite (names_apart max exact s Hc src tgt a) in Hn.
  set (s0 := upd_inode tgt (copy_attrs a) s) in *. assert (is_Some (inodes s0 !! tgt)) as Hts by by eexists.
  rewrite (adopt_done max exact s0 Hc0 src tmp c org cache Hcp tgt Hts Hn) in Had. injection Had as <- <-. split; [done|]. exists (delete tmp org).
  assert (forall x, delete tmp org !! x = None -> x <> tmp -> org !! x = None) as Hx by (intros x Hx N; by rewrite lookup_delete_ne in Hx). pose proof (i_tmp _ _ _ _ _ _ _ _ Hcp) as Htmp.
  constructor.
  - intros j i [N Hj]%lookup_delete_Some. split; [|by apply (start_inside s src tgt a), (copied_inside max exact s0 Hc0 src tmp c org cache Hcp j)]. pose proof (new_not_old max exact s0 Hc0 src tmp c org cache [] Hcp _ _ Hj) as E. cbn in E. destruct (decide (j = tgt)) as [-> |Nt]; [by rewrite lookup_alter, Hb in E|by rewrite lookup_alter_ne in E].
  - intros i Hi. apply (start_inside s src tgt a) in Hi. pose proof Hi as (p & n & Hbl & He). destruct (all_copied exact s0 src tmp c org cache Hcp i) as [j Hj]; [by eapply below_entry|]. exists j. rewrite lookup_delete_ne; [done|]. intros <-. rewrite Htmp in Hj. injection Hj as <-. by apply (inside_not_src s0 Hac0 src).
  - intros j j' i [_ Hj]%lookup_delete_Some [_ Hj']%lookup_delete_Some. by eapply (i_inj _ _ _ _ _ _ _ _ Hcp).
  - intros j i [N Hj]%lookup_delete_Some. destruct (inode_copy exact s0 src tmp c org cache Hcp tgt j i Hj) as (a' & b' & Ha' & Hb' & Hab & _); [congruence|]. exists a', b'. split; [|split; [exact Hb'|rewrite Hab; done]]. rewrite (inode_is_old max exact s0 Hc0 src tmp c org cache Hcp) by by eexists. done.
  - intros j i [N Hj]%lookup_delete_Some. destruct (data_orig exact s0 src tmp c org cache Hcp tgt j) as (D1 & D2 & D3); [congruence|]. rewrite Hj in D1, D2, D3. done.
  - intros j i n [N Hj]%lookup_delete_Some. pose proof (entry_copy max exact s0 Hc0 src tmp c org cache Hcp tgt Hts j i n Hj) as R. change (entry s i n) with (entry s0 i n). destruct (entry s0 i n) as [i'|]; [|apply R; congruence]. destruct R as (j' & R1 & R2 & R3); [congruence|]. exists j'. split; [done|]. by rewrite lookup_delete_ne.
  - intros n. pose proof (entry_tgt max exact s0 Hc0 src tmp c org cache Hcp tgt Hts n) as R. change (entry s src n) with (entry s0 src n). destruct (entry s0 src n) as [i'|]; [|done]. destruct R as (j' & R1 & R2 & R3). exists j'. split; [done|]. by rewrite lookup_delete_ne.
  - intros a' b' Ha' Hb'. rewrite Ha in Ha'. injection Ha' as <-. rewrite Hb in Hb'. injection Hb' as <-. rewrite (inode_is_old max exact s0 Hc0 src tmp c org cache Hcp) by done. eexists. split; [exact Ht0|]. done.
  - intros x Hxo. destruct (decide (x = tmp)) as [-> |Nx].
    + pose proof (tmp_not_old max exact s0 Hc0 src tmp c org cache Hcp) as Hno. assert (orig tmp org tmp = tmp) as Eo by (unfold orig; by rewrite decide_True).
      split; [split; [|split]|].
      * intros n. rewrite (xattr_ids s0) by (intros; cbn; apply (i_ids _ _ _ _ _ _ _ _ Hcp)). change (xattr s tmp n) with (xattr s0 tmp n). unfold xattr. destruct (names s0 !! n) as [[k rc]|]; [|done]. etransitivity; [apply (i_xattr _ _ _ _ _ _ _ _ Hcp)|by rewrite Eo].
      * change (symlinks s) with (symlinks s0). etransitivity; [apply (i_sym _ _ _ _ _ _ _ _ Hcp)|by rewrite Eo].
      * intros k. change (blocks s) with (blocks s0). etransitivity; [apply (i_blocks _ _ _ _ _ _ _ _ Hcp)|by rewrite Eo].
      * intros Nt. split.
        -- cbn. rewrite lookup_delete. cbn in Hno. by rewrite lookup_alter_ne in Hno by done.
        -- intros n. change (entry s tmp n) with (entry s0 tmp n). rewrite (adopted_entry exact s0 src tmp c org cache Hcp). unfold entry. destruct (names s0 !! n) as [[k rc]|]; [|done]. rewrite adopted_rows, decide_True by done. destruct (contents s0 !! (tmp, k)) eqn:E; [|done]. apply (row_old max exact s0 Hc0) in E as [[? E] _]. congruence.
    + pose proof (Hx _ Hxo Nx) as Ho. destruct (data_orig exact s0 src tmp c org cache Hcp tgt x) as (D1 & D2 & D3); [done|]. rewrite Ho in D1, D2, D3. split; [done|]. intros Nt. split.
      * rewrite (inode_old exact s0 src tmp c org cache Hcp) by done. cbn. by rewrite lookup_alter_ne.
      * intros n. by apply (entry_other exact s0 src tmp c org cache Hcp tgt).
  - apply (i_rest _ _ _ _ _ _ _ _ Hcp).
Qed.
(** All counts are right again: links, uses of names, references to objects. *)
Theorem copy_tree_consistent max exact s src tgt now a b s' r : 0 < max -> consistent max exact s -> acyclic s -> failsafe s = false -> inodes s !! src = Some a -> inodes s !! tgt = Some b ->
  (forall n, entry s src n = None \/ entry s tgt n = None) -> 0 < refcount b -> tgt <> CTRL -> copy_tree src tgt now s s' r -> consistent max exact s' /\ acyclic s'.
Proof.
  intros Hm Hc Hac Hf Ha Hb Hn Hl Nc Ht. destruct (copy_inv max exact s Hc Hac src tgt a b Ha Hb now s' r Hf Ht) as (tmp & c & org & cache & Hcp & Had).
  pose proof (start_consistent max exact s Hc tgt a) as Hc0. pose proof (start_acyclic s Hac tgt a) as Hac0. pose proof (start_tgt s tgt a b Hb) as Ht0. rewrite (names_apart max exact s Hc src tgt a) in Hn. assert (is_Some (inodes (upd_inode tgt (copy_attrs a) s) !! tgt)) as Hts by by eexists.
  rewrite (adopt_done max exact _ Hc0 src tmp c org cache Hcp tgt Hts Hn) in Had. injection Had as <- <-. split.
  - apply (adopted_consistent max exact _ Hc0 src tmp c org cache Hcp tgt Hts Hn); [|done]. intros b' Hb'. rewrite Ht0 in Hb'. by injection Hb' as <-.
  - by apply (adopted_acyclic max exact _ Hc0 Hac0 src tmp c org cache Hcp tgt Hts).
Qed.
(** Otherwise: an error without effect ... *)
Theorem copy_tree_errors s src tgt now s' r : copy_tree src tgt now s s' r ->
  (failsafe s = true -> r = Err EPERM /\ s' = s) /\ (failsafe s = false -> inodes s !! src = None \/ inodes s !! tgt = None -> r = Err ENOENT /\ s' = s).
Proof. intros H. split; [intros Hf|intros Hf Hn]; inversion H; subst; try done; try congruence; destruct Hn; congruence. Qed.
(** ... or, if the source and the target contain the same name, an uncaught exception. *)
Theorem copy_tree_collision max exact s src tgt now a b n s' r : 0 < max -> consistent max exact s -> acyclic s -> failsafe s = false -> inodes s !! src = Some a -> inodes s !! tgt = Some b ->
  is_Some (entry s src n) -> is_Some (entry s tgt n) -> copy_tree src tgt now s s' r -> r = Crash.
Proof.
  intros Hm Hc Hac Hf Ha Hb [i Hi] [i' Hi'] Ht. destruct (copy_inv max exact s Hc Hac src tgt a b Ha Hb now s' r Hf Ht) as (tmp & c & org & cache & Hcp & Had).
  pose proof (start_consistent max exact s Hc tgt a) as Hc0. unfold adopt in Had. case_decide as D; [exfalso|by injection Had as <- <-].
  unfold entry in Hi, Hi'. destruct (names s !! n) as [[k rc]|]; [|done]. pose proof (copy_row_of exact _ src tmp c org cache Hcp tmp src k (i_tmp _ _ _ _ _ _ _ _ Hcp)) as R. cbn in R. rewrite Hi in R. destruct R as (j & Hj & _).
  assert (filter (fun kv : nat * nat * nat => kv.1.1 = tmp /\ is_Some (contents c !! (tgt, kv.1.2))) (contents c) !! (tmp, k) = Some j) as K; [|rewrite D in K; done]. apply map_filter_lookup_Some. split; [done|]. split; [done|]. cbn.
  rewrite (i_rows_old _ _ _ _ _ _ _ _ Hcp); [by eexists|]. apply (old_not_new max exact _ Hc0 src tmp c org cache [] Hcp). cbn. rewrite lookup_alter_is_Some. by eexists.
Qed.

(** The loop ends, however the batches are chosen. *)
Definition copy_state : Type := list task * gmap nat nat * fs.
Inductive copy_step : copy_state -> copy_state -> Prop :=
  | step_pass brk p q off rest cache s s1 cache1 push : copy_pass brk p q off cache s = (s1, cache1, push, Done) -> copy_step ((p, q, off) :: rest, cache, s) (push ++ rest, cache1, s1).
Lemma copy_acc max exact s0 src tmp c org cache queue : consistent max exact s0 -> acyclic s0 -> cp exact s0 src tmp c org cache queue -> Acc (flip copy_step) (queue, cache, c).
Proof.
  intros Hc Hac H. remember (Z.to_nat (weight s0 c queue)) as w eqn:Ew. revert c org cache queue H Ew. induction (lt_wf w) as [w _ IH]. intros c org cache queue H ->. constructor. intros y Hy. unfold flip in Hy. inversion Hy as [brk p q off rest ? ? s1 cache1 push E]. subst.
  destruct (pass_ok max exact s0 Hc Hac src tmp brk p q off rest org cache c H) as (c2 & org2 & cache2 & push2 & E2 & H2 & W). rewrite E in E2. injection E2 as <- <- <-. eapply IH; [|exact H2|reflexivity]. pose proof (weight_pos _ _ _ _ _ _ _ _ H2). lia.
Qed.
Theorem copy_tree_ends max exact s src tgt now a c tmp : consistent max exact s -> acyclic s -> inodes s !! src = Some a ->
  make_tmp now (upd_inode tgt (copy_attrs a) s) = (c, tmp) -> Acc (flip copy_step) ([(src, tmp, -1)], ∅, c).
Proof.
  intros Hc Hac Ha Et. eapply (copy_acc max exact); [by eapply start_consistent|by apply start_acyclic|]. eapply cp_start; [by eapply start_consistent|by eapply start_src|done].
Qed.
Theorem copy_tree_total max exact s src tgt now : consistent max exact s -> acyclic s -> exists s' r, copy_tree src tgt now s s' r.
Proof.
  intros Hc Hac. destruct (failsafe s) eqn:Ef; [eexists _, _; by constructor|]. destruct (inodes s !! src) as [a|] eqn:Ea; [|eexists _, _; apply copy_noent; by eauto]. destruct (inodes s !! tgt) as [b|] eqn:Eb; [|eexists _, _; apply copy_noent; by eauto].
  destruct (make_tmp now (upd_inode tgt (copy_attrs a) s)) as [c tmp] eqn:Et. pose proof (copy_tree_ends max exact _ _ _ _ _ _ _ Hc Hac Ea Et) as Hacc.
  assert (exists c', copy_loop [(src, tmp, -1)] ∅ c c' Done) as [c' Hl].
  { pose proof (start_consistent max exact s Hc tgt a) as Hc0. pose proof (start_acyclic s Hac tgt a) as Hac0. pose proof (cp_start max exact _ Hc0 src (start_src s src tgt a Ea) _ _ _ Et) as Hcp. revert Hcp. generalize ({[tmp := src]} : gmap nat nat) as org. remember ([(src, tmp, -1)], ∅, c) as x eqn:Ex. clear Et. generalize dependent ([(src, tmp, -1)]). generalize (∅ : gmap nat nat). revert c.
    induction Hacc as [x _ IH]. intros c cache queue -> org Hcp. destruct queue as [|[[p q] off] rest]; [eexists; constructor|]. destruct (pass_ok max exact _ Hc0 Hac0 src tmp None p q off rest org cache c Hcp) as (c2 & org2 & cache2 & push2 & E2 & H2 & _).
    destruct (IH (push2 ++ rest, cache2, c2) (step_pass _ _ _ _ _ _ _ _ _ _ E2) c2 cache2 (push2 ++ rest) eq_refl org2 H2) as [c' Hc']. exists c'. by eapply copy_next. }
  destruct (adopt tmp tgt c') as [s' r] eqn:Ead. exists s', r. by eapply copy_done.
Qed.

(** * Example *)
Definition me := Ctx 1000 1000.
Definition empty := mkfs 1000 1000 5.
(** d (4) with a file f (5) that has a second name g, and a directory e (6) with a symlink l (7); the target t (8). *)
Definition tree : list call := [CMknod ROOT "d" 16877 0 me 6; CCreate 4 "f" 33188 true false me 7; CWrite 5 [(0%nat, 1%nat); (1%nat, 2%nat); (2%nat, 1%nat)] 250 false 8; CLink 5 4 "g" 9; CMknod 4 "e" 16877 0 me 6;
  CSetxattr 5 "x" "v" 10; CSymlink 6 "l" "../f" me 11; CSetxattr 4 "x2" "w" 10; CMknod ROOT "t" 16832 0 me 12].
Definition s1 := (run 100 tree empty).2.
Lemma tree_reachable : reachable 100 true (run 100 tree empty).1 s1.
Proof.
  apply (run_reachable 100 true tree [] empty (reach_init _ _ _ _ _)). cbn [allowed_all tree].
  repeat (split; [first [exact I|discriminate|idtac]|split; [vm_compute; discriminate|]]); try exact I.
  - intros a Ha b o Hb. assert (size a = 0) as -> by (vm_compute in Ha; by injection Ha as <-). apply elem_of_list_In in Hb. cbn in Hb. destruct Hb as [[= <- <-]|[[= <- <-]|[[= <- <-]|[]]]]; lia.
  - split; [done|]. intros Hb. apply below_leaf in Hb; [discriminate|]. vm_compute. reflexivity.
  - intros _. vm_compute. reflexivity.
  - intros _. vm_compute. reflexivity.
Qed.
Fixpoint run_loop (brks : list (option nat)) (queue : list task) (cache : gmap nat nat) (s : fs) : option fs :=
  match queue, brks with
  | [], _ => Some s
  | (p, q, off) :: rest, brk :: brks => match copy_pass brk p q off cache s with (s1, cache1, push, Done) => run_loop brks (push ++ rest) cache1 s1 | _ => None end
  | _, [] => None
  end.
Lemma run_loop_ok brks : forall queue cache s s', run_loop brks queue cache s = Some s' -> copy_loop queue cache s s' Done.
Proof.
  induction brks as [|brk brks IH]; intros queue cache s s'; destruct queue as [|[[p q] off] rest]; cbn; try (intros [= <-]; constructor); try done.
  destruct (copy_pass brk p q off cache s) as [[[s2 cache1] push] r] eqn:E. destruct r; try done. intros H. eapply copy_next; [exact E|by apply IH].
Qed.
Definition copy_of (brks : list (option nat)) (src tgt : nat) (now : Z) (s : fs) : option (fs * res) :=
  match inodes s !! src, inodes s !! tgt with
  | Some a, Some _ => let '(c, tmp) := make_tmp now (upd_inode tgt (copy_attrs a) s) in match run_loop brks [(src, tmp, -1)] ∅ c with Some c' => Some (adopt tmp tgt c') | None => None end
  | _, _ => None
  end.
Lemma copy_of_ok brks src tgt now s s' r : failsafe s = false -> copy_of brks src tgt now s = Some (s', r) -> copy_tree src tgt now s s' r.
Proof.
  intros Hf. unfold copy_of. destruct (inodes s !! src) as [a|] eqn:Ea; [|done]. destruct (inodes s !! tgt) as [b|] eqn:Eb; [|done]. destruct (make_tmp now _) as [c tmp] eqn:Et. destruct (run_loop brks _ ∅ c) as [c'|] eqn:El; [|done]. intros [= E]. apply run_loop_ok in El. by eapply copy_done.
Qed.
Definition outcome {A} (x : option (fs * res)) (f : fs -> A) : option (A * res) := match x with Some (s, r) => Some (f s, r) | None => None end.
Lemma outcome_inv {A} (x : option (fs * res)) (f : fs -> A) v r : outcome x f = Some (v, r) -> exists s', x = Some (s', r) /\ f s' = v.
Proof. destruct x as [[s' r']|]; [|done]. cbn. intros [= <- <-]. eauto. Qed.
Example copy_tree_example : failsafe s1 = false /\ refcount <$> inodes s1 !! 8%nat = Some 1 /\ (forall n, entry s1 4 n = None \/ entry s1 8 n = None) /\
  exists s', copy_tree 4 8 20 s1 s' Done /\
    (entry s' 8 "f" = Some 10 /\ entry s' 8 "g" = Some 10 /\ entry s' 8 "e" = Some 11 /\ entry s' 11 "l" = Some 12 /\ entry s' 4 "f" = Some 5)%nat /\
    (refcount <$> inodes s' !! 10%nat = Some 2 /\ blocks s' !! (10, 2)%nat = Some 1%nat /\ objects s' !! 1%nat = Some 4 /\ xattr s' 10 "x" = Some "v"%string /\ symlinks s' !! 12%nat = Some "../f"%string /\ mode <$> inodes s' !! 8%nat = Some 16877%N).
Proof.
  split; [vm_compute; reflexivity|]. split; [vm_compute; reflexivity|]. split.
  { intros n. right. unfold entry. destruct (names s1 !! n) as [[k rc]|]; [|done]. destruct (contents s1 !! (8, k)%nat) eqn:E; [exfalso|done].
    assert (Forall (fun x : nat * nat * nat => x.1.1 <> 8%nat) (map_to_list (contents s1))) as F by (apply (bool_decide_unpack _); vm_compute; exact I). apply elem_of_map_to_list in E. rewrite Forall_forall in F. by apply F in E. }
  destruct (outcome_inv (copy_of [Some 0%nat; Some 1%nat; None; None; None; None] 4 8 20 s1)
    (fun s' => ((entry s' 8 "f", entry s' 8 "g", entry s' 8 "e", entry s' 11 "l", entry s' 4 "f"), (refcount <$> inodes s' !! 10%nat, blocks s' !! (10, 2)%nat, objects s' !! 1%nat, xattr s' 10 "x", symlinks s' !! 12%nat, mode <$> inodes s' !! 8%nat)))
    ((Some 10, Some 10, Some 11, Some 12, Some 5)%nat, (Some 2, Some 1%nat, Some 4, Some "v"%string, Some "../f"%string, Some 16877%N)) Done) as (s' & E & F).
  { vm_compute. reflexivity. }
  exists s'. split; [eapply copy_of_ok; [|exact E]; vm_compute; reflexivity|]. repeat match goal with K : (_, _) = (_, _) |- _ => apply pair_equal_spec in K as [? ?] end. split_and!; assumption.
Qed.

(** * What is not checked *)
(** The extended attributes of the source directory itself are not copied. *)
Theorem copy_own_xattr_refuted : exists h s s', reachable 100 true h s /\ copy_tree 4 8 20 s s' Done /\ is_Some (xattr s 4 "x2") /\ xattr s' 8 "x2" = None.
Proof.
  destruct (outcome_inv (copy_of [None; None] 4 8 20 s1) (fun s' => xattr s' 8 "x2") None Done) as (s' & E & F); [vm_compute; reflexivity|].
  exists (run 100 tree empty).1, s1, s'. split; [exact tree_reachable|]. split; [eapply copy_of_ok; [|exact E]; vm_compute; reflexivity|]. split; [vm_compute; by eexists|done].
Qed.
(** A locked directory is changed. *)
Definition s2 := (run 100 (tree ++ [CLock 8]) empty).2.
Theorem copy_into_locked_refuted : exists h s s' n, reachable 100 true h s /\ is_locked_in s 8 /\ copy_tree 4 8 20 s s' Done /\ entry s 8 n = None /\ is_Some (entry s' 8 n).
Proof.
  destruct (outcome_inv (copy_of [None; None] 4 8 20 s2) (fun s' => entry s' 8 "f") (Some 10%nat) Done) as (s' & E & F); [vm_compute; reflexivity|].
  exists ((run 100 tree empty).1 ++ [(CLock 8, Done)]), s2, s', "f"%string. split; [|split; [|split; [eapply copy_of_ok; [|exact E]; vm_compute; reflexivity|]]].
  - eapply reach_step; [exact tree_reachable|exact I| |done]. vm_compute. reflexivity.
  - eexists. split; vm_compute; reflexivity.
  - split; [vm_compute; reflexivity|rewrite F; by eexists].
Qed.
(** A directory that has been removed, but is still in use, is filled: afterwards it has entries without being in the tree. *)
Definition s3 := (run 100 (tree ++ [CRmdir ROOT "t" 13]) empty).2.
Theorem copy_into_removed_refuted : exists h s s', reachable 100 true h s /\ copy_tree 4 8 20 s s' Done /\ ~ consistent 100 false s'.
Proof.
  destruct (outcome_inv (copy_of [None; None] 4 8 20 s3) (fun s' => (entry s' 8 "f", refcount <$> inodes s' !! 8%nat)) (Some 10%nat, Some 0) Done) as (s' & E & F); [vm_compute; reflexivity|].
  exists ((run 100 tree empty).1 ++ [(CRmdir ROOT "t" 13, Done)]), s3, s'. split; [|split; [eapply copy_of_ok; [|exact E]; vm_compute; reflexivity|]].
  - eapply reach_step; [exact tree_reachable|done| |done]. vm_compute. reflexivity.
  - apply pair_equal_spec in F as [F1 F2]. intros Hc. unfold entry in F1. destruct (names s' !! "f"%string) as [[k rc]|]; [|done]. destruct (c_entries _ _ _ Hc _ _ _ F1) as (_ & (a & Ha & Hp) & _). rewrite Ha in F2. injection F2 as F2. lia.
Qed.
(** If the target contains a name of the source, everything is copied into a temporary directory that is in no directory, and then the copy fails. *)
Definition s4 := (run 100 (tree ++ [CMknod 8 "f" 33188 0 me 13]) empty).2.
Theorem copy_collision_refuted : exists h s s', reachable 100 true h s /\ copy_tree 4 8 20 s s' Crash /\ ~ consistent 100 false s'.
Proof.
  destruct (outcome_inv (copy_of [None; None] 4 8 20 s4) (fun s' => (entry s' 10 "f", refcount <$> inodes s' !! 10%nat)) (Some 11%nat, Some 0) Crash) as (s' & E & F); [vm_compute; reflexivity|].
  eexists. exists s4, s'. split; [|split; [eapply copy_of_ok; [|exact E]; vm_compute; reflexivity|]].
  - eapply (reach_step _ _ _ s1 (CMknod 8 "f" 33188 0 me 13) s4); [exact tree_reachable|done|vm_compute; reflexivity|done].
  - apply pair_equal_spec in F as [F1 F2]. intros Hc. unfold entry in F1. destruct (names s' !! "f"%string) as [[k rc]|]; [|done]. destruct (c_entries _ _ _ Hc _ _ _ F1) as (_ & (a & Ha & Hp) & _). rewrite Ha in F2. injection F2 as F2. lia.
Qed.

Print Assumptions copy_tree_faithful.
Print Assumptions copy_tree_consistent.
Print Assumptions copy_tree_errors.
Print Assumptions copy_tree_collision.
Print Assumptions copy_tree_ends.
Print Assumptions copy_tree_total.
Print Assumptions copy_own_xattr_refuted.
Print Assumptions copy_into_locked_refuted.
Print Assumptions copy_into_removed_refuted.
Print Assumptions copy_collision_refuted.
