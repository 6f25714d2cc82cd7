(** The lemmas that FileProps restates. *)
From Coq Require Import ZArith.
From stdpp Require Import prelude list gmap.
From Verif Require Import Files FilesFacts FileModel FileSpec FileProofs FloatModel FloatProofs.

Lemma sizes_read_loop fuel bs s ino off len acc :
  sizes (read_loop fuel bs s ino off len acc).1 = sizes s.
Proof.
  revert s off len acc. induction fuel as [|fuel IH]; intros s off len acc; simpl; case_decide; try done.
  destruct (readwrite_read bs s ino off len) as [s1 [tmp|e]] eqn:E; simpl; rewrite ?IH;
    unfold readwrite_read in E; repeat case_match; simplify_eq/=; done.
Qed.

Lemma sizes_write_loop fuel bs s ino off buf :
  sizes (write_loop fuel bs s ino off buf).1 = sizes s.
Proof.
  revert s off buf. induction fuel as [|fuel IH]; intros s off buf; simpl; case_decide; try done.
  destruct (readwrite_write bs s ino off buf) as [s1 [tmp|e]] eqn:E; simpl; rewrite ?IH;
    unfold readwrite_write in E; repeat case_match; simplify_eq/=; done.
Qed.

Definition small_sizes (s : fstate) : Prop :=
  forall ino n, sizes s !! ino = Some n -> below_limit n.

Lemma small_sizes_step ceilf bs s o :
  small_op o -> small_sizes s -> small_sizes (step ceilf bs s o).1.
Proof.
  intros Ho Hs. destruct o as [ino|ino off len|ino off buf|ino len|ino|ino|ino|k d]; simpl.
  - unfold do_create. repeat case_match; simpl; try done.
    intros ino' n' Hl. simpl in Hl. revert Hl. intros [(<-&<-)|(_&Hn)]%lookup_insert_Some; [done|eauto].
  - unfold do_read. case_match eqn:Hc; [|done].
    match goal with |- context [read_loop ?a ?b ?c ?d ?e ?f ?g] =>
      pose proof (sizes_read_loop a b c d e f g) as Hr; destruct (read_loop a b c d e f g) as [s1 [?|?]] end;
      simpl in *; unfold small_sizes; by rewrite Hr.
  - unfold do_write. case_match eqn:Hc; [|done]. case_decide; [done|].
    match goal with |- context [write_loop ?a ?b ?c ?d ?e ?f] =>
      pose proof (sizes_write_loop a b c d e f) as Hr; destruct (write_loop a b c d e f) as [s1 [?|?]] end;
      simpl in *; unfold small_sizes; simpl; rewrite Hr; [|done].
    intros ino' n' Hn. apply lookup_alter_Some in Hn as [(<-&m&Hm&->)|(_&Hn)]; [|eauto].
    specialize (Hs _ _ Hm). unfold below_limit in *. lia.
  - unfold do_truncate. case_match eqn:Hc; [|done]. case_decide; [done|].
    assert (forall s1, sizes s1 = insert ino len (sizes s) -> small_sizes s1) as Hins.
    { intros s1 Hs1 ino' n'. rewrite Hs1. intros [(<-&<-)|(_&Hn)]%lookup_insert_Some; [done|eauto]. }
    repeat case_match; simplify_eq/=; by apply Hins.
  - case_match; done.
  - unfold do_purge. case_match; simpl; [|done].
    intros ino' n' Hl. simpl in Hl. apply lookup_delete_Some in Hl as (_&Hn). eauto.
  - done.
  - case_match; done.
Qed.

Lemma step_float bs s o :
  0 < bs -> small_sizes s -> step float_ceil bs s o = step ceil_div bs s o.
Proof.
  intros Hbs Hs. destruct o as [| | |ino len| |ino| |]; simpl; try done.
  - unfold do_truncate. destruct (sizes s !! ino) as [n|] eqn:E; [|done].
    rewrite (float_ceil_exact n bs) by (try lia; exact (Hs _ _ E)). done.
  - unfold do_purge. destruct (sizes s !! ino) as [n|] eqn:E; [|done].
    rewrite (float_ceil_exact n bs) by (try lia; exact (Hs _ _ E)). done.
Qed.

Lemma run_float bs s os :
  0 < bs -> small_sizes s -> Forall small_op os -> run float_ceil bs s os = run ceil_div bs s os.
Proof.
  intros Hbs. revert s. induction os as [|o os IH]; intros s Hs Hos; simpl; [done|].
  inversion Hos; subst. pose proof (small_sizes_step float_ceil bs s o ltac:(done) Hs) as Hs1.
  rewrite <- step_float by done. destruct (step float_ceil bs s o) as [s1 a]. simpl in Hs1.
  by rewrite IH.
Qed.

Lemma small_init : small_sizes init.
Proof. intros ino n. simpl. by rewrite lookup_empty. Qed.

Lemma files_are_byte_arrays_lemma bs os :
  0 < bs -> Forall nonempty_writes os -> Forall no_damage os -> Forall small_op os ->
  (run float_ceil bs init os).2 = (ideal_run (Files_ ∅ ∅) os).2.
Proof.
  intros Hbs Hne Hnd Hsm. rewrite run_float by (done || apply small_init).
  apply (run_healthy bs Hbs); try done. apply R_init.
Qed.

Lemma damaged_files_never_lie_lemma bs os :
  0 < bs -> Forall nonempty_writes os -> Forall small_op os ->
  exists a, allowed_run (Files_ ∅ ∅) os a (run float_ceil bs init os).2.
Proof.
  intros Hbs Hne Hsm. rewrite run_float by (done || apply small_init).
  destruct (run_allowed bs Hbs init (Files_ ∅ ∅) os) as (a&_&?); [apply R_init|done|eauto].
Qed.

Lemma run_app ceilf bs s os1 os2 :
  run ceilf bs s (os1 ++ os2) =
  let '(s1, l1) := run ceilf bs s os1 in let '(s2, l2) := run ceilf bs s1 os2 in (s2, l1 ++ l2).
Proof.
  revert s. induction os1 as [|o os1 IH]; intros s; simpl.
  - by destruct (run ceilf bs s os2).
  - destruct (step ceilf bs s o) as [s1 a]. rewrite IH.
    destruct (run ceilf bs s1 os1) as [s2 l1]. by destruct (run ceilf bs s2 os2).
Qed.

(** What is stored for a file after a healthy history. *)
Lemma blocks_released_lemma bs os ino b :
  0 < bs -> Forall nonempty_writes os -> Forall no_damage os -> Forall small_op os ->
  is_Some (blks (run float_ceil bs init os).1 !! (ino, b)) ->
  exists n, (step float_ceil bs (run float_ceil bs init os).1 (Size ino)).2 = ANum n /\ b * bs < n.
Proof.
  intros Hbs Hne Hnd Hsm. rewrite run_float by (done || apply small_init). intros Hb.
  destruct (run_healthy bs Hbs init (Files_ ∅ ∅) os) as (_&HR&_&Hfs); [apply R_init|done..|].
  destruct (r_range _ _ _ HR Hfs ino b) as (f&Hf&Hlt); [by left|].
  exists (length f). split; [|done]. simpl. rewrite (r_size _ _ _ HR), Hf. done.
Qed.

Lemma blocks_bounded_lemma bs os k c :
  0 < bs -> Forall nonempty_writes os -> Forall small_op os ->
  blks (run float_ceil bs init os).1 !! k = Some c -> length c <= bs.
Proof.
  intros Hbs Hne Hsm. rewrite run_float by (done || apply small_init).
  destruct (run_allowed bs Hbs init (Files_ ∅ ∅) os) as (a&HR&_); [apply R_init|done|].
  apply (r_bound _ _ _ HR).
Qed.

Lemma fread_zero off len f n :
  (forall i, n <= i < off + len -> byte_at f i = 0) -> n <= off ->
  fread off len f = replicate (min len (length f - off)) 0.
Proof.
  intros Hz Hn. apply file_ext; rewrite length_fread, ?replicate_length; [lia|].
  intros i Hi. rewrite byte_at_fread, decide_True by lia. rewrite byte_at_replicate. apply Hz. lia.
Qed.

Lemma truncated_bytes_never_return_lemma bs os ino n grow off len answers :
  0 < bs -> Forall nonempty_writes os -> Forall no_damage os -> Forall small_op os ->
  below_limit n -> nonempty_writes grow -> small_op grow ->
  match grow with
  | Truncate ino' _ => ino' = ino
  | Write ino' w _ => ino' = ino /\ off + len <= w
  | _ => False
  end ->
  n <= off ->
  (run float_ceil bs (run float_ceil bs init os).1 [Truncate ino n; grow; Read ino off len; Size ino]).2 = answers ->
  forall d size g, answers = [ADone; g; AData d; ANum size] -> d = replicate (min len (size - off)) 0.
Proof.
  intros Hbs Hne Hnd Hsm Hn Hg1 Hg2 Hg Hoff Ha d size g Hans.
  set (os' := [Truncate ino n; grow; Read ino off len; Size ino]) in *.
  rewrite (run_float bs init) in Ha by (done || apply small_init).
  destruct (run_healthy bs Hbs init (Files_ ∅ ∅) os) as (_&HR&Hh); [apply R_init|done..|].
  set (s := (run ceil_div bs init os).1) in *. set (a := (ideal_run (Files_ ∅ ∅) os).1) in *.
  assert (small_sizes s) as Hss.
  { unfold s. clear -Hsm. assert (small_sizes init) as Hi by apply small_init. revert Hi.
    generalize init. induction Hsm as [|o os Ho Hos IH]; intros s0 Hs0; simpl; [done|].
    pose proof (small_sizes_step ceil_div bs s0 o Ho Hs0).
    destruct (step ceil_div bs s0 o) as [s1 r]. specialize (IH s1 ltac:(done)).
    by destruct (run ceil_div bs s1 os). }
  rewrite run_float in Ha; [|done..|].
  2:{ unfold os'. repeat constructor; done. }
  destruct (run_healthy bs Hbs s a os' HR Hh) as (Heq&_).
  { unfold os'. repeat constructor; done. }
  { unfold os'. repeat constructor; try done. by destruct grow. }
  rewrite Heq, Hans in Ha. clear Hans. unfold os' in Ha. clear Heq os'.
  cbn -[fread ftrunc fwrite] in Ha.
  destruct (arrays a !! ino) as [f|] eqn:Hf; [|by simplify_eq/=; repeat case_match; simplify_eq/=].
  case_decide as Hp; [by simplify_eq/=; repeat case_match; simplify_eq/=|].
  destruct grow as [| |ino' w buf|ino' m| | | |]; try done.
  - destruct Hg as (->&Hw). cbn -[fread ftrunc fwrite] in Ha. rewrite lookup_insert in Ha.
    rewrite decide_False in Ha by done. cbn -[fread ftrunc fwrite] in Ha.
    rewrite !lookup_insert in Ha. cbn -[fread ftrunc fwrite] in Ha. rewrite !lookup_insert in Ha.
    simplify_eq/=. apply (fread_zero _ _ _ n); [|done].
    intros i Hi. rewrite byte_at_fwrite, decide_False by lia.
    rewrite byte_at_ftrunc, decide_False by lia. done.
  - subst ino'. cbn -[fread ftrunc fwrite] in Ha. rewrite lookup_insert in Ha.
    rewrite decide_False in Ha by done. cbn -[fread ftrunc fwrite] in Ha.
    rewrite !lookup_insert in Ha. cbn -[fread ftrunc fwrite] in Ha. rewrite !lookup_insert in Ha.
    simplify_eq/=. apply (fread_zero _ _ _ n); [|done].
    intros i Hi. rewrite byte_at_ftrunc. case_decide; [|done].
    rewrite byte_at_ftrunc, decide_False by lia. done.
Qed.

(** ** What goes wrong beyond 2^53 *)
Lemma lost_block_lemma ceilf bs K v :
  1 < bs -> 0 < K -> ceilf (K * bs + 1) bs = K -> ceilf 0 bs = 0 ->
  (run ceilf bs init
    [Create 1; Write 1 (K * bs) [v]; Truncate 1 0; Truncate 1 (K * bs + 1); Read 1 (K * bs) 1]).2
  = [ADone; ANum 1; ADone; ADone; AData [v]].
Proof.
  intros Hbs HK Hc Hc0.
  assert (K * bs / bs = K) as Hd by (apply Nat.div_mul; lia).
  assert ((K * bs + 1) / bs = K) as Hd1.
  { rewrite Nat.div_add_l by lia. rewrite Nat.div_small by lia. lia. }
  assert ((K * bs + 1) mod bs = 1) as Hm1.
  { rewrite Nat.add_comm, Nat.mod_add by lia. by apply Nat.mod_small. }
  assert (K * bs - K * bs = 0) as Hs by lia.
  set (s1 := set_sizes (insert 1 0) init).
  assert (step ceilf bs init (Create 1) = (s1, ADone)) as E1 by reflexivity.
  assert (exists s2, step ceilf bs s1 (Write 1 (K * bs) [v]) = (s2, ANum 1) /\
    blks s2 !! (1, K) = Some [v] /\ sizes s2 !! 1 = Some (K * bs + 1) /\
    failsafe s2 = false /\ locked s2 = ∅ /\ lost s2 = ∅ /\ broken s2 = ∅)
    as (s2&E2&B2&Z2&F2&L2&Lo2&Br2).
  { unfold step, do_write. assert (sizes s1 !! 1 = Some 0) as -> by reflexivity.
    rewrite decide_False by (intros [?|?]; [done|by apply (not_elem_of_empty (C := gset nat) 1)]).
    cbn [length write_loop]. rewrite decide_False by done.
    unfold readwrite_write. rewrite decide_False by (intros ?; by eapply (not_elem_of_empty (C := gset (nat * nat)))).
    assert (lost s1 !! (1, K * bs / bs) = None) as -> by apply lookup_empty.
    rewrite Hd, Hs. cbn [length]. rewrite !(decide_False (P := bs < 0 + 1)) by lia. cbn [take drop].
    rewrite decide_True by done.
    assert (content s1 (1, K) = []) as -> by (unfold content; change (blks s1) with (∅ : gmap (nat * nat) (list nat)); by rewrite lookup_empty).
    eexists. split; [reflexivity|]. split_and!; try reflexivity.
    apply lookup_insert.
  }
  clearbody s1.
  assert (exists s3, step ceilf bs s2 (Truncate 1 0) = (s3, ADone) /\
    blks s3 !! (1, K) = Some [v] /\ sizes s3 !! 1 = Some 0 /\
    failsafe s3 = false /\ locked s3 = ∅ /\ (forall k, lost s3 !! k = None) /\ broken s3 = ∅)
    as (s3&E3&B3&Z3&F3&L3&Lo3&Br3).
  { unfold step, do_truncate. rewrite Z2, F2, L2.
    rewrite decide_False by (intros [?|?]; [done|by apply (not_elem_of_empty (C := gset nat) 1)]).
    rewrite Nat.mod_0_l, Nat.div_0_l by lia. rewrite decide_True by done. rewrite Hc.
    eexists. split; [reflexivity|]. split_and!; try done.
    - rewrite remove_blks. cbn [fst snd]. rewrite decide_False by lia. done.
    - cbn. apply lookup_insert.
    - intros k. rewrite remove_lost. case_decide; [done|]. cbn. by rewrite Lo2, lookup_empty. }
  assert (exists s4, step ceilf bs s3 (Truncate 1 (K * bs + 1)) = (s4, ADone) /\
    blks s4 !! (1, K) = Some [v] /\ sizes s4 !! 1 = Some (K * bs + 1) /\
    (forall k, lost s4 !! k = None) /\ broken s4 = ∅)
    as (s4&E4&B4&Z4&Lo4&Br4).
  { unfold step, do_truncate. rewrite Z3, F3, L3.
    rewrite decide_False by (intros [?|?]; [done|by apply (not_elem_of_empty (C := gset nat) 1)]).
    rewrite Hm1, Hd1, Hc0. rewrite decide_False by done.
    set (s' := cache_remove _ 1 (K + 1) 0).
    assert (forall k, lost s' !! k = None) as Lo'.
    { intros k. unfold s'. rewrite remove_lost. case_decide; [done|]. apply Lo3. }
    rewrite Lo'.
    assert (content s' (1, K) = [v]) as ->.
    { unfold content, s'. rewrite remove_blks. cbn [fst snd]. rewrite decide_False by lia. cbn. by rewrite B3. }
    eexists. split; [reflexivity|]. split_and!; try done.
    - cbn. apply lookup_insert.
    - cbn. apply lookup_insert. }
  assert (step ceilf bs s4 (Read 1 (K * bs) 1) =
    (set_blks (insert (1, K) [v]) s4, AData [v])) as E5.
  { unfold step, do_read. rewrite Z4. replace (min (K * bs + 1 - K * bs) 1) with 1 by lia.
    cbn [read_loop]. rewrite decide_False by done. unfold readwrite_read. rewrite Br4.
    rewrite decide_False by (intros ?; by eapply (not_elem_of_empty (C := gset (nat * nat)))).
    rewrite Lo4, Hd, Hs. cbn [length]. rewrite !(decide_False (P := bs < 0 + 1)) by lia. unfold content. rewrite B4. cbn. done. }
  cbn [run]. rewrite E1, E2, E3, E4, E5. done.
Qed.

Definition big_bs : nat := Z.to_nat (2 ^ 20).
Definition big_k : nat := Z.to_nat (2 ^ 34).

Lemma big_float : float_ceil (big_k * big_bs + 1) big_bs = big_k.
Proof.
  unfold float_ceil. assert (Z.of_nat (big_k * big_bs + 1) = 2 ^ 54 + 1)%Z as ->.
  { unfold big_k, big_bs. rewrite Nat2Z.inj_add, Nat2Z.inj_mul, !Z2Nat.id by done. done. }
  unfold big_bs at 1. rewrite Z2Nat.id by done. unfold big_k. f_equal.
Qed.

Lemma truncated_bytes_return_lemma :
  exists bs K,
    (run float_ceil bs init
      [Create 1; Write 1 (K * bs) [7]; Truncate 1 0; Truncate 1 (K * bs + 1); Read 1 (K * bs) 1]).2
    = [ADone; ANum 1; ADone; ADone; AData [7]].
Proof.
  exists big_bs, big_k. apply lost_block_lemma.
  - unfold big_bs. lia.
  - unfold big_k. lia.
  - apply big_float.
  - done.
Qed.

Lemma float_ceil_is_exact_lemma (size bs : nat) :
  (Z.of_nat size < 2 ^ 53)%Z -> 0 < bs ->
    float_ceil size bs * bs - bs < size <= float_ceil size bs * bs \/ size = 0 /\ float_ceil size bs = 0.
Proof.
  intros Hs Hb. rewrite float_ceil_exact by done.
  destruct (decide (size = 0)) as [->|Hn].
  { right. split; [done|]. apply Nat.div_small. lia. }
  left. pose proof (Nat.div_mod (size + bs - 1) bs ltac:(lia)).
  pose proof (Nat.mod_upper_bound (size + bs - 1) bs ltac:(lia)). nia.
Qed.
