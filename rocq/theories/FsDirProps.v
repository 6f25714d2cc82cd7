(** Listing a directory (C17). *)
From stdpp Require Import prelude gmap strings sorting.
From Coq Require Import ZArith String.
From Verif Require Import FsModel FsSpec FsLemmas FsInv FsOps FsSteps FsHist FsDir.
Local Close Scope string_scope.
Local Open Scope Z_scope.

(** A listing in any number of steps, with any calls in between: it has no entry twice; every entry it has existed
    at some time; every name that existed throughout is in it, exactly once. *)
Theorem listing_sound max exact h s p sts l n i o : 0 < max -> reachable max exact h s -> listing max exact p s 0 sts l -> (n, i, o) ∈ l ->
  exists s1, s1 ∈ sts /\ entry s1 p n = Some i.
Proof. intros Hm Hre Hl Hi. destruct (listing_ok max Hm exact p s 0 sts l Hl (reachable_consistent max Hm _ _ _ Hre)) as (_ & _ & H & _). by eapply H. Qed.
Theorem listing_complete max exact h s p sts l n : 0 < max -> reachable max exact h s -> listing max exact p s 0 sts l ->
  (forall s1, s1 ∈ sts -> is_Some (entry s1 p n)) ->
  exists l1 i o l2, l = l1 ++ (n, i, o) :: l2 /\ forall x, x ∈ l1 ++ l2 -> x.1.1 <> n.
Proof.
  intros Hm Hre Hl Hi. destruct (listing_ok max Hm exact p s 0 sts l Hl (reachable_consistent max Hm _ _ _ Hre)) as (Hs & _ & _ & H).
  assert (s ∈ sts) as Hin by (destruct Hl; by left). destruct (Hi s Hin) as [j Hj]. apply entry_Some in Hj as (k & rc & Hk & _).
  destruct (H n k rc Hi Hk) as [P1 P2]. destruct P1 as [i P1]; [unfold low; rewrite decide_True by done; lia|].
  destruct (unique_split l n i _ Hs P1 P2) as (l1 & l2 & -> & Hu). eauto 10.
Qed.
(** If no call in between adds or removes names of the directory, the listing is exactly the directory. *)
Theorem listing_exact max exact h s p sts l : 0 < max -> reachable max exact h s -> listing max exact p s 0 sts l ->
  (forall s1 n, s1 ∈ sts -> entry s1 p n = entry s p n) ->
  NoDup l.*1.*1 /\ forall n i, (n, i) ∈ l.*1 <-> entry s p n = Some i.
Proof.
  intros Hm Hre Hl Hsame. assert (forall x, x ∈ l -> entry s p x.1.1 = Some x.1.2) as Hex.
  { intros [[n i] o] Hx. destruct (listing_sound _ _ _ _ _ _ _ _ _ _ Hm Hre Hl Hx) as (s1 & Hs1 & He). cbn. by rewrite <- (Hsame s1 n Hs1). }
  assert (forall n i, entry s p n = Some i -> exists l1 o l2, l = l1 ++ (n, i, o) :: l2 /\ forall x, x ∈ l1 ++ l2 -> x.1.1 <> n) as Hone.
  { intros n i Hi. destruct (listing_complete _ _ _ _ _ _ _ n Hm Hre Hl) as (l1 & i' & o & l2 & -> & Hu); [intros s1 Hs1; rewrite (Hsame s1 n Hs1); by eexists|].
    pose proof (Hex (n, i', o) ltac:(apply elem_of_app; right; by left)) as H. cbn in H. rewrite Hi in H. injection H as <-. eauto. }
  split.
  - rewrite <- list_fmap_compose. assert (forall l', (exists l0, l = l0 ++ l') -> NoDup ((fst ∘ fst) <$> l')) as H; [|apply (H l); by exists []].
    induction l' as [|[[n i] o] l' IH]; intros [l0 ->]; [constructor|]. cbn. apply NoDup_cons. split; [|apply IH; exists (l0 ++ [(n, i, o)]); by rewrite <- app_assoc].
    intros Hin. apply elem_of_list_fmap in Hin as ([[n' i'] o'] & E & Hin). cbn in E. subst n'.
    destruct (Hone n i (Hex (n, i, o) ltac:(apply elem_of_app; right; by left))) as (l1 & o1 & l2 & Hl12 & Hu).
    clear -Hl12 Hu Hin. revert l1 Hl12 Hu. induction l0 as [|x l0 IH]; intros [|y l1] Hl12 Hu; cbn in Hl12.
    + injection Hl12 as -> ->. by apply (Hu (n, i', o')).
    + injection Hl12 as <- ->. apply (Hu (n, i, o)); [by left|done].
    + injection Hl12 as -> <-. apply (Hu (n, i', o')); [|done]. cbn. apply elem_of_app. right. by right.
    + injection Hl12 as <- Hl12. apply (IH l1 Hl12). intros z Hz. apply Hu. by right.
  - intros n i. split.
    + intros Hin. apply elem_of_list_fmap in Hin as ([[n' i'] o] & [= -> ->] & Hx). apply (Hex _ Hx).
    + intros Hi. destruct (Hone n i Hi) as (l1 & o & l2 & -> & _). apply elem_of_list_fmap. exists (n, i, o). split; [done|]. apply elem_of_app. right. by left.
Qed.
(** A reply is empty only at the end: as long as there are names not yet listed, a reply with space for one entry has one. *)
Theorem listing_progress max exact h s p off k now s' l n k' rc : 0 < max -> reachable max exact h s -> (0 < k)%nat ->
  exec max (CReaddir p off k now) s = (s', Listing l) -> names s !! n = Some (k', rc) -> is_Some (entry s p n) -> off < Z.of_nat k' + 3 -> l <> [].
Proof.
  intros Hm Hre Hk E Hn [i Hi] Ho ->. cbn [exec] in E. apply readdir_reply in E. apply entry_Some in Hi as (k2 & rc2 & Hn2 & Hc2). rewrite Hn in Hn2. injection Hn2 as <- <-.
  assert ((k', n, i) ∈ rows s p (low off)) as Hr. { apply rows_elem. exists rc. split; [done|]. split; [done|]. unfold low. case_decide; lia. }
  destruct (rows s p (low off)); [by apply elem_of_nil in Hr|]. destruct k; [lia|]. done.
Qed.

(** A directory with three files, listed one entry at a time; meanwhile the first is removed and another one is created. *)
Definition me := Ctx 1000 1000.
Definition s0 := mkfs 0 0 5.
Definition three : list call := [CMknod ROOT "d" 16877 0 me 6; CMknod 4 "a" 33188 0 me 6; CMknod 4 "b" 33188 0 me 6; CMknod 4 "c" 33188 0 me 6].
Definition between : list call := [CUnlink 4 "a" 7; CMknod 4 "e" 33188 0 me 7].
Example listing_example : exists h s sts l, reachable 100 true h s /\ listing 100 true 4 s 0 sts l /\ l.*1.*1 = ["a"; "b"; "c"; "e"]%string /\
  (forall s1, s1 ∈ sts -> is_Some (entry s1 4 "b")) /\ exists s1, s1 ∈ sts /\ entry s1 4 "e" = None.
Proof.
  set (s1 := (run 100 three s0).2). exists (run 100 three s0).1, s1.
  set (s2 := (exec 100 (CReaddir 4 0 1 8) s1).1). set (s3 := (exec 100 (CUnlink 4 "a" 9) s2).1). set (s4 := (exec 100 (CMknod 4 "e" 33188 0 me 9) s3).1).
  set (s5 := (exec 100 (CReaddir 4 6 2 10) s4).1). set (s6 := (exec 100 (CReaddir 4 8 3 11) s5).1).
  exists [s1; s2; s3; s4; s5; s6]. eexists. split.
  { apply (run_reachable 100 true three [] s0 (reach_init _ _ _ _ _)). cbn [allowed_all three]. by repeat split; try (vm_compute; done). }
  split.
  { eapply (list_read _ _ _ s1 0 1 8 s2 []); [vm_compute; reflexivity|].
    eapply (list_other _ _ _ s2 _ (CUnlink 4 "a" 9) s3); [done|vm_compute; reflexivity|done|].
    eapply (list_other _ _ _ s3 _ (CMknod 4 "e" 33188 0 me 9) s4); [done|vm_compute; reflexivity|done|].
    eapply (list_read _ _ _ s4 _ 2 10 s5 [_]); [vm_compute; reflexivity|].
    eapply (list_read _ _ _ s5 _ 3 11 s6 []); [vm_compute; reflexivity|].
    eapply (list_end _ _ _ s6 _ 1 12); [lia|vm_compute; reflexivity]. }
  split; [reflexivity|]. split.
  - intros x Hx. repeat (apply elem_of_cons in Hx as [-> | Hx]; [vm_compute; by eexists|]). by apply elem_of_nil in Hx.
  - exists s1. split; [by left|vm_compute; reflexivity].
Qed.

Print Assumptions listing_sound.
Print Assumptions listing_complete.
Print Assumptions listing_exact.
Print Assumptions listing_progress.
