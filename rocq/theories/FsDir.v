(** Listing a directory in several steps. *)
From stdpp Require Import prelude gmap strings sorting.
From Coq Require Import ZArith String.
From Verif Require Import FsModel FsSpec FsLemmas FsInv FsOps FsSteps FsHist.
Local Close Scope string_scope.
Local Open Scope Z_scope.

(** * Name ids *)
Section ids.
Context (max_obj_size : Z).
Lemma sub_eq s s' : names s' = names s -> sub (names s) (names s').
Proof. intros ->. apply sub_refl. Qed.
Lemma purge_sub i z s : sub (names (purge_inode max_obj_size i z s)) (names s).
Proof. apply (purge_shrinks max_obj_size). Qed.
Lemma forget1_sub i n s : sub (names (forget1 max_obj_size i n s).1) (names s).
Proof. unfold forget1. case_decide; [|apply sub_refl]. cbn [inodes set_opens]. destruct (inodes s !! i) as [a|]; [|apply sub_refl]. case_decide; [|apply sub_refl]. eapply sub_trans; [apply purge_sub|apply sub_refl]. Qed.
Lemma forget_sub l s : sub (names (forget max_obj_size l s).1) (names s).
Proof.
  revert s. induction l as [|[i n] l IH]; intros s; cbn [forget]; [apply sub_refl|]. pose proof (forget1_sub i n s) as H. destruct (forget1 max_obj_size i n s) as [s1 r].
  destruct r; try exact H. eapply sub_trans; [apply IH|exact H].
Qed.
Lemma lookup__names p n s : names (lookup_ p n s).1 = names s.
Proof. unfold lookup_. destruct (if decide _ then _ else _); [|done]. by destruct (inodes s !! _). Qed.
Lemma remove_sub p n i f now s : sub (names (remove max_obj_size p n i f now s).1) (names s).
Proof.
  unfold remove. destruct (has_children s i); [apply sub_refl|]. destruct (inodes s !! p) as [ap|]; [|apply sub_refl]. destruct (locked ap && negb f); [apply sub_refl|].
  destruct (del_name n s) as [[s1 k]|] eqn:E; [|apply sub_refl]. apply del_name_sub in E. cbn [inodes set_contents]. destruct (inodes s1 !! i) as [a|]; [|exact E].
  case_decide; [|exact E]. eapply sub_trans; [apply purge_sub|exact E].
Qed.
Lemma create__sub p n m c rd sz now s : sub (names s) (names (create_ p n m c rd sz now s).1).
Proof.
  unfold create_. case_decide; [apply sub_refl|]. destruct (inodes s !! p) as [ap|]; [|apply sub_refl]. destruct (locked ap); [apply sub_refl|]. case_decide; [apply sub_refl|].
  match goal with |- context [add_name n ?x] => destruct (add_name n x) as [s1 k] eqn:E end. apply add_name_sub in E. by destruct (contents s1 !! (p, k)).
Qed.
Lemma setattr_names i rq bad o now s : names (setattr max_obj_size i rq bad o now s).1 = names s.
Proof.
  unfold setattr. destruct (inodes s !! i) as [a|]; [|done]. destruct (failsafe s || locked a); [done|].
  match goal with |- context [match ?x with Some _ => _ | None => (_, Err EINVAL) end] => destruct x as [a1|]; [|done] end.
  match goal with |- context [match ?x with Some _ => _ | None => (_, Err EINVAL) end] => destruct x as [a2|]; [|done] end.
  destruct (r_size rq); [|done]. case_decide; [done|]. by destruct bad as [[]|].
Qed.
Lemma open__names i w t now s : names (open_ max_obj_size i w t now s).1 = names s.
Proof.
  unfold open_. destruct (w && failsafe s); [done|]. destruct (inodes s !! i) as [a|]; [|by destruct (w || t)]. destruct (w && locked a); [done|]. destruct t; [|done]. destruct (negb w); [done|].
  destruct (S_ISREG (mode a)); [|by destruct (S_ISFIFO (mode a) || S_ISBLK (mode a))].
  match goal with |- context [setattr ?a ?b ?c ?d ?e ?f ?g] => pose proof (setattr_names b c d e f g) as H; destruct (setattr a b c d e f g) as [s1 r] end. by destruct r.
Qed.
Lemma reply_same l s : names (reply l s).1 = names s /\ contents (reply l s).1 = contents s /\
  forall r, (reply l s).2 = Listing r -> r = (fun x : nat * string * nat => (x.1.2, x.2, Z.of_nat x.1.1 + 3)) <$> l.
Proof.
  revert s. induction l as [|[[k n] i] l IH]; intros s; cbn [reply]; [split; [done|split; [done|]]; by intros r [= <-]|].
  destruct (inodes s !! i) as [a|]; [|done]. destruct (IH (incr_open i s)) as (H1 & H2 & H3). destruct (reply l (incr_open i s)) as [s1 r1]. cbn in H1, H2, H3.
  destruct r1; (split; [done|split; [done|]]); try done. cbn. intros r [= <-]. rewrite (H3 _ eq_refl). done.
Qed.
Lemma step_ids c s s' r : exec max_obj_size c s = (s', r) -> exists mid, sub (names s) mid /\ sub (names s') mid.
Proof.
  intros E. assert (s' = (exec max_obj_size c s).1) as -> by by rewrite E. clear E.
  assert (forall s', sub (names s) (names s') -> exists mid, sub (names s) mid /\ sub (names s') mid) as G by (intros; eexists; split; [eassumption|apply sub_refl]).
  assert (forall s', sub (names s') (names s) -> exists mid, sub (names s) mid /\ sub (names s') mid) as D by (intros; eexists; split; [apply sub_refl|eassumption]).
  assert (forall s', names s' = names s -> exists mid, sub (names s) mid /\ sub (names s') mid) as Q by (intros ? ->; eexists; split; apply sub_refl).
  destruct c; cbn [exec].
  - apply Q. unfold lookup. pose proof (lookup__names p n s) as H. by destruct (lookup_ p n s) as [s1 []].
  - by apply Q.
  - apply Q. unfold readlink. by destruct (inodes s !! i).
  - apply Q. unfold readdir. destruct (inodes s !! i); [|done]. match goal with |- context [reply ?a ?b] => destruct (reply_same a b) as [H _] end. exact H.
  - by apply Q.
  - by apply Q.
  - apply G. unfold setxattr. destruct (is_acl n); [apply sub_refl|]. destruct (failsafe s); [apply sub_refl|]. destruct (inodes s !! i) as [a|]; [|apply sub_refl]. destruct (locked a); [apply sub_refl|].
    destruct (add_name n s) as [s1 k] eqn:E. by apply add_name_sub in E.
  - apply D. unfold removexattr. destruct (failsafe s); [apply sub_refl|]. destruct (inodes s !! i) as [a|]; [|apply sub_refl]. destruct (locked a); [apply sub_refl|].
    destruct (del_name n s) as [[s1 k]|] eqn:E; [|apply sub_refl]. apply del_name_sub in E. by destruct (xattrs s1 !! (i, k)).
  - apply D. unfold unlink. destruct (failsafe s); [apply sub_refl|]. pose proof (lookup__names p n s) as H. destruct (lookup_ p n s) as [s1 [e|i]]; cbn in H; [cbn [fst]; rewrite H; apply sub_refl|].
    destruct (S_ISDIR (mode_of s1 i)); [cbn [fst]; rewrite H; apply sub_refl|]. pose proof (remove_sub p n i false now s1) as Hr. rewrite H in Hr.
    destruct (remove max_obj_size p n i false now s1) as [s2 r2]. destruct r2; try exact Hr. eapply sub_trans; [apply forget1_sub|exact Hr].
  - apply D. unfold rmdir. destruct (failsafe s); [apply sub_refl|]. pose proof (lookup__names p n s) as H. destruct (lookup_ p n s) as [s1 [e|i]]; cbn in H; [cbn [fst]; rewrite H; apply sub_refl|].
    destruct (inodes s1 !! p) as [ap|]; [|cbn [fst]; rewrite H; apply sub_refl]. destruct (locked ap); [cbn [fst]; rewrite H; apply sub_refl|].
    destruct (negb _); [cbn [fst]; rewrite H; apply sub_refl|]. pose proof (remove_sub p n i false now s1) as Hr. rewrite H in Hr.
    destruct (remove max_obj_size p n i false now s1) as [s2 r2]. destruct r2; try exact Hr. eapply sub_trans; [apply forget1_sub|exact Hr].
  - apply G. unfold mknod. destruct (failsafe s); [apply sub_refl|]. pose proof (create__sub p n m c rd 0 now s) as H. by destruct (create_ p n m c rd 0 now s) as [s1 []].
  - apply G. unfold symlink. destruct (failsafe s); [apply sub_refl|].
    match goal with |- context [create_ p n LINKMODE c 0 ?z now s] => pose proof (create__sub p n LINKMODE c 0 z now s) as H; by destruct (create_ p n LINKMODE c 0 z now s) as [s1 []] end.
  - unfold rename. destruct fl; [by apply Q|]. case_decide as Hd; [by apply Q|]. destruct (failsafe s); [by apply Q|]. destruct (inodes s !! po) as [ao|]; [|by apply Q]. destruct (inodes s !! pn) as [an|]; [|by apply Q].
    destruct (locked ao || locked an); [by apply Q|]. pose proof (lookup__names po no s) as H. destruct (lookup_ po no s) as [s1 [e|io]]; cbn in H; [by apply Q|].
    pose proof (lookup__names pn nn s1) as H'. destruct (lookup_ pn nn s1) as [s2 [e|iw]]; cbn in H'; rewrite H in H'.
    + assert (exists mid, sub (names s) mid /\ sub (names (rename_ po no pn nn now s2).1) mid) as (mid & M1 & M2).
      { unfold rename_. destruct (add_name nn s2) as [s3 kn] eqn:E. apply add_name_sub in E. rewrite H' in E. exists (names s3). split; [done|].
        destruct (del_name no s3) as [[s4 ko]|] eqn:E4; [|apply sub_refl]. apply del_name_sub in E4. destruct (contents s4 !! (po, ko)) as [i|]; [|exact E4].
        by destruct (delete (po, ko) (contents s4) !! (pn, kn)). }
      destruct e as [| | | | | |e|]; try (by apply Q). destruct e; try (by apply Q).
      destruct (rename_ po no pn nn now s2) as [s3 r3]. destruct r3; try (by exists mid). exists mid. split; [done|]. eapply sub_trans; [apply forget_sub|exact M2].
    + apply D. assert (sub (names (replace max_obj_size po no pn nn io iw now s2).1) (names s)) as Hr.
      { unfold replace. rewrite <- H'. destruct (has_children s2 iw); [apply sub_refl|]. destruct (names s2 !! nn) as [[kn rc]|]; [|apply sub_refl].
        match goal with |- context [del_name no ?x] => destruct (del_name no x) as [[s4 ko]|] eqn:E4; [|apply sub_refl] end. apply del_name_sub in E4. cbn [names set_contents] in E4.
        cbn [inodes set_contents]. destruct (inodes s4 !! iw) as [a|]; [|exact E4]. case_decide; [|exact E4]. eapply sub_trans; [apply purge_sub|exact E4]. }
      destruct (replace max_obj_size po no pn nn io iw now s2) as [s3 r3]. destruct r3; try exact Hr. eapply sub_trans; [apply forget_sub|exact Hr].
  - apply G. unfold link. case_decide; [apply sub_refl|]. destruct (inodes s !! p) as [ap|]; [|apply sub_refl]. case_decide; [apply sub_refl|]. destruct (failsafe s || locked ap); [apply sub_refl|].
    match goal with |- context [add_name n ?x] => destruct (add_name n x) as [s1 k] eqn:E end. apply add_name_sub in E. destruct (contents s1 !! (p, k)); [exact E|].
    cbn [inodes set_contents]. by destruct (inodes s1 !! i).
  - apply Q, setattr_names.
  - apply Q, open__names.
  - apply G. unfold create. destruct (failsafe s); [apply sub_refl|]. destruct (entry s p n) as [i|].
    + pose proof (open__names i w t now s) as H. destruct (open_ max_obj_size i w t now s) as [s1 r1]. cbn in H. destruct r1; cbn; rewrite ?H; apply sub_refl.
    + pose proof (create__sub p n m c 0 0 now s) as H. by destruct (create_ p n m c 0 0 now s) as [s1 []].
  - apply Q. unfold read. destruct (inodes s !! i); [|done]. by destruct bad.
  - apply Q. unfold write. destruct (failsafe s); [done|]. destruct (inodes s !! i) as [a|]; [|done]. destruct (locked a); [done|].
    destruct (puts_same i l s) as (H & _). by destruct bad.
  - apply D, forget_sub.
  - apply Q. unfold lock. by destruct (inodes s !! i).
  - apply D, remove_sub.
Qed.
Lemma step_id c s s' r n k rc k' rc' : exec max_obj_size c s = (s', r) -> names s !! n = Some (k, rc) -> names s' !! n = Some (k', rc') -> k' = k.
Proof. intros E H H'. destruct (step_ids _ _ _ _ E) as (mid & M1 & M2). apply M1 in H as [? H]. apply M2 in H' as [? H']. congruence. Qed.
End ids.

(** * Rows *)
Definition rkey (x : nat * string * nat) : nat := x.1.1.
Section rows.
Context (max_obj_size : Z) (exact : bool).
Lemma rows_elem s p off k n i : (k, n, i) ∈ rows s p off <-> exists rc, names s !! n = Some (k, rc) /\ contents s !! (p, k) = Some i /\ off < Z.of_nat k.
Proof.
  unfold rows. rewrite merge_sort_Permutation, elem_of_list_omap. split.
  - intros [[m [k' rc]] [Hm Hx]]. apply elem_of_map_to_list in Hm. destruct (contents s !! (p, k')) as [j|] eqn:E; [|done]. case_decide; [|done]. injection Hx as -> -> ->. eauto.
  - intros (rc & Hn & Hc & Hk). exists (n, (k, rc)). rewrite elem_of_map_to_list. split; [done|]. rewrite Hc. by rewrite decide_True.
Qed.
Lemma rows_keys s p off : inj (names s) -> NoDup (rkey <$> rows s p off).
Proof.
  intros Hinj. unfold rows. rewrite merge_sort_Permutation. rewrite list_fmap_omap.
  assert (forall l : list (string * (nat * Z)), NoDup l.*1 -> (forall x, x ∈ l -> names s !! x.1 = Some x.2) ->
    NoDup (omap (fmap rkey ∘ (fun x : string * (nat * Z) => let '(n, (k, _)) := x in
      match contents s !! (p, k) with Some i => if decide (off < Z.of_nat k) then Some (k, n, i) else None | None => None end)) l)) as H.
  { induction l as [|[n [k rc]] l IH]; intros Hnd Hl; [constructor|]. cbn in Hnd. apply NoDup_cons in Hnd as [Hn Hnd].
    assert (NoDup (omap (fmap rkey ∘ (fun x : string * (nat * Z) => let '(n, (k, _)) := x in
      match contents s !! (p, k) with Some i => if decide (off < Z.of_nat k) then Some (k, n, i) else None | None => None end)) l)) as IH'.
    { apply IH; [done|]. intros x Hx. apply Hl. by right. }
    cbn. destruct (contents s !! (p, k)) as [i|]; [|exact IH']. case_decide; [|exact IH']. cbn. apply NoDup_cons. split; [|exact IH'].
    intros Hin. apply elem_of_list_omap in Hin as [[n' [k' rc']] [Hin Hx]]. cbn in Hx. destruct (contents s !! (p, k')); [|done]. case_decide; [|done]. cbn in Hx. injection Hx as Hk. unfold rkey in Hk. cbn in Hk. subst k'.
    pose proof (Hl (n', (k, rc')) ltac:(by right)) as H1. pose proof (Hl (n, (k, rc)) ltac:(by left)) as H2. cbn in H1, H2. pose proof (Hinj _ _ _ _ _ H1 H2) as ->.
    apply Hn. apply elem_of_list_fmap. by exists (n, (k, rc')). }
  apply H; [apply NoDup_fst_map_to_list|]. intros [n v] Hx. by apply elem_of_map_to_list in Hx.
Qed.
Lemma row_le_trans : Transitive row_le.
Proof. intros x y z. unfold row_le. lia. Qed.
Lemma row_le_total : Total row_le.
Proof. intros x y. unfold row_le. lia. Qed.
Lemma rows_sorted s p off : StronglySorted row_le (rows s p off).
Proof. unfold rows. apply (@StronglySorted_merge_sort _ row_le _ row_le_trans row_le_total). Qed.
Lemma rows_lt s p off : inj (names s) -> StronglySorted lt (rkey <$> rows s p off).
Proof.
  intros Hinj. pose proof (rows_sorted s p off) as Hs. pose proof (rows_keys s p off Hinj) as Hn. revert Hs Hn. generalize (rows s p off) as l.
  induction 1 as [|x l Hs IH Hx]; cbn; [constructor|]. intros Hn. apply NoDup_cons in Hn as [Hnx Hn]. constructor; [by apply IH|].
  rewrite Forall_fmap. rewrite Forall_forall in *. intros y Hy. specialize (Hx y Hy). unfold row_le in Hx. cbn. destruct (decide (rkey x = rkey y)) as [E|E].
  - exfalso. apply Hnx. rewrite E. by apply elem_of_list_fmap_1.
  - unfold rkey in *. lia.
Qed.
Definition low (off : Z) : Z := (if decide (off = 0) then -1 else off) - 3.
Definition shown (x : nat * string * nat) : string * nat * Z := (x.1.2, x.2, Z.of_nat x.1.1 + 3).
Lemma readdir_reply p off k now s s' r : readdir p off k now s = (s', Listing r) -> r = shown <$> take k (rows s p (low off)).
Proof.
  unfold readdir. destruct (inodes s !! p); [|done]. intros E.
  match type of E with reply ?a ?b = _ => destruct (reply_same a b) as (_ & _ & H) end. rewrite E in H. by rewrite (H _ eq_refl).
Qed.
Lemma readdir_names p off k now s s' r : readdir p off k now s = (s', r) -> names s' = names s /\ contents s' = contents s.
Proof.
  unfold readdir. destruct (inodes s !! p); [|intros [= <- _]; done]. intros E.
  match type of E with reply ?a ?b = _ => destruct (reply_same a b) as (H1 & H2 & _) end. rewrite E in H1, H2. done.
Qed.
End rows.

(** * Listings *)
Section listings.
Context (max_obj_size : Z) (Hmax : 0 < max_obj_size).
Lemma step_consistent exact s c s' r : consistent max_obj_size exact s -> allowed max_obj_size exact s c -> exec max_obj_size c s = (s', r) -> r <> Crash -> consistent max_obj_size exact s'.
Proof. intros Hc Ha Hr Hn. by destruct (step_good max_obj_size Hmax exact s c s' r Hc Ha Hr Hn) as (? & _). Qed.
Lemma sorted_take {A} (R : A -> A -> Prop) k l : StronglySorted R l -> StronglySorted R (take k l).
Proof. intros H. rewrite <- (take_drop k l) in H. apply StronglySorted_app_inv_l in H. done. Qed.
Lemma sorted_split (l1 l2 : list Z) : StronglySorted Z.lt l1 -> StronglySorted Z.lt l2 -> (forall x y, x ∈ l1 -> y ∈ l2 -> x < y) -> StronglySorted Z.lt (l1 ++ l2).
Proof.
  intros H1 H2 H. induction H1 as [|x l1 Hs IH Hx]; [done|]. cbn. constructor.
  - apply IH. intros a b Ha Hb. apply H; [by right|done].
  - apply Forall_app. split; [done|]. apply Forall_forall. intros y Hy. apply H; [by left|done].
Qed.
Lemma sorted_fmap_Z (l : list nat) : StronglySorted lt l -> StronglySorted Z.lt ((fun k => Z.of_nat k + 3) <$> l).
Proof. induction 1 as [|x l Hs IH Hx]; cbn; constructor; [done|]. rewrite Forall_fmap. eapply Forall_impl; [exact Hx|]. cbn. lia. Qed.

Lemma listing_ok exact p s off sts l : listing max_obj_size exact p s off sts l -> consistent max_obj_size exact s ->
  StronglySorted Z.lt (snd <$> l) /\ (forall x, x ∈ l -> low off + 3 < x.2) /\
  (forall n i o, (n, i, o) ∈ l -> exists s1, s1 ∈ sts /\ entry s1 p n = Some i) /\
  (forall n k rc, (forall s1, s1 ∈ sts -> is_Some (entry s1 p n)) -> names s !! n = Some (k, rc) ->
     (low off < Z.of_nat k -> exists i, (n, i, Z.of_nat k + 3) ∈ l) /\ (forall i o, (n, i, o) ∈ l -> o = Z.of_nat k + 3)).
Proof.
  induction 1 as [s off k now s' Hk E|s off k now s' r n i off' sts l E Hl IH|s off c s' r sts l Ha E Hn Hl IH]; intros Hc; cbn [exec] in E.
  - split; [constructor|]. split; [intros x Hx; by apply elem_of_nil in Hx|]. split; [intros ? ? ? Hx; by apply elem_of_nil in Hx|].
    intros n k' rc Hin Hk'. split; [|intros ? ? Hx; by apply elem_of_nil in Hx]. intros Hlo. apply readdir_reply in E.
    destruct (Hin s ltac:(by left)) as [i Hi]. apply entry_Some in Hi as (k2 & rc2 & Hn2 & Hc2). rewrite Hk' in Hn2. injection Hn2 as <- <-.
    assert ((k', n, i) ∈ rows s p (low off)) as Hr by (apply rows_elem; eauto).
    destruct (rows s p (low off)) as [|x xs]; [by apply elem_of_nil in Hr|]. destruct k; [lia|]. done.
  - destruct (readdir_names _ _ _ _ _ _ _ E) as [Hnm Hct].
    assert (consistent max_obj_size exact s') as Hc' by (eapply (step_consistent exact s (CReaddir p off k now)); [done|exact I|exact E|done]).
    destruct (IH Hc') as (S1 & S2 & S3 & S4). clear IH. pose proof (readdir_reply _ _ _ _ _ _ _ E) as Hrep.
    set (R := rows s p (low off)) in *. pose proof (rows_lt s p (low off) (consistent_inj _ _ _ Hc)) as HR. fold R in HR.
    assert (forall y, y ∈ r ++ [(n, i, off')] -> exists y', y' ∈ R /\ y = shown y') as Hfrom.
    { intros y Hy. rewrite Hrep in Hy. apply elem_of_list_fmap in Hy as (y' & -> & Hy'). exists y'. split; [|done]. rewrite <- (take_drop k R). apply elem_of_app. by left. }
    assert (StronglySorted Z.lt (snd <$> r ++ [(n, i, off')])) as SR.
    { rewrite Hrep. rewrite <- list_fmap_compose. change (snd ∘ shown) with ((fun k => Z.of_nat k + 3) ∘ rkey). rewrite list_fmap_compose. apply sorted_fmap_Z. rewrite fmap_take. by apply sorted_take. }
    assert (forall x, x ∈ r ++ [(n, i, off')] -> x.2 <= off') as Htop.
    { intros x Hx. rewrite fmap_app in SR. cbn in SR. apply elem_of_app in Hx as [Hx|Hx]; [|apply elem_of_list_singleton in Hx as ->; cbn; lia].
      assert (x.2 < off'); [|lia]. eapply (elem_of_StronglySorted_app Z.lt _ _ _ _ SR); [by apply elem_of_list_fmap_1|by left]. }
    assert (forall x, x ∈ r ++ [(n, i, off')] -> low off + 3 < x.2) as Hbot.
    { intros x Hx. destruct (Hfrom x Hx) as [[[ky ny] iy] [Hy ->]]. apply rows_elem in Hy as (? & _ & _ & ?). cbn. lia. }
    assert (low off' = off' - 3 /\ 3 < off') as [Hlow' Hoff'].
    { destruct (Hfrom (n, i, off') ltac:(apply elem_of_app; right; by left)) as [[[ky ny] iy] [Hy Ho]]. apply rows_elem in Hy as (rcy & Hy & _). injection Ho as -> -> ->.
      destruct (c_names _ _ _ Hc) as [_ Hpos]. specialize (Hpos _ _ _ Hy). unfold low. case_decide; lia. }
    rewrite Hlow' in *.
    assert (r ++ (n, i, off') :: l = (r ++ [(n, i, off')]) ++ l) as -> by by rewrite <- app_assoc.
    split.
    { rewrite fmap_app. apply sorted_split; [done|done|]. intros x y Hx Hy. apply elem_of_list_fmap in Hx as (x' & -> & Hx). apply elem_of_list_fmap in Hy as (y' & -> & Hy).
      specialize (Htop _ Hx). specialize (S2 _ Hy). lia. }
    split. { intros x Hx. apply elem_of_app in Hx as [Hx|Hx]; [by apply Hbot|]. specialize (S2 _ Hx). specialize (Hbot (n, i, off') ltac:(apply elem_of_app; right; by left)). cbn in Hbot. lia. }
    split.
    { intros m j o Hx. apply elem_of_app in Hx as [Hx|Hx].
      - exists s. split; [by left|]. destruct (Hfrom _ Hx) as [[[ky ny] iy] [Hy [= -> -> ->]]]. apply rows_elem in Hy as (rcy & Hy & Hcy & _). cbn. apply entry_Some. eauto.
      - destruct (S3 _ _ _ Hx) as (s1 & Hs1 & He). exists s1. split; [by right|done]. }
    intros m km rc Hin Hm. assert (forall s1, s1 ∈ sts -> is_Some (entry s1 p m)) as Hin' by (intros s1 Hs1; apply Hin; by right).
    assert (names s' !! m = Some (km, rc)) as Hm' by by rewrite Hnm. destruct (S4 m km rc Hin' Hm') as [P1 P2]. split.
    + intros Hlo. destruct (decide (Z.of_nat km + 3 <= off')) as [Hle|Hgt].
      * destruct (Hin s ltac:(by left)) as [j Hj]. apply entry_Some in Hj as (k2 & rc2 & Hn2 & Hc2). rewrite Hm in Hn2. injection Hn2 as <- <-.
        assert ((km, m, j) ∈ R) as Hr by (apply rows_elem; eauto). rewrite <- (take_drop k R) in Hr. apply elem_of_app in Hr as [Hr|Hr].
        { exists j. apply elem_of_app. left. rewrite Hrep. apply elem_of_list_fmap. by exists (km, m, j). }
        exfalso. assert ((n, i, off') ∈ shown <$> take k R) as Hlast by (rewrite <- Hrep; apply elem_of_app; right; by left). apply elem_of_list_fmap in Hlast as ([[kl nl] il] & Hx & Hl').
        injection Hx as -> -> ->. rewrite <- (take_drop k R), fmap_app in HR. assert (kl < km)%nat; [|lia].
        eapply (elem_of_StronglySorted_app lt _ _ _ _ HR); [apply (elem_of_list_fmap_1 rkey _ _ Hl')|apply (elem_of_list_fmap_1 rkey _ _ Hr)].
      * destruct (P1 ltac:(lia)) as [j Hj]. exists j. apply elem_of_app. by right.
    + intros j o Hx. apply elem_of_app in Hx as [Hx|Hx]; [|by eapply P2]. destruct (Hfrom _ Hx) as [[[ky ny] iy] [Hy [= -> -> ->]]]. apply rows_elem in Hy as (rcy & Hy & _). cbn in *. rewrite Hm in Hy. injection Hy as -> _. done.
  - assert (consistent max_obj_size exact s') as Hc' by by eapply step_consistent.
    destruct (IH Hc') as (S1 & S2 & S3 & S4). split; [done|]. split; [done|]. split.
    { intros m j o Hx. destruct (S3 _ _ _ Hx) as (s1 & Hs1 & He). exists s1. split; [by right|done]. }
    intros m km rc Hin Hm. assert (forall s1, s1 ∈ sts -> is_Some (entry s1 p m)) as Hin' by (intros s1 Hs1; apply Hin; by right).
    assert (s' ∈ sts) as Hs' by (destruct Hl; by left). destruct (Hin' s' Hs') as [j Hj]. apply entry_Some in Hj as (k2 & rc2 & Hn2 & _).
    pose proof (step_id _ _ _ _ _ _ _ _ _ _ E Hm Hn2) as ->. apply (S4 m km rc2 Hin' Hn2).
Qed.
Lemma unique_split (l : list (string * nat * Z)) n i o : StronglySorted Z.lt (snd <$> l) -> (n, i, o) ∈ l -> (forall i' o', (n, i', o') ∈ l -> o' = o) ->
  exists l1 l2, l = l1 ++ (n, i, o) :: l2 /\ forall x, x ∈ l1 ++ l2 -> x.1.1 <> n.
Proof.
  intros Hs Hin Hu. apply elem_of_list_split in Hin as (l1 & l2 & ->). exists l1, l2. split; [done|]. intros [[m j] o'] Hx Hm. cbn in Hm. subst m.
  rewrite fmap_app in Hs. cbn in Hs. apply elem_of_app in Hx as [Hx|Hx].
  - assert (o' = o) as -> by (apply (Hu j); apply elem_of_app; by left). assert (o < o); [|lia].
    eapply (elem_of_StronglySorted_app Z.lt _ _ _ _ Hs); [apply (elem_of_list_fmap_1 snd _ _ Hx)|by left].
  - assert (o' = o) as -> by (apply (Hu j); apply elem_of_app; right; by right). apply StronglySorted_app_inv_r in Hs. inversion Hs as [|? ? _ Hf]. rewrite Forall_forall in Hf.
    specialize (Hf o (elem_of_list_fmap_1 snd _ _ Hx)). lia.
Qed.
End listings.
