(** lock_tree and remove_tree *)
From stdpp Require Import prelude gmap strings sorting.
From Coq Require Import ZArith String.
From Verif Require Import FsModel FsSpec FsLemmas FsInv FsOps FsSteps FsHist FsLock FsDir FsTreeModel.
Local Close Scope string_scope.
Local Open Scope Z_scope.

(** * Rows *)
Lemma crows_elem s p off k i : (k, i) ∈ crows s p off <-> contents s !! (p, k) = Some i /\ off < Z.of_nat k.
Proof.
  unfold crows. rewrite merge_sort_Permutation, elem_of_list_omap. split.
  - intros [[[q k'] j] [Hm Hx]]. apply elem_of_map_to_list in Hm. case_decide as D; [|done]. destruct D as [-> ?]. by injection Hx as -> ->.
  - intros [Hc Hk]. exists ((p, k), i). rewrite elem_of_map_to_list. split; [done|]. by rewrite decide_True.
Qed.
Lemma crow_le_trans : Transitive crow_le.
Proof. intros x y z. unfold crow_le. lia. Qed.
Lemma crow_le_total : Total crow_le.
Proof. intros x y. unfold crow_le. lia. Qed.
Lemma crows_sorted s p off : StronglySorted crow_le (crows s p off).
Proof. unfold crows. apply (@StronglySorted_merge_sort _ crow_le _ crow_le_trans crow_le_total). Qed.
Lemma crows_take s p off m k i kl il : (k, i) ∈ crows s p off -> last (take m (crows s p off)) = Some (kl, il) -> (k, i) ∈ take m (crows s p off) \/ (kl < k)%nat.
Proof.
  intros Hin Hl. rewrite <- (take_drop m (crows s p off)) in Hin. apply elem_of_app in Hin as [Hin|Hin]; [by left|].
  apply last_Some_elem_of in Hl as Hle. pose proof (crows_sorted s p off) as Hs. rewrite <- (take_drop m (crows s p off)) in Hs.
  pose proof (elem_of_StronglySorted_app crow_le _ _ _ _ Hs Hle Hin) as Hlt. unfold crow_le in Hlt. cbn in Hlt.
  destruct (decide (kl = k)) as [->|]; [|right; lia]. left.
  assert ((k, il) ∈ crows s p off) as H1 by (rewrite <- (take_drop m (crows s p off)); apply elem_of_app; by left).
  assert ((k, i) ∈ crows s p off) as H2 by (rewrite <- (take_drop m (crows s p off)); apply elem_of_app; by right).
  apply crows_elem in H1 as [H1 _]. apply crows_elem in H2 as [H2 _]. rewrite H1 in H2. by injection H2 as ->.
Qed.
Lemma has_children_iff s i : has_children s i = true <-> exists k j, contents s !! (i, k) = Some j.
Proof.
  split.
  - intros H. destruct (decide (filter (fun kv : nat * nat * nat => kv.1.1 = i) (contents s) = ∅)) as [E|E].
    + unfold has_children in H. apply bool_decide_eq_true in H. done.
    + apply map_choose in E as ([p k] & j & Hx). apply map_filter_lookup_Some in Hx as [Hx Hp]. cbn in Hp. subst p. eauto.
  - intros (k & j & H). destruct (has_children s i) eqn:E; [done|]. by apply (proj1 (has_children_false s i) E) in H.
Qed.
Lemma has_children_entry max exact s i : consistent max exact s -> has_children s i = true <-> exists n j, entry s i n = Some j.
Proof.
  intros Hc. rewrite has_children_iff. split.
  - intros (k & j & H). destruct (c_entries _ _ _ Hc _ _ _ H) as ((n & rc & Hn) & _). exists n, j. apply entry_Some. eauto.
  - intros (n & j & H). apply entry_Some in H as (k & rc & _ & H). eauto.
Qed.

(** * lock_tree *)
Section locktree.
Context (max_obj_size : Z) (Hmax : 0 < max_obj_size) (exact : bool).
Local Notation consistent := (consistent max_obj_size exact).
Lemma lock_inv i s s' : lock i s = (s', Done) -> is_Some (inodes s !! i) /\ s' = upd_inode i set_locked s.
Proof. unfold lock. destruct (inodes s !! i) eqn:E; [|done]. intros [= <-]. split; [by eexists|done]. Qed.
Lemma lock_keeps i s : consistent s -> consistent (upd_inode i set_locked s).
Proof. apply consistent_mild, mild_locked. Qed.
Lemma lock_locked i j s : is_locked_in s j -> is_locked_in (upd_inode i set_locked s) j.
Proof.
  intros (a & Ha & Hl). destruct (decide (i = j)) as [->|Hne].
  - exists (set_locked a). cbn. rewrite lookup_alter, Ha. done.
  - exists a. cbn. by rewrite lookup_alter_ne.
Qed.
Lemma locked_now i s : is_Some (inodes s !! i) -> is_locked_in (upd_inode i set_locked s) i.
Proof. intros [a Ha]. exists (set_locked a). cbn. rewrite lookup_alter, Ha. done. Qed.
Lemma lock_rows_ok l s s' q : lock_rows l s = (s', q, Done) -> consistent s ->
  consistent s' /\ contents s' = contents s /\ seq s' = seq s /\ (forall j, is_locked_in s j -> is_locked_in s' j) /\
  (forall j, is_Some (inodes s' !! j) <-> is_Some (inodes s !! j)) /\
  (forall k i, (k, i) ∈ l -> is_locked_in s' i /\ (has_children s i = true -> (i, -1) ∈ q)) /\
  (forall x, x ∈ q -> x.2 = -1 /\ exists k, (k, x.1) ∈ l).
Proof.
  revert s s' q. induction l as [|[k0 i0] l IH]; intros s s' q H Hc; cbn [lock_rows] in H.
  { injection H as <- <-. split; [done|]. split; [done|]. split; [done|]. split; [done|]. split; [done|]. split; [intros ? ? Hx; by apply elem_of_nil in Hx|intros ? Hx; by apply elem_of_nil in Hx]. }
  destruct (lock i0 s) as [s1 r1] eqn:E. destruct r1; try done. apply lock_inv in E as [Hi ->].
  destruct (lock_rows l (upd_inode i0 set_locked s)) as [[s2 q2] r2] eqn:E2. injection H as <- <- ->.
  destruct (IH _ _ _ E2 (lock_keeps i0 s Hc)) as (C & H1 & H2 & H3 & H4 & H5 & H6). split; [done|]. split; [done|]. split; [done|]. split; [intros j Hj; by apply H3, lock_locked|].
  split; [intros j; rewrite H4; apply upd_inode_is_Some|]. split.
  - intros k i Hin. apply elem_of_cons in Hin as [[= -> ->]|Hin].
    + split; [by apply H3, locked_now|]. intros Hch. change (has_children (upd_inode i0 set_locked s) i0) with (has_children s i0). rewrite Hch. apply elem_of_app. right. by left.
    + destruct (H5 _ _ Hin) as [? Hq]. split; [done|]. intros Hch. apply elem_of_app. left. by apply Hq.
  - intros x Hx. apply elem_of_app in Hx as [Hx|Hx].
    + destruct (H6 _ Hx) as (? & k & ?). split; [done|]. exists k. by right.
    + destruct (has_children _ i0); [|by apply elem_of_nil in Hx]. apply elem_of_list_singleton in Hx as ->. split; [done|]. exists k0. by left.
Qed.

(** The invariant of the loop: [L] are the inodes locked so far. *)
Record linv (i0 : nat) (L : nat -> Prop) (q : list (nat * Z)) (s : fs) : Prop := {
  l_root : L i0;
  l_seq : forall d, L d -> (d < seq s)%nat;
  l_locked : forall d, L d -> is_Some (inodes s !! d) -> is_locked_in s d;
  l_rows : forall d k i, L d -> contents s !! (d, k) = Some i -> L i \/ exists off, (d, off) ∈ q /\ off < Z.of_nat k }.
Lemma linv_end i0 L s : consistent s -> linv i0 L [] s -> forall j, below s i0 j -> L j.
Proof.
  intros Hc HL j Hj. induction Hj as [|p n j Hp IH Hj]; [apply (l_root _ _ _ _ HL)|]. apply entry_Some in Hj as (k & rc & _ & Hk).
  destruct (l_rows _ _ _ _ HL _ _ _ IH Hk) as [?|(off & Hq & _)]; [done|by apply elem_of_nil in Hq].
Qed.
Lemma linv_pass i0 L q brk p off s s1 q1 : consistent s -> linv i0 L ((p, off) :: q) s -> lock_pass brk p off s = (s1, q1, Done) ->
  consistent s1 /\ exists L1, linv i0 L1 (q1 ++ q) s1.
Proof.
  intros Hc HL Hp. set (rs := match brk with None => crows s p off | Some m => take (S m) (crows s p off) end).
  assert (exists q2, lock_rows rs s = (s1, q2, Done) /\ (forall x, x ∈ q2 -> x ∈ q1) /\
    forall k i, (k, i) ∈ crows s p off -> (k, i) ∈ rs \/ exists kl, (p, Z.of_nat kl) ∈ q1 /\ (kl < k)%nat) as (q2 & Hr & Hsub & Hcov).
  { unfold lock_pass in Hp. destruct brk as [m|]; [|exists q1; subst rs; eauto].
    destruct (lock_rows (take (S m) (crows s p off)) s) as [[s2 q2] r2] eqn:E. injection Hp as -> Hq ->. exists q2. subst rs. split; [done|].
    destruct (last (take (S m) (crows s p off))) as [[kl il]|] eqn:El; subst q1.
    - split; [intros x Hx; by right|]. intros k i Hin. destruct (crows_take _ _ _ _ _ _ _ _ Hin El) as [?|?]; [by left|]. right. exists kl. split; [by left|done].
    - split; [done|]. intros k i Hin. apply last_None in El. destruct (crows s p off); [by apply elem_of_nil in Hin|done]. }
  assert (forall k i, (k, i) ∈ rs -> contents s !! (p, k) = Some i /\ off < Z.of_nat k) as Hrs.
  { intros k i Hin. apply crows_elem. subst rs. destruct brk as [m|]; [|done]. rewrite <- (take_drop (S m)). apply elem_of_app. by left. }
  destruct (lock_rows_ok _ _ _ _ Hr Hc) as (C & H1 & H2 & H3 & H4 & H5 & H6). split; [done|].
  exists (fun d => L d \/ exists k, (k, d) ∈ rs). split.
  - left. apply HL.
  - intros d [Hd|[k Hk]]; rewrite H2; [by apply (l_seq _ _ _ _ HL)|]. destruct (Hrs _ _ Hk) as [Hk' _]. destruct (c_entries _ _ _ Hc _ _ _ Hk') as (_ & _ & _ & _ & [a Ha]). by apply (c_seq _ _ _ Hc _ _ Ha).
  - intros d [Hd|[k Hk]] Hi; [|by apply (H5 _ _ Hk)]. apply H3, (l_locked _ _ _ _ HL); [done|]. by apply H4.
  - intros d k i Hd. rewrite H1. intros Hk. assert (forall x, x ∈ q -> x ∈ q1 ++ q) as Happ by (intros; apply elem_of_app; by right).
    destruct Hd as [Hd|[k' Hk']].
    + destruct (l_rows _ _ _ _ HL _ _ _ Hd Hk) as [?|(off' & Hq & Ho)]; [by left; left|]. apply elem_of_cons in Hq as [[= -> ->]|Hq]; [|right; exists off'; auto].
      destruct (Hcov k i) as [Hin|(kl & Hkl & Hlt)]; [by apply crows_elem|left; right; eauto|]. right. exists (Z.of_nat kl). split; [apply elem_of_app; by left|lia].
    + right. exists (-1). split; [|lia]. apply elem_of_app. left. apply Hsub. apply (H5 _ _ Hk'). apply has_children_iff. eauto.
Qed.
Lemma linv_other i0 L q s c s1 r : consistent s -> linv i0 L q s -> allowed max_obj_size exact s c -> forced c = false -> exec max_obj_size c s = (s1, r) -> r <> Crash ->
  consistent s1 /\ linv i0 L q s1.
Proof.
  intros Hc HL Ha Hf Hr Hn. destruct (step_good max_obj_size Hmax exact s c s1 r Hc Ha Hr Hn) as (Hc1 & _ & _ & Hnew & Hseq & _). split; [done|].
  assert (forall d, L d -> is_Some (inodes s1 !! d) -> intact s s1 d /\ is_locked_in s1 d) as Hkeep.
  { intros d Hd Hi. pose proof (l_seq _ _ _ _ HL _ Hd) as Hlt. destruct (Hnew _ Hi) as [Hi0|?]; [|lia].
    apply (step_intact max_obj_size Hmax exact d s c s1 r Hc Ha (l_locked _ _ _ _ HL _ Hd Hi0) Hf Hr Hn Hi). }
  split.
  - apply HL.
  - intros d Hd. pose proof (l_seq _ _ _ _ HL _ Hd). lia.
  - intros d Hd Hi. by apply Hkeep.
  - intros d k i Hd Hk. destruct (c_entries _ _ _ Hc1 _ _ _ Hk) as ((n & rc & Hnm) & (ad & Had & _) & _).
    destruct (Hkeep d Hd ltac:(by eexists)) as [(_ & He & _) _]. assert (entry s1 d n = Some i) as He1 by (apply entry_Some; eauto). rewrite He in He1.
    apply entry_Some in He1 as (k0 & rc0 & Hn0 & Hk0). pose proof (step_id max_obj_size _ _ _ _ _ _ _ _ _ Hr Hn0 Hnm) as ->. by apply (l_rows _ _ _ _ HL _ _ _ Hd Hk0).
Qed.
Lemma lock_loop_ok i0 q s h s' : lock_loop max_obj_size exact q s h s' -> unforced h -> forall L, consistent s -> linv i0 L q s -> consistent s' /\ exists L', linv i0 L' [] s'.
Proof.
  induction 1 as [s|brk p off q s s1 q1 h s' Hp Hl IH|q s c s1 r h s' Ha Hr Hn Hl IH]; intros Hf L Hc HL.
  - eauto.
  - destruct (linv_pass _ _ _ _ _ _ _ _ _ Hc HL Hp) as [Hc1 [L1 HL1]]. eauto.
  - apply Forall_cons in Hf as [Hf Hfh]. cbn in Hf. destruct (linv_other _ _ _ _ _ _ _ Hc HL Ha Hf Hr Hn) as [Hc1 HL1]. eauto.
Qed.
Lemma lock_tree_ok i0 s h s' : consistent s -> lock_tree max_obj_size exact i0 s h s' -> unforced h -> consistent s' /\
  forall j a, below s' i0 j -> inodes s' !! j = Some a -> locked a = true.
Proof.
  intros Hc (Hfs & s1 & Hl & Hloop) Hf. apply lock_inv in Hl as [Hi ->].
  destruct (lock_loop_ok i0 _ _ _ _ Hloop Hf (fun d => d = i0)) as [Hc' [L HL]]; [by apply lock_keeps| |].
  - split.
    + done.
    + intros d ->. destruct Hi as [a Ha]. by apply (c_seq _ _ _ Hc _ _ Ha).
    + intros d -> _. by apply locked_now.
    + intros d k i -> _. right. exists (-1). split; [by left|lia].
  - split; [done|]. intros j a Hj Ha. pose proof (linv_end _ _ _ Hc' HL j Hj) as Hd. destruct (l_locked _ _ _ _ HL _ Hd ltac:(by eexists)) as (a' & Ha' & ?). congruence.
Qed.
(** The states it goes through are reachable, with its locks as calls. *)
Lemma lock_rows_calls l s s' q : lock_rows l s = (s', q, Done) -> calls max_obj_size exact s ((fun x => (CLock x.2, Done)) <$> l) s'.
Proof.
  revert s s' q. induction l as [|[k i] l IH]; intros s s' q H; cbn [lock_rows] in H; [injection H as <- <-; constructor|].
  destruct (lock i s) as [s1 r1] eqn:E. destruct r1; try done. destruct (lock_rows l s1) as [[s2 q2] r2] eqn:E2. injection H as <- <- ->. cbn. eapply calls_cons; [done|exact E|done|eauto].
Qed.
Lemma calls_app s h s1 h' s' : calls max_obj_size exact s h s1 -> calls max_obj_size exact s1 h' s' -> calls max_obj_size exact s (h ++ h') s'.
Proof. induction 1; [done|]. intros. eapply calls_cons; eauto. Qed.
Lemma lock_loop_calls q s h s' : lock_loop max_obj_size exact q s h s' -> unforced h -> exists h', calls max_obj_size exact s h' s' /\ unforced h'.
Proof.
  induction 1 as [s|brk p off q s s1 q1 h s' Hp Hl IH|q s c s1 r h s' Ha Hr Hn Hl IH]; intros Hf.
  - exists []. split; [constructor|constructor].
  - destruct (IH Hf) as (h' & Hh & Hf'). assert (exists rs q2, lock_rows rs s = (s1, q2, Done)) as (rs & q2 & Hrs).
    { unfold lock_pass in Hp. destruct brk as [m|]; [|eauto]. destruct (lock_rows (take (S m) (crows s p off)) s) as [[s2 q2] r2] eqn:E. injection Hp as -> _ ->. eauto. }
    exists (((fun x => (CLock x.2, Done)) <$> rs) ++ h'). split; [eapply calls_app; [by eapply lock_rows_calls|done]|]. apply Forall_app. split; [|done]. apply Forall_fmap, Forall_true. done.
  - apply Forall_cons in Hf as [Hf Hfh]. destruct (IH Hfh) as (h' & Hh & Hf'). exists ((c, r) :: h'). split; [by eapply calls_cons|]. by constructor.
Qed.
Lemma lock_tree_calls i0 s h s' : lock_tree max_obj_size exact i0 s h s' -> unforced h -> exists h', calls max_obj_size exact s h' s' /\ unforced h'.
Proof.
  intros (Hfs & s1 & Hl & Hloop) Hf. destruct (lock_loop_calls _ _ _ _ Hloop Hf) as (h' & Hh & Hf'). exists ((CLock i0, Done) :: h'). split; [by eapply (calls_cons _ _ _ (CLock i0))|]. by constructor.
Qed.
Lemma reachable_calls h s h' s' : reachable max_obj_size exact h s -> calls max_obj_size exact s h' s' -> reachable max_obj_size exact (h ++ h') s'.
Proof.
  intros Hr Hh. revert h Hr. induction Hh as [s|s c s1 r h' s' Ha E Hn Hh IH]; intros h Hr; [by rewrite app_nil_r|].
  specialize (IH (h ++ [(c, r)])). rewrite <- app_assoc in IH. apply IH. by eapply reach_step.
Qed.
End locktree.

(** * remove_tree *)
Section removetree.
Context (max_obj_size : Z) (Hmax : 0 < max_obj_size) (exact : bool).
Local Notation consistent := (consistent max_obj_size exact).
Lemma remove_done p n i now s : consistent s -> entry s p n = Some i -> has_children s i = false ->
  exists s', remove max_obj_size p n i true now s = (s', Done) /\ consistent s' /\ opens s' = opens s /\
    (forall q m, entry s' q m = bind (entry s) p n None q m) /\ (forall q k j, contents s' !! (q, k) = Some j -> contents s !! (q, k) = Some j) /\
    (base.size (contents s') < base.size (contents s))%nat.
Proof.
  intros Hc He Hch. destruct (remove max_obj_size p n i true now s) as [s' r] eqn:E. exists s'.
  destruct (remove_ok max_obj_size Hmax exact p n i true now s s' r Hc He E) as [(e & -> & ->)|(-> & Hc' & Ho & _ & Hsh & k & rc & Hn & Hct)].
  - exfalso. unfold remove in E. rewrite Hch in E. apply entry_Some in He as (k & rc & Hn & Hk). destruct (c_entries _ _ _ Hc _ _ _ Hk) as (_ & (ap & Hp & _) & _ & _ & [a Ha]).
    rewrite Hp, andb_false_r in E. destruct (del_name n s) as [[s1 k1]|] eqn:Hd; [|by injection E]. unfold del_name in Hd. rewrite Hn in Hd. injection Hd as <- <-. cbn [inodes set_contents set_names] in E. rewrite Ha in E.
    case_decide; by injection E.
  - split; [done|]. split; [done|]. split; [done|]. split.
    + apply (view_delete max_obj_size exact s s' p n k rc Hc Hc'); [by apply (compat_shrinks max_obj_size exact)|done|done].
    + rewrite Hct. split; [by intros q k' j [_ ?]%lookup_delete_Some|]. apply entry_Some in He as (k2 & rc2 & Hn2 & Hk). rewrite Hn in Hn2. injection Hn2 as <- <-.
      rewrite map_size_delete, Hk. assert (base.size (contents s) <> 0%nat); [|cbn; lia]. intros Hz. apply map_size_empty_iff in Hz. rewrite Hz in Hk. by rewrite lookup_empty in Hk.
Qed.
(** One removal as a relation. *)
Definition removes (p : nat) (s s' : fs) : Prop := exists n i now, entry s p n = Some i /\ has_children s i = false /\ remove max_obj_size p n i true now s = (s', Done).
(** What the rows of a chunk do: any property preserved by removals is preserved. *)
Lemma remove_rows_ok p l now s s' q r : remove_rows max_obj_size p l now s = (s', q, r) -> consistent s -> NoDup l.*1 -> (forall n i, (n, i) ∈ l -> entry s p n = Some i) ->
  r = Done /\ consistent s' /\ rtc (removes p) s s' /\ (forall m, entry s p m = None -> entry s' p m = None) /\
  (forall x, x ∈ q -> exists n, (n, x) ∈ l) /\ (q = [] -> forall n i, (n, i) ∈ l -> entry s' p n = None) /\
  (s' = s /\ List.length q = List.length l /\ (forall x, x ∈ q -> has_children s x = true) \/ (base.size (contents s') < base.size (contents s))%nat).
Proof.
  revert s s' q r. induction l as [|[n i] l IH]; intros s s' q r E Hc Hnd Hl; cbn [remove_rows] in E.
  { injection E as <- <- <-. split; [done|]. split; [done|]. split; [done|]. split; [done|]. split; [intros ? Hx; by apply elem_of_nil in Hx|]. split; [intros _ ? ? Hx; by apply elem_of_nil in Hx|].
    left. split; [done|]. split; [done|]. intros ? Hx; by apply elem_of_nil in Hx. }
  cbn in Hnd. apply NoDup_cons in Hnd as [Hn Hnd]. destruct (has_children s i) eqn:Hch.
  - destruct (remove_rows max_obj_size p l now s) as [[s2 q2] r2] eqn:E2. injection E as <- <- <-.
    destruct (IH _ _ _ _ E2 Hc Hnd ltac:(intros; apply Hl; by right)) as (-> & H1 & H2 & H2' & H3 & H4 & H5). split; [done|]. split; [done|]. split; [done|]. split; [done|].
    split. { intros x Hx. apply elem_of_app in Hx as [Hx|Hx]; [destruct (H3 _ Hx) as [m ?]; exists m; by right|]. apply elem_of_list_singleton in Hx as ->. exists n. by left. }
    split; [intros Hq; by destruct q2|]. destruct H5 as [(-> & Hlen & Hall)|H5]; [left|by right]. split; [done|]. split; [rewrite app_length; cbn; lia|].
    intros x Hx. apply elem_of_app in Hx as [Hx|Hx]; [by apply Hall|]. by apply elem_of_list_singleton in Hx as ->.
  - assert (entry s p n = Some i) as He by (apply Hl; by left). destruct (remove_done p n i now s Hc He Hch) as (s1 & Hr & Hc1 & Ho1 & He1 & Hct1 & Hsz). rewrite Hr in E.
    assert (forall m j, (m, j) ∈ l -> entry s1 p m = Some j) as Hl1.
    { intros m j Hm. rewrite He1. unfold bind. rewrite decide_False; [apply Hl; by right|]. intros [= ->]. apply Hn. apply elem_of_list_fmap. by exists (n, j). }
    destruct (IH _ _ _ _ E Hc1 Hnd Hl1) as (-> & H1 & H2 & H2' & H3 & H4 & H5). split; [done|]. split; [done|]. split; [eapply rtc_l; [|exact H2]; exists n, i, now; done|].
    assert (entry s1 p n = None) as Hno by (rewrite He1; unfold bind; by rewrite decide_True).
    split. { intros m Hm. apply H2'. rewrite He1. unfold bind. by case_decide. }
    split; [intros x Hx; destruct (H3 _ Hx) as [m ?]; exists m; by right|].
    split. { intros Hq m j Hm. apply elem_of_cons in Hm as [[= -> ->]|Hm]; [by apply H2'|]. by eapply H4. }
    right. destruct H5 as [(-> & _)|?]; lia.
Qed.

(** The invariant of the loop, relative to the state [s1] in which it has started. *)
Record rinv (s1 : fs) (i0 : nat) (s : fs) : Prop := {
  r_cons : consistent s;
  r_opens : opens s = opens s1;
  r_entry : forall p m, entry s p m = entry s1 p m \/ entry s p m = None /\ below s1 i0 p;
  r_left : forall d, below s1 i0 d -> below s i0 d \/ forall m, entry s d m = None;
  r_hist : exists h, calls max_obj_size exact s1 h s /\ Forall (fun x => exists p n i now, x = (CTreeRemove p n i now, Done) /\ below s1 i0 p) h }.
Lemma below_sub s s1 i d : (forall p m j, entry s p m = Some j -> entry s1 p m = Some j) -> below s i d -> below s1 i d.
Proof. intros H Hb. induction Hb as [|p n j Hp IH Hj]; [constructor|]. eapply below_entry; [exact IH|by apply H]. Qed.
Lemma rinv_init s1 i0 : consistent s1 -> rinv s1 i0 s1.
Proof. intros Hc. split; try done; [by left|by left|]. exists []. split; constructor. Qed.
Lemma rinv_step s1 i0 p s s' : below s1 i0 p -> rinv s1 i0 s -> removes p s s' -> (forall n, entry s1 p n <> None -> n <> CTRL_NAME) -> rinv s1 i0 s'.
Proof.
  intros Hp HR (n & i & now & He & Hch & Hr) Hctl. destruct (remove_done p n i now s (r_cons _ _ _ HR) He Hch) as (s2 & Hr2 & Hc2 & Ho2 & He2 & Hct2 & Hsz2).
  rewrite Hr in Hr2. injection Hr2 as <-. split.
  - done.
  - rewrite Ho2. apply HR.
  - intros q m. rewrite He2. unfold bind. case_decide as D; [|apply HR]. injection D as -> ->. right. done.
  - intros d Hd. destruct (r_left _ _ _ HR d Hd) as [Hb|Hno].
    + assert (forall d, below s i0 d -> below s' i0 d \/ d = i) as H; [|destruct (H d Hb) as [? | ->]; [by left|]].
      { clear d Hd Hb. intros d Hb. induction Hb as [|q m j Hq IH Hj]; [left; constructor|]. destruct (decide ((q, m) = (p, n))) as [[= -> ->]|Hne]; [right; congruence|].
        destruct IH as [IH | ->]; [|exfalso; by rewrite (no_children_entry s i Hch) in Hj]. left. eapply below_entry; [exact IH|]. rewrite He2. unfold bind. by rewrite decide_False. }
      right. intros m. rewrite He2. unfold bind. case_decide; [done|]. by apply no_children_entry.
    + right. intros m. rewrite He2. unfold bind. by case_decide.
  - destruct (r_hist _ _ _ HR) as (h & Hh & Hf). exists (h ++ [(CTreeRemove p n i now, Done)]). split.
    + eapply (calls_app max_obj_size exact); [exact Hh|]. eapply (calls_cons _ _ _ (CTreeRemove p n i now)); [|exact Hr|done|constructor]. cbn. split; [|done]. apply (Hctl n).
      destruct (r_entry _ _ _ HR p n) as [E|[E _]]; congruence.
    + apply Forall_app. split; [done|]. constructor; [|constructor]. by exists p, n, i, now.
Qed.
Lemma rinv_rtc s1 i0 p s s' : below s1 i0 p -> (forall q n, entry s1 q n <> None -> n <> CTRL_NAME) -> rtc (removes p) s s' -> rinv s1 i0 s -> rinv s1 i0 s'.
Proof. intros Hp Hctl. induction 1 as [|s s2 s' Hs _ IH]; [done|]. intros HR. apply IH. eapply (rinv_step s1 i0 p s s2); [done|done|done|apply Hctl]. Qed.
Lemma pass_ok s1 i0 q s q' s' r : (forall p n, entry s1 p n <> None -> n <> CTRL_NAME) -> rinv s1 i0 s -> Forall (below s1 i0) q -> i0 ∈ q \/ (forall m, entry s i0 m = None) ->
  remove_pass max_obj_size (q, s) (q', s') r -> r = Done /\ rinv s1 i0 s' /\ Forall (below s1 i0) q' /\ (i0 ∈ q' \/ forall m, entry s' i0 m = None).
Proof.
  intros Hctl HR Hq Hi0 Hp. inversion Hp as [p q0 s0 size l now s2 pushed r2 Hsz (Hnd & Hl & Hall) E]; subst; clear Hp.
  apply Forall_cons in Hq as [Hp Hq]. destruct (remove_rows_ok _ _ _ _ _ _ _ E (r_cons _ _ _ HR) Hnd Hl) as (-> & H1 & H2 & H2' & H3 & H4 & H5).
  pose proof (rinv_rtc _ _ _ _ _ Hp Hctl H2 HR) as HR'. split; [done|]. split; [done|].
  assert (forall x, x ∈ pushed -> below s1 i0 x) as Hpush.
  { intros x Hx. destruct (H3 _ Hx) as [n Hn]. eapply below_entry; [exact Hp|]. apply Hl in Hn. destruct (r_entry _ _ _ HR p n) as [<-|[? _]]; [exact Hn|congruence]. }
  split.
  - case_decide; [apply Forall_app; split; [by apply Forall_forall|by constructor]|]. case_decide; [by constructor|done].
  - destruct Hi0 as [Hi0|Hi0].
    + apply elem_of_cons in Hi0 as [<-|Hi0].
      * case_decide as D1; [left; apply elem_of_app; right; by left|]. case_decide as D2; [left; by left|]. right. assert (pushed = []) as Hpn by (destruct pushed; [done|by destruct D1]).
        intros m. destruct (entry s i0 m) as [j|] eqn:Em; [|by apply H2']. destruct Hall as [?|[_ Hall]]; [done|]. by apply (H4 Hpn m j), Hall.
      * left. case_decide; [apply elem_of_app; right; by right|]. case_decide; [by right|done].
    + right. intros m. specialize (Hi0 m). clear -H2 Hi0 H1 HR Hmax. assert (consistent s) as Hc by apply HR. clear HR H1. induction H2 as [|s s2 s' (n & i & now & He & Hch & Hr) _ IH]; [done|].
      destruct (remove_done p n i now s Hc He Hch) as (s3 & Hr2 & Hc2 & _ & He2 & _). rewrite Hr in Hr2. injection Hr2 as <-. apply IH; [|done]. rewrite He2. unfold bind. by case_decide.
Qed.
Lemma loop_ok s1 i0 q s s' r : (forall p n, entry s1 p n <> None -> n <> CTRL_NAME) -> remove_loop max_obj_size q s s' r -> rinv s1 i0 s -> Forall (below s1 i0) q -> i0 ∈ q \/ (forall m, entry s i0 m = None) ->
  r = Done /\ rinv s1 i0 s' /\ forall d m, below s1 i0 d -> entry s' d m = None.
Proof.
  intros Hctl. induction 1 as [s|q s q1 s2 s' r Hp _ IH|q s q1 s2 r Hp Hr]; intros HR Hq Hi0.
  - split; [done|]. split; [done|]. destruct Hi0 as [Hi0|Hi0]; [by apply elem_of_nil in Hi0|].
    assert (forall d, below s i0 d -> d = i0) as Honly. { intros d Hd. induction Hd as [|p n j Hp IH Hj]; [done|]. subst p. by rewrite Hi0 in Hj. }
    intros d m Hd. destruct (r_left _ _ _ HR d Hd) as [Hb|Hno]; [|done]. by rewrite (Honly _ Hb).
  - destruct (pass_ok _ _ _ _ _ _ _ Hctl HR Hq Hi0 Hp) as (_ & HR2 & Hq2 & Hi2). by apply IH.
  - destruct (pass_ok _ _ _ _ _ _ _ Hctl HR Hq Hi0 Hp) as (-> & _). done.
Qed.

(** ** Termination *)
Definition child (s : fs) (c p : nat) : Prop := exists n, entry s p n = Some c.
Lemma child_acc s : acyclic s -> forall p, Acc (child s) p.
Proof.
  intros Hac. set (P := dom (contents s)). set (ps := (set_map fst P : gset nat)).
  assert (forall p n i, entry s p n = Some i -> p ∈ ps) as Hps.
  { intros p n i He. apply entry_Some in He as (k & rc & _ & Hk). apply elem_of_map. exists (p, k). split; [done|]. by apply elem_of_dom_2 in Hk. }
  assert (forall m p (path : gset nat), path ⊆ ps -> (forall x, x ∈ path -> below s x p) -> p ∉ path -> (base.size ps <= m + base.size path)%nat -> Acc (child s) p) as H.
  { induction m as [|m IH]; intros p path Hsub Hpath Hnp Hsz; constructor; intros c [n Hc].
    - exfalso. assert ({[p]} ∪ path ⊆ ps) as Hs2 by (pose proof (Hps _ _ _ Hc); set_solver). apply subseteq_size in Hs2. rewrite size_union in Hs2 by set_solver. rewrite size_singleton in Hs2. lia.
    - apply (IH c ({[p]} ∪ path)).
      + pose proof (Hps _ _ _ Hc). set_solver.
      + intros x Hx. apply elem_of_union in Hx as [Hx|Hx]; [apply elem_of_singleton in Hx as ->; eapply below_entry; [constructor|done]|]. eapply below_entry; [by apply Hpath|done].
      + intros Hx. apply elem_of_union in Hx as [Hx|Hx].
        * apply elem_of_singleton in Hx as ->. apply (Hac _ _ _ Hc). constructor.
        * apply (Hac _ _ _ Hc). by apply Hpath.
      + rewrite size_union by set_solver. rewrite size_singleton. lia. }
  intros p. apply (H (base.size ps) p ∅); [set_solver|set_solver|set_solver|lia].
Qed.
Lemma removes_acyclic p s s' : consistent s -> rtc (removes p) s s' -> acyclic s -> acyclic s' /\ consistent s'.
Proof.
  intros Hc Hr. revert Hc. induction Hr as [|s s2 s' (n & i & now & He & Hch & Hr) _ IH]; intros Hc Hac; [done|].
  destruct (remove_done p n i now s Hc He Hch) as (s3 & Hr2 & Hc2 & _ & He2 & _). rewrite Hr in Hr2. injection Hr2 as <-. apply IH; [done|].
  assert (forall q m j, entry s2 q m = Some j -> entry s q m = Some j) as Hsub by (intros q m j; rewrite He2; unfold bind; by case_decide).
  intros q m j Hj Hb. apply (Hac q m j); [by apply Hsub|]. by eapply below_sub.
Qed.
(** No sequence of passes is infinite. *)
Definition next (c' c : list nat * fs) : Prop := exists r, remove_pass max_obj_size c c' r.
Lemma remove_terminates q s : consistent s -> acyclic s -> Acc next (q, s).
Proof.
  remember (base.size (contents s)) as z eqn:Ez. revert q s Ez. induction (lt_wf z) as [z _ IHz]. intros q s -> Hc Hac.
  assert (forall c' q0, next c' (q0, s) -> (exists q' s', c' = (q', s') /\ consistent s' /\ acyclic s' /\ (base.size (contents s') < base.size (contents s))%nat) \/
    exists p q1, q0 = p :: q1 /\ ((has_children s p = false /\ c' = (q1, s)) \/ (has_children s p = true /\ exists c q2, c' = (c :: q2, s) /\ child s c p /\ has_children s c = true))) as Hnext.
  { intros c' q0 [r Hp]. inversion Hp as [p q1 s0 size l now s2 pushed r2 Hsz (Hnd & Hl & Hall) E]; subst; clear Hp.
    destruct (remove_rows_ok _ _ _ _ _ _ _ E Hc Hnd Hl) as (-> & H1 & H2 & H2' & H3 & H4 & H5).
    destruct H5 as [(-> & Hlen & Hch)|Hlt].
    - right. exists p, q1. split; [done|]. destruct l as [|[n i] l].
      + left. assert (pushed = []) as -> by (by destruct pushed). rewrite decide_False by (intros Hx; by apply Hx). cbn [List.length]. rewrite decide_False by (cbn; lia). split; [|done].
        destruct (has_children s p) eqn:Ech; [|done]. exfalso. apply (has_children_entry max_obj_size exact s p Hc) in Ech as (n & j & Hj).
        destruct Hall as [Hs|[_ Hall]]; [cbn in Hs; lia|]. apply Hall in Hj. by apply elem_of_nil in Hj.
      + right. destruct pushed as [|c pushed]; [done|]. split; [apply (has_children_entry max_obj_size exact s p Hc); exists n, i; apply Hl; by left|].
        exists c, (pushed ++ p :: q1). rewrite decide_True by done. split; [done|]. destruct (H3 c) as [m Hm]; [by left|]. split; [exists m; by apply Hl|]. apply Hch. by left.
    - left. destruct (removes_acyclic _ _ _ Hc H2 Hac) as [? ?]. eexists _, _. split; [done|]. done. }
  (* directories with entries on top *)
  assert (forall p, has_children s p = true -> forall q, Acc next (p :: q, s)) as Hdeep.
  { intros p. induction (child_acc s Hac p) as [p _ IHp]. intros Hch q0. constructor. intros c' Hn. destruct (Hnext _ _ Hn) as [(q' & s' & -> & Hc' & Hac' & Hlt)|(p' & q1 & [= <- <-] & [[? _]|(_ & c & q2 & -> & Hcc & Hchc)])].
    - by eapply IHz.
    - congruence.
    - by apply IHp. }
  induction q as [|p q IHq]; constructor; intros c' Hn.
  - destruct (Hnext _ _ Hn) as [(q' & s' & -> & Hc' & Hac' & Hlt)|(p' & q1 & ? & _)]; [by eapply IHz|done].
  - destruct (Hnext _ _ Hn) as [(q' & s' & -> & Hc' & Hac' & Hlt)|(p' & q1 & [= <- <-] & [[? ->]|(_ & c & q2 & -> & Hcc & Hchc)])]; [by eapply IHz|done|by apply Hdeep].
Qed.
End removetree.

(** * No cycles *)
Section cycles.
Context (max_obj_size : Z) (Hmax : 0 < max_obj_size) (exact : bool).
Lemma acyclic_sub s s' : acyclic s -> (forall p n i, entry s' p n = Some i -> entry s p n = Some i) -> acyclic s'.
Proof. intros Hac Hs p n i Hi Hb. apply (Hac p n i); [by apply Hs|]. by eapply below_sub. Qed.
Lemma acyclic_add s s' p n i : acyclic s -> ~ below s i p -> (forall q m j, entry s' q m = Some j -> entry s q m = Some j \/ (q, m, j) = (p, n, i)) -> acyclic s'.
Proof.
  intros Hac Hnb He.
  assert (forall x y, below s' x y -> below s x y \/ below s x p /\ below s i y) as Hb.
  { intros x y Hxy. induction Hxy as [|q m j Hq IH Hj]; [left; constructor|]. destruct (He _ _ _ Hj) as [Hj'|[= -> -> ->]].
    - destruct IH as [IH|[IH1 IH2]]; [left; by eapply below_entry|right; split; [done|by eapply below_entry]].
    - right. split; [|constructor]. by destruct IH as [IH|[IH _]]. }
  intros q m j Hj Hx. destruct (He _ _ _ Hj) as [Hj'|[= -> -> ->]].
  - destruct (Hb _ _ Hx) as [Hx'|[H1 H2]]; [by eapply Hac|]. apply Hnb. eapply below_trans; [eapply below_entry; [exact H2|exact Hj']|exact H1].
  - destruct (Hb _ _ Hx) as [?|[? _]]; done.
Qed.
Lemma mkfs_acyclic u g now : acyclic (mkfs u g now).
Proof.
  intros p n i Hi Hb. rewrite entry_mkfs in Hi. unfold bind in Hi. case_decide as D; [|done]. injection D as -> ->. injection Hi as <-.
  assert (forall x, below (mkfs u g now) 3 x -> x = 3%nat) as H; [|by apply H in Hb]. clear Hb. intros x Hx. induction Hx as [|q m j Hq IH Hj]; [done|]. subst q. rewrite entry_mkfs in Hj. unfold bind in Hj. by case_decide.
Qed.
Lemma create__new p n m c rd sz now s s' i : create_ p n m c rd sz now s = (s', inr i) -> i = seq s /\ n <> CTRL_NAME /\ exists a, inodes s !! p = Some a.
Proof.
  unfold create_. case_decide; [done|]. destruct (inodes s !! p) as [ap|] eqn:Hp; [|done]. destruct (locked ap); [done|]. case_decide; [done|].
  match goal with |- context [add_name n ?x] => destruct (add_name n x) as [s1 k] eqn:E end. destruct (contents s1 !! (p, k)); [done|]. intros [= _ <-]. eauto.
Qed.
Lemma acyclic_step s c s' r : consistent max_obj_size exact s -> acyclic s -> allowed max_obj_size exact s c ->
  exec max_obj_size c s = (s', r) -> r <> Crash -> acyclic s'.
Proof.
  intros Hc Hac Ha Hr Hn. destruct (step_good max_obj_size Hmax exact s c s' r Hc Ha Hr Hn) as (Hc' & He & _).
  assert (forall p n, (forall q m, entry s' q m = bind (entry s) p n None q m) -> acyclic s') as Hdel.
  { intros p n E. eapply acyclic_sub; [exact Hac|]. intros q m i. rewrite E. unfold bind. by case_decide. }
  assert ((forall q m, entry s' q m = entry s q m) -> acyclic s') as Hsame. { intros E. eapply acyclic_sub; [exact Hac|]. intros q m i. by rewrite E. }
  assert (forall p n i, (forall q m, entry s' q m = bind (entry s) p n (Some i) q m) -> ~ below s i p -> acyclic s') as Hadd.
  { intros p n i E Hb. eapply (acyclic_add s s' p n i); [done|done|]. intros q m j. rewrite E. unfold bind. case_decide as D; [|by left]. injection D as -> ->. intros [= <-]. by right. }
  assert (forall p n m cx rd sz now s1 i, create_ p n m cx rd sz now s = (s1, inr i) -> (forall q m0, entry s' q m0 = bind (entry s) p n (Some i) q m0) -> acyclic s') as Hcr.
  { intros p n m cx rd sz now s1 i Hcr HE. apply (Hadd p n i HE). destruct (create__new _ _ _ _ _ _ _ _ _ _ Hcr) as (-> & Hpn & a & Hpa).
    assert (forall x, below s (seq s) x -> x = seq s) as Honly.
    { intros x Hx. induction Hx as [|q m' j Hq IH Hj]; [done|]. subst q. apply entry_Some in Hj as (k & rc & _ & Hk). destruct (c_entries _ _ _ Hc _ _ _ Hk) as (_ & (b & Hb & _) & _). apply (c_seq _ _ _ Hc) in Hb. lia. }
    intros Hb. apply Honly in Hb. subst p. apply (c_seq _ _ _ Hc) in Hpa. lia. }
  destruct c; cbn in He, Hr, Ha; try (apply Hsame; intros; rewrite He; by destruct r).
  - destruct r; try by apply Hsame. by apply (Hdel p n).
  - destruct r; try by apply Hsame. by apply (Hdel p n).
  - destruct r; try by apply Hsame. unfold mknod in Hr. destruct (failsafe s); [done|]. destruct (create_ _ _ _ _ _ _ _ s) as [s1 [e|j]] eqn:Hcre; [injection Hr as <- ->; by apply create__inl in Hcre|].
    destruct (inodes s1 !! j); [|done]. injection Hr as <- <- <-. eapply Hcr; done.
  - destruct r; try by apply Hsame. unfold symlink in Hr. destruct (failsafe s); [done|]. destruct (create_ _ _ _ _ _ _ _ s) as [s1 [e|j]] eqn:Hcre; [injection Hr as <- ->; by apply create__inl in Hcre|].
    destruct (inodes s1 !! j); [|done]. injection Hr as <- <- <-. eapply Hcr; done.
  - destruct Ha as (_ & _ & Hnb). destruct r; try by apply Hsame. destruct (entry s po no) as [io|] eqn:Hio.
    + apply (acyclic_add s s' pn nn io); [done|by apply Hnb|]. intros q m j. rewrite He. unfold bind. repeat case_decide; try done; simplify_eq; auto. intros [= <-]. auto.
    + eapply acyclic_sub; [exact Hac|]. intros q m j. rewrite He. unfold bind. by repeat case_decide.
  - destruct r; try by apply Hsame. apply (Hadd p n i); [|by destruct Ha]. intros q m. rewrite He. done.
  - destruct r; try by apply Hsame. unfold create in Hr. destruct (failsafe s); [done|]. destruct (entry s p n) as [j|] eqn:Hj.
    + destruct (open_ _ _ _ _ _ _) as [s1 r1] eqn:Ho. destruct r1; try done; [|injection Hr as <- <- <-; by apply open__not_entry in Ho]. destruct (inodes s1 !! j); [|done]. injection Hr as <- <- <-.
      apply Hsame. intros q m0. rewrite He. unfold bind. case_decide as D; [by injection D as -> ->|done].
    + destruct (create_ _ _ _ _ _ _ _ s) as [s1 [e|j]] eqn:Hcre; [injection Hr as <- ->; by apply create__inl in Hcre|].
      destruct (inodes s1 !! j); [|done]. injection Hr as <- <- <-. eapply Hcr; done.
  - destruct r; try by apply Hsame. by apply (Hdel p n).
Qed.
Lemma reachable_acyclic h s : reachable max_obj_size exact h s -> acyclic s.
Proof. induction 1 as [u g now|h s c s' r Hre IH Ha Hr Hn]; [apply mkfs_acyclic|]. eapply acyclic_step; [by eapply reachable_consistent|done..]. Qed.
(** No entry has the name of the control file. *)
Lemma no_control_step s c s' r : consistent max_obj_size exact s -> (forall p, entry s p CTRL_NAME = None) -> allowed max_obj_size exact s c ->
  exec max_obj_size c s = (s', r) -> r <> Crash -> forall p, entry s' p CTRL_NAME = None.
Proof.
  intros Hc Hno Ha Hr Hn. destruct (step_good max_obj_size Hmax exact s c s' r Hc Ha Hr Hn) as (Hc' & He & _). intros q. rewrite He.
  assert (forall p n i, (n = CTRL_NAME -> False) -> bind (entry s) p n i q CTRL_NAME = None) as Hb.
  { intros p n i Hne. unfold bind. rewrite decide_False; [done|]. intros [= -> <-]. by apply Hne. }
  assert (forall p n m cx rd sz now s1 i, create_ p n m cx rd sz now s = (s1, inr i) -> n = CTRL_NAME -> False) as Hcr by (intros * H; by destruct (create__new _ _ _ _ _ _ _ _ _ _ H) as (_ & ? & _)).
  destruct c; cbn; cbn in Hr, Ha; try (by destruct r).
  - destruct r; try done. apply Hb. done.
  - destruct r; try done. apply Hb. done.
  - destruct r; try done. apply Hb. unfold mknod in Hr. destruct (failsafe s); [done|]. destruct (create_ _ _ _ _ _ _ _ s) as [s1 [e|j]] eqn:Hcre; [injection Hr as <- ->; by apply create__inl in Hcre|by eapply Hcr].
  - destruct r; try done. apply Hb. unfold symlink in Hr. destruct (failsafe s); [done|]. destruct (create_ _ _ _ _ _ _ _ s) as [s1 [e|j]] eqn:Hcre; [injection Hr as <- ->; by apply create__inl in Hcre|by eapply Hcr].
  - destruct r; try done. unfold rename in Hr. destruct fl; [done|]. case_decide as Hd; [done|]. unfold bind at 1. rewrite decide_False by (intros [= _ ?]; apply Hd; auto). apply Hb. intros ->. apply Hd. auto.
  - destruct r; try done. apply Hb. intros ->. unfold link in Hr. rewrite decide_True in Hr by auto. done.
  - destruct r; try done. apply Hb. unfold create in Hr. destruct (failsafe s); [done|]. destruct (entry s p n) as [j|] eqn:Hj; [intros ->; by rewrite Hno in Hj|].
    destruct (create_ _ _ _ _ _ _ _ s) as [s1 [e|j]] eqn:Hcre; [injection Hr as <- ->; by apply create__inl in Hcre|by eapply Hcr].
  - destruct r; try done. apply Hb. by destruct Ha.
Qed.
Lemma no_control h s : reachable max_obj_size exact h s -> forall p n, entry s p n <> None -> n <> CTRL_NAME.
Proof.
  intros Hre. assert (forall p, entry s p CTRL_NAME = None) as H; [|intros p n Hn ->; by apply Hn].
  induction Hre as [u g now|h s c s' r Hre IH Ha Hr Hn]; [intros p; rewrite entry_mkfs; unfold bind; by case_decide|].
  eapply no_control_step; [by eapply reachable_consistent|done..].
Qed.
End cycles.
