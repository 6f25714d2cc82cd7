(** After check_loops everything can be reached from the root. *)
From stdpp Require Import prelude gmap.
From Coq Require Import ZArith Lia.
From Verif Require Import Count FsckModel FsckSpec FsckProofs FsckClean.

Section loops.
Context `{Env0 : env}.
(** A directory that is its own parent cannot be walked. *)
Lemma delete_tree_loop fuel up p left : up !! p = Some (Some p) -> delete_tree fuel up p left = None.
Proof.
  intros Hp. revert left. induction fuel as [|fuel IH]; intros left; [done|]. cbn [delete_tree].
  assert (p ∈ children up p) as Hin by by apply children_elem. revert Hin. generalize (children up p) as cs. intros cs Hin.
  assert (foldr (fun i acc => match acc with Some l => delete_tree fuel up i l | None => None end) (Some left) cs = None) as ->; [|done].
  induction cs as [|c cs IHc]; [by apply elem_of_nil in Hin|]. cbn [foldr]. destruct (foldr _ _ cs) as [l|] eqn:E; [|done].
  apply elem_of_cons in Hin as [<-|Hin]; [apply IH|]. by specialize (IHc Hin).
Qed.
Lemma delete_tree_below fuel up p left left' i : delete_tree fuel up p left = Some left' -> i ∈ left -> i ∉ left' -> below up p i.
Proof.
  revert p left left'. induction fuel as [|fuel IH]; intros p left left'; [done|]. cbn [delete_tree].
  destruct (foldr _ _ _) as [l|] eqn:E; [|done]. intros H. injection H as <-. intros Hi Hn. destruct (decide (i = p)) as [->|N]; [constructor|].
  assert (i ∉ l) as Hl by (intros Q; apply Hn; apply elem_of_difference; split; [done|]; by rewrite elem_of_singleton). clear Hn.
  assert (forall cs l, foldr (fun i acc => match acc with Some l => delete_tree fuel up i l | None => None end) (Some left) cs = Some l -> i ∉ l -> exists c, c ∈ cs /\ below up c i) as Hf.
  { clear -IH Hi. induction cs as [|c cs IHc]; intros l E Hl; [by injection E as <-|]. cbn [foldr] in E. destruct (foldr _ _ cs) as [l1|]; [|done]. destruct (decide (i ∈ l1)) as [Hl1|Hl1].
    - exists c. split; [left|]. by apply (IH _ _ _ E).
    - destruct (IHc l1 eq_refl Hl1) as (c' & Hc' & Hb). exists c'. split; [by right|done]. }
  destruct (Hf _ _ E Hl) as (c & Hc & Hb). apply children_elem in Hc. eapply below_trans; [|exact Hb]. eapply below_step; [constructor|done].
Qed.
Lemma culprit_elem left s i : culprit left s = Some i -> i ∈ left.
Proof.
  unfold culprit. destruct (pick (filter _ _)) as [[k e]|] eqn:E.
  - intros H. injection H as <-. by apply pick_elem, elem_of_list_filter in E as [[E _] _].
  - intros H. apply pick_elem in H. by apply elem_of_elements.
Qed.
Lemma culprit_none left s : culprit left s = None -> left = ∅.
Proof.
  unfold culprit. destruct (pick (filter _ _)) as [[k e]|]; [done|]. intros H. apply pick_none in H. by apply elements_empty_iff, leibniz_equiv in H.
Qed.
(** The entries of an inode that has been dealt with stay. *)
Lemma anchor_stay fuel up left root s s' left1 : anchor fuel up left root s = Some s' -> delete_tree recursion_limit up root left = Some left1 ->
  forall k e, contents s !! k = Some e -> c_inode e ∉ left1 -> contents s' !! k = Some e.
Proof.
  revert up left root s left1. induction fuel as [|fuel IH]; intros up left root s left1; [done|]. cbn [anchor]. intros H Hd. rewrite Hd in H. intros k0 e0 Hk0 Hn.
  destruct (culprit left1 s) as [i|] eqn:Ec; [|by injection H as <-]. apply culprit_elem in Ec.
  destruct (entry_of s i) as [[k e]|] eqn:Ep; [|done]. apply pick_elem, elem_of_list_filter in Ep as [[Hi _] Hk]. apply elem_of_map_to_list in Hk. cbn in Hi.
  destruct (name_of s (c_name e)) as [[n|]|]; [|done|done]. destruct (resolve_free s n) as [[p n']|] eqn:Er; [|done]. destruct (add_name _ _ _ _) as [nid s1] eqn:Ea.
  destruct (put_contents _ s1) as [s2|] eqn:Em; [|done].
  destruct (keep_anchor (report true s) i e k _ nid s1 p s2 Hk Hi (resolve_free_parent _ _ _ _ Er) Ea Em) as (_ & E & _). cbn in E.
  destruct fuel as [|fuel']; [done|]. cbn [anchor] in H. destruct (delete_tree recursion_limit (<[i := Some p]> up) i left1) as [left2|] eqn:Hd2; [|done].
  assert (anchor (S fuel') (<[i := Some p]> up) left1 i (del_name (c_name e) s2) = Some s') as H' by (cbn [anchor]; by rewrite Hd2).
  apply (IH _ _ _ _ _ H' Hd2); [|intros Q; apply Hn; by apply (delete_tree_spec _ _ _ _ _ Hd2)].
  cbn. rewrite E. rewrite lookup_insert_ne; [done|]. intros <-. rewrite Hk in Hk0. injection Hk0 as <-. by rewrite Hi in Hn.
Qed.
Definition edges (up : gmap nat (option nat)) (s : fsck) : Prop := forall j q, up !! j = Some (Some q) -> exists k e, contents s !! k = Some e /\ c_inode e = j /\ c_parent e = q.
Lemma below_reach up s s' root (left1 : gset nat) : edges up s -> (forall k e, contents s !! k = Some e -> c_inode e ∉ left1 -> contents s' !! k = Some e) ->
  (forall j, below up root j -> j ∉ left1) -> reach s' root -> forall j, below up root j -> reach s' j.
Proof.
  intros He Hs Hl Hr j H. induction H as [|i j H IH Hj]; [done|]. destruct (He _ _ Hj) as (k & e & Hk & <- & <-). apply (reach_entry _ k); [|done].
  apply Hs; [done|]. apply Hl. by eapply below_step.
Qed.
Lemma anchor_reach fuel up left root s s' left1 : anchor fuel up left root s = Some s' -> delete_tree recursion_limit up root left = Some left1 -> edges up s ->
  (forall j, j ∈ left1 -> reach s' j) /\
  (forall k e, contents s' !! k = Some e -> (exists e0, contents s !! k = Some e0 /\ c_parent e0 = c_parent e) \/ reach s' (c_parent e)).
Proof.
  revert up left root s left1. induction fuel as [|fuel IH]; intros up left root s left1; [done|]. cbn [anchor]. intros H Hd He. rewrite Hd in H.
  destruct (culprit left1 s) as [i|] eqn:Ec; [|injection H as <-; apply culprit_none in Ec as ->; split; [by intros j ?%elem_of_empty|intros k e Hk; left; by exists e]]. apply culprit_elem in Ec.
  destruct (entry_of s i) as [[k e]|] eqn:Ep; [|done]. apply pick_elem, elem_of_list_filter in Ep as [[Hi _] Hk]. apply elem_of_map_to_list in Hk. cbn in Hi.
  destruct (name_of s (c_name e)) as [[n|]|]; [|done|done]. destruct (resolve_free s n) as [[p n']|] eqn:Er; [|done]. destruct (add_name _ _ _ _) as [nid s1] eqn:Ea.
  destruct (put_contents _ s1) as [s2|] eqn:Em; [|done]. pose proof (resolve_free_parent _ _ _ _ Er) as Hlf.
  destruct (keep_anchor (report true s) i e k _ nid s1 p s2 Hk Hi Hlf Ea Em) as (_ & E & _). cbn in E.
  destruct fuel as [|fuel']; [done|]. pose proof H as H0. cbn [anchor] in H0. destruct (delete_tree recursion_limit (<[i := Some p]> up) i left1) as [left2|] eqn:Hd2; [|done]. clear H0.
  set (up' := <[i := Some p]> up) in *. set (s3 := del_name (c_name e) s2) in *. assert (contents s3 = <[k := Centry nid i p]> (contents s)) as E3 by done.
  assert (edges up' s3) as He3.
  { intros j q Hj. unfold edges in He. subst up'. destruct (decide (i = j)) as [<-|N].
    - rewrite lookup_insert in Hj. injection Hj as <-. exists k, (Centry nid i p). split; [|done]. by rewrite E3, lookup_insert.
    - rewrite lookup_insert_ne in Hj by done. destruct (He _ _ Hj) as (k' & e' & Hk' & Ej & Eq). exists k', e'. split; [|done]. rewrite E3, lookup_insert_ne; [done|]. intros <-. congruence. }
  destruct (IH _ _ _ _ _ H Hd2 He3) as [IH1 IH2]. pose proof (anchor_stay _ _ _ _ _ _ _ H Hd2) as Hstay.
  assert (p <> i) as Hpi. { intros ->. by rewrite delete_tree_loop in Hd2 by apply lookup_insert. }
  assert (reach s' p) as Hp.
  { destruct (decide (p ∈ left2)) as [Q|Q]; [by apply IH1|]. unfold lost_found in Hlf. destruct (entry s ROOT (Blob LOF)) as [[k0 e0]|] eqn:E0; [|done]. cbn in Hlf. injection Hlf as <-.
    apply entry_spec in E0 as (Hk0 & Hr0 & _). apply (reach_entry _ k0); [|rewrite Hr0; constructor]. apply Hstay; [|done]. rewrite E3, lookup_insert_ne; [done|]. intros <-. congruence. }
  assert (reach s' i) as Hri.
  { change i with (c_inode (Centry nid i p)). apply (reach_entry _ k); [|done]. apply Hstay; [by rewrite E3, lookup_insert|]. cbn. intros Q. apply (delete_tree_spec _ _ _ _ _ Hd2) in Q as [_ Q]. apply Q. constructor. }
  split.
  - intros j Hj. destruct (decide (j ∈ left2)) as [Q|Q]; [by apply IH1|].
    apply (below_reach up' s3 s' i left2); auto; [|by apply (delete_tree_below _ _ _ _ _ _ Hd2)].
    intros j' Hj' Q'. by apply (delete_tree_spec _ _ _ _ _ Hd2) in Q' as [_ Q'].
  - intros k' e' Hk'. destruct (IH2 k' e' Hk') as [(e0 & Hk0 & Ep0)|Q]; [|by right]. rewrite E3 in Hk0. destruct (decide (k = k')) as [<-|N].
    + rewrite lookup_insert in Hk0. injection Hk0 as <-. cbn in Ep0. right. by rewrite <- Ep0.
    + rewrite lookup_insert_ne in Hk0 by done. left. by exists e0.
Qed.

Theorem check_loops_reach s s' : check_loops s = Some s' -> forall k e, contents s' !! k = Some e -> reach s' (c_parent e).
Proof.
  unfold check_loops. intros H. set (up := loopcheck s) in *. destruct (delete_tree recursion_limit up ROOT (dom up)) as [left1|] eqn:Hd; [|cbn [anchor] in H; by rewrite Hd in H].
  assert (edges up s) as He by (intros j q [_ Hq]%loopcheck_Some; by apply parent_of_Some). destruct (anchor_reach _ _ _ _ _ _ _ H Hd He) as [H1 H2]. pose proof (anchor_stay _ _ _ _ _ _ _ H Hd) as Hs.
  intros k e Hk. destruct (H2 k e Hk) as [(e0 & Hk0 & <-)|Q]; [|done]. destruct (decide (c_parent e0 ∈ left1)) as [Q|Q]; [by apply H1|].
  apply (below_reach up s s' ROOT left1); auto; [| |].
  - intros j Hj Qj. by apply (delete_tree_spec _ _ _ _ _ Hd) in Qj as [_ Qj].
  - constructor.
  - apply (delete_tree_below _ _ _ _ _ _ Hd); [|done]. apply loopcheck_dom. by exists k, e0.
Qed.
(** Entries of inodes without children, and of those that the first walk finds, stay. *)
Lemma check_loops_stay s s' k e : check_loops s = Some s' -> contents s !! k = Some e -> (~ is_parent s (c_inode e) \/ below (loopcheck s) ROOT (c_inode e)) -> contents s' !! k = Some e.
Proof.
  unfold check_loops. intros H Hk Hb. set (up := loopcheck s) in *. destruct (delete_tree recursion_limit up ROOT (dom up)) as [left1|] eqn:Hd; [|cbn [anchor] in H; by rewrite Hd in H].
  apply (anchor_stay _ _ _ _ _ _ _ H Hd k e Hk). intros [Q1 Q2]%(delete_tree_spec _ _ _ _ _ Hd). destruct Hb as [Hb|Hb]; [|done]. by apply Hb, loopcheck_dom.
Qed.
Theorem check_loops_kept s s' k e : check_loops s = Some s' ->
  (forall k1 k2 e1 e2, contents s !! k1 = Some e1 -> contents s !! k2 = Some e2 -> c_inode e1 = c_inode e2 -> is_parent s (c_inode e1) -> k1 = k2) ->
  contents s !! k = Some e -> reach s (c_parent e) -> contents s' !! k = Some e.
Proof.
  intros H Hone Hk Hr. assert (forall j, reach s j -> ~ is_parent s j \/ below (loopcheck s) ROOT j) as Hb; [|apply (check_loops_stay s s' k e H Hk), Hb; by apply (reach_entry _ k)].
  clear k e Hk Hr. intros j Hj. induction Hj as [|k e Hk Hr IH]; [right; constructor|]. destruct IH as [IH|IH]; [destruct IH; by exists k, e|].
  destruct (parent_of s (c_inode e)) as [q|] eqn:Eq; [|by destruct (parent_of_None _ _ Eq k e Hk)].
  destruct (decide (c_inode e ∈ dom (loopcheck s))) as [Hd|Hd]; [|left; by rewrite <- loopcheck_dom]. apply loopcheck_dom in Hd. right.
  apply (below_step _ _ (c_parent e)); [done|]. apply loopcheck_Some. split; [done|]. rewrite Eq. f_equal. apply parent_of_Some in Eq as (k' & e' & Hk' & Ei & <-).
  assert (k = k') as <- by (apply (Hone _ _ e e'); auto). congruence.
Qed.
End loops.
