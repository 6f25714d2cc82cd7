(** Lemmas about the MultiLock model. *)
From stdpp Require Import prelude list gmap.
From Verif Require Import MultiLockModel MultiLockSpec.

Definition queue (s : state) : list nat :=
  match owner s with None => [] | Some t => [t] end ++ lq s ++ cl s.

Record wf (s : state) : Prop := {
  wf_nodup : NoDup (queue s);
  wf_dom : forall t, t ∈ queue s <-> is_Some (pcs s !! t);
  wf_owner : owner s = None -> lq s = [];
  wf_cl : forall t, t ∈ cl s -> exists k, pcs s !! t = Some (PAcq k true) /\ k ∈ keys s
}.

Lemma init_wf : wf init.
Proof.
  split; simpl.
  - constructor.
  - intros t. cbn. rewrite elem_of_nil. split; [done|]. intros [x Hx]. by rewrite lookup_empty in Hx.
  - done.
  - intros t Ht. by apply elem_of_nil in Ht.
Qed.

Lemma queue_unlock s x : owner s = Some x -> queue s = x :: queue (unlock s).
Proof. intros H. unfold unlock, queue. rewrite H. destruct (lq s); done. Qed.

Lemma elem_of_without t x l : x ∈ without t l <-> x <> t /\ x ∈ l.
Proof. unfold without. by rewrite elem_of_list_filter. Qed.

Lemma without_not_in t l : t ∉ l -> without t l = l.
Proof.
  unfold without. induction l as [|y l IH]; intros Hn; [done|].
  rewrite not_elem_of_cons in Hn. destruct Hn as [Hy Hn].
  rewrite filter_cons_True by congruence. by rewrite IH.
Qed.

Lemma perm_without t l : NoDup l -> t ∈ l -> Permutation l (t :: without t l).
Proof.
  intros Hnd Hin. apply elem_of_list_split in Hin as (l1 & l2 & ->).
  apply NoDup_app in Hnd as (_ & Hd & Hnd2). apply NoDup_cons in Hnd2 as [Hn2 _].
  unfold without. rewrite filter_app, filter_cons_False by (intros ?; done).
  assert (t ∉ l1) as Hn1. { intros Hi. apply (Hd _ Hi). by left. }
  pose proof (without_not_in _ _ Hn1) as E1. pose proof (without_not_in _ _ Hn2) as E2.
  unfold without in E1, E2. rewrite E1, E2. symmetry. apply Permutation_middle.
Qed.

(** Leaving the operation as owner. *)
Lemma wf_leave s t : wf s -> owner s = Some t -> wf (unlock (leave t s)).
Proof.
  intros [H1 H2 H3 H4] Ho.
  pose proof (queue_unlock (leave t s) t Ho) as Hq.
  change (queue (leave t s)) with (queue s) in Hq.
  rewrite Hq in H1. apply NoDup_cons in H1 as [Hn H1].
  assert (pcs (unlock (leave t s)) = delete t (pcs s)) as Hp by (unfold unlock; simpl; by destruct (lq s)).
  assert (cl (unlock (leave t s)) = cl s) as Hc by (unfold unlock; simpl; by destruct (lq s)).
  assert (keys (unlock (leave t s)) = keys s) as Hk by (unfold unlock; simpl; by destruct (lq s)).
  split.
  - done.
  - intros x. rewrite Hp. specialize (H2 x). rewrite Hq, elem_of_cons in H2.
    destruct (decide (x = t)) as [->|Hx].
    + rewrite lookup_delete. split; [done|]. intros [? ?]; done.
    + rewrite lookup_delete_ne by done. rewrite <- H2. intuition.
  - unfold unlock; simpl. by destruct (lq s).
  - intros x Hx. rewrite Hc in Hx. rewrite Hk, Hp.
    assert (x <> t) as Hne.
    { intros ->. apply Hn. unfold queue. rewrite Hc, !elem_of_app. by right; right. }
    rewrite lookup_delete_ne by done. by apply H4.
Qed.

Lemma lock_cond_wf s t p : wf s -> pcs s !! t = None -> wf (lock_cond t p s).
Proof.
  intros [H1 H2 H3 H4] Hn.
  assert (t ∉ queue s) as Hnq. { rewrite H2, Hn. intros [? ?]; done. }
  assert (Permutation (queue (lock_cond t p s)) (t :: queue s)) as Hperm.
  { unfold lock_cond, queue. destruct (owner s) as [o|]; simpl.
    - rewrite <- app_assoc. simpl. rewrite <- Permutation_middle. by rewrite perm_swap.
    - done. }
  assert (pcs (lock_cond t p s) = <[t := p]> (pcs s)) as Hp by (unfold lock_cond; by destruct (owner s)).
  assert (cl (lock_cond t p s) = cl s) as Hc by (unfold lock_cond; by destruct (owner s)).
  assert (keys (lock_cond t p s) = keys s) as Hk by (unfold lock_cond; by destruct (owner s)).
  split.
  - rewrite Hperm. by constructor.
  - intros x. rewrite Hperm, Hp, elem_of_cons, H2. destruct (decide (x = t)) as [->|Hx].
    + rewrite lookup_insert. naive_solver.
    + rewrite lookup_insert_ne by done. naive_solver.
  - unfold lock_cond. destruct (owner s) eqn:Ho; simpl; [congruence|done].
  - intros x Hx. rewrite Hc in Hx. rewrite Hk, Hp.
    destruct (decide (x = t)) as [->|Hne].
    { exfalso. apply Hnq. unfold queue. rewrite !elem_of_app. by right; right. }
    rewrite lookup_insert_ne by done. by apply H4.
Qed.

Lemma wf_set_keys s k : wf s -> wf (set_keys (fun ks => {[k]} ∪ ks) s).
Proof.
  intros [H1 H2 H3 H4]. split; try done.
  intros t Ht. destruct (H4 t Ht) as (k' & Hp & Hk). exists k'. simpl. split; [done|]. set_solver.
Qed.

Lemma wf_notify s (ks : gset nat) :
  wf s -> owner s <> None -> wf (State (owner s) (lq s ++ cl s) [] ks (pcs s)).
Proof.
  intros [H1 H2 H3 H4] Ho.
  assert (queue (State (owner s) (lq s ++ cl s) [] ks (pcs s)) = queue s) as Hq.
  { unfold queue; simpl. by rewrite app_nil_r. }
  split.
  - by rewrite Hq.
  - intros x. rewrite Hq. apply H2.
  - done.
  - intros x Hx. by apply elem_of_nil in Hx.
Qed.

Lemma wf_wait s t k w :
  wf s -> owner s = Some t -> pcs s !! t = Some (PAcq k w) -> k ∈ keys s ->
  wf (unlock (State (owner s) (lq s) (cl s ++ [t]) (keys s) (<[t := PAcq k true]> (pcs s)))).
Proof.
  intros [H1 H2 H3 H4] Ho Hpc Hk.
  set (s' := State _ _ _ _ _).
  assert (Permutation (queue (unlock s')) (queue s)) as Hperm.
  { unfold unlock, queue, s'; simpl. rewrite Ho. destruct (lq s) as [|y q]; simpl.
    - symmetry; apply Permutation_cons_append.
    - change (t :: y :: q ++ cl s) with ([t] ++ (y :: q ++ cl s)).
      rewrite (Permutation_app_comm [t]). simpl. by rewrite <- app_assoc. }
  assert (pcs (unlock s') = <[t := PAcq k true]> (pcs s)) as Hp by (unfold unlock, s'; simpl; by destruct (lq s)).
  assert (cl (unlock s') = cl s ++ [t]) as Hc by (unfold unlock, s'; simpl; by destruct (lq s)).
  assert (keys (unlock s') = keys s) as Hks by (unfold unlock, s'; simpl; by destruct (lq s)).
  split.
  - by rewrite Hperm.
  - intros x. rewrite Hperm, Hp, H2. destruct (decide (x = t)) as [->|Hx].
    + rewrite lookup_insert, Hpc. by split; intros; eexists.
    + by rewrite lookup_insert_ne.
  - unfold unlock, s'; simpl. by destruct (lq s).
  - intros x Hx. rewrite Hc in Hx. rewrite Hks, Hp.
    destruct (decide (x = t)) as [->|Hne].
    + rewrite lookup_insert. by exists k.
    + rewrite lookup_insert_ne by done. apply H4. apply elem_of_app in Hx as [Hx|Hx]; [done|].
      apply elem_of_list_singleton in Hx. congruence.
Qed.

Lemma NoDup_queue_parts s : NoDup (queue s) ->
  NoDup (lq s) /\ NoDup (cl s) /\ (forall t, t ∈ lq s -> t ∉ cl s) /\
  (forall t, owner s = Some t -> t ∉ lq s /\ t ∉ cl s).
Proof.
  unfold queue. rewrite NoDup_app. intros (_ & Hd & Hn). apply NoDup_app in Hn as (Hn1 & Hd1 & Hn2).
  split; [done|]. split; [done|]. split; [done|]. intros t Ht. rewrite Ht in Hd.
  assert (t ∉ lq s ++ cl s) as Hni by (apply Hd; by left).
  rewrite elem_of_app in Hni. tauto.
Qed.

Lemma queue_elim s x : x ∈ queue s <-> owner s = Some x \/ x ∈ lq s \/ x ∈ cl s.
Proof.
  unfold queue. rewrite !elem_of_app. destruct (owner s) as [y|].
  - rewrite elem_of_list_singleton. split; intros [H|H]; auto; left; congruence.
  - rewrite elem_of_nil. split; intros [H|H]; auto; done.
Qed.

Lemma wf_cancel_cl s t : wf s -> t ∈ cl s ->
  wf (lock_cond t PExit (State (owner s) (lq s) (without t (cl s)) (keys s) (pcs s))).
Proof.
  intros [H1 H2 H3 H4] Hin.
  (* go through the state in which t has left altogether *)
  set (s0 := State (owner s) (lq s) (without t (cl s)) (keys s) (delete t (pcs s))).
  destruct (NoDup_queue_parts _ H1) as (Hlq & Hcl & Hdisj & Hown).
  assert (wf s0) as Hwf0.
  { assert (Permutation (queue s) (t :: queue s0)) as Hperm.
    { unfold queue, s0; simpl. rewrite (perm_without t (cl s)) at 1 by done.
      rewrite <- !Permutation_middle. done. }
    split.
    - rewrite Hperm in H1. by apply NoDup_cons in H1 as [_ H1].
    - intros x. specialize (H2 x). rewrite Hperm, elem_of_cons in H2.
      rewrite Hperm in H1. apply NoDup_cons in H1 as [Hn _].
      destruct (decide (x = t)) as [->|Hx].
      + simpl. rewrite lookup_delete. split; [done|]. intros [? ?]; done.
      + simpl. rewrite lookup_delete_ne by done. rewrite <- H2. naive_solver.
    - done.
    - intros x Hx. simpl in *. apply elem_of_without in Hx as [Hne Hx].
      rewrite lookup_delete_ne by done. by apply H4. }
  assert (lock_cond t PExit (State (owner s) (lq s) (without t (cl s)) (keys s) (pcs s)) =
          lock_cond t PExit s0) as ->.
  { unfold lock_cond, s0; simpl. by rewrite insert_delete_insert. }
  apply lock_cond_wf; [done|]. simpl. by rewrite lookup_delete.
Qed.

Lemma wf_cancel_lq s t : wf s -> t ∈ lq s ->
  wf (leave t (State (owner s) (without t (lq s)) (cl s) (keys s) (pcs s))).
Proof.
  intros [H1 H2 H3 H4] Hin.
  destruct (NoDup_queue_parts _ H1) as (Hlq & Hcl & Hdisj & Hown).
  set (s0 := leave t _).
  assert (Permutation (queue s) (t :: queue s0)) as Hperm.
  { unfold queue, s0; simpl. rewrite (perm_without t (lq s)) at 1 by done.
    simpl. rewrite <- !Permutation_middle. done. }
  split.
  - rewrite Hperm in H1. by apply NoDup_cons in H1 as [_ H1].
  - intros x. specialize (H2 x). rewrite Hperm, elem_of_cons in H2.
    rewrite Hperm in H1. apply NoDup_cons in H1 as [Hn _].
    destruct (decide (x = t)) as [->|Hx].
    + simpl. rewrite lookup_delete. split; [done|]. intros [? ?]; done.
    + simpl. rewrite lookup_delete_ne by done. rewrite <- H2. naive_solver.
  - simpl. intros Ho. rewrite (H3 Ho) in Hin. by apply elem_of_nil in Hin.
  - intros x Hx. simpl in *. assert (x <> t) as Hne by (intros ->; by apply (Hdisj t)).
    rewrite lookup_delete_ne by done. by apply H4.
Qed.

Lemma wf_cancel_wait s t : wf s -> t ∈ lq s ->
  wf (State (owner s) (without t (lq s) ++ [t]) (cl s) (keys s) (<[t := PExit]> (pcs s))).
Proof.
  intros Hwf Hin. pose proof (wf_cancel_lq s t Hwf Hin) as H0.
  apply (lock_cond_wf _ t PExit) in H0; [|simpl; apply lookup_delete].
  unfold lock_cond in H0; simpl in H0. rewrite insert_delete_insert in H0.
  destruct (owner s) eqn:Ho; [done|].
  destruct Hwf as [_ _ H3 _]. rewrite (H3 Ho) in Hin. by apply elem_of_nil in Hin.
Qed.

Lemma step_wf s e : wf s -> wf (step s e).1.
Proof.
  intros Hwf. destruct e as [t k|t k ne|t k| |t]; simpl.
  - destruct (pcs s !! t) eqn:Hp; [done|]. by apply lock_cond_wf.
  - destruct (pcs s !! t) eqn:Hp; [done|]. by apply lock_cond_wf.
  - destruct (pcs s !! t) eqn:Hp; [done|]. destruct (owner s) eqn:Ho; [done|].
    destruct (decide (k ∈ keys s)); [done|]. by apply wf_set_keys.
  - destruct (owner s) as [t|] eqn:Ho; [|done].
    destruct (pcs s !! t) as [[k w|k ne|]|] eqn:Hp; [| | |done].
    + destruct (decide (k ∈ keys s)).
      * rewrite <- Ho. by apply wf_wait with w.
      * simpl. apply wf_leave; [by apply wf_set_keys|done].
    + destruct (decide (k ∈ keys s)); [|destruct ne].
      * simpl. apply wf_leave; [|done]. rewrite <- Ho. apply wf_notify; [done|congruence].
      * simpl. apply wf_leave; [|done]. rewrite <- Ho. apply wf_notify; [done|congruence].
      * simpl. by apply wf_leave.
    + simpl. by apply wf_leave.
  - destruct (pcs s !! t) as [p|] eqn:Hp; [|done].
    destruct (decide (t ∈ cl s)); [by apply wf_cancel_cl|].
    destruct (decide (t ∈ lq s)); [|done].
    destruct p as [k [|]|k ne|]; simpl; [by apply wf_cancel_wait|by apply wf_cancel_lq|by apply wf_cancel_lq|done].
Qed.

Lemma run_app s es1 es2 :
  run s (es1 ++ es2) =
  let (s1, o1) := run s es1 in let (s2, o2) := run s1 es2 in (s2, o1 ++ o2).
Proof.
  revert s. induction es1 as [|e es1 IH]; intros s; simpl.
  - by destruct (run s es2).
  - destruct (step s e) as [s' o]. rewrite IH. destruct (run s' es1) as [s1 o1].
    destruct (run s1 es2) as [s2 o2]. by rewrite app_assoc.
Qed.

Lemma run_wf s es : wf s -> wf (run s es).1.
Proof.
  revert s. induction es as [|e es IH]; intros s Hwf; simpl; [done|].
  pose proof (step_wf s e Hwf) as Hw. destruct (step s e) as [s' o]. simpl in Hw.
  specialize (IH s' Hw). by destruct (run s' es).
Qed.

Lemma unlock_keys s : keys (unlock s) = keys s.
Proof. unfold unlock. by destruct (lq s). Qed.
Lemma lock_cond_keys t p s : keys (lock_cond t p s) = keys s.
Proof. unfold lock_cond. by destruct (owner s). Qed.

(** What a step does to the set of locked keys. *)
Lemma step_keys s e :
  let '(s', o) := step s e in
  (o = [] /\ keys s' = keys s) \/
  (exists t k, o = [Acquired t k] /\ k ∉ keys s /\ keys s' = {[k]} ∪ keys s) \/
  (exists t k, o = [Released t k] /\ k ∈ keys s /\ keys s' = keys s ∖ {[k]}).
Proof.
  destruct e as [t k|t k ne|t k| |t]; simpl.
  - destruct (pcs s !! t); [by left|]. left. by rewrite lock_cond_keys.
  - destruct (pcs s !! t); [by left|]. left. by rewrite lock_cond_keys.
  - destruct (pcs s !! t); [by left|]. destruct (owner s); [by left|].
    destruct (decide (k ∈ keys s)); [by left|]. right; left. by exists t, k.
  - destruct (owner s) as [t|] eqn:Ho; [|by left].
    destruct (pcs s !! t) as [[k w|k ne|]|] eqn:Hp; [| | |by left].
    + destruct (decide (k ∈ keys s)).
      * left. by rewrite unlock_keys.
      * right; left. exists t, k. by rewrite unlock_keys.
    + destruct (decide (k ∈ keys s)); [|destruct ne].
      * right; right. exists t, k. by rewrite unlock_keys.
      * left. by rewrite unlock_keys.
      * left. by rewrite unlock_keys.
    + left. by rewrite unlock_keys.
  - destruct (pcs s !! t) as [p|] eqn:Hp; [|by left].
    destruct (decide (t ∈ cl s)); [left; by rewrite lock_cond_keys|].
    destruct (decide (t ∈ lq s)); [|by left].
    destruct p as [k [|]|k ne|]; by left.
Qed.

Definition traced (tr : list obs) (s : state) : Prop :=
  mutual_exclusion tr /\ no_spurious_release tr /\ forall k, k ∈ keys s <-> held_after tr k.

Lemma snoc_split {A} (l : list A) x l1 y l2 :
  l ++ [x] = l1 ++ y :: l2 ->
  (l2 = [] /\ l1 = l /\ x = y) \/ exists l2', l2 = l2' ++ [x] /\ l = l1 ++ y :: l2'.
Proof.
  intros H. destruct l2 as [|z l2 _] using rev_ind.
  - left. by apply app_inj_tail in H as [-> ->].
  - right. exists l2. rewrite app_comm_cons, app_assoc in H. by apply app_inj_tail in H as [-> ->].
Qed.

Lemma held_app tr k o : held_after tr k -> (forall t, o <> Released t k) -> held_after (tr ++ [o]) k.
Proof.
  intros (a & t & b & -> & Hb) Ho. exists a, t, (b ++ [o]). split; [by rewrite <- app_assoc|].
  intros t' Hin. apply elem_of_app in Hin as [Hin|Hin]; [by apply (Hb t')|].
  apply elem_of_list_singleton in Hin. by apply (Ho t').
Qed.

Lemma held_app_inv tr k o : held_after (tr ++ [o]) k ->
  (exists t, o = Acquired t k) \/ (held_after tr k /\ forall t, o <> Released t k).
Proof.
  intros (a & t & b & Heq & Hb). apply snoc_split in Heq as [(-> & -> & ->)|(b' & -> & ->)].
  - left. by exists t.
  - right. split.
    + exists a, t, b'. split; [done|]. intros t' Hin. apply (Hb t'). apply elem_of_app. by left.
    + intros t' ->. apply (Hb t'). apply elem_of_app. right. by left.
Qed.

Lemma released_dec (l : list obs) k : (exists t, Released t k ∈ l) \/ forall t, Released t k ∉ l.
Proof.
  induction l as [|o l [[t Ht]|IH]].
  - right. intros t Ht. by apply elem_of_nil in Ht.
  - left. exists t. by right.
  - destruct o as [t k'|t k'].
    + right. intros t' [[=]|Ht]%elem_of_cons. by apply (IH t').
    + destruct (decide (k' = k)) as [->|Hne]; [left; exists t; by left|].
      right. intros t' [[= _ ->]|Ht]%elem_of_cons; [done|]. by apply (IH t').
Qed.

Lemma traced_step tr s e : traced tr s ->
  let '(s', o) := step s e in traced (tr ++ o) s'.
Proof.
  intros (Hm & Hn & Hk). pose proof (step_keys s e) as Hs. destruct (step s e) as [s' o].
  destruct Hs as [[-> Hk']|[(t & k & -> & Hni & Hk')|(t & k & -> & Hin & Hk')]].
  - rewrite app_nil_r. split; [done|]. split; [done|]. by rewrite Hk'.
  - split; [|split].
    + intros l1 t1 k1 l2 t2 l3 Heq.
      rewrite app_comm_cons, app_assoc in Heq. apply snoc_split in Heq as [(-> & Hl & [= <- <-])|(l3' & -> & Hl)].
      * (* the new acquisition is the second one: the key was free *)
        destruct (released_dec l2 k) as [Hex|Hne]; [done|].
        exfalso. apply Hni. apply Hk. exists l1, t1, l2. split; [done|]. done.
      * eapply Hm. rewrite Hl. by rewrite <- app_assoc.
    + intros l1 t1 k1 l2 Heq. apply snoc_split in Heq as [(_ & _ & [=])|(l2' & -> & Hl)].
      by eapply Hn.
    + intros k'. rewrite Hk', elem_of_union, elem_of_singleton, Hk. split.
      * intros [->|Hh].
        { exists tr, t, []. split; [done|]. intros ? ?%elem_of_nil; done. }
        { by apply held_app. }
      * intros [[t' [= _ ->]]|[Hh _]]%held_app_inv; [by left|by right].
  - split; [|split].
    + intros l1 t1 k1 l2 t2 l3 Heq.
      rewrite app_comm_cons, app_assoc in Heq. apply snoc_split in Heq as [(_ & _ & [=])|(l3' & -> & Hl)].
      eapply Hm. rewrite Hl. by rewrite <- app_assoc.
    + intros l1 t1 k1 l2 Heq. apply snoc_split in Heq as [(_ & -> & [= <- <-])|(l2' & -> & Hl)].
      * apply Hk in Hin as (a & t' & b & -> & Hb). by exists a, t', b.
      * by eapply Hn.
    + intros k'. rewrite Hk', elem_of_difference, elem_of_singleton, Hk. split.
      * intros [Hh Hne]. apply held_app; [done|]. intros t' [= _ ->]. done.
      * intros [[t' [=]]|[Hh Hne]]%held_app_inv. split; [done|]. intros ->. by apply (Hne t).
Qed.

Lemma traced_run tr s es : traced tr s -> traced (tr ++ (run s es).2) (run s es).1.
Proof.
  revert tr s. induction es as [|e es IH]; intros tr s Ht; simpl; [by rewrite app_nil_r|].
  pose proof (traced_step tr s e Ht) as Hs. destruct (step s e) as [s' o].
  specialize (IH _ _ Hs). destruct (run s' es) as [s'' o']. simpl in *. by rewrite app_assoc.
Qed.

Lemma traced_init : traced [] init.
Proof.
  split; [|split].
  - intros l1 t1 k l2 t2 l3 H. destruct l1; discriminate H.
  - intros l1 t k l2 H. destruct l1; discriminate H.
  - intros k. split; [set_solver|]. intros (a & t & b & H & _). destruct a; discriminate H.
Qed.

(** ** Progress *)

(** [t] is at most [n] turns away from continuing. *)
Definition ahead (t : nat) (s : state) (n : nat) : Prop :=
  owner s = Some t \/ exists l1 l2, lq s = l1 ++ t :: l2 /\ S (length l1) <= n.

Lemma ahead_mono t s n m : ahead t s n -> n <= m -> ahead t s m.
Proof. intros [H|(l1 & l2 & H & Hl)] ?; [by left|right]. exists l1, l2. split; [done|]. lia. Qed.

Lemma filter_length_le (x : nat) l : length (without x l) <= length l.
Proof. unfold without. apply filter_length. Qed.

Lemma step_ahead s e t k w n :
  wf s -> pcs s !! t = Some (PAcq k w) -> k ∉ keys s -> ahead t s n -> e <> Cancel t ->
  let '(s', o) := step s e in
  (exists t', o = [Acquired t' k]) \/
  (pcs s' !! t = Some (PAcq k w) /\ k ∉ keys s' /\
   (ahead t s' n /\ e <> Run \/ exists n', n = S n' /\ ahead t s' n')).
Proof.
  intros Hwf Hpc Hk Ha He. pose proof (step_keys s e) as Hks. pose proof Hwf as Hwf0.
  destruct Hwf as [H1 H2 H3 H4].
  destruct (NoDup_queue_parts _ H1) as (Hlq & Hcl & Hdisj & Hown).
  destruct e as [t1 k1|t1 k1 ne|t1 k1| |t1]; simpl in *.
  - destruct (pcs s !! t1) eqn:Hp1; [right; split; [done|]; split; [done|]; by left|].
    right. assert (t <> t1) by congruence.
    unfold lock_cond. destruct (owner s) eqn:Ho; simpl; rewrite lookup_insert_ne by done.
    + split; [done|]. split; [done|]. left. split; [|done].
      destruct Ha as [Ha|(l1 & l2 & Hl & Hle)]; [left; simpl; congruence|].
      right. exists l1, (l2 ++ [t1]). simpl. rewrite Hl, <- app_assoc. done.
    + split; [done|]. split; [done|]. left. split; [|done].
      destruct Ha as [Ha|(l1 & l2 & Hl & Hle)]; [congruence|].
      rewrite (H3 eq_refl) in Hl. destruct l1; discriminate Hl.
  - destruct (pcs s !! t1) eqn:Hp1; [right; split; [done|]; split; [done|]; by left|].
    right. assert (t <> t1) by congruence.
    unfold lock_cond. destruct (owner s) eqn:Ho; simpl; rewrite lookup_insert_ne by done.
    + split; [done|]. split; [done|]. left. split; [|done].
      destruct Ha as [Ha|(l1 & l2 & Hl & Hle)]; [left; simpl; congruence|].
      right. exists l1, (l2 ++ [t1]). simpl. rewrite Hl, <- app_assoc. done.
    + split; [done|]. split; [done|]. left. split; [|done].
      destruct Ha as [Ha|(l1 & l2 & Hl & Hle)]; [congruence|].
      rewrite (H3 eq_refl) in Hl. destruct l1; discriminate Hl.
  - destruct (pcs s !! t1) eqn:Hp1; [right; split; [done|]; split; [done|]; by left|].
    destruct (owner s) eqn:Ho; [right; split; [done|]; split; [done|]; by left|].
    destruct (decide (k1 ∈ keys s)); [right; split; [done|]; split; [done|]; by left|].
    destruct (decide (k1 = k)) as [->|Hne]; [left; by exists t1|].
    right. split; [done|]. split; [set_solver|]. left. split; [|done].
    destruct Ha as [Ha|(l1 & l2 & Hl & Hle)]; [congruence|]. right. by exists l1, l2.
  - destruct (owner s) as [o|] eqn:Ho.
    2:{ destruct Ha as [Ha|(l1 & l2 & Hl & Hle)]; [congruence|].
        rewrite (H3 eq_refl) in Hl. destruct l1; discriminate Hl. }
    destruct (decide (o = t)) as [->|Hot].
    { rewrite Hpc. rewrite decide_False by done. left. by exists t. }
    destruct Ha as [Ha|(l1 & l2 & Hl & Hle)]; [congruence|].
    destruct n as [|n]; [lia|].
    (* after the owner is done, the queue advances by one, possibly extended at the end *)
    assert (forall s1 l3, lq s1 = lq s ++ l3 -> ahead t (unlock s1) n) as Hadv.
    { intros s1 l3 Hs1. unfold unlock. rewrite Hs1, Hl.
      destruct l1 as [|y l1]; simpl; [by left|]. right. exists l1, (l2 ++ l3). simpl.
      rewrite <- app_assoc. split; [done|]. simpl in Hle. lia. }
    assert (is_Some (pcs s !! o)) as [po Hpo]. { apply H2. apply queue_elim. by left. }
    rewrite Hpo in Hks |- *.
    destruct po as [k1 w1|k1 ne|].
    + destruct (decide (k1 ∈ keys s)) as [Hk1|Hk1].
      * right. split; [|split].
        { unfold unlock; simpl. destruct (lq s); simpl; by rewrite lookup_insert_ne. }
        { by rewrite unlock_keys. }
        { right. exists n. split; [done|]. apply (Hadv _ []). simpl. by rewrite app_nil_r. }
      * destruct (decide (k1 = k)) as [->|Hne]; [left; by exists o|].
        right. split; [|split].
        { unfold unlock; simpl. destruct (lq s); simpl; by rewrite lookup_delete_ne. }
        { rewrite unlock_keys. simpl. set_solver. }
        { right. exists n. split; [done|]. apply (Hadv _ []). simpl. by rewrite app_nil_r. }
    + destruct (decide (k1 ∈ keys s)) as [Hk1|Hk1]; [|destruct ne].
      * right. split; [|split].
        { unfold unlock; simpl. destruct (lq s ++ cl s); simpl; by rewrite lookup_delete_ne. }
        { rewrite unlock_keys. simpl. set_solver. }
        { right. exists n. split; [done|]. by apply (Hadv _ (cl s)). }
      * right. split; [|split].
        { unfold unlock; simpl. destruct (lq s ++ cl s); simpl; by rewrite lookup_delete_ne. }
        { by rewrite unlock_keys. }
        { right. exists n. split; [done|]. by apply (Hadv _ (cl s)). }
      * right. split; [|split].
        { unfold unlock; simpl. destruct (lq s); simpl; by rewrite lookup_delete_ne. }
        { by rewrite unlock_keys. }
        { right. exists n. split; [done|]. apply (Hadv _ []). simpl. by rewrite app_nil_r. }
    + right. split; [|split].
      { unfold unlock; simpl. destruct (lq s); simpl; by rewrite lookup_delete_ne. }
      { by rewrite unlock_keys. }
      { right. exists n. split; [done|]. apply (Hadv _ []). simpl. by rewrite app_nil_r. }
  - assert (t1 <> t) as Hne by congruence.
    destruct (pcs s !! t1) as [p|] eqn:Hp1; [|right; split; [done|]; split; [done|]; by left].
    assert (forall l3, ahead t s n -> owner s = Some t \/
              exists l1 l2, without t1 (lq s) ++ l3 = l1 ++ t :: l2 /\ S (length l1) <= n) as Hwo.
    { intros l3 [Hx|(l1 & l2 & Hl & Hle)]; [by left|right].
      exists (without t1 l1), (without t1 l2 ++ l3). rewrite Hl. unfold without.
      rewrite filter_app, filter_cons_True by done. rewrite <- app_assoc. split; [done|].
      pose proof (filter_length_le t1 l1). unfold without in *. lia. }
    destruct (decide (t1 ∈ cl s)).
    { right. split; [|split].
      - unfold lock_cond; simpl. destruct (owner s); simpl; by rewrite lookup_insert_ne.
      - by rewrite lock_cond_keys.
      - left. split; [|done]. unfold lock_cond; simpl. destruct (owner s) eqn:Ho.
        + destruct Ha as [Ha|(l1 & l2 & Hl & Hle)]; [left; simpl; congruence|].
          right. exists l1, (l2 ++ [t1]). simpl. rewrite Hl, <- app_assoc. done.
        + destruct Ha as [Ha|(l1 & l2 & Hl & Hle)]; [congruence|].
          rewrite (H3 eq_refl) in Hl. destruct l1; discriminate Hl. }
    destruct (decide (t1 ∈ lq s)); [|right; split; [done|]; split; [done|]; by left].
    destruct p as [k1 [|]|k1 ne|]; simpl.
    + right. rewrite lookup_insert_ne by done. split; [done|]. split; [done|]. left.
      split; [|done]. by apply Hwo.
    + right. rewrite lookup_delete_ne by done. split; [done|]. split; [done|]. left.
      split; [|done]. specialize (Hwo [] Ha). by rewrite app_nil_r in Hwo.
    + right. rewrite lookup_delete_ne by done. split; [done|]. split; [done|]. left.
      split; [|done]. specialize (Hwo [] Ha). by rewrite app_nil_r in Hwo.
    + right. split; [done|]. split; [done|]. by left.
Qed.

Lemma progress_run es s t k w n :
  wf s -> pcs s !! t = Some (PAcq k w) -> k ∉ keys s -> ahead t s n -> Cancel t ∉ es ->
  n < runs es -> exists t', Acquired t' k ∈ (run s es).2.
Proof.
  revert s n. induction es as [|e es IH]; intros s n Hwf Hpc Hk Ha Hc Hr.
  { cbn in Hr. lia. }
  rewrite not_elem_of_cons in Hc. destruct Hc as [Hc Hcs].
  pose proof (step_ahead s e t k w n Hwf Hpc Hk Ha (not_eq_sym Hc)) as Hs.
  pose proof (step_wf s e Hwf) as Hw.
  simpl. destruct (step s e) as [s' o]. simpl in Hw.
  destruct Hs as [[t' ->]|(Hpc' & Hk' & Hs)].
  { destruct (run s' es) as [s'' o']. exists t'. simpl. by left. }
  assert (exists n', ahead t s' n' /\ n' < runs es) as (n' & Ha' & Hr').
  { unfold runs in Hr. destruct Hs as [[Ha' Hne]|(n' & -> & Ha')].
    - rewrite filter_cons_False in Hr by done. by exists n.
    - exists n'. split; [done|]. rewrite filter_cons in Hr.
      destruct (decide (e = Run)); simpl in Hr; unfold runs; lia. }
  destruct (IH s' n' Hw Hpc' Hk' Ha' Hcs Hr') as [t' Ht'].
  destruct (run s' es) as [s'' o']. exists t'. simpl. apply elem_of_app. by right.
Qed.

(** A waiting task whose key is free is in line. *)
Lemma waiting_ahead s t k w :
  wf s -> pcs s !! t = Some (PAcq k w) -> k ∉ keys s -> ahead t s (length (lq s)).
Proof.
  intros [H1 H2 H3 H4] Hpc Hk.
  assert (t ∈ queue s) as Hq by (apply H2; by exists (PAcq k w)).
  apply queue_elim in Hq as [Ho|[Hl|Hc]].
  - by left.
  - right. apply elem_of_list_split in Hl as (l1 & l2 & Hl). exists l1, l2. split; [done|].
    rewrite Hl, app_length. simpl. lia.
  - destruct (H4 t Hc) as (k' & Hp' & Hk'). rewrite Hpc in Hp'. injection Hp' as -> ->. done.
Qed.

Lemma idle_run s n : owner s = None -> run s (replicate n Run) = (s, []).
Proof.
  intros Ho. induction n as [|n IH]; [done|]. cbn [replicate run step]. rewrite Ho. by rewrite IH.
Qed.
