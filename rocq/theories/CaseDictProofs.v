From stdpp Require Import prelude.
From Verif Require Import CaseDictModel CaseDictSpec.

Section proofs.
Context {K V L : Type} `{!EqDecision L} (lower : K -> L).
Arguments dict_get : simpl never.
Implicit Types (d : store K V L) (h : list (op K V)).
Lemma dict_get_cons (l l' : L) (x : K * V) d : dict_get l ((l', x) :: d) = if decide (l' = l) then Some x else dict_get l d.
Proof. unfold dict_get. rewrite filter_cons. cbn. by case_decide. Qed.
Lemma dict_get_set (l l' : L) x d : dict_get l (dict_set l' x d) = if decide (l' = l) then Some x else dict_get l d.
Proof.
  induction d as [|[m y] d IH]; cbn; [by rewrite dict_get_cons|]. destruct (decide (m = l')) as [->|]; rewrite !dict_get_cons; [by case_decide|].
  rewrite IH. repeat case_decide; congruence.
Qed.
Lemma dict_get_filter (l l' : L) d : dict_get l (filter (fun p : L * (K * V) => p.1 <> l') d) = if decide (l' = l) then None else dict_get l d.
Proof.
  induction d as [|[m y] d IH]; [by case_decide|]. rewrite filter_cons. cbn. destruct (decide (m = l')) as [->|Hn].
  - rewrite decide_False by (by intros []). rewrite dict_get_cons, IH. by case_decide.
  - rewrite decide_True by done. rewrite !dict_get_cons, IH. repeat case_decide; congruence.
Qed.
Lemma dict_set_fst (l : L) x d : (dict_set l x d).*1 = if decide (l ∈ d.*1) then d.*1 else d.*1 ++ [l].
Proof.
  induction d as [|[m y] d IH]; cbn.
  - rewrite decide_False; [done|apply not_elem_of_nil].
  - destruct (decide (m = l)) as [->|D]; cbn; [rewrite decide_True by left; done|]. rewrite IH. destruct (decide (l ∈ d.*1)) as [Hin|Hn].
    + rewrite decide_True by (by right). done.
    + rewrite decide_False; [done|]. intros [?|?]%elem_of_cons; congruence.
Qed.
Lemma dict_get_elem (l : L) x d : NoDup d.*1 -> dict_get l d = Some x <-> (l, x) ∈ d.
Proof.
  induction d as [|[m y] d IH]; intros Hnd; [split; [done|by intros ?%elem_of_nil]|]. cbn in Hnd. apply NoDup_cons in Hnd as [Hm Hnd].
  rewrite dict_get_cons, elem_of_cons. case_decide as D.
  - subst. split; [intros [= ->]; by left|]. intros [[= ->]|Hin]; [done|]. exfalso. apply Hm. apply elem_of_list_fmap. by exists (l, x).
  - rewrite IH by done. split; [by right|]. intros [[= -> ->]|?]; done.
Qed.
(** The state after a history. *)
Definition good h d : Prop := NoDup d.*1 /\ (forall l k v, (l, (k, v)) ∈ d -> l = lower k) /\ forall k, dict_get (lower k) d = last_set lower h k.
Lemma good_del h d d' k o : good h d -> delitem lower k d = Some d' -> (forall h j, last_set lower (o :: h) j = if decide (lower k = lower j) then None else last_set lower h j) -> good (o :: h) d'.
Proof.
  intros (Hnd & Hl & Hg). unfold delitem, dict_del. destruct (dict_get _ d); [|done]. intros [= <-] Ho. split; [|split].
  - clear -Hnd. induction d as [|[m y] d IH]; [done|]. rewrite filter_cons. cbn in *. apply NoDup_cons in Hnd as [? ?]. case_decide; [|auto].
    cbn. apply NoDup_cons. split; [|auto]. intros Hin. apply H. apply elem_of_list_fmap in Hin as (y' & -> & Hin). apply elem_of_list_filter in Hin as [_ Hin]. apply elem_of_list_fmap. eauto.
  - intros l k' v [_ ?]%elem_of_list_filter. by eapply Hl.
  - intros j. rewrite dict_get_filter, Ho, Hg. done.
Qed.
Lemma good_set h d k v o : good h d -> (forall h j, last_set lower h k = last_set lower h k -> last_set lower (o :: h) j = if decide (lower k = lower j) then Some (k, v) else last_set lower h j) -> good (o :: h) (setitem lower k v d).
Proof.
  intros (Hnd & Hl & Hg) Ho. unfold setitem. split; [|split].
  - rewrite dict_set_fst. case_decide; [done|]. apply NoDup_app. split; [done|]. split; [|apply NoDup_singleton]. intros x Hx ->%elem_of_list_singleton. done.
  - intros l k' v' Hin. clear -Hin Hl. induction d as [|[m y] d IH]; cbn in Hin; [apply elem_of_list_singleton in Hin; by injection Hin as -> -> ->|].
    case_decide; apply elem_of_cons in Hin as [E|Hin].
    + by injection E as -> -> ->.
    + eapply Hl. by right.
    + injection E as -> <-. eapply Hl. left.
    + apply IH; [|done]. intros. eapply Hl. by right.
  - intros j. rewrite dict_get_set, Ho, Hg by done. done.
Qed.
Lemma good_keys h d : good h d -> keys_of lower h (iter d).
Proof.
  intros (Hnd & Hl & Hg). unfold iter. assert (lower <$> ((fun p : L * (K * V) => p.2.1) <$> d) = d.*1) as E.
  { clear -Hl. induction d as [|[m [k v]] d IH]; [done|]. cbn. f_equal; [symmetry; eapply Hl; left|]. apply IH. intros. eapply Hl. by right. }
  split; [by rewrite E|]. intros k. rewrite <- Hg. rewrite elem_of_list_fmap. split.
  - intros ([l [k' v]] & -> & Hin). cbn. exists v. apply dict_get_elem; [done|]. by rewrite <- (Hl _ _ _ Hin).
  - intros [v Hv]. apply dict_get_elem in Hv; [|done]. by exists (lower k, (k, v)).
Qed.
Lemma getitem_last h d k : good h d -> getitem lower k d = snd <$> last_set lower h k.
Proof. intros (_ & _ & Hg). unfold getitem. by rewrite Hg. Qed.
Lemma delitem_last h d k : good h d -> delitem lower k d = None <-> last_set lower h k = None.
Proof. intros (_ & _ & Hg). unfold delitem, dict_del. rewrite Hg. by destruct (last_set lower h k). Qed.
Lemma clear_ok n d : (length d <= n)%nat -> NoDup d.*1 -> (forall l k v, (l, (k, v)) ∈ d -> l = lower k) -> clear lower n d = Some [].
Proof.
  revert d. induction n as [|n IH]; intros d Hlen Hnd Hl; destruct d as [|[m [k v]] d]; cbn in Hlen; try lia; try done.
  cbn -[filter]. unfold getitem, delitem, dict_del. rewrite dict_get_cons. assert (m = lower k) as -> by (eapply Hl; left). rewrite decide_True by done. cbn -[filter].
  rewrite filter_cons. cbn. rewrite decide_False by (by intros []).
  assert (filter (fun p : L * (K * V) => p.1 <> lower k) d = d) as ->.
  { cbn in Hnd. apply NoDup_cons in Hnd as [Hn _]. clear -Hn. induction d as [|[m y] d IH]; [done|]. cbn in Hn. apply not_elem_of_cons in Hn as [? ?]. rewrite filter_cons. cbn. rewrite decide_True by congruence. f_equal. auto. }
  apply IH; [lia| |]. { cbn in Hnd. by apply NoDup_cons in Hnd as [_ ?]. } intros. eapply Hl. by right.
Qed.
Lemma items_ok h d ks : good h d -> (forall k, k ∈ ks -> k ∈ iter d) -> exists l, items lower ks d = Some l /\ l.*1 = ks /\ forall k v, (k, v) ∈ l -> last_set lower h k = Some (k, v).
Proof.
  intros Hg. pose proof (good_keys h d Hg) as [_ Hk]. induction ks as [|k ks IH]; intros Hin; [exists []; split; [done|]; split; [done|]; by intros ? ? ?%elem_of_nil|].
  destruct IH as (l & El & Hf & Hl); [intros; apply Hin; by right|]. destruct (proj1 (Hk k)) as [v Hv]; [apply Hin; left|].
  cbn. rewrite (getitem_last h d k Hg), Hv, El. cbn. eexists. split; [done|]. cbn. rewrite Hf. split; [done|].
  intros k' v' [[= -> ->]|?]%elem_of_cons; auto.
Qed.
Lemma exec_ok h d o : good h d -> good (o :: h) (exec lower o d).1 /\ correct lower h o (exec lower o d).2.
Proof.
  intros Hg. destruct o as [k v|k|k| | |k|k v|k| |]; cbn.
  - split; [|done]. by apply (good_set h d k v).
  - rewrite (getitem_last h d k Hg). split; [done|]. by destruct (last_set lower h k) as [[]|].
  - pose proof (delitem_last h d k Hg) as Hd. destruct (delitem lower k d) as [d'|] eqn:E; cbn.
    + split; [by eapply good_del|]. destruct (last_set lower h k); [done|]. by destruct Hd as [_ Hd]; specialize (Hd eq_refl).
    + destruct Hd as [Hd _]. specialize (Hd eq_refl). split; [|by rewrite Hd]. destruct Hg as (? & ? & Hg). split; [done|]. split; [done|].
      intros j. cbn. case_decide as D; [|done]. rewrite <- D. rewrite Hg. done.
  - split; [done|]. exists (iter d). split; [done|]. by apply good_keys.
  - split; [done|]. exists (iter d). split; [|by apply good_keys]. unfold iter. by rewrite fmap_length.
  - rewrite (getitem_last h d k Hg). split; [done|]. by destruct (last_set lower h k) as [[]|].
  - rewrite (getitem_last h d k Hg). destruct (last_set lower h k) as [[k' v']|] eqn:E; cbn; (split; [|done]).
    + destruct Hg as (? & ? & Hg). split; [done|]. split; [done|]. intros j. rewrite Hg. cbn. destruct (last_set lower h j) eqn:F; [done|]. case_decide as D; [|done].
      exfalso. rewrite <- Hg, D, Hg, F in E. done.
    + assert (good (Set_ k v :: h) (setitem lower k v d)) as (? & ? & Hg') by (by apply (good_set h d k v)). split; [done|]. split; [done|]. intros j. rewrite Hg'. cbn.
      case_decide as D; [|by destruct (last_set lower h j)]. destruct Hg as (_ & _ & Hg). by rewrite <- Hg, <- D, Hg, E.
  - rewrite (getitem_last h d k Hg). pose proof (delitem_last h d k Hg) as Hd. destruct (last_set lower h k) as [[k' v']|] eqn:E; cbn.
    + destruct (delitem lower k d) as [d'|] eqn:F; cbn; [split; [by eapply good_del|done]|]. by destruct Hd as [Hd _]; specialize (Hd eq_refl).
    + split; [|done]. destruct Hg as (? & ? & Hg). split; [done|]. split; [done|]. intros j. cbn. case_decide as D; [|done]. rewrite <- D, Hg. done.
  - destruct Hg as (Hnd & Hl & _). rewrite (clear_ok (length d) d) by done. cbn. split; [|done]. split; [constructor|]. split; [by intros ? ? ? ?%elem_of_nil|done].
  - destruct (items_ok h d (iter d) Hg) as (l & -> & Hf & Hl); [done|]. cbn. split; [done|]. exists l. rewrite Hf. split; [done|]. split; [by apply good_keys|done].
Qed.
End proofs.
