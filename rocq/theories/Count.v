(** Counting rows of tables. *)
From stdpp Require Import prelude gmap.
From Coq Require Import ZArith.
Local Open Scope Z_scope.

Definition b2z (P : Prop) `{!Decision P} : Z := if decide P then 1 else 0.
Lemma b2z_true (P : Prop) `{!Decision P} : P -> b2z P = 1.
Proof. intros. unfold b2z. by rewrite decide_True. Qed.
Lemma b2z_false (P : Prop) `{!Decision P} : ~ P -> b2z P = 0.
Proof. intros. unfold b2z. by rewrite decide_False. Qed.
Lemma b2z_pos (P : Prop) `{!Decision P} : 0 <= b2z P <= 1.
Proof. unfold b2z. case_decide; lia. Qed.

(** * Counting *)
Definition cnt `{Countable K} {A} (P : K * A -> Prop) `{!forall x, Decision (P x)} (m : gmap K A) : Z := Z.of_nat (base.size (filter P m)).
Section cnt.
Context `{Countable K} {A : Type} (P : K * A -> Prop) `{!forall x, Decision (P x)}.
Implicit Types m : gmap K A.
Lemma cnt_nonneg m : 0 <= cnt P m.
Proof. unfold cnt. lia. Qed.
Lemma cnt_empty : cnt P (∅ : gmap K A) = 0.
Proof. unfold cnt. by rewrite map_filter_empty, map_size_empty. Qed.
Lemma cnt_insert_new m k v : m !! k = None -> cnt P (<[k := v]> m) = cnt P m + b2z (P (k, v)).
Proof.
  intros Hk. unfold cnt, b2z. case_decide as HP.
  - rewrite map_filter_insert_True by done. rewrite map_size_insert_None; [lia|]. apply map_filter_lookup_None. by left.
  - rewrite map_filter_insert_False by done. rewrite delete_notin by done. lia.
Qed.
Lemma cnt_delete m k v : m !! k = Some v -> cnt P (delete k m) = cnt P m - b2z (P (k, v)).
Proof.
  intros Hk. rewrite <- (insert_delete m k v) at 2 by done. rewrite cnt_insert_new by apply lookup_delete. lia.
Qed.
Lemma cnt_update m k v w : m !! k = Some v -> cnt P (<[k := w]> m) = cnt P m - b2z (P (k, v)) + b2z (P (k, w)).
Proof.
  intros Hk. rewrite <- insert_delete_insert. rewrite cnt_insert_new by apply lookup_delete. by rewrite (cnt_delete m k v).
Qed.
Lemma cnt_pos m k v : m !! k = Some v -> P (k, v) -> 0 < cnt P m.
Proof.
  intros Hk HP. assert (cnt P (delete k m) = cnt P m - 1) as E by (rewrite (cnt_delete m k v), b2z_true by done; lia).
  pose proof (cnt_nonneg (delete k m)). lia.
Qed.
Lemma cnt_zero m : cnt P m <= 0 -> forall k v, m !! k = Some v -> ~ P (k, v).
Proof. intros Hc k v Hk HP. pose proof (cnt_pos _ _ _ Hk HP). lia. Qed.
Lemma cnt_pos_inv m : 0 < cnt P m -> exists k v, m !! k = Some v /\ P (k, v).
Proof.
  intros Hc. destruct (map_choose (filter P m)) as (k & v & Hk).
  { intros E. unfold cnt in Hc. rewrite E, map_size_empty in Hc. lia. }
  apply map_filter_lookup_Some in Hk as [? ?]. by exists k, v.
Qed.
Lemma cnt_none m : (forall k v, m !! k = Some v -> ~ P (k, v)) -> cnt P m = 0.
Proof.
  intros Hn. destruct (decide (0 < cnt P m)) as [Hc|]; [|pose proof (cnt_nonneg m); lia].
  destruct (cnt_pos_inv _ Hc) as (k & v & Hk & HP). by destruct (Hn k v).
Qed.
End cnt.
Lemma cnt_ext `{Countable K} {A} (P Q : K * A -> Prop) `{!forall x, Decision (P x), !forall x, Decision (Q x)} (m : gmap K A) :
  (forall k v, m !! k = Some v -> P (k, v) <-> Q (k, v)) -> cnt P m = cnt Q m.
Proof. intros HPQ. unfold cnt. do 2 f_equal. apply map_filter_ext. auto. Qed.
(** Rows in and not in a part of a table. *)
Lemma cnt_split `{Countable K} {A} (P Q : K * A -> Prop) `{!forall x, Decision (P x), !forall x, Decision (Q x)} (m : gmap K A) :
  cnt P m = cnt P (filter Q m) + cnt P (filter (fun x => ~ Q x) m).
Proof.
  induction m as [|k v m Hk IH] using map_ind.
  - rewrite !map_filter_empty. by rewrite !cnt_empty.
  - rewrite cnt_insert_new by done. destruct (decide (Q (k, v))) as [HQ|HQ].
    + rewrite (map_filter_insert_True Q) by done. rewrite (map_filter_insert_False (fun x => ~ Q x)) by tauto.
      rewrite delete_notin by done. rewrite cnt_insert_new by (apply map_filter_lookup_None; by left). lia.
    + rewrite (map_filter_insert_False Q) by done. rewrite (map_filter_insert_True (fun x => ~ Q x)) by done.
      rewrite delete_notin by done. rewrite cnt_insert_new by (apply map_filter_lookup_None; by left). lia.
Qed.
Lemma cnt_fmap `{Countable K} {A B} (f : A -> B) (P : K * B -> Prop) (Q : K * A -> Prop) `{!forall x, Decision (P x), !forall x, Decision (Q x)} (m : gmap K A) :
  (forall k v, m !! k = Some v -> P (k, f v) <-> Q (k, v)) -> cnt P (f <$> m) = cnt Q m.
Proof.
  induction m as [|k v m Hk IH] using map_ind; intros HPQ.
  - rewrite fmap_empty. by rewrite !cnt_empty.
  - rewrite fmap_insert. rewrite !cnt_insert_new by (try rewrite lookup_fmap; by rewrite Hk). rewrite IH.
    + f_equal. unfold b2z. assert (P (k, f v) <-> Q (k, v)) as E by (apply HPQ, lookup_insert). do 2 case_decide; tauto.
    + intros k' v' Hk'. apply HPQ. rewrite lookup_insert_ne; [done|]. congruence.
Qed.
(** Moving a row to another key, and rows that do not matter. *)
Lemma cnt_rekey `{Countable K} {A} (P : A -> Prop) `{!forall x, Decision (P x)} (m : gmap K A) k k' v : m !! k = None -> m !! k' = None ->
  cnt (fun kv => P kv.2) (<[k := v]> m) = cnt (fun kv => P kv.2) (<[k' := v]> m).
Proof. intros H1 H2. by rewrite !cnt_insert_new. Qed.
Lemma cnt_imap `{Countable K} {A B} (f : K -> A -> option B) (P : K * B -> Prop) (Q : K * A -> Prop) `{!forall x, Decision (P x), !forall x, Decision (Q x)} (m : gmap K A) :
  (forall k v, m !! k = Some v -> match f k v with Some w => P (k, w) <-> Q (k, v) | None => ~ Q (k, v) end) -> cnt P (map_imap f m) = cnt Q m.
Proof.
  induction m as [|k v m Hk IH] using map_ind; intros HPQ.
  - rewrite map_imap_empty. by rewrite !cnt_empty.
  - assert (cnt P (map_imap f m) = cnt Q m) as E by (apply IH; intros k' v' Hk'; apply HPQ; rewrite lookup_insert_ne; [done|congruence]).
    specialize (HPQ k v (lookup_insert _ _ _)). rewrite (cnt_insert_new Q) by done. destruct (f k v) as [w|] eqn:Ef.
    + rewrite (map_imap_insert_Some _ _ _ _ w) by done. rewrite cnt_insert_new by (rewrite map_lookup_imap, Hk; done). rewrite E. f_equal. unfold b2z. do 2 case_decide; tauto.
    + rewrite map_imap_insert_None by done. rewrite delete_notin by (rewrite map_lookup_imap, Hk; done). rewrite E. rewrite b2z_false by done. lia.
Qed.
