(** Lemmas about tables: counting rows, names, blocks. *)
From stdpp Require Import prelude gmap strings.
From Coq Require Import ZArith String.
From Verif Require Import FsModel FsSpec.
Local Close Scope string_scope.
Local Open Scope Z_scope.

Definition b2z (P : Prop) `{!Decision P} : Z := if decide P then 1 else 0.
Lemma b2z_true (P : Prop) `{!Decision P} : P -> b2z P = 1.
Proof. intros. unfold b2z. by rewrite decide_True. Qed.
Lemma b2z_false (P : Prop) `{!Decision P} : ~ P -> b2z P = 0.
Proof. intros. unfold b2z. by rewrite decide_False. Qed.
Lemma b2z_pos (P : Prop) `{!Decision P} : 0 <= b2z P <= 1.
Proof. unfold b2z. case_decide; lia. Qed.

(** * Counting *)
Section cnt.
Context `{Countable K} {A : Type} (P : K * A -> Prop) `{!forall x, Decision (P x)}.
Implicit Types m : gmap K A.
Lemma cnt_nonneg m : 0 <= cnt P m.
Proof. unfold cnt. lia. Qed.
Lemma cnt_empty : cnt P (∅ : gmap K A) = 0.
Proof. unfold cnt. by rewrite map_filter_empty, map_size_empty. Qed.
Lemma cnt_insert_new m k v : m !! k = None -> cnt P (<[k := v]> m) = cnt P m + b2z (P (k, v)).
Proof.
  intros Hk. unfold cnt, b2z. case_decide as HP.
  - rewrite map_filter_insert_True by done. rewrite map_size_insert_None; [lia|]. apply map_filter_lookup_None. by left.
  - rewrite map_filter_insert_False by done. rewrite delete_notin by done. lia.
Qed.
Lemma cnt_delete m k v : m !! k = Some v -> cnt P (delete k m) = cnt P m - b2z (P (k, v)).
Proof.
  intros Hk. rewrite <- (insert_delete m k v) at 2 by done. rewrite cnt_insert_new by apply lookup_delete. lia.
Qed.
Lemma cnt_update m k v w : m !! k = Some v -> cnt P (<[k := w]> m) = cnt P m - b2z (P (k, v)) + b2z (P (k, w)).
Proof.
  intros Hk. rewrite <- insert_delete_insert. rewrite cnt_insert_new by apply lookup_delete. by rewrite (cnt_delete m k v).
Qed.
Lemma cnt_pos m k v : m !! k = Some v -> P (k, v) -> 0 < cnt P m.
Proof.
  intros Hk HP. assert (cnt P (delete k m) = cnt P m - 1) as E by (rewrite (cnt_delete m k v), b2z_true by done; lia).
  pose proof (cnt_nonneg (delete k m)). lia.
Qed.
Lemma cnt_zero m : cnt P m <= 0 -> forall k v, m !! k = Some v -> ~ P (k, v).
Proof. intros Hc k v Hk HP. pose proof (cnt_pos _ _ _ Hk HP). lia. Qed.
Lemma cnt_pos_inv m : 0 < cnt P m -> exists k v, m !! k = Some v /\ P (k, v).
Proof.
  intros Hc. destruct (map_choose (filter P m)) as (k & v & Hk).
  { intros E. unfold cnt in Hc. rewrite E, map_size_empty in Hc. lia. }
  apply map_filter_lookup_Some in Hk as [? ?]. by exists k, v.
Qed.
Lemma cnt_none m : (forall k v, m !! k = Some v -> ~ P (k, v)) -> cnt P m = 0.
Proof.
  intros Hn. destruct (decide (0 < cnt P m)) as [Hc|]; [|pose proof (cnt_nonneg m); lia].
  destruct (cnt_pos_inv _ Hc) as (k & v & Hk & HP). by destruct (Hn k v).
Qed.
End cnt.
Lemma cnt_ext `{Countable K} {A} (P Q : K * A -> Prop) `{!forall x, Decision (P x), !forall x, Decision (Q x)} (m : gmap K A) :
  (forall k v, m !! k = Some v -> P (k, v) <-> Q (k, v)) -> cnt P m = cnt Q m.
Proof. intros HPQ. unfold cnt. do 2 f_equal. apply map_filter_ext. auto. Qed.
(** Rows in and not in a part of a table. *)
Lemma cnt_split `{Countable K} {A} (P Q : K * A -> Prop) `{!forall x, Decision (P x), !forall x, Decision (Q x)} (m : gmap K A) :
  cnt P m = cnt P (filter Q m) + cnt P (filter (fun x => ~ Q x) m).
Proof.
  induction m as [|k v m Hk IH] using map_ind.
  - rewrite !map_filter_empty. by rewrite !cnt_empty.
  - rewrite cnt_insert_new by done. destruct (decide (Q (k, v))) as [HQ|HQ].
    + rewrite (map_filter_insert_True Q) by done. rewrite (map_filter_insert_False (fun x => ~ Q x)) by tauto.
      rewrite delete_notin by done. rewrite cnt_insert_new by (apply map_filter_lookup_None; by left). lia.
    + rewrite (map_filter_insert_False Q) by done. rewrite (map_filter_insert_True (fun x => ~ Q x)) by done.
      rewrite delete_notin by done. rewrite cnt_insert_new by (apply map_filter_lookup_None; by left). lia.
Qed.
Lemma cnt_fmap `{Countable K} {A B} (f : A -> B) (P : K * B -> Prop) (Q : K * A -> Prop) `{!forall x, Decision (P x), !forall x, Decision (Q x)} (m : gmap K A) :
  (forall k v, m !! k = Some v -> P (k, f v) <-> Q (k, v)) -> cnt P (f <$> m) = cnt Q m.
Proof.
  induction m as [|k v m Hk IH] using map_ind; intros HPQ.
  - rewrite fmap_empty. by rewrite !cnt_empty.
  - rewrite fmap_insert. rewrite !cnt_insert_new by (try rewrite lookup_fmap; by rewrite Hk). rewrite IH.
    + f_equal. unfold b2z. assert (P (k, f v) <-> Q (k, v)) as E by (apply HPQ, lookup_insert). do 2 case_decide; tauto.
    + intros k' v' Hk'. apply HPQ. rewrite lookup_insert_ne; [done|]. congruence.
Qed.

(** * Names *)
Lemma max_id_le m n k rc : m !! n = Some (k, rc) -> (k <= max_id m)%nat.
Proof.
  unfold max_id. intros Hn. revert k rc Hn.
  apply (map_fold_ind (fun x m => forall k rc, m !! n = Some (k, rc) -> (k <= x)%nat)).
  - intros k rc. by rewrite lookup_empty.
  - intros n' [k' rc'] m' x Hn' IH k rc. destruct (decide (n' = n)) as [->|Hne].
    + rewrite lookup_insert. intros [= -> ->]. lia.
    + rewrite lookup_insert_ne by done. intros H%IH. lia.
Qed.

(** The names table for given numbers of uses: [names_counted] with an arbitrary function. *)
Definition names_ok (exact : bool) (m : gmap string (nat * Z)) (tot : nat -> Z) : Prop :=
  (forall n n' k rc rc', m !! n = Some (k, rc) -> m !! n' = Some (k, rc') -> n = n') /\
  (forall n k rc, m !! n = Some (k, rc) -> (1 <= k)%nat /\ 0 < rc /\ tot k <= rc /\ (exact = true -> rc = tot k)) /\
  (forall k, 0 <= tot k) /\ (forall k, 0 < tot k -> exists n rc, m !! n = Some (k, rc)).
Lemma names_ok_ext exact m tot tot' : names_ok exact m tot -> (forall k, tot k = tot' k) -> names_ok exact m tot'.
Proof.
  intros (H1 & H2 & H3 & H4) E. split; [done|]. split; [intros n k rc Hn; rewrite <- E; eauto|].
  split; [intros k; rewrite <- E; auto|]. intros k. rewrite <- E. auto.
Qed.
Lemma add_name_ok exact n s s' k tot : names_ok exact (names s) tot -> add_name n s = (s', k) ->
  names_ok exact (names s') (fun k' => tot k' + b2z (k' = k)) /\
  exists rc, names s' !! n = Some (k, rc) /\ s' = set_names (<[n := (k, rc)]> (names s)) s /\
    (forall rc0, names s !! n = Some rc0 -> rc0.1 = k).
Proof.
  intros (H1 & H2 & H3 & H4). unfold add_name. destruct (names s !! n) as [[k0 rc0]|] eqn:Hn; intros [= <- <-].
  - split; [|exists (rc0 + 1); cbn; rewrite lookup_insert; split; [done|]; split; [done|]; by intros ? [= <-]].
    cbn. destruct (H2 _ _ _ Hn) as (Hk & Hrc & Ht & He). split; [|split; [|split]].
    + intros n1 n2 k' rc1 rc2. destruct (decide (n = n1)) as [<-|Hn1], (decide (n = n2)) as [<-|Hn2]; try done;
        rewrite ?lookup_insert, ?lookup_insert_ne by done; intros E1 E2; simplify_eq; eauto.
    + intros n1 k' rc1. destruct (decide (n = n1)) as [<-|Hn1].
      * rewrite lookup_insert. intros [= <- <-]. rewrite b2z_true by done. split; [done|]. split; [lia|]. split; [lia|]. intros E. specialize (He E). lia.
      * rewrite lookup_insert_ne by done. intros E. destruct (H2 _ _ _ E) as (? & ? & ? & ?).
        rewrite b2z_false; [rewrite Z.add_0_r; auto|]. intros ->. apply Hn1. eauto.
    + intros k'. specialize (H3 k'). pose proof (b2z_pos (k' = k0)). lia.
    + intros k' Hk'. destruct (decide (k' = k0)) as [->|Hne]; [exists n; rewrite lookup_insert; eauto|].
      rewrite b2z_false in Hk' by done. destruct (H4 k') as (n' & rc' & Hn'); [lia|]. exists n'.
      rewrite lookup_insert_ne; [eauto|]. intros ->. congruence.
  - split; [|exists 1; cbn; rewrite lookup_insert; split; [done|]; split; [done|]; by intros ? [=]].
    cbn. set (k := S (max_id (names s))).
    assert (forall n' rc', names s !! n' <> Some (k, rc')) as Hfresh. { intros n' rc' E. apply max_id_le in E. unfold k in E. lia. }
    assert (tot k = 0) as Ht.
    { destruct (decide (0 < tot k)) as [Hp|]; [|specialize (H3 k); lia]. destruct (H4 k Hp) as (n' & rc' & E). by apply Hfresh in E. }
    split; [|split; [|split]].
    + intros n1 n2 k' rc1 rc2. destruct (decide (n = n1)) as [<-|Hn1], (decide (n = n2)) as [<-|Hn2]; try done;
        rewrite ?lookup_insert, ?lookup_insert_ne by done; intros E1 E2; simplify_eq; try (by apply Hfresh in E1); try (by apply Hfresh in E2). eauto.
    + intros n1 k' rc1. destruct (decide (n = n1)) as [<-|Hn1].
      * rewrite lookup_insert. intros [= <- <-]. rewrite b2z_true by done. rewrite Ht. split; [lia|]. split; [lia|]. split; lia.
      * rewrite lookup_insert_ne by done. intros E. destruct (H2 _ _ _ E) as (? & ? & ? & ?).
        rewrite b2z_false; [rewrite Z.add_0_r; auto|]. intros ->. by apply Hfresh in E.
    + intros k'. specialize (H3 k'). pose proof (b2z_pos (k' = k)). lia.
    + intros k' Hk'. destruct (decide (k' = k)) as [->|Hne]; [exists n; rewrite lookup_insert; eauto|].
      rewrite b2z_false in Hk' by done. destruct (H4 k') as (n' & rc' & Hn'); [lia|]. exists n'.
      rewrite lookup_insert_ne; [eauto|]. intros ->. congruence.
Qed.
Lemma del_name_ok exact n s s' k tot : names_ok exact (names s) tot -> del_name n s = Some (s', k) -> 0 < tot k ->
  names_ok exact (names s') (fun k' => tot k' - b2z (k' = k)) /\ s' = set_names (names s') s /\
  (exists rc, names s !! n = Some (k, rc)) /\ (forall n', n' <> n -> names s' !! n' = names s !! n') /\
  (forall x, names s' !! n = Some x -> x.1 = k) /\ (1 < tot k -> is_Some (names s' !! n)).
Proof.
  intros (H1 & H2 & H3 & H4). unfold del_name. destruct (names s !! n) as [[k0 rc0]|] eqn:Hn; [|done]. intros [= <- <-] Hpos.
  destruct (H2 _ _ _ Hn) as (Hk & Hrc & Ht & He). cbn. case_decide as Hgt.
  - split; [split; [|split; [|split]]|].
    + intros n1 n2 k' rc1 rc2. destruct (decide (n = n1)) as [<-|Hn1], (decide (n = n2)) as [<-|Hn2]; try done;
        rewrite ?lookup_insert, ?lookup_insert_ne by done; intros E1 E2; simplify_eq; eauto.
    + intros n1 k' rc1. destruct (decide (n = n1)) as [<-|Hn1].
      * rewrite lookup_insert. intros [= <- <-]. rewrite b2z_true by done. split; [done|]. split; [lia|]. split; [lia|]. intros E. specialize (He E). lia.
      * rewrite lookup_insert_ne by done. intros E. destruct (H2 _ _ _ E) as (? & ? & ? & ?).
        rewrite b2z_false; [rewrite Z.sub_0_r; auto|]. intros ->. apply Hn1. eauto.
    + intros k'. specialize (H3 k'). destruct (decide (k' = k0)) as [->|]; [rewrite b2z_true by done; lia|rewrite b2z_false by done; lia].
    + intros k' Hk'. destruct (decide (k' = k0)) as [->|Hne]; [exists n; rewrite lookup_insert; eauto|].
      rewrite b2z_false in Hk' by done. destruct (H4 k') as (n' & rc' & Hn'); [lia|]. exists n'.
      rewrite lookup_insert_ne; [eauto|]. intros ->. congruence.
    + split; [done|]. split; [by exists rc0|]. split; [intros n' Hne; by rewrite lookup_insert_ne|]. rewrite lookup_insert. split; [by intros x [= <-]|eauto].
  - assert (rc0 = 1) as -> by lia. assert (tot k0 = 1) as Ht1 by lia. split; [split; [|split; [|split]]|].
    + intros n1 n2 k' rc1 rc2 [_ E1]%lookup_delete_Some [_ E2]%lookup_delete_Some. eauto.
    + intros n1 k' rc1 [Hn1 E]%lookup_delete_Some. destruct (H2 _ _ _ E) as (? & ? & ? & ?).
      rewrite b2z_false; [rewrite Z.sub_0_r; auto|]. intros ->. apply Hn1. eauto.
    + intros k'. specialize (H3 k'). destruct (decide (k' = k0)) as [->|]; [rewrite b2z_true by done; lia|rewrite b2z_false by done; lia].
    + intros k' Hk'. destruct (decide (k' = k0)) as [->|Hne]; [rewrite b2z_true in Hk' by done; lia|].
      rewrite b2z_false in Hk' by done. destruct (H4 k') as (n' & rc' & Hn'); [lia|]. exists n', rc'.
      apply lookup_delete_Some. split; [|done]. intros ->. congruence.
    + split; [done|]. split; [by exists 1|]. split; [intros n' Hne; by rewrite lookup_delete_ne|]. rewrite lookup_delete. split; [by intros x|lia].
Qed.

Lemma names_counted_ok exact s : entries_resolve s ->
  (forall i k v, xattrs s !! (i, k) = Some v -> exists n rc, names s !! n = Some (k, rc)) ->
  names_counted exact s -> names_ok exact (names s) (uses s).
Proof.
  intros He Hx (H1 & H2). split; [done|]. split; [done|]. split; [intros k; unfold uses; pose proof (cnt_nonneg (fun kv : nat * nat * nat => kv.1.2 = k) (contents s)); pose proof (cnt_nonneg (fun kv : nat * nat * string => kv.1.2 = k) (xattrs s)); lia|].
  intros k Hk. unfold uses in Hk. destruct (decide (0 < cnt (fun kv => kv.1.2 = k) (contents s))) as [Hc|Hc].
  - destruct (cnt_pos_inv _ _ Hc) as ([p k'] & i & Hi & Ek). cbn in Ek. subst k'. by destruct (He _ _ _ Hi).
  - destruct (cnt_pos_inv (fun kv => kv.1.2 = k) (xattrs s)) as ([i k'] & v & Hi & Ek); [lia|]. cbn in Ek. subst k'. eauto.
Qed.
(** ... and back. *)
Lemma names_ok_counted exact s : names_ok exact (names s) (uses s) ->
  names_counted exact s /\ (forall p k i, contents s !! (p, k) = Some i -> exists n rc, names s !! n = Some (k, rc)) /\
  (forall i k v, xattrs s !! (i, k) = Some v -> exists n rc, names s !! n = Some (k, rc)).
Proof.
  intros (H1 & H2 & H3 & H4). split; [done|]. split.
  - intros p k i Hi. apply H4. unfold uses. pose proof (cnt_pos (fun kv : nat * nat * nat => kv.1.2 = k) _ _ _ Hi eq_refl).
    pose proof (cnt_nonneg (fun kv : nat * nat * string => kv.1.2 = k) (xattrs s)). lia.
  - intros p k i Hi. apply H4. unfold uses. pose proof (cnt_pos (fun kv : nat * nat * string => kv.1.2 = k) _ _ _ Hi eq_refl).
    pose proof (cnt_nonneg (fun kv : nat * nat * nat => kv.1.2 = k) (contents s)). lia.
Qed.

(** * Blocks *)
Lemma remove_blocks_lookup i a b s j c o : blocks (remove_blocks i a b s) !! (j, c) = Some o <->
  blocks s !! (j, c) = Some o /\ ~ (j = i /\ a <= Z.of_nat c < b).
Proof.
  unfold remove_blocks. cbn. rewrite lookup_difference_Some, map_filter_lookup_None. cbn. split.
  - intros [Hb Hf]. split; [done|]. intros Hx. destruct Hf as [Hf|Hf]; [congruence|]. by apply (Hf o).
  - intros [Hb Hf]. split; [done|]. right. naive_solver.
Qed.
Lemma objects_remove i a b s : objects_counted s -> objects_counted (remove_blocks i a b s).
Proof.
  intros [H1 H2]. set (Q := fun kv : nat * nat * nat => kv.1.1 = i /\ a <= Z.of_nat kv.1.2 < b).
  assert (forall o, cnt (fun kv => kv.2 = o) (blocks (remove_blocks i a b s)) = cnt (fun kv => kv.2 = o) (blocks s) - count_obj (filter Q (blocks s)) o) as Hc.
  { intros o. rewrite (cnt_split (fun kv : nat * nat * nat => kv.2 = o) Q (blocks s)).
    assert (blocks (remove_blocks i a b s) = filter (fun x => ~ Q x) (blocks s)) as ->.
    { apply map_eq. intros [j c]. apply option_eq. intros o'. rewrite remove_blocks_lookup, map_filter_lookup_Some. done. }
    unfold count_obj, cnt. lia. }
  assert (forall o, 0 <= count_obj (filter Q (blocks s)) o) as Hn by (intros; unfold count_obj; lia).
  assert (forall o, objects (remove_blocks i a b s) !! o = match objects s !! o with None => None | Some rc =>
    let rc' := rc - count_obj (filter Q (blocks s)) o in if decide (rc' <= 0 /\ 0 < count_obj (filter Q (blocks s)) o) then None else Some rc' end) as Ho.
  { intros o. unfold remove_blocks. cbn [objects set_blocks]. rewrite lookup_omap, map_lookup_imap. fold Q. by destruct (objects s !! o). }
  split.
  - intros o rc. rewrite Ho, Hc. destruct (objects s !! o) as [rc0|] eqn:E; [|done]. destruct (H1 _ _ E) as [-> Hp]. cbv zeta.
    case_decide as Hd; [done|]. intros [= <-]. specialize (Hn o). lia.
  - intros j c o [Hb Hx]%remove_blocks_lookup. rewrite Ho. destruct (H2 _ _ _ Hb) as [rc E]. rewrite E. destruct (H1 _ _ E) as [-> Hp]. cbv zeta.
    rewrite decide_False; [eauto|]. intros [Hle _].
    pose proof (cnt_pos (fun kv : nat * nat * nat => kv.2 = o) (blocks (remove_blocks i a b s)) (j, c) o) as Hpos.
    rewrite Hc in Hpos. specialize (Hpos (proj2 (remove_blocks_lookup _ _ _ _ _ _ _) (conj Hb Hx)) eq_refl). lia.
Qed.
Lemma objects_put i b o s : objects_counted s -> objects_counted (put_block i b o s).
Proof.
  intros Hs. unfold put_block. set (s1 := remove_blocks i (Z.of_nat b) (Z.of_nat b + 1) s).
  assert (objects_counted s1) as [H1 H2] by by apply objects_remove.
  assert (blocks s1 !! (i, b) = None) as Hnone.
  { destruct (blocks s1 !! (i, b)) as [o'|] eqn:E; [|done]. apply remove_blocks_lookup in E as [_ E]. destruct E. lia. }
  clearbody s1. split; cbn.
  - intros o' rc. rewrite cnt_insert_new by done. cbn. destruct (decide (o' = o)) as [->|Hne].
    + rewrite lookup_insert, b2z_true by done. intros [= <-]. destruct (objects s1 !! o) as [rc0|] eqn:E; cbn.
      * destruct (H1 _ _ E). lia.
      * rewrite cnt_none; [lia|]. intros [j c] o' Hb Eo. cbn in Eo. subst o'. destruct (H2 _ _ _ Hb). congruence.
    + rewrite lookup_insert_ne, b2z_false by congruence. intros E. destruct (H1 _ _ E). lia.
  - intros j c o'. destruct (decide ((i, b) = (j, c))) as [[= <- <-]|Hne].
    + rewrite lookup_insert. intros [= <-]. rewrite lookup_insert. eauto.
    + rewrite lookup_insert_ne by done. intros Hb. destruct (H2 _ _ _ Hb) as [rc E]. destruct (decide (o' = o)) as [->|].
      * rewrite lookup_insert. eauto.
      * rewrite lookup_insert_ne by done. eauto.
Qed.
Lemma put_block_lookup i b o s j c o' : blocks (put_block i b o s) !! (j, c) = Some o' <->
  (j = i /\ c = b /\ o' = o) \/ (blocks s !! (j, c) = Some o' /\ (j, c) <> (i, b)).
Proof.
  unfold put_block. cbn [blocks set_blocks]. rewrite lookup_insert_Some, remove_blocks_lookup. split.
  - intros [[[= <- <-] <-]|[Hne [Hb _]]]; [by left|]. right. naive_solver.
  - intros [(-> & -> & ->)|[Hb Hne]]; [by left|]. right. split; [congruence|]. split; [done|]. intros [-> ?]. apply Hne. f_equal. lia.
Qed.
