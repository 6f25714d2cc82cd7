(** fsck finds missing and spurious objects by their names (C65). *)
From stdpp Require Import prelude gmap.
From Coq Require Import ZArith String.
From Verif Require Import Decimal CodecModel ConfigModel ConfigProps ObjIdModel.
Local Close Scope string_scope.
Local Close Scope N_scope.
Local Open Scope nat_scope.
Local Open Scope list_scope.

Lemma digit_of d : 48 <= d <= 57 -> digit (N.of_nat d) = Some (Z.of_nat (d - 48)).
Proof. intros H. unfold digit. rewrite decide_True by lia. f_equal. lia. Qed.
Lemma int_body_digits l acc : (forall c, c ∈ l -> 48 <= c <= 57) -> int_body (Z.of_nat acc) (N.of_nat <$> l) = Some (Z.of_nat (fold_left (fun a d => 10 * a + (d - 48)) l acc)).
Proof.
  revert acc. induction l as [|d l IH]; intros acc H; [done|]. rewrite fmap_cons. cbn [int_body fold_left]. rewrite digit_of by (apply H; left).
  rewrite <- IH by (intros c Hc; apply H; by right). f_equal. lia.
Qed.
Lemma dec_nonempty n : dec n <> [].
Proof. unfold dec. cbn [dec_fuel]. case_decide; [done|]. by intros [_ [=]]%app_eq_nil. Qed.
Lemma int_digits n : int_unsigned (digits n) = Some (Z.of_nat n).
Proof.
  unfold digits, int_unsigned. pose proof (dec_val n) as Hv. pose proof (dec_digits n) as Hd. pose proof (dec_nonempty n) as Hn. destruct (dec n) as [|d l]; [done|]. rewrite fmap_cons.
  rewrite digit_of by (apply Hd; left). rewrite int_body_digits by (intros c Hc; apply Hd; by right). unfold val in Hv. cbn [fold_left] in Hv. rewrite <- Hv. repeat f_equal.
Qed.
Lemma digit_not_space d : 48 <= d <= 57 -> is_space (N.of_nat d) = false.
Proof.
  intros H. assert (d = 48 \/ d = 49 \/ d = 50 \/ d = 51 \/ d = 52 \/ d = 53 \/ d = 54 \/ d = 55 \/ d = 56 \/ d = 57) as [->|[->|[->|[->|[->|[->|[->|[->|[->| ->]]]]]]]]] by lia; by vm_compute.
Qed.
Lemma lstrip_none s : (forall c, c ∈ s -> is_space c = false) -> lstrip_space s = s.
Proof. destruct s as [|c s]; [done|]. intros H. cbn. by rewrite H by left. Qed.
Lemma strip_none s : (forall c, c ∈ s -> is_space c = false) -> strip s = s.
Proof. intros H. unfold strip. rewrite (lstrip_none s) by done. rewrite lstrip_none by (intros c Hc; apply H; by rewrite <- elem_of_reverse). apply reverse_involutive. Qed.
Lemma digits_chars n c : c ∈ digits n -> exists d, c = N.of_nat d /\ 48 <= d <= 57.
Proof. unfold digits. intros (d & -> & Hd)%elem_of_list_fmap. exists d. split; [done|]. by eapply dec_digits. Qed.
(** The number of an object is read back from its name. *)
Theorem int_of_decimal z : int_of (zdec z) = Some z.
Proof.
  assert (forall n c, c ∈ digits n -> is_space c = false) as Hs by (intros n c (d & -> & Hd)%digits_chars; by apply digit_not_space).
  assert (forall n, int_of (digits n) = Some (Z.of_nat n)) as Hn.
  { intros n. unfold int_of. rewrite (strip_none (digits n)) by apply Hs. pose proof (int_digits n) as Hi. destruct (digits n) as [|c l] eqn:E; [done|].
    assert (c ∈ digits n) as Hc by (rewrite E; left). apply digits_chars in Hc as (d & -> & Hd).
    assert (d = 48 \/ d = 49 \/ d = 50 \/ d = 51 \/ d = 52 \/ d = 53 \/ d = 54 \/ d = 55 \/ d = 56 \/ d = 57) as [->|[->|[->|[->|[->|[->|[->|[->|[->| ->]]]]]]]]] by lia; exact Hi. }
  destruct z as [|p|p].
  - exact (Hn 0).
  - unfold zdec. rewrite Hn. f_equal. lia.
  - unfold zdec, int_of. rewrite strip_none; [|intros c [->|Hc]%elem_of_cons; [done|by apply Hs in Hc]]. rewrite int_digits. cbn [fmap option_fmap option_map]. f_equal. lia.
Qed.
Theorem object_id_name z : object_id (object_name z) = Some z.
Proof. unfold object_id, object_name. rewrite (drop_app_ge DATA) by (vm_compute; lia). change (10 - List.length DATA) with 0. rewrite drop_0. apply int_of_decimal. Qed.
Theorem object_name_inj a b : object_name a = object_name b -> a = b.
Proof. intros H. apply (f_equal object_id) in H. rewrite !object_id_name in H. by injection H. Qed.

(** Specification. A listing without names of other origin that read as numbers: every name that reads as a number is the name of that number. *)
Definition canonical (l : list text) : Prop := forall k z, k ∈ l -> object_id k = Some z -> k = object_name z /\ int64 z.

Lemma seen_spec l seen seen' : seen_ids l seen = Some seen' -> forall z, z ∈ seen' <-> z ∈ seen \/ exists k, k ∈ l /\ object_id k = Some z.
Proof.
  revert seen. induction l as [|k l IH]; intros seen; cbn [seen_ids].
  - intros [= <-] z. split; [by left|]. intros [H|(k & ?%elem_of_nil & _)]; done.
  - destruct (object_id k) as [z0|] eqn:E.
    + destruct (decide _); [|done]. intros H z. rewrite (IH _ H), elem_of_union, elem_of_singleton. split.
      * intros [[->|Hz]|(k' & Hk & Ek)]; [right; exists k; split; [left|done]|by left|right; exists k'; split; [by right|done]].
      * intros [Hz|(k' & [->|Hk]%elem_of_cons & Ek)]; [left; by right| |right; by exists k']. rewrite E in Ek. injection Ek as ->. left. by left.
    + intros H z. rewrite (IH _ H). split; [intros [Hz|(k' & Hk & Ek)]; [by left|right; exists k'; split; [by right|done]]|].
      intros [Hz|(k' & [->|Hk]%elem_of_cons & Ek)]; [by left|congruence|right; by exists k'].
Qed.
Lemma seen_defined l seen : canonical l -> NoDup l -> (forall k z, k ∈ l -> object_id k = Some z -> z ∉ seen) -> is_Some (seen_ids l seen).
Proof.
  revert seen. induction l as [|k l IH]; intros seen Hc Hd Hs; cbn [seen_ids]; [done|]. apply NoDup_cons in Hd as [Hn Hd].
  assert (canonical l) as Hc' by (intros k' z Hk; apply Hc; by right).
  destruct (object_id k) as [z|] eqn:E; [|apply IH; [done..|]; intros k' z' Hk; apply Hs; by right].
  destruct (Hc k z) as [Ek Hz]; [left|done|]. rewrite decide_True by (split; [done|]; by apply (Hs k); [left|]). apply IH; [done..|].
  intros k' z' Hk Ez. rewrite elem_of_union, elem_of_singleton. intros [->|F].
  - apply Hn. destruct (Hc k' z) as [-> _]; [by right|done|]. by rewrite Ek.
  - by apply (Hs k' z'); [right|..].
Qed.

(** C65. If no foreign name reads as a number, the check completes; a row is kept exactly if the backend has its object (even if the listing does not
    show it yet); exactly the listed objects without row are deleted, everything else stays; and an error is reported exactly if a row was removed or an
    object was deleted that the check of the cache has not unlinked. *)
Theorem check_ids_exact unlinked l objects keys : canonical l -> NoDup l -> (forall k, k ∈ l -> k ∈ keys) ->
  exists objects' keys' found, check_ids unlinked l objects keys = Some (objects', keys', found) /\
  (forall z, z ∈ objects' <-> z ∈ objects /\ object_name z ∈ keys) /\
  (forall k, k ∈ keys' <-> k ∈ keys /\ ~ exists z, k = object_name z /\ k ∈ l /\ z ∉ objects) /\
  (found = true <-> (exists z, z ∈ objects /\ object_name z ∉ keys) \/ exists z, object_name z ∈ l /\ z ∉ objects /\ z ∉ unlinked).
Proof.
  intros Hc Hd Hl. destruct (seen_defined l ∅ Hc Hd) as [seen Hs]; [intros; apply not_elem_of_empty|].
  assert (forall z, z ∈ seen <-> object_name z ∈ l) as Hseen.
  { intros z. rewrite (seen_spec _ _ _ Hs). split.
    - intros [?%elem_of_empty|(k & Hk & E)]; [done|]. destruct (Hc k z Hk E) as [-> _]. done.
    - intros H. right. exists (object_name z). split; [done|]. apply object_id_name. }
  unfold check_ids. rewrite Hs. cbn [mbind option_bind]. do 3 eexists. split; [done|].
  set (gone := set_map object_name (seen ∖ objects) : gset text).
  assert (forall k, k ∈ gone <-> exists z, k = object_name z /\ k ∈ l /\ z ∉ objects) as Hg.
  { intros k. unfold gone. rewrite elem_of_map. split.
    - intros (z & -> & [H1 H2]%elem_of_difference). exists z. split_and!; [done|by apply Hseen|done].
    - intros (z & -> & H1 & H2). exists z. split; [done|]. apply elem_of_difference. split; [by apply Hseen|done]. }
  set (missing := filter (fun z => object_name z ∉ keys ∖ gone) (objects ∖ seen)).
  assert (forall z, z ∈ missing <-> z ∈ objects /\ object_name z ∉ keys) as Hm.
  { intros z. unfold missing. rewrite elem_of_filter, !elem_of_difference, Hg, Hseen. split.
    - intros (H1 & H2 & H3). split; [done|]. intros F. apply H1. split; [done|]. intros (z' & E & Hin & _). by apply H3.
    - intros (H1 & H2). split_and!; [by intros [? _]|done|]. intros F. by apply H2, Hl. }
  split_and!.
  - intros z. rewrite elem_of_difference, Hm. split.
    + intros [H1 H2]. split; [done|]. destruct (decide (object_name z ∈ keys)) as [?|H]; [done|]. by destruct H2.
    + intros [H1 H2]. split; [done|]. by intros [_ ?].
  - intros k. by rewrite elem_of_difference, Hg.
  - rewrite orb_true_iff, !bool_decide_eq_true. split.
    + intros [F|F].
      * apply set_choose_L in F as [z ([H3 H4] & [H1 H2]%elem_of_difference)%elem_of_filter]. right. exists z. split_and!; [by apply Hseen|done|done].
      * left. apply set_choose_L in F as [z Hz]. exists z. by apply Hm.
    + intros [(z & Hz)|(z & H1 & H2 & H3)].
      * right. intros F. apply Hm in Hz. rewrite F in Hz. by apply not_elem_of_empty in Hz.
      * left. assert (z ∈ filter (fun z => z ∉ unlinked /\ object_name z ∈ keys) (seen ∖ objects)) as F; [|intros G; rewrite G in F; by apply not_elem_of_empty in F].
        apply elem_of_filter. split; [split; [done|by apply Hl]|]. apply elem_of_difference. split; [by apply Hseen|done].
Qed.
(** A foreign name that reads as the number of a lost object hides the loss: the row stays and no error is reported. *)
Theorem alias_hides_refuted : exists l, NoDup l /\ object_name 1 ∉ l /\ check_ids ∅ l {[ 1%Z ]} (list_to_set l) = Some ({[ 1%Z ]}, list_to_set l, false).
Proof. exists [lit "s3ql_data_01"%string]. split_and!; [apply NoDup_singleton|rewrite elem_of_list_singleton; intros F; by vm_compute in F|].
  set (r := check_ids _ _ _ _). assert (match r with Some (o, k, f) => bool_decide (o = {[ 1%Z ]}) && bool_decide (k = list_to_set [lit "s3ql_data_01"%string]) && negb f | None => false end = true) as H by (by vm_compute).
  destruct r as [[[o k] f]|]; [|done]. apply andb_true_iff in H as [[->%bool_decide_eq_true ->%bool_decide_eq_true]%andb_true_iff Hf]. by destruct f.
Qed.
(** Beside the object itself, it ends the check with an exception; so does a number of more than 64 bits. *)
Theorem alias_crash_refuted unlinked objects keys :
  check_ids unlinked [object_name 1; lit "s3ql_data_01"%string] objects keys = None /\
  check_ids unlinked [lit "s3ql_data_9223372036854775808"%string] objects keys = None.
Proof. split; by vm_compute. Qed.

Example ex_canonical : canonical [object_name 1; object_name 20; lit "s3ql_data_tmp"%string; object_name 7].
Proof.
  intros k z Hk. repeat (apply elem_of_cons in Hk as [->|Hk]).
  - rewrite object_id_name. intros [= <-]. split; [done|]. by apply (bool_decide_unpack _).
  - rewrite object_id_name. intros [= <-]. split; [done|]. by apply (bool_decide_unpack _).
  - by intros F; vm_compute in F.
  - rewrite object_id_name. intros [= <-]. split; [done|]. by apply (bool_decide_unpack _).
  - by apply elem_of_nil in Hk.
Qed.
Example ex_check : match check_ids ∅ [object_name 1; object_name 20; lit "s3ql_data_tmp"%string; object_name 7] {[ 1; 20; 30; 40 ]}%Z
    {[ object_name 1; object_name 20; lit "s3ql_data_tmp"%string; object_name 7; object_name 40 ]} with
  | Some (o, k, f) => bool_decide (o = {[ 1; 20; 40 ]}%Z) && f && (size k =? 4) | None => false end = true.
Proof. by vm_compute. Qed.

Print Assumptions int_of_decimal. Print Assumptions object_id_name. Print Assumptions object_name_inj. Print Assumptions check_ids_exact.
Print Assumptions alias_hides_refuted. Print Assumptions alias_crash_refuted.
