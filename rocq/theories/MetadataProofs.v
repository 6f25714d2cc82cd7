(** Proofs about [MetadataModel]. *)
From stdpp Require Import prelude list gmap sorting.
From Verif Require Import Files FilesFacts MetadataModel.

(** ** Selection of block versions *)

Definition sel (r : remote) (b t : nat) : option nat := first_le_than (versions r b) t.

Lemma first_le_rev_Some l t v :
  first_le_rev l t = Some v -> v ∈ l /\ v <= t /\
    exists l1 l2, l = l1 ++ v :: l2 /\ Forall (fun x => t < x) l1.
Proof.
  induction l as [|e l IH]; simpl; [done|]. case_decide.
  - intros [= ->]. split; [left|]. split; [done|]. exists [], l. done.
  - intros Hs. destruct (IH Hs) as (?&?&l1&l2&->&?). split; [by right|]. split; [done|].
    exists (e :: l1), l2. split; [done|]. constructor; [lia|done].
Qed.

Lemma first_le_rev_None l t : first_le_rev l t = None <-> Forall (fun x => t < x) l.
Proof.
  induction l as [|e l IH]; simpl; [done|]. case_decide.
  - split; [done|]. inversion 1; lia.
  - rewrite IH, Forall_cons. split; [split; [lia|done]|tauto].
Qed.

Lemma first_le_than_Some l t v :
  Sorted le l ->
  first_le_than l t = Some v -> v ∈ l /\ v <= t /\ forall v', v' ∈ l -> v' <= t -> v' <= v.
Proof.
  intros Hs Hf. apply first_le_rev_Some in Hf as (Hin&Hle&l1&l2&Heq&Hgt).
  rewrite elem_of_reverse in Hin. split; [done|]. split; [done|].
  assert (l = reverse l2 ++ v :: reverse l1) as ->.
  { rewrite <- (reverse_involutive l), Heq, reverse_app, reverse_cons, <- app_assoc. done. }
  intros v' Hv' Ht. apply elem_of_app in Hv' as [Hv'|Hv'].
  - apply Sorted_StronglySorted in Hs; [|intros ???; lia].
    apply elem_of_list_split in Hv' as (a&c&Hv').
    rewrite Hv' in Hs.
    clear -Hs. induction a as [|x a IH]; simpl in *.
    + inversion Hs as [|?? _ Hall]; subst. rewrite Forall_app, Forall_cons in Hall. tauto.
    + inversion Hs; subst; auto.
  - apply elem_of_cons in Hv' as [->|Hv']; [done|].
    rewrite elem_of_reverse in Hv'. rewrite Forall_forall in Hgt. specialize (Hgt _ Hv'). lia.
Qed.

Lemma first_le_than_None l t : first_le_than l t = None <-> forall v, v ∈ l -> t < v.
Proof.
  unfold first_le_than. rewrite first_le_rev_None, Forall_forall. setoid_rewrite elem_of_reverse.
  done.
Qed.

Lemma elem_of_versions r b v : v ∈ versions r b <-> is_Some (objs r !! (b, v)).
Proof.
  unfold versions. rewrite merge_sort_Permutation, elem_of_list_omap. split.
  - intros ([b' v']&Hin&Heq). simpl in Heq. case_decide; [|done]. simplify_eq.
    apply elem_of_list_fmap in Hin as ([k o]&Hk&Hin). simpl in Hk. subst k.
    apply elem_of_map_to_list in Hin. eauto.
  - intros [o Ho]. exists (b, v). simpl. rewrite decide_True by done. split; [|done].
    apply elem_of_list_fmap. exists (b, v, o). split; [done|]. by apply elem_of_map_to_list.
Qed.

Lemma sorted_versions r b : Sorted le (versions r b).
Proof. apply Sorted_merge_sort. intros ??; lia. Qed.

Lemma sel_Some r b t v :
  sel r b t = Some v <->
  is_Some (objs r !! (b, v)) /\ v <= t /\
  forall v', is_Some (objs r !! (b, v')) -> v' <= t -> v' <= v.
Proof.
  unfold sel. split.
  - intros H. apply first_le_than_Some in H; [|apply sorted_versions].
    setoid_rewrite elem_of_versions in H. done.
  - intros (Hin&Hle&Hmax). destruct (first_le_than (versions r b) t) as [w|] eqn:E.
    + apply first_le_than_Some in E; [|apply sorted_versions].
      setoid_rewrite elem_of_versions in E. destruct E as (?&?&Hmax').
      f_equal. apply Nat.le_antisymm; eauto.
    + rewrite first_le_than_None in E. apply elem_of_versions in Hin. specialize (E _ Hin). lia.
Qed.

Lemma sel_None r b t : sel r b t = None <-> forall v, is_Some (objs r !! (b, v)) -> t < v.
Proof.
  unfold sel. rewrite first_le_than_None. setoid_rewrite elem_of_versions. done.
Qed.

Lemma sel_exists r b t v : is_Some (objs r !! (b, v)) -> v <= t -> is_Some (sel r b t).
Proof.
  intros Hv Hle. destruct (sel r b t) eqn:E; [eauto|].
  rewrite sel_None in E. specialize (E _ Hv). lia.
Qed.

Lemma elem_of_block_nos r b : b ∈ block_nos r <-> exists v, is_Some (objs r !! (b, v)).
Proof.
  unfold block_nos. rewrite elem_of_elements, elem_of_list_to_set, elem_of_list_fmap. split.
  - intros ([[b' v] o]&->&Hin). apply elem_of_map_to_list in Hin. simpl. eauto.
  - intros (v&o&Ho). exists (b, v, o). split; [done|]. by apply elem_of_map_to_list.
Qed.

Lemma nodup_block_nos r : NoDup (block_nos r).
Proof. unfold block_nos. apply NoDup_elements. Qed.

(** ** Block arithmetic *)

Lemma nblocks_lt bs size b : 0 < bs -> b < nblocks bs size <-> b * bs < size.
Proof.
  intros Hbs. unfold nblocks.
  pose proof (Nat.div_mod size bs ltac:(lia)) as Hdm.
  pose proof (Nat.mod_upper_bound size bs ltac:(lia)) as Hub.
  case_decide as Hz; split; intros H; nia.
Qed.

Lemma elem_of_marked bs off len b :
  0 < bs -> 0 < len -> b ∈ marked bs off len <-> off < (b + 1) * bs /\ b * bs < off + len.
Proof.
  intros Hbs Hlen. unfold marked. cbv zeta. rewrite elem_of_list_to_set, elem_of_seq.
  pose proof (Nat.div_mod off bs ltac:(lia)) as H1.
  pose proof (Nat.mod_upper_bound off bs ltac:(lia)) as H2.
  pose proof (Nat.div_mod (off + len) bs ltac:(lia)) as H3.
  pose proof (Nat.mod_upper_bound (off + len) bs ltac:(lia)) as H4.
  assert (off / bs <= (off + len) / bs) as H5 by (apply Nat.div_le_mono; lia).
  case_decide as Hz; split; intros H; split; try nia.
Qed.

(** ** Download *)

(** The object selected for block [b] of version [t] has the bytes of [f]. *)
Definition good (bs : nat) (r : remote) (t b : nat) (f : file) : Prop :=
  exists v o, sel r b t = Some v /\ objs r !! (b, v) = Some o /\
    forall i, i < bs -> b * bs + i < length f -> byte_at o i = byte_at f (b * bs + i).

Definition small_objs (bs : nat) (r : remote) : Prop :=
  forall k o, objs r !! k = Some o -> length o <= bs.

Lemma dl_jobs_ok bs r p bl :
  (forall b, b ∈ bl -> b * bs < p_size p -> is_Some (sel r b (p_seq p))) ->
  exists js, dl_jobs bs r p bl = inr js /\
    js = omap (fun b => if decide (p_size p <= b * bs) then None
                        else (fun v => (b, v)) <$> sel r b (p_seq p)) bl.
Proof.
  induction bl as [|b bl IH]; intros Hall; simpl; [eauto|].
  destruct IH as (js&->&->).
  { intros b' Hin. apply Hall. by right. }
  case_decide as Hd; [eauto|].
  destruct (Hall b) as [v Hv]; [left|lia|]. unfold sel in *. rewrite Hv. eauto.
Qed.

Fixpoint vlookup (b : nat) (js : list (nat * nat)) : option nat :=
  match js with
  | [] => None
  | (b', v) :: js => if decide (b' = b) then Some v else vlookup b js
  end.

Lemma vlookup_Some b v js : vlookup b js = Some v -> (b, v) ∈ js.
Proof.
  induction js as [|[b' v'] js IH]; simpl; [done|]. case_decide.
  - intros [= ->]. subst. left.
  - intros. right. auto.
Qed.

Lemma vlookup_None b js : vlookup b js = None -> forall v, (b, v) ∉ js.
Proof.
  induction js as [|[b' v'] js IH]; simpl; intros Hn v; [apply not_elem_of_nil|].
  case_decide; [done|]. rewrite elem_of_cons. intros [?|?]; [simplify_eq|by eapply IH].
Qed.

Lemma dl_run_spec bs r js f0 :
  0 < bs -> small_objs bs r -> NoDup js.*1 ->
  (forall b v, (b, v) ∈ js -> is_Some (objs r !! (b, v))) ->
  exists f, dl_run bs r js f0 = inr f /\
    forall i, byte_at f i =
      match vlookup (i / bs) js with
      | Some v => match objs r !! (i / bs, v) with
                  | Some o => if decide (i mod bs < length o) then byte_at o (i mod bs)
                              else byte_at f0 i
                  | None => 0
                  end
      | None => byte_at f0 i
      end.
Proof.
  intros Hbs Hsmall. revert f0. induction js as [|[b v] js IH]; intros f0 Hnd Hall; simpl.
  { eauto. }
  destruct (Hall b v) as [o Ho]; [left|]. rewrite Ho.
  inversion Hnd as [|?? Hni Hnd']; subst.
  destruct (IH (fwrite (b * bs) o f0)) as (f&Hrun&Hf); [done| |].
  { intros ???. apply Hall. by right. }
  exists f. split; [done|]. intros i. rewrite Hf.
  pose proof (Nat.div_mod i bs ltac:(lia)) as H1.
  pose proof (Nat.mod_upper_bound i bs ltac:(lia)) as H2.
  pose proof (Hsmall _ _ Ho) as H3.
  destruct (decide (b = i / bs)) as [->|Hne].
  - rewrite Ho.
    assert (vlookup (i / bs) js = None) as ->.
    { destruct (vlookup (i / bs) js) as [v'|] eqn:E; [|done]. apply vlookup_Some in E.
      destruct Hni. apply elem_of_list_fmap. exists (i / bs, v'). done. }
    rewrite byte_at_fwrite. repeat case_decide; try nia; try done.
    f_equal. lia.
  -
    destruct (vlookup (i / bs) js) as [k|]; simpl.
    + assert (byte_at (fwrite (b * bs) o f0) i = byte_at f0 i) as ->; [|done].
      rewrite byte_at_fwrite, decide_False; [done|]. nia.
    + rewrite byte_at_fwrite, decide_False; [done|]. nia.
Qed.

Lemma download_ok hash bs r p bl f :
  0 < bs -> small_objs bs r -> bl ≡ₚ block_nos r ->
  p_size p = length f -> p_md5 p = hash f ->
  (forall b, b * bs < length f -> good bs r (p_seq p) b f) ->
  download_order hash bs r p bl = DlOk f.
Proof.
  intros Hbs Hsmall Hbl Hsize Hmd5 Hgood. unfold download_order.
  destruct (dl_jobs_ok bs r p bl) as (js&->&Hjs).
  { intros b _ Hb. rewrite Hsize in Hb. destruct (Hgood b Hb) as (v&o&Hv&_). eauto. }
  assert (NoDup js.*1) as Hnd.
  { assert (NoDup bl) as Hn by (rewrite Hbl; apply nodup_block_nos).
    assert (forall b v, (b, v) ∈ js -> b ∈ bl) as Hsub.
    { intros b v Hin. subst js. apply elem_of_list_omap in Hin as (b'&Hin&Heq).
      case_decide; [done|]. apply fmap_Some in Heq as (w&_&Heq). by simplify_eq. }
    clear Hbl. revert js Hjs Hsub. induction Hn as [|b bl Hni Hn IH]; intros js -> Hsub; simpl.
    { constructor. }
    assert (forall b' v, (b', v) ∈ omap (fun b => if decide (p_size p <= b * bs) then None
                        else (fun v => (b, v)) <$> sel r b (p_seq p)) bl -> b' ∈ bl) as Hsub'.
    { intros b' v Hin. apply elem_of_list_omap in Hin as (b''&Hin&Heq).
      case_decide; [done|]. apply fmap_Some in Heq as (w&_&Heq). by simplify_eq. }
    case_decide; [by apply IH|].
    destruct (sel r b (p_seq p)) as [v|]; simpl; [|by apply IH].
    constructor; [|by apply IH].
    intros Hin. apply elem_of_list_fmap in Hin as ([b' v']&Heq&Hin). simpl in Heq. subst b'.
    apply Hsub' in Hin. done. }
  assert (forall b v, (b, v) ∈ js -> sel r b (p_seq p) = Some v) as Hsel.
  { intros b v Hin. subst js. apply elem_of_list_omap in Hin as (b'&Hin&Heq).
    case_decide; [done|]. apply fmap_Some in Heq as (w&Hw&Heq). by simplify_eq. }
  assert (forall b, b * bs < length f -> exists v, (b, v) ∈ js) as Hcov.
  { intros b Hb. destruct (Hgood b Hb) as (v&o&Hv&Ho&_). exists v.
    subst js. apply elem_of_list_omap. exists b. split.
    - rewrite Hbl. apply elem_of_block_nos. eauto.
    - rewrite decide_False by lia. rewrite Hv. done. }
  clear Hjs. destruct (dl_run_spec bs r js []) as (g&->&Hg); [done..| |].
  { intros b v Hin. apply Hsel in Hin. apply sel_Some in Hin. tauto. }
  assert (ftrunc (p_size p) g = f) as ->.
  { apply file_ext; [by rewrite length_ftrunc|].
    rewrite length_ftrunc. intros i Hi. rewrite byte_at_ftrunc, decide_True by done.
    rewrite Hg.
    pose proof (Nat.div_mod i bs ltac:(lia)) as H1.
    pose proof (Nat.mod_upper_bound i bs ltac:(lia)) as H2.
    assert ((i / bs) * bs < length f) as Hb by nia.
    destruct (Hcov _ Hb) as (v&Hv).
    destruct (vlookup (i / bs) js) as [v'|] eqn:E.
    - apply vlookup_Some, Hsel in E. rename E into Hl.
      destruct (Hgood _ Hb) as (w&o&Hw&Ho&Hbytes). assert (v' = w) as -> by congruence.
      rewrite Ho.
      replace (byte_at f i) with (byte_at f (i / bs * bs + i mod bs)) by (f_equal; lia).
      rewrite <- Hbytes by lia.
      case_decide; [done|]. rewrite (byte_at_ge o) by lia. by destruct i.
    - by destruct (vlookup_None _ _ E v). }
  rewrite decide_True by done. done.
Qed.

(** ** Expiry *)

Lemma keep_blocks_spec bs r sq size bl acc acc' :
  keep_blocks bs r sq size bl acc = Some acc' ->
  (forall k, k ∈ acc' <-> k ∈ acc \/
     exists b v, k = (b, v) /\ b ∈ bl /\ b < nblocks bs size /\ sel r b sq = Some v) /\
  (forall b, b ∈ bl -> b < nblocks bs size -> is_Some (sel r b sq)).
Proof.
  revert acc. induction bl as [|b bl IH]; intros acc Hk; simpl in Hk.
  { simplify_eq. split.
    - intros k. split; [tauto|]. intros [?|(?&?&?&Hin&_)]; [done|]. by apply elem_of_nil in Hin.
    - intros ? Hin. by apply elem_of_nil in Hin. }
  case_decide as Hd.
  - apply IH in Hk as (H1&H2). split.
    + intros k. rewrite H1. split.
      * intros [?|(b'&v&?&?&?&?)]; [tauto|]. right. exists b', v. rewrite elem_of_cons. tauto.
      * intros [?|(b'&v&?&Hin&?&?)]; [tauto|]. apply elem_of_cons in Hin as [->|Hin]; [lia|].
        right. eauto 10.
    + intros b' Hin Hlt. apply elem_of_cons in Hin as [->|Hin]; [lia|]. auto.
  - fold (sel r b sq) in Hk. destruct (sel r b sq) as [v|] eqn:E; [|done].
    apply IH in Hk as (H1&H2). split.
    + intros k. rewrite H1, elem_of_union, elem_of_singleton. split.
      * intros [[->|?]|(b'&v'&?&?&?&?)]; [|tauto|].
        -- right. exists b, v. rewrite elem_of_cons. split_and!; auto; lia.
        -- right. exists b', v'. rewrite elem_of_cons. tauto.
      * intros [?|(b'&v'&->&Hin&?&?)]; [tauto|]. apply elem_of_cons in Hin as [->|Hin].
        -- left. left. congruence.
        -- right. eauto 10.
    + intros b' Hin Hlt. apply elem_of_cons in Hin as [->|Hin]; [eauto|]. auto.
Qed.

Lemma keep_blocks_Some bs r sq size bl acc :
  (forall b, b ∈ bl -> b < nblocks bs size -> is_Some (sel r b sq)) ->
  is_Some (keep_blocks bs r sq size bl acc).
Proof.
  revert acc. induction bl as [|b bl IH]; intros acc Hall; simpl; [eauto|].
  assert (forall b', b' ∈ bl -> b' < nblocks bs size -> is_Some (sel r b' sq)) as Hall'.
  { intros ??. apply Hall. by right. }
  case_decide; [by apply IH|].
  destruct (Hall b) as [v Hv]; [left|lia|]. unfold sel in Hv. rewrite Hv. by apply IH.
Qed.

Lemma keep_seqs_spec bs r sqs acc acc' :
  keep_seqs bs r sqs acc = Some acc' ->
  (forall k, k ∈ acc' <-> k ∈ acc \/
     exists q p b v, k = (b, v) /\ q ∈ sqs /\ prms r !! q = Some p /\ b ∈ block_nos r /\
       b < nblocks bs (p_size p) /\ sel r b q = Some v) /\
  (forall q, q ∈ sqs -> exists p, prms r !! q = Some p /\
    forall b, b ∈ block_nos r -> b < nblocks bs (p_size p) -> is_Some (sel r b q)).
Proof.
  revert acc. induction sqs as [|q sqs IH]; intros acc Hk; simpl in Hk.
  { simplify_eq. split.
    - intros k. split; [tauto|]. intros [?|(?&?&?&?&?&Hin&_)]; [done|]. by apply elem_of_nil in Hin.
    - intros ? Hin. by apply elem_of_nil in Hin. }
  destruct (prms r !! q) as [p|] eqn:Hp; [|done].
  destruct (keep_blocks _ _ _ _ _ _) as [acc1|] eqn:E; [|done].
  apply keep_blocks_spec in E as (H1&H2). apply IH in Hk as (H3&H4). split.
  - intros k. rewrite H3, H1. split.
    + intros [[?|(b&v&?&?&?&?)]|(q'&p'&b&v&?&?&?&?&?&?)]; [tauto| |].
      * right. exists q, p, b, v. rewrite elem_of_cons. tauto.
      * right. exists q', p', b, v. rewrite elem_of_cons. tauto.
    + intros [?|(q'&p'&b&v&?&Hin&?&?&?&?)]; [tauto|].
      apply elem_of_cons in Hin as [->|Hin].
      * left. right. assert (p' = p) as -> by congruence. eauto 10.
      * right. eauto 15.
  - intros q' Hin. apply elem_of_cons in Hin as [->|Hin]; [eauto|]. auto.
Qed.

Lemma keep_seqs_Some bs r sqs acc :
  (forall q, q ∈ sqs -> exists p, prms r !! q = Some p /\
    forall b, b ∈ block_nos r -> b < nblocks bs (p_size p) -> is_Some (sel r b q)) ->
  is_Some (keep_seqs bs r sqs acc).
Proof.
  revert acc. induction sqs as [|q sqs IH]; intros acc Hall; simpl; [eauto|].
  destruct (Hall q) as (p&->&Hp); [left|].
  destruct (keep_blocks_Some bs r q (p_size p) (block_nos r) acc) as [acc1 ->]; [done|].
  apply IH. intros ??. apply Hall. by right.
Qed.

Lemma elem_of_seqs r q : q ∈ seqs r <-> is_Some (prms r !! q).
Proof.
  unfold seqs. rewrite merge_sort_Permutation, elem_of_list_fmap. split.
  - intros ([q' p]&->&Hin). apply elem_of_map_to_list in Hin. eauto.
  - intros [p Hp]. exists (q, p). split; [done|]. by apply elem_of_map_to_list.
Qed.

Lemma seqs_split {A} n (l : list A) : but_last_n n l ++ last_n n l = l.
Proof. unfold but_last_n, last_n. case_decide; [done|]. apply take_drop. Qed.

Lemma nodup_seqs r : NoDup (seqs r).
Proof.
  unfold seqs. rewrite merge_sort_Permutation. apply NoDup_fst_map_to_list.
Qed.

Lemma expire_prms bs n r r' q :
  expire_objects bs n r = Some r' ->
  prms r' !! q = if decide (q ∈ last_n n (seqs r)) then prms r !! q else None.
Proof.
  unfold expire_objects. destruct (keep_seqs _ _ _ _) as [keep|]; [|done]. intros [= <-]. simpl.
  assert (NoDup (but_last_n n (seqs r) ++ last_n n (seqs r))) as Hnd.
  { rewrite seqs_split. apply nodup_seqs. }
  apply NoDup_app in Hnd as (_&Hdisj&_).
  case_decide as Hd.
  - destruct (prms r !! q) as [p|] eqn:E.
    + apply map_filter_lookup_Some. split; [done|]. simpl. intros Hin. by eapply Hdisj.
    + apply map_filter_lookup_None. by left.
  - apply map_filter_lookup_None. right. intros p Hp. simpl. intros Hn.
    apply Hn. destruct (elem_of_seqs r q) as [_ Hin].
    rewrite <- (seqs_split n (seqs r)) in Hin. rewrite elem_of_app in Hin. destruct Hin; eauto. done.
Qed.

Lemma expire_objs bs n r r' k :
  expire_objects bs n r = Some r' ->
  objs r' !! k = None \/ objs r' !! k = objs r !! k.
Proof.
  unfold expire_objects. destruct (keep_seqs _ _ _ _) as [keep|]; [|done]. intros [= <-]. simpl.
  destruct (filter _ (objs r) !! k) eqn:E; [|by left].
  apply map_filter_lookup_Some in E as (->&_). by right.
Qed.

(** The object a retained backup uses for a block in its range is the same before and after. *)
Lemma expire_sel bs n r r' q p b :
  0 < bs -> expire_objects bs n r = Some r' ->
  q ∈ last_n n (seqs r) -> prms r !! q = Some p -> b * bs < p_size p -> b ∈ block_nos r ->
  exists v o, sel r b q = Some v /\ sel r' b q = Some v /\
    objs r !! (b, v) = Some o /\ objs r' !! (b, v) = Some o.
Proof.
  intros Hbs Hexp Hq Hp Hb Hin.
  pose proof (expire_objs bs n r r') as Hsub.
  unfold expire_objects in Hexp.
  destruct (keep_seqs _ _ _ _) as [keep|] eqn:E; [|done].
  apply keep_seqs_spec in E as (Hkeep&Hsome).
  destruct (Hsome q Hq) as (p'&Hp'&Hs). assert (p' = p) as -> by congruence.
  assert (b < nblocks bs (p_size p)) as Hlt by (by apply nblocks_lt).
  destruct (Hs b Hin Hlt) as [v Hv].
  pose proof Hv as Hv'. apply sel_Some in Hv' as ([o Ho]&Hle&Hmax).
  assert (objs r' !! (b, v) = Some o) as Ho'.
  { simplify_eq. simpl. apply map_filter_lookup_Some. split; [done|]. simpl.
    apply Hkeep. right. exists q, p, b, v. done. }
  exists v, o. split_and!; [done| |done|done].
  apply sel_Some. split; [eauto|]. split; [done|].
  intros v' [o' Hv'] Hle'. apply Hmax; [|done].
  simplify_eq. simpl in Hv'. apply map_filter_lookup_Some in Hv' as (?&_). eauto.
Qed.

Lemma expire_Some bs n r :
  0 < bs ->
  (forall q p b, prms r !! q = Some p -> b * bs < p_size p ->
     exists v, v <= q /\ is_Some (objs r !! (b, v))) ->
  is_Some (expire_objects bs n r).
Proof.
  intros Hbs HK. unfold expire_objects.
  destruct (keep_seqs_Some bs r (last_n n (seqs r)) ∅) as [keep ->]; [|eauto].
  intros q Hq. assert (q ∈ seqs r) as Hq'.
  { rewrite <- (seqs_split n (seqs r)). apply elem_of_app. by right. }
  apply elem_of_seqs in Hq' as [p Hp]. exists p. split; [done|].
  intros b _ Hlt. apply nblocks_lt in Hlt; [|done].
  destruct (HK _ _ _ Hp Hlt) as (v&Hle&Hv). by eapply sel_exists.
Qed.

(** Expired objects: only what some retained backup uses is left. *)
Lemma expire_minimal bs n r r' b v :
  0 < bs -> expire_objects bs n r = Some r' ->
  is_Some (objs r' !! (b, v)) ->
  exists q p, prms r' !! q = Some p /\ b * bs < p_size p /\ sel r b q = Some v.
Proof.
  intros Hbs Hexp [o Ho].
  assert (forall q, prms r' !! q = if decide (q ∈ last_n n (seqs r)) then prms r !! q else None)
    as Hprms by (intros; by eapply expire_prms).
  unfold expire_objects in Hexp.
  destruct (keep_seqs _ _ _ _) as [keep|] eqn:E; [|done].
  apply keep_seqs_spec in E as (Hkeep&_).
  injection Hexp as <-. simpl in Ho.
  apply map_filter_lookup_Some in Ho as (_&Hk). simpl in Hk. apply Hkeep in Hk.
  destruct Hk as [Hk|(q&p&b'&v'&Heq&Hq&Hp&_&Hlt&Hsel)]; [set_solver|].
  simplify_eq. exists q, p. split_and!; [|by apply nblocks_lt|done].
  rewrite Hprms, decide_True; done.
Qed.
