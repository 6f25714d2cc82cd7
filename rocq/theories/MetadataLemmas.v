(** The lemmas that MetadataProps restates. *)
From stdpp Require Import prelude list gmap sorting.
From Verif Require Import Files FilesFacts MetadataModel MetadataSpec MetadataProofs MetadataInv.

Lemma run_app hash bs s es1 es2 :
  run hash bs s (es1 ++ es2) =
  match run hash bs s es1 with Some s' => run hash bs s' es2 | None => None end.
Proof.
  revert s. induction es1 as [|e es1 IH]; intros s; simpl; [done|].
  destruct (step hash bs s e); [apply IH|done].
Qed.

Lemma backup_restores_exactly_lemma
  (hash : file -> list byte) bs sq f0 es1 s1 s2 es2 s3 p bl :
    0 < bs ->
    run hash bs (init sq f0) es1 = Some s1 -> run_hole_free hash bs (init sq f0) es1 ->
    st_final s1 = true -> step hash bs s1 EFinish = Some s2 ->
    run hash bs s2 es2 = Some s3 -> run_hole_free hash bs s2 es2 ->
    prms (st_remote s3) !! p_seq (st_params s1) = Some p ->
    bl ≡ₚ block_nos (st_remote s3) ->
    download_order hash bs (st_remote s3) p bl = DlOk (db_data (st_db s1)).
Proof.
  intros Hbs Hr1 Hh1 Hf Hs Hr2 Hh2 Hp Hbl.
  destruct (inv_run hash bs Hbs _ _ _ _ (inv_init hash bs sq f0) Hh1 Hr1) as (sn1&HI1&_).
  destruct (inv_step hash bs Hbs _ _ _ _ HI1 (I : hole_free bs s1 EFinish) Hs) as (sn2&HI2&_&Hsn).
  specialize (Hsn eq_refl Hf).
  destruct (inv_run hash bs Hbs _ _ _ _ HI2 Hh2 Hr2) as (sn3&HI3&Hsub).
  eapply lookup_weaken in Hsn; [|exact Hsub].
  destruct (i_snaps _ _ _ _ HI3 _ _ Hsn) as (_&Hall).
  destruct (Hall _ Hp) as (Hsz&Hmd&Hg).
  destruct (i_prms _ _ _ _ HI3 _ _ Hp) as (Hseq&_).
  apply download_ok; try done.
  - by eapply inv_small.
  - intros b Hb. rewrite Hseq. by apply Hg.
Qed.

Lemma step_prms hash bs s e s' q p :
  step hash bs s e = Some s' -> q < p_seq (st_params s) ->
  p_seq (st_params s) <= p_seq (st_params s') /\
  (prms (st_remote s') !! q = Some p -> prms (st_remote s) !! q = Some p).
Proof.
  intros Hs Hq. destruct e; simpl in Hs; repeat (case_match || case_decide); simplify_eq; simpl; auto.
  - split; [lia|]. rewrite !lookup_insert_ne by lia. done.
  - split; [done|]. erewrite expire_prms by done. case_decide; done.
  - split; [lia|]. rewrite !lookup_insert_ne by lia. done.
Qed.

Lemma run_prms hash bs s es s' q p :
  run hash bs s es = Some s' -> q < p_seq (st_params s) ->
  prms (st_remote s') !! q = Some p -> prms (st_remote s) !! q = Some p.
Proof.
  revert s. induction es as [|e es IH]; intros s Hr Hq; simpl in Hr; [by simplify_eq|].
  destruct (step hash bs s e) as [s1|] eqn:Hs; [|done].
  intros Hp. destruct (step_prms _ _ _ _ _ q p Hs Hq) as (Hle&Himp). apply Himp.
  eapply IH; [done|lia|done].
Qed.

Lemma download_never_wrong_lemma
  (hash : file -> list byte) bs s0 es1 s1 s2 es2 s3 p bl f :
    run hash bs s0 es1 = Some s1 ->
    st_final s1 = true -> step hash bs s1 EFinish = Some s2 ->
    run hash bs s2 es2 = Some s3 ->
    prms (st_remote s3) !! p_seq (st_params s1) = Some p ->
    download_order hash bs (st_remote s3) p bl = DlOk f ->
    f = db_data (st_db s1) \/ (f <> db_data (st_db s1) /\ hash f = hash (db_data (st_db s1))).
Proof.
  intros _ Hf Hs Hr Hp Hd.
  assert (p_md5 p = hash (db_data (st_db s1))) as Hmd.
  { simpl in Hs. rewrite Hf in Hs. repeat case_match; simplify_eq.
    eapply run_prms in Hp; [|done|simpl; lia]. simpl in Hp.
    rewrite lookup_insert_ne in Hp by lia. rewrite lookup_insert in Hp. by simplify_eq. }
  assert (hash f = p_md5 p) as Hh.
  { unfold download_order in Hd. repeat case_match; simplify_eq. done. }
  destruct (decide (f = db_data (st_db s1))); [by left|]. right. split; [done|]. congruence.
Qed.

Lemma dl_jobs_perm_fail bs r p bl b :
  dl_jobs bs r p bl = inl b -> b ∈ bl /\ b * bs < p_size p /\ sel r b (p_seq p) = None.
Proof.
  revert b. induction bl as [|b' bl IH]; intros b Hd; simpl in Hd; [done|].
  case_decide.
  - destruct (IH _ Hd) as (?&?). split; [by right|done].
  - fold (sel r b' (p_seq p)) in Hd. destruct (sel r b' (p_seq p)) eqn:E.
    + destruct (dl_jobs bs r p bl) eqn:E'; [|done]. simplify_eq.
      destruct (IH _ eq_refl) as (?&?). split; [by right|done].
    + simplify_eq. split; [left|]. split; [lia|done].
Qed.

(** What a successful download assembles, as a function of the selected objects. *)
Definition assembled (bs : nat) (r : remote) (p : params) (i : nat) : byte :=
  match sel r (i / bs) (p_seq p) with
  | Some v => match objs r !! (i / bs, v) with
              | Some o => byte_at o (i mod bs)
              | None => 0
              end
  | None => 0
  end.

Lemma download_assembled hash bs r p bl :
  0 < bs -> small_objs bs r -> bl ≡ₚ block_nos r ->
  (forall b, b ∈ bl -> b * bs < p_size p -> is_Some (sel r b (p_seq p))) ->
  exists f, length f = p_size p /\
    (forall i, i < p_size p -> byte_at f i = assembled bs r p i) /\
    download_order hash bs r p bl = if decide (hash f = p_md5 p) then DlOk f else DlChecksum.
Proof.
  intros Hbs Hsmall Hbl Hsome.
  set (f := map (assembled bs r p) (seq 0 (p_size p))).
  assert (length f = p_size p) as Hlen by (unfold f; by rewrite map_length, seq_length).
  assert (forall i, i < p_size p -> byte_at f i = assembled bs r p i) as Hf.
  { intros i Hi. unfold f, byte_at.
    rewrite (nth_indep _ 0 (assembled bs r p 0)) by (rewrite map_length, seq_length; lia).
    rewrite map_nth, seq_nth by done. done. }
  exists f. split; [done|]. split; [done|].
  (* run the same download with the checksum of [f] *)
  set (p' := Params (p_seq p) (p_size p) (hash f)).
  destruct (dl_jobs_ok bs r p bl Hsome) as (js&Hjs&Hjs').
  unfold download_order. rewrite Hjs.
  assert (forall b v, (b, v) ∈ js -> sel r b (p_seq p) = Some v /\ b ∈ bl) as Hsel.
  { intros b v Hin. subst js. apply elem_of_list_omap in Hin as (b'&Hin&Heq).
    case_decide; [done|]. apply fmap_Some in Heq as (w&Hw&Heq). by simplify_eq. }
  assert (NoDup js.*1) as Hnd.
  { assert (NoDup bl) as Hn by (rewrite Hbl; apply nodup_block_nos).
    subst js. clear -Hn. induction Hn as [|b bl Hni Hn IH]; simpl; [constructor|].
    case_decide; [done|].
    destruct (sel r b (p_seq p)) as [v|]; simpl; [|done]. constructor; [|done].
    intros Hin. apply Hni. apply elem_of_list_fmap in Hin as ([b' v']&->&Hin).
    apply elem_of_list_omap in Hin as (b''&Hin&Heq). case_decide; [done|].
    apply fmap_Some in Heq as (w&Hw&Heq). by simplify_eq. }
  destruct (dl_run_spec bs r js []) as (g&Hg&Hgb); [done..| |].
  { intros b v Hin. destruct (Hsel b v Hin) as (Hs&_). apply sel_Some in Hs. tauto. }
  rewrite Hg. assert (ftrunc (p_size p) g = f) as ->; [|done].
  apply file_ext; [by rewrite length_ftrunc|]. rewrite length_ftrunc. intros i Hi.
  rewrite byte_at_ftrunc, decide_True by done. rewrite Hf by done. rewrite Hgb. unfold assembled.
  pose proof (Nat.div_mod i bs ltac:(lia)) as H1.
  pose proof (Nat.mod_upper_bound i bs ltac:(lia)) as H2.
  destruct (vlookup (i / bs) js) as [v|] eqn:E.
  - apply vlookup_Some in E. destruct (Hsel _ _ E) as (Hs&_). rewrite Hs.
    destruct (objs r !! (i / bs, v)) as [o|] eqn:Ho; [|done].
    case_decide; [done|]. rewrite (byte_at_ge o) by lia. by destruct i.
  - destruct (sel r (i / bs) (p_seq p)) as [v|] eqn:Es; [|by destruct i].
    exfalso. apply (vlookup_None _ _ E v). subst js. apply elem_of_list_omap.
    exists (i / bs). split.
    + rewrite Hbl. apply elem_of_block_nos. apply sel_Some in Es. naive_solver.
    + rewrite decide_False by nia. by rewrite Es.
Qed.

Lemma expire_preserves_backups_lemma (hash : file -> list byte) bs n r r' q p bl bl' :
    0 < bs -> (forall k o, objs r !! k = Some o -> length o <= bs) ->
    (forall q p, prms r !! q = Some p -> p_seq p = q) ->
    expire_objects bs n r = Some r' ->
    prms r' !! q = Some p -> bl ≡ₚ block_nos r -> bl' ≡ₚ block_nos r' ->
    prms r !! q = Some p /\
    download_order hash bs r' p bl' = download_order hash bs r p bl.
Proof.
  intros Hbs Hsmall Hseq He Hp Hbl Hbl'.
  pose proof Hp as Hp'. rewrite (expire_prms _ _ _ _ _ He) in Hp'.
  case_decide as Hin; [|done]. split; [done|].
  assert (small_objs bs r') as Hsmall'.
  { intros k o Ho. destruct (expire_objs _ _ _ _ k He) as [E|E]; [congruence|]. apply (Hsmall k). congruence. }
  pose proof (Hseq _ _ Hp') as Hq.
  assert (forall b, b ∈ bl -> b * bs < p_size p -> is_Some (sel r b (p_seq p))) as H1.
  { intros b Hb Hlt. rewrite Hbl in Hb. rewrite Hq.
    destruct (expire_sel _ _ _ _ _ _ b Hbs He Hin Hp' Hlt Hb) as (v&o&?&_). eauto. }
  assert (forall b, b ∈ block_nos r' -> b ∈ block_nos r) as Hsub.
  { intros b. rewrite !elem_of_block_nos. intros (v&o&Ho). exists v.
    destruct (expire_objs _ _ _ _ (b, v) He) as [?|<-]; [congruence|]. eauto. }
  assert (forall b, b ∈ bl' -> b * bs < p_size p -> is_Some (sel r' b (p_seq p))) as H2.
  { intros b Hb Hlt. rewrite Hbl' in Hb. rewrite Hq.
    destruct (expire_sel _ _ _ _ _ _ b Hbs He Hin Hp' Hlt (Hsub _ Hb)) as (v&o&_&?&_). eauto. }
  destruct (download_assembled hash bs r p bl Hbs Hsmall Hbl H1) as (f&Hl&Hf&->).
  destruct (download_assembled hash bs r' p bl' Hbs Hsmall' Hbl' H2) as (f'&Hl'&Hf'&->).
  assert (f' = f) as ->; [|done].
  apply file_ext; [congruence|]. intros i Hi. rewrite Hf, Hf' by lia. unfold assembled.
  pose proof (Nat.div_mod i bs ltac:(lia)) as Hdm.
  destruct (decide (i / bs ∈ block_nos r)) as [Hb|Hb].
  - destruct (expire_sel bs n r r' q p (i / bs)) as (v&o&Hv&Hv'&Ho&Ho'); [done..|nia|done|].
    rewrite Hq, Hv, Hv', Ho, Ho'. done.
  - assert (sel r (i / bs) (p_seq p) = None) as ->.
    { apply sel_None. intros v Hv. destruct Hb. apply elem_of_block_nos. eauto. }
    assert (sel r' (i / bs) (p_seq p) = None) as ->; [|done].
    apply sel_None. intros v Hv. destruct Hb. apply Hsub. apply elem_of_block_nos. eauto.
Qed.

Lemma sorted_drop_count (l : list nat) k q :
  Sorted le l -> NoDup l -> q ∈ l ->
  (q ∈ drop (length l - k) l <-> length (filter (fun q' => q < q') l) < k).
Proof.
  intros Hs Hnd Hq. apply Sorted_StronglySorted in Hs; [|intros ???; lia].
  apply elem_of_list_split in Hq as (l1&l2&->).
  assert (Forall (fun x => x < q) l1 /\ Forall (fun x => q < x) l2) as (H1&H2).
  { clear k. induction l1 as [|x l1 IH]; simpl in *.
    - inversion Hs as [|?? _ Hall]; subst. inversion Hnd as [|?? Hni _]; subst. split; [constructor|].
      rewrite Forall_forall in *. intros x Hx. specialize (Hall x Hx).
      assert (q <> x) by (intros ->; done). lia.
    - inversion Hs as [|?? Hs' Hall]; subst. inversion Hnd as [|?? Hni Hnd']; subst.
      destruct (IH Hnd' Hs') as (?&?). split; [|done]. constructor; [|done].
      rewrite Forall_forall in Hall. specialize (Hall q). rewrite elem_of_app, elem_of_cons in *.
      assert (x <> q) by (intros ->; tauto). specialize (Hall ltac:(tauto)). lia. }
  assert (filter (fun q' => q < q') (l1 ++ q :: l2) = l2) as ->.
  { rewrite filter_app. rewrite filter_cons_False by lia.
    assert (filter (fun q' => q < q') l1 = []) as ->.
    { clear -H1. induction H1; [done|]. rewrite filter_cons_False by lia. done. }
    simpl. clear -H2. induction H2; [done|]. rewrite filter_cons_True by lia. by f_equal. }
  assert (NoDup (l1 ++ q :: l2)) as Hnd' by done.
  apply NoDup_app in Hnd' as (_&Hd&Hnd2). inversion Hnd2 as [|?? Hni _]; subst.
  rewrite app_length. simpl. split.
  - intros Hin. destruct (decide (length l2 < k)) as [|Hge]; [done|exfalso].
    rewrite drop_app_ge in Hin by lia.
    replace (length l1 + S (length l2) - k - length l1) with (S (length l2 - k)) in Hin by lia.
    simpl in Hin. apply Hni. apply elem_of_list_lookup in Hin as (i&Hi).
    rewrite lookup_drop in Hi. by eapply elem_of_list_lookup_2.
  - intros Hlt. rewrite drop_app_le by lia. apply elem_of_app. right. left.
Qed.

Lemma expire_keeps_newest_lemma bs n r r' q p :
    0 < n -> expire_objects bs n r = Some r' -> prms r !! q = Some p ->
    (is_Some (prms r' !! q) <->
     length (filter (fun q' => q < q') (elements (dom (prms r)))) < n).
Proof.
  intros Hn He Hp. rewrite (expire_prms _ _ _ _ _ He).
  assert (seqs r ≡ₚ elements (dom (prms r))) as Hperm.
  { apply NoDup_Permutation; [apply nodup_seqs|apply NoDup_elements|].
    intros x. rewrite elem_of_seqs, elem_of_elements, elem_of_dom. done. }
  assert (length (filter (fun q' => q < q') (elements (dom (prms r)))) =
          length (filter (fun q' => q < q') (seqs r))) as ->.
  { by rewrite Hperm. }
  rewrite <- sorted_drop_count.
  - assert (last_n n (seqs r) = drop (length (seqs r) - n) (seqs r)) as <-.
    { unfold last_n. rewrite decide_False by lia. done. }
    case_decide as Hd.
    + split; [done|]. rewrite Hp. eauto.
    + split; [intros [? ?]; done|done].
  - apply Sorted_merge_sort. intros ??; lia.
  - apply nodup_seqs.
  - apply elem_of_seqs. eauto.
Qed.

Lemma expire_removes_unneeded_lemma bs n r r' b v :
    0 < bs -> expire_objects bs n r = Some r' -> is_Some (objs r' !! (b, v)) ->
    exists q p, prms r' !! q = Some p /\ b * bs < p_size p /\ v <= q /\
      forall v', is_Some (objs r !! (b, v')) -> v' <= q -> v' <= v.
Proof.
  intros Hbs He Hv. destruct (expire_minimal _ _ _ _ _ _ Hbs He Hv) as (q&p&Hp&Hlt&Hsel).
  exists q, p. apply sel_Some in Hsel. naive_solver.
Qed.

Lemma expire_never_fails_lemma (hash : file -> list byte) bs sq f0 es s n :
    0 < bs -> run hash bs (init sq f0) es = Some s -> run_hole_free hash bs (init sq f0) es ->
    is_Some (expire_objects bs n (st_remote s)).
Proof.
  intros Hbs Hr Hh. destruct (inv_run hash bs Hbs _ _ _ _ (inv_init hash bs sq f0) Hh Hr) as (sn&HI&_).
  apply expire_Some; [done|]. apply (i_keep _ _ _ _ HI).
Qed.

Lemma unmarked_blocks_are_stored_lemma (hash : file -> list byte) bs sq f0 es s b :
    0 < bs -> run hash bs (init sq f0) es = Some s -> run_hole_free hash bs (init sq f0) es ->
    st_pass s = false -> st_mode s <> NeedsFull ->
    b * bs < length (db_data (st_db s)) -> b ∉ db_dirty (st_db s) ->
    exists o, newest (st_remote s) b o /\
      forall i, i < bs -> b * bs + i < length (db_data (st_db s)) ->
        nth i o 0 = nth (b * bs + i) (db_data (st_db s)) 0.
Proof.
  intros Hbs Hr Hh Hp Hm Hb Hd.
  destruct (inv_run hash bs Hbs _ _ _ _ (inv_init hash bs sq f0) Hh Hr) as (sn&HI&_).
  destruct (i_nopass _ _ _ _ HI Hp) as (Hj&_).
  destruct (i_data _ _ _ _ HI Hm b Hb) as [Hin|[(?&_)|(v&o&Hv&Ho&Hbytes)]]; [|done|].
  { rewrite Hj in Hin. by apply elem_of_nil in Hin. }
  exists o. split; [|done]. exists v. split; [done|]. intros v' o' Ho'.
  apply sel_Some in Hv as (_&_&Hmax). apply Hmax; [eauto|].
  by destruct (i_objs _ _ _ _ HI b v' o' Ho').
Qed.

Definition idh (f : file) : list byte := f.

Lemma gap_after_shrink_refuted_lemma :
  exists es s p,
    run idh 2 (init 10 [1; 1; 1; 1]) es = Some s /\ st_mode s = Clean /\
    prms (st_remote s) !! 12 = Some p /\ db_data (st_db s) = [1; 1; 0; 0; 5] /\
    download idh 2 (st_remote s) p = DlChecksum.
Proof.
  exists [EBegin false true; EJob 0; EJob 0; EFinish;
          ETruncate 2; EBegin true true; EFinish;
          EWrite 4 [5]; EBegin true true; EJob 0; EFinish].
  eexists. eexists. split_and!; vm_compute; reflexivity.
Qed.

Lemma gap_filled_later_refuted_lemma :
  exists es s p,
    run idh 2 (init 10 [1; 1]) es = Some s /\ st_mode s = Clean /\
    prms (st_remote s) !! 11 = Some p /\
    download idh 2 (st_remote s) p = DlNoVersion 1 /\
    expire_objects 2 32 (st_remote s) = None.
Proof.
  exists [EBegin false true; EJob 0; EFinish;
          EWrite 4 [5]; EBegin true true; EJob 0; EFinish;
          EWrite 2 [6]; EBegin true true; EJob 0; EFinish].
  eexists. eexists. split_and!; vm_compute; reflexivity.
Qed.
