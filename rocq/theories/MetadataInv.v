(** The invariant behind the metadata theorems. *)
From stdpp Require Import prelude list gmap sorting.
From Verif Require Import Files FilesFacts MetadataModel MetadataSpec MetadataProofs.

Section inv.
  Context (hash : file -> list byte) (bs : nat).

  Definition cur (s : state) := p_seq (st_params s).
  Definition dat (s : state) := db_data (st_db s).
  Definition objm (s : state) := objs (st_remote s).
  Definition prmm (s : state) := prms (st_remote s).

  Record Inv (snaps : gmap nat file) (s : state) : Prop := {
    i_objs : forall b v o, objm s !! (b, v) = Some o -> v <= cur s /\ length o <= bs;
    i_prms : forall q p, prmm s !! q = Some p -> p_seq p = q /\ q <= cur s;
    i_cur : p_size (st_params s) = 0 \/ prmm s !! cur s = Some (st_params s);
    i_keep : forall q p b, prmm s !! q = Some p -> b * bs < p_size p ->
      exists v, v <= q /\ is_Some (objm s !! (b, v));
    i_snaps : forall q f, snaps !! q = Some f -> q < cur s /\
      forall p, prmm s !! q = Some p -> p_size p = length f /\ p_md5 p = hash f /\
        forall b, b * bs < length f -> good bs (st_remote s) q b f;
    i_data : st_mode s <> NeedsFull -> forall b, b * bs < length (dat s) ->
      b ∈ map j_block (st_jobs s) \/
      (b ∈ db_dirty (st_db s) /\ st_final s = false /\ st_mode s = Active) \/
      good bs (st_remote s) (cur s) b (dat s);
    i_pass : st_pass s = true -> st_mode s = Active;
    i_nopass : st_pass s = false -> st_jobs s = [] /\ st_final s = false;
    i_final : st_final s = true -> st_passsize s = length (dat s);
    i_jobs : forall j, j ∈ st_jobs s -> j_off j = j_block j * bs /\ j_len j <= bs /\
      (j_block j ∈ db_dirty (st_db s) /\ st_final s = false \/
       min bs (length (dat s) - j_off j) <= j_len j);
    i_clean : st_mode s = Clean ->
      p_size (st_params s) = length (dat s) /\ p_md5 (st_params s) = hash (dat s)
  }.

  Hypothesis Hbs : 0 < bs.

  Lemma good_length t b f r f' :
    length f' <= length f ->
    (forall i, b * bs <= i < (b + 1) * bs -> i < length f' -> byte_at f' i = byte_at f i) ->
    good bs r t b f -> good bs r t b f'.
  Proof.
    intros Hl Hf (v&o&Hv&Ho&Hb). exists v, o. split; [done|]. split; [done|].
    intros i Hi Hlt. rewrite Hf by lia. apply Hb; lia.
  Qed.

  Lemma good_same t b f r f' :
    (forall i, b * bs <= i < (b + 1) * bs -> i < length f' -> i < length f /\ byte_at f' i = byte_at f i) ->
    good bs r t b f -> good bs r t b f'.
  Proof.
    intros Hf (v&o&Hv&Ho&Hb). exists v, o. split; [done|]. split; [done|].
    intros i Hi Hlt. destruct (Hf (b * bs + i)) as (Hlt'&->); [lia|lia|]. apply Hb; lia.
  Qed.

  (** Adding a version newer than [t] does not change what [t] selects. *)
  Lemma sel_insert_newer (r : remote) pm b b' sq t o :
    t < sq -> sel (Remote (<[(b', sq) := o]> (objs r)) pm) b t = sel r b t.
  Proof.
    intros Hlt. destruct (sel r b t) as [v|] eqn:E.
    - apply sel_Some in E as ([o' Ho']&Hle&Hmax). apply sel_Some. simpl.
      split; [|split; [done|]].
      + rewrite lookup_insert_ne by (intros [= -> ->]; lia). eauto.
      + intros v' Hv' Hle'. apply Hmax; [|done].
        rewrite lookup_insert_ne in Hv' by (intros [= -> ->]; lia). done.
    - apply sel_None. rewrite sel_None in E. simpl. intros v Hv.
      destruct (decide ((b', sq) = (b, v))) as [[= -> ->]|Hne]; [lia|].
      rewrite lookup_insert_ne in Hv by done. eauto.
  Qed.

  Lemma sel_insert_other (r : remote) pm b b' sq t o :
    b <> b' -> sel (Remote (<[(b', sq) := o]> (objs r)) pm) b t = sel r b t.
  Proof.
    intros Hne. destruct (sel r b t) as [v|] eqn:E.
    - apply sel_Some in E as ([o' Ho']&Hle&Hmax). apply sel_Some. simpl.
      split; [|split; [done|]].
      + rewrite lookup_insert_ne by (intros [= -> ->]; done). eauto.
      + intros v' Hv' Hle'. apply Hmax; [|done].
        rewrite lookup_insert_ne in Hv' by (intros [= -> ->]; done). done.
    - apply sel_None. rewrite sel_None in E. simpl. intros v Hv.
      rewrite lookup_insert_ne in Hv by (intros [= -> ->]; done). eauto.
  Qed.

  Lemma good_insert_newer r pm b b' sq t o f :
    t < sq -> good bs r t b f -> good bs (Remote (<[(b', sq) := o]> (objs r)) pm) t b f.
  Proof.
    intros Hlt (v&o'&Hv&Ho&Hb). exists v, o'. rewrite sel_insert_newer by done.
    split; [done|]. split; [|done]. simpl. rewrite lookup_insert_ne; [done|].
    intros [= -> ->]. apply sel_Some in Hv. lia.
  Qed.

  Lemma good_insert_other r pm b b' sq t o f :
    b <> b' -> good bs r t b f -> good bs (Remote (<[(b', sq) := o]> (objs r)) pm) t b f.
  Proof.
    intros Hne (v&o'&Hv&Ho&Hb). exists v, o'. rewrite sel_insert_other by done.
    split; [done|]. split; [|done]. simpl. rewrite lookup_insert_ne; [done|].
    intros [= -> ->]. done.
  Qed.

  Lemma good_prms o pm pm' t b f : good bs (Remote o pm) t b f -> good bs (Remote o pm') t b f.
  Proof. done. Qed.

  Lemma good_mono (r : remote) t t' b f :
    (forall v o, objs r !! (b, v) = Some o -> v <= t) -> t <= t' ->
    good bs r t b f -> good bs r t' b f.
  Proof.
    intros Hall Hle (v&o&Hv&Ho&Hb). exists v, o. split; [|done].
    apply sel_Some in Hv as (?&?&Hmax). apply sel_Some. split; [done|]. split; [lia|].
    intros v' [o' Hv'] _. apply Hmax; [eauto|]. eauto.
  Qed.

  Lemma inv_init sq f : Inv ∅ (init sq f).
  Proof.
    split; simpl; try done.
    - auto.
    - intros j Hj. by apply elem_of_nil in Hj.
  Qed.

  Lemma inv_write snaps s off d s' :
    Inv snaps s -> hole_free bs s (EWrite off d) -> step hash bs s (EWrite off d) = Some s' ->
    Inv snaps s'.
  Proof.
    intros HI Hhf Hs. simpl in Hs, Hhf. destruct (st_final s) eqn:Hfin; [done|]. injection Hs as <-.
    destruct HI as [I1 I2 I3 I4 I5 I6 I7 I8 I9 I10 I11].
    unfold objm, prmm, cur, dat in *.
    destruct (decide (d = [])) as [->|Hd].
    { (* empty write: nothing changes but perhaps the mode *)
      assert (vfs_write bs off [] (st_db s) = DbFile (db_data (st_db s))
                (db_dirty (st_db s) ∪ marked bs off 0)) as Hv by done.
      split; unfold objm, prmm, cur, dat; cbn [st_mode st_db st_remote st_params st_pass st_final
        st_jobs st_passsize]; rewrite ?Hv; cbn [db_data db_dirty]; auto; try (intros; discriminate).
      - intros Hm b Hb. destruct (I6 ltac:(by destruct (st_mode s)) b Hb) as [?|[(?&?&Hm')|?]];
          [by left| |by right; right].
        right. left. split_and!; [set_solver|done|]. by rewrite Hm'.
      - intros Hp. by rewrite I7.
      - intros Hp. by destruct (I8 Hp).
      - intros j Hj. destruct (I10 j Hj) as (?&?&[(?&?)|?]); split_and!; auto. left. set_solver.
      - intros Hc. by destruct (st_mode s). }
    assert (0 < length d) as Hlen by (destruct d; simpl; [done|lia]).
    assert (forall b, length (db_data (st_db s)) < (b + 1) * bs -> off < (b + 1) * bs) as Hhole.
    { intros b Hb. rewrite Nat.mul_comm in Hb. apply Nat.div_lt_upper_bound in Hb; [|lia].
      pose proof (Nat.div_mod off bs ltac:(lia)). pose proof (Nat.mod_upper_bound off bs ltac:(lia)).
      nia. }
    assert (length (db_data (vfs_write bs off d (st_db s))) =
            max (length (db_data (st_db s))) (off + length d)) as Hl.
    { simpl. by rewrite length_fwrite, decide_False. }
    split; unfold objm, prmm, cur, dat; cbn [st_mode st_db st_remote st_params st_pass st_final
        st_jobs st_passsize]; auto; try (intros; discriminate).
    - intros Hm b Hb. rewrite Hl in Hb.
      destruct (decide (b ∈ marked bs off (length d))) as [Hin|Hnin].
      { right. left. split_and!; [simpl; set_solver|done|]. by destruct (st_mode s). }
      rewrite elem_of_marked in Hnin by done.
      destruct (decide (b * bs < length (db_data (st_db s)))) as [Hb'|Hb'].
      2: { exfalso. apply Hnin. split; [apply Hhole; nia|lia]. }
      destruct (I6 ltac:(by destruct (st_mode s)) b Hb') as [?|[(?&?&Hm')|Hg]]; [by left| |].
      { right. left. split_and!; [simpl; set_solver|done|]. by rewrite Hm'. }
      right. right. eapply good_same; [|exact Hg]. intros i Hi Hi'. rewrite Hl in Hi'.
      split; [specialize (Hhole b); nia|].
      simpl. rewrite byte_at_fwrite, decide_False; [done|nia].
    - intros Hp. by rewrite I7.
    - intros Hp. by destruct (I8 Hp).
    - intros j Hj. destruct (I10 j Hj) as (Ho&Hle&Hor). split_and!; [done|done|].
      destruct Hor as [(?&?)|Hor]; [left; simpl; set_solver|].
      destruct (decide (j_block j ∈ marked bs off (length d))) as [Hin|Hnin].
      { left. simpl. set_solver. }
      right. rewrite elem_of_marked in Hnin by done. rewrite Hl, Ho in *.
      specialize (Hhole (j_block j)). nia.
    - intros Hc. by destruct (st_mode s).
  Qed.

  Lemma inv_truncate snaps s size s' :
    Inv snaps s -> hole_free bs s (ETruncate size) -> step hash bs s (ETruncate size) = Some s' ->
    Inv snaps s'.
  Proof.
    intros HI Hhf Hs. simpl in Hs, Hhf. destruct (st_final s) eqn:Hfin; [done|]. injection Hs as <-.
    destruct HI as [I1 I2 I3 I4 I5 I6 I7 I8 I9 I10 I11].
    unfold objm, prmm, cur, dat in *.
    assert (length (db_data (vfs_truncate bs size (st_db s))) = size) as Hl.
    { simpl. by rewrite length_ftrunc. }
    assert (forall b, b * bs < size -> b <= size / bs) as Hblk.
    { intros b Hb. apply Nat.div_le_lower_bound; lia. }
    split; unfold objm, prmm, cur, dat; cbn [st_mode st_db st_remote st_params st_pass st_final
        st_jobs st_passsize]; auto; try (intros; discriminate).
    - intros Hm b Hb. rewrite Hl in Hb.
      destruct (I6 ltac:(by destruct (st_mode s)) b ltac:(lia)) as [?|[(?&?&Hm')|Hg]]; [by left| |].
      { right. left. split_and!; [simpl|done|by rewrite Hm'].
        apply elem_of_filter. auto. }
      right. right. eapply good_same; [|exact Hg]. intros i Hi Hi'. rewrite Hl in Hi'. split; [lia|].
      simpl. rewrite byte_at_ftrunc, decide_True; [done|lia].
    - intros Hp. by rewrite I7.
    - intros Hp. by destruct (I8 Hp).
    - intros j Hj. destruct (I10 j Hj) as (Ho&Hle&Hor). split_and!; [done|done|].
      destruct (decide (j_block j * bs < size)) as [Hb|Hb].
      + destruct Hor as [(?&?)|Hor].
        * left. simpl. split; [|done]. apply elem_of_filter. auto.
        * right. rewrite Hl, Ho in *. lia.
      + right. rewrite Hl, Ho. lia.
    - intros Hc. by destruct (st_mode s).
  Qed.

  Lemma map_jblock_mk size l : map j_block (map (mk_job bs size) l) = l.
  Proof. rewrite map_map. simpl. apply map_id. Qed.

  Lemma inv_begin snaps s inc fin s' :
    Inv snaps s -> step hash bs s (EBegin inc fin) = Some s' -> Inv snaps s'.
  Proof.
    intros HI Hs. simpl in Hs. destruct (st_pass s) eqn:Hp; [done|].
    destruct HI as [I1 I2 I3 I4 I5 I6 I7 I8 I9 I10 I11].
    unfold objm, prmm, cur, dat in *.
    destruct (I8 Hp) as (Hj&Hf).
    destruct inc.
    - case_decide as Hm; [done|]. injection Hs as <-.
      split; unfold objm, prmm, cur, dat; cbn [st_mode st_db st_remote st_params st_pass st_final
        st_jobs st_passsize db_data db_dirty]; auto; try done.
      + intros _ b Hb. rewrite map_jblock_mk, elem_of_elements.
        destruct (I6 Hm b Hb) as [Hin|[(?&?&?)|Hg]]; [|by left|by right; right].
        rewrite Hj in Hin. by apply elem_of_nil in Hin.
      + intros j Hin. apply elem_of_list_fmap in Hin as (b&->&Hin). simpl. split_and!; [done|lia|].
        right. lia.
    - destruct fin; [|done]. injection Hs as <-.
      split; unfold objm, prmm, cur, dat; cbn [st_mode st_db st_remote st_params st_pass st_final
        st_jobs st_passsize db_data db_dirty]; auto; try done.
      + intros _ b Hb. left. rewrite map_jblock_mk, elem_of_seq. split; [lia|].
        simpl. by apply nblocks_lt.
      + intros j Hin. apply elem_of_list_fmap in Hin as (b&->&Hin). simpl. split_and!; [done|lia|].
        right. lia.
  Qed.

  Lemma inv_job snaps s n s' :
    Inv snaps s -> step hash bs s (EJob n) = Some s' -> Inv snaps s'.
  Proof.
    intros HI Hs. simpl in Hs. destruct (st_pass s) eqn:Hp; [|done].
    destruct (st_jobs s !! n) as [j|] eqn:Hj; [|done]. injection Hs as <-.
    destruct HI as [I1 I2 I3 I4 I5 I6 I7 I8 I9 I10 I11].
    unfold objm, prmm, cur, dat in *. unfold do_job.
    assert (j ∈ st_jobs s) as Hin by (by eapply elem_of_list_lookup_2).
    destruct (I10 j Hin) as (Ho&Hle&Hor).
    set (data := fread (j_off j) (j_len j) (db_data (st_db s))).
    assert (length data <= bs) as Hdl.
    { unfold data. rewrite length_fread. lia. }
    split; unfold objm, prmm, cur, dat; cbn [st_mode st_db st_remote st_params st_pass st_final
        st_jobs st_passsize db_data db_dirty objs prms]; auto.
    - intros b v o Hb. destruct (decide ((j_block j, p_seq (st_params s)) = (b, v))) as [Heq|Hne].
      + rewrite Heq in Hb. rewrite lookup_insert in Hb. simplify_eq. split; [lia|done].
      + rewrite lookup_insert_ne in Hb by done. eauto.
    - intros q p b Hq Hb. destruct (I4 q p b Hq Hb) as (v&Hv&Ho'). exists v. split; [done|].
      destruct (decide ((j_block j, p_seq (st_params s)) = (b, v))) as [Heq|Hne].
      + rewrite Heq, lookup_insert. eauto.
      + by rewrite lookup_insert_ne.
    - intros q f Hq. destruct (I5 q f Hq) as (Hlt&Hall). split; [done|].
      intros p Hp'. destruct (Hall p Hp') as (?&?&Hg). split_and!; [done..|].
      intros b Hb. apply good_insert_newer; auto.
    - intros Hm b Hb. destruct (decide (b = j_block j)) as [->|Hne].
      + destruct Hor as [(Hd&Hf)|Hcov].
        { right. left. split_and!; auto. }
        right. right. exists (p_seq (st_params s)), data. split_and!.
        * apply sel_Some. simpl. split; [rewrite lookup_insert; eauto|]. split; [lia|].
          intros v' _ Hv'. done.
        * simpl. by rewrite lookup_insert.
        * intros i Hi Hi'. unfold data. rewrite byte_at_fread, decide_True by lia. by rewrite Ho.
      + destruct (I6 Hm b Hb) as [Hin'|[?|Hg]].
        * left. apply elem_of_list_fmap in Hin' as (j'&->&Hin').
          apply elem_of_list_fmap. exists j'. split; [done|].
          apply elem_of_list_lookup in Hin' as (n'&Hn').
          rewrite delete_take_drop.
          assert (n <> n') by congruence.
          apply elem_of_app. destruct (decide (n' < n)).
          -- left. apply elem_of_list_lookup. exists n'. by rewrite lookup_take.
          -- right. apply elem_of_list_lookup. exists (n' - S n). rewrite lookup_drop.
             rewrite <- Hn'. f_equal. lia.
        * right. by left.
        * right. right. by apply good_insert_other.
    - intros; discriminate.
    - intros j' Hj'. apply I10. rewrite delete_take_drop in Hj'.
      rewrite <- (take_drop_middle _ _ _ Hj). rewrite elem_of_app, elem_of_cons.
      apply elem_of_app in Hj'. tauto.
  Qed.

  Lemma inv_finish snaps s s' :
    Inv snaps s -> step hash bs s EFinish = Some s' ->
    Inv (if st_final s then <[cur s := dat s]> snaps else snaps) s'.
  Proof.
    intros HI Hs. simpl in Hs. destruct (st_pass s) eqn:Hp; [|done].
    destruct (st_jobs s) eqn:Hj; [|done].
    destruct HI as [I1 I2 I3 I4 I5 I6 I7 I8 I9 I10 I11].
    unfold objm, prmm, cur, dat in *.
    pose proof (I7 Hp) as Hm.
    destruct (st_final s) eqn:Hf; injection Hs as <-.
    - assert (forall b, b * bs < length (db_data (st_db s)) ->
                good bs (st_remote s) (p_seq (st_params s)) b (db_data (st_db s))) as Hgood.
      { intros b Hb. destruct (I6 ltac:(congruence) b Hb) as [Hin|[(_&?&_)|?]]; [|done|done].
        rewrite Hj in Hin. by apply elem_of_nil in Hin. }
      specialize (I9 eq_refl).
      split; unfold objm, prmm, cur, dat; cbn [st_mode st_db st_remote st_params st_pass st_final
        st_jobs st_passsize db_data db_dirty objs prms p_seq p_size p_md5]; auto.
      + intros b v o Ho. destruct (I1 b v o Ho). split; [lia|done].
      + intros q p. rewrite lookup_insert_Some, lookup_insert_Some.
        intros [(<-&<-)|(?&[(<-&<-)|(?&Hq)])]; simpl; [lia|lia|]. destruct (I2 q p Hq). lia.
      + right. by rewrite lookup_insert.
      + intros q p b. rewrite lookup_insert_Some, lookup_insert_Some.
        intros [(<-&<-)|(?&[(<-&<-)|(?&Hq)])]; simpl; intros Hb.
        * rewrite I9 in Hb. destruct (Hgood b Hb) as (v&o&Hv&Ho&_). apply sel_Some in Hv.
          exists v. split; [lia|eauto].
        * rewrite I9 in Hb. destruct (Hgood b Hb) as (v&o&Hv&Ho&_). apply sel_Some in Hv.
          exists v. split; [lia|eauto].
        * eauto.
      + intros q f. rewrite lookup_insert_Some. intros [(<-&<-)|(Hne&Hq)].
        * split; [lia|]. intros p. rewrite lookup_insert_ne by lia. rewrite lookup_insert.
          intros [= <-]. simpl. split_and!; [done|done|]. intros b Hb. by apply Hgood.
        * destruct (I5 q f Hq) as (Hlt&Hall). split; [lia|].
          intros p. rewrite lookup_insert_ne by lia. rewrite lookup_insert_ne by lia. intros Hp'.
          destruct (Hall p Hp') as (?&?&?). split_and!; auto.
      + intros _ b Hb. right. right. eapply good_mono; [| |by apply (Hgood b Hb)]; [|lia].
        intros v o Ho. simpl in Ho. by destruct (I1 b v o Ho).
      + done.
      + done.
      + intros j Hin. by apply elem_of_nil in Hin.
    - split; unfold objm, prmm, cur, dat; cbn [st_mode st_db st_remote st_params st_pass st_final
        st_jobs st_passsize db_data db_dirty objs prms p_seq p_size p_md5]; auto; try done.
      + intros Hm' b Hb. destruct (I6 Hm' b Hb) as [Hin|?]; [|by right]. rewrite Hj in Hin. by left.
      + intros j Hin. by apply elem_of_nil in Hin.
  Qed.

  Lemma cur_in_last_n snaps s n :
    Inv snaps s -> 0 < p_size (st_params s) -> cur s ∈ last_n n (seqs (st_remote s)).
  Proof.
    intros HI Hpos.
    destruct HI as [I1 I2 I3 I4 I5 I6 I7 I8 I9 I10 I11]. unfold objm, prmm, cur, dat in *.
    destruct I3 as [?|Hc]; [lia|].
    assert (p_seq (st_params s) ∈ seqs (st_remote s)) as Hin by (apply elem_of_seqs; eauto).
    unfold last_n. case_decide as Hn; [done|].
    set (l := seqs (st_remote s)) in *.
    assert (Sorted le l) as Hs by (apply Sorted_merge_sort; intros ??; lia).
    assert (NoDup l) as Hnd by apply nodup_seqs.
    assert (forall q, q ∈ l -> q <= p_seq (st_params s)) as Hmax.
    { intros q Hq. apply elem_of_seqs in Hq as [p Hq]. by destruct (I2 q p Hq). }
    (* the last element of a sorted list is the maximum *)
    apply elem_of_list_lookup in Hin as (i&Hi).
    assert (i = length l - 1) as ->.
    { pose proof (lookup_lt_Some _ _ _ Hi) as Hlt.
      destruct (decide (i = length l - 1)) as [|Hne]; [done|].
      destruct (lookup_lt_is_Some_2 l (S i)) as [y Hy]; [lia|].
      assert (y <= p_seq (st_params s)) as Hle by (apply Hmax; by eapply elem_of_list_lookup_2).
      assert (p_seq (st_params s) <= y) as Hle'.
      { apply Sorted_StronglySorted in Hs; [|intros ???; lia].
        rewrite <- (take_drop_middle _ _ _ Hi) in Hs.
        assert (y ∈ drop (S i) l) as Hin.
        { apply elem_of_list_lookup. exists 0. rewrite lookup_drop. rewrite <- Hy. f_equal. lia. }
        clear -Hs Hin. induction (take i l) as [|x t IH]; simpl in Hs.
        - inversion Hs as [|?? _ Hall]; subst. rewrite Forall_forall in Hall. auto.
        - inversion Hs; subst; auto. }
      assert (y = p_seq (st_params s)) as -> by lia.
      exfalso. pose proof (NoDup_lookup _ _ _ _ Hnd Hi Hy). lia. }
    pose proof (lookup_lt_Some _ _ _ Hi) as Hlt.
    apply elem_of_list_lookup. exists (length l - 1 - (length l - n)).
    rewrite lookup_drop. rewrite <- Hi. f_equal. lia.
  Qed.

  Lemma inv_expire snaps s n s' :
    Inv snaps s -> step hash bs s (EExpire n) = Some s' -> Inv snaps s'.
  Proof.
    intros HI Hs. pose proof (cur_in_last_n snaps s n HI) as Hcur.
    simpl in Hs. case_decide as Hm; [|done].
    destruct (expire_objects _ _ _) as [r|] eqn:He; [|done]. injection Hs as <-.
    destruct HI as [I1 I2 I3 I4 I5 I6 I7 I8 I9 I10 I11].
    unfold objm, prmm, cur, dat in *.
    assert (st_pass s = false) as Hp.
    { destruct (st_pass s) eqn:Hp; [|done]. rewrite I7 in Hm by done. done. }
    destruct (I8 Hp) as (Hj&Hf).
    destruct (I11 Hm) as (Hsz&Hmd).
    assert (forall q p, prms r !! q = Some p ->
              q ∈ last_n n (seqs (st_remote s)) /\ prms (st_remote s) !! q = Some p) as Hprms.
    { intros q p. rewrite (expire_prms _ _ _ _ _ He). case_decide; done. }
    assert (forall k o, objs r !! k = Some o -> objs (st_remote s) !! k = Some o) as Hobjs.
    { intros k o Ho. destruct (expire_objs _ _ _ _ k He); congruence. }
    split; unfold objm, prmm, cur, dat; cbn [st_mode st_db st_remote st_params st_pass st_final
        st_jobs st_passsize db_data db_dirty]; auto; try done.
    - intros b v o Ho. eauto.
    - intros q p Hq. destruct (Hprms q p Hq) as (_&Hq'). auto.
    - destruct I3 as [?|Hc]; [by left|].
      destruct (decide (p_size (st_params s) = 0)) as [?|Hne]; [by left|]. right.
      rewrite (expire_prms _ _ _ _ _ He), decide_True; [done|]. apply Hcur. lia.
    - intros q p b Hq Hb. destruct (Hprms q p Hq) as (Hin&Hq').
      destruct (I4 q p b Hq' Hb) as (v0&Hle&Hv0).
      destruct (expire_sel bs n (st_remote s) r q p b) as (v&o&Hv&_&_&Ho); [done..| |].
      { apply elem_of_block_nos. eauto. }
      apply sel_Some in Hv. exists v. split; [lia|eauto].
    - intros q f Hq. destruct (I5 q f Hq) as (Hlt&Hall). split; [done|].
      intros p Hp'. destruct (Hprms q p Hp') as (Hin&Hq').
      destruct (Hall p Hq') as (Hsz'&?&Hg). split_and!; [done..|].
      intros b Hb. destruct (Hg b Hb) as (v&o&Hv&Ho&Hbytes).
      destruct (expire_sel bs n (st_remote s) r q p b) as (v'&o'&Hv'&Hv''&Ho'&Ho''); [done..| | |].
      { lia. }
      { apply elem_of_block_nos. eauto. }
      exists v', o'. split_and!; [done..|]. assert (v' = v) as -> by congruence.
      assert (o' = o) as -> by congruence. done.
    - intros _ b Hb. right. right.
      destruct (I6 ltac:(congruence) b Hb) as [Hin|[(_&_&?)|Hg]]; [|congruence|].
      { rewrite Hj in Hin. by apply elem_of_nil in Hin. }
      destruct I3 as [?|Hc]; [lia|].
      destruct Hg as (v&o&Hv&Ho&Hbytes).
      destruct (expire_sel bs n (st_remote s) r (p_seq (st_params s)) (st_params s) b)
        as (v'&o'&Hv'&Hv''&Ho'&Ho''); [done|done| |done| | |].
      { apply Hcur. lia. }
      { lia. }
      { apply elem_of_block_nos. eauto. }
      exists v', o'. split_and!; [done..|]. assert (v' = v) as -> by congruence.
      assert (o' = o) as -> by congruence. done.
    - intros j Hin. by apply elem_of_nil in Hin.
  Qed.

  Lemma inv_small snaps s : Inv snaps s -> small_objs bs (st_remote s).
  Proof. intros HI [b v] o Ho. by destruct (i_objs _ _ HI b v o Ho). Qed.

  Lemma inv_download_clean snaps s bl :
    Inv snaps s -> st_mode s = Clean -> bl ≡ₚ block_nos (st_remote s) ->
    download_order hash bs (st_remote s) (st_params s) bl = DlOk (dat s).
  Proof.
    intros HI Hm Hbl. pose proof (inv_small _ _ HI) as Hsmall.
    destruct HI as [I1 I2 I3 I4 I5 I6 I7 I8 I9 I10 I11].
    unfold objm, prmm, cur, dat in *.
    assert (st_pass s = false) as Hp.
    { destruct (st_pass s) eqn:Hp; [|done]. rewrite I7 in Hm by done. done. }
    destruct (I8 Hp) as (Hj&Hf). destruct (I11 Hm) as (Hsz&Hmd).
    apply download_ok; try done.
    intros b Hb. destruct (I6 ltac:(congruence) b Hb) as [Hin|[(_&_&?)|Hg]]; [|congruence|done].
    rewrite Hj in Hin. by apply elem_of_nil in Hin.
  Qed.

  Lemma inv_reopen snaps s s' :
    Inv snaps s -> step hash bs s EReopen = Some s' -> Inv snaps s'.
  Proof.
    intros HI Hs. simpl in Hs. destruct (st_pass s) eqn:Hp; [done|]. case_decide as Hm; [|done].
    injection Hs as <-.
    destruct HI as [I1 I2 I3 I4 I5 I6 I7 I8 I9 I10 I11].
    unfold objm, prmm, cur, dat in *. destruct (I8 Hp) as (Hj&Hf).
    split; unfold objm, prmm, cur, dat; cbn [st_mode st_db st_remote st_params st_pass st_final
        st_jobs st_passsize db_data db_dirty]; auto; try done.
    - intros _ b Hb. destruct (I6 ltac:(congruence) b Hb) as [Hin|[(_&_&?)|Hg]]; [|congruence|tauto].
      rewrite Hj in Hin. by apply elem_of_nil in Hin.
    - intros j Hin. by apply elem_of_nil in Hin.
  Qed.

  Lemma inv_downloaded snaps s s' :
    Inv snaps s -> step hash bs s EDownload = Some s' -> Inv snaps s'.
  Proof.
    intros HI Hs. simpl in Hs. destruct (st_pass s) eqn:Hp; [done|].
    case_decide as Hm; [|done].
    assert (download hash bs (st_remote s) (st_params s) = DlOk (dat s)) as Hd.
    { by eapply inv_download_clean. }
    rewrite Hd in Hs. injection Hs as <-.
    eapply inv_reopen; [done|]. simpl. rewrite Hp, decide_True by done. done.
  Qed.

  Lemma inv_crash snaps s f s' :
    Inv snaps s -> step hash bs s (ECrash f) = Some s' -> Inv snaps s'.
  Proof.
    intros HI Hs. simpl in Hs. injection Hs as <-.
    destruct HI as [I1 I2 I3 I4 I5 I6 I7 I8 I9 I10 I11].
    unfold objm, prmm, cur, dat in *.
    split; unfold objm, prmm, cur, dat; cbn [st_mode st_db st_remote st_params st_pass st_final
        st_jobs st_passsize db_data db_dirty objs prms p_seq p_size p_md5]; auto; try done.
    - intros b v o Ho. destruct (I1 b v o Ho). split; [lia|done].
    - intros q p. rewrite lookup_insert_Some. intros [(<-&<-)|(?&Hq)]; simpl; [lia|].
      destruct (I2 q p Hq). lia.
    - right. by rewrite lookup_insert.
    - intros q p b. rewrite lookup_insert_Some. intros [(<-&<-)|(?&Hq)]; simpl; intros Hb; [|eauto].
      destruct I3 as [?|Hc]; [lia|]. destruct (I4 _ _ b Hc Hb) as (v&?&?). exists v. split; [lia|done].
    - intros q f' Hq. destruct (I5 q f' Hq) as (Hlt&Hall). split; [lia|].
      intros p. rewrite lookup_insert_ne by lia. intros Hp.
      destruct (Hall p Hp) as (?&?&?). split_and!; auto.
    - intros j Hin. by apply elem_of_nil in Hin.
  Qed.

  Lemma inv_step snaps s e s' :
    Inv snaps s -> hole_free bs s e -> step hash bs s e = Some s' ->
    exists snaps', Inv snaps' s' /\ snaps ⊆ snaps' /\
      (e = EFinish -> st_final s = true -> snaps' !! cur s = Some (dat s)).
  Proof.
    intros HI Hhf Hs. destruct e.
    - exists snaps. split_and!; [by eapply inv_write|done|done].
    - exists snaps. split_and!; [by eapply inv_truncate|done|done].
    - exists snaps. split_and!; [by eapply inv_begin|done|done].
    - exists snaps. split_and!; [by eapply inv_job|done|done].
    - eexists. split_and!; [by eapply inv_finish| |].
      + destruct (st_final s); [|done]. apply insert_subseteq.
        destruct (snaps !! cur s) eqn:E; [|done].
        destruct (i_snaps _ _ HI _ _ E) as (?&_). lia.
      + intros _ ->. by rewrite lookup_insert.
    - exists snaps. split_and!; [by eapply inv_expire|done|done].
    - exists snaps. split_and!; [by eapply inv_reopen|done|done].
    - exists snaps. split_and!; [by eapply inv_downloaded|done|done].
    - exists snaps. split_and!; [by eapply inv_crash|done|done].
  Qed.

  Lemma inv_run snaps s es s' :
    Inv snaps s -> run_hole_free hash bs s es -> run hash bs s es = Some s' ->
    exists snaps', Inv snaps' s' /\ snaps ⊆ snaps'.
  Proof.
    revert snaps s. induction es as [|e es IH]; intros snaps s HI Hhf Hr; simpl in *.
    { simplify_eq. eauto. }
    destruct Hhf as (Hhf&Hhf'). destruct (step hash bs s e) as [s1|] eqn:Hs; [|done].
    destruct (inv_step _ _ _ _ HI Hhf Hs) as (snaps1&HI1&Hsub&_).
    destruct (IH _ _ HI1 Hhf' Hr) as (snaps2&HI2&Hsub2).
    exists snaps2. split; [done|]. by etrans.
  Qed.
End inv.
