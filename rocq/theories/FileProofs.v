(** Refinement of the block-wise file operations to byte arrays. *)
From stdpp Require Import prelude list gmap.
From Verif Require Import Files FilesFacts FileModel FileSpec.

Ltac gdec := match goal with |- context [@decide ?P ?d] => destruct (@decide P d) end.

Section proofs.
  Context (bs : nat) (Hbs : 0 < bs).

  (** The byte at position [p] of file [ino], wherever the file ends. *)
  Definition bat (s : fstate) (ino p : nat) : nat := byte_at (content s (ino, p / bs)) (p mod bs).

  Lemma dm p : p = bs * (p / bs) + p mod bs /\ p mod bs < bs.
  Proof. split; [apply Nat.div_mod; lia|apply Nat.mod_upper_bound; lia]. Qed.

  Lemma same_block p q : p / bs = q / bs -> p - p / bs * bs = p mod bs /\ q = p / bs * bs + q mod bs.
  Proof. intros H. pose proof (dm p). pose proof (dm q). nia. Qed.

  Lemma div_eq p b i : p = b * bs + i -> i < bs -> p / bs = b /\ p mod bs = i.
  Proof.
    intros -> Hi. split.
    - rewrite Nat.div_add_l by lia. rewrite Nat.div_small by done. lia.
    - rewrite Nat.add_comm, Nat.mod_add by lia. by apply Nat.mod_small.
  Qed.

  Lemma div_lt_ceil p size : p < size -> p / bs < ceil_div size bs.
  Proof.
    intros H. unfold ceil_div. pose proof (dm p). pose proof (dm (size + bs - 1)). nia.
  Qed.
  Lemma ceil_le b size : b < ceil_div size bs <-> b * bs < size.
  Proof. unfold ceil_div. pose proof (dm (size + bs - 1)). nia. Qed.

  Record R (s : fstate) (a : files) : Prop := {
    r_size : forall ino, sizes s !! ino = length <$> arrays a !! ino;
    r_prot : locked s = prot a;
    r_data : forall ino f p, arrays a !! ino = Some f -> p < length f ->
               lost s !! (ino, p / bs) = None -> bat s ino p = byte_at f p;
    r_hidden : failsafe s = false -> forall ino f p, arrays a !! ino = Some f -> length f <= p ->
               bat s ino p = 0;
    r_range : failsafe s = false -> forall ino b,
               is_Some (blks s !! (ino, b)) \/ is_Some (lost s !! (ino, b)) ->
               exists f, arrays a !! ino = Some f /\ b * bs < length f;
    r_disj : forall k, is_Some (lost s !! k) -> blks s !! k = None;
    r_broken : forall k, k ∈ broken s -> failsafe s = true;
    r_bound : forall k c, blks s !! k = Some c -> length c <= bs
  }.

  Lemma R_init : R init (Files_ ∅ ∅).
  Proof.
    split; simpl; try done.
    intros _ ino b [[? H]|[? H]]; by rewrite lookup_empty in H.
  Qed.

  (** ** One block *)
  Lemma readwrite_read_spec s ino off len :
    0 < len ->
    (exists l, readwrite_read bs s ino off len = (set_blks (insert (ino, off / bs) (content s (ino, off / bs))) s, Ok l)
       /\ lost s !! (ino, off / bs) = None
       /\ 0 < length l <= len /\ (forall p, off <= p < off + length l -> p / bs = off / bs)
       /\ forall i, i < length l -> byte_at l i = bat s ino (off + i)) \/
    (lost s !! (ino, off / bs) = None -> (ino, off / bs) ∈ broken s) /\
    (readwrite_read bs s ino off len = (s, Err EIO) /\ (ino, off / bs) ∈ broken s \/
     readwrite_read bs s ino off len = (set_broken (ino, off / bs) s, Err EIO)).
  Proof.
    intros Hlen. unfold readwrite_read. pose proof (dm off) as (Hd&Hm).
    case_decide; [right; auto|].
    destruct (lost s !! (ino, off / bs)) as [d|] eqn:E; [right; split; [done|auto]|]. left.
    set (rel := off - off / bs * bs). assert (rel = off mod bs) as Hrel by (unfold rel; lia).
    set (n := if decide (bs < rel + len) then bs - rel else len).
    assert (0 < n <= len /\ rel + n <= bs) as (Hn&Hn2) by (unfold n; case_decide; lia).
    set (c := content s (ino, off / bs)). set (buf := fread rel n c).
    assert (length buf <= n) as Hbuf by (unfold buf; rewrite length_fread; lia).
    eexists. split; [reflexivity|]. split; [done|].
    assert (forall p, off <= p < off + n -> p / bs = off / bs /\ p mod bs = rel + (p - off)) as Hdiv.
    { intros p Hp. apply div_eq; lia. }
    assert (length (if decide (length buf = n) then buf else buf ++ replicate (n - length buf) 0) = n) as ->.
    { case_decide; [done|]. rewrite app_length, replicate_length. lia. }
    split_and!; try lia; [intros; by apply Hdiv|].
    intros i Hi. unfold bat. destruct (Hdiv (off + i)) as (->&->); [lia|]. fold c.
    replace (rel + (off + i - off)) with (rel + i) by lia.
    assert (byte_at buf i = byte_at c (rel + i)) as Hb.
    { unfold buf. rewrite byte_at_fread, decide_True by lia. done. }
    case_decide; [done|]. rewrite byte_at_app. case_decide as Hi'; [done|].
    rewrite byte_at_replicate. rewrite <- Hb. by rewrite byte_at_ge by lia.
  Qed.

  Lemma readwrite_write_spec s ino off buf :
    buf <> [] ->
    (exists n s', readwrite_write bs s ino off buf = (s', Ok n)
       /\ 0 < n <= length buf /\ lost s !! (ino, off / bs) = None
       /\ (exists c, s' = set_blks (insert (ino, off / bs) c) s /\
            (length (content s (ino, off / bs)) <= bs -> length c <= bs))
       /\ (forall p, off <= p < off + n -> p / bs = off / bs)
       /\ forall ino' p, bat s' ino' p =
            if decide (ino' = ino /\ off <= p < off + n) then byte_at buf (p - off) else bat s ino' p) \/
    (lost s !! (ino, off / bs) = None -> (ino, off / bs) ∈ broken s) /\
    (readwrite_write bs s ino off buf = (s, Err EIO) /\ (ino, off / bs) ∈ broken s \/
     readwrite_write bs s ino off buf = (set_broken (ino, off / bs) s, Err EIO)).
  Proof.
    intros Hbuf. assert (0 < length buf) as Hlen by (destruct buf; simpl; [done|lia]).
    unfold readwrite_write. pose proof (dm off) as (Hd&Hm).
    case_decide; [right; auto|].
    destruct (lost s !! (ino, off / bs)) as [d|] eqn:E; [right; split; [done|auto]|]. left.
    set (rel := off - off / bs * bs). assert (rel = off mod bs) as Hrel by (unfold rel; lia).
    set (n := if decide (bs < rel + length buf) then bs - rel else length buf).
    assert (0 < n <= length buf /\ rel + n <= bs) as (Hn&Hn2) by (unfold n; case_decide; lia).
    exists n. eexists. split; [reflexivity|]. split; [done|]. split; [done|].
    assert (length (take n buf) = n) as Htn by (rewrite take_length; lia).
    split.
    { eexists. split; [reflexivity|]. intros Hc. rewrite length_fwrite.
      case_decide; lia. }
    assert (forall p, off <= p < off + n -> p / bs = off / bs /\ p mod bs = rel + (p - off)) as Hdiv.
    { intros p Hp. apply div_eq; lia. }
    split; [intros; by apply Hdiv|].
    intros ino' p. unfold bat, content. simpl.
    destruct (decide ((ino', p / bs) = (ino, off / bs))) as [Heq|Hne].
    - rewrite Heq, lookup_insert. simpl. injection Heq as -> Hpb.
      rewrite byte_at_fwrite, Htn. fold (content s (ino, off / bs)).
      pose proof (dm p) as (Hpd&Hpm).
      destruct (decide (ino = ino /\ off <= p < off + n)) as [(_&Hp)|Hp].
      + rewrite decide_True by nia. rewrite byte_at_take, decide_True by nia. f_equal. nia.
      + rewrite decide_False; [done|]. intros Hr. apply Hp. split; [done|]. nia.
    - rewrite lookup_insert_ne by done. rewrite decide_False; [done|].
      intros (->&Hp). apply Hne. f_equal. by apply Hdiv.
  Qed.

  (** ** Reading *)

  (** A state that differs from [s] only by empty blocks added to the cache. *)
  Definition touched (s s' : fstate) : Prop :=
    exists bl : gset (nat * nat), (forall k, k ∈ bl -> lost s !! k = None) /\
      sizes s' = sizes s /\ locked s' = locked s /\ lost s' = lost s /\ failsafe s' = failsafe s /\
      broken s' = broken s /\
      forall k, blks s' !! k = if decide (k ∈ bl) then Some (content s k) else blks s !! k.

  Lemma touched_refl s : touched s s.
  Proof. exists ∅. split_and!; auto. set_solver. Qed.

  Lemma touched_content s s' k : touched s s' -> content s' k = content s k.
  Proof.
    intros (bl&_&_&_&_&_&_&Hb). unfold content. rewrite Hb. case_decide; done.
  Qed.
  Lemma touched_bat s s' ino p : touched s s' -> bat s' ino p = bat s ino p.
  Proof. intros H. unfold bat. by rewrite (touched_content s s'). Qed.

  (** Only blocks of [ino] that overlap [off, off+len) are touched. *)
  Definition touched_in (ino off len : nat) (s s' : fstate) : Prop :=
    exists bl : gset (nat * nat),
      (forall k, k ∈ bl -> lost s !! k = None /\ exists p, off <= p < off + len /\ k = (ino, p / bs)) /\
      sizes s' = sizes s /\ locked s' = locked s /\ lost s' = lost s /\ failsafe s' = failsafe s /\
      broken s' = broken s /\
      forall k, blks s' !! k = if decide (k ∈ bl) then Some (content s k) else blks s !! k.

  Lemma touched_in_touched ino off len s s' : touched_in ino off len s s' -> touched s s'.
  Proof. intros (bl&H&?). exists bl. split; [|done]. intros k Hk. by apply H. Qed.

  Lemma read_loop_spec fuel s ino off len acc :
    len <= fuel ->
    (forall k, k ∈ broken s -> failsafe s = true) ->
    exists s1 s', touched_in ino off len s s1 /\
      ((exists l, read_loop fuel bs s ino off len acc = (s', Ok (acc ++ l)) /\ s' = s1 /\ length l = len
         /\ (forall p, off <= p < off + len -> lost s !! (ino, p / bs) = None)
         /\ forall i, i < len -> byte_at l i = bat s ino (off + i)) \/
       read_loop fuel bs s ino off len acc = (s', Err EIO) /\
         (s' = s1 \/ exists k, s' = set_broken k s1) /\ failsafe s' = true /\
         (exists p, off <= p < off + len /\ (lost s !! (ino, p / bs) <> None \/ (ino, p / bs) ∈ broken s))).
  Proof.
    revert s off len acc. induction fuel as [|fuel IH]; intros s off len acc Hf Hbr.
    - assert (len = 0) as -> by lia. exists s, s. split.
      { exists ∅. split_and!; auto; set_solver. }
      left. exists []. simpl. rewrite app_nil_r. split_and!; auto; intros; lia.
    - simpl. case_decide as H0.
      { subst len. exists s, s. split.
        { exists ∅. split_and!; auto; set_solver. }
        left. exists []. rewrite app_nil_r. split_and!; auto; intros; lia. }
      destruct (readwrite_read_spec s ino off len ltac:(lia)) as [(l&->&Hl&Hlen&Hsb&Hb)|(Hbrk&Hr)].
      + set (s1 := set_blks (insert (ino, off / bs) (content s (ino, off / bs))) s).
        destruct (IH s1 (off + length l) (len - length l) (acc ++ l)) as (s2&s'&Ht&Hor); [lia|done|].
        assert (forall k, content s1 k = content s k) as Hc1.
        { intros k. unfold content at 1. simpl.
          destruct (decide (k = (ino, off / bs))) as [->|]; [by rewrite lookup_insert|].
          by rewrite lookup_insert_ne. }
        assert (touched_in ino off len s s2) as Hts.
        { destruct Ht as (bl&Hbl&E1&E2&E3&E4&E5&E6). exists (bl ∪ {[(ino, off / bs)]}). split.
          - intros k [Hk| ->%elem_of_singleton]%elem_of_union.
            + destruct (Hbl _ Hk) as (?&p&?&?). split; [done|]. exists p. split; [lia|done].
            + split; [done|]. exists off. split; [lia|done].
          - split_and!; try done. intros k. rewrite E6. rewrite Hc1. simpl.
            destruct (decide (k = (ino, off / bs))) as [->|Hk].
            + rewrite lookup_insert. rewrite (decide_True (P := _ ∈ bl ∪ _)) by set_solver.
              by case_decide.
            + rewrite lookup_insert_ne by done.
              destruct (decide (k ∈ bl)); [rewrite decide_True by set_solver; done|].
              rewrite decide_False by set_solver. done. }
        exists s2, s'. split; [done|].
        destruct Hor as [(l'&->&->&Hl'&Hlost&Hb')|(->&Hs'&Hfs&p&Hp&Hor)].
        * left. exists (l ++ l'). rewrite app_assoc, app_length. split_and!; try done; [lia| |].
          { intros p Hp. destruct (decide (p < off + length l)).
            - rewrite Hsb by lia. done.
            - change (lost s) with (lost s1). apply Hlost. lia. }
          intros i Hi. rewrite byte_at_app. case_decide.
          { by apply Hb. }
          rewrite Hb' by lia. unfold bat. rewrite Hc1. f_equal; [do 3 f_equal; lia|f_equal; lia].
        * right. split_and!; try done. exists p. split; [lia|]. by change (lost s) with (lost s1).
      + assert (touched_in ino off len s s) as Ht.
        { exists ∅. split_and!; auto; set_solver. }
        assert (exists p, off <= p < off + len /\
          (lost s !! (ino, p / bs) <> None \/ (ino, p / bs) ∈ broken s)) as Hex.
        { exists off. split; [lia|]. destruct (lost s !! (ino, off / bs)); [by left|right; by apply Hbrk]. }
        destruct Hr as [(Hr&Hin)|Hr]; rewrite Hr.
        * exists s, s. split; [done|]. right. split_and!; eauto.
        * exists s. eexists. split; [done|]. right. split_and!; eauto.
  Qed.

  Lemma R_touched_in s a ino off len f s' :
    R s a -> arrays a !! ino = Some f -> off + len <= length f ->
    touched_in ino off len s s' -> R s' a.
  Proof.
    intros [R1 R2 R3 R4 R5 R6 R7 R8] Hf Hlen Ht.
    pose proof (touched_in_touched _ _ _ _ _ Ht) as Ht'.
    destruct Ht as (bl&Hbl&E1&E2&E3&E4&E5&E6).
    split.
    - by rewrite E1.
    - by rewrite E2.
    - intros ino' f' p Hf' Hp. rewrite E3. rewrite (touched_bat s) by done. by apply R3.
    - rewrite E4. intros Hfs ino' f' p Hf' Hp. rewrite (touched_bat s) by done. eauto.
    - rewrite E4, E3. intros Hfs ino' b Hb. rewrite E6 in Hb. case_decide as Hk; [|by apply R5].
      destruct (Hbl _ Hk) as (_&p&Hp&Heq). simplify_eq. exists f. split; [done|].
      pose proof (dm p). nia.
    - intros k Hk. rewrite E3 in Hk. rewrite E6. case_decide as Hk'; [|by apply R6].
      destruct (Hbl _ Hk') as (Hn&_). rewrite Hn in Hk. by destruct Hk.
    - rewrite E5, E4. apply R7.
    - intros k c. rewrite E6. case_decide; [|by apply R8].
      intros [= <-]. unfold content. destruct (blks s !! k) eqn:E; simpl; [by eapply R8|lia].
  Qed.

  Lemma R_set_broken s a k : R s a -> R (set_broken k s) a.
  Proof. intros [R1 R2 R3 R4 R5 R6 R7 R8]. split; simpl; try done. Qed.

  Lemma step_read s a ino off len s' r :
    R s a -> step ceil_div bs s (Read ino off len) = (s', r) ->
    exists a', R s' a' /\ allowed a (Read ino off len) a' r /\
      ((forall k, lost s !! k = None) -> failsafe s = false ->
        ideal a (Read ino off len) = (a', r)).
  Proof.
    intros HR Hs. simpl in Hs. unfold do_read in Hs. pose proof (r_size s a HR ino) as Hsz.
    destruct (arrays a !! ino) as [f|] eqn:Hf; simpl in Hsz; rewrite Hsz in Hs.
    2:{ simpl in Hs. injection Hs as <- <-. exists a. split; [done|].
        assert (ideal a (Read ino off len) = (a, AErr Raised)) as Hi by (simpl; by rewrite Hf).
        split; [by apply Ideal|done]. }
    set (n := min (length f - off) len) in Hs.
    destruct (read_loop_spec n s ino off n [] ltac:(lia) (r_broken s a HR)) as (s1&s2&Ht&Hor).
    assert (R s1 a) as HR1.
    { destruct (decide (n = 0)) as [Hn0|Hn0].
      - destruct Ht as (bl&Hbl&E1&E2&E3&E4&E5&E6).
        assert (s1 = s) as ->; [|done].
        destruct s1 as [x1 x2 x3 x4 x5 x6], s as [y1 y2 y3 y4 y5 y6]. simpl in *. subst.
        f_equal. apply map_eq. intros k. rewrite E6. case_decide as Hk; [|done].
        destruct (Hbl _ Hk) as (_&p&Hp&_). lia.
      - eapply R_touched_in; [done|done| |exact Ht]. lia. }
    destruct Hor as [(l&He&->&Hl&Hlost&Hb)|(He&Hs2&Hfs&p&Hp&Hpl)]; rewrite He in Hs; simpl in Hs;
      injection Hs as <- <-.
    - exists a. split; [done|].
      assert (ideal a (Read ino off len) = (a, AData l)) as Hi.
      { simpl. rewrite Hf. do 2 f_equal. symmetry. apply file_ext.
        - rewrite length_fread, Hl. lia.
        - rewrite Hl. intros i Hi. rewrite byte_at_fread, decide_True by lia. rewrite Hb by done.
          apply (r_data s a HR); [done|lia|]. apply Hlost. lia. }
      split; [by apply Ideal|done].
    - exists a. split; [destruct Hs2 as [->|[k ->]]; [done|by apply R_set_broken]|].
      split; [apply ReadFails|]. intros Hnl Hnf. destruct Hpl as [Hpl|Hpl].
      + by rewrite Hnl in Hpl.
      + apply (r_broken s a HR) in Hpl. congruence.
  Qed.

  (** ** Writing *)
  Lemma write_loop_spec fuel s ino off buf :
    length buf <= fuel ->
    (forall k, k ∈ broken s -> failsafe s = true) ->
    (forall k c, blks s !! k = Some c -> length c <= bs) ->
    exists s' n,
      sizes s' = sizes s /\ locked s' = locked s /\ lost s' = lost s /\ n <= length buf /\
      (forall ino' p, bat s' ino' p =
         if decide (ino' = ino /\ off <= p < off + n) then byte_at buf (p - off) else bat s ino' p) /\
      (forall k, is_Some (blks s' !! k) <-> is_Some (blks s !! k) \/
         exists p, off <= p < off + n /\ k = (ino, p / bs)) /\
      (forall p, off <= p < off + n -> lost s !! (ino, p / bs) = None) /\
      (forall k c, blks s' !! k = Some c -> length c <= bs) /\
      (write_loop fuel bs s ino off buf = (s', Ok tt) /\ n = length buf /\ failsafe s' = failsafe s /\
         broken s' = broken s \/
       write_loop fuel bs s ino off buf = (s', Err EIO) /\ failsafe s' = true /\
         exists p, lost s !! (ino, p / bs) <> None \/ (ino, p / bs) ∈ broken s).
  Proof.
    revert s off buf. induction fuel as [|fuel IH]; intros s off buf Hf Hbr Hbnd.
    { destruct buf; simpl in Hf; [|lia]. exists s, 0. simpl. split_and!; auto; try (intros; lia).
      - intros ino' p. rewrite decide_False by lia. done.
      - intros k. split; [by left|]. intros [?|(p&?&?)]; [done|lia]. }
    simpl. case_decide as H0.
    { subst buf. exists s, 0. simpl. split_and!; auto; try (intros; lia).
      - intros ino' p. rewrite decide_False by lia. done.
      - intros k. split; [by left|]. intros [?|(p&?&?)]; [done|lia]. }
    destruct (readwrite_write_spec s ino off buf H0)
      as [(n1&s1&->&Hn1&Hl1&(c&Hs1&Hc)&Hsb&Hb1)|(Hbrk&Hr)].
    - assert (forall k c, blks s1 !! k = Some c -> length c <= bs) as Hbnd1.
      { intros k c' Hk. subst s1. simpl in Hk. apply lookup_insert_Some in Hk as [(_&<-)|(_&Hk)]; [|eauto].
        apply Hc. unfold content. destruct (blks s !! (ino, off / bs)) eqn:E; simpl; [eauto|lia]. }
      destruct (IH s1 (off + n1) (drop n1 buf)) as (s'&n&E1&E2&E3&Hn&Hbat&Hdom&Hlost&Hbnd'&Hor).
      { rewrite drop_length. lia. }
      { subst s1. done. }
      { done. }
      rewrite drop_length in *.
      assert (lost s1 = lost s /\ failsafe s1 = failsafe s /\ broken s1 = broken s /\
              sizes s1 = sizes s /\ locked s1 = locked s) as (F1&F2&F3&F4&F5) by (subst s1; done).
      exists s', (n1 + n). rewrite E1, E2, E3. split_and!; try done; try lia.
      + intros ino' p. rewrite Hbat, Hb1.
        destruct (decide (ino' = ino /\ off + n1 <= p < off + n1 + n)) as [(->&Hp)|Hp].
        * rewrite decide_True by lia. rewrite byte_at_drop. f_equal. lia.
        * destruct (decide (ino' = ino /\ off <= p < off + n1)) as [(->&Hp')|Hp'].
          -- by rewrite decide_True by lia.
          -- rewrite decide_False; [done|]. lia.
      + intros k. rewrite Hdom. assert (is_Some (blks s1 !! k) <->
            is_Some (blks s !! k) \/ k = (ino, off / bs)) as ->.
        { subst s1. simpl. rewrite lookup_insert_is_Some'. naive_solver. }
        split.
        * intros [[?| ->]|(p&Hp&->)]; [by left|right; exists off; split; [lia|done]|].
          right. exists p. split; [lia|done].
        * intros [?|(p&Hp&->)]; [auto|].
          destruct (decide (p < off + n1)) as [Hlt|Hge].
          -- rewrite Hsb by lia. auto.
          -- right. exists p. split; [lia|done].
      + intros p Hp. destruct (decide (p < off + n1)).
        * rewrite Hsb by lia. done.
        * rewrite <- F1. apply Hlost. lia.
      + destruct Hor as [(->&->&Hf'&Hb')|(->&Hf'&p&Hp)].
        * left. split_and!; [done|lia|congruence|congruence].
        * right. split_and!; [done|done|]. exists p. rewrite <- F1, <- F3. done.
    - assert (exists p, lost s !! (ino, p / bs) <> None \/ (ino, p / bs) ∈ broken s) as Hex.
      { exists off. destruct (lost s !! (ino, off / bs)); [by left|right; by apply Hbrk]. }
      assert (exists s', readwrite_write bs s ino off buf = (s', Err EIO) /\
                failsafe s' = true /\ (s' = s \/ s' = set_broken (ino, off / bs) s)) as (s'&->&Hfs&Hs').
      { destruct Hr as [(Hr&Hin)|Hr].
        - exists s. split_and!; auto. by eapply Hbr.
        - eexists. split; [exact Hr|]. split; [done|auto]. }
      exists s', 0. assert (sizes s' = sizes s /\ locked s' = locked s /\ lost s' = lost s /\
         blks s' = blks s) as (->&->&->&Hbl) by (destruct Hs' as [->| ->]; done).
      split_and!; try done; try lia.
      + intros ino' p. rewrite decide_False by lia. unfold bat, content. by rewrite Hbl.
      + intros k. rewrite Hbl. split; [by left|]. intros [?|(p&?&?)]; [done|lia].
      + by rewrite Hbl.
      + right. auto.
  Qed.

  Lemma step_write s a ino off buf s' r :
    R s a -> buf <> [] -> step ceil_div bs s (Write ino off buf) = (s', r) ->
    exists a', R s' a' /\ allowed a (Write ino off buf) a' r /\
      ((forall k, lost s !! k = None) -> failsafe s = false ->
        ideal a (Write ino off buf) = (a', r) /\ failsafe s' = false).
  Proof.
    intros HR Hne Hs. simpl in Hs. unfold do_write in Hs. pose proof (r_size s a HR ino) as Hsz.
    destruct (arrays a !! ino) as [f|] eqn:Hf; simpl in Hsz; rewrite Hsz in Hs.
    2:{ simpl in Hs. injection Hs as <- <-. exists a. split; [done|].
        assert (ideal a (Write ino off buf) = (a, AErr Raised)) as Hi by (simpl; by rewrite Hf).
        split; [by apply Ideal|done]. }
    case_decide as Hperm.
    { simpl in Hs. injection Hs as <- <-. exists a. split; [done|]. split.
      - apply FailsafeWrite.
      - intros _ Hnf. split; [|done]. simpl. rewrite Hf. rewrite decide_True; [done|].
        destruct Hperm as [|Hl]; [congruence|]. by rewrite <- (r_prot s a HR). }
    assert (failsafe s = false) as Hfs by (destruct (failsafe s); [|done]; tauto).
    assert (ino ∉ prot a) as Hnp by (rewrite <- (r_prot s a HR); tauto).
    destruct (write_loop_spec (length buf) s ino off buf ltac:(lia) (r_broken s a HR) (r_bound s a HR))
      as (s1&n&E1&E2&E3&Hn&Hbat&Hdom&Hlost&Hbnd&Hor).
    destruct HR as [R1 R2 R3 R4 R5 R6 R7 R8].
    destruct Hor as [(He&->&Hf1&Hb1)|(He&Hf1&p&Hp)]; rewrite He in Hs; simpl in Hs;
      injection Hs as <- <-.
    - set (a' := Files_ (<[ino := fwrite off buf f]> (arrays a)) (prot a)).
      assert (length (fwrite off buf f) = max (length f) (off + length buf)) as Hlf.
      { rewrite length_fwrite, decide_False; done. }
      exists a'. split.
      2:{ assert (ideal a (Write ino off buf) = (a', ANum (length buf))) as Hi.
          { simpl. rewrite Hf, decide_False by done. done. }
          split; [by apply Ideal|]. intros _ _. simpl. by rewrite Hf1. }
      split; simpl.
      + intros ino'. rewrite E1. destruct (decide (ino' = ino)) as [->|Hi].
        * rewrite lookup_alter, lookup_insert, Hsz. simpl. by rewrite Hlf.
        * rewrite lookup_alter_ne, lookup_insert_ne by done. apply R1.
      + by rewrite E2.
      + intros ino' f' p Hf' Hp Hnl. unfold bat, content. simpl. fold (content s1 (ino', p / bs)).
        fold (bat s1 ino' p). rewrite Hbat. rewrite E3 in Hnl.
        apply lookup_insert_Some in Hf' as [(<-&<-)|(Hi&Hf')].
        * rewrite byte_at_fwrite. rewrite Hlf in Hp.
          destruct (decide (off <= p < off + length buf)) as [Hr|Hr].
          -- by rewrite decide_True.
          -- rewrite decide_False by tauto. destruct (decide (p < length f)).
             ++ by apply R3.
             ++ rewrite byte_at_ge by lia. eapply R4; [done|done|lia].
        * rewrite decide_False by (intros (?&?); done). by apply R3.
      + intros _ ino' f' p Hf' Hp. unfold bat, content. simpl. fold (content s1 (ino', p / bs)).
        fold (bat s1 ino' p). rewrite Hbat.
        apply lookup_insert_Some in Hf' as [(<-&<-)|(Hi&Hf')].
        * rewrite Hlf in Hp. rewrite decide_False by lia. eapply R4; [done|done|lia].
        * rewrite decide_False by (intros (?&?); done). eauto.
      + intros _ ino' b Hb. rewrite E3 in Hb. rewrite Hdom in Hb.
        assert ((is_Some (blks s !! (ino', b)) \/ is_Some (lost s !! (ino', b))) \/
          exists p, off <= p < off + length buf /\ (ino', b) = (ino, p / bs)) as [Hb'|(p&Hp&Heq)] by tauto.
        * destruct (R5 Hfs _ _ Hb') as (f'&Hf'&Hlt). destruct (decide (ino' = ino)) as [->|Hi].
          -- rewrite lookup_insert. eexists. split; [done|]. rewrite Hlf. simplify_eq. lia.
          -- rewrite lookup_insert_ne by done. eauto.
        * simplify_eq. rewrite lookup_insert. eexists. split; [done|]. rewrite Hlf.
          pose proof (dm p). nia.
      + intros k Hk. rewrite E3 in Hk. destruct (blks s1 !! k) eqn:Ek; [|done]. exfalso.
        assert (is_Some (blks s1 !! k)) as Hk' by eauto.
        apply Hdom in Hk' as [Hk'|(p&Hp&->)].
        * rewrite R6 in Hk' by done. by destruct Hk'.
        * rewrite Hlost in Hk by done. by destruct Hk.
      + intros k. rewrite Hb1, Hf1. apply R7.
      + exact Hbnd.
    - set (g := take (length f) (fwrite off (take n buf) f)).
      assert (length g = length f) as Hg.
      { unfold g. rewrite take_length, length_fwrite. case_decide; lia. }
      exists (Files_ (<[ino := g]> (arrays a)) (prot a)). split.
      2:{ split; [by apply WriteFails|]. intros Hnl _. destruct Hp as [Hp|Hp].
          - by rewrite Hnl in Hp.
          - apply R7 in Hp. congruence. }
      assert (length (take n buf) = n) as Htn by (rewrite take_length; lia).
      split; simpl; try (rewrite Hf1; done).
      + intros ino'. rewrite E1. destruct (decide (ino' = ino)) as [->|Hi].
        * rewrite lookup_insert, Hsz. simpl. by rewrite Hg.
        * rewrite lookup_insert_ne by done. apply R1.
      + by rewrite E2.
      + intros ino' f' q Hf' Hq Hnl. rewrite Hbat. rewrite E3 in Hnl.
        apply lookup_insert_Some in Hf' as [(<-&<-)|(Hi&Hf')].
        * rewrite Hg in Hq. unfold g. rewrite byte_at_take, (decide_True (P := q < length f)) by done.
          rewrite byte_at_fwrite, Htn.
          destruct (decide (off <= q < off + n)) as [Hr|Hr].
          -- rewrite decide_True by done. rewrite byte_at_take, decide_True by lia. done.
          -- rewrite decide_False by tauto. by apply R3.
        * rewrite decide_False by (intros (?&?); done). by apply R3.
      + intros k Hk. rewrite E3 in Hk. destruct (blks s1 !! k) eqn:Ek; [|done]. exfalso.
        assert (is_Some (blks s1 !! k)) as Hk' by eauto.
        apply Hdom in Hk' as [Hk'|(q&Hq&->)].
        * rewrite R6 in Hk' by done. by destruct Hk'.
        * rewrite Hlost in Hk by done. by destruct Hk.
      + exact Hbnd.
  Qed.

  (** ** Truncation *)
  Lemma remove_blks s ino from to k :
    blks (cache_remove s ino from to) !! k =
    if decide (k.1 = ino /\ from <= k.2 < to) then None else blks s !! k.
  Proof.
    simpl. case_decide.
    - apply map_filter_lookup_None. right. simpl. tauto.
    - destruct (blks s !! k) eqn:E.
      + by apply map_filter_lookup_Some.
      + apply map_filter_lookup_None. by left.
  Qed.
  Lemma remove_lost s ino from to k :
    lost (cache_remove s ino from to) !! k =
    if decide (k.1 = ino /\ from <= k.2 < to) then None else lost s !! k.
  Proof.
    simpl. case_decide.
    - apply map_filter_lookup_None. right. simpl. tauto.
    - destruct (lost s !! k) eqn:E.
      + by apply map_filter_lookup_Some.
      + apply map_filter_lookup_None. by left.
  Qed.
  Lemma remove_bat s ino from to ino' p :
    bat (cache_remove s ino from to) ino' p =
    if decide (ino' = ino /\ from <= p / bs < to) then 0 else bat s ino' p.
  Proof.
    unfold bat, content. rewrite remove_blks. simpl.
    case_decide; [|done]. simpl. by destruct (p mod bs).
  Qed.

  Lemma step_truncate s a ino len s' r :
    R s a -> step ceil_div bs s (Truncate ino len) = (s', r) ->
    exists a', R s' a' /\ allowed a (Truncate ino len) a' r /\
      ((forall k, lost s !! k = None) -> failsafe s = false ->
        ideal a (Truncate ino len) = (a', r) /\ failsafe s' = false).
  Proof.
    intros HR Hs. simpl in Hs. unfold do_truncate in Hs. pose proof (r_size s a HR ino) as Hsz.
    destruct (arrays a !! ino) as [f|] eqn:Hf; simpl in Hsz; rewrite Hsz in Hs.
    2:{ simpl in Hs. injection Hs as <- <-. exists a. split; [done|].
        assert (ideal a (Truncate ino len) = (a, AErr Raised)) as Hi by (simpl; by rewrite Hf).
        split; [by apply Ideal|done]. }
    case_decide as Hperm.
    { simpl in Hs. injection Hs as <- <-. exists a. split; [done|]. split.
      - apply FailsafeTruncate.
      - intros _ Hnf. split; [|done]. simpl. rewrite Hf. rewrite decide_True; [done|].
        destruct Hperm as [|Hl]; [congruence|]. by rewrite <- (r_prot s a HR). }
    assert (failsafe s = false) as Hfs by (destruct (failsafe s); [|done]; tauto).
    assert (ino ∉ prot a) as Hnp by (rewrite <- (r_prot s a HR); tauto).
    set (a' := Files_ (<[ino := ftrunc len f]> (arrays a)) (prot a)).
    assert (ideal a (Truncate ino len) = (a', ADone)) as Hi.
    { simpl. rewrite Hf, decide_False by done. done. }
    destruct HR as [R1 R2 R3 R4 R5 R6 R7 R8].
    pose proof (dm len) as (Hld&Hlm).
    (* blocks kept by the removal *)
    set (from := if decide (len mod bs = 0) then len / bs else len / bs + 1).
    set (s0 := cache_remove (set_sizes (insert ino len) s) ino from (ceil_div (length f) bs)).
    assert (forall b, b < from <-> b * bs < len) as Hfrom.
    { intros b. unfold from. case_decide; nia. }
    assert (forall p, p < len -> p / bs < from) as Hfromp.
    { intros p Hp. apply Hfrom. pose proof (dm p). nia. }
    assert (forall ino' f' p, arrays a !! ino' = Some f' -> ino' = ino ->
              p < len -> lost s0 !! (ino', p / bs) = None -> bat s0 ino' p = byte_at (ftrunc len f) p) as Hd1.
    { intros ino' f' p Hf' -> Hp Hnl. unfold s0 in *. rewrite remove_bat. rewrite remove_lost in Hnl.
      simpl in Hnl. pose proof (Hfromp p Hp). rewrite decide_False in Hnl by lia; rewrite decide_False by lia.
      rewrite byte_at_ftrunc, decide_True by done.
      change (bat (set_sizes (insert ino len) s) ino p) with (bat s ino p).
      destruct (decide (p < length f)); [by apply R3|].
      rewrite byte_at_ge by lia. eapply R4; [done|exact Hf|lia]. }
    assert (forall b, is_Some (blks s0 !! (ino, b)) \/ is_Some (lost s0 !! (ino, b)) -> b * bs < len) as Hrange.
    { intros b Hb. unfold s0 in Hb. rewrite remove_blks, remove_lost in Hb. simpl in Hb.
      apply Hfrom. case_decide as Hdec; [destruct Hb as [[? ?]|[? ?]]; done|].
      destruct (R5 Hfs ino b Hb) as (f'&Hf'&Hlt). simplify_eq. apply ceil_le in Hlt. lia. }
    assert (forall ino' b, ino' <> ino -> is_Some (blks s0 !! (ino', b)) \/ is_Some (lost s0 !! (ino', b)) ->
              exists f', arrays a !! ino' = Some f' /\ b * bs < length f') as Hrange'.
    { intros ino' b Hne Hb. unfold s0 in Hb. rewrite remove_blks, remove_lost in Hb. simpl in Hb.
      rewrite !decide_False in Hb by tauto. by apply R5. }
    assert (forall ino' p, ino' <> ino -> bat s0 ino' p = bat s ino' p) as Hbo.
    { intros ino' p Hne. unfold s0. rewrite remove_bat, decide_False by tauto. done. }
    assert (forall k, is_Some (lost s0 !! k) -> blks s0 !! k = None) as Hdisj.
    { intros k. unfold s0. rewrite remove_blks, remove_lost.
      repeat gdec; intros [? Hx]; try done; try (exfalso; tauto); apply R6; eauto. }
    assert (forall k, k.1 <> ino -> lost s0 !! k = lost s !! k) as Hlo.
    { intros k Hk. unfold s0. rewrite remove_lost, decide_False by tauto. done. }
    assert (forall k, lost s0 !! k = None \/ lost s0 !! k = lost s !! k) as Hlsub.
    { intros k. unfold s0. rewrite remove_lost. gdec; [by left|by right]. }
    assert (forall k c, blks s0 !! k = Some c -> length c <= bs) as Hbnd.
    { intros k c. unfold s0. rewrite remove_blks. gdec; [done|]. apply R8. }
    assert (forall ino', sizes s0 !! ino' = length <$> arrays a' !! ino') as Hsz'.
    { intros ino'. unfold s0. simpl. destruct (decide (ino' = ino)) as [->|Hne].
      - rewrite !lookup_insert. simpl. by rewrite length_ftrunc.
      - rewrite !lookup_insert_ne by done. apply R1. }
    (* the common part: any state that agrees with s0 except in the last block *)
    assert (forall fl br, (failsafe s = true -> fl = true) ->
        (forall k, k ∈ br -> fl = true) ->
        (fl = false -> forall p, len <= p -> bat s0 ino p = 0) ->
        R (FState (sizes s0) (locked s0) (blks s0) (lost s0) fl br) a') as HR0.
    { intros fl br Hfl Hbr Hh. split; try done.
      - intros ino' f' p Hf' Hp Hnl. simpl in *. change (bat _ ino' p) with (bat s0 ino' p).
        apply lookup_insert_Some in Hf' as [(<-&<-)|(Hne&Hf')].
        + rewrite length_ftrunc in Hp. by eapply Hd1.
        + rewrite Hbo by done. apply R3; [done|done|]. by rewrite <- Hlo.
      - simpl. intros Hfl' ino' f' p Hf' Hp. change (bat _ ino' p) with (bat s0 ino' p).
        apply lookup_insert_Some in Hf' as [(<-&<-)|(Hne&Hf')].
        + rewrite length_ftrunc in Hp. auto.
        + rewrite Hbo by done. eauto.
      - simpl. intros Hfl' ino' b Hb. destruct (decide (ino' = ino)) as [->|Hne].
        + rewrite lookup_insert. eexists. split; [done|]. rewrite length_ftrunc. auto.
        + rewrite lookup_insert_ne by done. auto. }
    assert (s0 = FState (sizes s0) (locked s0) (blks s0) (lost s0) (failsafe s) (broken s)) as Hs0eta.
    { by unfold s0, cache_remove. }
    destruct (decide (len mod bs = 0)) as [Hc0|Hc0].
    { (* whole blocks *)
      simpl in Hs. injection Hs as <- <-.
      assert (from = len / bs) as Hfr by done.
      rewrite <- Hfr. fold s0.
      exists a'. split; [|split; [by apply Ideal|done]].
      rewrite Hs0eta. apply HR0; [done|apply R7|].
      intros _ p Hp. unfold s0. rewrite remove_bat. case_decide as Hdec; [done|].
      change (bat (set_sizes (insert ino len) s) ino p) with (bat s ino p).
      eapply R4; [done|exact Hf|].
      destruct (decide (length f <= p)) as [|Hlt]; [done|exfalso]. apply Hdec. split; [done|].
      split; [rewrite Hfr; apply Nat.div_le_mono; lia|]. apply div_lt_ceil. lia. }
    assert (from = len / bs + 1) as Hfr by done.
    rewrite <- Hfr in Hs. fold s0 in Hs.
    destruct (lost s0 !! (ino, len / bs)) as [d|] eqn:Hl.
    { (* last block cannot be fetched: its bytes are not visible anyway *)
      assert (lost s !! (ino, len / bs) = Some d) as Hl' by (destruct (Hlsub (ino, len / bs)); congruence).
      assert (forall p, len <= p -> bat s0 ino p = 0) as Hh.
      { intros p Hp. destruct (decide (p / bs = len / bs)) as [Heq|Hneq].
        - unfold bat, content. rewrite Heq. rewrite Hdisj by eauto. simpl. by destruct (p mod bs).
        - unfold s0. rewrite remove_bat. case_decide as Hdec; [done|].
          change (bat (set_sizes (insert ino len) s) ino p) with (bat s ino p).
          eapply R4; [done|exact Hf|].
          destruct (decide (length f <= p)) as [|Hlt]; [done|exfalso]. apply Hdec. split; [done|].
          pose proof (Nat.div_le_mono len p bs ltac:(lia) ltac:(lia)).
          split; [rewrite Hfr; lia|]. apply div_lt_ceil. lia. }
      exists a'. destruct d; simpl in Hs; injection Hs as <- <-.
      - split; [rewrite Hs0eta; apply HR0; auto|]. split; [eapply TruncateFails; auto|].
        intros Hnl. by rewrite Hnl in Hl'.
      - split; [apply HR0; auto|]. split; [eapply TruncateFails; auto|].
        intros Hnl. by rewrite Hnl in Hl'. }
    (* last block truncated *)
    simpl in Hs. injection Hs as <- <-.
    set (c := ftrunc (len mod bs) (content s0 (ino, len / bs))).
    set (s2 := set_blks (insert (ino, len / bs) c) s0).
    change (FState _ _ _ _ _ _) with s2.
    assert (forall ino' p, bat s2 ino' p =
       if decide (ino' = ino /\ p / bs = len / bs) then
         if decide (p < len) then bat s0 ino' p else 0
       else bat s0 ino' p) as Hb2.
    { intros ino' p. unfold bat at 1. unfold content. simpl.
      destruct (decide (ino' = ino /\ p / bs = len / bs)) as [(->&Heq)|Hne].
      - rewrite Heq, lookup_insert. simpl. unfold c. rewrite byte_at_ftrunc. pose proof (dm p).
        unfold bat. rewrite Heq. destruct (decide (p < len)).
        + rewrite decide_True by nia. done.
        + rewrite decide_False by nia. done.
      - rewrite lookup_insert_ne; [done|]. intros Heq. injection Heq as H1 H2. apply Hne. split; congruence. }
    exists a'. split; [|split; [by apply Ideal|done]].
    split.
    - exact Hsz'.
    - exact R2.
    - intros ino' f' p Hf' Hp Hnl. rewrite Hb2.
      unfold a' in Hf'; simpl in Hf'. apply lookup_insert_Some in Hf' as [(<-&<-)|(Hne&Hf')].
      + rewrite length_ftrunc in Hp. rewrite (decide_True (P := p < len)) by done.
        case_decide; by eapply Hd1.
      + rewrite decide_False by (intros (?&?); done). rewrite Hbo by done. apply R3; [done|done|]. by rewrite <- Hlo.
    - intros _ ino' f' p Hf' Hp. rewrite Hb2.
      unfold a' in Hf'; simpl in Hf'. apply lookup_insert_Some in Hf' as [(<-&<-)|(Hne&Hf')].
      + rewrite length_ftrunc in Hp. rewrite (decide_False (P := p < len)) by lia.
        case_decide as Hdec; [done|].
        unfold s0. rewrite remove_bat. case_decide as Hdec'; [done|].
        change (bat (set_sizes (insert ino len) s) ino p) with (bat s ino p).
        eapply R4; [done|exact Hf|].
        destruct (decide (length f <= p)) as [|Hlt]; [done|exfalso]. apply Hdec'. split; [done|].
        pose proof (Nat.div_le_mono len p bs ltac:(lia) ltac:(lia)).
        split; [rewrite Hfr; lia|]. apply div_lt_ceil. lia.
      + rewrite decide_False by (intros (?&?); done). rewrite Hbo by done. eauto.
    - intros _ ino' b Hb. destruct (decide (ino' = ino)) as [->|Hne].
      + simpl. rewrite lookup_insert. eexists. split; [done|]. rewrite length_ftrunc.
        destruct (decide (b = len / bs)) as [->|Hnb]; [nia|]. apply Hrange.
        destruct Hb as [Hb|Hb]; [left|right; done]. unfold s2 in Hb. simpl in Hb.
        rewrite lookup_insert_ne in Hb by congruence. done.
      + simpl. rewrite lookup_insert_ne by done. apply Hrange'; [done|].
        destruct Hb as [Hb|Hb]; [left|right; done]. unfold s2 in Hb. simpl in Hb.
        rewrite lookup_insert_ne in Hb by congruence. done.
    - intros k Hk. unfold s2. simpl. destruct (decide (k = (ino, len / bs))) as [->|Hne].
      + change (lost s2) with (lost s0) in Hk. rewrite Hl in Hk. by destruct Hk.
      + rewrite lookup_insert_ne by done. by apply Hdisj.
    - exact R7.
    - intros k c'. unfold s2. simpl. intros [(_&<-)|(_&Hk)]%lookup_insert_Some; [|by eapply Hbnd].
      unfold c. rewrite length_ftrunc. lia.
  Qed.

  (** ** The other calls *)
  Lemma step_create s a ino s' r :
    R s a -> step ceil_div bs s (Create ino) = (s', r) ->
    exists a', R s' a' /\ allowed a (Create ino) a' r /\
      (failsafe s = false -> ideal a (Create ino) = (a', r) /\ failsafe s' = false).
  Proof.
    intros HR Hs. simpl in Hs. unfold do_create in Hs. pose proof (r_size s a HR ino) as Hsz.
    destruct (arrays a !! ino) as [f|] eqn:Hf; simpl in Hsz; rewrite Hsz in Hs; simpl in Hs.
    { injection Hs as <- <-. exists a. split; [done|].
      assert (ideal a (Create ino) = (a, AErr Raised)) as Hi by (simpl; by rewrite Hf).
      split; [by apply Ideal|done]. }
    destruct (failsafe s) eqn:Hfs; simpl in Hs; injection Hs as <- <-.
    { exists a. split; [done|]. split; [apply FailsafeCreate|done]. }
    set (a' := Files_ (<[ino := []]> (arrays a)) (prot a)). exists a'. split.
    2:{ assert (ideal a (Create ino) = (a', ADone)) as Hi by (simpl; by rewrite Hf).
        split; [by apply Ideal|done]. }
    destruct HR as [R1 R2 R3 R4 R5 R6 R7 R8]. split; try done.
    - intros ino'. simpl. destruct (decide (ino' = ino)) as [->|Hne].
      + by rewrite !lookup_insert.
      + rewrite !lookup_insert_ne by done. apply R1.
    - intros ino' f' p Hf' Hp. simpl in Hf'.
      apply lookup_insert_Some in Hf' as [(<-&<-)|(Hne&Hf')]; [simpl in Hp; lia|]. by apply R3.
    - intros _ ino' f' p Hf' Hp. simpl in Hf'. change (bat _ ino' p) with (bat s ino' p).
      apply lookup_insert_Some in Hf' as [(<-&<-)|(Hne&Hf')]; [|eauto].
      unfold bat, content. destruct (blks s !! (ino, p / bs)) eqn:E; [|by destruct (p mod bs)].
      destruct (R5 Hfs ino (p / bs)) as (f'&Hf'&_); [eauto|]. congruence.
    - intros _ ino' b Hb. simpl. destruct (R5 Hfs ino' b Hb) as (f'&Hf'&Hlt).
      assert (ino' <> ino) by congruence. rewrite lookup_insert_ne by done. eauto.
  Qed.

  Lemma step_purge s a ino s' r :
    R s a -> step ceil_div bs s (Purge ino) = (s', r) ->
    exists a', R s' a' /\ ideal a (Purge ino) = (a', r) /\ failsafe s' = failsafe s.
  Proof.
    intros HR Hs. simpl in Hs. unfold do_purge in Hs. pose proof (r_size s a HR ino) as Hsz.
    destruct (arrays a !! ino) as [f|] eqn:Hf; simpl in Hsz; rewrite Hsz in Hs; simpl in Hs;
      injection Hs as <- <-.
    2:{ exists a. split; [done|]. split; [simpl; by rewrite Hf|done]. }
    exists (Files_ (delete ino (arrays a)) (prot a)). split; [|split; [simpl; by rewrite Hf|done]].
    destruct HR as [R1 R2 R3 R4 R5 R6 R7 R8].
    set (s0 := cache_remove s ino 0 (ceil_div (length f) bs)).
    change (FState _ _ _ _ _ _) with (set_sizes (delete ino) s0).
    split; try done.
    - intros ino'. simpl. destruct (decide (ino' = ino)) as [->|Hne].
      + by rewrite !lookup_delete.
      + rewrite !lookup_delete_ne by done. apply R1.
    - intros ino' f' p Hf' Hp. simpl in Hf'. apply lookup_delete_Some in Hf' as (Hne&Hf').
      change (lost (set_sizes (delete ino) s0)) with (lost s0).
      change (bat (set_sizes (delete ino) s0) ino' p) with (bat s0 ino' p).
      unfold s0. rewrite remove_lost, remove_bat. simpl.
      rewrite !decide_False by (intros (?&?); done). by apply R3.
    - intros Hfs ino' f' p Hf' Hp. simpl in Hf'. apply lookup_delete_Some in Hf' as (Hne&Hf').
      change (bat (set_sizes (delete ino) s0) ino' p) with (bat s0 ino' p).
      unfold s0. rewrite remove_bat. rewrite !decide_False by (intros (?&?); done). by eapply R4.
    - intros Hfs ino' b Hb. change (lost (set_sizes (delete ino) s0)) with (lost s0) in Hb.
      change (blks (set_sizes (delete ino) s0)) with (blks s0) in Hb. unfold s0 in Hb.
      rewrite remove_blks, remove_lost in Hb. simpl in Hb. case_decide as Hdec.
      { destruct Hb as [[? ?]|[? ?]]; done. }
      destruct (R5 Hfs ino' b Hb) as (f'&Hf'&Hlt). simpl.
      assert (ino' <> ino).
      { intros ->. apply Hdec. simplify_eq. apply ceil_le in Hlt. split; [done|lia]. }
      rewrite lookup_delete_ne by done. eauto.
    - intros k. change (lost (set_sizes (delete ino) s0)) with (lost s0).
      change (blks (set_sizes (delete ino) s0)) with (blks s0). unfold s0.
      rewrite remove_blks, remove_lost.
      repeat case_decide; intros [? Hx]; try done; try (exfalso; tauto); apply R6; eauto.
    - intros k c. change (blks (set_sizes (delete ino) s0)) with (blks s0). unfold s0.
      rewrite remove_blks. case_decide; [done|]. apply R8.
  Qed.

  Lemma step_damage s a k d s' r :
    R s a -> step ceil_div bs s (Damage k d) = (s', r) -> R s' a /\ r = ADone.
  Proof.
    intros [R1 R2 R3 R4 R5 R6 R7 R8] Hs. simpl in Hs.
    destruct (blks s !! k) as [c|] eqn:Hk; injection Hs as <- <-; [|split; [split|]; done].
    split; [|done]. split; try done; simpl.
    - intros ino f p Hf Hp Hnl. apply lookup_insert_None in Hnl as (Hnl&Hne).
      unfold bat, content. simpl. rewrite lookup_delete_ne by done. by apply R3.
    - intros Hfs ino f p Hf Hp. unfold bat, content. simpl.
      destruct (decide (k = (ino, p / bs))) as [->|Hne].
      + rewrite lookup_delete. simpl. by destruct (p mod bs).
      + rewrite lookup_delete_ne by done. by eapply R4.
    - intros Hfs ino b Hb. apply R5; [done|]. destruct (decide (k = (ino, b))) as [->|Hne].
      + left. eauto.
      + rewrite lookup_delete_ne, lookup_insert_ne in Hb by done. done.
    - intros k' Hk'. destruct (decide (k = k')) as [->|Hne]; [apply lookup_delete|].
      rewrite lookup_insert_ne in Hk' by done. rewrite lookup_delete_ne by done. by apply R6.
    - intros k' c' Hk'. apply lookup_delete_Some in Hk' as (_&Hk'). eauto.
  Qed.

  Lemma step_ok s a o s' r :
    R s a -> nonempty_writes o -> step ceil_div bs s o = (s', r) ->
    exists a', R s' a' /\ allowed a o a' r.
  Proof.
    intros HR Hne Hs. destruct o as [ino|ino off len|ino off buf|ino len|ino|ino|ino|k d].
    - destruct (step_create _ _ _ _ _ HR Hs) as (a'&?&?&_); eauto.
    - destruct (step_read _ _ _ _ _ _ _ HR Hs) as (a'&?&?&_); eauto.
    - destruct (step_write _ _ _ _ _ _ _ HR Hne Hs) as (a'&?&?&_); eauto.
    - destruct (step_truncate _ _ _ _ _ _ HR Hs) as (a'&?&?&_); eauto.
    - exists a. simpl in Hs. pose proof (r_size s a HR ino) as Hsz.
      destruct (arrays a !! ino) as [f|] eqn:Hf; simpl in Hsz; rewrite Hsz in Hs;
        injection Hs as <- <-; split; try done; apply Ideal; simpl; by rewrite Hf.
    - destruct (step_purge _ _ _ _ _ HR Hs) as (a'&?&?&_). exists a'. split; [done|by apply Ideal].
    - injection Hs as <- <-. exists (Files_ (arrays a) ({[ino]} ∪ prot a)). split; [|by apply Ideal].
      destruct HR as [R1 R2 R3 R4 R5 R6 R7 R8]. split; try done. simpl. by rewrite R2.
    - destruct (step_damage _ _ _ _ _ _ HR Hs) as (?&->). exists a. split; [done|by apply Ideal].
  Qed.

  (** Healthy runs. *)
  Definition healthy (s : fstate) : Prop := lost s = ∅ /\ failsafe s = false.

  Lemma lost_step s o s' r k :
    no_damage o -> step ceil_div bs s o = (s', r) -> is_Some (lost s' !! k) -> is_Some (lost s !! k).
  Proof.
    intros Hnd Hs Hk. destruct o as [ino|ino off len|ino off buf|ino len|ino|ino|ino|]; simpl in Hs; [..|done].
    - unfold do_create in Hs. repeat case_match; simplify_eq/=; done.
    - unfold do_read in Hs. destruct (sizes s !! ino); [|by simplify_eq/=].
      assert (forall fuel s off len acc, is_Some (lost (read_loop fuel bs s ino off len acc).1 !! k) ->
                is_Some (lost s !! k)) as Hl.
      { clear. induction fuel as [|fuel IH]; intros s off len acc; simpl; case_decide; try done.
        destruct (readwrite_read bs s ino off len) as [s1 [tmp|e]] eqn:E; simpl.
        - intros H'%IH. unfold readwrite_read in E. repeat case_match; simplify_eq/=; done.
        - unfold readwrite_read in E. repeat case_match; simplify_eq/=; done. }
      match type of Hs with context [read_loop ?a ?b ?c ?d ?e ?f ?g] =>
        specialize (Hl a c e f g); destruct (read_loop a b c d e f g) as [s1 [?|?]] end;
      simpl in *; simplify_eq; auto.
    - unfold do_write in Hs. destruct (sizes s !! ino); [|by simplify_eq/=].
      case_decide; [by simplify_eq/=|].
      assert (forall fuel s off buf, is_Some (lost (write_loop fuel bs s ino off buf).1 !! k) ->
                is_Some (lost s !! k)) as Hl.
      { clear. induction fuel as [|fuel IH]; intros s off buf; simpl; case_decide; try done.
        destruct (readwrite_write bs s ino off buf) as [s1 [tmp|e]] eqn:E; simpl.
        - intros H'%IH. unfold readwrite_write in E. repeat case_match; simplify_eq/=; done.
        - unfold readwrite_write in E. repeat case_match; simplify_eq/=; done. }
      match type of Hs with context [write_loop ?a ?b ?c ?d ?e ?f] =>
        specialize (Hl a c e f); destruct (write_loop a b c d e f) as [s1 [?|?]] end;
      simpl in *; simplify_eq; auto.
    - unfold do_truncate in Hs. destruct (sizes s !! ino); [|by simplify_eq/=].
      case_decide; [by simplify_eq/=|].
      assert (forall s ino from to, is_Some (lost (cache_remove s ino from to) !! k) -> is_Some (lost s !! k)) as Hl.
      { intros ????. rewrite remove_lost. gdec; [intros [? ?]; done|done]. }
      repeat case_match; simplify_eq/=; exact (Hl (set_sizes (insert ino len) s) ino _ _ Hk).
    - repeat case_match; simplify_eq/=; done.
    - unfold do_purge in Hs. destruct (sizes s !! ino); simplify_eq/=; [|done].
      change (is_Some (lost (cache_remove s ino 0 (ceil_div n bs)) !! k)) in Hk.
      rewrite remove_lost in Hk. case_decide; [by destruct Hk|done].
    - simplify_eq/=. done.
  Qed.

  Lemma step_healthy s a o s' r :
    R s a -> healthy s -> nonempty_writes o -> no_damage o -> step ceil_div bs s o = (s', r) ->
    exists a', R s' a' /\ ideal a o = (a', r) /\ healthy s'.
  Proof.
    intros HR (Hl&Hfs) Hne Hnd Hs.
    assert (forall k, lost s !! k = None) as Hnl by (intros; by rewrite Hl, lookup_empty).
    assert (lost s' = ∅) as Hl'.
    { apply map_empty. intros k. destruct (lost s' !! k) eqn:E; [|done].
      destruct (lost_step _ _ _ _ k Hnd Hs) as [? ?]; [eauto|]. congruence. }
    enough (exists a', R s' a' /\ ideal a o = (a', r) /\ failsafe s' = false) as (a'&?&?&?).
    { exists a'. split; [done|]. split; [done|]. by split. }
    destruct o as [ino|ino off len|ino off buf|ino len|ino|ino|ino|k d]; [..|done].
    - destruct (step_create _ _ _ _ _ HR Hs) as (a'&?&_&Hi). destruct (Hi Hfs). eauto.
    - destruct (step_read _ _ _ _ _ _ _ HR Hs) as (a'&HR'&_&Hi). exists a'. split; [done|].
      specialize (Hi Hnl Hfs). split; [done|].
      simpl in Hs. unfold do_read in Hs. destruct (sizes s !! ino) as [sz|] eqn:Esz; [|by simplify_eq/=].
      destruct (read_loop_spec (min (sz - off) len) s ino off (min (sz - off) len) [] ltac:(lia)
         (r_broken s a HR)) as (s1&s2&Ht&[(l&He&->&_)|(He&_)]); rewrite He in Hs; simpl in Hs;
        injection Hs as <- <-.
      + destruct Ht as (?&_&_&_&_&->&_). done.
      + simpl in Hi. destruct (arrays a !! ino); simplify_eq.
    - destruct (step_write _ _ _ _ _ _ _ HR Hne Hs) as (a'&?&_&Hi). destruct (Hi Hnl Hfs). eauto.
    - destruct (step_truncate _ _ _ _ _ _ HR Hs) as (a'&?&_&Hi). destruct (Hi Hnl Hfs). eauto.
    - exists a. simpl in Hs. pose proof (r_size s a HR ino) as Hsz.
      destruct (arrays a !! ino) as [f|] eqn:Hf; simpl in Hsz; rewrite Hsz in Hs;
        injection Hs as <- <-; simpl; rewrite Hf; split_and!; done.
    - destruct (step_purge _ _ _ _ _ HR Hs) as (a'&?&?&Hf). exists a'. rewrite Hf. done.
    - injection Hs as <- <-. exists (Files_ (arrays a) ({[ino]} ∪ prot a)). split; [|done].
      destruct HR as [R1 R2 R3 R4 R5 R6 R7 R8]. split; try done. simpl. by rewrite R2.
  Qed.

  Lemma run_healthy s a os :
    R s a -> healthy s -> Forall nonempty_writes os -> Forall no_damage os ->
    (run ceil_div bs s os).2 = (ideal_run a os).2 /\ R (run ceil_div bs s os).1 (ideal_run a os).1 /\ healthy (run ceil_div bs s os).1.
  Proof.
    revert s a. induction os as [|o os IH]; intros s a HR Hh Hne Hnd; simpl; [done|].
    inversion Hne; subst. inversion Hnd; subst.
    destruct (step ceil_div bs s o) as [s1 r] eqn:Hs.
    destruct (step_healthy _ _ _ _ _ HR Hh ltac:(done) ltac:(done) Hs) as (a1&HR1&Hi&Hh1).
    rewrite Hi. destruct (IH s1 a1) as (IH1&IH2&IH3); [done..|].
    destruct (run ceil_div bs s1 os), (ideal_run a1 os). simpl in *. by rewrite IH1.
  Qed.

  Lemma run_allowed s a os :
    R s a -> Forall nonempty_writes os ->
    exists a', R (run ceil_div bs s os).1 a' /\ allowed_run a os a' (run ceil_div bs s os).2.
  Proof.
    revert s a. induction os as [|o os IH]; intros s a HR Hne; simpl.
    { exists a. split; [done|constructor]. }
    inversion Hne; subst. destruct (step ceil_div bs s o) as [s1 r] eqn:Hs.
    destruct (step_ok _ _ _ _ _ HR ltac:(done) Hs) as (a1&HR1&Ha).
    destruct (IH s1 a1) as (a2&HR2&Ha2); [done..|]. exists a2.
    destruct (run ceil_div bs s1 os). simpl in *. split; [done|]. econstructor; done.
  Qed.
End proofs.
