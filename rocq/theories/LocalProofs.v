(** The local backend stores what it is given. *)
From stdpp Require Import prelude gmap.
From Verif Require Import Text LocalModel LocalPaths LocalSpec.

Lemma write_at_end {byte} (l c : list byte) : write_at (length c) l c = c ++ l.
Proof. unfold write_at. rewrite firstn_all, drop_ge by lia. by rewrite app_nil_r. Qed.
Lemma parents_spec p p' : p' ∈ parents p <-> p' <> [] /\ exists n q, p = p' ++ n :: q.
Proof.
  unfold parents. rewrite elem_of_list_fmap. split.
  - intros (j & -> & Hj%elem_of_seq). split.
    + intros E. apply (f_equal length) in E. rewrite take_length in E. cbn in E. lia.
    + destruct (drop j p) as [|n q] eqn:E. { apply (f_equal length) in E. rewrite drop_length in E. cbn in E. lia. }
      exists n, q. rewrite <- E. by rewrite take_drop.
  - intros (Hne & n & q & ->). exists (length p'). split; [by rewrite take_app|]. apply elem_of_seq. rewrite app_length. cbn. destruct p'; [done|]. cbn. lia.
Qed.
Lemma parents_snoc {A} (d : list A) a : (fun n => take n (d ++ [a])) <$> seq 1 (length (d ++ [a]) - 1) = (fun n => take n d) <$> seq 1 (length d).
Proof.
  rewrite app_length. cbn [length]. replace (length d + 1 - 1) with (length d) by lia. apply list_fmap_ext. intros i x Hx. apply lookup_seq in Hx as [-> Hx]. rewrite take_app_le by lia. done.
Qed.
Section proofs.
Context {byte meta : Type} `{!EqDecision byte}.
Context (header : list byte) (pack : nat -> list byte) (unpack : list byte -> nat) (freeze : meta -> list byte) (thaw : list byte -> option meta) (ident : str).
Context (Hheader : length header = 7) (Hpack : forall n, length (pack n) = 2) (Hunpack : forall n, n < 2 ^ 16 -> unpack (pack n) = n).
Context (Hthaw : forall m, thaw (freeze m) = Some m) (Hident : good_ident ident).
Local Notation state := (state byte meta).
Local Notation step := (step header pack unpack freeze thaw ident).
Local Notation encode := (encode header pack freeze).
Local Notation decode := (decode header unpack thaw).
Local Notation history := (history header pack unpack freeze thaw ident).
Local Notation tmp := (tmp ident).
Local Notation objects := (gmap str (meta * list byte)).

Lemma decode_encode m d l : encode m d = Some l -> decode l = Some (m, d).
Proof using Hheader Hpack Hunpack Hthaw.
  unfold LocalModel.encode, LocalModel.decode. case_decide as D; [|done]. intros [= <-].
  assert (take 9 (header ++ pack (length (freeze m)) ++ freeze m ++ d) = header ++ pack (length (freeze m))) as E.
  { rewrite app_assoc, take_app_alt; [done|]. rewrite app_length, Hheader, Hpack. done. }
  assert (drop 9 (header ++ pack (length (freeze m)) ++ freeze m ++ d) = freeze m ++ d) as E'.
  { rewrite app_assoc, drop_app_alt; [done|]. rewrite app_length, Hheader, Hpack. done. }
  rewrite E, E'. rewrite take_app. rewrite decide_True by done. rewrite app_length, Hheader, Hpack. cbn [Nat.add Nat.sub].
  rewrite drop_app_alt by done. rewrite Hunpack by done. rewrite take_app, drop_app, Hthaw. done.
Qed.
Lemma obj_inj k1 k2 : obj k1 = obj k2 -> k1 = k2.
Proof. apply path_inj. Qed.
Lemma tmp_obj k1 k2 : tmp k1 <> obj k2.
Proof using Hident.
  unfold LocalModel.tmp, obj. rewrite tmp_path_key. intros H. eapply (tmp_not_path ident k1 k2 Hident (escape k1 ++ ident)); [|done]. rewrite <- H. apply elem_of_app. right. left.
Qed.
Lemma tmp_parent k1 k2 n q : obj k2 <> tmp k1 ++ n :: q.
Proof using Hident.
  unfold LocalModel.tmp, obj. rewrite tmp_path_key. intros H. eapply (tmp_not_path ident k1 k2 Hident (escape k1 ++ ident)); [|done]. rewrite H. apply elem_of_app. left. apply elem_of_app. right. left.
Qed.
Lemma tmp_inj' k1 k2 : tmp k1 = tmp k2 -> k1 = k2.
Proof using Hident. by apply tmp_inj. Qed.

Lemma parents_tmp k : parents (tmp k) = parents (obj k).
Proof. unfold LocalModel.tmp, obj. rewrite tmp_path_key. pose proof (path_split k) as E. set (d := dirname (key_to_path k)) in *. rewrite E. unfold parents. by rewrite !parents_snoc. Qed.

Definition wtask (s : state) t k m d i pos todo : Prop := tasks s !! t = Some (Writing k m d i pos todo).
Record inv (s : state) (st : objects) (ex : gmap nat (meta * list byte)) : Prop := Inv {
  j_inj : forall p q i, names s !! p = Some i -> names s !! q = Some i -> p = q;
  j_data : forall p i, names s !! p = Some i -> is_Some (data s !! i);
  j_names : forall p i, names s !! p = Some i -> (exists k, p = obj k) \/ (exists k, p = tmp k);
  j_dirs : forall p, p ∈ dirs s -> p <> [] /\ exists k n q, obj k = p ++ n :: q;
  j_parents : forall p i p', names s !! p = Some i -> p' ∈ parents p -> p' ∈ dirs s;
  j_closed : forall p p', p ∈ dirs s -> p' ∈ parents p -> p' ∈ dirs s;
  j_writing : forall t k m d i pos todo, wtask s t k m d i pos todo -> names s !! tmp k = Some i /\ exists c, data s !! i = Some c /\ pos = length c /\ encode m d = Some (c ++ concat todo);
  j_alone : forall t t' k m d i pos todo m' d' i' pos' todo', wtask s t k m d i pos todo -> wtask s t' k m' d' i' pos' todo' -> t = t';
  j_store : forall k, match names s !! obj k with None => st !! k = None | Some i => exists m d l, st !! k = Some (m, d) /\ data s !! i = Some l /\ encode m d = Some l end;
  j_reading : forall t k i got, tasks s !! t = Some (Reading k i got) -> (forall k', names s !! tmp k' <> Some i) /\
    exists m d l, ex !! t = Some (m, d) /\ data s !! i = Some l /\ encode m d = Some l /\ got `prefix_of` l }.
Lemma inv_empty : inv empty_dir ∅ ∅.
Proof. constructor; cbn; try done; intros; try set_solver. Qed.
(** Changing only a task. *)
Lemma inv_set_task s st ex ex' t x : inv s st ex -> (forall t', t' <> t -> ex' !! t' = ex !! t') ->
  (forall k m d i pos todo, x = Some (Writing k m d i pos todo) -> tasks s !! t = x) ->
  (forall k i got, x = Some (Reading k i got) -> (forall k', names s !! tmp k' <> Some i) /\ exists m d l, ex' !! t = Some (m, d) /\ data s !! i = Some l /\ encode m d = Some l /\ got `prefix_of` l) ->
  inv (set_task t x s) st ex'.
Proof.
  intros [H1 H2 H3 H4 HP HC H5 H6 H7 H8] Hex Hw Hr. constructor; cbn; try done.
  - intros t' k m d i pos todo H. unfold wtask in H. cbn in H. destruct (decide (t' = t)) as [->|Hne]; [rewrite lookup_partial_alter in H|rewrite lookup_partial_alter_ne in H by done; by eapply H5].
    eapply H5. unfold wtask. rewrite (Hw _ _ _ _ _ _ H). done.
  - intros t1 t2 k m d i pos todo m' d' i' pos' todo' Ha Hb. unfold wtask in Ha, Hb. cbn in Ha, Hb.
    assert (forall t' k m d i pos todo, partial_alter (fun _ => x) t (tasks s) !! t' = Some (Writing k m d i pos todo) -> tasks s !! t' = Some (Writing k m d i pos todo)) as Hback.
    { intros t' k0 m0 d0 i0 p0 l0 H. destruct (decide (t' = t)) as [->|Hne]; [rewrite lookup_partial_alter in H|by rewrite lookup_partial_alter_ne in H]. by rewrite (Hw _ _ _ _ _ _ H). }
    eapply H6; unfold wtask; [by apply Hback in Ha|by apply Hback in Hb].
  - intros t' k i got H. destruct (decide (t' = t)) as [->|Hne].
    + rewrite lookup_partial_alter in H. by eapply Hr.
    + rewrite lookup_partial_alter_ne in H by done. rewrite Hex by done. by eapply H8.
Qed.
Lemma step_inv s st ex e s' o : inv s st ex -> allowed e s -> step e s = Some (s', o) -> inv s' (after e o s st) (seen e s st ex).
Proof using Hident.
  intros Hinv Ha H. pose proof Hinv as [H1 H2 H3 H4 HP HC H5 H6 H7 H8].
  destruct e as [t key m d|t pieces|t n|t|t key|t|t n|t|key|]; cbn [LocalModel.step] in H.
  - case_decide as D; [|done]. injection H as <- <-. cbn. apply (inv_set_task s st ex); try done.
  - destruct (tasks s !! t) as [[key m d| | |]|] eqn:Et; try done. destruct (encode m d) as [l|] eqn:Ee.
    2: { injection H as <- <-. cbn. apply (inv_set_task s st ex); try done. }
    case_decide as D; [|done]. destruct (decide (Exists _ _ \/ _)) as [DX|DX] in H.
    { injection H as <- <-. cbn. apply (inv_set_task s st ex); try done. }
    injection H as <- <-. cbn [after seen]. set (i := default (fresh (dom (data s))) (names s !! tmp key)).
    assert (forall p, names s !! p = Some i -> p = tmp key) as Hi.
    { intros p Hp. subst i. destruct (names s !! tmp key) as [j|] eqn:Ej; cbn in Hp; [by eapply H1|]. destruct (H2 _ _ Hp) as [c Hc]. exfalso. apply (is_fresh (dom (data s))). apply elem_of_dom. eauto. }
    assert (forall j, j ∈ dom (data s) -> names s !! tmp key <> Some j -> j <> i) as Hfresh.
    { intros j Hj Hn ->. subst i. destruct (names s !! tmp key) as [j|] eqn:Ej; [done|]. cbn in Hj. by apply (is_fresh (dom (data s))). }
    assert (forall t' m' d' i' pos' todo', tasks s !! t' <> Some (Writing key m' d' i' pos' todo')) as Hexcl by (intros; eapply Ha; exact Et).
    constructor; cbn.
    + intros p q j Hp Hq. destruct (decide (p = tmp key)) as [->|Hpn]; destruct (decide (q = tmp key)) as [->|Hqn]; try done.
      * rewrite lookup_insert in Hp. injection Hp as <-. rewrite lookup_insert_ne in Hq by done. symmetry. by apply Hi.
      * rewrite lookup_insert in Hq. injection Hq as <-. rewrite lookup_insert_ne in Hp by done. by apply Hi.
      * rewrite lookup_insert_ne in Hp, Hq by done. by eapply H1.
    + intros p j Hp. destruct (decide (j = i)) as [->|Hj]; [by rewrite lookup_insert|]. rewrite lookup_insert_ne by done.
      destruct (decide (p = tmp key)) as [->|Hpn]; [rewrite lookup_insert in Hp; congruence|]. rewrite lookup_insert_ne in Hp by done. by eapply H2.
    + intros p j Hp. destruct (decide (p = tmp key)) as [->|Hpn]; [right; by exists key|]. rewrite lookup_insert_ne in Hp by done. by eapply H3.
    + intros p Hp. apply elem_of_union in Hp as [Hp|Hp]; [by apply H4|]. apply elem_of_list_to_set in Hp. apply parents_spec in Hp as (Hp & n & q & Hq). split; [done|]. by exists key, n, q.
    + intros p j p' Hp Hp'. apply elem_of_union. destruct (decide (p = tmp key)) as [->|Hpn]; [right; apply elem_of_list_to_set; by rewrite <- parents_tmp|]. rewrite lookup_insert_ne in Hp by done. left. by eapply HP.
    + intros p p' Hp Hp'. apply elem_of_union. apply elem_of_union in Hp as [Hp|Hp]; [left; by eapply HC|right]. apply elem_of_list_to_set in Hp. apply elem_of_list_to_set.
      apply parents_spec in Hp as (Hp & n & q & Hq). apply parents_spec in Hp' as (Hp' & n' & q' & ->). apply parents_spec. split; [done|]. exists n', (q' ++ n :: q). rewrite Hq. by rewrite <- app_assoc.
    + intros t' k m' d' j pos todo Hw. unfold wtask in Hw. cbn in Hw. destruct (decide (t' = t)) as [->|Hne].
      * rewrite lookup_insert in Hw. injection Hw as <- <- <- <- <- <-. rewrite !lookup_insert. split; [done|]. exists []. cbn. by rewrite D.
      * rewrite lookup_insert_ne in Hw by done. destruct (H5 _ _ _ _ _ _ _ Hw) as [Hn (c & Hc & Hpos & Henc)].
        assert (k <> key) as Hk. { intros ->. by eapply Hexcl. }
        rewrite lookup_insert_ne by (intros E; by apply tmp_inj' in E). split; [done|]. exists c. rewrite lookup_insert_ne; [done|]. intros ->. apply Hi in Hn. by apply tmp_inj' in Hn.
    + intros t1 t2 k m1 d1 i1 pos1 todo1 m2 d2 i2 pos2 todo2 Hw1 Hw2. unfold wtask in Hw1, Hw2. cbn in Hw1, Hw2.
      destruct (decide (t1 = t)) as [->|N1]; destruct (decide (t2 = t)) as [->|N2]; try done.
      * rewrite lookup_insert in Hw1. rewrite lookup_insert_ne in Hw2 by done. injection Hw1 as <- <- <- <- <- <-. exfalso. by eapply Hexcl.
      * rewrite lookup_insert in Hw2. rewrite lookup_insert_ne in Hw1 by done. injection Hw2 as <- <- <- <- <- <-. exfalso. by eapply Hexcl.
      * rewrite lookup_insert_ne in Hw1, Hw2 by done. by eapply H6.
    + intros k. rewrite lookup_insert_ne by apply tmp_obj. specialize (H7 k). destruct (names s !! obj k) as [j|] eqn:Ej; [|done]. destruct H7 as (m1 & d1 & l1 & ? & ? & ?). exists m1, d1, l1.
      rewrite lookup_insert_ne; [done|]. intros ->. apply Hi in Ej. symmetry in Ej; by apply tmp_obj in Ej.
    + intros t' k j got Hr. destruct (decide (t' = t)) as [->|Hne]; [by rewrite lookup_insert in Hr|]. rewrite lookup_insert_ne in Hr by done.
      destruct (H8 _ _ _ _ Hr) as [Hn (m1 & d1 & l1 & E1 & E2 & E3 & E4)]. assert (j <> i) as Hji. { apply Hfresh; [apply elem_of_dom; eauto|apply Hn]. }
      split.
      * intros k'. destruct (decide (tmp k' = tmp key)) as [E|E]; [rewrite E, lookup_insert; congruence|]. rewrite lookup_insert_ne by done. apply Hn.
      * exists m1, d1, l1. by rewrite lookup_insert_ne.
  - destruct (tasks s !! t) as [[|key m d i pos [|l ls]| |]|] eqn:Et; try done. injection H as <- <-. cbn [after seen].
    specialize (Ha _ _ _ _ _ _ _ Et). rewrite (take_ge l) by done. destruct (H5 _ _ _ _ _ _ _ Et) as [Hn (c & Hc & -> & Henc)].
    rewrite Hc. change (default [] (Some c)) with c. rewrite write_at_end.
    constructor; cbn; try done.
    + intros p j Hp. destruct (decide (j = i)) as [->|Hj]; [by rewrite lookup_insert|]. rewrite lookup_insert_ne by done. by eapply H2.
    + intros t' k m' d' j pos' todo Hw. unfold wtask in Hw. cbn in Hw. destruct (decide (t' = t)) as [->|Hne].
      * rewrite lookup_insert in Hw. injection Hw as <- <- <- <- <- <-. split; [done|]. exists (c ++ l). rewrite lookup_insert, app_length. split_and!; try done. rewrite Henc. cbn. by rewrite app_assoc.
      * rewrite lookup_insert_ne in Hw by done. destruct (H5 _ _ _ _ _ _ _ Hw) as [Hn' Hc']. split; [done|]. rewrite lookup_insert_ne; [done|]. intros <-.
        pose proof (H1 _ _ _ Hn Hn') as E. apply tmp_inj' in E as <-. apply Hne. by eapply H6.
    + intros t1 t2 k m1 d1 i1 pos1 todo1 m2 d2 i2 pos2 todo2 Hw1 Hw2. unfold wtask in Hw1, Hw2. cbn in Hw1, Hw2.
      assert (forall t' k' m' d' i' p' l', <[t := Writing key m d i (length c + length l) ls]> (tasks s) !! t' = Some (Writing k' m' d' i' p' l') -> exists m'' d'' i'' p'' l'', wtask s t' k' m'' d'' i'' p'' l'') as Hb.
      { intros t' k' m' d' i' p' l' Hx. destruct (decide (t' = t)) as [->|Hne]; [rewrite lookup_insert in Hx; injection Hx as <- <- <- <- <- <-; unfold wtask; eauto 10|rewrite lookup_insert_ne in Hx by done; unfold wtask; eauto 10]. }
      apply Hb in Hw1 as (? & ? & ? & ? & ? & Hw1). apply Hb in Hw2 as (? & ? & ? & ? & ? & Hw2). by eapply H6.
    + intros k. specialize (H7 k). destruct (names s !! obj k) as [j|] eqn:Ej; [|done]. destruct H7 as (m1 & d1 & l1 & ? & ? & ?). exists m1, d1, l1.
      rewrite lookup_insert_ne; [done|]. intros <-. pose proof (H1 _ _ _ Hn Ej) as E. by apply tmp_obj in E.
    + intros t' k j got Hr. destruct (decide (t' = t)) as [->|Hne]; [by rewrite lookup_insert in Hr|]. rewrite lookup_insert_ne in Hr by done.
      destruct (H8 _ _ _ _ Hr) as [Hn' Hx]. split; [done|]. rewrite lookup_insert_ne; [done|]. intros <-. by eapply Hn'.
  - destruct (tasks s !! t) as [[|key m d i pos [|l ls]| |]|] eqn:Et; try done. destruct (H5 _ _ _ _ _ _ _ Et) as [Hn (c & Hc & -> & Henc)]. rewrite Hn in H.
    cbn [concat] in Henc. rewrite app_nil_r in Henc. destruct (decide (obj key ∈ dirs s)) as [DX|DX] in H.
    { injection H as <- <-. cbn. apply (inv_set_task s st ex); try done. }
    injection H as <- <-. cbn [after seen]. rewrite Et. pose proof (tmp_obj key key) as Hto.
    assert (forall p j, delete (tmp key) (<[obj key := i]> (names s)) !! p = Some j -> (p = obj key /\ j = i) \/ (p <> obj key /\ p <> tmp key /\ names s !! p = Some j)) as Hback.
    { intros p j Hp. apply lookup_delete_Some in Hp as [Hp1 Hp2]. destruct (decide (p = obj key)) as [->|Hpo]; [rewrite lookup_insert in Hp2; left; split; congruence|]. rewrite lookup_insert_ne in Hp2 by done. by right. }
    constructor; cbn.
    + intros p q j Hp Hq. apply Hback in Hp as [[-> ->]|(? & Hp1 & Hp)]; apply Hback in Hq as [[-> Hj]|(? & Hq1 & Hq)]; try done; subst.
      * exfalso. apply Hq1. by eapply H1.
      * exfalso. apply Hp1. by eapply H1.
      * by eapply H1.
    + intros p j Hp. apply Hback in Hp as [[-> ->]|(_ & _ & Hp)]; [by eauto|by eapply H2].
    + intros p j Hp. apply Hback in Hp as [[-> ->]|(_ & _ & Hp)]; [left; by exists key|by eapply H3].
    + done.
    + intros p j p' Hp Hp'. apply Hback in Hp as [[-> ->]|(_ & _ & Hp)]; [|by eapply HP]. rewrite <- parents_tmp in Hp'. by eapply HP.
    + done.
    + intros t' k m' d' j pos' todo Hw. unfold wtask in Hw. cbn in Hw. apply lookup_delete_Some in Hw as [Hne Hw]. destruct (H5 _ _ _ _ _ _ _ Hw) as [Hn' Hc']. split; [|done].
      assert (k <> key) as Hk. { intros ->. apply Hne. by eapply H6. }
      rewrite lookup_delete_ne by (intros E; by apply tmp_inj' in E). rewrite lookup_insert_ne; [done|]. intros E. symmetry in E. by apply tmp_obj in E.
    + intros t1 t2 k m1 d1 i1 pos1 todo1 m2 d2 i2 pos2 todo2 Hw1 Hw2. unfold wtask in Hw1, Hw2. cbn in Hw1, Hw2. apply lookup_delete_Some in Hw1 as [_ Hw1]. apply lookup_delete_Some in Hw2 as [_ Hw2]. by eapply H6.
    + intros k. destruct (decide (k = key)) as [->|Hk].
      * rewrite lookup_delete_ne, lookup_insert by done. exists m, d, c. by rewrite lookup_insert.
      * rewrite lookup_delete_ne by apply tmp_obj. rewrite lookup_insert_ne by (intros E; by apply obj_inj in E). rewrite lookup_insert_ne by done. apply H7.
    + intros t' k j got Hr. apply lookup_delete_Some in Hr as [_ Hr]. destruct (H8 _ _ _ _ Hr) as [Hn' Hx]. split; [|done]. intros k' E. apply Hback in E as [[E _]|(_ & _ & E)]; [by apply tmp_obj in E|by eapply Hn'].
  - case_decide as D; [|done]. injection H as <- <-. cbn. apply (inv_set_task s st ex); try done.
  - destruct (tasks s !! t) as [[| |key|]|] eqn:Et; try done. cbn [after seen]. rewrite Et. specialize (H7 key). destruct (names s !! obj key) as [i|] eqn:Ei; injection H as <- <-.
    + apply (inv_set_task s st ex); try done. { intros t' Hne. by rewrite lookup_partial_alter_ne. }
      intros k j got [= -> -> <-]. split; [intros k' E; pose proof (H1 _ _ _ E Ei) as E'; by apply tmp_obj in E'|]. destruct H7 as (m & d & l & E1 & E2 & E3). exists m, d, l. rewrite lookup_partial_alter. split_and!; try done. apply prefix_nil.
    + apply (inv_set_task s st ex); try done. intros t' Hne. by rewrite lookup_partial_alter_ne.
  - destruct (tasks s !! t) as [[| | |key i got]|] eqn:Et; try done. cbv zeta in H. case_decide as D; injection H as <- <-; cbn [after seen]; apply (inv_set_task s st ex); try done.
    intros k j got' [= <- <- <-]. destruct (H8 _ _ _ _ Et) as [Hn (m & d & l & E1 & E2 & E3 & [r ->])]. split; [done|]. exists m, d, (got ++ r). rewrite E2. change (default [] (Some (got ++ r))) with (got ++ r). split_and!; try done. rewrite drop_app.
    exists (drop (S n) r). rewrite <- app_assoc. by rewrite take_drop.
  - injection H as <- <-. cbn. apply (inv_set_task s st ex); try done.
  - injection H as <- <-. cbn [after seen]. constructor; cbn; try done.
    + intros p q j Hp Hq. apply lookup_delete_Some in Hp as [_ Hp]. apply lookup_delete_Some in Hq as [_ Hq]. by eapply H1.
    + intros p j Hp. apply lookup_delete_Some in Hp as [_ Hp]. by eapply H2.
    + intros p j Hp. apply lookup_delete_Some in Hp as [_ Hp]. by eapply H3.
    + intros p j p' Hp Hp'. apply lookup_delete_Some in Hp as [_ Hp]. by eapply HP.
    + intros t' k m' d' j pos' todo Hw. rewrite lookup_delete_ne; [by eapply H5|]. intros E. symmetry in E. by apply tmp_obj in E.
    + intros k. destruct (decide (k = key)) as [->|Hk]; [by rewrite !lookup_delete|]. rewrite lookup_delete_ne by (intros E; by apply obj_inj in E). rewrite lookup_delete_ne by done. apply H7.
    + intros t' k j got Hr. destruct (H8 _ _ _ _ Hr) as [Hn' Hx]. split; [|done]. intros k' E. apply lookup_delete_Some in E as [_ E]. by eapply Hn'.
  - injection H as <- <-. cbn [after seen]. constructor; cbn; try done.
Qed.
Lemma history_inv s st ex : history s st ex -> inv s st ex.
Proof using Hident. induction 1; [apply inv_empty|by eapply step_inv]. Qed.
End proofs.
