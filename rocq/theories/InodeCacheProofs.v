(** The inode cache refines the table. *)
From stdpp Require Import prelude list gmap fin_maps fin_map_dom.
From Verif Require Import InodeCacheModel InodeCacheSpec.

Section proofs.
Context {A : Type}.
Implicit Types (s : state A) (t : table A).

(** [ex]: an id that is being loaded or expired, whose row slot is exempted. *)
Record inv (n : nat) (s : state A) (t : table A) (cur : option nat) : Prop := {
  i_len : length (rows s) = n;
  i_pos : pos s < n;
  i_next : nextid s = t_next t;
  i_fresh : forall id, is_Some (db s !! id) -> id < nextid s;
  i_dom : forall id, is_Some (db s !! id) <-> is_Some (t_rows t !! id);
  i_obj : forall oid, is_Some (objs s !! oid) -> oid < nobj s;
  i_cached : forall id oid, attrs s !! id = Some oid ->
    exists a d, objs s !! oid = Some (Obj id a d) /\ t_rows t !! id = Some a /\
      (d = false -> db s !! id = Some a) /\ exists i, rows s !! i = Some (Some id);
  i_uncached : forall id, attrs s !! id = None -> db s !! id = t_rows t !! id;
  i_rows : forall i id, rows s !! i = Some (Some id) ->
    id < nextid s /\ (is_Some (db s !! id) -> is_Some (attrs s !! id));
  i_rows_inj : forall i j id, rows s !! i = Some (Some id) -> rows s !! j = Some (Some id) -> i = j;
  i_dirty : forall oid id a, objs s !! oid = Some (Obj id a true) -> attrs s !! id = Some oid;
  i_cur : forall v, cur = Some v -> exists oid id a d, vars s !! v = Some oid /\ t_vars t !! v = Some id /\
    objs s !! oid = Some (Obj id a d) /\ attrs s !! id = Some oid
}.

Lemma init_inv n tb next : 0 < n -> (forall id, is_Some (tb !! id) -> id < next) ->
  inv n (init n tb next) (Table tb next ∅) None.
Proof.
  intros Hn Hf. split; simpl; try done.
  - by rewrite replicate_length.
  - intros oid [? H]. by rewrite lookup_empty in H.
  - intros i id H. apply lookup_replicate in H as [[=] _].
  - intros i j id H. apply lookup_replicate in H as [[=] _].
Qed.

Lemma inv_forget n s t cur : inv n s t cur -> inv n s t None.
Proof. intros []. by split. Qed.

Lemma write_back_fields oid s :
  nextid (write_back oid s) = nextid s /\ nobj (write_back oid s) = nobj s /\
  attrs (write_back oid s) = attrs s /\ rows (write_back oid s) = rows s /\
  pos (write_back oid s) = pos s /\ vars (write_back oid s) = vars s.
Proof. unfold write_back. by destruct (objs s !! oid) as [[? ? []]|]. Qed.

(** Writing back a cached object. *)
Lemma inv_write_back n s t cur id oid :
  inv n s t cur -> attrs s !! id = Some oid -> inv n (write_back oid s) t cur.
Proof.
  intros Hi Hat. destruct (i_cached _ _ _ _ Hi _ _ Hat) as (a & d & Ho & Ht & Hd & Hr).
  unfold write_back. rewrite Ho. destruct d; [|done].
  destruct Hi. split; simpl; try done.
  - intros id'. rewrite lookup_alter_is_Some. apply i_fresh0.
  - intros id'. rewrite lookup_alter_is_Some. apply i_dom0.
  - intros oid'. destruct (decide (oid' = oid)) as [->|Hne].
    + intros _. apply i_obj0. by eexists.
    + rewrite lookup_insert_ne by done. apply i_obj0.
  - intros id' oid' Hat'. destruct (i_cached0 _ _ Hat') as (a' & d' & Ho' & Ht' & Hd' & Hr').
    destruct (decide (id' = id)) as [->|Hid].
    + assert (oid' = oid) as -> by congruence. assert (a' = a) as -> by congruence.
      exists a, false. rewrite lookup_insert, lookup_alter. split; [done|]. split; [done|].
      split; [|done]. intros _. destruct (proj2 (i_dom0 id)) as [x Hx]; [by eexists|]. by rewrite Hx.
    + assert (oid' <> oid) by (intros ->; congruence).
      exists a', d'. rewrite lookup_insert_ne, lookup_alter_ne by done. done.
  - intros id' Hn. assert (id' <> id) by congruence. rewrite lookup_alter_ne by done. by apply i_uncached0.
  - intros i id' Hi. rewrite lookup_alter_is_Some. by apply (i_rows0 i).
  - intros oid' id' a'. destruct (decide (oid' = oid)) as [->|Hne].
    + rewrite lookup_insert. intros [=].
    + rewrite lookup_insert_ne by done. apply i_dirty0.
  - intros v Hv. destruct (i_cur0 v Hv) as (oid' & id' & a' & d' & H1 & H2 & H3 & H4).
    destruct (decide (oid' = oid)) as [->|Hne].
    + exists oid, id', a', false. rewrite lookup_insert.
      rewrite Ho in H3. injection H3 as <- <- <-. done.
    + exists oid', id', a', d'. by rewrite lookup_insert_ne.
Qed.

(** Expiring a row whose slot is given up at the same time. *)
Lemma expire_alt id oid s : attrs s !! id = Some oid ->
  expire (Some id) s = set_attrs (delete id) (write_back oid s).
Proof.
  intros H. unfold expire. rewrite H. unfold write_back, set_attrs; simpl.
  by destruct (objs s !! oid) as [[? ? []]|].
Qed.

Lemma inv_expire n s t id i r :
  inv n s t None -> rows s !! i = Some (Some id) ->
  (r = None \/ exists id', r = Some id' /\ id' < nextid s /\ id' <> id /\ (forall j, rows s !! j <> Some (Some id')) /\
     (is_Some (db s !! id') -> is_Some (attrs s !! id'))) ->
  inv n (let s' := expire (Some id) s in
         State (db s') (nextid s') (objs s') (nobj s') (attrs s') (<[i := r]> (rows s')) (pos s') (vars s')) t None.
Proof.
  intros Hi Hr Hnew. cbv zeta.
  assert (i < length (rows s)) as Hil by (by eapply lookup_lt_Some).
  destruct (attrs s !! id) as [oid|] eqn:Hat.
  - rewrite (expire_alt _ _ _ Hat).
    pose proof (inv_write_back _ _ _ _ _ _ Hi Hat) as Hw.
    destruct (i_cached _ _ _ _ Hw id oid) as (a & d & Ho & Ht & Hd & _).
    { by destruct (write_back_fields oid s) as (_ & _ & -> & _). }
    assert (d = false) as ->.
    { clear -Ho Hat Hi. destruct d; [|done]. exfalso.
      destruct (i_cached _ _ _ _ Hi _ _ Hat) as (a' & d' & Ho' & _).
      unfold write_back in Ho. rewrite Ho' in Ho. destruct d'; simpl in Ho.
      - by rewrite lookup_insert in Ho.
      - congruence. }
    destruct (write_back_fields oid s) as (F1 & F2 & F3 & F4 & F5 & F6).
    assert (forall x, is_Some (db s !! x) <-> is_Some (db (write_back oid s) !! x)) as Hdb.
    { intros x. rewrite (i_dom _ _ _ _ Hi), (i_dom _ _ _ _ Hw). done. }
    remember (write_back oid s) as w. clear Heqw.
    rewrite <- F3 in Hat. rewrite <- F4 in Hr, Hil, Hnew. rewrite <- F1, <- F3 in Hnew.
    destruct Hw. split; simpl; try done.
    + by rewrite insert_length.
    + intros id' oid' Hat'. apply lookup_delete_Some in Hat' as [Hne Hat'].
      destruct (i_cached0 _ _ Hat') as (a' & d' & H1 & H2 & H3 & j & Hj).
      exists a', d'. split; [done|]. split; [done|]. split; [done|].
      exists j. rewrite list_lookup_insert_ne; [done|]. intros <-. congruence.
    + intros id' Hn. destruct (decide (id' = id)) as [->|Hne].
      * rewrite Hd by done. done.
      * rewrite lookup_delete_ne in Hn by done. by apply i_uncached0.
    + intros j id' Hj. destruct (decide (j = i)) as [->|Hji].
      * rewrite list_lookup_insert in Hj by done. injection Hj as ->.
        destruct Hnew as [Hx|(id'' & [= <-] & Hlt & Hne & Hnin & Hsome)]; [done|].
        split; [done|]. rewrite lookup_delete_ne by done. rewrite <- Hdb. done.
      * rewrite list_lookup_insert_ne in Hj by done. destruct (i_rows0 _ _ Hj) as [Hlt Hs].
        split; [done|]. rewrite lookup_delete_ne; [done|]. intros <-. apply Hji. by eapply i_rows_inj0.
    + intros j j' id' Hj Hj'.
      destruct (decide (j = i)) as [->|Hji]; destruct (decide (j' = i)) as [->|Hji']; try done.
      * rewrite list_lookup_insert in Hj by done. injection Hj as ->.
        rewrite list_lookup_insert_ne in Hj' by done.
        destruct Hnew as [Hx|(id'' & [= <-] & Hlt & Hne & Hnin & _)]; [done|]. by destruct (Hnin j').
      * rewrite list_lookup_insert in Hj' by done. injection Hj' as ->.
        rewrite list_lookup_insert_ne in Hj by done.
        destruct Hnew as [Hx|(id'' & [= <-] & Hlt & Hne & Hnin & _)]; [done|]. by destruct (Hnin j).
      * rewrite list_lookup_insert_ne in Hj, Hj' by done. by eapply i_rows_inj0.
    + intros oid' id' a' Ho'. pose proof (i_dirty0 _ _ _ Ho') as Hx.
      rewrite lookup_delete_ne; [done|]. intros <-. congruence.
  - assert (expire (Some id) s = s) as -> by (unfold expire; by rewrite Hat).
    destruct Hi. split; simpl; try done.
    + by rewrite insert_length.
    + intros id' oid' Hat'.
      destruct (i_cached0 _ _ Hat') as (a' & d' & H1 & H2 & H3 & j & Hj).
      exists a', d'. split; [done|]. split; [done|]. split; [done|].
      exists j. rewrite list_lookup_insert_ne; [done|]. intros <-. congruence.
    + intros j id' Hj. destruct (decide (j = i)) as [->|Hji].
      * rewrite list_lookup_insert in Hj by done. injection Hj as ->.
        destruct Hnew as [Hx|(id'' & [= <-] & Hlt & Hne & Hnin & Hsome)]; [done|]. done.
      * rewrite list_lookup_insert_ne in Hj by done. by apply (i_rows0 j).
    + intros j j' id' Hj Hj'.
      destruct (decide (j = i)) as [->|Hji]; destruct (decide (j' = i)) as [->|Hji']; try done.
      * rewrite list_lookup_insert in Hj by done. injection Hj as ->.
        rewrite list_lookup_insert_ne in Hj' by done.
        destruct Hnew as [Hx|(id'' & [= <-] & Hlt & Hne & Hnin & _)]; [done|]. by destruct (Hnin j').
      * rewrite list_lookup_insert in Hj' by done. injection Hj' as ->.
        rewrite list_lookup_insert_ne in Hj by done.
        destruct Hnew as [Hx|(id'' & [= <-] & Hlt & Hne & Hnin & _)]; [done|]. by destruct (Hnin j).
      * rewrite list_lookup_insert_ne in Hj, Hj' by done. by eapply i_rows_inj0.
Qed.

Definition clear_slot (i : nat) (s : state A) : state A :=
  State (db s) (nextid s) (objs s) (nobj s) (attrs s) (<[i := None]> (rows s)) (pos s) (vars s).

Lemma inv_clear_slot n s t i old :
  inv n s t None -> rows s !! i = Some old -> inv n (clear_slot i (expire old s)) t None.
Proof.
  intros Hi Hr. destruct old as [id|].
  - apply (inv_expire n s t id i None Hi Hr). by left.
  - simpl. unfold clear_slot. rewrite list_insert_id by done. by destruct s.
Qed.

Definition load (n id : nat) (a : A) (s : state A) : state A :=
  State (db s) (nextid s) (<[nobj s := Obj id a false]> (objs s)) (S (nobj s)) (<[id := nobj s]> (attrs s))
        (<[pos s := Some id]> (rows s)) ((pos s + 1) mod n) (vars s).

Lemma inv_load n s t id a :
  inv n s t None -> rows s !! pos s = Some None -> attrs s !! id = None -> db s !! id = Some a ->
  inv n (load n id a s) t None.
Proof.
  intros Hi Hr Hat Hdb.
  assert (forall j, rows s !! j <> Some (Some id)) as Hnin.
  { intros j Hj. destruct (i_rows _ _ _ _ Hi _ _ Hj) as [_ Hx]. rewrite Hat in Hx.
    destruct Hx as [? ?]; [by eexists|done]. }
  assert (objs s !! nobj s = None) as Hnew.
  { destruct (objs s !! nobj s) eqn:E; [|done]. exfalso.
    assert (nobj s < nobj s); [|lia]. apply (i_obj _ _ _ _ Hi). by eexists. }
  destruct Hi. unfold load. split; simpl; try done.
  - by rewrite insert_length.
  - apply Nat.mod_upper_bound. lia.
  - intros oid. destruct (decide (oid = nobj s)) as [->|Hne]; [lia|].
    rewrite lookup_insert_ne by done. intros Ho. apply i_obj0 in Ho. lia.
  - intros id' oid' Hat'. destruct (decide (id' = id)) as [->|Hne].
    + rewrite lookup_insert in Hat'. injection Hat' as <-. exists a, false.
      rewrite lookup_insert. split; [done|]. split; [by rewrite <- i_uncached0|]. split; [done|].
      exists (pos s). apply list_lookup_insert. by rewrite i_len0.
    + rewrite lookup_insert_ne in Hat' by done.
      destruct (i_cached0 _ _ Hat') as (a' & d' & H1 & H2 & H3 & j & Hj).
      exists a', d'. rewrite lookup_insert_ne by congruence. split; [done|]. split; [done|]. split; [done|].
      exists j. rewrite list_lookup_insert_ne; [done|]. intros <-. congruence.
  - intros id' Hn. apply lookup_insert_None in Hn as [Hn _]. by apply i_uncached0.
  - intros j id' Hj. destruct (decide (j = pos s)) as [->|Hji].
    + rewrite list_lookup_insert in Hj by (by rewrite i_len0). injection Hj as <-.
      rewrite lookup_insert. split; [|by eauto]. apply i_fresh0. by eexists.
    + rewrite list_lookup_insert_ne in Hj by done. destruct (i_rows0 _ _ Hj) as [Hlt Hx].
      split; [done|]. rewrite lookup_insert_ne; [done|]. intros <-. by destruct (Hnin j).
  - intros j j' id' Hj Hj'.
    destruct (decide (j = pos s)) as [->|Hji]; destruct (decide (j' = pos s)) as [->|Hji']; try done.
    + rewrite list_lookup_insert in Hj by (by rewrite i_len0). injection Hj as <-.
      rewrite list_lookup_insert_ne in Hj' by done. by destruct (Hnin j').
    + rewrite list_lookup_insert in Hj' by (by rewrite i_len0). injection Hj' as <-.
      rewrite list_lookup_insert_ne in Hj by done. by destruct (Hnin j).
    + rewrite list_lookup_insert_ne in Hj, Hj' by done. by eapply i_rows_inj0.
  - intros oid' id' a' Ho'. destruct (decide (oid' = nobj s)) as [->|Hne].
    + rewrite lookup_insert in Ho'. discriminate.
    + rewrite lookup_insert_ne in Ho' by done. pose proof (i_dirty0 _ _ _ Ho') as Hx.
      rewrite lookup_insert_ne; [done|]. intros <-. congruence.
Qed.

Lemma expire_fields old s :
  nextid (expire old s) = nextid s /\ nobj (expire old s) = nobj s /\ rows (expire old s) = rows s /\
  pos (expire old s) = pos s /\ vars (expire old s) = vars s.
Proof.
  unfold expire. destruct old as [id|]; [|done]. destruct (attrs s !! id) as [oid|]; [|done].
  destruct (write_back_fields oid (set_attrs (delete id) s)) as (H1 & H2 & H3 & H4 & H5 & H6).
  by rewrite H1, H2, H4, H5, H6.
Qed.

(** A miss is: expire the slot, then load into it. *)
Lemma getitem_miss n id a s t cur :
  inv n s t cur -> attrs s !! id = None -> db s !! id = Some a ->
  getitem n id s =
  (load n id a (clear_slot (pos s) (expire (mjoin (rows s !! pos s)) s)), Some (nobj s)).
Proof.
  intros Hi Hat Hdb. unfold getitem. rewrite Hat, Hdb.
  assert (objs s !! nobj s = None) as Hnew.
  { destruct (objs s !! nobj s) eqn:E; [|done]. exfalso.
    assert (nobj s < nobj s); [|lia]. apply (i_obj _ _ _ _ Hi). by eexists. }
  f_equal. unfold expire. destruct (mjoin (rows s !! pos s)) as [id0|]; simpl.
  2:{ unfold load, clear_slot, set_attrs; simpl. by rewrite list_insert_insert. }
  destruct (attrs s !! id0) as [oid0|] eqn:H0; simpl.
  2:{ unfold load, clear_slot, set_attrs; simpl. by rewrite list_insert_insert. }
  destruct (i_cached _ _ _ _ Hi _ _ H0) as (a0 & d0 & Ho & _).
  assert (oid0 <> nobj s) by congruence.
  unfold write_back; simpl. rewrite lookup_insert_ne, Ho by done.
  destruct d0; unfold load, clear_slot, set_attrs; simpl; rewrite list_insert_insert; [|done].
  by rewrite insert_commute.
Qed.

(** [cache[id]] on an id that exists. *)
Lemma getitem_spec n id s t cur :
  inv n s t cur ->
  match t_rows t !! id with
  | None => getitem n id s = (s, None)
  | Some a => exists s' oid d, getitem n id s = (s', Some oid) /\ inv n s' t None /\
      attrs s' !! id = Some oid /\ objs s' !! oid = Some (Obj id a d)
  end.
Proof.
  intros Hi. destruct (attrs s !! id) as [oid|] eqn:Hat.
  - destruct (i_cached _ _ _ _ Hi _ _ Hat) as (a & d & Ho & Ht & _). rewrite Ht.
    exists s, oid, d. unfold getitem. rewrite Hat. split; [done|]. split; [by eapply inv_forget|done].
  - pose proof (i_uncached _ _ _ _ Hi _ Hat) as Hdb. destruct (t_rows t !! id) as [a|] eqn:Ht.
    + rewrite (getitem_miss n id a s t cur Hi Hat Hdb).
      destruct (rows s !! pos s) as [old|] eqn:Hold.
      2:{ apply lookup_ge_None in Hold. pose proof (i_len _ _ _ _ Hi). pose proof (i_pos _ _ _ _ Hi). lia. }
      simpl. pose proof (inv_clear_slot n s t (pos s) old (inv_forget _ _ _ _ Hi) Hold) as Hc.
      destruct (expire_fields old s) as (F1 & F2 & F3 & F4 & F5).
      assert (attrs (expire old s) !! id = None) as Hat'.
      { unfold expire. destruct old as [id0|]; [|done]. destruct (attrs s !! id0) as [oid0|] eqn:E0; [|done].
        destruct (write_back_fields oid0 (set_attrs (delete id0) s)) as (_ & _ & -> & _). simpl.
        by apply lookup_delete_None; right. }
      eexists _, (nobj s), false. split; [done|]. split; [|split].
      * apply inv_load; [done| |done|].
        { simpl. rewrite F4. apply list_lookup_insert. rewrite F3. by eapply lookup_lt_Some. }
        { rewrite <- Ht. by apply (i_uncached _ _ _ _ Hc). }
      * simpl. rewrite F2. apply lookup_insert.
      * simpl. rewrite F2. apply lookup_insert.
    + unfold getitem. by rewrite Hat, Hdb.
Qed.

Lemma inv_set_var n s t v id oid a d :
  inv n s t None -> attrs s !! id = Some oid -> objs s !! oid = Some (Obj id a d) ->
  inv n (State (db s) (nextid s) (objs s) (nobj s) (attrs s) (rows s) (pos s) (<[v := oid]> (vars s)))
      (Table (t_rows t) (t_next t) (<[v := id]> (t_vars t))) (Some v).
Proof.
  intros [] Hat Ho. split; simpl; try done.
  intros v' [= <-]. exists oid, id, a, d. by rewrite !lookup_insert.
Qed.

Lemma inv_create_row n s t cur a :
  inv n s t cur ->
  inv n (State (<[nextid s := a]> (db s)) (S (nextid s)) (objs s) (nobj s) (attrs s) (rows s) (pos s) (vars s))
        (Table (<[t_next t := a]> (t_rows t)) (S (t_next t)) (t_vars t)) cur.
Proof.
  intros Hi. pose proof (i_next _ _ _ _ Hi) as Hnx.
  assert (db s !! nextid s = None) as Hn.
  { destruct (db s !! nextid s) eqn:E; [|done]. exfalso.
    assert (nextid s < nextid s); [|lia]. apply (i_fresh _ _ _ _ Hi). by eexists. }
  assert (attrs s !! nextid s = None) as Hna.
  { destruct (attrs s !! nextid s) as [oid|] eqn:E; [|done]. exfalso.
    destruct (i_cached _ _ _ _ Hi _ _ E) as (a' & d & Ho & Ht & _).
    destruct (proj2 (i_dom _ _ _ _ Hi (nextid s))) as [x Hx]; [by eexists|]. congruence. }
  destruct Hi. split; simpl; try done.
  - by f_equal.
  - intros id. destruct (decide (id = nextid s)) as [->|Hne]; [lia|].
    rewrite lookup_insert_ne by done. intros Hx. apply i_fresh0 in Hx. lia.
  - intros id. rewrite <- Hnx. destruct (decide (id = nextid s)) as [->|Hne].
    + rewrite !lookup_insert. by split; eauto.
    + by rewrite !lookup_insert_ne.
  - intros id oid Hat. assert (id <> nextid s) by congruence. rewrite <- Hnx.
    destruct (i_cached0 _ _ Hat) as (a' & d & H1 & H2 & H3 & H4).
    exists a', d. by rewrite !lookup_insert_ne.
  - intros id Hat. rewrite <- Hnx. destruct (decide (id = nextid s)) as [->|Hne].
    + by rewrite !lookup_insert.
    + rewrite !lookup_insert_ne by done. by apply i_uncached0.
  - intros i id Hr. destruct (i_rows0 _ _ Hr) as [Hlt Hx]. split; [lia|].
    rewrite lookup_insert_ne by lia. done.
Qed.

Lemma inv_assign n s t v a :
  inv n s t (Some v) ->
  exists s' id, assign v a s = Some s' /\ t_vars t !! v = Some id /\
    inv n s' (Table (<[id := a]> (t_rows t)) (t_next t) (t_vars t)) (Some v).
Proof.
  intros Hi. destruct (i_cur _ _ _ _ Hi v eq_refl) as (oid & id & a0 & d & Hv & Htv & Ho & Hat).
  unfold assign. rewrite Hv, Ho. eexists _, id. split; [done|]. split; [done|]. simpl.
  destruct (i_cached _ _ _ _ Hi _ _ Hat) as (a1 & d1 & Ho1 & Ht & Hd & Hr).
  destruct (proj2 (i_dom _ _ _ _ Hi id)) as [x Hx]; [by eexists|].
  destruct Hi. split; simpl; try done.
  - intros id'. rewrite i_dom0. destruct (decide (id' = id)) as [->|Hne].
    + rewrite lookup_insert, Ht. by split; eauto.
    + by rewrite lookup_insert_ne.
  - intros oid'. destruct (decide (oid' = oid)) as [->|Hne].
    + intros _. apply i_obj0. by eexists.
    + rewrite lookup_insert_ne by done. apply i_obj0.
  - intros id' oid' Hat'. destruct (decide (id' = id)) as [->|Hne].
    + assert (oid' = oid) as -> by congruence. exists a, true. rewrite !lookup_insert. done.
    + destruct (i_cached0 _ _ Hat') as (a' & d' & H1 & H2 & H3 & H4).
      exists a', d'. rewrite !lookup_insert_ne by congruence. done.
  - intros id' Hat'. rewrite lookup_insert_ne by congruence. by apply i_uncached0.
  - intros oid' id' a'. destruct (decide (oid' = oid)) as [->|Hne].
    + rewrite lookup_insert. intros [= <- <-]. done.
    + rewrite lookup_insert_ne by done. apply i_dirty0.
  - intros v' [= <-]. exists oid, id, a, true. by rewrite lookup_insert.
Qed.

Lemma inv_del n s t cur id :
  inv n s t cur ->
  match t_rows t !! id with
  | None => delitem id s = None
  | Some _ => exists s', delitem id s = Some s' /\
      inv n s' (Table (delete id (t_rows t)) (t_next t) (t_vars t)) None
  end.
Proof.
  intros Hi. pose proof (i_dom _ _ _ _ Hi id) as Hdm. unfold delitem.
  destruct (t_rows t !! id) as [a|] eqn:Ht.
  2:{ destruct (db s !! id) eqn:E; [|done]. destruct (proj1 Hdm) as [? ?]; [by eexists|done]. }
  destruct (proj2 Hdm) as [x Hx]; [by eexists|]. rewrite Hx.
  eexists. split; [done|].
  destruct Hi. split; simpl; try done.
  - intros id' Hd. apply i_fresh0. destruct Hd as [y Hy]. apply lookup_delete_Some in Hy as [_ Hy]. by eexists.
  - intros id'. destruct (decide (id' = id)) as [->|Hne].
    + rewrite !lookup_delete. done.
    + by rewrite !lookup_delete_ne.
  - intros oid. destruct (attrs s !! id); [|apply i_obj0]. rewrite lookup_alter_is_Some. apply i_obj0.
  - intros id' oid' Hat'. apply lookup_delete_Some in Hat' as [Hne Hat'].
    destruct (i_cached0 _ _ Hat') as (a' & d & H1 & H2 & H3 & H4).
    exists a', d. rewrite !lookup_delete_ne by done. split; [|done].
    destruct (attrs s !! id) as [oid|] eqn:E; [|done].
    rewrite lookup_alter_ne; [done|]. intros ->.
    destruct (i_cached0 _ _ E) as (a'' & d'' & H1' & _). congruence.
  - intros id' Hat'. destruct (decide (id' = id)) as [->|Hne].
    + by rewrite !lookup_delete.
    + rewrite lookup_delete_ne in Hat' by done. rewrite !lookup_delete_ne by done. by apply i_uncached0.
  - intros i id' Hr. destruct (i_rows0 _ _ Hr) as [Hlt Hy]. split; [done|].
    intros Hs. destruct (decide (id' = id)) as [->|Hne].
    + rewrite lookup_delete in Hs. by destruct Hs.
    + rewrite lookup_delete_ne in Hs by done. rewrite lookup_delete_ne by done. by apply Hy.
  - intros oid' id' a' Ho'. destruct (attrs s !! id) as [oid|] eqn:E.
    + destruct (decide (oid' = oid)) as [->|Hne].
      * rewrite lookup_alter in Ho'. destruct (objs s !! oid); simpl in Ho'; congruence.
      * rewrite lookup_alter_ne in Ho' by done. pose proof (i_dirty0 _ _ _ Ho') as Hz.
        rewrite lookup_delete_ne; [done|]. intros <-. congruence.
    + pose proof (i_dirty0 _ _ _ Ho') as Hz. rewrite lookup_delete_ne; [done|]. intros <-. congruence.
Qed.

Lemma inv_flush_id n s t cur id : inv n s t cur -> inv n (flush_id id s) t cur.
Proof.
  intros Hi. unfold flush_id. destruct (attrs s !! id) as [oid|] eqn:E; [|done].
  by eapply inv_write_back.
Qed.

Lemma flush_id_db n s t cur id : inv n s t cur -> db (flush_id id s) !! id = t_rows t !! id.
Proof.
  intros Hi. pose proof (inv_flush_id n s t cur id Hi) as Hf.
  unfold flush_id in *. destruct (attrs s !! id) as [oid|] eqn:E; [|by apply (i_uncached _ _ _ _ Hi)].
  destruct (i_cached _ _ _ _ Hi _ _ E) as (a & d & Ho & Ht & Hd & _).
  unfold write_back in *. rewrite Ho in *. rewrite Ht. destruct d; simpl in *; [|by apply Hd].
  rewrite lookup_alter. destruct (proj2 (i_dom _ _ _ _ Hi id)) as [x Hx]; [by eexists|]. by rewrite Hx.
Qed.

(** Flushing one row does not make another one stale. *)
Lemma flush_id_keeps n s t cur id id' :
  inv n s t cur -> db s !! id' = t_rows t !! id' -> db (flush_id id s) !! id' = t_rows t !! id'.
Proof.
  intros Hi Hdb. destruct (decide (id' = id)) as [->|Hne]; [by eapply flush_id_db|].
  unfold flush_id. destruct (attrs s !! id) as [oid|] eqn:E; [|done].
  destruct (i_cached _ _ _ _ Hi _ _ E) as (a & d & Ho & Ht & Hd & _).
  unfold write_back. rewrite Ho. destruct d; simpl; [|done]. by rewrite lookup_alter_ne.
Qed.

Lemma flush_id_rows id s : rows (flush_id id s) = rows s.
Proof.
  unfold flush_id. destruct (attrs s !! id) as [oid|]; [|done].
  by destruct (write_back_fields oid s) as (_ & _ & _ & -> & _).
Qed.
Lemma flush_id_attrs id s : attrs (flush_id id s) = attrs s.
Proof.
  unfold flush_id. destruct (attrs s !! id) as [oid|]; [|done].
  by destruct (write_back_fields oid s) as (_ & _ & -> & _).
Qed.

Lemma flush_fold n t cur l s :
  inv n s t cur ->
  let s' := foldl (fun s r => match r with Some id => flush_id id s | None => s end) s l in
  inv n s' t cur /\
  (forall id, db s !! id = t_rows t !! id -> db s' !! id = t_rows t !! id) /\
  (forall id, Some id ∈ l -> db s' !! id = t_rows t !! id).
Proof.
  revert s. induction l as [|r l IH]; intros s Hi; simpl.
  - split; [done|]. split; [done|]. intros id Hid. by apply elem_of_nil in Hid.
  - destruct r as [id|].
    + destruct (IH _ (inv_flush_id n s t cur id Hi)) as (H1 & H2 & H3).
      split; [done|]. split.
      * intros id' Hd. apply H2. by eapply flush_id_keeps.
      * intros id' [[= ->]|Hin]%elem_of_cons; [|by apply H3]. apply H2. by eapply flush_id_db.
    + destruct (IH _ Hi) as (H1 & H2 & H3). split; [done|]. split; [done|].
      intros id' [[=]|Hin]%elem_of_cons. by apply H3.
Qed.

Lemma inv_flush n s t cur : inv n s t cur -> inv n (flush s) t cur /\ db (flush s) = t_rows t.
Proof.
  intros Hi. destruct (flush_fold n t cur (rows s) s Hi) as (H1 & H2 & H3).
  split; [done|]. apply map_eq. intros id. destruct (attrs s !! id) as [oid|] eqn:E.
  - destruct (i_cached _ _ _ _ Hi _ _ E) as (a & d & _ & _ & _ & i & Hr).
    apply H3. by eapply elem_of_list_lookup_2.
  - apply H2. by apply (i_uncached _ _ _ _ Hi).
Qed.

(** [destroy] slot by slot. *)
Lemma destroy_fold n t (m : nat) s :
  inv n s t None -> m <= length (rows s) ->
  (forall i, i < length (rows s) - m -> rows s !! i = Some None) ->
  let s' := foldl (fun s r => expire r s) s (drop (length (rows s) - m) (rows s)) in
  inv n (State (db s') (nextid s') (objs s') (nobj s') (attrs s') (replicate (length (rows s')) None) (pos s')
               (vars s')) t None.
Proof.
  revert s. induction m as [|m IH]; intros s Hi Hm Hpre; cbv zeta.
  - rewrite Nat.sub_0_r, drop_all. simpl.
    assert (replicate (length (rows s)) None = rows s) as ->.
    { apply list_eq. intros i. destruct (decide (i < length (rows s))) as [Hl|Hl].
      - rewrite Hpre by lia. by apply lookup_replicate_2.
      - rewrite !lookup_ge_None_2; [done|lia|rewrite replicate_length; lia]. }
    by destruct s.
  - set (i := length (rows s) - S m).
    destruct (rows s !! i) as [r|] eqn:Hr; [|apply lookup_ge_None in Hr; lia].
    rewrite (drop_S _ _ _ Hr). simpl.
    pose proof (inv_clear_slot n s t i r Hi Hr) as Hc.
    destruct (expire_fields r s) as (F1 & F2 & F3 & F4 & F5).
    specialize (IH _ Hc). simpl in IH. rewrite F3, insert_length in IH.
    assert (length (rows s) - m = S i) as Hsi by (unfold i; lia). rewrite Hsi in IH.
    rewrite drop_insert_gt in IH by lia.
    (* the fold does not look at the rows field *)
    assert (forall l (u u' : state A),
      db u = db u' -> nextid u = nextid u' -> objs u = objs u' -> nobj u = nobj u' -> attrs u = attrs u' ->
      pos u = pos u' -> vars u = vars u' -> length (rows u) = length (rows u') ->
      let f := foldl (fun s r => expire r s) in
      State (db (f u l)) (nextid (f u l)) (objs (f u l)) (nobj (f u l)) (attrs (f u l))
            (replicate (length (rows (f u l))) None) (pos (f u l)) (vars (f u l)) =
      State (db (f u' l)) (nextid (f u' l)) (objs (f u' l)) (nobj (f u' l)) (attrs (f u' l))
            (replicate (length (rows (f u' l))) None) (pos (f u' l)) (vars (f u' l))) as Hext.
    { clear. induction l as [|r l IH]; intros u u' E1 E2 E3 E4 E5 E6 E7 E8; simpl.
      - congruence.
      - apply IH; unfold expire; destruct r as [id|]; try done; rewrite E5; destruct (attrs u' !! id); try done;
          unfold write_back, set_attrs; simpl; rewrite E3;
          destruct (objs u' !! _) as [[? ? []]|]; simpl; congruence. }
    rewrite (Hext _ _ (clear_slot i (expire r s))); try done.
    2:{ simpl. by rewrite insert_length. }
    apply IH.
    + lia.
    + intros j Hj. destruct (decide (j = i)) as [->|Hji].
      * apply list_lookup_insert. unfold i. lia.
      * rewrite list_lookup_insert_ne by done. apply Hpre. unfold i in *. lia.
Qed.

Lemma inv_destroy n s t cur : inv n s t cur ->
  inv n (destroy s) t None /\ attrs (destroy s) = ∅ /\ db (destroy s) = t_rows t.
Proof.
  intros Hi. assert (inv n (destroy s) t None) as Hd.
  { unfold destroy. pose proof (destroy_fold n t (length (rows s)) s (inv_forget _ _ _ _ Hi)) as Hf.
    rewrite Nat.sub_diag, drop_0 in Hf. apply Hf; [done|]. intros i Hx. lia. }
  assert (forall id, attrs (destroy s) !! id = None) as Hat.
  { intros id. destruct (attrs (destroy s) !! id) as [oid|] eqn:E; [|done].
    destruct (i_cached _ _ _ _ Hd _ _ E) as (a & d & _ & _ & _ & i & Hr).
    simpl in Hr. apply lookup_replicate in Hr as [[=] _]. }
  split; [done|]. split; [by apply map_eq; intros id; rewrite Hat|].
  apply map_eq. intros id. by apply (i_uncached _ _ _ _ Hd).
Qed.

Definition next_cur (cur : option nat) (o : op A) (a : answer A) : option nat :=
  match o with
  | Get v _ | Create v _ => match a with AError => None | _ => Some v end
  | Assign _ _ | Peek _ => cur
  | Del _ | Drop => None
  | FlushId _ | Flush => cur
  end.
Definition allowed (cur : option nat) (o : op A) : Prop :=
  match o with Assign v _ | Peek v => cur = Some v | _ => True end.

Lemma step_refines n s t cur o :
  inv n s t cur -> allowed cur o ->
  (step n s o).2 = (tstep t o).2 /\
  inv n (step n s o).1 (tstep t o).1 (next_cur cur o (tstep t o).2).
Proof.
  intros Hi Hal. destruct o as [v id|v a|v a|v|id|id| |]; simpl.
  - pose proof (getitem_spec n id s t cur Hi) as Hg. destruct (t_rows t !! id) as [a|] eqn:Ht.
    + destruct Hg as (s' & oid & d & -> & Hi' & Hat & Ho). simpl. rewrite Ho. simpl.
      split; [done|]. by eapply inv_set_var.
    + rewrite Hg. simpl. split; [done|]. by eapply inv_forget.
  - unfold create. pose proof (inv_create_row n s t cur a Hi) as Hc.
    pose proof (getitem_spec n (nextid s) _ _ cur Hc) as Hg. simpl in Hg.
    rewrite <- (i_next _ _ _ _ Hi) in Hg. rewrite lookup_insert in Hg.
    destruct Hg as (s' & oid & d & -> & Hi' & Hat & Ho). simpl. rewrite Ho. simpl.
    rewrite <- (i_next _ _ _ _ Hi). split; [done|].
    apply (inv_set_var n s' _ v (nextid s) oid a d Hi' Hat Ho).
  - simpl in Hal. subst cur. destruct (inv_assign n s t v a Hi) as (s' & id & -> & -> & Hi'). done.
  - simpl in Hal. subst cur. destruct (i_cur _ _ _ _ Hi v eq_refl) as (oid & id & a & d & Hv & Htv & Ho & Hat).
    destruct (i_cached _ _ _ _ Hi _ _ Hat) as (a' & d' & Ho' & Ht & _).
    rewrite Hv, Htv, Ho, Ht. simpl. split; [|done]. congruence.
  - pose proof (inv_del n s t cur id Hi) as Hd. destruct (t_rows t !! id) eqn:Ht.
    + destruct Hd as (s' & -> & Hi'). done.
    + rewrite Hd. split; [done|]. by eapply inv_forget.
  - split; [done|]. by apply inv_flush_id.
  - split; [done|]. by apply inv_flush.
  - split; [done|]. by eapply inv_destroy.
Qed.

Lemma run_refines n os : forall s t cur,
  inv n s t cur -> careful cur t os ->
  (run n s os).2 = (trun t os).2 /\ exists cur', inv n (run n s os).1 (trun t os).1 cur'.
Proof.
  induction os as [|o os IH]; intros s t cur Hi Hc; simpl; [by eauto|].
  assert (allowed cur o) as Hal.
  { destruct o; simpl; try done; simpl in Hc.
    - destruct (t_vars t !! v); apply Hc.
    - destruct (t_vars t !! v) as [id|]; [destruct (t_rows t !! id)|]; apply Hc. }
  destruct (step_refines n s t cur o Hi Hal) as [Ha Hi'].
  assert (careful (next_cur cur o (tstep t o).2) (tstep t o).1 os) as Hc'.
  { simpl in Hc. destruct (tstep t o) as [t' a] eqn:E. destruct o; simpl in *; tauto. }
  specialize (IH _ _ _ Hi' Hc').
  destruct (step n s o) as [s' a], (tstep t o) as [t' a']. simpl in *. subst a'.
  destruct IH as [IH1 IH2].
  destruct (run n s' os) as [s'' l], (trun t' os) as [t'' l']. simpl in *. by subst.
Qed.

Lemma size_list_to_set_le (l : list nat) : size (list_to_set l : gset nat) <= length l.
Proof.
  induction l as [|x l IH].
  - rewrite list_to_set_nil, size_empty. simpl. lia.
  - rewrite list_to_set_cons, size_union_alt, size_singleton.
    assert (size ((list_to_set l : gset nat) ∖ {[x]}) <= size (list_to_set l : gset nat))
      by (apply subseteq_size; set_solver). simpl. lia.
Qed.
Lemma omap_length_le (l : list (option nat)) : length (omap Datatypes.id l) <= length l.
Proof. induction l as [|[x|] l IH]; cbn; [done|lia|lia]. Qed.

Lemma inv_bounded n s t cur : inv n s t cur -> size (attrs s) <= n.
Proof.
  intros Hi. rewrite <- (i_len _ _ _ _ Hi), <- (size_dom (D := gset nat)).
  transitivity (size (list_to_set (omap Datatypes.id (rows s)) : gset nat)).
  - apply subseteq_size. intros x Hx. apply elem_of_dom in Hx as [oid Hat].
    destruct (i_cached _ _ _ _ Hi _ _ Hat) as (a & d & _ & _ & _ & i & Hr).
    apply elem_of_list_to_set, elem_of_list_omap. exists (Some x). split; [|done].
    by eapply elem_of_list_lookup_2.
  - etrans; [apply size_list_to_set_le|]. apply omap_length_le.
Qed.
End proofs.
