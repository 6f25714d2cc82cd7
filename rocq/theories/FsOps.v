(** Every call keeps the tables consistent, and changes directories and attributes as expected. *)
From stdpp Require Import prelude gmap strings sorting.
From Coq Require Import ZArith String.
From Verif Require Import FsModel FsSpec FsLemmas FsInv.
Local Close Scope string_scope.
Local Open Scope Z_scope.

(** * Names and ids *)
Definition inj (m : gmap string (nat * Z)) : Prop := forall n n' k rc rc', m !! n = Some (k, rc) -> m !! n' = Some (k, rc') -> n = n'.
Definition compat (s s' : fs) : Prop := exists mid, inj mid /\ sub (names s) mid /\ sub (names s') mid.

Section ops.
Context (max_obj_size : Z) (Hmax : 0 < max_obj_size) (exact : bool).
Local Notation consistent := (consistent max_obj_size exact).
Local Notation core := (core max_obj_size exact).

Lemma consistent_inj s : consistent s -> inj (names s).
Proof. intros [_ _ _ _ [H _] _ _ _]. exact H. Qed.
Lemma compat_shrinks s s' : consistent s -> shrinks s s' -> compat s s'.
Proof. intros Hc [Hs _]. exists (names s). split; [by apply consistent_inj|]. split; [apply sub_refl|done]. Qed.
Lemma compat_grows s s' : consistent s' -> sub (names s) (names s') -> compat s s'.
Proof. intros Hc Hs. exists (names s'). split; [by apply consistent_inj|]. split; [done|apply sub_refl]. Qed.
Lemma compat_trans s s1 s2 : compat s s1 -> shrinks s1 s2 -> compat s s2.
Proof. intros (mid & Hi & H1 & H2) [Hs _]. exists mid. split; [done|]. split; [done|]. by eapply sub_trans. Qed.

(** With compatible names, directories are determined by the table of entries. *)
Lemma view_id s s' n k rc : consistent s -> consistent s' -> compat s s' -> names s !! n = Some (k, rc) \/ names s' !! n = Some (k, rc) ->
  (forall p, entry s p n = contents s !! (p, k)) /\ (forall p, entry s' p n = contents s' !! (p, k)) /\
  (forall i, xattr s i n = xattrs s !! (i, k)) /\ (forall i, xattr s' i n = xattrs s' !! (i, k)).
Proof.
  intros Hc Hc' (mid & Hi & H1 & H2) Hn.
  assert (exists rc', mid !! n = Some (k, rc')) as [rc' Hm] by (destruct Hn as [Hn|Hn]; [by apply H1 in Hn|by apply H2 in Hn]).
  assert (forall s0, consistent s0 -> sub (names s0) mid ->
    (forall p, entry s0 p n = contents s0 !! (p, k)) /\ (forall i, xattr s0 i n = xattrs s0 !! (i, k))) as H0.
  { intros s0 H0 Hs. unfold entry, xattr. destruct (names s0 !! n) as [[k0 rc0]|] eqn:E.
    - destruct (Hs _ _ _ E) as [rc1 Hm1]. rewrite Hm in Hm1. injection Hm1 as <- _. done.
    - assert (forall rc2 n', names s0 !! n' = Some (k, rc2) -> False) as Hno.
      { intros rc2 n' E'. destruct (Hs _ _ _ E') as [rc3 Hm3]. pose proof (Hi _ _ _ _ _ Hm Hm3) as <-. congruence. }
      split; intros p; symmetry; apply eq_None_not_Some; intros [x Hx].
      + destruct (c_entries _ _ _ H0 _ _ _ Hx) as ((n' & rc2 & E') & _). eauto.
      + destruct (c_left _ _ _ H0) as (_ & Hl & _). destruct (Hl _ _ _ Hx) as (_ & n' & rc2 & E'). eauto. }
  destruct (H0 s Hc H1) as [? ?]. destruct (H0 s' Hc' H2) as [? ?]. done.
Qed.
Lemma view_same s s' : consistent s -> consistent s' -> compat s s' -> contents s' = contents s -> forall p n, entry s' p n = entry s p n.
Proof.
  intros Hc Hc' Hcm He p n. destruct (names s !! n) as [[k rc]|] eqn:E.
  - destruct (view_id s s' n k rc) as (H1 & H2 & _); [done..|by left|]. by rewrite H1, H2, He.
  - destruct (names s' !! n) as [[k rc]|] eqn:E'; [|unfold entry; by rewrite E, E'].
    destruct (view_id s s' n k rc) as (H1 & H2 & _); [done..|by right|]. by rewrite H1, H2, He.
Qed.
Lemma view_delete s s' p n k rc : consistent s -> consistent s' -> compat s s' -> names s !! n = Some (k, rc) ->
  contents s' = delete (p, k) (contents s) -> forall q m, entry s' q m = if decide ((q, m) = (p, n)) then None else entry s q m.
Proof.
  intros Hc Hc' Hcm Hn He q m. destruct (view_id s s' n k rc) as (N1 & N2 & _); [done..|by left|].
  case_decide as Hd; [injection Hd as -> ->; rewrite N2, He; apply lookup_delete|].
  destruct (decide (m = n)) as [->|Hmn]; [rewrite N1, N2, He; rewrite lookup_delete_ne; congruence|].
  assert (forall k' rc', names s !! m = Some (k', rc') \/ names s' !! m = Some (k', rc') -> entry s' q m = entry s q m) as Hcase.
  { intros k' rc' Hm. destruct (view_id s s' m k' rc') as (H1 & H2 & _); [done..|]. rewrite H1, H2, He. apply lookup_delete_ne. intros [= _ <-].
    destruct Hcm as (mid & Hi & S1 & S2). apply Hmn. destruct (S1 _ _ _ Hn) as [rc1 M1]. destruct Hm as [Hm|Hm]; [apply S1 in Hm|apply S2 in Hm]; destruct Hm as [rc2 M2]; by eapply Hi. }
  destruct (names s !! m) as [[k' rc']|] eqn:E; [eapply Hcase; eauto|].
  destruct (names s' !! m) as [[k' rc']|] eqn:E'; [eapply Hcase; eauto|]. unfold entry. by rewrite E, E'.
Qed.
Lemma view_insert s s' p n k rc i : consistent s -> consistent s' -> compat s s' -> names s !! n = Some (k, rc) \/ names s' !! n = Some (k, rc) ->
  contents s' = <[(p, k) := i]> (contents s) -> forall q m, entry s' q m = if decide ((q, m) = (p, n)) then Some i else entry s q m.
Proof.
  intros Hc Hc' Hcm Hn He q m. destruct (view_id s s' n k rc) as (N1 & N2 & _); [done..|].
  case_decide as Hd; [injection Hd as -> ->; rewrite N2, He; apply lookup_insert|].
  destruct (decide (m = n)) as [->|Hmn]; [rewrite N1, N2, He; rewrite lookup_insert_ne; congruence|].
  assert (forall k' rc', names s !! m = Some (k', rc') \/ names s' !! m = Some (k', rc') -> entry s' q m = entry s q m) as Hcase.
  { intros k' rc' Hm. destruct (view_id s s' m k' rc') as (H1 & H2 & _); [done..|]. rewrite H1, H2, He. apply lookup_insert_ne. intros [= _ <-].
    destruct Hcm as (mid & Hi & S1 & S2). apply Hmn.
    destruct Hn as [Hn|Hn]; [apply S1 in Hn|apply S2 in Hn]; destruct Hn as [rc1 M1]; (destruct Hm as [Hm|Hm]; [apply S1 in Hm|apply S2 in Hm]); destruct Hm as [rc2 M2]; by eapply Hi. }
  destruct (names s !! m) as [[k' rc']|] eqn:E; [eapply Hcase; eauto|].
  destruct (names s' !! m) as [[k' rc']|] eqn:E'; [eapply Hcase; eauto|]. unfold entry. by rewrite E, E'.
Qed.
Lemma xview_same s s' : consistent s -> consistent s' -> compat s s' ->
  forall j, (forall k, xattrs s' !! (j, k) = xattrs s !! (j, k)) -> forall n, xattr s' j n = xattr s j n.
Proof.
  intros Hc Hc' Hcm j Hj n. destruct (names s !! n) as [[k rc]|] eqn:E.
  - destruct (view_id s s' n k rc) as (_ & _ & H1 & H2); [done..|by left|]. by rewrite H1, H2.
  - destruct (names s' !! n) as [[k rc]|] eqn:E'; [|unfold xattr; by rewrite E, E'].
    destruct (view_id s s' n k rc) as (_ & _ & H1 & H2); [done..|by right|]. by rewrite H1, H2.
Qed.

(** * rename *)
Lemma core_move s nm po ko pn kn i : core s -> contents s !! (po, ko) = Some i -> contents s !! (pn, kn) = None ->
  pn <> CTRL -> (exists an, inodes s !! pn = Some an /\ 0 < refcount an) ->
  names_ok exact nm (fun k => uses s k + b2z (k = kn) - b2z (k = ko)) ->
  core (set_contents (<[(pn, kn) := i]> (delete (po, ko) (contents s))) (set_names nm s)).
Proof.
  intros [H1 H2 H3 H3c H3d H4 H5 H6 H7 H8] Ho Hn Hpc Hpn Hnm.
  assert (delete (po, ko) (contents s) !! (pn, kn) = None) as Hn' by (apply lookup_delete_None; by right).
  destruct (H2 _ _ _ Ho) as (_ & _ & Hic & Hi).
  constructor; cbn [set_contents set_names inodes contents names xattrs symlinks blocks objects opens seq]; try done.
  - intros j a Hj. rewrite (H1 _ _ Hj). unfold links. cbn. rewrite cnt_insert_new by done. rewrite (cnt_delete _ _ _ _ Ho). cbn. lia.
  - intros p k j. rewrite lookup_insert_Some, lookup_delete_Some. intros [[[= <- <-] <-]|[_ [_ Hj]]]; [done|]. by apply (H2 p k j).
  - eapply names_ok_ext; [exact Hnm|]. intros k. unfold uses. cbn. rewrite cnt_insert_new by done. rewrite (cnt_delete _ _ _ _ Ho). cbn.
    unfold b2z. repeat case_decide; try congruence; lia.
Qed.
Lemma held_move s nm cs : held s -> held (set_contents cs (set_names nm s)).
Proof. done. Qed.
Lemma rename__ok po no pn nn now s s' r i : consistent s -> entry s po no = Some i -> entry s pn nn = None -> parent_ok s pn -> is_Some (inodes s !! pn) ->
  rename_ po no pn nn now s = (s', r) ->
  r = Done /\ consistent s' /\ opens s' = opens s /\ compat s s' /\ xattrs s' = xattrs s /\ (forall j, is_Some (inodes s' !! j) -> is_Some (inodes s !! j)) /\
  (forall q m, entry s' q m = if decide ((q, m) = (pn, nn)) then Some i else if decide ((q, m) = (po, no)) then None else entry s q m).
Proof.
  rewrite consistent_core. intros [Hc Hh] He Hn [Hpc Hpn] [an Han]. unfold rename_. specialize (Hpn _ Han).
  destruct (entry_inv _ _ _ _ He) as (ko & rco & Hno & Hko).
  destruct (add_name nn s) as [s1 kn] eqn:Ha. destruct (add_name_ok exact nn s s1 kn (uses s) (k_names _ _ _ Hc) Ha) as (Hnm1 & rcn & Hn1 & Hs1 & Hk1).
  pose proof (no_entry _ _ s pn nn kn rcn s1 Hc Hn Ha Hn1) as Hcn.
  pose proof (add_name_sub _ _ _ _ Ha) as Hsub1. destruct (Hsub1 _ _ _ Hno) as [rco1 Hno1].
  destruct (del_name no s1) as [[s2 k2]|] eqn:Hd; [|unfold del_name in Hd; by rewrite Hno1 in Hd].
  assert (k2 = ko) as -> by (unfold del_name in Hd; rewrite Hno1 in Hd; by injection Hd).
  assert (0 < uses s ko + b2z (ko = kn)) as Hpos by (pose proof (uses_entry _ _ _ _ Hko); pose proof (b2z_pos (ko = kn)); lia).
  destruct (del_name_ok exact no s1 s2 ko _ Hnm1 Hd Hpos) as (Hnm2 & Hs2 & _). pose proof (del_name_sub _ _ _ _ Hd) as Hsub2.
  assert (inj (names s1)) as Hinj1 by (by destruct Hnm1).
  remember (names s2) as nm2 eqn:Enm2. remember (names s1) as nm1 eqn:Enm1.
  assert (s2 = set_names nm2 s) as -> by (rewrite Hs2, Hs1; done). clear Hs2 Hs1 Hd Ha Enm2. cbn [contents set_names]. rewrite Hko.
  assert (delete (po, ko) (contents s) !! (pn, kn) = None) as Hn' by (apply lookup_delete_None; by right). rewrite Hn'.
  intros [= <- <-]. split; [done|].
  assert (core (set_contents (<[(pn, kn) := i]> (delete (po, ko) (contents s))) (set_names nm2 s))) as Hc' by (apply core_move; eauto).
  set (s3 := set_contents _ _) in *. assert (consistent s3) as Hcons by (rewrite consistent_core; split; [done|by apply held_move]).
  set (s4 := upd_inode pn _ _).
  assert (consistent s4) as Hc4. { subst s4. do 2 (apply consistent_mild; [done|]). done. }
  assert (compat s s4) as Hcm by (exists nm1; done).
  split; [done|]. split; [done|]. split; [done|]. split; [done|].
  split; [intros j; cbn; by rewrite !lookup_alter_is_Some|].
  assert (consistent s) as Hcs by by rewrite consistent_core.
  intros q m.
  assert (forall m k rc, nm1 !! m = Some (k, rc) -> (forall q, entry s q m = contents s !! (q, k)) /\ (forall q, entry s4 q m = contents s4 !! (q, k))) as Hv.
  { clear - Hcm Hcs Hc4 Hinj1 Hsub1 Hsub2 Hmax. intros m k rc Hm.
    assert (forall s0, consistent s0 -> sub (names s0) nm1 -> forall q, entry s0 q m = contents s0 !! (q, k)) as H0; [|split; apply H0; done].
    intros s0 H0 Hsb q. unfold entry. destruct (names s0 !! m) as [[k0 rc0]|] eqn:E.
    - destruct (Hsb _ _ _ E) as [rc1 Hm1]. rewrite Hm in Hm1. by injection Hm1 as <- _.
    - symmetry. apply eq_None_not_Some. intros [x Hx]. destruct (c_entries _ _ _ H0 _ _ _ Hx) as ((n' & rc2 & E') & _).
      destruct (Hsb _ _ _ E') as [rc3 Hm3]. pose proof (Hinj1 _ _ _ _ _ Hm Hm3) as <-. congruence. }
  destruct (nm1 !! m) as [[k rc]|] eqn:Em.
  - destruct (Hv _ _ _ Em) as [V1 V2]. rewrite V1, V2. subst s4. cbn.
    assert ((q, k) = (pn, kn) <-> (q, m) = (pn, nn)) as E1.
    { split; intros [= -> ->]; [|rewrite Hn1 in Em; by injection Em as -> _]. f_equal. by apply (Hinj1 _ _ kn rc rcn). }
    assert ((q, k) = (po, ko) <-> (q, m) = (po, no)) as E2.
    { split; intros [= -> ->]; [|rewrite Hno1 in Em; by injection Em as -> _]. f_equal. by apply (Hinj1 _ _ ko rc rco1). }
    destruct (decide ((q, m) = (pn, nn))) as [D|D]; [apply E1 in D as [= -> ->]; apply lookup_insert|].
    rewrite lookup_insert_ne by (intros ?; apply D; by apply E1).
    destruct (decide ((q, m) = (po, no))) as [D'|D']; [apply E2 in D' as [= -> ->]; apply lookup_delete|].
    rewrite lookup_delete_ne; [done|]. intros ?. apply D'. by apply E2.
  - assert (m <> nn /\ m <> no) as [? ?] by (split; congruence). rewrite !decide_False by congruence.
    unfold entry. destruct (names s !! m) as [[k rc]|] eqn:E; [apply Hsub1 in E; destruct E; congruence|].
    destruct (names s4 !! m) as [[k rc]|] eqn:E'; [|done]. apply Hsub2 in E' as [? ?]. congruence.
Qed.
Lemma replace_ok po no pn nn io iw now s s' r : consistent s -> entry s po no = Some io -> entry s pn nn = Some iw ->
  replace max_obj_size po no pn nn io iw now s = (s', r) ->
  (exists e, r = Err e /\ s' = s) \/
  (r = Done /\ consistent s' /\ opens s' = opens s /\ shrinks s s' /\
   (forall q m, entry s' q m = if decide ((q, m) = (po, no)) then None else if decide ((q, m) = (pn, nn)) then Some io else entry s q m)).
Proof.
  intros Hcs0 Ho Hw. assert (Hcs1 := Hcs0). rewrite consistent_core in Hcs1. destruct Hcs1 as [Hc Hh].
  unfold replace. destruct (has_children s iw) eqn:Hch; [intros [= <- <-]; left; eauto|].
  destruct (entry_inv _ _ _ _ Ho) as (ko & rco & Hno & Hko). destruct (entry_inv _ _ _ _ Hw) as (kn & rcn & Hnn & Hkn). rewrite Hnn.
  set (cs := alter (fun _ => io) (pn, kn) (contents s)).
  assert (cs = <[(pn, kn) := io]> (contents s)) as Ecs.
  { subst cs. apply map_eq. intros x. destruct (decide ((pn, kn) = x)) as [<-|]; [by rewrite lookup_alter, lookup_insert, Hkn|by rewrite lookup_alter_ne, lookup_insert_ne]. }
  rewrite Ecs. clear Ecs cs. set (cs := <[(pn, kn) := io]> (contents s)).
  destruct (del_name no (set_contents cs s)) as [[s1 k1]|] eqn:Hd; [|unfold del_name in Hd; cbn in Hd; by rewrite Hno in Hd].
  assert (k1 = ko) as -> by (unfold del_name in Hd; cbn in Hd; rewrite Hno in Hd; by injection Hd).
  destruct (del_name_ok exact no (set_contents cs s) s1 ko (uses s) (k_names _ _ _ Hc) Hd (uses_entry _ _ _ _ Hko)) as (Hnm & Hs1 & _).
  pose proof (del_name_sub _ _ _ _ Hd) as Hsub. cbn in Hsub.
  remember (names s1) as nm eqn:Enm. rewrite Hs1. clear Hd Hs1 Enm s1. cbn [contents set_names set_contents inodes opens].
  destruct (k_contents _ _ _ Hc _ _ _ Hkn) as ((an & Han & Hran) & _ & _ & [aw Haw]). rewrite Haw.
  assert (cs !! (po, ko) = Some io) as Hcs. { subst cs. destruct (decide ((pn, kn) = (po, ko))) as [E|]; [rewrite E; apply lookup_insert|by rewrite lookup_insert_ne]. }
  set (cs' := delete (po, ko) cs). change (set_contents cs' (set_names nm (set_contents cs s))) with (set_contents cs' (set_names nm s)).
  set (s2 := upd_inode iw _ _).
  assert (core s2) as Hc2.
  { apply core_decr; [done|eauto|done| | |].
    - intros j. subst cs'. rewrite (cnt_delete _ _ _ _ Hcs). subst cs. rewrite (cnt_update _ _ _ _ _ Hkn). cbn. unfold links. unfold b2z. repeat case_decide; try congruence; lia.
    - intros p k i [_ Hx]%lookup_delete_Some. subst cs. apply lookup_insert_Some in Hx as [[[= <- <-] <-]|[_ Hx]]; [split; [by exists kn, iw|by exists po, ko]|].
      split; [by exists k, i|by exists p, k].
    - eapply names_ok_ext; [exact Hnm|]. intros k. cbn. subst cs'. rewrite (cnt_delete _ _ _ _ Hcs). subst cs. rewrite (cnt_update _ _ _ _ _ Hkn). unfold uses. cbn. unfold b2z. repeat case_decide; try congruence; lia. }
  assert (held_but iw s2) as Hh2 by by apply held_decr.
  set (s3 := upd_inode pn _ _). intros Hr. right.
  assert (core s3) as Hc3 by (do 2 (apply core_mild; [done|]); done). assert (held_but iw s3) as Hh3 by (do 2 (apply held_but_mild; [done|]); done).
  assert (exists a3, inodes s3 !! iw = Some a3 /\ refcount a3 = refcount aw - 1 /\ size a3 = size aw) as (a3 & Hi3 & Hr3 & Hz3).
  { subst s3 s2. cbn. assert (alter (decr now) iw (inodes s) !! iw = Some (decr now aw)) as E by by rewrite lookup_alter, Haw.
    assert (exists b, alter (set_mctime now) po (alter (decr now) iw (inodes s)) !! iw = Some b /\ refcount b = refcount aw - 1 /\ size b = size aw) as (b & Hb & ? & ?).
    { destruct (decide (po = iw)) as [->|]; [rewrite lookup_alter, E|rewrite lookup_alter_ne, E by done]; by eexists. }
    unfold decr in Hb. destruct (decide (pn = iw)) as [->|]; [rewrite lookup_alter, Hb|rewrite lookup_alter_ne, Hb by done]; eexists; (split; [done|]); cbn; lia. }
  assert (opens s3 = opens s) as Ho3 by done.
  assert (shrinks s s3) as Hsh3. { do 3 (eapply shrinks_trans; [|apply shrinks_upd]). split; [done|]. done. }
  assert (contents s3 = cs') as Hct3 by done. change (opens s) with (opens s3) in Hr. clearbody s3. clear Hc2 Hh2 s2.
  assert (r = Done /\ consistent s' /\ opens s' = opens s /\ shrinks s s' /\ contents s' = cs') as (-> & Hcs' & Hos' & Hsh & Hct).
  { destruct (decide (refcount aw - 1 = 0 /\ opens s3 !! iw = None)) as [Hd3|Hd3].
    - injection Hr as <- <-. destruct Hd3 as [Hz Hop]. split; [done|]. rewrite consistent_core. split.
      + rewrite <- Hz3. split; [apply purge_core; try done; lia|by apply purge_held].
      + split; [done|]. split; [eapply shrinks_trans; [done|apply purge_shrinks]|done].
    - injection Hr as <- <-. split; [done|]. rewrite consistent_core. split; [|done]. split; [done|]. intros j b Hj Hrj. destruct (decide (j = iw)) as [->|Hne]; [|by apply (Hh3 j b)].
      rewrite Hi3 in Hj. injection Hj as <-. destruct (opens s3 !! iw) eqn:E; [eauto|]. exfalso. apply Hd3. split; [lia|done]. }
  split; [done|]. split; [done|]. split; [done|]. split; [done|].
  intros q m. assert (Hcm : compat s s') by by apply compat_shrinks.
  destruct (view_id s s' no ko rco) as (O1 & O2 & _); [done..|by left|]. destruct (view_id s s' nn kn rcn) as (N1 & N2 & _); [done..|by left|].
  destruct (decide ((q, m) = (po, no))) as [D1|D1]; [injection D1 as -> ->; rewrite O2, Hct; apply lookup_delete|].
  assert (forall k rc, names s !! m = Some (k, rc) -> entry s' q m = (if decide ((q, m) = (pn, nn)) then Some io else entry s q m)) as Hcase.
  { intros k rc Hm. destruct (view_id s s' m k rc) as (M1 & M2 & _); [done..|by left|]. rewrite M1, M2, Hct. subst cs' cs.
    rewrite lookup_delete_ne. 2:{ intros [= -> ->]. apply D1. f_equal. by apply (consistent_inj s Hcs0 _ _ k rc rco). }
    destruct (decide ((q, m) = (pn, nn))) as [D2|D2]; [injection D2 as -> ->; rewrite Hnn in Hm; injection Hm as <- _; apply lookup_insert|].
    apply lookup_insert_ne. intros [= -> ->]. apply D2. f_equal. by apply (consistent_inj s Hcs0 _ _ k rc rcn). }
  destruct (names s !! m) as [[k rc]|] eqn:E; [by eapply Hcase|]. rewrite decide_False by congruence. unfold entry. rewrite E.
  destruct (names s' !! m) as [[k rc]|] eqn:E'; [|done]. destruct Hsh as [Hsb _]. apply Hsb in E' as [? ?]. congruence.
Qed.

(** * All calls *)
(** New inodes have new numbers; the lookup counts change by [D] (or by more, if [late]). *)
Definition counted (s s' : fs) (D : nat -> Z) (late : bool) : Prop :=
  (forall j, is_Some (inodes s' !! j) -> is_Some (inodes s !! j) \/ (seq s <= j)%nat) /\ (seq s <= seq s')%nat /\
  (forall j, lookups s j + D j <= lookups s' j) /\ (late = false -> forall j, lookups s' j = lookups s j + D j).
Definition good (s s' : fs) (E : nat -> string -> option nat) (X : nat -> string -> option string) (D : nat -> Z) (late : bool) : Prop :=
  consistent s' /\ (forall p n, entry s' p n = E p n) /\ (forall j n, is_Some (inodes s' !! j) -> xattr s' j n = X j n) /\ counted s s' D late.
Lemma counted_same s s' late : (forall j, is_Some (inodes s' !! j) -> is_Some (inodes s !! j)) -> seq s' = seq s -> (forall j, opens s' !! j = opens s !! j) -> counted s s' (fun _ => 0) late.
Proof.
  intros Hi Hs Ho. split; [auto|]. split; [lia|]. unfold lookups. split; [intros j; rewrite Ho; lia|intros _ j; rewrite Ho; lia].
Qed.
Lemma counted_incr s s' D late i : counted s s' D late -> counted s (incr_open i s') (fun j => D j + if decide (j = i) then 1 else 0) late.
Proof.
  intros (H1 & H2 & H3 & H4). assert (forall j, lookups (incr_open i s') j = lookups s' j + if decide (j = i) then 1 else 0) as Hl.
  { intros j. unfold lookups. cbn. case_decide; [subst; by rewrite lookup_insert|rewrite lookup_insert_ne by done; lia]. }
  split; [done|]. split; [done|]. split.
  - intros j. rewrite Hl. specialize (H3 j). lia.
  - intros Hf j. rewrite Hl, H4 by done. lia.
Qed.
Lemma counted_late s i : counted s (incr_open i s) (fun _ => 0) true.
Proof.
  split; [by left|]. split; [done|]. split; [|done]. intros j. unfold lookups. cbn. destruct (decide (i = j)) as [<-|]; [rewrite lookup_insert; cbn; lia|rewrite lookup_insert_ne by done; lia].
Qed.
Lemma upd_inode_is_Some i f s j : is_Some (inodes (upd_inode i f s) !! j) <-> is_Some (inodes s !! j).
Proof. apply lookup_alter_is_Some. Qed.
Lemma good_same s s' late : consistent s' -> names s' = names s -> contents s' = contents s -> xattrs s' = xattrs s ->
  (forall j, is_Some (inodes s' !! j) <-> is_Some (inodes s !! j)) -> seq s' = seq s -> opens s' = opens s -> good s s' (entry s) (xattr s) (fun _ => 0) late.
Proof. intros Hc Hn Hct Hx Hi Hs Ho. split; [done|]. unfold entry, xattr. rewrite Hn, Hct, Hx. split; [done|]. split; [done|]. apply counted_same; [apply Hi|done|by rewrite Ho]. Qed.
Lemma good_refl s late : consistent s -> good s s (entry s) (xattr s) (fun _ => 0) late.
Proof. intros Hc. by apply good_same. Qed.

Lemma lookup__ok p n s s' x : consistent s -> lookup_ p n s = (s', x) ->
  match x with
  | inl (Err ENOENT) => s' = s /\ n <> CTRL_NAME /\ entry s p n = None
  | inl _ => False
  | inr i => s' = incr_open i s /\ is_Some (inodes s !! i) /\ ((n = CTRL_NAME /\ i = CTRL) \/ (n <> CTRL_NAME /\ entry s p n = Some i))
  end.
Proof.
  intros Hc. unfold lookup_. case_decide as Hn.
  - destruct (c_root _ _ _ Hc) as [_ [a Ha]]. rewrite Ha. intros [= <- <-]. subst. split; [done|]. split; [rewrite Ha; eauto|]. by left.
  - destruct (entry s p n) as [i|] eqn:E; [|by intros [= <- <-]].
    destruct (entry_inv _ _ _ _ E) as (k & rc & _ & Hk). destruct (c_entries _ _ _ Hc _ _ _ Hk) as (_ & _ & _ & _ & [a Ha]). rewrite Ha.
    intros [= <- <-]. split; [done|]. split; [rewrite Ha; eauto|]. by right.
Qed.
Lemma opens_incr_pos i s : consistent s -> exists c, opens (incr_open i s) !! i = Some c /\ 0 < c /\ c = default 0 (opens s !! i) + 1.
Proof.
  intros Hc. cbn. rewrite lookup_insert. eexists. split; [done|]. split; [|done]. destruct (opens s !! i) as [c|] eqn:E; cbn; [|lia].
  destruct (c_opens _ _ _ Hc _ _ E). lia.
Qed.

Lemma good_late i s : consistent s -> is_Some (inodes s !! i) -> good s (incr_open i s) (entry s) (xattr s) (fun _ => 0) true.
Proof. intros Hc Hi. split; [by apply consistent_incr|]. split; [done|]. split; [done|]. apply counted_late. Qed.

Lemma forget1_seq i n s s' r : forget1 max_obj_size i n s = (s', r) -> seq s' = seq s.
Proof. unfold forget1. intros H. repeat case_match; by simplify_eq. Qed.
Lemma remove_seq p n i f now s s' r : remove max_obj_size p n i f now s = (s', r) -> seq s' = seq s.
Proof. unfold remove, del_name. intros H. repeat case_match; by simplify_eq. Qed.
Lemma rename__seq po no pn nn now s s' r : rename_ po no pn nn now s = (s', r) -> seq s' = seq s.
Proof. unfold rename_, add_name, del_name. intros H. repeat case_match; by simplify_eq. Qed.
Lemma replace_seq po no pn nn io iw now s s' r : replace max_obj_size po no pn nn io iw now s = (s', r) -> seq s' = seq s.
Proof. unfold replace, del_name. intros H. repeat case_match; by simplify_eq. Qed.
(** The common part of unlink and rmdir. *)
Lemma remove_forget p n i now s s' r : consistent s -> is_Some (inodes s !! i) -> entry s p n = Some i ->
  (match remove max_obj_size p n i false now (incr_open i s) with (s, Done) => forget1 max_obj_size i 1 s | r => r end) = (s', r) ->
  ((exists e, r = Err e) /\ s' = incr_open i s /\ (r = Err ENOTEMPTY \/ r = Err EPERM)) \/
  (r = Done /\ good s s' (bind (entry s) p n None) (xattr s) (fun _ => 0) false /\ shrinks s s' /\ (forall j, opens s' !! j = opens s !! j) /\
   exists k rc, names s !! n = Some (k, rc) /\ contents s' = delete (p, k) (contents s)).
Proof.
  intros Hc Hi He. assert (consistent (incr_open i s)) as Hc1 by by apply consistent_incr.
  destruct (opens_incr_pos i s Hc) as (c & Hco & Hpos & Ec).
  destruct (remove max_obj_size p n i false now (incr_open i s)) as [s2 r2] eqn:Hr.
  destruct (remove_ok max_obj_size Hmax exact p n i false now _ _ _ Hc1 He Hr) as [(e & -> & ->)|(-> & Hc2 & Ho2 & Hi2 & Hsh & k & rc & Hk & Hct)].
  { intros [= <- <-]. left. split; [eauto|]. split; [done|]. unfold remove in Hr. repeat case_match; simplify_eq; auto. }
  intros Hf. assert (opens s2 !! i = Some c) as Hco2 by by rewrite Ho2.
  destruct (forget1_ok max_obj_size Hmax exact i 1 c s2 s' r Hc2 Hco2 ltac:(lia) Hf) as (-> & Hc3 & Hsh3 & Hct3 & Hoj & Hoi).
  right. split; [done|]. assert (shrinks s s') as Hsh' by (eapply shrinks_trans; [|exact Hsh3]; exact Hsh).
  assert (compat s s') as Hcm by by apply compat_shrinks. cbn in Hk. rewrite Hct in Hct3. cbn in Hct3.
  assert (forall j, opens s' !! j = opens s !! j) as Hops.
  { intros j. destruct (decide (j = i)) as [->|Hne]; [|rewrite Hoj, Ho2 by done; cbn; by rewrite lookup_insert_ne].
    rewrite Hoi. destruct (opens s !! i) as [c0|] eqn:E0; cbn in Ec; subst c.
    + destruct (c_opens _ _ _ Hc _ _ E0). rewrite decide_False by lia. f_equal. lia.
    + by rewrite decide_True by lia. }
  split; [|split; [done|split; [done|]]].
  - split; [done|]. split; [|split].
    + apply (view_delete s s' p n k rc); done.
    + intros j m Hj. apply xview_same; try done. apply Hsh', Hj.
    + apply counted_same; [apply Hsh'| |done]. rewrite (forget1_seq _ _ _ _ _ Hf). by rewrite (remove_seq _ _ _ _ _ _ _ _ Hr).
  - by exists k, rc.
Qed.

Lemma unlink_ok p n now s s' r : consistent s -> n <> CTRL_NAME -> unlink max_obj_size p n now s = (s', r) ->
  good s s' (entries_after (CUnlink p n now) r (entry s)) (xattr s) (given r) (fails_late (CUnlink p n now, r)) /\ r <> Crash.
Proof.
  intros Hc Hn. unfold unlink. destruct (failsafe s); [intros [= <- <-]; split; [by apply good_refl|done]|].
  destruct (lookup_ p n s) as [s1 x] eqn:Hl. pose proof (lookup__ok _ _ _ _ _ Hc Hl) as Hx. destruct x as [e|i].
  { destruct e as [| | | | | |[]|]; try done. destruct Hx as [-> _]. intros [= <- <-]. split; [by apply good_refl|done]. }
  destruct Hx as (-> & Hi & [[? ?]|[_ He]]); [done|]. destruct (S_ISDIR _).
  { intros [= <- <-]. split; [|done]. by apply good_late. }
  intros Hr. destruct (remove_forget _ _ _ _ _ _ _ Hc Hi He Hr) as [([e ->] & -> & He')|(-> & Hg & _)]; [|done].
  split; [|done]. cbn [fails_late]. destruct He' as [[= ->] | [= ->]]; by apply good_late.
Qed.
Lemma rmdir_ok p n now s s' r : consistent s -> n <> CTRL_NAME -> rmdir max_obj_size p n now s = (s', r) ->
  good s s' (entries_after (CRmdir p n now) r (entry s)) (xattr s) (given r) (fails_late (CRmdir p n now, r)).
Proof.
  intros Hc Hn. unfold rmdir. destruct (failsafe s); [intros [= <- <-]; by apply good_refl|].
  destruct (lookup_ p n s) as [s1 x] eqn:Hl. pose proof (lookup__ok _ _ _ _ _ Hc Hl) as Hx. destruct x as [e|i].
  { destruct e as [| | | | | |[]|]; try done. destruct Hx as [-> _]. intros [= <- <-]. by apply good_refl. }
  destruct Hx as (-> & Hi & [[? ?]|[_ He]]); [done|].
  assert (good s (incr_open i s) (entry s) (xattr s) (fun _ => 0) true) as Hg1 by by apply good_late.
  destruct (inodes (incr_open i s) !! p) eqn:Hp.
  2:{ destruct (entry_inv _ _ _ _ He) as (k & rc & _ & Hk). destruct (c_entries _ _ _ Hc _ _ _ Hk) as (_ & (ap & Hap & _) & _). cbn in Hp. congruence. } destruct (locked _); [by intros [= <- <-]|]. destruct (negb _); [by intros [= <- <-]|].
  intros Hr. destruct (remove_forget _ _ _ _ _ _ _ Hc Hi He Hr) as [([e ->] & -> & [[= ->] | [= ->]])|(-> & Hg & _)]; done.
Qed.
Lemma create__good p n m c rd sz now s s' i : consistent s -> p <> CTRL -> create_ p n m c rd sz now s = (s', inr i) ->
  good s s' (bind (entry s) p n (Some i)) (xattr s) (fun _ => 0) false /\ is_Some (inodes s' !! i) /\ opens s' = opens s.
Proof.
  intros Hc Hp Hr. destruct (create_ok max_obj_size exact p n m c rd sz now s s' _ Hc Hp Hr) as (Hc' & Ho & -> & Hno & _ & (a & Ha & _) & Hsub & Hx & Hj & k & rc & Hk & Hn & Hct).
  assert (compat s s') as Hcm by by apply compat_grows. split; [|eauto]. split; [done|]. split; [|split].
  - apply (view_insert s s' p n k rc); auto.
  - intros j m' _. apply xview_same; try done. by rewrite Hx.
  - split; [|split; [|unfold lookups; rewrite Ho; split; [intros; lia|intros; lia]]].
    + intros j Hjs. destruct (decide (j = seq s)) as [->|Hne]; [by right|left; auto].
    + assert (seq s < seq s')%nat; [|lia]. by apply (c_seq _ _ _ Hc' _ _ Ha).
Qed.
Lemma good_incr s s' E X D i late : is_Some (inodes s' !! i) -> good s s' E X D late -> good s (incr_open i s') E X (fun j => D j + if decide (j = i) then 1 else 0) late.
Proof. intros Hi (Hc & H1 & H2 & H3). split; [by apply consistent_incr|]. split; [done|]. split; [done|]. by apply counted_incr. Qed.
Lemma good_entry s s' E X i a : is_Some (inodes s' !! i) -> good s s' E X (fun _ => 0) false -> good s (incr_open i s') E X (given (Entry i a)) false.
Proof. apply good_incr. Qed.
Lemma mknod_ok p n m rd c now s s' r : consistent s -> p <> CTRL -> mknod p n m rd c now s = (s', r) -> r <> Crash ->
  good s s' (entries_after (CMknod p n m rd c now) r (entry s)) (xattr s) (given r) false.
Proof.
  intros Hc Hp. unfold mknod. destruct (failsafe s); [intros [= <- <-] ?; by apply good_refl|].
  destruct (create_ p n m c rd 0 now s) as [s1 [e|i]] eqn:Hr.
  - pose proof (create_ok max_obj_size exact _ _ _ _ _ _ _ _ _ _ Hc Hp Hr) as Hx. destruct e; try done; [subst; intros [= <- <-] _; by apply good_refl|by intros [= <- <-]].
  - destruct (create__good _ _ _ _ _ _ _ _ _ _ Hc Hp Hr) as (Hg & [a Ha] & _). rewrite Ha. intros [= <- <-] _. apply good_entry; [by eexists|done].
Qed.
Lemma symlink_ok p n t c now s s' r : consistent s -> p <> CTRL -> symlink p n t c now s = (s', r) -> r <> Crash ->
  good s s' (entries_after (CSymlink p n t c now) r (entry s)) (xattr s) (given r) false.
Proof.
  intros Hc Hp. unfold symlink. destruct (failsafe s); [intros [= <- <-] ?; by apply good_refl|].
  destruct (create_ p n LINKMODE c 0 (Z.of_nat (String.length t)) now s) as [s1 [e|i]] eqn:Hr.
  - pose proof (create_ok max_obj_size exact _ _ _ _ _ _ _ _ _ _ Hc Hp Hr) as Hx. destruct e; try done; [subst; intros [= <- <-] _; by apply good_refl|by intros [= <- <-]].
  - destruct (create__good _ _ _ _ _ _ _ _ _ _ Hc Hp Hr) as (Hg & [a Ha] & _). rewrite Ha. intros [= <- <-] _. apply good_entry; [by eexists|].
    destruct Hg as (Hc' & H1 & H2 & H3). split; [|done]. apply consistent_symlink; [by eexists|done].
Qed.
Lemma link_ok i p n now s s' r : consistent s -> p <> CTRL -> link i p n now s = (s', r) -> r <> Crash ->
  good s s' (entries_after (CLink i p n now) r (entry s)) (xattr s) (given r) false.
Proof.
  intros Hc Hp. unfold link. case_decide as Hn; [intros [= <- <-] ?; by apply good_refl|].
  destruct (inodes s !! p) as [ap|] eqn:Hap; [|by intros [= <- <-]]. case_decide as Hrp; [intros [= <- <-] ?; by apply good_refl|].
  destruct (_ || _); [intros [= <- <-] ?; by apply good_refl|].
  set (s1 := upd_inode p (set_mctime now) s). assert (consistent s1) as Hc1 by by apply consistent_mild.
  assert (Hk1 := Hc1). rewrite consistent_core in Hk1. destruct Hk1 as [Hk1 Hh1].
  destruct (add_name n s1) as [s2 k] eqn:Ha. destruct (add_name_ok exact n s1 s2 k (uses s1) (k_names _ _ _ Hk1) Ha) as (Hnm & rc & Hn2 & Hs2 & _).
  pose proof (add_name_sub _ _ _ _ Ha) as Hsub. remember (names s2) as nm eqn:Enm. assert (s2 = set_names nm s1) as E2 by (subst nm; by rewrite Hs2). clear Hs2. subst s2. clear Ha Enm.
  cbn [contents set_names]. destruct (contents s1 !! (p, k)) eqn:Hck; [by intros [= <- <-]|]. cbn [inodes set_contents set_names].
  destruct (inodes s1 !! i) as [a|] eqn:Hi; [|by intros [= <- <-]].
  set (s3 := upd_inode i _ _). assert (exists a3, inodes s3 !! i = Some a3) as [a3 Ha3] by (eexists; subst s3; cbn [inodes upd_inode set_inodes set_contents set_names]; rewrite lookup_alter, Hi; done).
  change (inodes (incr_open i s3)) with (inodes s3). rewrite Ha3. intros [= <- <-] _. cbn [entries_after].
  assert (consistent s3) as Hc3.
  { rewrite consistent_core. split.
    - eapply core_link; try done.
      + intros ->. apply Hn. by right.
      + exists (set_mctime now ap). cbn. rewrite lookup_alter, Hap. split; [done|]. cbn.
        assert (0 <= refcount ap); [|lia]. rewrite (c_links _ _ _ Hc _ _ Hap). unfold links. pose proof (cnt_nonneg (fun kv : nat * nat * nat => kv.2 = p) (contents s)). unfold base_links. repeat case_decide; lia.
    - intros j b. cbn. intros [(<- & b0 & Hb & ->)|[Hne Hb]]%lookup_alter_Some.
      + cbn. intros Hz. exfalso. assert (0 <= refcount b0); [|lia]. rewrite (c_links _ _ _ Hc1 _ _ Hb). unfold links. pose proof (cnt_nonneg (fun kv : nat * nat * nat => kv.2 = i) (contents s1)). unfold base_links. repeat case_decide; lia.
      + by apply Hh1. }
  assert (compat s s3) as Hcm by by apply compat_grows.
  apply good_entry; [by eexists|]. split; [done|]. split; [|split].
  - apply (view_insert s s3 p n k rc); try done. by right.
  - intros j m _. by apply xview_same.
  - apply counted_same; [|done|done]. intros j. subst s3. rewrite upd_inode_is_Some. cbn. by rewrite lookup_alter_is_Some.
Qed.
Lemma rename_ok po no pn nn fl now s s' r : consistent s -> parent_ok s pn -> rename max_obj_size po no pn nn fl now s = (s', r) -> r <> Crash ->
  good s s' (match r with Done => if decide ((po, no) = (pn, nn)) then bind (entry s) po no None else bind (bind (entry s) po no None) pn nn (entry s po no) | _ => entry s end)
    (xattr s) (fun _ => 0) (fails_late (CRename po no pn nn fl now, r)).
Proof.
  intros Hc Hpn.
  unfold rename. destruct fl; [intros [= <- <-] ?; by apply good_refl|]. case_decide as Hn; [intros [= <- <-] ?; by apply good_refl|].
  destruct (failsafe s); [intros [= <- <-] ?; by apply good_refl|].
  destruct (inodes s !! po) as [ao|] eqn:Hao; [|by intros [= <- <-]]. destruct (inodes s !! pn) as [an|] eqn:Han; [|by intros [= <- <-]].
  destruct (_ || _); [intros [= <- <-] ?; by apply good_refl|].
  destruct (lookup_ po no s) as [s1 x] eqn:Hl. pose proof (lookup__ok _ _ _ _ _ Hc Hl) as Hx. destruct x as [e|io].
  { destruct e as [| | | | | |[]|]; try done. destruct Hx as [-> _]. intros [= <- <-] _. by apply good_refl. }
  destruct Hx as (-> & Hio & [[? ?]|[_ He]]); [by destruct Hn; auto|]. clear Hl.
  set (s1 := incr_open io s). assert (consistent s1) as Hc1 by by apply consistent_incr.
  destruct (opens_incr_pos io s Hc) as (co & Hco & Hpos & Eco). fold s1 in Hco.
  destruct (lookup_ pn nn s1) as [s2 x] eqn:Hl. pose proof (lookup__ok _ _ _ _ _ Hc1 Hl) as Hx. clear Hl. destruct x as [e|iw].
  - destruct e as [| | | | | |[]|]; try done. destruct Hx as (-> & _ & Hew).
    destruct (rename_ po no pn nn now s1) as [s3 r3] eqn:Hr.
    destruct (rename__ok po no pn nn now s1 s3 r3 io Hc1 He Hew Hpn) as (-> & Hc3 & Ho3 & Hcm & Hx3 & Hi3 & Hv3); [by exists an|done|].
    cbn [forget]. destruct (forget1 max_obj_size io 1 s3) as [s4 r4] eqn:Hf. rewrite <- Ho3 in Hco.
    destruct (forget1_ok max_obj_size Hmax exact io 1 co s3 s4 r4 Hc3 Hco ltac:(lia) Hf) as (-> & Hc4 & Hsh4 & Hct4 & Hoj & Hoi).
    intros [= <- <-] _. assert (compat s s4) as Hcm4 by (by eapply compat_trans).
    assert (forall j, lookups s4 j = lookups s j) as Hlk.
    { intros j. unfold lookups. destruct (decide (j = io)) as [->|Hne].
      - rewrite Hoi. rewrite Ho3 in Hco. destruct (opens s !! io) as [c0|] eqn:E0; cbn in Eco; subst co; case_decide; cbn; lia.
      - rewrite Hoj, Ho3 by done. subst s1. cbn. by rewrite lookup_insert_ne. }
    split; [done|]. split; [|split].
    + intros p m. rewrite (view_same s3 s4) by (try done; by apply compat_shrinks). rewrite Hv3. change (entry s1) with (entry s).
      assert ((po, no) <> (pn, nn)) as Hdn by (intros [= -> ->]; change (entry s pn nn = None) in Hew; congruence). rewrite (decide_False (P := (po, no) = (pn, nn))) by done.
      unfold bind. rewrite He. done.
    + intros j m Hj. apply xview_same; try done. intros k. destruct (proj2 Hsh4 _ Hj) as [_ E]. rewrite E, Hx3. done.
    + split; [intros j Hj; left; apply (Hi3 j); by apply Hsh4|]. split; [rewrite (forget1_seq _ _ _ _ _ Hf), (rename__seq _ _ _ _ _ _ _ _ Hr); done|]. split; intros; rewrite Hlk; lia.
  - destruct Hx as (-> & Hiw & [[? ?]|[_ Hew]]); [by destruct Hn; auto|]. set (s2 := incr_open iw s1).
    assert (consistent s2) as Hc2 by by apply consistent_incr.
    destruct (replace max_obj_size po no pn nn io iw now s2) as [s3 r3] eqn:Hr.
    destruct (replace_ok po no pn nn io iw now s2 s3 r3 Hc2 He Hew Hr) as [(e & -> & ->)|(-> & Hc3 & Ho3 & Hsh3 & Hv3)].
    { assert (forall j, lookups s j <= lookups s2 j) as Hlk.
      { intros j. unfold lookups. transitivity (default 0 (opens s1 !! j)); cbn.
        - destruct (decide (io = j)) as [<-|]; [rewrite lookup_insert; cbn; lia|by rewrite lookup_insert_ne].
        - destruct (decide (iw = j)) as [<-|]; [rewrite (lookup_insert (<[io:=default 0 (opens s !! io) + 1]> (opens s))); cbn; lia|by rewrite (lookup_insert_ne (<[io:=default 0 (opens s !! io) + 1]> (opens s)))]. }
      intros [= <- <-] _. split; [done|]. split; [done|]. split; [done|]. split; [by left|]. split; [done|].
      split; [intros j; specialize (Hlk j); lia|]. unfold replace in Hr. repeat case_match; simplify_eq. done. }
    destruct (opens_incr_pos iw s1 Hc1) as (cw & Hcw & Hposw & Ecw). fold s2 in Hcw.
    assert (exists c, opens s3 !! io = Some c /\ 1 <= c /\ (io = iw -> 2 <= c)) as (c & Hc3o & Hcge & Hceq).
    { rewrite Ho3. destruct (decide (io = iw)) as [->|Hne].
      - exists cw. rewrite Hcw. split; [done|]. split; [lia|]. intros _. rewrite Hco in Ecw. cbn in Ecw. lia.
      - exists co. cbn. rewrite lookup_insert_ne by done. split; [done|]. split; [lia|done]. }
    cbn [forget]. destruct (forget1 max_obj_size io 1 s3) as [s4 r4] eqn:Hf.
    destruct (forget1_ok max_obj_size Hmax exact io 1 c s3 s4 r4 Hc3 Hc3o ltac:(lia) Hf) as (-> & Hc4 & Hsh4 & Hct4 & Hoj & Hoi).
    assert (exists c', opens s4 !! iw = Some c' /\ 1 <= c') as (c' & Hc4w & Hc'ge).
    { destruct (decide (iw = io)) as [->|Hne]; [rewrite Hoi, decide_False by lia; exists (c - 1); split; [done|]; specialize (Hceq eq_refl); lia|].
      rewrite Hoj, Ho3 by done. exists cw. split; [done|lia]. }
    destruct (forget1 max_obj_size iw 1 s4) as [s5 r5] eqn:Hf5.
    destruct (forget1_ok max_obj_size Hmax exact iw 1 c' s4 s5 r5 Hc4 Hc4w ltac:(lia) Hf5) as (-> & Hc5 & Hsh5 & Hct5 & Hoj5 & Hoi5).
    intros [= <- <-] _. assert (shrinks s s5) as Hsh by (eapply shrinks_trans; [|exact Hsh5]; eapply shrinks_trans; [exact Hsh3|exact Hsh4]).
    assert (compat s s5) as Hcm by by apply compat_shrinks.
    assert (forall j, lookups s5 j = lookups s j) as Hlk.
    { intros j. transitivity (lookups s4 j - (if decide (j = iw) then 1 else 0)).
      { unfold lookups. destruct (decide (j = iw)) as [->|Hne]; [rewrite Hoi5, Hc4w; destruct (decide (c' = 1)); cbn; lia|rewrite Hoj5 by done; lia]. }
      transitivity (lookups s3 j - (if decide (j = io) then 1 else 0) - (if decide (j = iw) then 1 else 0)).
      { f_equal. unfold lookups. destruct (decide (j = io)) as [->|Hne]; [rewrite Hoi, Hc3o; destruct (decide (c = 1)); cbn; lia|rewrite Hoj by done; lia]. }
      unfold lookups. rewrite Ho3. subst s2. cbn. subst s1. cbn.
      destruct (decide (j = io)) as [H1|H1]; destruct (decide (j = iw)) as [H2|H2]; [subst iw; subst io|subst io|subst iw|]; repeat first [rewrite lookup_insert | rewrite lookup_insert_ne by congruence]; cbn; lia. }
    split; [done|]. split; [|split].
    + intros p m. rewrite (view_same s3 s5); [|done|done|apply compat_shrinks; [done|by eapply shrinks_trans]|congruence].
      rewrite Hv3. change (entry s2) with (entry s). destruct (decide ((po, no) = (pn, nn))) as [Hd|Hd].
      * unfold bind. destruct (decide ((p, m) = (po, no))) as [|D]; [done|]. by rewrite decide_False by congruence.
      * unfold bind. rewrite He. destruct (decide ((p, m) = (po, no))) as [D|D]; [by rewrite decide_False by congruence|]. done.
    + intros j m Hj. apply xview_same; try done. apply Hsh, Hj.
    + split; [intros j Hj; left; by apply Hsh|]. split; [rewrite (forget1_seq _ _ _ _ _ Hf5), (forget1_seq _ _ _ _ _ Hf), (replace_seq _ _ _ _ _ _ _ _ _ _ Hr); done|]. split; intros; rewrite Hlk; lia.
Qed.
End ops.
