(** Every call keeps the tables consistent: extended attributes, file contents, listings; all calls together. *)
From stdpp Require Import prelude gmap strings sorting.
From Coq Require Import ZArith String.
From Verif Require Import FsModel FsSpec FsLemmas FsInv FsOps.
Local Close Scope string_scope.
Local Open Scope Z_scope.

Lemma names_ok_weaken nm tot tot' : names_ok false nm tot -> (forall k, 0 <= tot' k <= tot k) -> names_ok false nm tot'.
Proof.
  intros (H1 & H2 & H3 & H4) Hle. split; [done|]. split; [|split].
  - intros n k rc Hn. destruct (H2 _ _ _ Hn) as (? & ? & ? & _). specialize (Hle k). split; [done|]. split; [done|]. split; [lia|done].
  - intros k. apply Hle.
  - intros k Hk. apply H4. specialize (Hle k). lia.
Qed.
Lemma uses_nonneg s k : 0 <= uses s k.
Proof. unfold uses. pose proof (cnt_nonneg (fun kv : nat * nat * nat => kv.1.2 = k) (contents s)). pose proof (cnt_nonneg (fun kv : nat * nat * string => kv.1.2 = k) (xattrs s)). lia. Qed.

Section steps.
Context (max_obj_size : Z) (Hmax : 0 < max_obj_size) (exact : bool).
Local Notation consistent := (consistent max_obj_size exact).
Local Notation core := (core max_obj_size exact).
Local Notation good := (good max_obj_size exact).

(** ** Extended attributes *)
Lemma core_xattrs s nm xs : core s -> (forall i k v, xs !! (i, k) = Some v -> is_Some (inodes s !! i)) ->
  names_ok exact nm (fun k => cnt (fun kv => kv.1.2 = k) (contents s) + cnt (fun kv => kv.1.2 = k) xs) ->
  core (set_xattrs xs (set_names nm s)).
Proof. intros [H1 H2 H3 H3c H3d H4 H5 H6 H7 H8] Hx Hn. by constructor. Qed.
Lemma setxattr_ok i n v now s s' r : consistent s -> (exact = true -> xattr s i n = None) -> setxattr i n v now s = (s', r) -> r <> Crash ->
  good s s' (entry s) (xattrs_after (CSetxattr i n v now) r (xattr s)) (given r) false.
Proof.
  intros Hcs Hex. unfold setxattr. destruct (is_acl n); [intros [= <- <-] _; by apply good_refl|]. destruct (failsafe s); [intros [= <- <-] _; by apply good_refl|].
  destruct (inodes s !! i) as [a|] eqn:Ha; [|by intros [= <- <-]]. destruct (locked a); [intros [= <- <-] _; by apply good_refl|].
  assert (Hk := Hcs). rewrite consistent_core in Hk. destruct Hk as [Hc Hh].
  destruct (add_name n s) as [s1 k] eqn:Han. destruct (add_name_ok exact n s s1 k (uses s) (k_names _ _ _ Hc) Han) as (Hnm & rc & Hn1 & Hs1 & Hk1).
  pose proof (add_name_sub _ _ _ _ Han) as Hsub. remember (names s1) as nm eqn:Enm. assert (s1 = set_names nm s) as E by (subst nm; by rewrite Hs1). clear Hs1 Han Enm. subst s1.
  cbn [xattrs set_names]. intros [= <- <-] _. cbn [xattrs_after].
  set (s2 := set_xattrs _ _).
  assert (consistent s2) as Hc2.
  { rewrite consistent_core. split; [|done]. apply core_xattrs; [done| |].
    - intros j k' v' [[[= <- <-] _]|[_ Hj]]%lookup_insert_Some; [by rewrite Ha|]. by eapply (k_xattrs _ _ _ Hc).
    - destruct (xattrs s !! (i, k)) as [v0|] eqn:Ex.
      + assert (exact = false) as Ef.
        { destruct exact; [|done]. exfalso. assert (xattr s i n = Some v0) as E'; [|rewrite Hex in E'; done]. unfold xattr.
          destruct (c_left _ _ _ Hcs) as (_ & Hl & _). destruct (Hl _ _ _ Ex) as (_ & n' & rc' & Hn'). destruct (Hsub _ _ _ Hn') as [rc1 E1].
          destruct Hnm as (Hinj & _). pose proof (Hinj _ _ _ _ _ Hn1 E1) as <-. by rewrite Hn'. }
        rewrite Ef in *. eapply names_ok_weaken; [exact Hnm|]. intros k'. cbn. rewrite (cnt_update _ _ _ _ _ Ex). cbn.
        pose proof (uses_nonneg s k'). unfold uses in *. pose proof (b2z_pos (k = k')). unfold b2z in *. repeat case_decide; lia.
      + eapply names_ok_ext; [exact Hnm|]. intros k'. cbn. rewrite cnt_insert_new by done. unfold uses. cbn. unfold b2z. repeat case_decide; try congruence; lia. }
  set (s3 := upd_inode i _ s2). assert (consistent s3) as Hc3 by by apply consistent_mild.
  assert (compat s s3) as Hcm by by apply (compat_grows max_obj_size exact).
  split; [done|]. split; [by apply (view_same max_obj_size exact)|].
  split; [|apply counted_same; [intros j; apply (upd_inode_is_Some i (set_ctime now) s2)|done|done]].
  intros j m _. unfold bind. destruct (view_id max_obj_size exact s s3 n k rc) as (_ & _ & N1 & N2); [done..|by right|].
  destruct (decide ((j, m) = (i, n))) as [D|D]; [injection D as -> ->; rewrite N2; apply lookup_insert|].
  destruct (decide (m = n)) as [->|Hmn]; [rewrite N1, N2; subst s3 s2; cbn; rewrite lookup_insert_ne; congruence|].
  unfold xattr. change (names s3) with nm. destruct (nm !! m) as [[k' rc']|] eqn:E.
  - destruct (view_id max_obj_size exact s s3 m k' rc') as (_ & _ & M1 & M2); [done..|by right|]. fold (xattr s j m). rewrite M1. subst s3 s2. cbn.
    apply lookup_insert_ne. intros [= _ <-]. destruct Hnm as (Hinj & _). apply Hmn. by apply (Hinj _ _ k rc' rc).
  - destruct (names s !! m) as [[k' rc']|] eqn:E'; [|done]. apply Hsub in E' as [? ?]. congruence.
Qed.
Lemma removexattr_ok i n now s s' r : consistent s -> (forall k rc, names s !! n = Some (k, rc) -> is_Some (xattrs s !! (i, k))) ->
  removexattr i n now s = (s', r) -> r <> Crash -> good s s' (entry s) (xattrs_after (CRemovexattr i n now) r (xattr s)) (given r) false.
Proof.
  intros Hcs Hex. unfold removexattr. destruct (failsafe s); [intros [= <- <-] _; by apply good_refl|].
  destruct (inodes s !! i) as [a|] eqn:Ha; [|by intros [= <- <-]]. destruct (locked a); [intros [= <- <-] _; by apply good_refl|].
  assert (Hk := Hcs). rewrite consistent_core in Hk. destruct Hk as [Hc Hh].
  destruct (del_name n s) as [[s1 k]|] eqn:Hd; [|intros [= <- <-] _; by apply good_refl].
  assert (exists rc, names s !! n = Some (k, rc)) as [rc Hn]. { unfold del_name in Hd. destruct (names s !! n) as [[k0 rc0]|]; [|done]. injection Hd as _ <-. eauto. }
  destruct (Hex _ _ Hn) as [v Hv].
  assert (0 < uses s k) as Hpos. { unfold uses. pose proof (cnt_pos (fun kv : nat * nat * string => kv.1.2 = k) _ _ _ Hv eq_refl). pose proof (cnt_nonneg (fun kv : nat * nat * nat => kv.1.2 = k) (contents s)). lia. }
  destruct (del_name_ok exact n s s1 k (uses s) (k_names _ _ _ Hc) Hd Hpos) as (Hnm & Hs1 & _). pose proof (del_name_sub _ _ _ _ Hd) as Hsub.
  remember (names s1) as nm eqn:Enm. clear Hd Enm. subst s1. cbn [xattrs set_names]. rewrite Hv. intros [= <- <-] _. cbn [xattrs_after].
  set (s2 := set_xattrs _ _).
  assert (consistent s2) as Hc2.
  { rewrite consistent_core. split; [|done]. apply core_xattrs; [done| |].
    - intros j k' v' [_ Hj]%lookup_delete_Some. by eapply (k_xattrs _ _ _ Hc).
    - eapply names_ok_ext; [exact Hnm|]. intros k'. cbn. rewrite (cnt_delete _ _ _ _ Hv). unfold uses. cbn. unfold b2z. repeat case_decide; try congruence; lia. }
  set (s3 := upd_inode i _ s2). assert (consistent s3) as Hc3 by by apply consistent_mild.
  assert (compat s s3) as Hcm. { exists (names s). split; [by apply (consistent_inj max_obj_size exact)|]. split; [apply sub_refl|done]. }
  split; [done|]. split; [by apply (view_same max_obj_size exact)|].
  split; [|apply counted_same; [intros j; apply (upd_inode_is_Some i (set_ctime now) s2)|done|done]].
  intros j m _. unfold bind. destruct (view_id max_obj_size exact s s3 n k rc) as (_ & _ & N1 & N2); [done..|by left|].
  destruct (decide ((j, m) = (i, n))) as [D|D]; [injection D as -> ->; rewrite N2; apply lookup_delete|].
  destruct (decide (m = n)) as [->|Hmn]; [rewrite N1, N2; subst s3 s2; cbn; rewrite lookup_delete_ne; congruence|].
  destruct (names s !! m) as [[k' rc']|] eqn:E.
  - destruct (view_id max_obj_size exact s s3 m k' rc') as (_ & _ & M1 & M2); [done..|by left|]. rewrite M1, M2. subst s3 s2. cbn.
    apply lookup_delete_ne. intros [= _ <-]. apply Hmn. by apply (consistent_inj max_obj_size exact s Hcs _ _ k rc' rc).
  - unfold xattr. rewrite E. destruct (names s3 !! m) as [[k' rc']|] eqn:E'; [|done]. apply Hsub in E' as [? ?]. congruence.
Qed.
(** listxattr returns every attribute once. *)
Lemma listxattr_names i s : consistent s -> exists l, listxattr i s = (s, Names l) /\ NoDup l /\ forall n, n ∈ l <-> is_Some (xattr s i n).
Proof.
  intros Hc. eexists. split; [done|]. split.
  - assert (forall l : list (string * (nat * Z)), NoDup l.*1 -> forall f, NoDup (List.filter f l).*1) as Hf.
    { induction l as [|x l IH]; intros Hn f; [done|]. cbn in Hn. apply NoDup_cons in Hn as [Hx Hn]. cbn. destruct (f x); [|by apply IH]. cbn. constructor; [|by apply IH].
      intros (y & E & Hy)%elem_of_list_fmap. apply Hx. rewrite E. apply elem_of_list_fmap. exists y. split; [done|]. apply elem_of_list_In, filter_In in Hy as [Hy _]. by apply elem_of_list_In. }
    apply Hf. apply NoDup_fst_map_to_list.
  - intros n. rewrite elem_of_list_fmap. unfold xattr. split.
    + intros ([n' [k rc]] & -> & Hy). apply elem_of_list_In, filter_In in Hy as [Hy Hb]. apply elem_of_list_In, elem_of_map_to_list in Hy. cbn.
      rewrite Hy. by apply bool_decide_eq_true in Hb.
    + destruct (names s !! n) as [[k rc]|] eqn:E; [|by intros [? ?]]. intros Hx. exists (n, (k, rc)). split; [done|]. apply elem_of_list_In, filter_In. split.
      * by apply elem_of_list_In, elem_of_map_to_list.
      * by apply bool_decide_eq_true.
Qed.

(** ** File contents *)
Lemma consistent_attr i a a' s : consistent s -> inodes s !! i = Some a -> refcount a' = refcount a -> size a' = size a -> consistent (upd_inode i (fun _ => a') s).
Proof.
  intros Hc Hi Hr Hz. eapply consistent_resize; try done. intros b o Hb. destruct (c_left _ _ _ Hc) as (_ & _ & _ & Hl).
  destruct (Hl _ _ _ Hb) as (a0 & Ha0 & Hlt). rewrite Hi in Ha0. injection Ha0 as <-. lia.
Qed.
Lemma setattr_ok i rq bad o now s s' r : consistent s -> (forall z, r_size rq = Some z -> 0 <= z) -> setattr max_obj_size i rq bad o now s = (s', r) -> r <> Crash ->
  consistent s' /\ names s' = names s /\ contents s' = contents s /\ xattrs s' = xattrs s /\ opens s' = opens s /\ seq s' = seq s /\ symlinks s' = symlinks s /\
  (forall j, is_Some (inodes s' !! j) <-> is_Some (inodes s !! j)) /\ (match r with Err _ | Attrs _ _ => True | _ => False end).
Proof.
  intros Hc Hz. unfold setattr. destruct (inodes s !! i) as [a|] eqn:Ha; [|by intros [= <- <-]].
  destruct (_ || _); [intros [= <- <-] _; done|].
  set (a1 := Attr _ _ _ _ _ _ _ _ _ _). assert (refcount a1 = refcount a /\ size a1 = size a) as [Hr1 Hz1] by done. clearbody a1.
  assert (forall a2, refcount a2 = refcount a -> size a2 = size a -> forall j, is_Some (inodes (upd_inode i (fun _ => a2) s) !! j) <-> is_Some (inodes s !! j)) as Hio.
  { intros a2 _ _ j. cbn. apply lookup_alter_is_Some. }
  destruct (match r_atime rq with None => Some a1 | Some t => if in_range t then Some (set_atime t a1) else None end) as [a2|] eqn:E2.
  2:{ intros [= <- <-] _. split; [by eapply consistent_attr|]. do 6 (split; [done|]). split; [intros j; apply lookup_alter_is_Some|done]. }
  assert (refcount a2 = refcount a /\ size a2 = size a) as [Hr2 Hz2]. { destruct (r_atime rq); [|by injection E2 as <-]. destruct (in_range _); [|done]. by injection E2 as <-. }
  destruct (match r_mtime rq with None => Some a2 | Some t => if in_range t then Some (Attr (mode a2) (uid a2) (gid a2) (size a2) (rdev a2) (atime a2) t (ctime a2) (refcount a2) (locked a2)) else None end) as [a3|] eqn:E3.
  2:{ intros [= <- <-] _. split; [by eapply consistent_attr|]. do 6 (split; [done|]). split; [intros j; apply lookup_alter_is_Some|done]. }
  assert (refcount a3 = refcount a /\ size a3 = size a) as [Hr3 Hz3]. { destruct (r_mtime rq); [|by injection E3 as <-]. destruct (in_range _); [|done]. by injection E3 as <-. }
  clear E2 E3 Hr2 Hz2 Hr1 Hz1 a1 a2. set (a4 := set_ctime now a3). assert (refcount a4 = refcount a /\ size a4 = size a) as [Hr4 Hz4] by done. clearbody a4. clear Hr3 Hz3 a3.
  destruct (r_size rq) as [len|] eqn:El.
  2:{ intros [= <- <-] _. split; [by eapply consistent_attr|]. do 6 (split; [done|]). split; [intros j; apply lookup_alter_is_Some|done]. }
  specialize (Hz _ eq_refl).
  assert (forall x, len <= x * max_obj_size \/ (x = len / max_obj_size + 1) -> len / max_obj_size <= x ->
     (forall b : Z, 0 <= b -> b < x -> b * max_obj_size < len) ->
     consistent (remove_blocks i x (ceil_blocks max_obj_size (size a4)) (upd_inode i (fun _ => set_size len a4) s))) as Hrm.
  { intros x _ _ Hx. change (remove_blocks i x (ceil_blocks max_obj_size (size a4)) (upd_inode i (fun _ => set_size len a4) s))
      with (upd_inode i (fun _ => set_size len a4) (remove_blocks i x (ceil_blocks max_obj_size (size a4)) s)).
    apply (consistent_resize max_obj_size exact i _ _ a); [by apply consistent_remove_blocks|done|done|].
    intros b o' [Hb Hnx]%remove_blocks_lookup. cbn. destruct (c_left _ _ _ Hc) as (_ & _ & _ & Hl).
    destruct (Hl _ _ _ Hb) as (a0 & Ha0 & Hlt). rewrite Ha in Ha0. injection Ha0 as <-. apply Hx; [lia|].
    destruct (decide (x <= Z.of_nat b)); [|lia]. exfalso. apply Hnx. split; [done|]. split; [done|]. rewrite Hz4. by apply below_ceil. }
  pose proof (Z.div_mod len max_obj_size ltac:(lia)) as Hdm. pose proof (Z.mod_pos_bound len max_obj_size Hmax) as Hmb.
  assert (0 <= len / max_obj_size) as Hd0 by (apply Z.div_pos; lia).
  case_decide as Hcut.
  { change (size (set_size len a4)) with len. intros [= <- <-] _. split; [apply Hrm; [left; nia|lia|intros; nia]|]. do 6 (split; [done|]). split; [intros j; apply lookup_alter_is_Some|done]. }
  assert (consistent (remove_blocks i (len / max_obj_size + 1) (ceil_blocks max_obj_size (size a4)) (upd_inode i (fun _ => set_size len a4) s))) as Hc5.
  { apply Hrm; [by right|lia|intros; nia]. }
  set (s5 := remove_blocks i _ _ _) in *. assert (inodes s5 !! i = Some (set_size len a4)) as Hi5 by (subst s5; cbn; by rewrite lookup_alter, Ha).
  destruct bad as [[]|]; [intros [= <- <-] _|by intros [= <- <-]|intros [= <- <-] _].
  - split; [by apply consistent_failsafe|]. do 6 (split; [done|]). split; [intros j; apply lookup_alter_is_Some|done].
  - split; [eapply consistent_put; try done; cbn; rewrite Z2Nat.id by done; nia|]. do 6 (split; [done|]). split; [intros j; apply lookup_alter_is_Some|done].
Qed.
Lemma setattr_good i rq bad o now s s' r : consistent s -> (forall z, r_size rq = Some z -> 0 <= z) -> setattr max_obj_size i rq bad o now s = (s', r) -> r <> Crash ->
  good s s' (entry s) (xattr s) (given r) false.
Proof. intros Hc Hz Hr Hn. destruct (setattr_ok _ _ _ _ _ _ _ _ Hc Hz Hr Hn) as (? & ? & ? & ? & ? & ? & ? & ? & Hx). destruct r; try done; by apply good_same. Qed.
Lemma open_good i w t now s s' r : consistent s -> open_ max_obj_size i w t now s = (s', r) -> r <> Crash ->
  good s s' (entry s) (xattr s) (fun _ => 0) false /\ (forall j, is_Some (inodes s' !! j) <-> is_Some (inodes s !! j)) /\
  opens s' = opens s /\ (r = Done \/ exists e, r = Err e).
Proof.
  intros Hc. unfold open_. destruct (w && failsafe s); [intros [= <- <-] _; split; [by apply good_refl|eauto]|].
  destruct (inodes s !! i) as [a|] eqn:Ha.
  2:{ destruct (w || t); intros [= <- <-] ?; [done|]. split; [by apply good_refl|eauto]. }
  destruct (w && locked a); [intros [= <- <-] _; split; [by apply good_refl|eauto]|].
  destruct t; [|intros [= <- <-] _; split; [by apply good_refl|eauto]]. destruct (negb w); [intros [= <- <-] _; split; [by apply good_refl|eauto]|].
  destruct (S_ISREG _).
  2:{ destruct (_ || _); intros [= <- <-] _; (split; [by apply good_refl|eauto]). }
  destruct (setattr max_obj_size i _ None 0 now s) as [s1 r1] eqn:Hr. intros Hx Hn.
  assert (r1 <> Crash) as Hn1 by (intros ->; injection Hx as <- <-; done).
  destruct (fun H => setattr_ok _ _ _ _ _ _ _ _ Hc H Hr Hn1) as (? & ? & ? & ? & ? & ? & ? & Hi & Hres); [cbn; intros z [= <-]; lia|].
  destruct r1; try done; injection Hx as <- <-; (split; [by apply good_same|eauto]).
Qed.
Lemma create_good p n m w t c now s s' r : consistent s -> p <> CTRL -> create max_obj_size p n m w t c now s = (s', r) -> r <> Crash ->
  good s s' (entries_after (CCreate p n m w t c now) r (entry s)) (xattr s) (given r) false.
Proof.
  intros Hc Hp. unfold create. destruct (failsafe s); [intros [= <- <-] _; by apply good_refl|].
  destruct (entry s p n) as [i|] eqn:He.
  - destruct (open_ max_obj_size i w t now s) as [s1 r1] eqn:Ho. intros Hr Hn.
    assert (r1 <> Crash) as Hn1 by (intros ->; injection Hr as <- <-; done).
    destruct (open_good _ _ _ _ _ _ _ Hc Ho Hn1) as (Hg & Hi & _ & Hr1).
    destruct (entry_inv _ _ _ _ He) as (k & rc & _ & Hk). destruct (c_entries _ _ _ Hc _ _ _ Hk) as (_ & _ & _ & _ & Hii). apply Hi in Hii. destruct Hii as [a1 Ha1].
    assert (forall E, (forall q m, E q m = entry s q m) -> good s s1 E (xattr s) (fun _ => 0) false) as HE.
    { intros E HE. destruct Hg as (? & H2 & ?). split; [done|]. split; [|done]. intros. by rewrite HE. }
    destruct Hr1 as [-> | [e ->]]; [|by injection Hr as <- <-].
    rewrite Ha1 in Hr. injection Hr as <- <-. apply good_entry; [by eexists|]. apply HE. intros q m'. cbn. unfold bind. case_decide as D; [injection D as -> ->; done|done].
  - destruct (create_ p n m c 0 0 now s) as [s1 [e|i]] eqn:Hr.
    + pose proof (create_ok max_obj_size exact _ _ _ _ _ _ _ _ _ _ Hc Hp Hr) as Hx. destruct e; try done; [subst; intros [= <- <-] _; by apply good_refl|by intros [= <- <-]].
    + destruct (create__good max_obj_size exact _ _ _ _ _ _ _ _ _ _ Hc Hp Hr) as (Hg & [a Ha] & _). rewrite Ha. intros [= <- <-] _. apply good_entry; [by eexists|done].
Qed.
Lemma good_touch i now s late : consistent s -> good s (touch i now s) (entry s) (xattr s) (fun _ => 0) late.
Proof. intros Hc. apply good_same; try done; [|intros j; apply upd_inode_is_Some]. apply consistent_mild; [|done]. intros ?. by case_decide. Qed.
Lemma read_good i bad now s s' r : consistent s -> read i bad now s = (s', r) -> r <> Crash -> good s s' (entry s) (xattr s) (given r) false.
Proof.
  intros Hc. unfold read. destruct (inodes s !! i); [|by intros [= <- <-]]. destruct bad; intros [= <- <-] _.
  - apply good_same; try done. by apply consistent_failsafe.
  - apply good_touch, Hc.
Qed.
Lemma puts_upd i f l s : foldl (fun s '(b, o) => put_block i b o s) (upd_inode i f s) l = upd_inode i f (foldl (fun s '(b, o) => put_block i b o s) s l).
Proof. revert s. induction l as [|[b o] l IH]; intros s; [done|]. cbn [foldl]. rewrite <- IH. done. Qed.
Lemma puts_same i l s : let s' := foldl (fun s '(b, o) => put_block i b o s) s l in
  names s' = names s /\ contents s' = contents s /\ xattrs s' = xattrs s /\ inodes s' = inodes s /\ opens s' = opens s /\ symlinks s' = symlinks s /\ failsafe s' = failsafe s /\ seq s' = seq s.
Proof. revert s. induction l as [|[b o] l IH]; intros s; [done|]. cbn [foldl]. destruct (IH (put_block i b o s)) as (-> & -> & -> & -> & -> & -> & -> & ->). done. Qed.
Lemma consistent_puts i l s a : consistent s -> inodes s !! i = Some a -> (forall b o, (b, o) ∈ l -> Z.of_nat b * max_obj_size < size a) ->
  consistent (foldl (fun s '(b, o) => put_block i b o s) s l).
Proof.
  revert s. induction l as [|[b o] l IH]; intros s Hc Ha Hl; [done|]. cbn [foldl]. apply IH.
  - eapply consistent_put; try done. apply (Hl b o). left.
  - done.
  - intros b' o' Hx. apply (Hl b' o'). by right.
Qed.
Lemma write_good i l z (bad : bool) now s s' r : consistent s ->
  (forall a, inodes s !! i = Some a -> forall b o, (b, o) ∈ l -> Z.of_nat b * max_obj_size < (if bad then size a else Z.max (size a) z)) ->
  write i l z bad now s = (s', r) -> r <> Crash -> good s s' (entry s) (xattr s) (given r) false.
Proof.
  intros Hc Hl. unfold write. destruct (failsafe s); [intros [= <- <-] _; by apply good_refl|].
  destruct (inodes s !! i) as [a|] eqn:Ha; [|by intros [= <- <-]]. destruct (locked a); [intros [= <- <-] _; by apply good_refl|].
  specialize (Hl _ eq_refl). destruct bad; intros [= <- <-] _.
  - destruct (puts_same i l s) as (E1 & E2 & E3 & E4 & E5 & _ & _ & E6). apply good_same; try done; [|intros j; cbn; by rewrite E4]. apply consistent_failsafe. by eapply consistent_puts.
  - rewrite <- puts_upd. set (s1 := upd_inode i _ s). destruct (puts_same i l s1) as (E1 & E2 & E3 & E4 & E5 & _ & _ & E6). apply good_same; try done; [|intros j; rewrite E4; apply upd_inode_is_Some].
    eapply consistent_puts.
    + apply (consistent_resize max_obj_size exact i _ s a); [done|done|done|]. cbn. intros b o Hb. destruct (c_left _ _ _ Hc) as (_ & _ & _ & Hlf).
      destruct (Hlf _ _ _ Hb) as (a0 & Ha0 & Hlt). rewrite Ha in Ha0. injection Ha0 as <-. lia.
    + subst s1. cbn. by rewrite lookup_alter, Ha.
    + done.
Qed.

(** ** Listings *)
Lemma reply_good l s s0 s' r D : good s0 s (entry s0) (xattr s0) D false -> reply l s = (s', r) -> r <> Crash ->
  good s0 s' (entry s0) (xattr s0) (fun j => D j + given r j) false /\ exists x, r = Listing x.
Proof.
  revert s s' r D. induction l as [|[[k n] i] l IH]; intros s s' r D Hg; cbn.
  { intros [= <- <-] _. split; [|eauto]. destruct Hg as (? & ? & ? & H1 & H2 & H3 & H4). split; [done|]. split; [done|]. split; [done|]. split; [done|]. split; [done|].
    cbn. split; [intros j; specialize (H3 j); lia|]. intros _ j. rewrite H4 by done. lia. }
  destruct (inodes s !! i) as [a|] eqn:Ha; [|by intros [= <- <-]]. destruct (reply l (incr_open i s)) as [s1 r1] eqn:Hr. intros Hx Hn.
  assert (is_Some (inodes s !! i)) as Hi by by eexists. pose proof (good_incr max_obj_size exact _ _ _ _ _ i false Hi Hg) as Hg1.
  assert (r1 <> Crash) as Hn1 by (intros ->; injection Hx as <- <-; done). destruct (IH _ _ _ _ Hg1 Hr Hn1) as [Hg2 [x ->]].
  injection Hx as <- <-. split; [|eauto]. destruct Hg2 as (? & ? & ? & H1 & H2 & H3 & H4). split; [done|]. split; [done|]. split; [done|]. split; [done|]. split; [done|].
  assert (forall j, given (Listing ((n, i, Z.of_nat k + 3) :: x)) j = (if decide (j = i) then 1 else 0) + given (Listing x) j) as E.
  { intros j. cbn. case_bool_decide; case_decide; try congruence; cbn; lia. }
  split; [intros j; specialize (H3 j); rewrite E; lia|]. intros _ j. rewrite H4, E by done. lia.
Qed.
Lemma readdir_good i off k now s s' r : consistent s -> readdir i off k now s = (s', r) -> r <> Crash -> good s s' (entry s) (xattr s) (given r) false.
Proof.
  intros Hc. unfold readdir. destruct (inodes s !! i); [|by intros [= <- <-]]. intros Hr Hn.
  destruct (reply_good _ _ s _ _ (fun _ => 0) (good_touch i now s false Hc) Hr Hn) as [Hg _]. exact Hg.
Qed.
Lemma readlink_good i now s s' r : consistent s -> readlink i now s = (s', r) -> r <> Crash -> good s s' (entry s) (xattr s) (given r) false.
Proof.
  intros Hc. unfold readlink. destruct (inodes s !! i); [|by intros [= <- <-]]. intros [= <- <-] _. destruct (symlinks s !! i); by apply good_touch.
Qed.

(** ** forget *)
Lemma forget_good l s s' r : consistent s -> forget_ok max_obj_size l s -> forget max_obj_size l s = (s', r) ->
  r = Done /\ consistent s' /\ shrinks s s' /\ contents s' = contents s /\ seq s' = seq s /\
  forall j, lookups s' j = lookups s j - taken (CForget l) j.
Proof.
  revert s. induction l as [|[i n] l IH]; intros s Hc Hf; cbn; [intros [= <- <-]; split; [done|]; split; [done|]; split; [apply shrinks_refl|]; split; [done|]; split; [done|]; intros; cbn; lia|].
  cbn in Hf. destruct Hf as (Hn & (c & Ho & Hle) & Hf). destruct (forget1 max_obj_size i n s) as [s1 r1] eqn:Hr.
  destruct (forget1_ok max_obj_size Hmax exact i n c s s1 r1 Hc Ho ltac:(lia) Hr) as (-> & Hc1 & Hsh1 & Hct1 & Hoj & Hoi).
  intros Hx. destruct (IH _ Hc1 Hf Hx) as (-> & Hc2 & Hsh2 & Hct2 & Hs2 & Hl2). split; [done|]. split; [done|]. split; [by eapply shrinks_trans|].
  split; [congruence|]. split; [rewrite Hs2; by eapply forget1_seq|]. intros j. rewrite Hl2. cbn [taken foldr fst snd]. unfold lookups.
  destruct (decide (i = j)) as [->|Hne]; [rewrite Hoi, Ho; destruct (decide (c = n)); cbn; lia|rewrite Hoj by done; lia].
Qed.

(** * All calls *)
Theorem step_good s c s' r : consistent s -> allowed max_obj_size exact s c -> exec max_obj_size c s = (s', r) -> r <> Crash ->
  good s s' (entries_after c r (entry s)) (xattrs_after c r (xattr s)) (fun j => given r j - taken c j) (fails_late (c, r)).
Proof.
  intros Hc Ha Hr Hn.
  assert (forall E X D late, (forall j, taken c j = 0) -> good s s' E X D late -> good s s' E X (fun j => D j - taken c j) late) as Hgood.
  { intros E X D late Ht (H1 & H2 & H3 & H4 & H5 & H6 & H7). split; [done|]. split; [done|]. split; [done|]. split; [done|]. split; [done|].
    split; [intros j; rewrite Ht; specialize (H6 j); lia|]. intros Hl j. rewrite Ht, H7 by done. lia. }
  destruct c; cbn in Hr, Ha; try (apply Hgood; [done|]).
  - unfold lookup in Hr. destruct (lookup_ p n s) as [s1 x] eqn:Hl. pose proof (lookup__ok _ _ _ _ _ _ _ Hc Hl) as Hx. destruct x as [e|i].
    + destruct e as [| | | | | |[]|]; try done. destruct Hx as [-> _]. injection Hr as <- <-. by apply good_refl.
    + destruct Hx as (-> & Hi & _). injection Hr as <- <-. destruct Hi as [a Ha']. cbn [inodes incr_open]. change (inodes (incr_open i s)) with (inodes s). rewrite Ha'.
      apply good_entry; [by eexists|]. by apply good_refl.
  - injection Hr as <- <-. destruct (inodes s !! i); by apply good_refl.
  - by eapply readlink_good.
  - by eapply readdir_good.
  - injection Hr as <- <-. destruct (is_acl n); [|destruct (xattr s i n)]; by apply good_refl.
  - injection Hr as <- <-. by apply good_refl.
  - by eapply setxattr_ok.
  - by eapply removexattr_ok.
  - by eapply unlink_ok.
  - by eapply rmdir_ok.
  - by eapply mknod_ok.
  - by eapply symlink_ok.
  - destruct Ha as (Ha & Hd & _). pose proof (rename_ok max_obj_size Hmax exact _ _ _ _ _ _ _ _ _ Hc Ha Hr Hn) as Hg. rewrite decide_False in Hg by done.
    assert (r = Done \/ exists e, r = Err e) as [-> | [e ->]]; [|done..].
    clear - Hr Hn. unfold rename in Hr. destruct fl; [injection Hr as <- <-; eauto|]. case_decide; [injection Hr as <- <-; eauto|]. destruct (failsafe s); [injection Hr as <- <-; eauto|].
    destruct (inodes s !! po); [|by injection Hr as <- <-]. destruct (inodes s !! pn); [|by injection Hr as <- <-]. destruct (_ || _); [injection Hr as <- <-; eauto|].
    assert (forall p n s, match (lookup_ p n s).2 with inl (Err ENOENT) | inl Crash | inr _ => True | _ => False end) as Hlk.
    { intros p n s0. unfold lookup_. by repeat case_match. }
    assert (forall l s s' r, forget max_obj_size l s = (s', r) -> r = Done \/ r = Crash) as Hfg.
    { induction l as [|[i0 n0] l IH]; intros s0 s1 r0; cbn; [intros [= <- <-]; auto|]. unfold forget1. repeat case_match; simplify_eq; intros Hx; simplify_eq; eauto. }
    destruct (lookup_ po no s) as [s1 x] eqn:E1. pose proof (Hlk po no s) as L1. rewrite E1 in L1. cbn in L1. destruct x as [e|io]; [injection Hr as <- <-; destruct e as [| | | | | |[]|]; try done; eauto|].
    destruct (lookup_ pn nn s1) as [s2 x] eqn:E2. pose proof (Hlk pn nn s1) as L2. rewrite E2 in L2. cbn in L2. destruct x as [e|iw].
    + destruct e as [| | | | | |[]|]; try done; [|by injection Hr as <- <-]. destruct (rename_ po no pn nn now s2) as [s3 r3] eqn:E3.
      assert (r3 = Done \/ r3 = Crash) as [-> | ->] by (unfold rename_ in E3; repeat case_match; simplify_eq; eauto).
      * apply Hfg in Hr. destruct Hr as [-> | ->]; [by left|done].
      * by injection Hr as <- <-.
    + destruct (replace max_obj_size po no pn nn io iw now s2) as [s3 r3] eqn:E3.
      assert (r3 = Done \/ r3 = Crash \/ exists e, r3 = Err e) as [-> | [-> | [e ->]]] by (unfold replace in E3; repeat case_match; simplify_eq; eauto).
      * apply Hfg in Hr. destruct Hr as [-> | ->]; [by left|done].
      * by injection Hr as <- <-.
      * injection Hr as <- <-. eauto.
  - destruct Ha. by eapply link_ok.
  - by eapply setattr_good.
  - destruct (open_good _ _ _ _ _ _ _ Hc Hr Hn) as (Hg & _ & _ & [-> | [e ->]]); done.
  - by eapply create_good.
  - by eapply read_good.
  - by eapply write_good.
  - destruct (forget_good _ _ _ _ Hc Ha Hr) as (-> & Hc' & Hsh & Hct & Hs & Hl). assert (compat s s') as Hcm by by apply (compat_shrinks max_obj_size exact).
    split; [done|]. split; [by apply (view_same max_obj_size exact)|]. split; [intros j n Hj; apply (xview_same max_obj_size exact); try done; apply Hsh, Hj|].
    split; [intros j Hj; left; by apply Hsh|]. split; [lia|]. cbn [given]. split; intros; rewrite Hl; lia.
  - unfold lock in Hr. destruct (inodes s !! i); injection Hr as <- <-; [|done]. apply good_same; try done; [|intros j; apply upd_inode_is_Some]. by apply consistent_mild.
  - destruct Ha as [_ He]. destruct (remove_ok max_obj_size Hmax exact p n i true now _ _ _ Hc He Hr) as [(e & -> & ->)|(-> & Hc2 & Ho2 & _ & Hsh & k & rc & Hk & Hct)]; [by apply good_refl|].
    assert (compat s s') as Hcm by by apply (compat_shrinks max_obj_size exact). split; [done|]. split; [|split].
    + apply (view_delete max_obj_size exact s s' p n k rc); done.
    + intros j m Hj. apply (xview_same max_obj_size exact); try done. apply Hsh, Hj.
    + apply counted_same; [apply Hsh| |intros j; by rewrite Ho2]. by rewrite (remove_seq max_obj_size _ _ _ _ _ _ _ _ Hr).
Qed.
End steps.
