(** Names in lost+found; cached blocks. *)
From stdpp Require Import prelude gmap.
From Coq Require Import ZArith Lia.
From Verif Require Import Count Decimal FsckModel FsckSpec FsckProofs FsckClean FsckLoops FsckKept.

Lemma candidate_inj n i j : candidate n i = candidate n j -> i = j.
Proof.
  destruct i as [|i], j as [|j]; cbn [candidate]; [done| | |].
  - intros H. apply (f_equal length) in H. rewrite app_length in H. cbn in H. lia.
  - intros H. apply (f_equal length) in H. rewrite app_length in H. cbn in H. lia.
  - intros H. apply app_inv_head in H. injection H as H. by apply dec_inj in H.
Qed.
Lemma shorten_length n : length (shorten n) <= 251.
Proof. unfold shorten, max_name. case_decide; [|lia]. rewrite !app_length, take_length, drop_length. change (length DOTS) with 5. lia. Qed.
Lemma candidate_length n i : length n <= 251 -> i < 1000 -> length (candidate n i) <= 255.
Proof.
  intros Hn Hi. destruct i as [|i]; cbn [candidate]; [lia|]. rewrite app_length. cbn [length app DASH]. pose proof (dec_length (S i) 2). change (10 ^ 3) with 1000 in H. lia.
Qed.
(** What search finds: the first candidate that is not in use *)
Lemma search_spec f n i fuel c : search f n i fuel = Some c -> exists j, i <= j < i + fuel /\ c = candidate n j /\ f c = false /\ forall j', i <= j' < j -> f (candidate n j') = true.
Proof.
  revert i. induction fuel as [|fuel IH]; intros i; [done|]. cbn [search]. destruct (f (candidate n i)) eqn:E.
  - intros (j & Hj & -> & Hf & Hu)%IH. exists j. split_and!; [lia..|done|done|]. intros j' Hj'. destruct (decide (j' = i)) as [->|]; [done|]. apply Hu. lia.
  - intros H. injection H as <-. exists i. split_and!; [lia..|done|done|lia].
Qed.
Lemma search_none f n i fuel : search f n i fuel = None -> forall j, i <= j < i + fuel -> f (candidate n j) = true.
Proof.
  revert i. induction fuel as [|fuel IH]; intros i; [lia|]. cbn [search]. destruct (f (candidate n i)) eqn:E; [|done]. intros H j Hj.
  destruct (decide (j = i)) as [->|]; [done|]. apply (IH (S i)); [done|]. lia.
Qed.

Section free.
Context `{Env0 : env}.
Lemma used_true s p n : used s p n = true -> exists k e, contents s !! k = Some e /\ c_parent e = p /\ name_of s (c_name e) = Some (Blob n).
Proof. unfold used. destruct (entry s p (Blob n)) as [[k e]|] eqn:E; [|done]. intros _. exists k, e. by apply entry_spec. Qed.
Lemma used_in_use s p n : used s p n = true <-> in_use s p n.
Proof.
  split.
  - intros (k & e & Hk & Hp & Hn)%used_true. unfold name_of in Hn. destruct (names s !! c_name e) as [[n' r]|] eqn:E; [|done]. cbn in Hn. injection Hn as ->. by exists k, e, r.
  - intros (k & e & r & Hk & Hp & Hn). unfold used. destruct (entry s p (Blob n)) eqn:E; [done|]. destruct (entry_none _ _ _ E k e Hk Hp). unfold name_of. by rewrite Hn.
Qed.
(** As many entries as candidates in use *)
Lemma used_count s p n m : (forall j, j < m -> used s p (candidate n j) = true) -> (Z.of_nat m <= cnt (fun kv : nat * centry => c_parent kv.2 = p) (contents s))%Z.
Proof.
  intros H. unfold cnt. apply inj_le. set (M := filter _ (contents s)).
  assert (exists f : nat -> nat, forall j, j < m -> exists e, M !! f j = Some e /\ name_of s (c_name e) = Some (Blob (candidate n j))) as [f Hf].
  { clear -H. induction m as [|m IH]; [exists (fun _ => 0); lia|]. destruct IH as [f Hf]; [intros j Hj; apply H; lia|].
    destruct (used_true _ _ _ (H m ltac:(lia))) as (k & e & Hk & Hp & Hn). exists (fun j => if decide (j = m) then k else f j). intros j Hj. case_decide as D.
    - subst j. exists e. split; [|done]. apply map_filter_lookup_Some. done.
    - apply Hf. lia. }
  assert (NoDup (f <$> seq 0 m)) as Hd.
  { apply NoDup_fmap_2_strong; [|apply NoDup_seq]. intros i j Hi Hj E. apply elem_of_seq in Hi, Hj. destruct (Hf i) as (e & He & Hn); [lia|]. destruct (Hf j) as (e' & He' & Hn'); [lia|].
    rewrite E in He. rewrite He in He'. injection He' as <-. rewrite Hn in Hn'. injection Hn' as Hn'. by apply candidate_inj in Hn'. }
  rewrite <- (seq_length m 0), <- (fmap_length f). rewrite <- (size_list_to_set (C := gset nat) (f <$> seq 0 m)) by done. rewrite <- size_dom. apply subseteq_size. intros k Hk.
  apply elem_of_list_to_set, elem_of_list_fmap in Hk as (j & -> & Hj). apply elem_of_seq in Hj. destruct (Hf j) as (e & He & _); [lia|]. apply elem_of_dom. eauto.
Qed.
Lemma cnt_size {A} (P : nat * A -> Prop) `{!forall x, Decision (P x)} (m : gmap nat A) : (cnt P m <= Z.of_nat (size m))%Z.
Proof. unfold cnt. apply inj_le. rewrite <- !size_dom. apply subseteq_size. intros k [v Hv]%elem_of_dom. apply map_filter_lookup_Some in Hv as [Hv _]. apply elem_of_dom. eauto. Qed.
Theorem resolve_free_total s n p : lost_found s = Some p -> exists n', resolve_free s n = Some (p, n').
Proof.
  intros Hp. unfold resolve_free. rewrite Hp. destruct (search _ _ _ _) as [n'|] eqn:E; [eauto|]. exfalso.
  pose proof (used_count s p (shorten n) (S (size (contents s)))) as H. pose proof (cnt_size (fun kv : nat * centry => c_parent kv.2 = p) (contents s)).
  assert (Z.of_nat (S (size (contents s))) <= cnt (fun kv : nat * centry => c_parent kv.2 = p) (contents s))%Z; [|lia]. apply H. intros j Hj. apply (search_none _ _ _ _ E). lia.
Qed.
Theorem resolve_free_fresh s n p n' : resolve_free s n = Some (p, n') -> lost_found s = Some p /\ ~ in_use s p n' /\
  exists j, n' = candidate (shorten n) j /\ (Z.of_nat j <= cnt (fun kv : nat * centry => c_parent kv.2 = p) (contents s))%Z.
Proof.
  intros H. pose proof (resolve_free_parent _ _ _ _ H) as Hp. split; [done|]. unfold resolve_free in H. rewrite Hp in H. destruct (search _ _ _ _) as [c|] eqn:E; [|done]. injection H as ->.
  apply search_spec in E as (j & Hj & E1 & Hf & Hu). split; [rewrite <- used_in_use; congruence|]. exists j. split; [done|]. apply (used_count s p (shorten n)). intros j' Hj'. apply Hu. lia.
Qed.
(** The entry can be moved there: no uniqueness constraint is in the way. *)
Theorem move_succeeds s n p n' k e nid s1 X : contents s !! k = Some e -> unique (contents s) ->
  (forall i j, name_of s i = name_of s j -> is_Some (names s !! i) -> i = j) -> resolve_free s n = Some (p, n') ->
  add_name (delete k (contents s)) X (Blob n') s = (nid, s1) -> captured s1 = false -> exists s', move_entry k nid p s1 = Some s'.
Proof.
  intros Hk Hu Hn Hr Ea Hc. apply resolve_free_fresh in Hr as (_ & Hf & _). pose proof (add_name_frame _ _ _ _ _ _ Ea) as (F1 & _).
  unfold move_entry, put_contents. rewrite F1, Hk. rewrite decide_True; [eauto|].
  assert (forall k' e', k' <> k -> contents s !! k' = Some e' -> c_parent e' = p -> c_name e' <> nid) as Hno.
  { intros k' e' N Hk' Hp' En. apply add_name_spec in Ea as (r & b & -> & [[E1 E2]|(E1 & E2 & E3)]).
    - apply Hf. exists k', e', r. by rewrite En.
    - cbn in Hc. apply orb_false_elim in Hc as [_ Hc]. rewrite Hc in E3. symmetry in E3. apply bool_decide_eq_false in E3. apply E3. intros U.
      pose proof (uses_contents (delete k (contents s)) X k' e'). rewrite lookup_delete_ne in H by done. specialize (H Hk'). rewrite En in H. lia. }
  intros k1 r1 H1 k2 r2 H2 [Ep En]. destruct (decide (k1 = k)) as [->|N1], (decide (k2 = k)) as [->|N2]; [done| | |].
  - rewrite lookup_insert in H1. injection H1 as <-. rewrite lookup_insert_ne in H2 by done. cbn in *. by destruct (Hno k2 r2 N2 H2).
  - rewrite lookup_insert in H2. injection H2 as <-. rewrite lookup_insert_ne in H1 by done. cbn in *. by destruct (Hno k1 r1 N1 H1).
  - rewrite lookup_insert_ne in H1, H2 by done. by apply (Hu k1 r1 H1 k2 r2 H2).
Qed.

(** * Cached blocks *)
(** Objects with a hash hold such data. *)
Definition truthful (s : fsck) : Prop := forall id o h, objects s !! id = Some o -> o_hash o = Some h -> exists d, store s !! id = Some d /\ sha256 d = h.
Definition blocks_unique (s : fsck) : Prop := forall k1 k2 i b o1 o2, blocks s !! k1 = Some (Brow i b o1) -> blocks s !! k2 = Some (Brow i b o2) -> k1 = k2.
Definition cached (i : nat) (b : Z) (h : nat) (s : fsck) : Prop :=
  exists k id o d, blocks s !! k = Some (Brow i b id) /\ objects s !! id = Some o /\ o_hash o = Some h /\ store s !! id = Some d /\ sha256 d = h.
Lemma block_row_Some s i b k r : block_row s i b = Some (k, r) -> blocks s !! k = Some r /\ b_inode r = i /\ b_no r = b.
Proof. unfold block_row. intros H. apply pick_elem, elem_of_list_filter in H as [[H1 H2] H]. by apply elem_of_map_to_list in H. Qed.
Lemma block_row_None s i b : block_row s i b = None -> forall k o, blocks s !! k <> Some (Brow i b o).
Proof.
  unfold block_row. intros H k o Hk. apply pick_none in H. assert ((k, Brow i b o) ∈ @nil (nat * brow)) as Q; [|by apply elem_of_nil in Q]. rewrite <- H. apply elem_of_list_filter.
  split; [done|]. by apply elem_of_map_to_list.
Qed.
Lemma by_hash_Some s h id o : by_hash s h = Some (id, o) -> objects s !! id = Some o /\ o_hash o = Some h.
Proof. unfold by_hash. intros H. apply pick_elem, elem_of_list_filter in H as [H1 H]. by apply elem_of_map_to_list in H. Qed.
(** Rows of objects change in their counts only, apart from a new one. *)
Definition same_hash (s s' : fsck) : Prop := forall id o, objects s !! id = Some o -> (exists o', objects s' !! id = Some o' /\ o_hash o' = o_hash o) /\ store s' !! id = store s !! id.
Lemma cache_upload_spec d s id s1 : cache_upload d (sha256 d) s = (id, s1) -> truthful s ->
  truthful s1 /\ same_hash s s1 /\ (exists o d', objects s1 !! id = Some o /\ o_hash o = Some (sha256 d) /\ store s1 !! id = Some d' /\ sha256 d' = sha256 d) /\
  blocks s1 = blocks s /\ cache s1 = cache s /\ inodes s1 = inodes s.
Proof.
  intros H Ht. unfold cache_upload in H. destruct (by_hash s (sha256 d)) as [[id' o]|] eqn:E; injection H as <- <-; cbn.
  - apply by_hash_Some in E as [E1 E2]. destruct (Ht _ _ _ E1 E2) as (d' & Hd & Eh).
    assert (same_hash s (set_objects (<[id' := addref 1 o]> (objects s)) s)) as S.
    { intros j oj Hj. cbn. split; [|done]. destruct (decide (id' = j)) as [<-|N]; [rewrite lookup_insert; exists (addref 1 o); split; [done|]; rewrite E1 in Hj; by injection Hj as <-|rewrite lookup_insert_ne by done; eauto]. }
    split_and!; [|exact S| |done|done|done].
    + intros j oj h Hj Eh'. cbn in *. destruct (decide (id' = j)) as [<-|N]; [rewrite lookup_insert in Hj; injection Hj as <-; cbn in Eh'; by apply (Ht _ o)|]. rewrite lookup_insert_ne in Hj by done. by apply (Ht _ oj).
    + exists (addref 1 o), d'. rewrite lookup_insert. done.
  - set (id := new (dom (objects s))). assert (objects s !! id = None) as Hn by apply new_lookup. split_and!; [| | |done|done|done].
    + intros j oj h Hj Eh'. cbn in *. destruct (decide (id = j)) as [<-|N].
      * rewrite lookup_insert in Hj. injection Hj as <-. cbn in Eh'. injection Eh' as <-. rewrite lookup_insert. eauto.
      * rewrite lookup_insert_ne in Hj by done. rewrite lookup_insert_ne by done. by apply (Ht _ oj).
    + intros j oj Hj. cbn. assert (id <> j) as N by (intros <-; congruence). rewrite !lookup_insert_ne by done. eauto.
    + eexists _, d. rewrite !lookup_insert. done.
Qed.
Lemma cache_link_spec i b id s : blocks_unique s -> let s' := cache_link i b id s in
  blocks_unique s' /\ (exists k, blocks s' !! k = Some (Brow i b id)) /\
  (forall k r, blocks s !! k = Some r -> (b_inode r, b_no r) <> (i, b) -> blocks s' !! k = Some r) /\
  (forall j, o_hash <$> objects s' !! j = o_hash <$> objects s !! j) /\ store s' = store s /\ cache s' = cache s /\ inodes s' = inodes s.
Proof.
  intros Hu. unfold cache_link. destruct (block_row s i b) as [[k r]|] eqn:E; cbn.
  - apply block_row_Some in E as (Hk & Hi & Hb). split_and!; [|exists k; by rewrite lookup_insert| | |done|done|done].
    + intros k1 k2 i' b' o1 o2 H1 H2. cbn in *. assert (forall k' o, <[k := Brow i b id]> (blocks s) !! k' = Some (Brow i' b' o) -> exists o', blocks s !! k' = Some (Brow i' b' o')) as Hs.
      { intros k' o. destruct (decide (k = k')) as [<-|N]; [rewrite lookup_insert|rewrite lookup_insert_ne by done; eauto]. intros Q. injection Q as <- <- <-. exists (b_obj r). rewrite Hk. destruct r; cbn in *; congruence. }
      destruct (Hs _ _ H1) as [o1' H1'], (Hs _ _ H2) as [o2' H2']. by apply (Hu k1 k2 i' b' o1' o2').
    + intros k' r' Hk' N. rewrite lookup_insert_ne; [done|]. intros <-. rewrite Hk in Hk'. injection Hk' as <-. congruence.
    + intros j. destruct (decide (b_obj r = j)) as [<-|N]; [rewrite lookup_alter; by destruct (objects s !! b_obj r)|by rewrite lookup_alter_ne].
  - pose proof (block_row_None _ _ _ E) as Hno. set (k := new (dom (blocks s))). assert (blocks s !! k = None) as Hk by apply new_lookup.
    split_and!; [|exists k; by rewrite lookup_insert| |done..].
    + intros k1 k2 i' b' o1 o2 H1 H2. cbn in *. destruct (decide (k = k1)) as [E1|N1], (decide (k = k2)) as [E2|N2]; [congruence| | |].
      * subst k1. rewrite lookup_insert in H1. injection H1 as <- <- <-. rewrite lookup_insert_ne in H2 by done. by destruct (Hno k2 o2).
      * subst k2. rewrite lookup_insert in H2. injection H2 as <- <- <-. rewrite lookup_insert_ne in H1 by done. by destruct (Hno k1 o1).
      * rewrite lookup_insert_ne in H1, H2 by done. by apply (Hu k1 k2 i' b' o1 o2).
    + intros k' r' Hk' N. rewrite lookup_insert_ne; [done|]. intros <-. congruence.
Qed.
Lemma check_cached_spec kp key s s' d : check_cached kp key s = Some s' -> cache s !! key = Some d -> truthful s -> blocks_unique s ->
  truthful s' /\ blocks_unique s' /\ cached key.1 key.2 (sha256 d) s' /\ (forall i b h, (i, b) <> key -> cached i b h s -> cached i b h s') /\
  (forall key', key' <> key -> cache s' !! key' = cache s !! key') /\ inodes s' = inodes s.
Proof.
  intros H Hd Ht Hu. unfold check_cached in H. rewrite Hd in H. destruct key as [i b]. cbn [fst snd] in *.
  assert (exists s1, s' = (if kp then s1 else set_cache (delete (i, b) (cache s1)) s1) /\ truthful s1 /\ blocks_unique s1 /\ cached i b (sha256 d) s1 /\
    (forall i' b' h, (i', b') <> (i, b) -> cached i' b' h s -> cached i' b' h s1) /\ cache s1 = cache s /\ inodes s1 = inodes s) as (s1 & -> & A1 & A2 & A3 & A4 & A5 & A6).
  { destruct (cache_clean s i b (sha256 d)) eqn:Ec.
    - exists s. split; [by injection H as <-|]. split_and!; auto. unfold cache_clean in Ec. destruct (block_row s i b) as [[k r]|] eqn:Eb; [|done]. apply block_row_Some in Eb as (Hk & Hi & Hb).
      destruct (objects s !! b_obj r) as [o|] eqn:Eo; [|done]. apply bool_decide_eq_true in Ec. destruct (Ht _ _ _ Eo Ec) as (d' & Hd' & Eh). exists k, (b_obj r), o, d'. split_and!; auto. rewrite Hk. destruct r; cbn in *; congruence.
    - destruct (cache_upload d (sha256 d) (report true s)) as [id s1] eqn:Eu. apply cache_upload_spec in Eu as (T1 & S1 & (o & d' & O1 & O2 & O3 & O4) & B1 & C1 & I1); [|done]. cbn in B1, C1, I1.
      assert (blocks_unique s1) as U1 by (unfold blocks_unique; by rewrite B1). destruct (cache_link_spec i b id s1 U1) as (U2 & (k & Hk) & Hr & Ho & Es & Ec2 & Ei2). set (s2 := cache_link i b id s1) in *.
      exists s2. split; [by injection H as <-|]. assert (forall j o0, objects s1 !! j = Some o0 -> exists o1, objects s2 !! j = Some o1 /\ o_hash o1 = o_hash o0) as Ho'.
      { intros j o0 Hj. specialize (Ho j). rewrite Hj in Ho. destruct (objects s2 !! j) as [o1|]; [|done]. cbn in Ho. injection Ho as Ho. eauto. }
      split_and!; [|done| | |congruence|congruence].
      + intros j oj h Hj Eh. specialize (Ho j). rewrite Hj in Ho. destruct (objects s1 !! j) as [o1|] eqn:E1; [|done]. cbn in Ho. injection Ho as Ho. rewrite Es. apply (T1 _ _ _ E1). congruence.
      + destruct (Ho' _ _ O1) as (o1 & Ho1 & Eh1). exists k, id, o1, d'. split_and!; [done|done|congruence|by rewrite Es|done].
      + intros i' b' h N (k' & id' & o' & dd & P1 & P2 & P3 & P4 & P5). destruct (S1 id' o' P2) as [(o1 & Q1 & Q2) Q3]. destruct (Ho' _ _ Q1) as (o2 & Q4 & Q5). exists k', id', o2, dd.
        split_and!; [|done|congruence|rewrite Es; cbn in Q3; congruence|done]. apply Hr; [by rewrite B1|]. done. }
  destruct kp; cbn; split_and!; auto; [by rewrite A5|]. intros key' N. rewrite A5. by rewrite lookup_delete_ne.
Qed.
Theorem check_cache_spec kp s s' : check_cache kp s = Some s' -> truthful s -> blocks_unique s ->
  truthful s' /\ blocks_unique s' /\ inodes s' = inodes s /\ forall i b d, cache s !! (i, b) = Some d -> cached i b (sha256 d) s'.
Proof.
  unfold check_cache. intros H Ht Hu. set (l := scan _ (fst <$> map_to_list (cache s))) in *.
  assert (NoDup l) as Hnd by (unfold l; rewrite scan_perm; apply NoDup_fst_map_to_list).
  assert (forall key, key ∈ l -> is_Some (cache s !! key)) as Hl.
  { intros key Hkey. unfold l in Hkey. rewrite scan_perm in Hkey. apply elem_of_list_fmap in Hkey as ([key' d] & -> & Hin). apply elem_of_map_to_list in Hin. cbn. eauto. }
  assert (forall l s s', NoDup l -> (forall key, key ∈ l -> is_Some (cache s !! key)) -> each l (check_cached kp) s = Some s' -> truthful s -> blocks_unique s ->
    truthful s' /\ blocks_unique s' /\ inodes s' = inodes s /\ (forall i b d, (i, b) ∈ l -> cache s !! (i, b) = Some d -> cached i b (sha256 d) s') /\
    (forall i b h, (i, b) ∉ l -> cached i b h s -> cached i b h s')) as Hgen.
  { clear. intros l. induction l as [|key l IH]; intros s s' Hnd Hl H Ht Hu.
    - injection H as <-. split_and!; auto. by intros i b d ?%elem_of_nil.
    - cbn [each] in H. destruct (check_cached kp key s) as [t|] eqn:E; [|done]. apply NoDup_cons in Hnd as [Hni Hnd]. destruct (Hl key) as [d Hd]; [left|].
      pose proof (check_cached_spec kp key s t d E Hd Ht Hu) as (T1 & U1 & C1 & O1 & K1 & I1).
      destruct (IH t s' Hnd) as (T2 & U2 & I2 & C2 & O2); auto. { intros key' Hk'. rewrite K1; [apply Hl; by right|]. intros ->. done. }
      split_and!; auto; [congruence| |].
      + intros i b d' [<-|Hin]%elem_of_cons Hd'.
        * rewrite Hd in Hd'. injection Hd' as <-. apply O2; [done|]. exact C1.
        * apply C2; [done|]. rewrite K1; [done|]. intros <-. done.
      + intros i b h Hn Hc. apply not_elem_of_cons in Hn as [N1 N2]. apply O2; [done|]. by apply O1. }
  destruct (Hgen l s s' Hnd Hl H Ht Hu) as (T & U & I & C & _). split_and!; auto. intros i b d Hd. apply C; [|done]. unfold l. rewrite scan_perm. apply elem_of_list_fmap.
  exists ((i, b), d). split; [done|]. by apply elem_of_map_to_list.
Qed.
End free.
