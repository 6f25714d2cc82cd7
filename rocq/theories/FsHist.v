(** Histories: consistency, directories, attributes, references, reachability. *)
From stdpp Require Import prelude gmap strings sorting.
From Coq Require Import ZArith String.
From Verif Require Import FsModel FsSpec FsLemmas FsInv FsOps FsSteps.
Local Close Scope string_scope.
Local Open Scope Z_scope.

(** * A new file system *)
Lemma mkfs_contents u g now p k i : contents (mkfs u g now) !! (p, k) = Some i <-> p = ROOT /\ k = 1%nat /\ i = 3%nat.
Proof. cbn. rewrite lookup_singleton_Some. naive_solver. Qed.
Lemma mkfs_inodes u g now i a : inodes (mkfs u g now) !! i = Some a -> (i = ROOT /\ refcount a = 1) \/ (i = CTRL /\ refcount a = 42) \/ (i = 3%nat /\ refcount a = 1).
Proof. cbn. rewrite !lookup_insert_Some, lookup_singleton_Some. intros [[<- <-]|[_ [[<- <-]|[_ [<- <-]]]]]; auto. Qed.
Lemma mkfs_consistent max exact u g now : consistent max exact (mkfs u g now).
Proof.
  apply consistent_core.
  assert (forall i, links (mkfs u g now) i = b2z (i = 3%nat)) as Hl.
  { intros i. unfold links. cbn. unfold cnt. change {[(ROOT, 1%nat) := 3%nat]} with (<[(ROOT, 1%nat) := 3%nat]> (∅ : gmap (nat * nat) nat)).
    fold (cnt (fun kv : nat * nat * nat => kv.2 = i) (<[(ROOT, 1%nat):=3%nat]> ∅)). rewrite cnt_insert_new by apply lookup_empty. rewrite cnt_empty. cbn. unfold b2z. repeat case_decide; try congruence; lia. }
  split.
  - constructor; cbn [names contents inodes xattrs symlinks blocks objects opens seq mkfs].
    + intros i a Hi. rewrite Hl. apply mkfs_inodes in Hi as [[-> ->]|[[-> ->]|[-> ->]]]; reflexivity.
    + intros p k i Hi. apply (mkfs_contents u g now) in Hi as (-> & -> & ->). split; [eexists; split; [reflexivity|cbn; lia]|]. split; [done|]. split; [done|]. by eexists.
    + intros i k v Hx. by rewrite lookup_empty in Hx.
    + intros i t Hx. by rewrite lookup_empty in Hx.
    + intros i b o Hx. by rewrite lookup_empty in Hx.
    + split; cbn; intros *; by rewrite lookup_empty.
    + assert (forall k, uses (mkfs u g now) k = b2z (k = 1%nat)) as Hu.
      { intros k. unfold uses. cbn. change {[(ROOT, 1%nat) := 3%nat]} with (<[(ROOT, 1%nat) := 3%nat]> (∅ : gmap (nat * nat) nat)).
        rewrite cnt_insert_new by apply lookup_empty. rewrite !cnt_empty. cbn. unfold b2z. repeat case_decide; try congruence; lia. }
      split; [|split; [|split]].
      * intros n n' k rc rc'. rewrite !lookup_singleton_Some. naive_solver.
      * intros n k rc. rewrite Hu, lookup_singleton_Some. intros [<- [= <- <-]]. by rewrite b2z_true.
      * intros k. rewrite Hu. apply b2z_pos.
      * intros k. rewrite Hu. unfold b2z. case_decide; [subst; intros _; eexists _, _; apply lookup_singleton|lia].
    + intros i c Hi. cbn in Hi. apply lookup_singleton_Some in Hi. revert Hi. intros [<- <-]. split; [lia|by eexists].
    + intros i a Hi. apply (mkfs_inodes u g now) in Hi as [[-> _]|[[-> _]|[-> _]]]; cbn; unfold ROOT, CTRL; lia.
    + split; by eexists.
  - intros i a Hi. apply (mkfs_inodes u g now) in Hi as [[_ ->]|[[_ ->]|[_ ->]]]; done.
Qed.

(** * Counting *)
Lemma cnt_keys `{Countable K} {A} (P : K * A -> Prop) `{!forall x, Decision (P x)} (m : gmap K A) :
  exists l : list K, NoDup l /\ cnt P m = Z.of_nat (List.length l) /\ forall k, k ∈ l <-> exists v, m !! k = Some v /\ P (k, v).
Proof.
  exists (map_to_list (filter P m)).*1. split; [apply NoDup_fst_map_to_list|]. split.
  - unfold cnt. rewrite fmap_length. unfold base.size, map_size. done.
  - intros k. rewrite elem_of_list_fmap. split.
    + intros ([k' v] & -> & Hk%elem_of_map_to_list). apply map_filter_lookup_Some in Hk. eauto.
    + intros (v & Hv). exists (k, v). split; [done|]. apply elem_of_map_to_list. by apply map_filter_lookup_Some.
Qed.
Lemma name_keys s (l : list (nat * nat)) : (forall n n' k rc rc', names s !! n = Some (k, rc) -> names s !! n' = Some (k, rc') -> n = n') ->
  NoDup l -> (forall p k, (p, k) ∈ l -> exists n rc, names s !! n = Some (k, rc)) ->
  exists l' : list (nat * string), NoDup l' /\ List.length l' = List.length l /\
    forall p n, (p, n) ∈ l' <-> exists k rc, names s !! n = Some (k, rc) /\ (p, k) ∈ l.
Proof.
  intros Hinj. induction l as [|[p k] l IH]; intros Hnd Hn.
  - exists []. split; [constructor|]. split; [done|]. intros p n. split; [by intros ?%elem_of_nil|]. by intros (k & rc & _ & ?%elem_of_nil).
  - apply NoDup_cons in Hnd as [Hni Hnd]. destruct IH as (l' & Hnd' & Hlen & Hl'); [done|intros q k' Hq; apply (Hn q); by right|].
    destruct (Hn p k) as (n & rc & En); [by left|]. exists ((p, n) :: l'). split; [|split; [cbn; lia|]].
    + apply NoDup_cons. split; [|done]. rewrite Hl'. intros (k' & rc' & En' & Hk'). rewrite En in En'. injection En' as <- <-. done.
    + intros q m. rewrite elem_of_cons, Hl'. split.
      * intros [[= -> ->]|(k' & rc' & ? & ?)]; [exists k, rc; split; [done|by left]|exists k', rc'; split; [done|by right]].
      * intros (k' & rc' & En' & [E|Hk']%elem_of_cons); [|right; eauto]. injection E as -> ->. left. by rewrite (Hinj _ _ _ _ _ En' En).
Qed.
Lemma entry_Some s p n i : entry s p n = Some i <-> exists k rc, names s !! n = Some (k, rc) /\ contents s !! (p, k) = Some i.
Proof. unfold entry. destruct (names s !! n) as [[k rc]|]; split; [eauto|intros (? & ? & [= <- <-] & ?); done|done|by intros (? & ? & ? & _)]. Qed.
Lemma xattr_Some s p n i : xattr s p n = Some i <-> exists k rc, names s !! n = Some (k, rc) /\ xattrs s !! (p, k) = Some i.
Proof. unfold xattr. destruct (names s !! n) as [[k rc]|]; split; [eauto|intros (? & ? & [= <- <-] & ?); done|done|by intros (? & ? & ? & _)]. Qed.
Lemma links_listed max exact s i : consistent max exact s -> exists l : list (nat * string), NoDup l /\ links s i = Z.of_nat (List.length l) /\
  forall p n, (p, n) ∈ l <-> entry s p n = Some i.
Proof.
  intros Hc. destruct (cnt_keys (fun kv : nat * nat * nat => kv.2 = i) (contents s)) as (l & Hnd & Hl & Hm).
  destruct (name_keys s l) as (l' & Hnd' & Hlen & Hl').
  - apply (c_names _ _ _ Hc).
  - done.
  - intros p k Hp. apply Hm in Hp as (j & Hj & _). by destruct (c_entries _ _ _ Hc _ _ _ Hj) as (? & _).
  - exists l'. split; [done|]. split; [unfold links; by rewrite Hlen|]. intros p n. rewrite Hl', entry_Some. split.
    + intros (k & rc & Hn & Hk). apply Hm in Hk as (v & Hv & E). cbn in E. subst v. eauto.
    + intros (k & rc & Hn & Hk). exists k, rc. split; [done|]. apply Hm. eauto.
Qed.
(** The users of a name: directories that contain it, inodes with an attribute of that name. *)
Lemma fst_keys {A} (m : gmap (nat * nat) A) k : exists l : list nat, NoDup l /\ cnt (fun kv : nat * nat * A => kv.1.2 = k) m = Z.of_nat (List.length l) /\
  forall p, p ∈ l <-> is_Some (m !! (p, k)).
Proof.
  destruct (cnt_keys (fun kv : nat * nat * A => kv.1.2 = k) m) as (l & Hnd & Hl & Hm). exists l.*1.
  assert (forall p k', (p, k') ∈ l -> k' = k) as Hk. { intros p k' Hp. apply Hm in Hp as (v & _ & E). done. }
  split; [|split].
  - clear Hl Hm. induction l as [|[p k'] l IH]; [constructor|]. apply NoDup_cons in Hnd as [Hni Hnd]. cbn. apply NoDup_cons. split; [|apply IH; [done|intros q k2 Hq; apply (Hk q); by right]].
    intros Hin. apply elem_of_list_fmap in Hin as ([q k2] & E & Hq). cbn in E. subst q. apply Hni. assert (k2 = k) as -> by (apply (Hk p); by right). assert (k' = k) as -> by (apply (Hk p); by left). done.
  - by rewrite Hl, fmap_length.
  - intros p. rewrite elem_of_list_fmap. split.
    + intros ([q k'] & -> & Hq). pose proof (Hk _ _ Hq) as ->. apply Hm in Hq as (v & Hv & _). by exists v.
    + intros [v Hv]. exists (p, k). split; [done|]. apply Hm. eauto.
Qed.
Lemma uses_listed s k : exists l l' : list nat, NoDup l /\ NoDup l' /\ uses s k = Z.of_nat (List.length l) + Z.of_nat (List.length l') /\
  (forall p, p ∈ l <-> is_Some (contents s !! (p, k))) /\ (forall i, i ∈ l' <-> is_Some (xattrs s !! (i, k))).
Proof.
  destruct (fst_keys (contents s) k) as (l & ? & Hl & ?). destruct (fst_keys (xattrs s) k) as (l' & ? & Hl' & ?). exists l, l'. unfold uses. rewrite Hl, Hl'. auto.
Qed.

Section hist.
Context (max_obj_size : Z) (Hmax : 0 < max_obj_size).
Local Notation reachable := (reachable max_obj_size).
Local Notation consistent := (consistent max_obj_size).

Lemma reachable_consistent exact h s : reachable exact h s -> consistent exact s.
Proof. induction 1 as [u g now|h s c s' r _ IH Ha Hr Hn]; [apply mkfs_consistent|]. by destruct (step_good max_obj_size Hmax exact s c s' r IH Ha Hr Hn) as [? _]. Qed.

Lemma entry_mkfs u g now p n : entry (mkfs u g now) p n = bind (fun _ _ => None) ROOT "lost+found"%string (Some 3%nat) p n.
Proof.
  unfold entry, bind. cbn. destruct (decide (n = "lost+found"%string)) as [->|Hn].
  - rewrite lookup_singleton. case_decide as D; [injection D as ->; by rewrite lookup_singleton|]. rewrite lookup_singleton_ne; congruence.
  - rewrite lookup_singleton_ne by done. rewrite decide_False; congruence.
Qed.
Lemma bind_ext {A} (f g : nat -> string -> option A) p n v : (forall q m, f q m = g q m) -> forall q m, bind f p n v q m = bind g p n v q m.
Proof. intros H q m. unfold bind. by case_decide. Qed.
Lemma entries_after_ext c r f g : (forall p n, f p n = g p n) -> forall p n, entries_after c r f p n = entries_after c r g p n.
Proof. intros H p n. destruct c, r; cbn; rewrite ?H; try done; repeat (apply bind_ext; intros); auto. Qed.
Lemma reachable_entries exact h s : reachable exact h s -> forall p n, entry s p n = entries_of h p n.
Proof.
  induction 1 as [u g now|h s c s' r Hre IH Ha Hr Hn]; [intros; apply entry_mkfs|]. intros p n.
  destruct (step_good max_obj_size Hmax exact s c s' r (reachable_consistent _ _ _ Hre) Ha Hr Hn) as (_ & He & _). rewrite He.
  unfold entries_of. rewrite foldl_app. cbn. by apply entries_after_ext.
Qed.
(** lookup *)
Lemma lookup_result exact h s p n s' r : reachable exact h s -> n <> CTRL_NAME -> lookup p n s = (s', r) ->
  match entries_of h p n with Some i => exists a, r = Entry i a | None => r = Err ENOENT end.
Proof.
  intros Hre Hn Hl. rewrite <- (reachable_entries _ _ _ Hre). pose proof (reachable_consistent _ _ _ Hre) as Hc.
  unfold lookup in Hl. destruct (lookup_ p n s) as [s1 x] eqn:E. pose proof (lookup__ok _ _ _ _ _ _ _ Hc E) as Hx. destruct x as [e|i].
  - destruct e as [| | | | | |[]|]; try done. destruct Hx as (_ & _ & ->). by injection Hl as <- <-.
  - destruct Hx as (-> & [a Ha] & [[? ?]|[_ He]]); [done|]. rewrite He. injection Hl as <- <-. cbn. rewrite Ha. eauto.
Qed.

(** Extended attributes *)
Lemma reachable_xattrs exact h s : reachable exact h s ->
  (forall j n, is_Some (inodes s !! j) -> xattr s j n = xattrs_of h j n) /\ (forall j n, (seq s <= j)%nat -> xattrs_of h j n = None).
Proof.
  induction 1 as [u g now|h s c s' r Hre [IH1 IH2] Ha Hr Hn].
  { split; [|done]. intros j n _. unfold xattr. cbn. destruct (_ !! n) as [[k rc]|]; [|done]. apply lookup_empty. }
  pose proof (reachable_consistent _ _ _ Hre) as Hc.
  destruct (step_good max_obj_size Hmax exact s c s' r Hc Ha Hr Hn) as (Hc' & _ & Hx & Hnew & Hseq & _).
  assert (forall j, (forall n, xattr s j n = xattrs_of h j n) -> forall n, xattrs_after c r (xattr s) j n = xattrs_of (h ++ [(c, r)]) j n) as Hj.
  { intros j Hj n. unfold xattrs_of. rewrite foldl_app. cbn. fold (xattrs_of h). destruct c, r; cbn; try done; unfold bind; by case_decide. }
  assert (forall j, inodes s !! j = None -> forall n, xattr s j n = None) as Hnone.
  { intros j Hj' n. destruct (xattr s j n) as [v|] eqn:E; [|done]. exfalso. unfold xattr in E. destruct (names s !! n) as [[k rc]|]; [|done].
    destruct (c_left _ _ _ Hc) as (_ & Hl & _). destruct (Hl _ _ _ E) as [[? ?] _]. congruence. }
  assert (forall j, (seq s <= j)%nat -> inodes s !! j = None) as Hfresh.
  { intros j Hj'. destruct (inodes s !! j) eqn:E; [|done]. apply (c_seq _ _ _ Hc) in E. lia. }
  split.
  - intros j n Hjs. rewrite Hx by done. apply Hj. clear n. intros n. destruct (Hnew _ Hjs) as [Hold|Hge]; [by apply IH1|].
    rewrite IH2 by done. apply Hnone. by apply Hfresh.
  - intros j n Hge. rewrite <- Hj.
    + destruct c; cbn; try (destruct r; apply Hnone, Hfresh; lia).
      * cbn in Hr. destruct r; try (apply Hnone, Hfresh; lia). unfold bind. case_decide as D; [|apply Hnone, Hfresh; lia]. injection D as -> ->.
        unfold setxattr in Hr. rewrite (Hfresh i) in Hr by lia. repeat case_match; simplify_eq.
      * cbn in Hr. destruct r; try (apply Hnone, Hfresh; lia). unfold bind. case_decide as D; [done|apply Hnone, Hfresh; lia].
    + intros m. rewrite (IH2 j m) by lia. apply Hnone, Hfresh. lia.
Qed.

(** ** Counts *)
Lemma reachable_links exact h s i a : reachable exact h s -> inodes s !! i = Some a -> exists l : list (nat * string), NoDup l /\
  (forall p n, (p, n) ∈ l <-> entries_of h p n = Some i) /\ refcount a = Z.of_nat (List.length l) + base_links i.
Proof.
  intros Hre Hi. pose proof (reachable_consistent _ _ _ Hre) as Hc. destruct (links_listed _ _ _ i Hc) as (l & Hnd & Hl & Hm).
  exists l. split; [done|]. split; [intros p n; by rewrite Hm, (reachable_entries _ _ _ Hre)|]. by rewrite (c_links _ _ _ Hc _ _ Hi), Hl.
Qed.
Lemma reachable_names h s n : reachable true h s -> exists l l' : list nat, NoDup l /\ NoDup l' /\
  (forall p, p ∈ l <-> is_Some (entries_of h p n)) /\ (forall i, i ∈ l' <-> is_Some (inodes s !! i) /\ is_Some (xattrs_of h i n)) /\
  match names s !! n with Some (_, rc) => rc = Z.of_nat (List.length l) + Z.of_nat (List.length l') /\ 0 < rc | None => l = [] /\ l' = [] end.
Proof.
  intros Hre. pose proof (reachable_consistent _ _ _ Hre) as Hc. destruct (reachable_xattrs _ _ _ Hre) as [Hx _].
  destruct (names s !! n) as [[k rc]|] eqn:En.
  - destruct (uses_listed s k) as (l & l' & H1 & H2 & Hu & H3 & H4). destruct (c_names _ _ _ Hc) as [_ Hn]. destruct (Hn _ _ _ En) as (_ & Hp & _ & Hrc). specialize (Hrc eq_refl).
    exists l, l'. split; [done|]. split; [done|]. split; [|split; [|by rewrite <- Hu]].
    + intros p. rewrite H3, <- (reachable_entries _ _ _ Hre). unfold entry. by rewrite En.
    + intros i. rewrite H4. split.
      * intros [v Hv]. destruct (c_left _ _ _ Hc) as (_ & Hl & _). destruct (Hl _ _ _ Hv) as [Hi _]. split; [done|]. rewrite <- Hx by done. exists v. unfold xattr. by rewrite En.
      * intros [Hi Hxi]. rewrite <- Hx in Hxi by done. unfold xattr in Hxi. by rewrite En in Hxi.
  - exists [], []. split; [constructor|]. split; [constructor|]. split; [|split; [|done]].
    + intros p. rewrite <- (reachable_entries _ _ _ Hre). unfold entry. rewrite En. split; [by intros ?%elem_of_nil|by intros [? ?]].
    + intros i. split; [by intros ?%elem_of_nil|]. intros [Hi Hxi]. rewrite <- Hx in Hxi by done. unfold xattr in Hxi. rewrite En in Hxi. by destruct Hxi.
Qed.

(** ** References *)
Lemma reachable_lookups exact h s : reachable exact h s ->
  (forall i, holds h i <= lookups s i) /\ (forallb (fun x => negb (fails_late x)) h = true -> forall i, lookups s i = holds h i).
Proof.
  induction 1 as [u g now|h s c s' r Hre [IH1 IH2] Ha Hr Hn].
  { assert (forall i, lookups (mkfs u g now) i = holds [] i) as E; [|split; intros; rewrite E; done].
    intros i. unfold lookups, holds. change (opens (mkfs u g now)) with ({[ROOT := 1]} : gmap nat Z). cbn [foldl]. destruct (decide (i = ROOT)) as [->|Hi]; [reflexivity|]. rewrite lookup_singleton_ne by done. by rewrite ?decide_False by done. }
  destruct (step_good max_obj_size Hmax exact s c s' r (reachable_consistent _ _ _ Hre) Ha Hr Hn) as (_ & _ & _ & _ & _ & H1 & H2).
  assert (forall i, holds (h ++ [(c, r)]) i = holds h i + given r i - taken c i) as E. { intros i. unfold holds. by rewrite foldl_app. }
  split.
  - intros i. rewrite E. specialize (IH1 i). specialize (H1 i). cbn in H1. lia.
  - rewrite forallb_app. cbn [forallb]. rewrite andb_true_r. intros [Hh Hc]%andb_true_iff i. apply negb_true_iff in Hc. rewrite E, (H2 Hc), IH2 by done. cbn. lia.
Qed.
Lemma held_exists exact h s i : reachable exact h s -> 0 < holds h i -> is_Some (inodes s !! i).
Proof.
  intros Hre Hh. destruct (reachable_lookups _ _ _ Hre) as [H1 _]. specialize (H1 i). unfold lookups in H1. destruct (opens s !! i) as [c|] eqn:E; cbn in H1; [|lia].
  by apply (c_opens _ _ _ (reachable_consistent _ _ _ Hre) _ _ E).
Qed.
Lemma not_held_purged h s exact i a : reachable exact h s -> forallb (fun x => negb (fails_late x)) h = true -> holds h i = 0 -> inodes s !! i = Some a -> refcount a <> 0.
Proof.
  intros Hre Hf Hh Ha Hz. pose proof (reachable_consistent _ _ _ Hre) as Hc. destruct (c_left _ _ _ Hc) as (Hl & _). destruct (Hl _ _ Ha Hz) as [c Hop].
  destruct (c_opens _ _ _ Hc _ _ Hop) as [Hpos _]. destruct (reachable_lookups _ _ _ Hre) as [_ H2]. specialize (H2 Hf i). unfold lookups in H2. rewrite Hop in H2. cbn in H2. lia.
Qed.
(** A forget request that is covered by references held is always acceptable. *)
Lemma forget_covered exact l s : consistent exact s -> Forall (fun x => 0 < x.2) l -> (forall i, taken (CForget l) i <= lookups s i) -> forget_ok max_obj_size l s.
Proof.
  revert s. induction l as [|[i n] l IH]; intros s Hc Hp Ht; [done|]. apply Forall_cons in Hp as [Hn Hp]. cbn in Hn.
  assert (forall j, 0 <= taken (CForget l) j) as Hnn.
  { intros j. cbn. clear -Hp. induction Hp as [|[i n] l Hx _ IH]; cbn in *; [done|]. case_decide; lia. }
  pose proof (Ht i) as Hi. cbn in Hi. rewrite decide_True in Hi by done. specialize (Hnn i) as Hni. cbn in Hni. unfold lookups in Hi.
  destruct (opens s !! i) as [c|] eqn:E; cbn in Hi; [|lia]. cbn. split; [done|]. split; [exists c; split; [done|lia]|].
  destruct (forget1 max_obj_size i n s) as [s1 r1] eqn:Hf.
  destruct (forget1_ok max_obj_size Hmax exact i n c s s1 r1 Hc E ltac:(lia) Hf) as (_ & Hc1 & _ & _ & Hoj & Hoi).
  apply IH; [done|done|]. intros j. specialize (Ht j). cbn in Ht |- *. unfold lookups in *. destruct (decide (i = j)) as [->|Hne].
  - rewrite Hoi. rewrite E in Ht. cbn in Ht. destruct (decide (c = n)); cbn; lia.
  - rewrite Hoj by done. lia.
Qed.

(** ** The tree *)
Lemma below_trans s i j k : below s i j -> below s j k -> below s i k.
Proof. intros H1 H2. induction H2; [done|by eapply below_entry]. Qed.
Lemma linked_attached exact s p a : consistent exact s -> attached s -> p <> CTRL -> inodes s !! p = Some a -> 0 < refcount a -> below s ROOT p.
Proof.
  intros Hc Hat Hpc Ha Hr. destruct (decide (p = ROOT)) as [->|Hnr]; [constructor|].
  rewrite (c_links _ _ _ Hc _ _ Ha) in Hr. unfold base_links in Hr. rewrite !decide_False in Hr by done. unfold links in Hr. rewrite Z.add_0_r in Hr.
  destruct (cnt_pos_inv _ _ Hr) as ([q k] & i & Hi & E). cbn in E. subst i. destruct (c_entries _ _ _ Hc _ _ _ Hi) as ((n & rc & Hn) & _).
  assert (entry s q n = Some p) as He by (unfold entry; by rewrite Hn). eapply below_entry; [|exact He]. by eapply Hat.
Qed.
(** More entries: nothing gets detached. *)
Lemma attached_bind s s' p n i : attached s -> below s ROOT p -> entry s p n = None \/ entry s p n = Some i ->
  (forall q m, entry s' q m = bind (entry s) p n (Some i) q m) -> attached s'.
Proof.
  intros Hat Hp Hn He.
  assert (forall j, below s ROOT j -> below s' ROOT j) as Hb.
  { intros j Hj. induction Hj as [|q m j Hq IH Hm]; [constructor|]. eapply below_entry; [exact IH|]. rewrite He. unfold bind. case_decide as D; [|done]. injection D as -> ->. destruct Hn; congruence. }
  intros q m j. rewrite He. unfold bind. case_decide as D; [injection D as -> ->; intros _; by apply Hb|]. intros Hj. by eapply Hb, Hat.
Qed.
Lemma attached_same s s' : attached s -> (forall p n, entry s' p n = entry s p n) -> attached s'.
Proof.
  intros Hat He. assert (forall j, below s ROOT j -> below s' ROOT j) as Hb. { intros j Hj. induction Hj as [|q m j Hq IH Hm]; [constructor|]. eapply below_entry; [exact IH|]. by rewrite He. }
  intros q m j. rewrite He. intros Hj. by eapply Hb, Hat.
Qed.
(** Removing an entry of something that contains nothing. *)
Lemma attached_remove s s' p n i : attached s -> entry s p n = Some i -> (forall m, entry s i m = None) ->
  (forall q m, entry s' q m = bind (entry s) p n None q m) -> attached s'.
Proof.
  intros Hat Hi Hno He.
  assert (forall j, below s ROOT j -> j <> i -> below s' ROOT j) as Hb.
  { intros j Hj. induction Hj as [|q m j Hq IH Hm]; intros Hji; [constructor|]. assert (q <> i) by (intros ->; by rewrite Hno in Hm).
    eapply below_entry; [by apply IH|]. rewrite He. unfold bind. rewrite decide_False; [done|]. intros [= -> ->]. congruence. }
  intros q m j. rewrite He. unfold bind. case_decide; [done|]. intros Hj. apply Hb; [by eapply Hat|]. intros ->. by rewrite Hno in Hj.
Qed.
Lemma attached_move s s' po no pn nn io : attached s -> entry s po no = Some io -> below s ROOT pn -> ~ below s io pn -> (po, no) <> (pn, nn) ->
  (forall iw, entry s pn nn = Some iw -> forall m, entry s iw m = None) ->
  (forall q m, entry s' q m = bind (bind (entry s) po no None) pn nn (Some io) q m) -> attached s'.
Proof.
  intros Hat Ho Hpn Hnb Hd Hw He.
  set (ok := fun x => forall iw, entry s pn nn = Some iw -> x <> iw).
  assert (forall q m j, entry s q m = Some j -> ok q) as Hok by (intros q m j Hj iw Hiw ->; by rewrite (Hw _ Hiw) in Hj).
  assert (forall x, below s ROOT x -> ok x -> ~ below s io x -> below s' ROOT x) as H1.
  { intros x Hx. induction Hx as [|q m x Hq IH Hm]; intros Hkx Hnx; [constructor|].
    eapply below_entry; [apply IH; [by eapply Hok|intros Hb; apply Hnx; by eapply below_entry]|].
    rewrite He. unfold bind. rewrite decide_False by (intros E; apply pair_equal_spec in E as [Eq Em]; rewrite Eq, Em in Hm; by apply (Hkx x)). rewrite decide_False; [done|]. intros E. apply pair_equal_spec in E as [Eq Em]. rewrite Eq, Em in Hm.
    rewrite Ho in Hm. injection Hm as <-. apply Hnx. constructor. }
  assert (ok pn \/ ~ ok pn) as [Hkpn|Hkpn].
  { unfold ok. destruct (entry s pn nn) as [iw|]; [|by left]. destruct (decide (pn = iw)) as [->|Hne]; [right; intros H; by apply (H iw)|left; by intros ? [= <-]]. }
  2:{ exfalso. apply Hkpn. intros iw Hiw E. subst iw. by rewrite (Hw pn Hiw nn) in Hiw. }
  assert (below s' ROOT pn) as Hpn' by by apply H1.
  assert (below s' ROOT io) as Hio'. { eapply below_entry; [exact Hpn'|]. rewrite He. unfold bind. by rewrite decide_True. }
  assert (forall x, below s ROOT x -> ok x -> below s' ROOT x) as H2.
  { intros x Hx. induction Hx as [|q m x Hq IH Hm]; intros Hkx; [constructor|].
    destruct (decide ((q, m) = (po, no))) as [E|E]; [injection E as -> ->; rewrite Ho in Hm; by injection Hm as <-|].
    eapply below_entry; [apply IH; by eapply Hok|]. rewrite He. unfold bind. rewrite decide_False by (intros E2; apply pair_equal_spec in E2 as [Eq Em]; rewrite Eq, Em in Hm; by apply (Hkx x)). by rewrite decide_False. }
  intros q m j. rewrite He. unfold bind. case_decide as D; [by injection D as -> ->|]. case_decide; [done|]. intros Hj. apply H2; [by eapply Hat|by eapply Hok].
Qed.
Lemma no_children_entry s i : has_children s i = false -> forall m, entry s i m = None.
Proof. intros Hc m. unfold entry. destruct (names s !! m) as [[k rc]|]; [|done]. destruct (contents s !! (i, k)) eqn:E; [|done]. by apply has_children_false in E. Qed.
Lemma remove_empty p n i f now s s' : remove max_obj_size p n i f now s = (s', Done) -> forall m, entry s i m = None.
Proof. unfold remove. destruct (has_children s i) eqn:E; [done|]. intros _. by apply no_children_entry. Qed.
Lemma lookup__entry exact p n s s' i : consistent exact s -> n <> CTRL_NAME -> lookup_ p n s = (s', inr i) -> s' = incr_open i s /\ entry s p n = Some i.
Proof. intros Hc Hn Hl. destruct (lookup__ok _ _ _ _ _ _ _ Hc Hl) as (-> & _ & [[? ?]|[_ He]]); done. Qed.
Lemma unlink_empty exact p n now s s' : consistent exact s -> n <> CTRL_NAME -> unlink max_obj_size p n now s = (s', Done) ->
  exists i, entry s p n = Some i /\ forall m, entry s i m = None.
Proof.
  intros Hc Hn. unfold unlink. destruct (failsafe s); [done|]. destruct (lookup_ p n s) as [s1 [e|i]] eqn:Hl.
  { pose proof (lookup__ok _ _ _ _ _ _ _ Hc Hl) as Hx. intros [= _ ->]. done. }
  destruct (lookup__entry _ _ _ _ _ _ Hc Hn Hl) as [-> He]. destruct (S_ISDIR _); [done|].
  destruct (remove _ _ _ _ _ _ _) as [s2 r2] eqn:Hr. destruct r2; try done. intros _. exists i. split; [done|]. by apply (remove_empty _ _ _ _ _ _ _ Hr).
Qed.
Lemma rmdir_empty exact p n now s s' : consistent exact s -> n <> CTRL_NAME -> rmdir max_obj_size p n now s = (s', Done) ->
  exists i, entry s p n = Some i /\ forall m, entry s i m = None.
Proof.
  intros Hc Hn. unfold rmdir. destruct (failsafe s); [done|]. destruct (lookup_ p n s) as [s1 [e|i]] eqn:Hl.
  { pose proof (lookup__ok _ _ _ _ _ _ _ Hc Hl) as Hx. intros [= _ ->]. done. }
  destruct (lookup__entry _ _ _ _ _ _ Hc Hn Hl) as [-> He]. destruct (inodes _ !! p); [|done]. destruct (locked _); [done|]. destruct (negb _); [done|].
  destruct (remove _ _ _ _ _ _ _) as [s2 r2] eqn:Hr. destruct r2; try done. intros _. exists i. split; [done|]. by apply (remove_empty _ _ _ _ _ _ _ Hr).
Qed.
Lemma rename_empty exact po no pn nn fl now s s' : consistent exact s -> rename max_obj_size po no pn nn fl now s = (s', Done) ->
  is_Some (inodes s !! pn) /\ exists io, entry s po no = Some io /\ forall iw, entry s pn nn = Some iw -> forall m, entry s iw m = None.
Proof.
  intros Hc. unfold rename. destruct fl; [done|]. case_decide as Hn; [done|]. assert (no <> CTRL_NAME /\ nn <> CTRL_NAME) as [Hn1 Hn2] by tauto. destruct (failsafe s); [done|].
  destruct (inodes s !! po); [|done]. destruct (inodes s !! pn) eqn:Hpn; [|done]. destruct (_ || _); [done|].
  destruct (lookup_ po no s) as [s1 [e|io]] eqn:Hl. { pose proof (lookup__ok _ _ _ _ _ _ _ Hc Hl) as Hx. intros [= _ ->]. done. }
  destruct (lookup__entry _ _ _ _ _ _ Hc Hn1 Hl) as [-> He].
  assert (consistent exact (incr_open io s)) as Hc1. { apply consistent_incr; [|done]. by destruct (lookup__ok _ _ _ _ _ _ _ Hc Hl) as (_ & ? & _). }
  destruct (lookup_ pn nn _) as [s2 [e|iw]] eqn:Hl2.
  - intros _. split; [by eexists|]. exists io. split; [done|]. intros iw Hw. pose proof (lookup__ok _ _ _ _ _ _ _ Hc1 Hl2) as Hx.
    destruct e as [| | | | | |[]|]; try done. destruct Hx as (_ & _ & Hx). change (entry s pn nn = None) in Hx. congruence.
  - destruct (lookup__entry _ _ _ _ _ _ Hc1 Hn2 Hl2) as [-> Hw]. change (entry s pn nn = Some iw) in Hw.
    intros Hr. split; [by eexists|]. exists io. split; [done|]. rewrite Hw. intros ? [= <-]. unfold replace in Hr.
    destruct (has_children _ iw) eqn:E; [done|]. apply (no_children_entry s iw). exact E.
Qed.
Lemma create__parent p n m c rd sz now s s' i : create_ p n m c rd sz now s = (s', inr i) -> exists a, inodes s !! p = Some a /\ refcount a <> 0.
Proof. unfold create_. case_decide; [done|]. destruct (inodes s !! p); [|done]. destruct (locked _); [done|]. case_decide; [done|]. eauto. Qed.
Lemma create__inl p n m c rd sz now s s' i a : create_ p n m c rd sz now s = (s', inl (Entry i a)) -> False.
Proof. unfold create_. repeat case_match; intros; simplify_eq. Qed.
Lemma open__not_entry i w t now s s' j a : open_ max_obj_size i w t now s = (s', Entry j a) -> False.
Proof. unfold open_, setattr. repeat case_match; intros; simplify_eq. Qed.
Lemma step_attached exact s c s' r : consistent exact s -> allowed max_obj_size exact s c -> attached s -> exec max_obj_size c s = (s', r) -> r <> Crash -> attached s'.
Proof.
  intros Hc Ha Hat Hr Hn. destruct (step_good max_obj_size Hmax exact s c s' r Hc Ha Hr Hn) as (Hc' & He & _).
  assert (forall p a, p <> CTRL -> inodes s !! p = Some a -> refcount a <> 0 -> below s ROOT p) as Hup.
  { intros p a Hp Hpa Hra. apply (linked_attached exact s p a); try done. rewrite (c_links _ _ _ Hc _ _ Hpa) in Hra |- *.
    assert (0 <= links s p) by apply cnt_nonneg. unfold base_links in *. repeat case_decide; lia. }
  assert (forall p n m cx rd sz now s1 i, p <> CTRL -> create_ p n m cx rd sz now s = (s1, inr i) -> (forall q m0, entry s' q m0 = bind (entry s) p n (Some i) q m0) -> attached s') as Hcr.
  { intros p n m cx rd sz now s1 i Hp Hcr HE. destruct (create__parent _ _ _ _ _ _ _ _ _ _ Hcr) as (a & Hpa & Hra).
    apply (attached_bind s s' p n i); [done|by eapply Hup| |done]. left.
    destruct (create_ok max_obj_size exact p n m cx rd sz now s s1 _ Hc Hp Hcr) as (_ & _ & _ & _ & _ & _ & Hsub & _ & _ & k & rc & Hk & Hct & _).
    unfold entry. destruct (names s !! n) as [[k0 rc0]|] eqn:En; [|done]. apply Hsub in En as [rc' En]. rewrite Hk in En. by injection En as -> _. }
  destruct c; cbn in He, Hr, Ha; try (apply (attached_same s); [done|]; intros; rewrite He; by destruct r).
  - destruct r; try by apply (attached_same s). destruct (unlink_empty exact _ _ _ _ _ Hc Ha Hr) as (i & Hi & Hno). by apply (attached_remove s s' p n i).
  - destruct r; try by apply (attached_same s). destruct (rmdir_empty exact _ _ _ _ _ Hc Ha Hr) as (i & Hi & Hno). by apply (attached_remove s s' p n i).
  - destruct r; try by apply (attached_same s). unfold mknod in Hr. destruct (failsafe s); [done|]. destruct (create_ _ _ _ _ _ _ _ s) as [s1 [e|j]] eqn:Hcre; [injection Hr as <- ->; by apply create__inl in Hcre|].
    destruct (inodes s1 !! j); [|done]. injection Hr as <- <- <-. eapply Hcr; done.
  - destruct r; try by apply (attached_same s). unfold symlink in Hr. destruct (failsafe s); [done|]. destruct (create_ _ _ _ _ _ _ _ s) as [s1 [e|j]] eqn:Hcre; [injection Hr as <- ->; by apply create__inl in Hcre|].
    destruct (inodes s1 !! j); [|done]. injection Hr as <- <- <-. eapply Hcr; done.
  - destruct Ha as ((Hpc & Hpr) & Hd & Hnb). destruct r; try by apply (attached_same s).
    destruct (rename_empty exact _ _ _ _ _ _ _ _ Hc Hr) as ([an Han] & io & Hio & Hw). rewrite Hio in He. specialize (Hpr _ Han).
    eapply (attached_move s s' po no pn nn io); eauto. by eapply (Hup pn an); [..|lia].
  - destruct Ha as [Ha _]. destruct r; try by apply (attached_same s). unfold link in Hr. case_decide; [done|]. destruct (inodes s !! p) as [ap|] eqn:Hap; [|done]. case_decide as Hrp; [done|].
    destruct (_ || _); [done|]. apply (attached_bind s s' p n i); [done|by eapply Hup| |done]. left.
    unfold entry. destruct (names s !! n) as [[k rc]|] eqn:En; [|done]. unfold add_name in Hr. cbn in Hr. rewrite En in Hr. cbn in Hr. by destruct (contents s !! (p, k)).
  - destruct r; try by apply (attached_same s). unfold create in Hr. destruct (failsafe s); [done|]. destruct (entry s p n) as [j|] eqn:Hj.
    + destruct (open_ _ _ _ _ _ _) as [s1 r1] eqn:Ho. destruct r1; try done; [|injection Hr as <- <- <-; by apply open__not_entry in Ho]. destruct (inodes s1 !! j); [|done]. injection Hr as <- <- <-.
      apply (attached_same s); [done|]. intros q m0. rewrite He. unfold bind. case_decide as D; [by injection D as -> ->|done].
    + destruct (create_ _ _ _ _ _ _ _ s) as [s1 [e|j]] eqn:Hcre; [injection Hr as <- ->; by apply create__inl in Hcre|].
      destruct (inodes s1 !! j); [|done]. injection Hr as <- <- <-. eapply Hcr; done.
  - destruct r; try by apply (attached_same s). destruct Ha as [_ Hi]. by apply (attached_remove s s' p n i); [..|apply (remove_empty _ _ _ _ _ _ _ Hr)|].
Qed.
Lemma reachable_attached exact h s : reachable exact h s -> attached s.
Proof.
  induction 1 as [u g now|h s c s' r Hre IH Ha Hr Hn].
  - intros p n i. rewrite entry_mkfs. unfold bind. case_decide as D; [injection D as -> ->; constructor|done].
  - eapply step_attached; eauto. by eapply reachable_consistent.
Qed.

(** ** Executing a list of calls (for examples) *)
Fixpoint run (l : list call) (s : fs) : list (call * res) * fs :=
  match l with
  | [] => ([], s)
  | c :: l => let '(s1, r) := exec max_obj_size c s in let '(h, s2) := run l s1 in ((c, r) :: h, s2)
  end.
Fixpoint allowed_all (exact : bool) (l : list call) (s : fs) : Prop :=
  match l with
  | [] => True
  | c :: l => allowed max_obj_size exact s c /\ (exec max_obj_size c s).2 <> Crash /\ allowed_all exact l (exec max_obj_size c s).1
  end.
Lemma run_reachable exact l h s : reachable exact h s -> allowed_all exact l s -> reachable exact (h ++ (run l s).1) (run l s).2.
Proof.
  revert h s. induction l as [|c l IH]; intros h s Hr Ha; cbn; [by rewrite app_nil_r|]. destruct Ha as (Ha & Hn & Hl).
  destruct (exec max_obj_size c s) as [s1 r] eqn:E. specialize (IH (h ++ [(c, r)]) s1). destruct (run l s1) as [h2 s2]. cbn in *. rewrite <- app_assoc in IH. apply IH; [|done]. by eapply reach_step.
Qed.
Lemma run_calls exact l s : allowed_all exact l s -> calls max_obj_size exact s (run l s).1 (run l s).2.
Proof.
  revert s. induction l as [|c l IH]; intros s Ha; cbn; [constructor|]. destruct Ha as (Ha & Hn & Hl).
  destruct (exec max_obj_size c s) as [s1 r] eqn:E. specialize (IH s1). destruct (run l s1) as [h2 s2]. cbn in *. eapply calls_cons; eauto.
Qed.
Lemma below_leaf s i j : has_children s i = false -> below s i j -> j = i.
Proof. intros Hc Hb. pose proof (no_children_entry _ _ Hc) as Hn. induction Hb as [|p n j Hp -> Hj]; [done|]. by rewrite Hn in Hj. Qed.
End hist.
