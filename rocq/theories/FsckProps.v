(** File system check: C46 consistency afterwards, C47 cached blocks, C48 names in lost+found, C49 reachability. *)
From stdpp Require Import prelude gmap.
From Coq Require Import ZArith Lia.
From Verif Require Import Count Decimal FsckModel FsckSpec FsckProofs FsckClean FsckLoops FsckKept FsckFree FsckSilent.

Section props.
Context `{Env0 : env}.
(** * C46 *)
(** The two things that go unnoticed: a dangling name id is handed out anew; an attribute's new name is already in use. *)
Definition unnoticed (s : fsck) : Prop := captured s = true \/ taken s = true.
Theorem check_consistent wc kp s s' : check wc kp s = Some s' -> ~ unnoticed s' -> consistent max_obj_size s' /\ uncorrectable s' = uncorrectable s.
Proof.
  intros H Hn. assert (captured s' = false) as Hc by (destruct (captured s') eqn:E; [destruct Hn; by left|done]). assert (taken s' = false) as Ht by (destruct (taken s') eqn:E; [destruct Hn; by right|done]).
  destruct (check_result wc kp s s' H Hc Ht) as (R & U & N & O & I & Z & S & P & A & _). apply check_rest in H as (s1 & s2 & _ & _ & H). apply rest_kept in H as (_ & Pl & _).
  split; [|done]. split; [by apply resolved_iff| |done|].
  - split.
    + intros id n r Hid. rewrite <- uses_count. by apply (N id (n, r)).
    + intros i r Hi N1 N2. rewrite <- entries_count. rewrite (I i r Hi N1 N2). split; [done|]. apply Pl; eauto.
    + intros id o Ho. rewrite <- refs_count. by apply O.
  - intros id o Ho. split_and!; [by apply (A id)|by apply (P id)|]. apply S. eauto.
Qed.
(** Neither happens if attributes have their names and no dangling name id of an entry is ever the id of a new row. *)
Theorem check_consistent_input wc kp s s' : check wc kp s = Some s' -> ~ unnoticed s ->
  (forall k x, xattrs s !! k = Some x -> x_name x ∈ dom (names s)) ->
  (forall k e, contents s !! k = Some e -> c_name e ∈ dom (names s) \/ forall X, new X <> c_name e) -> consistent max_obj_size s' /\ uncorrectable s' = uncorrectable s.
Proof.
  intros H Hn Hx He. apply (check_consistent wc kp s s' H). destruct (check_flags wc kp s s' (fun id => forall X, new X <> id)) as [Hc Ht]; [intros X Q; by apply (Q X)| |done|intros [?|?]; congruence].
  split_and!.
  - destruct (captured s) eqn:E; [destruct Hn; by left|done].
  - destruct (taken s) eqn:E; [destruct Hn; by right|done].
  - intros k x Hk. apply elem_of_dom. by apply (Hx k).
  - intros k e Hk. rewrite <- elem_of_dom. by apply (He k).
Qed.
(** Objects that no row refers to are removed. *)
Theorem check_no_spurious wc kp s s' : check wc kp s = Some s' -> ~ unnoticed s' -> (forall m, listed m = dom m) -> forall id d, store s' !! id = Some d -> id ∈ dom (objects s').
Proof.
  intros H Hn Hl id d Hd. assert (captured s' = false) as Hc by (destruct (captured s') eqn:E; [destruct Hn; by left|done]). assert (taken s' = false) as Ht by (destruct (taken s') eqn:E; [destruct Hn; by right|done]).
  destruct (check_result wc kp s s' H Hc Ht) as (_ & _ & _ & _ & _ & _ & _ & _ & _ & B). apply elem_of_dom, B; eauto.
Qed.
(** A clean file system is left as it is, and nothing is found. *)
Theorem check_clean wc kp s : clean max_obj_size recursion_limit s -> 0 < recursion_limit -> wc = false \/ cache s = ∅ -> check wc kp s = Some s.
Proof. apply clean_check. Qed.
(** Nothing is changed without a report (but for cached blocks that are removed once they are stored). *)
Theorem check_reports wc kp s s' : check wc kp s = Some s' -> unlinked s = ∅ -> found s' = false -> s' = set_cache (cache s') s.
Proof. apply silent_check. Qed.
(** A second check finds nothing if what the first does not repair is not there: objects without a block, odd types, long names, a
    lost+found that was moved away, and directories with several entries or on too many levels. *)
Theorem second_check wc kp wc2 kp2 s s' : check wc kp s = Some s' -> ~ unnoticed s' -> (forall m, listed m = dom m) -> 0 < recursion_limit -> wc2 = false \/ cache s' = ∅ ->
  (forall id o, objects s' !! id = Some o -> exists k b, blocks s' !! k = Some b /\ b_obj b = id) -> well_typed s' -> names_short s' -> has_lost_found s' -> is_tree recursion_limit s' ->
  check wc2 kp2 (again s') = Some (again s').
Proof.
  intros H Hn Hl Hr Hcache Hb Ht Hs Hlf Htree. pose proof (check_consistent wc kp s s' H Hn) as [C _]. pose proof (check_no_spurious wc kp s s' H Hn Hl) as G.
  assert (forall id o, objects s' !! id = Some o -> 0 < o_ref o)%Z as Hp.
  { intros id o Ho. destruct (Hb id o Ho) as (k & b & Hk & E). rewrite (objects_counted _ (c_counts _ _ C) id o Ho). rewrite <- refs_count. unfold refs.
    exact (cnt_pos (fun kv : nat * brow => b_obj kv.2 = id) _ k b Hk E). }
  apply clean_check; [|done|destruct Hcache; auto]. destruct C as [[C1 C1' C1'' C1'''] [C2 C2' C2''] C3 C4], Ht, Hlf as [L1 L2], Htree as [T1 T2].
  split; [split; [split|split|..]|..]; try done. intros id d Hd. destruct (proj1 (elem_of_dom _ _) (G id d Hd)) as [o Ho]. exists o. split; [done|]. by apply (Hp id).
Qed.
(** * Nothing is lost *)
Lemma lof_directory_frame i nid s s' : lof_directory i nid s = Some s' -> blocks s' = blocks s /\ objects s' = objects s /\ store s' = store s /\ cache s' = cache s /\ xattrs s' = xattrs s /\ links s' = links s /\
  (forall j r, inodes s !! j = Some r -> inodes s' !! j = Some r) /\ names s' = names s /\
  (forall k e, contents s !! k = Some e -> c_name e <> nid -> contents s' !! k = Some e).
Proof.
  unfold lof_directory. destruct (inodes s !! i); [|done]. case_decide; [intros H1; injection H1 as <-; by split_and!|]. cbn [create_inode]. intros [-> _]%put_contents_spec. cbn. split_and!; [done..| |done|].
  - intros j r Hj. rewrite lookup_insert_ne; [done|]. intros <-. by rewrite new_lookup in Hj.
  - intros k e Hk N. rewrite lookup_fmap, Hk. cbn. rewrite decide_False; [done|]. by intros [? _].
Qed.
Lemma check_lof_frame s s' : check_lof s = Some s' -> blocks s' = blocks s /\ objects s' = objects s /\ store s' = store s /\ cache s' = cache s /\ xattrs s' = xattrs s /\ links s' = links s /\
  (forall j r, inodes s !! j = Some r -> inodes s' !! j = Some r) /\
  (forall k e, contents s !! k = Some e -> name_of s (c_name e) <> Some (Blob LOF) -> exists e', contents s' !! k = Some e' /\ c_inode e' = c_inode e).
Proof.
  unfold check_lof. destruct (entry _ _ _) as [[k e]|] eqn:E.
  - intros H. apply entry_spec in E as (_ & _ & En). apply lof_directory_frame in H as (F1 & F2 & F3 & F4 & F5 & F6 & F7 & _ & F8). split_and!; auto. intros k' e' Hk' N. exists e'. split; [|done]. apply F8; [done|]. congruence.
  - destruct (filter _ _) as [|[k e] [|]] eqn:Ef; [| |done].
    + cbn [create_inode]. destruct (add_name _ _ _ _) as [nid s1] eqn:Ea. intros [-> _]%put_contents_spec. pose proof (add_name_frame _ _ _ _ _ _ Ea) as (F1 & F2 & F3 & F4 & F5 & F6 & F7 & F8 & F9 & F10 & F11 & F12).
      cbn in *. split_and!; auto.
      * rewrite F2. intros j r Hj. rewrite lookup_insert_ne; [done|]. intros <-. by rewrite new_lookup in Hj.
      * rewrite F1. intros k e Hk _. exists e. split; [|done]. rewrite lookup_insert_ne; [done|]. intros <-. by rewrite new_lookup in Hk.
    + assert ((k, e) ∈ filter (fun kv : nat * centry => c_parent kv.2 = c_inode kv.2 /\ name_of s (c_name kv.2) = Some (Blob LOF)) (map_to_list (contents s))) as Hin by (rewrite Ef; left).
      apply elem_of_list_filter in Hin as [[_ En] _]. cbn in En. destruct (put_contents _ _) as [t|] eqn:Ep; [|done]. apply put_contents_spec in Ep as [-> _]. intros H.
      apply lof_directory_frame in H as (F1 & F2 & F3 & F4 & F5 & F6 & F7 & _ & F8). cbn in *. split_and!; auto. intros k' e' Hk' N. eexists. split.
      * apply F8; [rewrite lookup_fmap, Hk'; done|]. case_decide; cbn; congruence.
      * by case_decide.
Qed.
(** Inodes, blocks, attributes, targets and entries stay (entries named lost+found can get a new directory); every inode has an entry, and
    all entries can be reached. *)
Theorem check_keeps kp s s' : check false kp s = Some s' ->
  (forall i r, inodes s !! i = Some r -> exists r', inodes s' !! i = Some r' /\ (i_kind r' = i_kind r \/ i_kind r = NoType) /\ i_rdev r' = i_rdev r /\ (i_size r <= i_size r')%Z) /\
  (forall k i b id h d, sound_block s k i b id h d -> sound_block s' k i b id h d) /\
  (forall k x, xattrs s !! k = Some x -> x_inode x ∈ dom (inodes s) -> exists x', xattrs s' !! k = Some x' /\ x_inode x' = x_inode x) /\
  (forall i z, links s !! i = Some z -> i ∈ dom (inodes s) -> links s' !! i = Some z) /\
  (forall k e, contents s !! k = Some e -> c_inode e ∈ dom (inodes s) -> (forall r, names s !! c_name e <> Some (Blob LOF, r)) -> exists e', contents s' !! k = Some e' /\ c_inode e' = c_inode e).
Proof.
  intros H. apply check_rest in H as (s1 & s2 & H1 & E2 & H3). injection E2 as <-. apply rest_kept in H3 as ([A1 A2 A3 A4 A5] & _). apply check_lof_frame in H1 as (F1 & F2 & F3 & _ & F5 & F6 & F7 & F8).
  assert (forall i, i ∈ dom (inodes s) -> i ∈ dom (inodes s1)) as Hd by (intros i [r Hi]%elem_of_dom; apply elem_of_dom; eauto). split_and!.
  - intros i r Hi. by apply A1, F7.
  - intros k i b id h d (B1 & B2 & B3 & B4). apply A2. split_and!; [by rewrite F1|auto|by rewrite F2|by rewrite F3].
  - intros k x Hk Hi. apply A3; [by rewrite F5|auto].
  - intros i z Hz Hi. apply A4; [by rewrite F6|auto].
  - intros k e Hk Hi Hn. destruct (F8 k e Hk) as (e1 & Hk1 & E1).
    { unfold name_of. destruct (names s !! c_name e) as [[n r]|] eqn:En; [|done]. cbn. intros Q. injection Q as ->. by apply (Hn r). }
    destruct (A5 k e1 Hk1) as (e2 & Hk2 & E2'); [rewrite E1; auto|]. exists e2. split; [done|congruence].
Qed.
Theorem check_places_all wc kp s s' : check wc kp s = Some s' ->
  (forall i r, inodes s' !! i = Some r -> i <> ROOT -> i <> CTRL -> exists k e, contents s' !! k = Some e /\ c_inode e = i /\ reach s' i) /\
  (forall k e, contents s' !! k = Some e -> reach s' (c_parent e)).
Proof.
  intros H. apply check_rest in H as (s1 & s2 & _ & _ & H3). apply rest_kept in H3 as (_ & P & R). split; [|done]. intros i r Hi N1 N2.
  destruct (cnt_pos_inv _ _ (P i (mk_is_Some _ _ Hi) N1 N2)) as (k & e & Hk & <-). exists k, e. split_and!; auto. apply (reach_entry _ k); eauto.
Qed.

(** * C47 *)
(** A cached block of an existing file ends up in the file, if rows of objects tell the truth about the backend. *)
Theorem cached_data_survives kp s s' i b d : check true kp s = Some s' -> truthful s -> blocks_unique s -> i ∈ dom (inodes s) -> cache s !! (i, b) = Some d ->
  exists d', block_data s' i b d' /\ sha256 d' = sha256 d.
Proof.
  intros H Ht Hu Hi Hd. apply check_rest in H as (s1 & s2 & H1 & H2 & H3). apply check_lof_frame in H1 as (F1 & F2 & F3 & F4 & _ & _ & F7 & _).
  destruct (check_cache_spec kp s1 s2 H2) as (_ & _ & I2 & C2).
  { unfold truthful. by rewrite F2, F3. } { unfold blocks_unique. by rewrite F1. }
  destruct (C2 i b d) as (k & id & o & d' & B1 & B2 & B3 & B4 & B5); [by rewrite F4|]. apply rest_kept in H3 as ([_ K _ _ _] & _).
  destruct (K k i b id (sha256 d) d') as (Q1 & Q2 & (o' & Q3 & Q4) & Q5).
  { split_and!; [done| |eauto|done]. rewrite I2. apply elem_of_dom in Hi as [r Hi]. apply elem_of_dom. eauto. }
  exists d'. split; [|done]. by exists k, id, o'.
Qed.

(** * C48 *)
Theorem rescued_name s n p n' : resolve_free s n = Some (p, n') ->
  (exists k e r, contents s !! k = Some e /\ c_parent e = ROOT /\ names s !! c_name e = Some (Blob LOF, r) /\ c_inode e = p) /\ ~ in_use s p n' /\
  ((count (fun e => same (c_parent e) p) (contents s) < 1000)%Z -> length n' <= 255).
Proof.
  intros H. apply resolve_free_fresh in H as (Hp & Hf & j & -> & Hj). split_and!; [|done|].
  - unfold lost_found in Hp. destruct (entry s ROOT (Blob LOF)) as [[k e]|] eqn:E; [|done]. cbn in Hp. injection Hp as <-. apply entry_spec in E as (E1 & E2 & E3). unfold name_of in E3.
    destruct (names s !! c_name e) as [[n0 r]|] eqn:En; [|done]. cbn in E3. injection E3 as ->. by exists k, e, r.
  - intros Hc. apply candidate_length; [apply shorten_length|]. rewrite (count_cnt _ (fun kv : nat * centry => c_parent kv.2 = p)) in Hc by (intros k v _; cbn; by rewrite same_eq). lia.
Qed.
(** A name is always found, and the entry can be moved. *)
Theorem rescue_possible s n k e X : contents s !! k = Some e -> unique (contents s) -> (forall i j nr nr', names s !! i = Some nr -> names s !! j = Some nr' -> nr.1 = nr'.1 -> i = j) ->
  (exists k0 e0 r, contents s !! k0 = Some e0 /\ c_parent e0 = ROOT /\ names s !! c_name e0 = Some (Blob LOF, r)) ->
  exists p n', resolve_free s n = Some (p, n') /\ forall nid s1, add_name (delete k (contents s)) X (Blob n') s = (nid, s1) -> captured s1 = false -> exists s', move_entry k nid p s1 = Some s'.
Proof.
  intros Hk Hu Hn (k0 & e0 & r & Hk0 & Hp0 & Hn0). destruct (lost_found s) as [p|] eqn:Hl.
  2: { unfold lost_found in Hl. destruct (entry s ROOT (Blob LOF)) as [[? ?]|] eqn:E; [done|]. destruct (entry_none _ _ _ E k0 e0 Hk0 Hp0). unfold name_of. by rewrite Hn0. }
  destruct (resolve_free_total s n p Hl) as [n' Hr]. exists p, n'. split; [done|]. intros nid s1 Ea Hc. apply (move_succeeds s n p n' k e nid s1 X); auto.
  intros i j E [[ni ri] Hi]. unfold name_of in E. rewrite Hi in E. destruct (names s !! j) as [[nj rj]|] eqn:Ej; [|done]. cbn in E. injection E as ->. by apply (Hn i j (nj, ri) (nj, rj)).
Qed.

(** * C49 *)
(** After the check everything can be reached from the root. *)
Theorem loops_reachable s s' : check_loops s = Some s' -> forall i, is_parent s' i -> reach s' i.
Proof. intros H i (k & e & Hk & <-). by apply (check_loops_reach s s' H k). Qed.
(** What could be reached stays where it was, if directories have one entry each. *)
Theorem loops_kept s s' k e : check_loops s = Some s' ->
  (forall k1 k2 e1 e2, contents s !! k1 = Some e1 -> contents s !! k2 = Some e2 -> c_inode e1 = c_inode e2 -> is_parent s (c_inode e1) -> k1 = k2) ->
  contents s !! k = Some e -> reach s (c_parent e) -> contents s' !! k = Some e.
Proof. apply check_loops_kept. Qed.
Theorem check_reachable wc kp s s' : check wc kp s = Some s' -> forall i, is_parent s' i -> reach s' i.
Proof. intros H i (k & e & Hk & <-). by apply (proj2 (check_places_all wc kp s s' H) k). Qed.
End props.

(** * Examples *)
Definition above (X : gset nat) : nat := S (max_list (elements X)).
Lemma above_fresh X : above X ∉ X.
Proof. intros H. apply elem_of_elements, max_list_elem_of_le in H. unfold above in H. lia. Qed.
(** Ids of new rows and the recursion limit are arguments; block size 10. *)
Definition small (nw : gset nat -> nat) (fresh : forall X, nw X ∉ X) (limit : nat) : env := {|
  scan A l := l; scan_perm A l := reflexivity l; new := nw; new_fresh := fresh; recursion_limit := limit; max_obj_size := 10;
  sha256 d := foldr (fun x h => x + 2 * h) 1 d; replaced l := l; stored_size d := Z.of_nat (length d); stored_size_nonneg d := Zle_0_nat (length d);
  listed m := dom m; listed_stored m := reflexivity (dom m) |}.
(** The id after the largest, as in sqlite *)
Definition tiny : env := small above above_fresh 1000.
Local Existing Instance tiny.
(** Root, control file and lost+found; the file /97 of two blocks, which is also /98/99; a symlink /100 *)
Definition fs : fsck := {|
  names := list_to_map [(1, (Blob LOF, 1%Z)); (2, (Blob [97], 1%Z)); (3, (Blob [98], 2%Z)); (4, (Blob [99], 1%Z)); (5, (Blob [100], 1%Z))];
  contents := list_to_map [(1, Centry 1 3 1); (2, Centry 2 4 1); (3, Centry 3 5 1); (4, Centry 4 4 5); (5, Centry 5 6 1)];
  inodes := list_to_map [(1, Irow Dir 1 0 0); (2, Irow Reg 1 0 0); (3, Irow Dir 1 0 0); (4, Irow Reg 2 12 0); (5, Irow Dir 1 0 0); (6, Irow Lnk 1 3 0)];
  blocks := list_to_map [(1, Brow 4 0 1); (2, Brow 4 1 2)];
  objects := list_to_map [(1, Orow (Some (sha256 (repeat 7 10))) 1 10 10); (2, Orow (Some (sha256 [8; 9])) 1 2 2)];
  xattrs := list_to_map [(1, Xrow 4 3)]; links := list_to_map [(6, 3%Z)]; store := list_to_map [(1, repeat 7 10); (2, [8; 9])]; cache := ∅;
  unlinked := ∅; found := false; uncorrectable := false; captured := false; taken := false |}.

Definition test (o : option fsck) (p : fsck -> bool) : bool := match o with Some s => p s | None => false end.
Lemma test_true o p : test o p = true -> exists s, o = Some s /\ p s = true.
Proof. destruct o as [s|]; [by exists s|done]. Qed.
(** Case distinction over the rows of a table given as a list *)
Ltac cases H := apply elem_of_list_to_map_2 in H; repeat (apply elem_of_cons in H as [H|H]); [injection H; clear H; intros; subst..|by apply elem_of_nil in H].
Ltac row := vm_compute; reflexivity.
Ltac member := apply elem_of_dom; eexists; row.
Example fs_clean : clean 10 1000 fs.
Proof.
  assert (forall i, is_parent fs i -> i = 1 \/ i = 5) as Hpar by (intros i (k & e & Hk & <-); cases Hk; cbn; auto).
  assert (is_parent fs 5) as H5 by (exists 4, (Centry 4 4 5); split; row).
  split.
  - split; [split|split|..].
    + intros k e H. cases H; split_and!; member.
    + intros k b H. cases H; split; member.
    + intros k x H. cases H; split; member.
    + intros i z H. cases H; member.
    + intros id n r H. cases H; row.
    + intros i r H N1 N2. cases H; try done; split; row.
    + intros id o H. cases H; row.
    + intros k b o r H Ho Hr. cases H; vm_compute in Ho, Hr; injection Ho as <-; injection Hr as <-; vm_compute; discriminate.
    + intros id o H. cases H; (split_and!; [done..|eexists; row]).
  - intros id d H. cases H; eexists; (split; [row|row]).
  - intros id o H. cases H; row.
  - split; [exists 1, (Centry 1 3 1), 1%Z; split_and!; row|]. intros k e r H Hp Hn. cases H; vm_compute in Hn; try discriminate; eexists; (split; row).
  - split.
    + intros i [->| ->]%Hpar; [by left|right]. exists 3, (Centry 3 5 1). split; row.
    + exists (fun i => if decide (i = 5) then 1 else 0). intros k e H Hp. cases H; apply Hpar in Hp; cbn in Hp; try lia. split; [done|]. split; [row|]. apply Nat.ltb_lt. row.
  - split.
    + intros i r H. cases H; done.
    + intros i r H. cases H; vm_compute; split; intros Q; try done; try discriminate; by destruct Q.
    + intros i r z H Hz. cases Hz. vm_compute in H. by injection H as <-.
    + intros i r H. cases H; cbn; auto.
    + intros i r H. cases H; done.
    + intros i r H [->| ->]%Hpar; vm_compute in H; by injection H as <-.
    + intros k b r H Hr. cases H; vm_compute in Hr; by injection Hr as <-.
  - intros k e r n H Hn. cases H; vm_compute in Hn; injection Hn as <- <-; cbn; lia.
Qed.
Example clean_stays wc kp : check wc kp fs = Some fs.
Proof. apply check_clean; [exact fs_clean|cbn [recursion_limit tiny small]; lia|by right]. Qed.
(** A wrong count; entries without name, inode or parent; a row without hash, one without blocks, one of unknown size; blocks without object
    or inode; a file without entry; a wrong size; an attribute and a target without inode; two directories that contain each other. *)
Definition damaged : fsck := {|
  names := <[3 := (Blob [98], 9%Z)]> (names fs);
  contents := list_to_map [(6, Centry 77 4 1); (7, Centry 2 99 5); (8, Centry 4 6 88); (9, Centry 2 8 9); (10, Centry 2 9 8)] ∪ contents fs;
  inodes := list_to_map [(4, Irow Reg 2 3 0); (7, Irow Reg 5 0 0); (8, Irow Dir 1 0 0); (9, Irow Dir 1 0 0)] ∪ inodes fs;
  blocks := list_to_map [(3, Brow 4 2 9); (4, Brow 50 0 2)] ∪ blocks fs;
  objects := list_to_map [(2, Orow (Some (sha256 [8; 9])) 1 (-1) 2); (3, Orow None 1 1 1); (4, Orow (Some 5) 3 7 7)] ∪ objects fs;
  xattrs := <[2 := Xrow 60 3]> (xattrs fs); links := <[61 := 5%Z]> (links fs); store := <[17 := [1]]> (store fs); cache := ∅;
  unlinked := ∅; found := false; uncorrectable := false; captured := false; taken := false |}.
Definition noticed (s : fsck) : bool := negb (captured s) && negb (taken s).
Lemma noticed_spec s : noticed s = true -> ~ unnoticed s.
Proof. unfold noticed, unnoticed. destruct (captured s), (taken s); cbn; try discriminate. intros _ [?|?]; discriminate. Qed.
Definition finds (o : option fsck) : bool := test o found.
Example damage_repaired : exists s', check false false damaged = Some s' /\ consistent 10 s' /\ uncorrectable s' = false /\ found s' = true /\
  (exists s'', check false false (again s') = Some s'' /\ found s'' = false) /\ (exists e, contents s' !! 10 = Some e /\ c_inode e = 9 /\ c_parent e = 3).
Proof.
  destruct (test_true (check false false damaged) (fun s => noticed s && found s && test (check false false (again s)) (fun t => negb (found t)) &&
    bool_decide (contents s !! 10 = Some (Centry 11 9 3)))) as (s' & H & T); [row|].
  exists s'. apply andb_prop in T as [[[T1 T2]%andb_prop T3]%andb_prop T4]. apply noticed_spec in T1. apply bool_decide_eq_true in T4.
  destruct (check_consistent _ _ _ _ H T1) as [C U]. split_and!; [done..| |eauto]. apply test_true in T3 as (s'' & H2 & T3). exists s''. split; [done|by apply negb_true_iff].
Qed.
(** The hypotheses of [check_consistent_input]: 77 is never the id of a new row. *)
Definition above77 (X : gset nat) : nat := if decide (above X = 77) then 78 else above X.
Lemma above77_fresh X : above77 X ∉ X.
Proof.
  unfold above77. case_decide as D; [|apply above_fresh]. intros H. apply elem_of_elements, max_list_elem_of_le in H. unfold above in D. lia.
Qed.
Example damage_input : ~ unnoticed damaged /\ (forall k x, xattrs damaged !! k = Some x -> x_name x ∈ dom (names damaged)) /\
  (forall k e, contents damaged !! k = Some e -> c_name e ∈ dom (names damaged) \/ forall X, @new (small above77 above77_fresh 1000) X <> c_name e).
Proof.
  split_and!; [by apply noticed_spec| |].
  - intros k x Hk. apply (lookup_insert_Some (xattrs fs)) in Hk as [[<- <-]|[_ Hk]]; [member|]. cases Hk. member.
  - intros k e He. unfold damaged in He. cbn [contents] in He. apply lookup_union_Some_raw in He as [He|[_ He]]; cases He; try (left; member). right. intros X. cbn. unfold above77. case_decide; lia.
Qed.

(** * Where the check fails *)
(** Two entries refer to the name that gets created next: one keeps referring to it, uncounted. *)
Definition cap : fsck := set_contents (list_to_map [(6, Centry 6 4 1); (7, Centry 6 6 5)] ∪ contents fs) fs.
Theorem name_capture_refuted : ~ forall s s', check false false s = Some s' -> ~ unnoticed s -> uncorrectable s' = false -> counts_right s'.
Proof.
  intros Q. destruct (test_true (check false false cap) (fun s => negb (uncorrectable s) && bool_decide (names s !! 6 = Some (Blob [45; 54], 1%Z)) &&
    Z.eqb (count (fun e => same (c_name e) 6) (contents s) + count (fun x => same (x_name x) 6) (xattrs s)) 2)) as (s' & H & T); [row|].
  apply andb_prop in T as [[T1 T2]%andb_prop T3]. apply negb_true_iff in T1. apply bool_decide_eq_true in T2. apply Z.eqb_eq in T3.
  pose proof (names_counted _ (Q cap s' H (noticed_spec cap eq_refl) T1) _ _ _ T2) as N. rewrite T3 in N. discriminate.
Qed.
(** The new name of an attribute is in use: the intact attribute of another file is renamed, and the dangling one stays (525). *)
Definition attr : fsck := set_xattrs (list_to_map [(1, Xrow 4 50); (2, Xrow 6 3); (3, Xrow 4 6)]) (set_names (<[6 := (Text (LOF_ ++ dec 1), 1%Z)]> (names fs)) fs).
Theorem attribute_rename_refuted : ~ forall s s' k x, check false false s = Some s' -> xattrs s !! k = Some x -> x_inode x ∈ dom (inodes s) -> x_name x ∈ dom (names s) -> xattrs s' !! k = Some x.
Proof.
  intros Q. destruct (test_true (check false false attr) (fun s => uncorrectable s && bool_decide ((x_name <$> xattrs s !! 2) <> Some 3))) as (s' & H & T); [row|].
  apply andb_prop in T as [_ T]. apply bool_decide_eq_true in T. apply T. rewrite (Q attr s' 2 (Xrow 6 3) H); [done|row|member..].
Qed.
(** The name that the attribute refers to is the one created next: no number of attempts is enough. *)
Definition hang : fsck := set_xattrs (list_to_map [(1, Xrow 4 6)]) fs.
Theorem attribute_hang_refuted n : forall fuel s, names s = names hang -> xattrs s = xattrs hang -> rename_attribute 1 n 4 fuel s = None.
Proof.
  intros fuel. revert n. induction fuel as [|fuel IH]; intros n s Hn Hx; [done|]. cbn [rename_attribute].
  destruct (add_name _ _ _ _) as [nid s1] eqn:E. unfold add_name in E. destruct (pick _) as [[id [? r]]|] eqn:Ep.
  { exfalso. apply pick_elem, elem_of_list_filter in Ep as [Ep Hin]. cbn in Ep. apply elem_of_map_to_list in Hin. rewrite Hn in Hin. unfold hang, fs in Hin. cbn [names set_xattrs] in Hin. cases Hin; discriminate. }
  rewrite Hn in E. assert (new (dom (names hang)) = 6) as E6 by row. rewrite E6 in E. injection E as <- <-. case_decide as D.
  { exfalso. apply (D 1 (Xrow 4 6)); [cbn; rewrite Hx; row|done]. }
  apply IH; [|done]. cbn. unfold drop_name. rewrite lookup_insert. rewrite decide_True by done. apply delete_insert. row.
Qed.
(** The entry lost+found refers to a missing inode: the check ends with an exception. *)
Theorem lost_found_refuted : ~ forall s, references_resolve (set_inodes (<[3 := Irow Dir 1 0 0]> (inodes s)) s) -> exists s', check false false s = Some s'.
Proof.
  intros Q. destruct (Q (set_inodes (delete 3 (inodes fs)) fs)) as [s' H].
  - assert (set_inodes (<[3:=Irow Dir 1 0 0]> (inodes (set_inodes (delete 3 (inodes fs)) fs))) (set_inodes (delete 3 (inodes fs)) fs) = fs) as ->.
    { unfold set_inodes. cbn [inodes]. rewrite insert_delete_insert, insert_id by row. reflexivity. }
    apply fs_clean.
  - assert (check false false (set_inodes (delete 3 (inodes fs)) fs) = None) as E by row. congruence.
Qed.
(** A block of a missing inode: its object stays with count zero, and the second check reports it. *)
Definition twice : fsck := set_store (<[3 := [4]]> (store fs)) (set_objects (<[3 := Orow (Some 5) 1 1 1]> (objects fs)) (set_blocks (<[3 := Brow 50 0 3]> (blocks fs)) fs)).
Theorem second_check_refuted : ~ forall s s' s'', check false false s = Some s' -> ~ unnoticed s' -> uncorrectable s' = false -> check false false (again s') = Some s'' -> found s'' = false.
Proof.
  intros Q. destruct (test_true (check false false twice) (fun s => noticed s && negb (uncorrectable s) && finds (check false false (again s)))) as (s' & H & T); [row|].
  apply andb_prop in T as [[T1 T2]%andb_prop T3]. apply noticed_spec in T1. apply negb_true_iff in T2. apply test_true in T3 as (s'' & H2 & T3). rewrite (Q _ _ _ H T1 T2 H2) in T3. discriminate.
Qed.
(** C47: an upload was registered (row with hash, size -1) but did not finish. The cached copy counts as stored and is removed, then the row. *)
Definition pending : fsck := set_cache {[ (4, 1%Z) := [8; 9] ]} (set_store (delete 2 (store fs)) (set_objects (<[2 := Orow (Some (sha256 [8; 9])) 1 (-1) 2]> (objects fs)) fs)).
Theorem cache_lost_refuted : ~ forall s s' i b d, check true false s = Some s' -> consistent 10 (set_store (<[2 := d]> (store s)) (set_objects (alter (fun o => Orow (o_hash o) (o_ref o) 2 (o_len o)) 2 (objects s)) s)) -> i ∈ dom (inodes s) -> cache s !! (i, b) = Some d ->
  (exists d', block_data s' i b d' /\ sha256 d' = sha256 d) \/ cache s' !! (i, b) = Some d.
Proof.
  intros Q. destruct (test_true (check true false pending) (fun s => bool_decide (cache s !! (4, 1%Z) = None) && bool_decide (map_Forall (fun _ b => ~ (b_inode b = 4 /\ b_no b = 1%Z)) (blocks s)))) as (s' & H & T); [row|].
  apply andb_prop in T as [T1 T2]. apply bool_decide_eq_true in T1, T2. destruct (Q pending s' 4 1%Z [8; 9] H) as [(d' & (k & id & o & Hk & _) & _)|E].
  - match goal with |- consistent _ ?s => assert (s = set_cache {[ (4, 1%Z) := [8; 9] ]} fs) as -> end.
    { unfold pending, set_store, set_objects, set_cache. cbn [store objects names contents inodes blocks xattrs links cache unlinked found uncorrectable captured taken].
      rewrite alter_insert, insert_delete_insert, insert_id by row. rewrite insert_id by row. reflexivity. }
    destruct fs_clean as [[[A1 A2 A3 A4] [B1 B2 B3] C D] _ _ _ _ _ _]. split; [split|split|..]; done.
  - member.
  - row.
  - exact (T2 k (Brow 4 1 id) Hk (conj eq_refl eq_refl)).
  - rewrite E in T1. discriminate.
Qed.
(** With a row that tells the truth it is uploaded. *)
Definition unsaved : fsck := set_cache {[ (4, 1%Z) := [8; 8] ]} fs.
Example cached_saved : truthful unsaved /\ blocks_unique unsaved /\ exists s', check true false unsaved = Some s' /\ block_data s' 4 1 [8; 8] /\ cache s' !! (4, 1%Z) = None.
Proof.
  split_and!.
  - intros id o h H E. cases H; injection E as <-; eexists; (split; [row|row]).
  - intros k1 k2 i b o1 o2 H1 H2. cases H1; cases H2; done.
  - destruct (test_true (check true false unsaved) (fun s => bool_decide (((fun b => (b_inode b, b_no b, b_obj b)) <$> blocks s !! 2) = Some (4, 1%Z, 3)) && bool_decide (store s !! 3 = Some [8; 8]) && bool_decide (is_Some (objects s !! 3)) && bool_decide (cache s !! (4, 1%Z) = None))) as (s' & H & T); [row|].
    apply andb_prop in T as [[[T1 T2]%andb_prop T3]%andb_prop T4]. apply bool_decide_eq_true in T1, T2, T3, T4. destruct T3 as [o Ho]. exists s'. split_and!; [done| |done].
    exists 2, 3, o. destruct (blocks s' !! 2) as [[bi bn bo]|]; [|done]. cbn in T1. injection T1 as -> -> ->. split_and!; [reflexivity|exact Ho|exact T2].
Qed.
Lemma val_bound l : Forall (fun c => 48 <= c <= 57) l -> val l < 10 ^ length l.
Proof.
  induction l as [|d l IH] using rev_ind; intros H; [cbn; lia|]. apply Forall_app in H as [H Hd]. apply Forall_cons in Hd as [Hd _]. specialize (IH H).
  rewrite val_snoc, app_length. cbn [length]. replace (length l + 1) with (S (length l)) by lia. rewrite Nat.pow_succ_r'. lia.
Qed.
Lemma dec_length_low n k : 10 ^ k <= n -> k < length (dec n).
Proof.
  intros H. assert (val (dec n) < 10 ^ length (dec n)) as B by (apply val_bound, Forall_forall; intros c Hc; by apply (dec_digits n)). rewrite dec_val in B.
  apply (Nat.pow_lt_mono_r_iff 10); lia.
Qed.
(** C48: lost+found holds a name of 251 bytes and 999 that were derived from it. *)
Definition long : list nat := repeat 120 251.
Definition full : fsck := {|
  names := <[0 := (Blob LOF, 1%Z)]> (map_seq 1 ((fun i => (Blob (candidate long i), 1%Z)) <$> seq 0 1000)); contents := <[0 := Centry 0 3 1]> (map_seq 1 ((fun i => Centry (S i) 4 3) <$> seq 0 1000));
  inodes := inodes fs; blocks := ∅; objects := ∅; xattrs := ∅; links := ∅; store := ∅; cache := ∅; unlinked := ∅; found := false; uncorrectable := false; captured := false; taken := false |}.
Lemma full_in_use i : i < 1000 -> in_use full 3 (candidate long i).
Proof.
  intros Hi. exists (S i), (Centry (S i) 4 3), 1%Z. cbn [contents names full c_parent c_name]. split_and!; [|done|]; (rewrite lookup_insert_ne by lia; rewrite lookup_map_seq_Some; split; [lia|]);
    rewrite list_lookup_fmap, lookup_seq_lt by lia; cbn; by replace (i - 0) with i by lia.
Qed.
Theorem long_name_refuted : exists s n p n', resolve_free s n = Some (p, n') /\ length n <= 255 /\ 255 < length n'.
Proof.
  assert (lost_found full = Some 3) as Hl.
  { unfold lost_found. destruct (entry full ROOT (Blob LOF)) as [[k e]|] eqn:E.
    - apply entry_spec in E as (E1 & E2 & _). cbn [contents full] in E1. apply lookup_insert_Some in E1 as [[<- <-]|[_ E1]]; [done|]. apply lookup_map_seq_Some in E1 as [_ E1].
      rewrite list_lookup_fmap in E1. destruct (seq 0 1000 !! (k - 1)); [|done]. cbn in E1. injection E1 as <-. discriminate.
    - exfalso. apply (entry_none _ _ _ E 0 (Centry 0 3 1)); [|done|]; cbn [contents names full c_name name_of]; [apply lookup_insert|]. unfold name_of. cbn [names full c_name]. by rewrite lookup_insert. }
  destruct (resolve_free_total full long 3 Hl) as [n' H]. exists full, long, 3, n'. split_and!; [done|unfold long; rewrite repeat_length; lia|].
  apply resolve_free_fresh in H as (_ & Hf & j & -> & _). change (shorten long) with long in *. destruct (decide (j < 1000)) as [Hj|Hj]; [by destruct Hf; apply full_in_use|].
  destruct j as [|j]; [lia|]. cbn [candidate]. rewrite !app_length. replace (length long) with 251 by (unfold long; by rewrite repeat_length). cbn [length DASH].
  pose proof (dec_length_low (S j) 3). change (10 ^ 3) with 1000 in *. lia.
Qed.
Example rescued_case : exists n', resolve_free fs (repeat 65 300) = Some (3, n') /\ length n' = 245.
Proof. eexists. split; row. Qed.
(** C49: the root directory in one of its subdirectories; more levels than the recursion limit. In both cases the check ends with an exception. *)
Theorem root_loop_refuted : ~ forall s, references_resolve s -> exists s', check_loops s = Some s'.
Proof.
  intros Q. destruct (Q (set_contents (<[6 := Centry 2 1 5]> (contents fs)) fs)) as [s' H].
  - destruct fs_clean as [[[A1 A2 A3 A4] _ _ _] _ _ _ _ _ _]. split; [|done..]. intros k e He. apply (lookup_insert_Some (contents fs)) in He as [[<- <-]|[_ He]]; [split_and!; member|by apply (A1 k)].
  - assert (check_loops (set_contents (<[6 := Centry 2 1 5]> (contents fs)) fs) = None) as E by row. congruence.
Qed.
Theorem deep_tree_refuted : ~ forall s, clean 10 1000 s -> exists s', @check_loops (small above above_fresh 1) s = Some s'.
Proof. intros Q. destruct (Q fs fs_clean) as [s' H]. assert (@check_loops (small above above_fresh 1) fs = None) as E by row. congruence. Qed.
(** Two directories that contain each other are moved to lost+found, the others stay. *)
Definition loop : fsck := set_inodes (<[8 := Irow Dir 1 0 0]> (<[9 := Irow Dir 1 0 0]> (inodes fs))) (set_contents (<[9 := Centry 2 8 9]> (<[10 := Centry 2 9 8]> (contents fs))) fs).
Example loop_cut : exists s', check_loops loop = Some s' /\ reach s' 8 /\ reach s' 9 /\ contents s' !! 4 = Some (Centry 4 4 5).
Proof.
  destruct (test_true (check_loops loop) (fun s => bool_decide (contents s !! 9 = Some (Centry 2 8 9)) && bool_decide ((c_parent <$> contents s !! 10) = Some 3) && bool_decide (contents s !! 4 = Some (Centry 4 4 5)))) as (s' & H & T); [row|].
  apply andb_prop in T as [[T1 T2]%andb_prop T3]. apply bool_decide_eq_true in T1, T2, T3. destruct (contents s' !! 10) as [e|] eqn:E; [|done]. exists s'. split; [done|]. split_and!; [| |done].
  - assert (reach s' 9); [apply (loops_reachable _ _ H); by exists 9, (Centry 2 8 9)|]. by apply (reach_entry s' 9 (Centry 2 8 9) T1).
  - apply (loops_reachable _ _ H). by exists 9, (Centry 2 8 9).
Qed.
Print Assumptions check_consistent. Print Assumptions check_consistent_input. Print Assumptions check_no_spurious. Print Assumptions check_clean. Print Assumptions check_reports. Print Assumptions second_check.
Print Assumptions check_keeps. Print Assumptions check_places_all. Print Assumptions cached_data_survives. Print Assumptions rescued_name. Print Assumptions rescue_possible.
Print Assumptions loops_reachable. Print Assumptions loops_kept. Print Assumptions check_reachable.
Print Assumptions name_capture_refuted. Print Assumptions attribute_rename_refuted. Print Assumptions attribute_hang_refuted. Print Assumptions lost_found_refuted. Print Assumptions second_check_refuted.
Print Assumptions cache_lost_refuted. Print Assumptions long_name_refuted. Print Assumptions root_loop_refuted. Print Assumptions deep_tree_refuted.
