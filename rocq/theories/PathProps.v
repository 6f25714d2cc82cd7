(** Paths and inodes (C23). *)
From stdpp Require Import prelude.
From Coq.Strings Require Import Byte.
From Verif Require Import Bytes Text PathModel PathSpec PathProofs.

(** Looking up a path walks its components; slashes at its ends do not matter. *)
Theorem path_walks t ns n m : unique t -> ns <> [] -> Forall good_name ns ->
  forall i, inode_for_path (replicate n SLASH ++ written ns ++ replicate m SLASH) t = Ok i <-> leads t ROOT ns i.
Proof.
  intros Hu Hne Hf i. unfold inode_for_path. rewrite strip_written by done. rewrite <- walk_leads by done.
  destruct (walk t ROOT ns); split; try done; by intros [= ->].
Qed.
(** Whatever is found at a path, a sequence of names leads to it, and the path is these names separated by slashes. *)
Theorem path_sound path t i : unique t -> good_names t -> inode_for_path path t = Ok i ->
  exists ns n m, ns <> [] /\ Forall good_name ns /\ path = replicate n SLASH ++ join SLASH ns ++ replicate m SLASH /\ leads t ROOT ns i.
Proof.
  intros Hu Hg. unfold inode_for_path. destruct (walk _ _ _) as [j|] eqn:E; [|done]. intros [= ->].
  apply (walk_leads t _ _ _ Hu) in E. destruct (lstrip_spec SLASH path) as [n Hn]. destruct (rstrip_spec SLASH (lstrip SLASH path)) as [m Hm].
  exists (split SLASH (rstrip SLASH (lstrip SLASH path))), n, m. split; [apply split_not_nil|]. split; [by eapply leads_good|]. split; [|done].
  rewrite join_split, <- Hm. done.
Qed.
(** Looking up the path reported for an inode or for an entry leads back to it. *)
Theorem path_of_inode pick i t path : picks pick -> unique t -> good_names t -> i <> ROOT ->
  get_path pick i t None = Ok path -> inode_for_path path t = Ok i /\ exists ns, path = written ns /\ leads t ROOT ns i.
Proof.
  intros Hp Hu Hg Hi. unfold get_path. destruct (up _ _ _ _ _) as [l| | |] eqn:E; try done. intros [= <-].
  apply (up_leads pick t _ _ _ _ Hp) in E as (ms & -> & Hl & Hne). cbn [app]. rewrite reverse_snoc.
  assert (reverse ms <> []) as Hr. { intros H. apply (f_equal reverse) in H. rewrite reverse_involutive in H. by apply Hne in Hi. }
  assert (join SLASH ([] :: reverse ms) = written (reverse ms)) as ->. { rewrite written_join by done. by destruct (reverse ms). }
  split; [|by exists (reverse ms)]. pose proof (path_walks t (reverse ms) 0 0 Hu Hr (leads_good _ _ _ _ Hg Hl) i) as [_ H]. cbn in H. rewrite app_nil_r in H. by apply H.
Qed.
Theorem path_of_entry pick p n i t path : picks pick -> unique t -> good_names t -> (p, n, i) ∈ t ->
  get_path pick p t (Some n) = Ok path -> inode_for_path path t = Ok i /\ exists ns, path = written (ns ++ [n]) /\ leads t ROOT ns p.
Proof.
  intros Hp Hu Hg Hin. unfold get_path. destruct (up _ _ _ _ _) as [l| | |] eqn:E; try done. intros [= <-].
  apply (up_leads pick t _ _ _ _ Hp) in E as (ms & -> & Hl & _). rewrite reverse_snoc. cbn [app]. rewrite reverse_cons.
  assert (reverse ms ++ [n] <> []) as Hr by (by destruct (reverse ms)).
  assert (join SLASH ([] :: reverse ms ++ [n]) = written (reverse ms ++ [n])) as ->. { rewrite written_join by done. by destruct (reverse ms ++ [n]). }
  split; [|by exists (reverse ms)]. pose proof (leads_snoc _ _ _ _ _ _ Hl Hin) as Hl'.
  pose proof (path_walks t _ 0 0 Hu Hr (leads_good _ _ _ _ Hg Hl') i) as [_ H]. cbn in H. rewrite app_nil_r in H. by apply H.
Qed.
(** A path is reported for every inode that is at most 254 levels below the root. *)
Theorem path_found pick i t name : picks pick -> within t i 254 -> exists path, get_path pick i t name = Ok path.
Proof.
  intros Hp Hw. unfold get_path. destruct (up_total pick t 254 i (match name with None => [] | Some n => [n] end) Hp Hw) as [l ->]. by eexists.
Qed.
(** Not for deeper ones, although the file system allows them. *)
Definition chain (n : nat) : rows := (fun k => (S k, ["a"%byte], S (S k))) <$> seq 0 n.
Definition first (t : rows) (i : nat) : option (bytes * nat) := (fun x : nat * bytes * nat => (x.1.2, x.1.1)) <$> head (filter (fun x : nat * bytes * nat => x.2 = i) t).
Lemma first_picks : picks first.
Proof.
  intros t i. unfold first. destruct (filter _ t) as [|[[p n] j] l] eqn:E; cbn.
  - intros p n Hin. assert ((p, n, i) ∈ filter (fun x : nat * bytes * nat => x.2 = i) t) as H by (by apply elem_of_list_filter). rewrite E in H. by apply elem_of_nil in H.
  - assert ((p, n, j) ∈ filter (fun x : nat * bytes * nat => x.2 = i) t) as H by (rewrite E; left). apply elem_of_list_filter in H as [H1 H2]. cbn in H1. by subst.
Qed.
Lemma chain_elem n p m i : (p, m, i) ∈ chain n <-> m = ["a"%byte] /\ i = S p /\ (1 <= p <= n)%nat.
Proof.
  unfold chain. rewrite elem_of_list_fmap. setoid_rewrite elem_of_seq. split.
  - intros (k & [= -> -> ->] & ?). split; [done|]. split; [done|lia].
  - intros (-> & -> & ?). exists (p - 1)%nat. split; [|lia]. by replace (S (p - 1)) with p by lia.
Qed.
Lemma chain_up pick n i path : picks pick -> i = S (S n) -> (n < 255)%nat -> up pick (chain 255) n i path = RuntimeError.
Proof.
  intros Hp. revert i path. induction n as [|n IH]; intros i path -> Hn; pose proof (fun j => Hp (chain 255) j) as H.
  - specialize (H 2%nat). cbn -[chain]. destruct (pick (chain 255) 2%nat) as [[m p]|]; [done|]. exfalso. apply (H 1%nat ["a"%byte]). apply chain_elem. split; [done|]. lia.
  - specialize (H (S (S (S n)))). cbn -[chain]. destruct (pick (chain 255) (S (S (S n)))) as [[m p]|].
    + apply chain_elem in H as (_ & [= <-] & _). apply IH; [done|lia].
    + exfalso. apply (H (S (S n)) ["a"%byte]). apply chain_elem. split; [done|]. lia.
Qed.
Lemma chain_leads n k m : (1 <= k)%nat -> (k + m <= S n)%nat -> leads (chain n) k (replicate m ["a"%byte]) (k + m).
Proof.
  revert k. induction m as [|m IH]; intros k Hk Hm; cbn; [rewrite Nat.add_0_r; constructor|].
  econstructor; [apply chain_elem; split; [done|]; split; [done|lia]|]. replace (k + S m)%nat with (S k + m)%nat by lia. apply IH; lia.
Qed.
Lemma chain_good n : unique (chain n) /\ good_names (chain n).
Proof.
  split.
  - intros p m i j (_ & -> & _)%chain_elem (_ & -> & _)%chain_elem. done.
  - intros p m i (-> & _)%chain_elem. split; [done|]. by rewrite elem_of_list_singleton.
Qed.
Theorem deep_path_refuted : exists t i ns, unique t /\ good_names t /\ leads t ROOT ns i /\ inode_for_path (written ns) t = Ok i /\
  forall pick, picks pick -> get_path pick i t None = RuntimeError.
Proof.
  exists (chain 255), 256%nat, (replicate 255 ["a"%byte]). destruct (chain_good 255) as [Hu Hg]. split; [done|]. split; [done|].
  assert (leads (chain 255) ROOT (replicate 255 ["a"%byte]) 256) as Hl by (apply (chain_leads 255 1 255); lia). split; [done|].
  split. { pose proof (path_walks (chain 255) (replicate 255 ["a"%byte]) 0 0 Hu ltac:(done) (leads_good _ _ _ _ Hg Hl) 256) as [_ H]. cbn [replicate app] in H. rewrite app_nil_r in H. by apply H. }
  intros pick Hp. unfold get_path. rewrite (chain_up pick 254 256 [] Hp eq_refl) by lia. done.
Qed.
(** The path of the root directory is not found: it is split into one empty name. *)
Theorem root_path_refuted pick : get_path pick ROOT [] None = Ok [] /\ forall t n, good_names t -> inode_for_path (replicate n SLASH) t = KeyError.
Proof.
  split; [done|]. intros t n Hg. unfold inode_for_path. rewrite <- (app_nil_r (replicate n SLASH)), lstrip_sep. cbn.
  destruct (entry t ROOT []) as [i|] eqn:E; [|done]. apply entry_Some, Hg in E. by destruct E.
Qed.

(** * Example *)
(** /d (2) with the file d/f (3), which has the second name /g. *)
Definition tree : rows := [(1, ["d"%byte], 2); (2, ["f"%byte], 3); (1, ["g"%byte], 3)].
Example tree_good : unique tree /\ good_names tree /\ within tree 3 254.
Proof.
  split; [|split].
  - intros p n i j. unfold tree. rewrite !elem_of_cons, !elem_of_nil. naive_solver.
  - intros p n i. unfold tree. rewrite !elem_of_cons, !elem_of_nil. intros H. split; [naive_solver|].
    destruct H as [[= -> -> ->]|[[= -> -> ->]|[[= -> -> ->]|[]]]]; by rewrite elem_of_list_singleton.
  - constructor; [exists 2, ["f"%byte]; unfold tree; rewrite !elem_of_cons; naive_solver|]. intros p n. unfold tree. rewrite !elem_of_cons, !elem_of_nil.
    intros [[= ]|[[= -> ->]|[[= -> ->]|[]]]]; [|constructor]. constructor; [exists 1, ["d"%byte]; left|].
    intros p n. rewrite !elem_of_cons, !elem_of_nil. intros [[= -> ->]|[[= ]|[[= ]|[]]]]. constructor.
Qed.
Example tree_paths : get_path first 3 tree None = Ok [SLASH; "d"%byte; SLASH; "f"%byte] /\ inode_for_path [SLASH; "d"%byte; SLASH; "f"%byte] tree = Ok 3 /\
  inode_for_path ["g"%byte; SLASH; SLASH] tree = Ok 3 /\ inode_for_path ["d"%byte; SLASH; SLASH; "f"%byte] tree = KeyError.
Proof. done. Qed.

Print Assumptions path_walks.
Print Assumptions path_sound.
Print Assumptions path_of_inode.
Print Assumptions path_of_entry.
Print Assumptions path_found.
Print Assumptions deep_path_refuted.
Print Assumptions root_path_refuted.
