(** Bounds of threads, cache entries and file system statistics (C56). *)
From stdpp Require Import prelude list.
From Coq Require Import ZArith.
From Verif Require Import LimitsModel.
Local Open Scope Z_scope.

(** * Threads *)
Lemma lzma_memory_pos level m : lzma_memory level = Some m -> 0 < m.
Proof. unfold lzma_memory. intros H. repeat match goal with H : context [match ?p with _ => _ end] |- _ => destruct p end; simplify_eq; done. Qed.
(** A number of threads is determined for every compression that can be given; it is between one and ten. *)
Theorem threads_bounds cores memory compress : (cores = -1 \/ 1 <= cores) -> (forall a level, compress = Some (a, level) -> 0 <= level <= 9) ->
  exists n, determine_threads cores memory compress = Some n /\ 1 <= n <= 10.
Proof.
  intros Hc Hl. unfold determine_threads. destruct (mem_per_thread compress) as [m|] eqn:E.
  - cbn [mbind option_bind]. case_decide; [exists 2; split; [done|lia]|]. case_decide; [exists 2; split; [done|lia]|]. case_decide; [|eexists; split; [done|lia]]. cbn zeta. case_decide; eexists; (split; [done|lia]).
  - exfalso. destruct compress as [[a level]|]; [|done]. specialize (Hl a level eq_refl). destruct a; try done. cbn in E.
    assert (level = 0 \/ level = 1 \/ level = 2 \/ level = 3 \/ level = 4 \/ level = 5 \/ level = 6 \/ level = 7 \/ level = 8 \/ level = 9) as Hlv by lia. repeat destruct Hlv as [-> |Hlv]; try done. by subst.
Qed.
(** With known memory, more than one thread is only used if all of them together need at most half of it. *)
Theorem threads_memory cores memory compress n m : determine_threads cores memory compress = Some n -> mem_per_thread compress = Some m -> 1 <= cores -> memory <> -1 -> n <= 1 \/ 2 * (n * m) <= memory \/ m = 0.
Proof.
  intros H Hm Hc Hmem. unfold determine_threads in H. rewrite Hm in H. cbn [mbind option_bind] in H. rewrite decide_False in H by lia. rewrite decide_False in H by lia.
  assert (0 <= m) as Hm0. { destruct compress as [[[] level]|]; cbn in Hm; try (injection Hm as <-; lia). destruct (lzma_memory level) as [k|] eqn:E; [|done]. apply lzma_memory_pos in E. cbn in Hm. injection Hm as <-. lia. }
  destruct (decide (0 < m /\ 2 * (2 * cores * m) > memory)) as [[Hp Hgt]|D].
  - revert H. cbn zeta. case_decide as Dt; intros [= <-]; [|left; lia]. right; left. pose proof (Z.mul_div_le memory (2 * m)) as Hd. assert (Z.min (memory / (2 * m)) 10 * (2 * m) <= memory / (2 * m) * (2 * m)) as Hle by (apply Z.mul_le_mono_nonneg_r; lia). lia.
  - injection H as <-. destruct (decide (m = 0)) as [->|N]; [by right; right|]. right; left. assert (2 * (2 * cores * m) <= memory) as Hle by (apply Z.nlt_ge; intros ?; apply D; lia). assert (Z.min (2 * cores) 10 * m <= 2 * cores * m) by (apply Z.mul_le_mono_nonneg_r; lia). lia.
Qed.
(** At most two threads per core *)
Theorem threads_cores cores memory compress n : determine_threads cores memory compress = Some n -> 1 <= cores -> n <= 2 * cores.
Proof.
  unfold determine_threads. destruct (mem_per_thread compress) as [m|] eqn:E; [|done]. cbn [mbind option_bind]. intros H Hc. rewrite decide_False in H by lia. destruct (decide (memory = -1 /\ m <> 0)); [injection H as <-; lia|].
  destruct (decide (0 < m /\ 2 * (2 * cores * m) > memory)) as [[Hp Hgt]|D]; [|injection H as <-; lia]. revert H. cbn zeta. case_decide; intros [= <-]; [|lia].
  assert (memory / (2 * m) <= 2 * cores); [|lia]. apply Z.lt_succ_r. apply Z.div_lt_upper_bound; lia.
Qed.
(** Should the operating system report no core, there is no thread. *)
Theorem threads_no_core_refuted : determine_threads 0 (2 ^ 34) (Some (LZMA, 6)) = Some 0.
Proof. vm_compute. reflexivity. Qed.

(** * Cache entries *)
(** Never more than there are descriptors, after those needed for the connections; at most what was requested. *)
Theorem cache_entries_bound hard requested conns n : max_cache_entries hard requested conns = Some n ->
  n + 3 * conns + 32 <= default 4096 hard /\ (forall k, requested = Some k -> n <= k) /\ (requested = None -> 64 < n).
Proof. unfold max_cache_entries, avail_fd. destruct requested as [k|]; cbn zeta; case_decide; intros [= <-]; (split; [lia|split; [|done || lia]]); intros ?; try done; intros [= <-]; lia. Qed.
(** The number is positive if and only if a positive number was requested and there are enough descriptors. *)
Theorem cache_entries_positive hard k conns : (exists n, max_cache_entries hard (Some k) conns = Some n /\ 0 < n) <-> 0 < k /\ 32 + 3 * conns < default 4096 hard.
Proof. unfold max_cache_entries, avail_fd. cbn zeta. case_decide; (split; [intros (n & [= <-] & Hn); lia|intros [? ?]; eexists; split; [done|lia]]). Qed.
(** With an explicit number of entries, no check is made: with 256 descriptors and 100 connections the cache has room for -76 entries. *)
Theorem cache_entries_refuted : max_cache_entries (Some 256) (Some 1000) 100 = Some (-76) /\ max_cache_entries (Some 256) None 100 = None /\ max_cache_entries None (Some (-5)) 32 = Some (-5).
Proof. vm_compute. done. Qed.

(** * statfs *)
(** What the database can return *)
Definition counts_ok (c : counts) : Prop := 0 <= n_objects c /\ 0 <= n_inodes c /\ 0 <= total c /\ (n_objects c = 0 -> total c = 0).
Theorem statfs_consistent c : counts_ok c -> let s := statvfs_of c in
  4096 <= f_frsize s /\ f_bsize s = f_frsize s /\
  (* free <= total, at least half is free *)
  0 <= f_bavail s <= f_bfree s /\ f_bfree s <= f_blocks s /\ f_blocks s - f_bfree s <= f_bfree s + 1 /\
  (* used and free blocks are all blocks: what is used is the amount of data, rounded to a block *)
  total c - f_frsize s < (f_blocks s - f_bfree s) * f_frsize s < total c + f_frsize s /\
  (* at least 1 TiB, except for an incomplete last block *)
  1024 ^ 4 - f_frsize s < f_blocks s * f_frsize s /\
  (* inodes: exact *)
  f_files s - f_ffree s = n_inodes c /\ 0 <= f_favail s <= f_ffree s /\ f_ffree s <= f_files s /\ n_inodes c <= f_ffree s.
Proof.
  intros (Ho & Hi & Ht & Hz) s. unfold s, statvfs_of; cbn [f_frsize f_bsize f_blocks f_bfree f_bavail f_files f_ffree f_favail].
  set (fr := if decide (n_objects c = 0) then 4096 else Z.max 4096 (total c / n_objects c)). assert (4096 <= fr) as Hfr by (unfold fr; case_decide; lia).
  set (fs := Z.max (2 * total c) (1024 ^ 4)). assert (2 * total c <= fs /\ 1024 ^ 4 <= fs) as [Hfs1 Hfs2] by (unfold fs; lia). clearbody fr fs.
  pose proof (Z.div_mod fs fr) as E1. pose proof (Z.mod_pos_bound fs fr) as B1. pose proof (Z.div_mod (fs - total c) fr) as E2. pose proof (Z.mod_pos_bound (fs - total c) fr) as B2.
  assert ((fs - total c) / fr <= fs / fr) as L1 by (apply Z.div_le_mono; lia). assert (0 <= (fs - total c) / fr) as L2 by (apply Z.div_pos; lia).
  set (a := fs / fr) in *. set (b := (fs - total c) / fr) in *. clearbody a b.
  assert (fr * a - fr * b = (a - b) * fr) as E3 by lia. assert (a - b <= b + 1) as L3.
  { destruct (Z.le_gt_cases (a - b) (b + 1)) as [|G]; [done|exfalso]. assert (fr * (2 * b + 2) <= fr * a) as G2 by (apply Z.mul_le_mono_nonneg_l; lia). lia. }
  split_and!; lia.
Qed.
(** Every answer is about a state of the database at a call less than 30 seconds ago, if the clock does not go back. *)
Theorem statfs_recent thirty calls : 0 < thirty -> (forall i j a b, (i <= j)%nat -> calls.*1 !! i = Some a -> calls.*1 !! j = Some b -> a <= b) ->
  forall j s, statfs_calls thirty calls None !! j = Some s -> exists i ti tj db, (i <= j)%nat /\ calls !! i = Some (ti, db) /\ calls.*1 !! j = Some tj /\ tj - ti < thirty /\ s = statvfs_of db.
Proof.
  intros Hth Hmono j s.
  assert (forall done calls cache, (forall c t, cache = Some (c, t) -> exists i, (done ++ calls) !! i = Some (t, c) /\ (i < length done)%nat) ->
    forall j s, statfs_calls thirty calls cache !! j = Some s -> exists i ti tj db, (i <= length done + j)%nat /\ (done ++ calls) !! i = Some (ti, db) /\ (done ++ calls).*1 !! (length done + j)%nat = Some tj /\ tj - ti < thirty /\ s = statvfs_of db) as K.
  { clear j s calls Hmono. intros dn calls. revert dn. induction calls as [|[now db] calls IH]; intros dn cache Hcache j s; [done|]. cbn [statfs_calls]. destruct (statfs thirty now db cache) as [r cache'] eqn:E.
    assert (exists i ti db', (i <= length dn)%nat /\ (dn ++ (now, db) :: calls) !! i = Some (ti, db') /\ now - ti < thirty /\ r = statvfs_of db' /\ cache' = Some (db', ti)) as (i & ti & db' & H1 & H2 & H3 & H4 & H5).
    { unfold statfs in E. destruct cache as [[c t]|]; [case_decide|]; injection E as <- <-.
      - destruct (Hcache c t eq_refl) as (i & Hi & Hlt). exists i, t, c. split_and!; [lia|done|done|done|done].
      - exists (length dn), now, db. split_and!; [lia|by rewrite list_lookup_middle|lia|done|done].
      - exists (length dn), now, db. split_and!; [lia|by rewrite list_lookup_middle|lia|done|done]. }
    destruct j as [|j]; cbn.
    - intros [= <-]. exists i, ti, now, db'. split_and!; [lia|done| |done|done]. rewrite fmap_app, Nat.add_0_r. cbn. apply list_lookup_middle. by rewrite fmap_length.
    - intros Hs. replace (dn ++ (now, db) :: calls) with ((dn ++ [(now, db)]) ++ calls) by (by rewrite <- app_assoc).
      replace (length dn + S j)%nat with (length (dn ++ [(now, db)]) + j)%nat by (rewrite app_length; cbn; lia). eapply IH; [|exact Hs].
      intros c t Hc. rewrite H5 in Hc. injection Hc as <- <-. exists i. split; [by rewrite <- app_assoc|]. rewrite app_length. cbn. lia. }
  intros Hs. apply (K [] calls None) in Hs; [done|done].
Qed.
(** If the clock is set back, old answers are given for as long as it takes to catch up: here, an hour later. *)
Theorem statfs_stale_refuted : statfs_calls 30 [(3600, Counts 0 2 0); (30, Counts 0 3 0)] None = [statvfs_of (Counts 0 2 0); statvfs_of (Counts 0 2 0)] /\ f_ffree (statvfs_of (Counts 0 2 0)) <> f_ffree (statvfs_of (Counts 0 3 0)).
Proof. split; [vm_compute; reflexivity|vm_compute; done]. Qed.

(** * extstat *)
Lemma sql_sum_ok l : forall acc n, sql_sum acc l = Some n -> n = acc + foldr Z.add 0 l.
Proof. induction l as [|x l IH]; intros acc n; cbn; [intros [= <-]; lia|]. case_decide; [|done]. intros E. apply IH in E. lia. Qed.
Lemma sql_sum_total l : forall acc, 0 <= acc -> Forall (fun x => 0 <= x) l -> acc + foldr Z.add 0 l < 2 ^ 63 -> sql_sum acc l = Some (acc + foldr Z.add 0 l).
Proof.
  induction l as [|x l IH]; intros acc Ha Hl Hs; cbn; [by rewrite Z.add_0_r|]. apply Forall_cons in Hl as [Hx Hl]. cbn in Hs.
  assert (0 <= foldr Z.add 0 l) by (clear -Hl; induction Hl; cbn; lia). rewrite decide_True by lia. rewrite IH by (done || lia). f_equal. lia.
Qed.
(** The reported sizes are the sums: sparse parts of files count, objects that are being uploaded do not count as compressed data. *)
Theorem extstat_exact inodes objects : Forall (fun x => 0 <= x) inodes -> Forall (fun x => 0 <= x.1 /\ (0 <= x.2 \/ x.2 = -1)) objects ->
  foldr Z.add 0 inodes < 2 ^ 63 -> foldr Z.add 0 objects.*1 < 2 ^ 63 -> foldr Z.add 0 (filter (fun x => 0 < x) objects.*2) < 2 ^ 63 ->
  extstat_sizes inodes objects = Some (foldr Z.add 0 inodes, foldr Z.add 0 objects.*1, foldr (fun x acc => if decide (x.2 = -1) then acc else x.2 + acc) 0 objects).
Proof.
  intros Hi Ho H1 H2 H3. assert (Forall (fun x => 0 <= x) objects.*1) as Ho1 by (clear -Ho; induction Ho as [|x l Hx0 _ IH]; cbn; constructor; [apply Hx0|done]).
  assert (Forall (fun x => 0 <= x) (filter (fun x => 0 < x) objects.*2)) as Ho2 by (apply Forall_forall; intros x [? _]%elem_of_list_filter; lia).
  assert (forall l, Forall (fun x => 0 <= x) l -> 0 <= foldr Z.add 0 l) as P by (intros l Hl; induction Hl as [|? ? ? ? IHl]; cbn; lia).
  unfold extstat_sizes. rewrite (sql_sum_total inodes) by (done || lia). cbn [mbind option_bind]. rewrite (sql_sum_total objects.*1) by (done || lia). cbn [mbind option_bind]. rewrite sql_sum_total by (done || lia). cbn [mbind option_bind].
  rewrite decide_True by (split_and!; [apply P in Hi; lia|apply P in Ho1; lia|apply P in Ho2; lia]). rewrite !Z.add_0_l. do 2 f_equal. clear -Ho.
  induction Ho as [|[l p] objects [_ Hp] _ IH]; [done|]. cbn [fmap list_fmap snd foldr]. cbn in Hp. rewrite filter_cons. destruct (decide (p = -1)) as [-> |N]; [by rewrite decide_False by lia|].
  case_decide; [cbn; by rewrite IH|]. rewrite IH. lia.
Qed.
(** Two sparse files of 4 EiB each suffice to make the statistics unavailable. *)
Theorem extstat_overflow_refuted : extstat_sizes [0; 0; 2 ^ 62; 2 ^ 62] [(10, 7)] = None.
Proof. vm_compute. reflexivity. Qed.

(** * Examples *)
Example threads_sample : determine_threads 4 (2 ^ 33) (Some (LZMA, 6)) = Some 8 /\ determine_threads 16 (2 ^ 30) (Some (LZMA, 6)) = Some 5 /\ determine_threads 1 (2 ^ 26) (Some (LZMA, 9)) = Some 1 /\ determine_threads (-1) 0 None = Some 2.
Proof. vm_compute. done. Qed.
Example cache_entries_sample : max_cache_entries (Some 1024) None 32 = Some 896 /\ max_cache_entries (Some 1024) (Some 2000) 32 = Some 896 /\ max_cache_entries (Some 1024) (Some 100) 32 = Some 100.
Proof. vm_compute. done. Qed.
Example statfs_sample : counts_ok (Counts 3 10 30000) /\ statvfs_of (Counts 3 10 30000) = Statvfs 10000 10000 109951162 109951159 109951159 1000000 999990 999990.
Proof. split; [unfold counts_ok; cbn; lia|vm_compute; reflexivity]. Qed.
Example extstat_sample : extstat_sizes [0; 4096; 1000000] [(4096, 1000); (1000, -1)] = Some (1004096, 5096, 1000).
Proof. vm_compute. reflexivity. Qed.

Print Assumptions threads_bounds.
Print Assumptions threads_memory.
Print Assumptions threads_cores.
Print Assumptions threads_no_core_refuted.
Print Assumptions cache_entries_bound.
Print Assumptions cache_entries_positive.
Print Assumptions cache_entries_refuted.
Print Assumptions statfs_consistent.
Print Assumptions statfs_recent.
Print Assumptions statfs_stale_refuted.
Print Assumptions extstat_exact.
Print Assumptions extstat_overflow_refuted.
