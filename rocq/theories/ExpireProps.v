(** Expiration of backups (C51). *)
From stdpp Require Import prelude list sorting.
From Coq Require Import ZArith.
From Verif Require Import ExpireModel ExpireSpec.
Local Open Scope Z_scope.

(** * Dictionaries *)
Lemma dset_keys {K} `{EqDecision K} (k : K) v d k' v' : (k', v') ∈ dset k v d -> (k', v') = (k, v) \/ (k', v') ∈ d.
Proof.
  induction d as [|[k0 v0] d IH]; cbn; [intros H; apply elem_of_list_singleton in H; by left|]. case_decide as D.
  - intros [H|H]%elem_of_cons; [by left|right; by right].
  - intros [H|H]%elem_of_cons; [right; rewrite H; left|]. destruct (IH H) as [E|E]; [by left|right; by right].
Qed.
Lemma dset_here {K} `{EqDecision K} (k : K) v d : (k, v) ∈ dset k v d.
Proof. induction d as [|[k0 v0] d IH]; cbn; [left|]. case_decide; [left|by right]. Qed.
Lemma dset_other {K} `{EqDecision K} (k : K) v d k' v' : (k', v') ∈ d -> k' <> k -> (k', v') ∈ dset k v d.
Proof. intros H N. induction d as [|[k0 v0] d IH]; cbn; [by apply elem_of_nil in H|]. apply elem_of_cons in H as [[= <- <-]|H]; case_decide; try done; [left|by right|right; by apply IH]. Qed.
Lemma dset_new {K} `{EqDecision K} (k : K) v d : k ∉ d.*1 -> dset k v d = d ++ [(k, v)].
Proof. induction d as [|[k0 v0] d IH]; cbn; [done|]. intros [N1 N2]%not_elem_of_cons. rewrite decide_False by done. by rewrite IH. Qed.
Lemma older_elem {K} n (d : list (K * Z)) k v : (k, v) ∈ older n d <-> (k, v - n) ∈ d.
Proof.
  unfold older. rewrite elem_of_list_fmap. split.
  - intros ([k' v'] & [= -> ->] & H). cbn. by replace (v' + n - n) with v' by lia.
  - intros H. exists (k, v - n). cbn. split; [f_equal; lia|done].
Qed.
Lemma in_range_iff r age : in_range r age = true <-> r.1 <= age < r.2.
Proof. unfold in_range. rewrite andb_true_iff, Z.leb_le, Z.ltb_lt. done. Qed.
Lemma ranges_from_iff lo0 cycles lo hi : (lo, hi) ∈ ranges_from lo0 cycles <-> (lo = lo0 /\ head cycles = Some hi) \/ exists i, cycles !! i = Some lo /\ cycles !! S i = Some hi.
Proof.
  revert lo0. induction cycles as [|c cycles IH]; intros lo0; cbn; [split; [intros H; by apply elem_of_nil in H|intros [[_ ?]|(i & ? & _)]; done]|]. rewrite elem_of_cons, IH. split.
  - intros [[= -> ->]|[[-> H]|(i & H1 & H2)]]; [left; done|right; exists 0%nat; by destruct cycles|right; by exists (S i)].
  - intros [[-> [= ->]]|(i & H1 & H2)]; [by left|right]. destruct i as [|i]; [left|right; by exists i]. injection H1 as ->. split; [done|]. by destruct cycles.
Qed.
Lemma ranges_iff cycles lo hi : (lo, hi) ∈ ranges cycles <-> age_range cycles lo hi.
Proof. apply ranges_from_iff. Qed.

(** * The simulation *)
(** After some steps: the simulated backups are hypothetical ones with the ages 0 to step - 1, and real ones that are kept; all kept ones are simulated. *)
Definition sim_ok (state : list (Z * Z)) (step : Z) (x : list (sim_key * Z) * list Z) : Prop :=
  (forall k age, (inl k, age) ∈ x.1 -> 0 <= age < step) /\
  (forall b age, (inr b, age) ∈ x.1 -> b ∈ x.2 /\ (b, age - step) ∈ state) /\
  (forall b, b ∈ x.2 -> exists age, (b, age) ∈ state).
Lemma look_ok state step x r : sim_ok state step x -> sim_ok state step (look state step x r).
Proof.
  destruct x as [sim keep]. intros (H1 & H2 & H3). cbn. destruct (existsb _ sim); [done|]. destruct (List.find _ state) as [[b age]|] eqn:E; [|done]. apply List.find_some in E as [Hin _]. apply elem_of_list_In in Hin. split; [|split]; cbn.
  - intros k v [[= ? ?]|H]%dset_keys. by eapply H1.
  - intros b' v [[= -> ->]|H]%dset_keys; [split; [left|by replace (age + step - step) with age by lia]|]. apply H2 in H as [? ?]. split; [by right|done].
  - intros b' [-> |H]%elem_of_cons; [by exists age|by apply H3].
Qed.
Lemma look_keep state step x r b : b ∈ x.2 -> b ∈ (look state step x r).2.
Proof. destruct x as [sim keep]. cbn. destruct (existsb _ sim); [done|]. destruct (List.find _ state) as [[? ?]|]; [|done]. by right. Qed.
Lemma looks_keep state step rs : forall x b, b ∈ x.2 -> b ∈ (foldl (look state step) x rs).2.
Proof. induction rs as [|r rs IH]; intros x b H; [done|]. cbn. apply IH. by apply look_keep. Qed.
Lemma looks_ok state step rs : forall x, sim_ok state step x -> sim_ok state step (foldl (look state step) x rs).
Proof. induction rs as [|r rs IH]; intros x H; [done|]. cbn. apply IH. by apply look_ok. Qed.
Lemma look_covers state step x r : sim_ok state step x -> (exists b age, (b, age) ∈ state /\ r.1 <= age + step < r.2) ->
  (exists b age, b ∈ (look state step x r).2 /\ (b, age) ∈ state /\ r.1 <= age + step < r.2) \/ exists age, 0 <= age < step /\ r.1 <= age < r.2.
Proof.
  destruct x as [sim keep]. intros (H1 & H2 & H3) (b0 & age0 & Hin0 & Hr0). cbn. destruct (existsb _ sim) eqn:E.
  - apply existsb_exists in E as ([k age] & Hin & Hr). apply elem_of_list_In in Hin. apply in_range_iff in Hr. cbn in Hr. destruct k as [k|b].
    + right. exists age. split; [by eapply H1|done].
    + left. destruct (H2 _ _ Hin) as [? ?]. exists b, (age - step). split; [done|]. split; [done|]. lia.
  - destruct (List.find _ state) as [[b age]|] eqn:Ef.
    + apply List.find_some in Ef as [Hin Hr]. apply elem_of_list_In in Hin. apply in_range_iff in Hr. cbn in Hr. left. exists b, age. split; [left|done].
    + exfalso. apply elem_of_list_In in Hin0. pose proof (List.find_none _ _ Ef _ Hin0) as Hn. cbn in Hn. apply not_true_iff_false in Hn. apply Hn. by apply in_range_iff.
Qed.
Lemma looks_cover state step rs r : r ∈ rs -> forall x, sim_ok state step x -> (exists b age, (b, age) ∈ state /\ r.1 <= age + step < r.2) ->
  (exists b age, b ∈ (foldl (look state step) x rs).2 /\ (b, age) ∈ state /\ r.1 <= age + step < r.2) \/ exists age, 0 <= age < step /\ r.1 <= age < r.2.
Proof.
  induction 1 as [r rs|r r' rs Hr IH]; intros x Hx He; cbn.
  - destruct (look_covers _ _ _ _ Hx He) as [(b & age & H1 & H2)|?]; [left|by right]. exists b, age. split; [by apply looks_keep|done].
  - apply IH; [by apply look_ok|done].
Qed.
Lemma sim_step_ok state rs x step : 0 <= step -> sim_ok state (step - 1) x -> (step = 0 -> x.1 = []) -> sim_ok state step (sim_step state rs x step).
Proof.
  intros Hp (H1 & H2 & H3) Hz. unfold sim_step. apply looks_ok. split; [|split]; cbn; [| |done].
  - intros k age H. case_decide as D; [|apply dset_keys in H as [[= -> ->]|H]; [lia|]]; apply older_elem in H; [rewrite (Hz D) in H; by apply elem_of_nil in H|]. apply H1 in H. lia.
  - intros b age H. case_decide as D; [|apply dset_keys in H as [?|H]; [done|]]; apply older_elem in H; [rewrite (Hz D) in H; by apply elem_of_nil in H|]. apply H2 in H as [? H]. split; [done|]. by replace (age - step) with (age - 1 - (step - 1)) by lia.
Qed.
Lemma sim_step_keep state rs x step b : b ∈ x.2 -> b ∈ (sim_step state rs x step).2.
Proof. intros H. unfold sim_step. by apply looks_keep. Qed.
Lemma simulate_S state cycles n : simulate state cycles (S n) = sim_step state (ranges cycles) (simulate state cycles n) (Z.of_nat n).
Proof. unfold simulate. rewrite seq_S, fmap_app, foldl_app. done. Qed.
Lemma simulate_ok state cycles n : sim_ok state (Z.of_nat n - 1) (simulate state cycles n).
Proof.
  induction n as [|n IH]; [split; [|split]; cbn; intros ? *; try (intros H; by apply elem_of_nil in H)|].
  rewrite simulate_S. replace (Z.of_nat (S n) - 1) with (Z.of_nat n) by lia. apply sim_step_ok; [lia|done|]. destruct n; [done|lia].
Qed.
Lemma simulate_keep state cycles n m b : (n <= m)%nat -> b ∈ (simulate state cycles n).2 -> b ∈ (simulate state cycles m).2.
Proof. induction 1 as [|m Hm IH]; [done|]. intros H. rewrite simulate_S. apply sim_step_keep. by apply IH. Qed.
Lemma simulate_covers state cycles n t r : r ∈ ranges cycles -> 0 <= t < Z.of_nat n -> (exists b age, (b, age) ∈ state /\ r.1 <= age + t < r.2) ->
  (exists b age, b ∈ (simulate state cycles n).2 /\ (b, age) ∈ state /\ r.1 <= age + t < r.2) \/ exists age, 0 <= age < t /\ r.1 <= age < r.2.
Proof.
  intros Hr Ht He. assert (exists k, t = Z.of_nat k /\ (S k <= n)%nat) as (k & -> & Hk) by (exists (Z.to_nat t); lia).
  pose proof (sim_step_ok state (ranges cycles) (simulate state cycles k) (Z.of_nat k)) as Hok.
  assert (exists x, sim_ok state (Z.of_nat k) x /\ (simulate state cycles (S k)) = foldl (look state (Z.of_nat k)) x (ranges cycles)) as (x & Hx & E).
  { rewrite simulate_S. unfold sim_step. eexists. split; [|reflexivity].
    pose proof (sim_step_ok state [] (simulate state cycles k) (Z.of_nat k)) as H. apply H; [lia|apply simulate_ok|]. destruct k; [done|lia]. }
  destruct (looks_cover state (Z.of_nat k) (ranges cycles) r Hr x Hx He) as [(b & age & H1 & H2)|?]; [|by right]. left. exists b, age. split; [|done]. apply (simulate_keep _ _ (S k)); [done|]. by rewrite E.
Qed.
Lemma max_of_ge l c : c ∈ l -> c <= max_of l.
Proof. unfold max_of. generalize (hd 0 l). intros d. induction 1 as [c l|c x l H IH]; cbn; lia. Qed.
Lemma range_le_max cycles lo hi : (lo, hi) ∈ ranges cycles -> hi <= max_of cycles.
Proof.
  intros H. apply max_of_ge. apply ranges_iff in H as [[_ H]|(i & _ & H)]; [destruct cycles; [done|injection H as ->; left]|]. by eapply elem_of_list_lookup_2.
Qed.

(** * Theorems *)
(** The state in which process_backups decides: [state] without missing and with new backups *)
Notation seen backups state := (drop_missing backups (add_new backups state)).
(** Removing backups never makes an age range empty, now or after any number of further backups: it has a backup if it would have one had nothing been removed. *)
Theorem expire_lossless backups state cycles state' del t lo hi : process_backups backups state cycles = Some (state', del) -> (forall x age, (x, age) ∈ seen backups state -> 0 <= age) ->
  age_range cycles lo hi -> 0 <= t -> covered state' t lo hi <-> covered (seen backups state) t lo hi.
Proof.
  unfold process_backups. case_decide; [done|]. intros [= <- <-] Hpos Hr Ht. set (st := seen backups state) in *. split.
  - intros [(x & age & [_ Hx]%elem_of_list_filter & ?)|?]; [left; by exists x, age|by right].
  - intros [(x & age & Hx & Hage)|?]; [|by right]. destruct (decide (t < max_of cycles)) as [Hlt|Hge].
    + destruct (simulate_covers st cycles (Z.to_nat (max_of cycles)) t (lo, hi)) as [(b & age' & Hb & Hin & H1)|?]; [by apply ranges_iff|lia|by exists x, age| |by right].
      left. exists b, age'. split; [|done]. by apply elem_of_list_filter.
    + exfalso. apply ranges_iff, range_le_max in Hr. specialize (Hpos _ _ Hx). lia.
Qed.
(** The same if only some of the backups to be deleted are actually deleted (a crash, or a deletion that failed). *)
Theorem expire_lossless_partial_deletion backups state cycles state' del gone t lo hi : process_backups backups state cycles = Some (state', del) -> (forall x age, (x, age) ∈ seen backups state -> 0 <= age) ->
  age_range cycles lo hi -> 0 <= t -> gone ⊆ del -> covered (filter (fun x => x.1 ∉ gone) (seen backups state)) t lo hi <-> covered (seen backups state) t lo hi.
Proof.
  intros Hp Hpos Hr Ht Hg. split.
  - intros [(x & age & [_ Hx]%elem_of_list_filter & ?)|?]; [left; by exists x, age|by right].
  - intros H. apply (expire_lossless _ _ _ _ _ _ _ _ Hp Hpos Hr Ht) in H as [(x & age & Hx & Hage)|?]; [|by right]. left. exists x, age. split; [|done].
    unfold process_backups in Hp. case_decide; [done|]. injection Hp as <- <-. apply elem_of_list_filter in Hx as [Hk Hx]. apply elem_of_list_filter. split; [|done]. cbn. intros Hin. apply Hg in Hin. apply elem_of_list_filter in Hin as [Hn _]. done.
Qed.

(** ** Histories: after every backup (or after several) the script is run *)
Inductive history (cycles : list Z) : list Z -> list (Z * Z) -> Prop :=
  | hist_start : history cycles [] []
  | hist_run made state new state' del : history cycles made state -> new <> [] -> StronglySorted Z.lt new -> (forall x y, x ∈ made -> y ∈ new -> x < y) ->
      (* the backups that exist are those in the state and the new ones *)
      process_backups (state.*1 ++ new) state cycles = Some (state', del) -> history cycles (made ++ new) state'.
Lemma covered_older state t lo hi x : covered (older 1 state ++ [(x, 0)]) t lo hi <-> covered state (t + 1) lo hi \/ t < 0 /\ lo <= t < hi.
Proof.
  split.
  - intros [(y & age & Hin & Ha)|(age & Ha & Hb)].
    + apply elem_of_app in Hin as [Hin|Hin].
      * apply older_elem in Hin. left. left. exists y, (age - 1). split; [done|lia].
      * apply elem_of_list_singleton in Hin as [= -> ->]. destruct (decide (t < 0)); [right; lia|left; right; exists t; lia].
    + left. right. exists age. lia.
  - intros [[(y & age & Hin & Ha)|(age & Ha & Hb)]|[Ha Hb]].
    + left. exists y, (age + 1). split; [|lia]. apply elem_of_app. left. apply older_elem. by replace (age + 1 - 1) with age by lia.
    + destruct (decide (age = t)) as [-> |N].
      * left. exists x, 0. split; [apply elem_of_app; right; left|lia].
      * right. exists age. lia.
    + left. exists x, 0. split; [apply elem_of_app; right; left|lia].
Qed.
Lemma add_backup_new state x : x ∉ state.*1 -> add_backup state x = older 1 state ++ [(x, 0)].
Proof. intros H. unfold add_backup. apply dset_new. unfold older. by rewrite <- list_fmap_compose. Qed.
Lemma keys_older (state : list (Z * Z)) n : (older n state).*1 = state.*1.
Proof. unfold older. by rewrite <- list_fmap_compose. Qed.
Lemma adds_keys new : forall state, NoDup new -> (forall x, x ∈ new -> x ∉ state.*1) -> (foldl add_backup state new).*1 = state.*1 ++ new.
Proof.
  induction new as [|x new IH]; intros state Nd Hn; [by rewrite app_nil_r|]. apply NoDup_cons in Nd as [Hx Nd]. cbn. rewrite IH; [|done|].
  - rewrite add_backup_new by (apply Hn; left). rewrite fmap_app, keys_older. cbn. by rewrite <- app_assoc.
  - intros y Hy. rewrite add_backup_new by (apply Hn; left). rewrite fmap_app, keys_older. cbn. rewrite not_elem_of_app, elem_of_list_singleton. split; [apply Hn; by right|]. intros ->. done.
Qed.
Lemma adds_covered new : forall state t lo hi, 0 <= t -> NoDup new -> (forall x, x ∈ new -> x ∉ state.*1) -> covered (foldl add_backup state new) t lo hi <-> covered state (t + Z.of_nat (length new)) lo hi.
Proof.
  induction new as [|x new IH]; intros state t lo hi Ht Nd Hn; [cbn; by rewrite Z.add_0_r|]. apply NoDup_cons in Nd as [Hx Nd]. cbn [foldl length]. rewrite IH; [|done|done|].
  - rewrite add_backup_new by (apply Hn; left). rewrite covered_older. replace (t + Z.of_nat (S (length new))) with (t + Z.of_nat (length new) + 1) by lia. split; [intros [?|?]; [done|lia]|by left].
  - intros y Hy. rewrite add_backup_new by (apply Hn; left). rewrite fmap_app, keys_older. cbn. rewrite not_elem_of_app, elem_of_list_singleton. split; [apply Hn; by right|]. intros ->. done.
Qed.
Lemma adds_pos new : forall state, (forall x age, (x, age) ∈ state -> 0 <= age) -> forall x age, (x, age) ∈ foldl add_backup state new -> 0 <= age.
Proof.
  induction new as [|y new IH]; intros state Hs; [done|]. cbn. apply IH. intros x age H. unfold add_backup in H. apply dset_keys in H as [[= -> ->]|H]; [lia|]. apply older_elem, Hs in H. lia.
Qed.
Lemma sorted_id l : StronglySorted Z.lt l -> merge_sort Z.le l = l.
Proof.
  intros H. apply (@StronglySorted_unique Z Z.le _); [apply StronglySorted_merge_sort; apply _| |apply merge_sort_Permutation].
  induction H as [|x l Hl IH Hf]; constructor; [done|]. eapply Forall_impl; [exact Hf|]. intros y ?. lia.
Qed.
Lemma sorted_nodup l : StronglySorted Z.lt l -> NoDup l.
Proof. induction 1 as [|x l Hl IH Hf]; constructor; [|done]. intros Hin. rewrite Forall_forall in Hf. apply Hf in Hin. lia. Qed.
Lemma seen_run (state : list (Z * Z)) new : StronglySorted Z.lt new -> (forall x, x ∈ new -> x ∉ state.*1) -> seen (state.*1 ++ new) state = foldl add_backup state new.
Proof.
  intros Hs Hn. assert (add_new (state.*1 ++ new) state = foldl add_backup state new) as E.
  { unfold add_new. f_equal. assert (filter (fun x => x ∉ state.*1) (state.*1 ++ new) = new) as ->; [|by apply sorted_id]. rewrite filter_app.
    assert (forall l : list Z, (forall x, x ∈ l -> x ∈ state.*1) -> filter (fun x => x ∉ state.*1) l = []) as K; [|rewrite (K (state.*1)) by done].
    - induction l as [|x l IH]; intros Hl; [done|]. rewrite filter_cons_False; [apply IH; intros y Hy; apply Hl; by right|]. intros N. apply N, Hl. left.
    - cbn. clear Hs. induction new as [|x new IH]; [done|]. rewrite filter_cons_True by (apply Hn; left). f_equal. apply IH. intros y Hy. apply Hn. by right. }
  unfold drop_missing. rewrite E. assert (forall l : list (Z * Z), (forall x, x ∈ l.*1 -> x ∈ state.*1 ++ new) -> filter (fun x : Z * Z => x.1 ∈ state.*1 ++ new) l = l) as K; [|apply K].
  - induction l as [|x l IH]; intros Hl; [done|]. rewrite filter_cons_True by (apply Hl; left). f_equal. apply IH. intros y Hy. apply Hl. by right.
  - intros x. rewrite adds_keys; [done|by apply sorted_nodup|done].
Qed.
Lemma history_inv cycles made state : history cycles made state -> (forall x age, (x, age) ∈ state -> 0 <= age) /\ (forall x, x ∈ state.*1 -> x ∈ made) /\ NoDup state.*1.
Proof.
  induction 1 as [|made state new state' del H (IH1 & IH2 & IH3) Hne Hs Hlt Hp]; [split; [|split]; [intros ? ? E; by apply elem_of_nil in E|intros ? E; by apply elem_of_nil in E|constructor]|].
  assert (forall x, x ∈ new -> x ∉ state.*1) as Hn by (intros x Hx Hin; apply IH2 in Hin; specialize (Hlt _ _ Hin Hx); lia). assert (NoDup (state.*1 ++ new)) as Nd by (apply NoDup_app; split; [done|]; split; [intros x H1 H2; by apply (Hn x)|by apply sorted_nodup]).
  unfold process_backups in Hp. case_decide; [done|]. rewrite seen_run in Hp by done. injection Hp as <- <-. split; [|split].
  - intros x age [_ Hx]%elem_of_list_filter. revert Hx. by apply adds_pos.
  - intros x Hx. apply elem_of_list_fmap in Hx as ([y age] & -> & Hx). cbn. apply elem_of_list_filter in Hx as [_ Hx]. assert (y ∈ (foldl add_backup state new).*1) as Hy by (apply elem_of_list_fmap; by exists (y, age)). rewrite adds_keys in Hy; [|by apply sorted_nodup|done]. apply elem_of_app in Hy as [Hy|Hy]; apply elem_of_app; [left; by apply IH2|by right].
  - rewrite <- (adds_keys new state) in Nd; [|by apply sorted_nodup|done]. revert Nd. generalize (foldl add_backup state new). intros l. generalize (simulate l cycles (Z.to_nat (max_of cycles))).2. intros keep. induction l as [|[x age] l IH]; [done|]. cbn [fmap list_fmap fst]. intros [Hx Nd]%NoDup_cons. rewrite filter_cons. case_decide; [|by apply IH]. cbn. constructor; [|by apply IH].
    intros ([y a] & -> & Hy)%elem_of_list_fmap. apply elem_of_list_filter in Hy as [_ Hy]. apply Hx. apply elem_of_list_fmap. by exists (y, a).
Qed.
Lemma all_ages_app made x : all_ages (made ++ [x]) = older 1 (all_ages made) ++ [(x, 0)].
Proof. induction made as [|y made IH]; [done|]. cbn. rewrite IH, app_length. cbn. f_equal. f_equal. lia. Qed.
Lemma covered_all made new t lo hi : 0 <= t -> covered (all_ages (made ++ new)) t lo hi <-> covered (all_ages made) (t + Z.of_nat (length new)) lo hi.
Proof.
  revert t. induction new as [|y new IH] using rev_ind; intros t Ht; [cbn; by rewrite app_nil_r, Z.add_0_r|].
  rewrite app_assoc, all_ages_app, covered_older. rewrite IH by lia. rewrite !app_length. cbn. replace (t + 1 + Z.of_nat (length new)) with (t + Z.of_nat (length new + 1)) by lia. split; [intros [?|?]; [done|lia]|by left].
Qed.
(** At all times an age range contains a backup that has not been removed if it would contain one had no backup ever been removed. *)
Theorem expire_keeps_ranges cycles made state t lo hi : history cycles made state -> age_range cycles lo hi -> 0 <= t -> covered state t lo hi <-> covered (all_ages made) t lo hi.
Proof.
  intros H Hr. revert t. induction H as [|made state new state' del H IH Hne Hs Hlt Hp]; intros t Ht; [done|].
  destruct (history_inv _ _ _ H) as (Hpos & Hsub & Nd). assert (forall x, x ∈ new -> x ∉ state.*1) as Hn by (intros x Hx Hin; apply Hsub in Hin; specialize (Hlt _ _ Hin Hx); lia).
  rewrite (expire_lossless _ _ _ _ _ _ _ _ Hp) by (done || (rewrite seen_run by done; by apply adds_pos)). rewrite seen_run by done.
  rewrite adds_covered by (done || by apply sorted_nodup). rewrite covered_all by done. apply IH. lia.
Qed.
(** The recorded age of a backup is the number of backups made after it. *)
Theorem expire_true_ages cycles made state x age : history cycles made state -> (x, age) ∈ state -> (x, age) ∈ all_ages made.
Proof.
  intros H. revert x age. induction H as [|made state new state' del H IH Hne Hs Hlt Hp]; intros x age Hx; [done|].
  destruct (history_inv _ _ _ H) as (Hpos & Hsub & Nd). assert (forall x, x ∈ new -> x ∉ state.*1) as Hn by (intros y Hy Hin; apply Hsub in Hin; specialize (Hlt _ _ Hin Hy); lia).
  unfold process_backups in Hp. case_decide; [done|]. rewrite seen_run in Hp by done. injection Hp as <- _. apply elem_of_list_filter in Hx as [_ Hx].
  clear Hne Hlt. apply sorted_nodup in Hs. revert made state H IH Hpos Hsub Nd Hn Hx. clear. intros made state _ IH _ _ _ _. revert made state IH.
  induction new as [|y new IHn]; intros made state IH Hx; [rewrite app_nil_r; by apply IH|]. cbn in Hx. replace (made ++ y :: new) with ((made ++ [y]) ++ new) by (by rewrite <- app_assoc).
  eapply IHn; [|exact Hx]. clear IHn Hx. intros z a Hz. rewrite all_ages_app. apply dset_keys in Hz as [[= -> ->]|Hz]; [apply elem_of_app; right; left|]. apply elem_of_app. left. apply older_elem. apply older_elem in Hz. by apply IH.
Qed.
(** In particular: after at least as many backups as the upper end, with at least one cycle in the range, it is never empty. *)
Corollary expire_range_filled cycles made state lo hi : history cycles made state -> age_range cycles lo hi -> 0 <= lo < hi -> lo < Z.of_nat (length made) -> exists x age, (x, age) ∈ state /\ lo <= age < hi.
Proof.
  intros H Hr Hlo Hlen. assert (covered (all_ages made) 0 lo hi) as Hc.
  { left. assert (forall l, lo < Z.of_nat (length l) -> exists x, (x, lo) ∈ all_ages l) as K.
    - induction l as [|y l IH]; cbn; [lia|]. intros Hl. destruct (decide (lo = Z.of_nat (length l))) as [-> |N]; [exists y; left|]. destruct IH as [x Hx]; [lia|]. exists x. by right.
    - destruct (K made Hlen) as [x Hx]. exists x, lo. split; [done|lia]. }
  apply (expire_keeps_ranges _ _ _ _ _ _ H Hr) in Hc as [(x & age & Hx & Ha)|(age & Ha & _)]; [exists x, age; split; [done|lia]|lia|lia].
Qed.

(** ** The newest backup *)
(** It is kept if the first age range is one cycle. *)
Theorem expire_keeps_newest backups state cycles state' del x : process_backups backups state cycles = Some (state', del) -> head cycles = Some 1 -> (x, 0) ∈ seen backups state ->
  (forall y age, (y, age) ∈ seen backups state -> 0 <= age /\ (age = 0 -> y = x)) -> (x, 0) ∈ state' /\ x ∉ del.
Proof.
  unfold process_backups. case_decide; [done|]. intros [= <- <-] Hh Hx Hu. set (st := seen backups state) in *.
  assert (1 <= max_of cycles) as Hm by (apply max_of_ge; destruct cycles; [done|]; injection Hh as ->; left).
  destruct (simulate_covers st cycles (Z.to_nat (max_of cycles)) 0 (0, 1)) as [(b & age & Hb & Hin & Ha)|(age & ? & _)]; [apply ranges_iff; by left|lia|exists x, 0; split; [done|cbn; lia]| |lia].
  cbn in Ha. assert (b = x) as -> by (apply (Hu _ _ Hin); lia). split; [by apply elem_of_list_filter|]. intros [Hn _]%elem_of_list_filter. done.
Qed.
(** Otherwise it can be removed at once: with the boundaries 2 and 4, the second backup is. *)
Theorem newest_removed_refuted : exists state, history [2; 4] [1] state /\ process_backups (state.*1 ++ [2]) state [2; 4] = Some ([(1, 1)], [2]) /\ expire [2; 4] 1 2 (state.*1 ++ [2]) state = Some ([(1, 1)], [2]).
Proof.
  exists [(1, 0)]. split; [|split; vm_compute; reflexivity].
  eapply (hist_run _ [] [] [1] [(1, 0)] []); [constructor|done|repeat constructor|intros x y H; by apply elem_of_nil in H|vm_compute; reflexivity].
Qed.
(** If the last boundary is 0, everything is removed. *)
Theorem all_removed_refuted : expire [0] 1 1 [1; 2] [(1, 1); (2, 0)] = Some ([], [1; 2]).
Proof. vm_compute. reflexivity. Qed.

(** ** What is deleted *)
(** Only existing backups are deleted, and the saved state lists the others. *)
Theorem expire_partition backups state cycles state' del : process_backups backups state cycles = Some (state', del) -> NoDup backups -> NoDup state.*1 ->
  (forall x, x ∈ del -> x ∈ backups) /\ (forall x, x ∈ backups <-> x ∈ del \/ x ∈ state'.*1) /\ (forall x, x ∈ del -> x ∉ state'.*1).
Proof.
  unfold process_backups. case_decide; [done|]. intros [= <- <-] Nb Ns. set (st := seen backups state) in *.
  assert (forall x, x ∈ st.*1 <-> x ∈ backups) as Hst.
  { intros x. unfold st, drop_missing. assert (forall l : list (Z * Z), x ∈ (filter (fun x : Z * Z => x.1 ∈ backups) l).*1 <-> x ∈ l.*1 /\ x ∈ backups) as ->.
    { intros l. rewrite !elem_of_list_fmap. split.
      - intros (y & -> & [Hy1 Hy2]%elem_of_list_filter). split; [by exists y|done].
      - intros [(y & -> & Hy) Hb]. exists y. split; [done|]. by apply elem_of_list_filter. }
    split; [by intros [_ ?]|]. intros Hb. split; [|done]. unfold add_new. rewrite adds_keys.
    - apply elem_of_app. destruct (decide (x ∈ state.*1)); [by left|right]. rewrite merge_sort_Permutation. by apply elem_of_list_filter.
    - rewrite merge_sort_Permutation. by apply NoDup_filter.
    - intros y. rewrite merge_sort_Permutation. by intros [? _]%elem_of_list_filter. }
  assert (forall x, x ∈ (filter (fun x : Z * Z => x.1 ∈ (simulate st cycles (Z.to_nat (max_of cycles))).2) st).*1 <-> x ∈ st.*1 /\ x ∈ (simulate st cycles (Z.to_nat (max_of cycles))).2) as Hf.
  { intros x. rewrite !elem_of_list_fmap. split.
    - intros (y & -> & [Hy1 Hy2]%elem_of_list_filter). split; [by exists y|done].
    - intros [(y & -> & Hy) Hb]. exists y. split; [done|]. by apply elem_of_list_filter. }
  split; [|split].
  - intros x [_ Hx]%elem_of_list_filter. by apply Hst.
  - intros x. rewrite <- Hst, Hf, elem_of_list_filter. destruct (decide (x ∈ (simulate st cycles (Z.to_nat (max_of cycles))).2)); tauto.
  - intros x [Hx _]%elem_of_list_filter. rewrite Hf. tauto.
Qed.
(** Never more than the given proportion. *)
Theorem expire_proportion cycles num den backups state state' del : expire cycles num den backups state = Some (state', del) -> backups <> [] -> Z.of_nat (length del) * den <= num * Z.of_nat (length backups).
Proof.
  unfold expire. case_decide; [done|]. case_decide; [|done]. destruct (process_backups _ _ _) as [[st d]|]; [|done]. case_decide as D; [done|]. intros [= <- <-] Hb. apply Z.nlt_ge. intros Hlt. apply D. split; [done|lia].
Qed.

(** ** Reconstruction of the state *)
(** The reconstructed ages are in the order of the dates, and those of different backups in the past differ. *)
Theorem upgrade_order l state x y a b : upgrade_to_state l = Some state -> (x, a) ∈ l -> (y, b) ∈ l -> a < b ->
  exists ca cb, (x, ca) ∈ state /\ (y, cb) ∈ state /\ 0 <= ca <= cb /\ (0 < b -> ca < cb).
Proof.
  unfold upgrade_to_state. destruct (_ ≫= _) as [|d ds] eqn:E; [done|]. intros [= <-] Hx Hy Hab. set (step := foldr Z.min d ds).
  assert (forall z, z ∈ d :: ds -> step <= z /\ 0 < z) as Hmin.
  { intros z Hz. split.
    - unfold step. apply elem_of_cons in Hz as [-> |Hz]; [clear; induction ds as [|e ds IH]; cbn; lia|]. clear -Hz. induction Hz as [z ds|z e ds Hz IH]; cbn; lia.
    - rewrite <- E in Hz. apply elem_of_list_bind in Hz as (p & Hz & _). apply elem_of_list_bind in Hz as (q & Hz & _). case_decide; [|by apply elem_of_nil in Hz]. apply elem_of_list_singleton in Hz. lia. }
  assert (0 < step) as Hpos.
  { assert (step ∈ d :: ds) as Hs; [|by apply Hmin]. unfold step. clear. induction ds as [|e ds IH]; cbn; [left|]. destruct (Z.min_spec e (foldr Z.min d ds)) as [[_ ->]|[_ ->]]; [right; left|]. apply elem_of_cons in IH as [-> |IH]; [left|right; by right]. }
  assert (step <= b - a) as Hstep. { destruct (Hmin (b - a)) as [? _]; [|done]. rewrite <- E. apply elem_of_list_bind. exists (y, b). split; [|done]. apply elem_of_list_bind. exists (x, a). split; [|done]. cbn. rewrite decide_True by lia. apply elem_of_list_singleton. lia. }
  exists (cycles_of step a), (cycles_of step b). split; [apply elem_of_list_fmap; by exists (x, a)|]. split; [apply elem_of_list_fmap; by exists (y, b)|].
  assert (forall z, 0 < z -> 1 <= cycles_of step z) as H1. { intros z Hz. unfold cycles_of. rewrite decide_True by done. apply Z.div_le_lower_bound; lia. }
  assert (forall z, z <= 0 -> cycles_of step z = 0) as H0. { intros z Hz. unfold cycles_of. by rewrite decide_False by lia. }
  assert (0 < a -> cycles_of step a + 1 <= cycles_of step b) as H2. { intros Ha. unfold cycles_of. rewrite !decide_True by lia. rewrite <- Z.div_add by lia. apply Z.div_le_mono; lia. }
  destruct (decide (0 < a)) as [Ha|Ha]; [pose proof (H1 a Ha); pose proof (H2 Ha); lia|]. rewrite (H0 a) by lia. destruct (decide (0 < b)) as [Hb|Hb]; [pose proof (H1 b Hb); lia|rewrite (H0 b) by lia; lia].
Qed.

(** * Example *)
(** Ages 1, 3 and 6; backups 1 to 8, one at a time. *)
Fixpoint run_all (cycles : list Z) (l : list Z) (state : list (Z * Z)) : option (list (Z * Z)) :=
  match l with [] => Some state | x :: l => match process_backups (state.*1 ++ [x]) state cycles with Some (state', _) => run_all cycles l state' | None => None end end.
Lemma run_all_history cycles l : forall made state state', history cycles made state -> StronglySorted Z.lt (made ++ l) -> run_all cycles l state = Some state' -> history cycles (made ++ l) state'.
Proof.
  induction l as [|x l IH]; intros made state state' H Hs; cbn; [intros [= <-]; by rewrite app_nil_r|]. destruct (process_backups _ _ _) as [[s d]|] eqn:E; [|done]. intros Hr. replace (made ++ x :: l) with ((made ++ [x]) ++ l) in * by (by rewrite <- app_assoc).
  eapply IH; [|exact Hs|exact Hr]. eapply hist_run; [done|done|repeat constructor| |exact E]. intros y z Hy ->%elem_of_list_singleton. clear -Hs Hy. rewrite <- app_assoc in Hs. induction made as [|m made IHm]; [by apply elem_of_nil in Hy|]. cbn in Hs. apply StronglySorted_inv in Hs as [Hs Hf]. apply elem_of_cons in Hy as [-> |Hy]; [|by apply IHm]. rewrite Forall_forall in Hf. apply Hf. apply elem_of_app. right. left.
Qed.
Example expire_sample : exists state, history [1; 3; 6] [1; 2; 3; 4; 5; 6; 7; 8] state /\ state = [(3, 5); (5, 3); (7, 1); (8, 0)] /\ age_range [1; 3; 6] 1 3 /\ covered state 2 3 6.
Proof.
  eexists. split; [eapply (run_all_history _ _ [] [] _ (hist_start _)); [repeat constructor|vm_compute; reflexivity]|]. split; [reflexivity|]. split; [right; by exists 0%nat|]. left. exists 5, 3. split; [|lia]. right. left.
Qed.

Print Assumptions expire_lossless.
Print Assumptions expire_lossless_partial_deletion.
Print Assumptions expire_keeps_ranges.
Print Assumptions expire_true_ages.
Print Assumptions expire_range_filled.
Print Assumptions expire_keeps_newest.
Print Assumptions newest_removed_refuted.
Print Assumptions all_removed_refuted.
Print Assumptions expire_partition.
Print Assumptions expire_proportion.
Print Assumptions upgrade_order.
