(** C39: retried operations. *)
From stdpp Require Import prelude.
From Coq Require Import QArith Lqa Lia.
From Verif Require Import RetryModel.
Open Scope Q_scope.

Definition total (p : list Q) : Q := foldr Qplus 0 p.
Lemma Qlower_le a b : Qlower a b <= a /\ Qlower a b <= b /\ (Qlower a b == a \/ Qlower a b == b).
Proof.
  unfold Qlower. destruct (Qle_bool a b) eqn:E.
  - apply Qle_bool_iff in E. split_and!; [lra|lra|left; lra].
  - assert (~ a <= b) as N by (intros Q; apply Qle_bool_iff in Q; congruence). split_and!; [lra|lra|right; lra].
Qed.
Lemma Qle_bool_false a b : Qle_bool a b = false -> b < a.
Proof. intros E. apply Qnot_le_lt. intros Q. apply Qle_bool_iff in Q. congruence. Qed.
(** The hint of the server is kept between one and 300 seconds. *)
Theorem retry_after_clamped v : 1 <= clamp v <= 300 /\ (1 <= v <= 300 -> clamp v == v).
Proof.
  unfold clamp. destruct (Qle_bool v 1) eqn:E; [apply Qle_bool_iff in E|apply Qle_bool_false in E]; destruct (Qlower_le 300 1) as (A & B & C), (Qlower_le 300 v) as (A' & B' & C'); lra.
Qed.

Section props.
Context {V X : Type} (temp : X -> bool) (hint : X -> option Q) (attempt : nat -> bool -> outcome V X).
(** Hints are kept as above. *)
Context (hints : forall x h, hint x = Some h -> 1 <= h <= 300).
Notation wrapped := (wrapped temp hint attempt).
Notation retry := (retry temp hint attempt).
Definition flag (n : nat) : bool := match n with O => false | _ => true end.
Definition temporary (n : nat) (x : X) : Prop := attempt n (flag n) = Fail x /\ temp x = true.
Lemma flag_eq n : bool_decide (0 < n)%nat = flag n.
Proof. destruct n; [done|]. apply bool_decide_eq_true. lia. Qed.

Lemma pause_bounds i x : 0 < i -> i <= 300 -> 0 < pause hint i x <= 300 /\ (i <= 1 -> i <= pause hint i x) /\ (1 <= i -> 1 <= pause hint i x).
Proof.
  intros H1 H2. unfold pause. destruct (hint x) as [h|] eqn:E; [|lra]. apply hints in E. destruct (Qeq_bool h 0) eqn:E0; [|lra]. apply Qeq_bool_iff in E0. lra.
Qed.
Lemma next_bounds i : 0 < i -> i <= 300 -> 0 < Qlower max_interval (2 * i) <= 300.
Proof. intros H1 H2. destruct (Qlower_le max_interval (2 * i)) as (A & B & [C|C]); unfold max_interval in *; lra. Qed.
(** What the result says about the attempts *)
Lemma wrapped_result fuel n i w p r : wrapped fuel n i w = (p, r) -> 0 < i -> i <= 300 ->
  (forall k, (k < length p)%nat -> exists x, temporary (n + k) x) /\ Forall (fun q => 0 < q <= 300) p /\
  match r with
  | Returned v => attempt (n + length p) (flag (n + length p)) = Return v
  | Raised x => attempt (n + length p) (flag (n + length p)) = Fail x /\ temp x = false
  | TimedOut x => temporary (n + length p) x /\ retry_timeout < w + total p
  | Running => length p = fuel
  end /\ (w <= retry_timeout + 300 -> w + total p <= retry_timeout + 300).
Proof.
  revert n i w p r. induction fuel as [|fuel IH]; intros n i w p r E H1 H2; cbn [RetryModel.wrapped] in E.
  { injection E as <- <-. cbn. split_and!; [lia|constructor|done|lra]. }
  rewrite flag_eq in E. destruct (attempt n (flag n)) as [v|x] eqn:Ea.
  { injection E as <- <-. cbn. rewrite Nat.add_0_r. split_and!; [lia|constructor|done|lra]. }
  destruct (temp x) eqn:Et; cbn [negb] in E.
  2: { injection E as <- <-. cbn. rewrite Nat.add_0_r. split_and!; [lia|constructor|done|done|lra]. }
  destruct (Qle_bool w retry_timeout) eqn:Ew; cbn [negb] in E.
  2: { injection E as <- <-. cbn. rewrite Nat.add_0_r. apply Qle_bool_false in Ew. split_and!; [lia|constructor|done|lra|lra]. }
  apply Qle_bool_iff in Ew. destruct (RetryModel.wrapped _ _ _ _ _ _ _) as [p' r'] eqn:Er. injection E as <- <-. pose proof (pause_bounds i x H1 H2) as (B1 & _).
  apply IH in Er as (A & B & C & D); [|apply next_bounds; lra..]. cbn [length total foldr]. change (foldr Qplus 0 p') with (total p'). replace (n + S (length p'))%nat with (S n + length p')%nat by lia. split_and!.
  - intros k Hk. destruct k as [|k]; [exists x; by rewrite Nat.add_0_r|]. replace (n + S k)%nat with (S n + k)%nat by lia. apply A. lia.
  - by constructor.
  - destruct r' as [v|y|y|]; [done..| |lia]. destruct C as [C1 C2]. split; [done|lra].
  - intros _. assert (w + pause hint i x <= retry_timeout + 300) by lra. specialize (D H). lra.
Qed.

(** The result is that of the first attempt that did not fail temporarily. *)
Theorem retry_returns fuel p v : retry fuel = (p, Returned v) -> attempt (length p) (flag (length p)) = Return v /\ forall k, (k < length p)%nat -> exists x, temporary k x.
Proof. intros E. apply wrapped_result in E as (A & _ & C & _); [done|unfold first_interval; lra..]. Qed.
(** An error that is not temporary is raised at once. *)
Theorem retry_raises fuel p x : retry fuel = (p, Raised x) -> attempt (length p) (flag (length p)) = Fail x /\ temp x = false /\ forall k, (k < length p)%nat -> exists y, temporary k y.
Proof. intros E. apply wrapped_result in E as (A & _ & [C D] & _); [done|unfold first_interval; lra..]. Qed.
(** It is given up only after all attempts have failed temporarily and more than a day of pauses. *)
Theorem retry_gives_up fuel p x : retry fuel = (p, TimedOut x) -> temporary (length p) x /\ (forall k, (k < length p)%nat -> exists y, temporary k y) /\ retry_timeout < total p.
Proof. intros E. apply wrapped_result in E as (A & _ & [C D] & _); [|unfold first_interval; lra..]. split_and!; [done|done|]. lra. Qed.
(** Pauses, including the random factor between 1 and 1.5 *)
Theorem retry_pauses fuel p r (factor : nat -> Q) (slept : list Q) : retry fuel = (p, r) -> (forall k, 1 <= factor k <= 3 # 2) -> slept = imap (fun k q => q * factor k) p ->
  Forall (fun q => 0 < q <= 450) slept /\ total slept <= 130050.
Proof.
  intros E Hf ->. apply wrapped_result in E as (_ & B & _ & D); [|unfold first_interval; lra..].
  assert (0 + total p <= 86700) as T by (change 86700 with (86400 + 300); apply D; unfold retry_timeout; lra).
  assert (total (imap (fun k q => q * factor k) p) <= (3 # 2) * total p) as M; [|split; [|lra]].
  - clear D T. revert factor Hf. induction p as [|q p IH]; intros factor Hf; cbn; [lra|]. apply Forall_cons in B as [B1 B]. specialize (IH B (fun k => factor (S k)) (fun k => Hf (S k))).
    change (foldr Qplus 0 p) with (total p). change (foldr Qplus 0 ?l) with (total l). pose proof (Hf O) as [F1 F2]. assert (q * factor O <= q * (3 # 2)) by (apply Qmult_le_l; lra).
    unfold compose in *. cbn in IH. unfold total in *. lra.
  - apply Forall_forall. intros q Hq. apply elem_of_lookup_imap in Hq as (k & q0 & -> & Hk). rewrite Forall_lookup in B. specialize (B _ _ Hk). pose proof (Hf k) as [F1 F2].
    assert (q0 * factor k <= q0 * (3 # 2)) by (apply Qmult_le_l; lra). assert (q0 * 1 <= q0 * factor k) by (apply Qmult_le_l; lra). lra.
Qed.
Lemma wrapped_peel fuel n i w q p r : wrapped fuel n i w = (q :: p, r) -> 0 < i -> i <= 300 -> exists fuel', wrapped fuel' (S n) (Qlower max_interval (2 * q)) (w + q) = (p, r) /\
  0 < q <= 300 /\ (i <= 1 -> i <= q) /\ (1 <= i -> 1 <= q).
Proof.
  destruct fuel as [|fuel]; [done|]. cbn [RetryModel.wrapped]. intros E H1 H2. destruct (attempt n _) as [v|x]; [done|]. destruct (temp x); [|done]. destruct (Qle_bool w retry_timeout); [|done].
  cbn [negb] in E. destruct (RetryModel.wrapped _ _ _ _ _ _ _) as [p' r'] eqn:Er. injection E as <- <- <-. exists fuel. split; [done|]. by apply pause_bounds.
Qed.
Lemma wrapped_long p fuel n i w r : wrapped fuel n i w = (p, r) -> 1 <= i -> i <= 300 -> inject_Z (Z.of_nat (length p)) <= total p.
Proof.
  revert fuel n i w. induction p as [|q p IH]; intros fuel n i w E H1 H2; [change (inject_Z (Z.of_nat (length (@nil Q)))) with 0; cbn [total foldr]; lra|]. apply wrapped_peel in E as (fuel' & E & A & B & C); [|lra..].
  destruct (Qlower_le max_interval (2 * q)) as (L1 & L2 & L3). apply IH in E; [|unfold max_interval in *; destruct L3; lra..]. cbn [length total foldr]. rewrite Nat2Z.inj_succ. unfold Z.succ. rewrite inject_Z_plus.
  change (foldr Qplus 0 p) with (total p). change (inject_Z 1) with 1. lra.
Qed.
Lemma wrapped_short k p fuel n i w r : wrapped fuel n i w = (p, r) -> 0 < i -> i <= 300 -> 1 <= inject_Z (2 ^ Z.of_nat k) * i -> inject_Z (Z.of_nat (length p)) <= total p + inject_Z (Z.of_nat k).
Proof.
  revert p fuel n i w. induction k as [|k IH]; intros p fuel n i w E H1 H2 Hk.
  { change (inject_Z (2 ^ Z.of_nat 0)) with 1 in Hk. apply wrapped_long in E; [|lra|done]. change (inject_Z (Z.of_nat 0)) with 0. lra. }
  assert (0 <= inject_Z (Z.of_nat (S k))) as PS by (change 0 with (inject_Z 0); rewrite <- Zle_Qle; lia).
  destruct p as [|q p]; [change (inject_Z (Z.of_nat (length (@nil Q)))) with 0; cbn [total foldr]; lra|].
  apply wrapped_peel in E as (fuel' & E & A & B & C); [|done..]. destruct (Qlower_le max_interval (2 * q)) as (L1 & L2 & L3). destruct (Qlt_le_dec 1 i) as [Hi|Hi].
  - assert (1 <= Qlower max_interval (2 * q)) by (unfold max_interval in *; destruct L3; lra). apply wrapped_long in E; [|done|unfold max_interval in *; lra].
    cbn [length total foldr]. rewrite !Nat2Z.inj_succ. unfold Z.succ. rewrite !inject_Z_plus. change (foldr Qplus 0 p) with (total p). change (inject_Z 1) with 1.
    assert (0 <= inject_Z (Z.of_nat k)) by (change 0 with (inject_Z 0); rewrite <- Zle_Qle; lia). lra.
  - assert (0 < Qlower max_interval (2 * q)) by (unfold max_interval in *; destruct L3; lra). specialize (B Hi).
    assert (1 <= inject_Z (2 ^ Z.of_nat k)) as P1 by (change 1 with (inject_Z 1); rewrite <- Zle_Qle; lia).
    apply IH in E; [|done|unfold max_interval in *; lra|].
    + cbn [length total foldr]. rewrite !Nat2Z.inj_succ. unfold Z.succ. rewrite !inject_Z_plus. change (foldr Qplus 0 p) with (total p). change (inject_Z 1) with 1. lra.
    + rewrite Nat2Z.inj_succ, Z.pow_succ_r, inject_Z_mult in Hk by lia. change (inject_Z 2) with 2 in Hk. destruct L3 as [L3|L3]; rewrite L3.
      * unfold max_interval. assert (1 * 300 <= inject_Z (2 ^ Z.of_nat k) * 300) by (apply Qmult_le_compat_r; lra). lra.
      * assert (inject_Z (2 ^ Z.of_nat k) * i <= inject_Z (2 ^ Z.of_nat k) * q) by (apply Qmult_le_l; lra). lra.
Qed.
(** There are at most 86707 attempts, whatever happens. *)
Theorem retry_ends fuel p r : retry fuel = (p, r) -> (length p <= Z.to_nat 86706)%nat.
Proof.
  intros E. unfold RetryModel.retry in E. pose proof (wrapped_short 6 _ _ _ _ _ _ E) as L. apply wrapped_result in E as (_ & _ & _ & D); [|unfold first_interval; lra..].
  assert (0 + total p <= 86700) as T by (change 86700 with (86400 + 300); apply D; unfold retry_timeout; lra).
  assert (inject_Z (Z.of_nat (length p)) <= inject_Z 86706) as B.
  { assert (inject_Z (Z.of_nat (length p)) <= total p + inject_Z (Z.of_nat 6)) as L' by (apply L; vm_compute; discriminate || reflexivity). change (inject_Z (Z.of_nat 6)) with 6 in L'. change (inject_Z 86706) with 86706. lra. }
  rewrite <- Zle_Qle in B. lia.
Qed.
Theorem retry_finishes : exists p r, retry (Z.to_nat 86707) = (p, r) /\ r <> Running.
Proof.
  destruct (retry (Z.to_nat 86707)) as [p r] eqn:E. exists p, r. split; [done|]. intros ->. pose proof (retry_ends _ _ _ E) as L. apply wrapped_result in E as (_ & _ & C & _); [|unfold first_interval; lra..]. lia.
Qed.
(** With at most 289 temporary failures the next attempt is made, and its result is returned. *)
Lemma wrapped_persists m n i w fuel : (forall k, (n <= k < n + m)%nat -> exists x, temporary k x) -> 0 < i -> i <= 300 -> (m < fuel)%nat ->
  (m = O \/ w + inject_Z (Z.of_nat (m - 1)) * 300 <= retry_timeout) ->
  match attempt (n + m) (flag (n + m)) with
  | Return v => exists p, wrapped fuel n i w = (p, Returned v)
  | Fail x => temp x = false -> exists p, wrapped fuel n i w = (p, Raised x)
  end.
Proof.
  revert n i w fuel. induction m as [|m IH]; intros n i w fuel Ht H1 H2 Hf Hw; (destruct fuel as [|fuel]; [lia|]); cbn [RetryModel.wrapped]; rewrite flag_eq.
  - rewrite Nat.add_0_r. destruct (attempt n (flag n)) as [v|x]; [by eexists|]. intros ->. by eexists.
  - destruct (Ht n) as (x & Ex & Tx); [lia|]. rewrite Ex, Tx. destruct Hw as [Hw|Hw]; [lia|]. replace (S m - 1)%nat with m in Hw by lia.
    assert (0 <= inject_Z (Z.of_nat m)) as P by (change 0 with (inject_Z 0); rewrite <- Zle_Qle; lia).
    assert (w <= retry_timeout) as Hw' by (assert (0 <= inject_Z (Z.of_nat m) * 300) by lra; lra). rewrite (proj2 (Qle_bool_iff _ _) Hw'). cbn [negb].
    pose proof (pause_bounds i x H1 H2) as (B1 & _). specialize (IH (S n) (Qlower max_interval (2 * pause hint i x)) (w + pause hint i x) fuel). replace (S n + m)%nat with (n + S m)%nat in IH by lia.
    assert (m = O \/ w + pause hint i x + inject_Z (Z.of_nat (m - 1)) * 300 <= retry_timeout) as Hm.
    { destruct m as [|m]; [by left|right]. replace (S m - 1)%nat with m by lia. rewrite Nat2Z.inj_succ in Hw. unfold Z.succ in Hw. rewrite inject_Z_plus in Hw. change (inject_Z 1) with 1 in Hw. lra. }
    pose proof (next_bounds (pause hint i x) ltac:(lra) ltac:(lra)) as [N1 N2]. specialize (IH ltac:(intros k Hk; apply Ht; lia) N1 N2 ltac:(lia) Hm).
    destruct (attempt (n + S m) _) as [v|y]; [|intros Hy; specialize (IH Hy)]; destruct IH as [p ->]; by eexists.
Qed.
Theorem retry_persists m : (m <= 289)%nat -> (forall k, (k < m)%nat -> exists x, temporary k x) -> forall fuel, (m < fuel)%nat ->
  (forall v, attempt m (flag m) = Return v -> exists p, retry fuel = (p, Returned v)) /\ (forall x, attempt m (flag m) = Fail x -> temp x = false -> exists p, retry fuel = (p, Raised x)).
Proof.
  intros Hm Ht fuel Hf. pose proof (wrapped_persists m 0 first_interval 0 fuel) as P. cbn [Nat.add] in P. assert (m = O \/ 0 + inject_Z (Z.of_nat (m - 1)) * 300 <= retry_timeout) as Hw.
  { right. assert (inject_Z (Z.of_nat (m - 1)) <= inject_Z 288) by (rewrite <- Zle_Qle; lia). change (inject_Z 288) with 288 in *. unfold retry_timeout. lra. }
  specialize (P ltac:(intros k Hk; apply Ht; lia) ltac:(unfold first_interval; lra) ltac:(unfold first_interval; lra) Hf Hw).
  split; [intros v Ev|intros x Ex Tx]; [rewrite Ev in P|rewrite Ex in P]; auto.
Qed.
End props.

(** Without hints and success: 301 pauses. *)
Example never_succeeds : let (p, r) := retry (fun _ => true) (fun _ => None) (fun _ _ => @Fail unit unit tt) 400 in length p = 301%nat /\ r = TimedOut tt.
Proof. vm_compute. split; reflexivity. Qed.
(** Two temporary failures, the second with a hint of two minutes, then a result *)
Definition some_attempts (n : nat) (is_retry : bool) : outcome nat (bool * option Q) := match n with O => Fail (true, None) | 1%nat => Fail (true, Some 120) | _ => if is_retry then Return 7%nat else Return 8%nat end.
Example third_succeeds : retry fst snd some_attempts 10 = ([1 # 50; 120], Returned 7%nat) /\ (forall k, (k < 2)%nat -> exists x, temporary fst some_attempts k x).
Proof. split; [vm_compute; reflexivity|]. intros [|[|k]] Hk; [by eexists|by eexists|lia]. Qed.
Print Assumptions retry_after_clamped. Print Assumptions retry_returns. Print Assumptions retry_raises. Print Assumptions retry_gives_up. Print Assumptions retry_pauses. Print Assumptions retry_ends.
Print Assumptions retry_finishes. Print Assumptions retry_persists.
