(** The float ceiling division is exact below 2^53. *)
From Coq Require Import ZArith Lia.
From Verif Require Import FloatModel.
Local Open Scope Z_scope.

Lemma quot_log2_spec n d : 0 < n -> 0 < d ->
  (0 <= quot_log2 n d -> d * 2 ^ quot_log2 n d <= n) /\
  (quot_log2 n d < 0 -> d <= n * 2 ^ (- quot_log2 n d)).
Proof.
  intros Hn Hd. unfold quot_log2. remember (Z.log2 n - Z.log2 d) as l eqn:Hld.
  destruct (Z.log2_spec n Hn) as [Hn1 Hn2]. destruct (Z.log2_spec d Hd) as [Hd1 Hd2].
  pose proof (Z.log2_nonneg n). pose proof (Z.log2_nonneg d).
  destruct (Z.leb_spec 0 l) as [Hl|Hl].
  - destruct (Z.leb_spec (d * 2 ^ l) n) as [H1|H1]; [split; intros; lia|].
    split; intros H'.
    + assert (2 ^ l = 2 * 2 ^ (l - 1)) as E by (rewrite <- Z.pow_succ_r by lia; f_equal; lia).
      assert (2 ^ Z.succ (Z.log2 d) * 2 ^ (l - 1) = 2 ^ Z.log2 n) as E2.
      { rewrite <- Z.pow_add_r by lia. f_equal. lia. }
      assert (0 < 2 ^ (l - 1)) by (apply Z.pow_pos_nonneg; lia). nia.
    + assert (l = 0) as -> by lia. change (2 ^ (- (0 - 1))) with 2.
      assert (Z.log2 n = Z.log2 d) as E by lia. rewrite Z.pow_succ_r in Hd2 by lia. rewrite E in *. lia.
  - destruct (Z.leb_spec d (n * 2 ^ (- l))) as [H1|H1]; [split; intros; lia|].
    split; [lia|]. intros _. replace (- (l - 1)) with (Z.succ (- l)) by lia.
    rewrite Z.pow_succ_r by lia.
    assert (2 ^ Z.log2 n * 2 ^ (- l) = 2 ^ Z.log2 d) as E2.
    { rewrite <- Z.pow_add_r by lia. f_equal. lia. }
    rewrite Z.pow_succ_r in Hd2 by lia. nia.
Qed.

Lemma round_upper num den i : 0 < den -> num <= i * den -> round_half_even num den <= i.
Proof.
  intros Hd Hi. unfold round_half_even.
  pose proof (Z.div_mod num den ltac:(lia)). pose proof (Z.mod_pos_bound num den ltac:(lia)).
  destruct (Z.ltb_spec (2 * (num mod den)) den); [nia|].
  destruct (Z.ltb_spec den (2 * (num mod den))); [nia|].
  destruct (Z.even _); nia.
Qed.

Lemma round_lower num den i : 0 < den -> 2 * (i * den) + den < 2 * num -> i + 1 <= round_half_even num den.
Proof.
  intros Hd Hi. unfold round_half_even.
  pose proof (Z.div_mod num den ltac:(lia)). pose proof (Z.mod_pos_bound num den ltac:(lia)).
  destruct (Z.ltb_spec (2 * (num mod den)) den); [nia|].
  destruct (Z.ltb_spec den (2 * (num mod den))); [nia|].
  destruct (Z.even _); nia.
Qed.

Lemma float_div_ceil_exact n d :
  0 <= n < 2 ^ 53 -> 0 < d -> float_div_ceil n d = (n + d - 1) / d.
Proof.
  intros [Hn0 Hn] Hd. unfold float_div_ceil. destruct (Z.eqb_spec n 0) as [->|Hne].
  { symmetry. apply Z.div_small. lia. }
  assert (0 < n) as Hpos by lia.
  destruct (quot_log2_spec n d Hpos Hd) as [H1 H2]. set (m := quot_log2 n d) in *.
  set (C := (n + d - 1) / d).
  assert ((C - 1) * d + 1 <= n <= C * d) as HC.
  { unfold C. pose proof (Z.div_mod (n + d - 1) d ltac:(lia)).
    pose proof (Z.mod_pos_bound (n + d - 1) d ltac:(lia)). nia. }
  assert (m <= 52) as Hm.
  { destruct (Z.le_gt_cases m 52) as [|Hgt]; [assumption|exfalso].
    specialize (H1 ltac:(lia)). assert (2 ^ 53 <= 2 ^ m) by (apply Z.pow_le_mono_r; lia). nia. }
  destruct (Z.leb_spec 0 (m - 52)) as [He|He].
  - assert (m = 52) as Em by lia. rewrite Em in *. change (2 ^ (52 - 52)) with 1. rewrite !Z.mul_1_r.
    specialize (H1 ltac:(lia)).
    assert (d = 1) as -> by nia.
    unfold round_half_even. rewrite Z.mod_1_r. simpl. unfold C. rewrite !Z.div_1_r. lia.
  - set (S := 2 ^ (- (m - 52))).
    assert (0 < S) as HS by (apply Z.pow_pos_nonneg; lia).
    assert (d < 2 * S) as HdS.
    { unfold S. rewrite <- Z.pow_succ_r by lia. destruct (Z.le_gt_cases 0 m) as [Hm0|Hm0].
      - specialize (H1 Hm0). replace (Z.succ (- (m - 52))) with (53 - m) by lia.
        assert (2 ^ (53 - m) * 2 ^ m = 2 ^ 53) as E by (rewrite <- Z.pow_add_r by lia; f_equal; lia).
        assert (0 < 2 ^ m) by (apply Z.pow_pos_nonneg; lia). nia.
      - specialize (H2 Hm0). replace (Z.succ (- (m - 52))) with (53 + - m) by lia.
        rewrite Z.pow_add_r by lia. assert (0 < 2 ^ (- m)) by (apply Z.pow_pos_nonneg; lia). nia. }
    set (q := round_half_even (n * S) d).
    assert (q <= C * S) as Hq1 by (apply round_upper; nia).
    assert ((C - 1) * S + 1 <= q) as Hq2 by (apply round_lower; nia).
    assert ((- q) / S = - C) as ->; [|lia].
    symmetry. apply Z.div_unique with (r := C * S - q); [lia|]. nia.
Qed.

Lemma float_ceil_exact (size bs : nat) :
  Z.of_nat size < 2 ^ 53 -> (0 < bs)%nat -> float_ceil size bs = ((size + bs - 1) / bs)%nat.
Proof.
  intros Hs Hb. unfold float_ceil. rewrite float_div_ceil_exact by lia.
  replace (Z.of_nat size + Z.of_nat bs - 1) with (Z.of_nat (size + bs - 1)) by lia.
  rewrite <- Nat2Z.inj_div. apply Nat2Z.id.
Qed.
