(** Python's [int(math.ceil(n / d))] for integers: true division gives the binary64 number nearest to
    the exact quotient (ties to even), [math.ceil] is exact.  Used in fs.py:678, 983 and
    database.py:1089, 1173.  (CPython semantics, no /repo code; overflow to infinity beyond 2^1024
    is left out.) *)
From Coq Require Import ZArith Lia.
Local Open Scope Z_scope.

(** Nearest integer to [num / den], ties to even. *)
Definition round_half_even (num den : Z) : Z :=
  let k := num / den in
  let r := num mod den in
  if 2 * r <? den then k
  else if den <? 2 * r then k + 1
  else if Z.even k then k else k + 1.

(** [m] with [2^m <= n/d < 2^(m+1)]. *)
Definition quot_log2 (n d : Z) : Z :=
  let l := Z.log2 n - Z.log2 d in
  if (if 0 <=? l then d * 2 ^ l <=? n else d <=? n * 2 ^ (- l)) then l else l - 1.

(** The quotient is [q * 2^e] with a 53 bit [q]. *)
Definition float_div_ceil (n d : Z) : Z :=
  if n =? 0 then 0 else
  let e := quot_log2 n d - 52 in
  if 0 <=? e then round_half_even n (d * 2 ^ e) * 2 ^ e
  else let q := round_half_even (n * 2 ^ (- e)) d in - ((- q) / 2 ^ (- e)).

Definition float_ceil (size bs : nat) : nat :=
  Z.to_nat (float_div_ceil (Z.of_nat size) (Z.of_nat bs)).
