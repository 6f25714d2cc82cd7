(** Retried operations: src/s3ql/backends/common.py, retry (120-208) and RateTracker (58-104); src/s3ql/backends/s3c.py, _parse_retry_after
    (785-805). Numbers of seconds are rationals (floating point numbers in the code); log messages are left out. *)
From stdpp Require Import prelude.
From Coq Require Import QArith.
Open Scope Q_scope.

(** RETRY_TIMEOUT (117), the longest pause (206), the first one (143) *)
Definition retry_timeout : Q := 86400.
Definition max_interval : Q := 300.
Definition first_interval : Q := 1 # 50.
Definition Qlower (a b : Q) : Q := if Qle_bool a b then a else b.
(** The value used for a Retry-After of [v] seconds (800-803) *)
Definition clamp (v : Q) : Q := let m := if Qle_bool v 1 then 1 else v in Qlower 300 m.

Section retry.
(** Results and exceptions; is_temp_failure; the attribute retry_after of an exception *)
Context {V X : Type} (temp : X -> bool) (hint : X -> option Q).
Inductive outcome := Return (v : V) | Fail (x : X).
Inductive result := Returned (v : V) | Raised (x : X) | TimedOut (x : X) | Running.
(** The n-th call of the method, with the argument is_retry *)
Context (attempt : nat -> bool -> outcome).
(** wrapped, 140-206: the pauses (before the random factor) and the result; [Running] when [fuel] attempts were not enough *)
Definition pause (i : Q) (x : X) : Q := match hint x with Some h => if Qeq_bool h 0 then i else h | None => i end.
Fixpoint wrapped (fuel n : nat) (interval waited : Q) : list Q * result :=
  match fuel with
  | O => ([], Running)
  | S fuel =>
      match attempt n (bool_decide (0 < n)%nat) with
      | Return v => ([], Returned v)
      | Fail x => if negb (temp x) then ([], Raised x) else if negb (Qle_bool waited retry_timeout) then ([], TimedOut x) else
          let i := pause interval x in
          let (p, r) := wrapped fuel (S n) (Qlower max_interval (2 * i)) (waited + i) in (i :: p, r)
      end
  end.
Definition retry (fuel : nat) : list Q * result := wrapped fuel 0 first_interval 0.
End retry.
Arguments outcome : clear implicits.
Arguments result : clear implicits.

(** RateTracker: [buckets] has one counter per second of the window (77-95); seconds are integers *)
Record tracker := Tracker { buckets : list nat; last_update : Z }.
Definition slot (n : nat) (t : Z) : nat := Z.to_nat (t mod Z.of_nat n)%Z.
Definition new_tracker (n : nat) (now : Z) : tracker := Tracker (replicate n O) now.
Fixpoint wipe (i : nat) (now : Z) (l : list nat) : list nat :=
  match i with O => l | S i => <[slot (length l) (now - Z.of_nat i) := O]> (wipe i now l) end.
Definition age (now : Z) (t : tracker) : list nat := wipe (Nat.min (Z.to_nat (now - last_update t)) (length (buckets t))) now (buckets t).
Definition register (now : Z) (t : tracker) : tracker := let l := age now t in Tracker (alter S (slot (length l) now) l) now.
Definition get_count (now : Z) (t : tracker) : nat * tracker := let l := age now t in (foldr Nat.add O l, Tracker l (last_update t)).
