(** Properties C01, C02: file contents. *)
From Coq Require Import ZArith.
From stdpp Require Import prelude list gmap.
From Verif Require Import Files FloatModel FileModel FileSpec FileLemmas.

(** C01. Every history of creations, reads, writes, truncations, size queries, removals and
    write protection on any files: all answers are those of plain byte arrays. *)
Theorem files_are_byte_arrays :
  forall bs os, 0 < bs ->
    Forall nonempty_writes os -> Forall no_damage os -> Forall small_op os ->
    (run float_ceil bs init os).2 = (ideal_run (Files_ ∅ ∅) os).2.
Proof. exact files_are_byte_arrays_lemma. Qed.
Print Assumptions files_are_byte_arrays.

Definition ex_ops : list op :=
  [Create 1; Create 2; Write 1 2 [1; 2; 3; 4; 5; 6; 7]; Write 2 0 [9]; Read 1 0 20; Truncate 1 5;
   Truncate 1 8; Read 1 3 5; Size 1; Write 1 10 [8]; Read 1 4 10; Read 2 0 5; SetLocked 2;
   Write 2 0 [1]; Purge 1; Read 2 0 1].
Example files_are_byte_arrays_example :
  Forall nonempty_writes ex_ops /\ Forall no_damage ex_ops /\ Forall small_op ex_ops /\
  (run float_ceil 3 init ex_ops).2 =
    [ADone; ADone; ANum 7; ANum 1; AData [0; 0; 1; 2; 3; 4; 5; 6; 7]; ADone; ADone;
     AData [2; 3; 0; 0; 0]; ANum 8; ANum 1; AData [3; 0; 0; 0; 0; 0; 8]; AData [9]; ADone;
     AErr EPERM; ADone; AData [9]].
Proof.
  split_and!; [..|vm_compute; reflexivity]; repeat constructor; done.
Qed.

(** C01 with damaged storage: blocks may become unreadable at any time.  Then calls may fail, but
    every answer - in particular every successful read, before and after failures - is one that
    byte arrays allow, where a failed write may have taken effect partially. *)
Theorem damaged_files_never_lie :
  forall bs os, 0 < bs -> Forall nonempty_writes os -> Forall small_op os ->
    exists a, allowed_run (Files_ ∅ ∅) os a (run float_ceil bs init os).2.
Proof. exact damaged_files_never_lie_lemma. Qed.
Print Assumptions damaged_files_never_lie.

Definition ex_damage : list op :=
  [Create 1; Write 1 0 [1; 2; 3; 4; 5]; Damage (1, 1) Corrupt; Read 1 0 3; Write 1 2 [7; 7]; Read 1 0 3;
   Read 1 3 1; Truncate 1 0].
Example damaged_files_never_lie_example :
  Forall nonempty_writes ex_damage /\ Forall small_op ex_damage /\
  (run float_ceil 3 init ex_damage).2 =
    [ADone; ANum 5; ADone; AData [1; 2; 3]; AErr EIO; AData [1; 2; 7]; AErr EIO; AErr EPERM].
Proof. split_and!; [..|vm_compute; reflexivity]; repeat constructor; done. Qed.

(** C02. After any history: shrink (or set) the size to [n], extend the file again by truncation or
    by a write at or after the range that is read: everything from [n] on reads as zero. *)
Theorem truncated_bytes_never_return :
  forall bs os ino n grow off len answers,
    0 < bs -> Forall nonempty_writes os -> Forall no_damage os -> Forall small_op os ->
    below_limit n -> nonempty_writes grow -> small_op grow ->
    match grow with
    | Truncate ino' _ => ino' = ino
    | Write ino' w _ => ino' = ino /\ off + len <= w
    | _ => False
    end ->
    n <= off ->
    (run float_ceil bs (run float_ceil bs init os).1
       [Truncate ino n; grow; Read ino off len; Size ino]).2 = answers ->
    forall d size g, answers = [ADone; g; AData d; ANum size] -> d = replicate (min len (size - off)) 0.
Proof. exact truncated_bytes_never_return_lemma. Qed.
Print Assumptions truncated_bytes_never_return.

Example truncated_bytes_never_return_example :
  (run float_ceil 3 (run float_ceil 3 init [Create 1; Write 1 0 [1; 2; 3; 4; 5; 6; 7; 8]]).1
     [Truncate 1 4; Write 1 9 [5]; Read 1 4 5; Size 1]).2 =
  [ADone; ANum 1; AData [0; 0; 0; 0; 0]; ANum 10].
Proof. vm_compute. reflexivity. Qed.

(** C02. A file never holds blocks wholly beyond its end (so shrinking releases them), and a removed
    file holds none. *)
Theorem no_blocks_beyond_end :
  forall bs os ino b, 0 < bs ->
    Forall nonempty_writes os -> Forall no_damage os -> Forall small_op os ->
    is_Some (blks (run float_ceil bs init os).1 !! (ino, b)) ->
    exists n, (step float_ceil bs (run float_ceil bs init os).1 (Size ino)).2 = ANum n /\ b * bs < n.
Proof. exact blocks_released_lemma. Qed.
Print Assumptions no_blocks_beyond_end.

Example no_blocks_beyond_end_example :
  elements (dom (blks (run float_ceil 3 init (take 5 ex_ops)).1)) = [(1, 1); (1, 0); (1, 2); (2, 0)] /\
  elements (dom (blks (run float_ceil 3 init (take 6 ex_ops)).1)) = [(1, 1); (1, 0); (2, 0)] /\
  elements (dom (blks (run float_ceil 3 init ex_ops).1)) = [(2, 0)].
Proof. vm_compute. auto. Qed.

(** C02. No block is longer than the configured maximum object size, damage or not. *)
Theorem blocks_bounded :
  forall bs os k c, 0 < bs -> Forall nonempty_writes os -> Forall small_op os ->
    blks (run float_ceil bs init os).1 !! k = Some c -> length c <= bs.
Proof. exact blocks_bounded_lemma. Qed.
Print Assumptions blocks_bounded.

Example blocks_bounded_example :
  blks (run float_ceil 3 init (take 5 ex_ops)).1 !! (1, 1) = Some [2; 3; 4].
Proof. vm_compute. reflexivity. Qed.

(** C02 fails for files of 2^54 bytes: the number of blocks is computed with a float division, one
    block survives the truncation, and its byte comes back when the file is extended. *)
Theorem truncated_bytes_return_refuted :
  exists bs K,
    (run float_ceil bs init
      [Create 1; Write 1 (K * bs) [7]; Truncate 1 0; Truncate 1 (K * bs + 1); Read 1 (K * bs) 1]).2
    = [ADone; ANum 1; ADone; ADone; AData [7]].
Proof. exact truncated_bytes_return_lemma. Qed.
Print Assumptions truncated_bytes_return_refuted.

(** An empty write beyond the end extends the file (a byte array, like POSIX, would not). *)
Theorem empty_write_extends_refuted :
  exists os, (run float_ceil 3 init os).2 <> (ideal_run (Files_ ∅ ∅) os).2 /\
    os = [Create 1; Write 1 5 []; Size 1].
Proof. eexists. split; [|reflexivity]. vm_compute. discriminate. Qed.
Print Assumptions empty_write_extends_refuted.

(** The division is exact for sizes below 2^53. *)
Theorem float_ceil_is_exact :
  forall size bs : nat, (Z.of_nat size < 2 ^ 53)%Z -> 0 < bs ->
    float_ceil size bs * bs - bs < size <= float_ceil size bs * bs \/ size = 0 /\ float_ceil size bs = 0.
Proof. exact float_ceil_is_exact_lemma. Qed.
Print Assumptions float_ceil_is_exact.

Example float_ceil_is_exact_example :
  float_ceil 7 3 = 3 /\ float_ceil 6 3 = 2 /\ float_ceil 1 3 = 1 /\
  float_div_ceil (2 ^ 53 - 1) 3 = 3002399751580331%Z.
Proof. vm_compute. auto. Qed.
