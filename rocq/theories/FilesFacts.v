(** Lemmas about [Files]. *)
From stdpp Require Import prelude list.
From Verif Require Import Files.

Lemma byte_at_ge f i : length f <= i -> byte_at f i = 0.
Proof. apply nth_overflow. Qed.

Lemma byte_at_app f g i :
  byte_at (f ++ g) i = if decide (i < length f) then byte_at f i else byte_at g (i - length f).
Proof.
  unfold byte_at. case_decide.
  - by apply app_nth1.
  - apply app_nth2. lia.
Qed.

Lemma byte_at_replicate n i : byte_at (replicate n 0) i = 0.
Proof. unfold byte_at. revert i. induction n; intros [|i]; simpl; auto. Qed.

Lemma byte_at_take n f i : byte_at (take n f) i = if decide (i < n) then byte_at f i else 0.
Proof.
  unfold byte_at. case_decide.
  - revert n i H. induction f; intros [|n] [|i]; simpl; intros; try lia; auto with lia.
  - apply nth_overflow. rewrite take_length. lia.
Qed.

Lemma byte_at_drop n f i : byte_at (drop n f) i = byte_at f (n + i).
Proof.
  unfold byte_at. revert f. induction n; intros f; [done|].
  destruct f; simpl; [by destruct i|auto].
Qed.

Lemma length_fwrite off d f :
  length (fwrite off d f) = if decide (d = []) then length f else max (length f) (off + length d).
Proof.
  unfold fwrite. destruct d as [|x d].
  - rewrite decide_True; done.
  - rewrite decide_False by done.
    rewrite !app_length, take_length, replicate_length, drop_length. simpl. lia.
Qed.

Lemma byte_at_fwrite off d f i :
  byte_at (fwrite off d f) i =
  if decide (off <= i < off + length d) then byte_at d (i - off) else byte_at f i.
Proof.
  unfold fwrite. destruct d as [|x d].
  - rewrite decide_False; [done|simpl; lia].
  - rewrite !byte_at_app, take_length, replicate_length, byte_at_take, byte_at_replicate,
      byte_at_drop.
    repeat case_decide; try lia; try done; try (rewrite byte_at_ge by lia; done); f_equal; lia.
Qed.

Lemma length_ftrunc n f : length (ftrunc n f) = n.
Proof. unfold ftrunc. rewrite app_length, take_length, replicate_length. lia. Qed.

Lemma byte_at_ftrunc n f i : byte_at (ftrunc n f) i = if decide (i < n) then byte_at f i else 0.
Proof.
  unfold ftrunc. rewrite byte_at_app, byte_at_take, take_length, byte_at_replicate.
  repeat case_decide; try lia; try done. rewrite byte_at_ge by lia; done.
Qed.

Lemma length_fread off n f : length (fread off n f) = min n (length f - off).
Proof. unfold fread. by rewrite take_length, drop_length. Qed.

Lemma byte_at_fread off n f i :
  byte_at (fread off n f) i = if decide (i < n) then byte_at f (off + i) else 0.
Proof. unfold fread. rewrite byte_at_take, byte_at_drop. done. Qed.

(** Two files with the same size and the same bytes are the same. *)
Lemma file_ext (f g : file) :
  length f = length g -> (forall i, i < length f -> byte_at f i = byte_at g i) -> f = g.
Proof. intros Hl Hb. apply (nth_ext _ _ 0 0); [done|]. intros. by apply Hb. Qed.
