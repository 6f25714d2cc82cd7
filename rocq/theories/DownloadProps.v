(** C40: a download that is retried starts over. *)
From stdpp Require Import prelude.
From Verif Require Import DownloadModel.

(** Specification: the byte at a position of a file *)
Definition at_pos (f : file) (i : nat) : option byte := content f !! i.
(** [d] is in the file from [off] on. *)
Definition holds (f : file) (off : nat) (d : bytes) : Prop := forall i, i < length d -> at_pos f (off + i) = d !! i.

Lemma write_lookup d f i : d <> [] -> pos f <= length (content f) -> at_pos (write d f) i =
  if decide (i < pos f) then at_pos f i else if decide (i < pos f + length d) then d !! (i - pos f) else at_pos f i.
Proof.
  intros Hd Hp. destruct d as [|x d0]; [done|]. set (d := x :: d0) in *. unfold at_pos, write. fold d. destruct d as [|y d1] eqn:E; [done|]. rewrite <- E. clear E Hd. cbn [content].
  replace (pos f - length (content f)) with 0 by lia. cbn [replicate app]. case_decide as D1.
  - rewrite lookup_app_l by (rewrite take_length; lia). by rewrite lookup_take.
  - rewrite lookup_app_r by (rewrite take_length; lia). rewrite take_length, Nat.min_l by lia. case_decide as D2.
    + by rewrite lookup_app_l by lia.
    + rewrite lookup_app_r by lia. rewrite lookup_drop. f_equal. lia.
Qed.
Lemma write_pos d f : pos (write d f) = pos f + length d.
Proof. destruct d; cbn; lia. Qed.
Lemma write_length d f : pos f <= length (content f) -> length (content (write d f)) = length (content f) `max` (pos f + length d).
Proof. intros H. destruct d as [|x d]; [cbn; lia|]. unfold write. cbn [content]. rewrite !app_length, take_length, replicate_length, drop_length. lia. Qed.

Section download.
Context {meta digest : Type} `{EqDecision digest} (md5 : bytes -> digest).
Notation attempt := (@attempt meta digest).
Notation s3_readinto := (@s3_readinto meta digest _ md5).
Definition got (a : attempt) : bytes := match a with NoAnswer _ => [] | Breaks d _ | Completes _ _ d => d end.
Definition longest (l : list attempt) : nat := foldr (fun a n => length (got a) `max` n) 0 l.
(** The attempts before the one that counts, and that one *)
Lemma s3_readinto_spec attempts off f f' m : off <= length (content f) -> s3_readinto attempts off f = Some (f', Some m) ->
  exists before etag d rest, attempts = before ++ Completes etag m d :: rest /\ etag = md5 d /\ holds f' off d /\ pos f' = off + length d /\
    (forall i, i < off -> at_pos f' i = at_pos f i) /\
    (forall i, off + length d <= i -> off + longest before <= i -> at_pos f' i = at_pos f i) /\
    length (content f') = length (content f) `max` (off + longest before) `max` (off + length d).
Proof.
  revert f. induction attempts as [|a attempts IH]; intros f Hp E; [done|].
  assert (forall d, length (content (write d (seek off f))) = length (content f) `max` (off + length d) /\ (forall i, i < off \/ off + length d <= i -> at_pos (write d (seek off f)) i = at_pos f i)) as W.
  { intros d. split; [by rewrite write_length|]. intros i Hi. destruct d as [|x d]; [done|]. rewrite write_lookup by done. cbn [pos seek]. case_decide; [done|]. rewrite decide_False by (destruct Hi; [done|lia]). done. }
  assert (forall d, holds (write d (seek off f)) off d) as Wh.
  { intros d i Hi. destruct d as [|x d]; [cbn in Hi; lia|]. rewrite write_lookup by done. cbn [pos seek]. rewrite decide_False by lia. rewrite decide_True by lia. f_equal. lia. }
  assert (forall d, s3_readinto attempts off (write d (seek off f)) = Some (f', Some m) -> length d <= length (got a) -> length (got a) <= length d ->
    exists before etag d rest, a :: attempts = before ++ Completes etag m d :: rest /\ etag = md5 d /\ holds f' off d /\ pos f' = off + length d /\ (forall i, i < off -> at_pos f' i = at_pos f i) /\
    (forall i, off + length d <= i -> off + longest before <= i -> at_pos f' i = at_pos f i) /\ length (content f') = length (content f) `max` (off + longest before) `max` (off + length d)) as Go.
  { intros d Ed Hl Hl'. destruct (W d) as (W1 & W2). apply IH in Ed as (before & etag & d' & rest & -> & He & Hh & Hps & H1 & H2 & H3); [|rewrite W1; lia].
    exists (a :: before), etag, d', rest. split_and!; [done..| | |].
    - intros i Hi. rewrite H1 by done. apply W2. by left.
    - intros i Hi Hi'. cbn [longest foldr] in Hi'. fold (longest before) in Hi'. rewrite H2 by lia. apply W2. right. lia.
    - rewrite H3, W1. cbn [longest foldr]. fold (longest before). lia. }
  destruct a as [t|d t|etag m' d]; cbn [DownloadModel.s3_readinto] in E.
  - destruct t; [|done]. apply IH in E as (before & etag & d' & rest & -> & He & Hh & Hps & H1 & H2 & H3); [|done]. exists (NoAnswer true :: before), etag, d', rest. split_and!; [done..| |].
    + intros i Hi Hi'. apply H2; [done|]. cbn in Hi'. done.
    + rewrite H3. by cbn.
  - destruct t; [|done]. by apply (Go d).
  - case_decide as D.
    + injection E as <- ->. destruct (W d) as (W1 & W2). exists [], etag, d, attempts. split_and!; [done|done|apply Wh|by rewrite write_pos| | |].
      * intros i Hi. apply W2. by left.
      * intros i Hi _. apply W2. by right.
      * rewrite W1. cbn. lia.
    + by apply (Go d).
Qed.
(** A download that returns put the body of its last attempt, whose checksum is right, at the original position; the metadata is from the same answer;
    what was before that position is as it was, and so is what lies beyond everything that was received. *)
Theorem download_starts_over attempts f f' m : pos f <= length (content f) -> s3_readinto_fh md5 attempts f = Some (f', Some m) ->
  exists before etag d rest, attempts = before ++ Completes etag m d :: rest /\ etag = md5 d /\ holds f' (pos f) d /\ pos f' = pos f + length d /\
    (forall i, i < pos f -> at_pos f' i = at_pos f i) /\ (forall i, pos f + length d <= i -> pos f + longest before <= i -> at_pos f' i = at_pos f i).
Proof. intros Hp E. apply s3_readinto_spec in E as (b & e & d & r & H1 & H2 & H3 & H4 & H5 & H6 & _); [|done]. by exists b, e, d, r. Qed.
(** The result of fetch is the object: if no attempt got more than the object has (or a checksum fits something else). *)
Theorem fetch_exact attempts obj r m : (forall d etag m', Completes etag m' d ∈ attempts -> etag = md5 d -> d = obj) -> (forall a, a ∈ attempts -> length (got a) <= length obj) ->
  s3_fetch md5 attempts = Some (r, Some m) -> r = obj /\ exists etag, Completes etag m obj ∈ attempts.
Proof.
  intros Hc Hl E. unfold s3_fetch, s3_readinto_fh in E. destruct (DownloadModel.s3_readinto _ _ _ _) as [[f' m']|] eqn:Er; [|done]. injection E as <- ->.
  apply s3_readinto_spec in Er as (before & etag & d & rest & -> & He & Hh & _ & _ & _ & H3); [|done]. assert (Completes etag m d ∈ before ++ Completes etag m d :: rest) as Hin by (apply elem_of_app; right; left).
  assert (d = obj) as -> by by eapply Hc. split; [|by exists etag]. assert (longest before <= length obj) as Hb.
  { assert (forall a, a ∈ before -> length (got a) <= length obj) as Hl' by (intros a Ha; apply Hl, elem_of_app; by left). clear - Hl'. induction before as [|a b IH]; cbn; [lia|]. apply Nat.max_lub; [apply Hl'; left|apply IH; intros x Hx; apply Hl'; by right]. }
  cbn [content pos length] in H3, Hh. apply list_eq. intros i. destruct (decide (i < length obj)) as [Hi|Hi]; [by apply Hh|]. rewrite !lookup_ge_None_2; [done|lia|lia].
Qed.
End download.

(** The file is not truncated between attempts: after a longer answer the rest of that stays. *)
Theorem fetch_tail_refuted : ~ forall (md5 : bytes -> nat) attempts obj r m, (forall d etag (m' : unit), Completes etag m' d ∈ attempts -> etag = md5 d -> d = obj) ->
  s3_fetch md5 attempts = Some (r, Some m) -> r = obj.
Proof.
  intros Q. specialize (Q (fun d => nth 0 d 0) [Breaks [1; 2; 3] true; Completes 5 () [5]] [5] [5; 2; 3] ()). cbn in Q.
  assert ([5; 2; 3] = [5]); [|done]. apply Q; [|done]. intros d etag m' H _. apply elem_of_cons in H as [?|H]; [done|]. apply elem_of_list_singleton in H. congruence.
Qed.
(** A connection that breaks twice, and a body with wrong checksum, at a position inside the file *)
Example download_case : s3_readinto_fh (fun d => nth 0 d 0) [NoAnswer true; Breaks [5; 6] true; Completes 9 1 [7; 7; 7]; Breaks [5; 6; 7] true; Completes 5 2 [5; 6; 7]] (File [1; 1; 1] 2) = Some (File [1; 1; 5; 6; 7] 5, Some 2).
Proof. reflexivity. Qed.

(** gs: the same if no attempt that fails got data, and every answer is about the same object. *)
Theorem gs_exact {meta} (attempts : list (@gs_attempt meta)) obj m r m' : (forall a, a ∈ attempts -> match a with GsBreaks _ d _ => d = [] | GsCompletes m0 d => d = obj /\ m0 = m | _ => True end) ->
  gs_fetch attempts = Some (r, Some m') -> r = obj /\ m' = m.
Proof.
  intros H E. unfold gs_fetch, gs_readinto_fh in E. cbn [pos] in E. destruct (gs_readinto _ _ _) as [[f o]|] eqn:Er; [|done]. injection E as <- ->. revert H Er. induction attempts as [|a l IH]; intros H Er; [done|].
  assert (forall a, a ∈ l -> match a with GsBreaks _ d _ => d = [] | GsCompletes m0 d => d = obj /\ m0 = m | _ => True end) as Hl by (intros x Hx; apply H; by right).
  destruct a as [[]|m0 []|m0 d []|m0 d]; cbn [gs_readinto] in Er; try done; try by apply IH.
  - assert (d = []) as -> by (apply (H (GsBreaks m0 d true)); left). by apply IH.
  - injection Er as <- ->. destruct (H (GsCompletes m' d)) as [-> ->]; [left|]. split; [|done]. destruct obj; [done|]. cbn. by rewrite app_nil_r.
Qed.
(** In general not: the position is not set back, so the data of a broken attempt stays in front. *)
Theorem gs_resume_refuted : ~ forall (attempts : list (@gs_attempt unit)) obj r m, (forall a, a ∈ attempts -> match a with GsBreaks _ d _ => d `prefix_of` obj | GsCompletes _ d => d = obj | _ => True end) ->
  gs_fetch attempts = Some (r, Some m) -> r = obj.
Proof.
  intros Q. specialize (Q [GsBreaks () [5] true; GsCompletes () [5; 6]] [5; 6] [5; 5; 6] () ). assert ([5; 5; 6] = [5; 6]); [|done]. apply Q; [|done].
  intros a Ha. apply elem_of_cons in Ha as [->|Ha]; [by exists [6]|]. by apply elem_of_list_singleton in Ha as ->.
Qed.
(** Metadata and data are two requests: they can belong to different versions of an object. *)
Theorem gs_torn_refuted : ~ forall (attempts : list (@gs_attempt nat)) (versions : list (bytes * nat)) r m, (forall a, a ∈ attempts -> match a with GsCompletes m0 d => d ∈ versions.*1 /\ m0 ∈ versions.*2 | _ => False end) ->
  gs_fetch attempts = Some (r, Some m) -> (r, m) ∈ versions.
Proof.
  intros Q. specialize (Q [GsCompletes 1 [6]] [([5], 1); ([6], 2)] [6] 1). assert (([6], 1) ∈ [([5], 1); ([6], 2)]) as H; [|set_solver]. apply Q; [|done]. intros a ->%elem_of_list_singleton. cbn. set_solver.
Qed.
Example gs_case : gs_fetch [GsNoMeta true; GsNoAnswer 1 true; GsCompletes 1 [5; 6]] = Some ([5; 6], Some 1).
Proof. reflexivity. Qed.
Print Assumptions download_starts_over. Print Assumptions fetch_exact. Print Assumptions fetch_tail_refuted. Print Assumptions gs_exact. Print Assumptions gs_resume_refuted. Print Assumptions gs_torn_refuted.
