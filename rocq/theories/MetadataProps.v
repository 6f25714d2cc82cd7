(** Properties C24, C25, C26, C59: metadata upload, download, expiry and change tracking. *)
From stdpp Require Import prelude list gmap sorting.
From Verif Require Import Files MetadataModel MetadataSpec MetadataInv MetadataLemmas.

(** C24/C59. Take any gap-free history.  At some point an upload pass that updates the parameters
    ends; [db_data (st_db s1)] is the database file at that moment.  After any further history -
    more writes, uploads with concurrent writes, expiry, crashes, remounts on other machines - the
    backup, if it is still listed, downloads to exactly that file, whatever order the backend lists
    the blocks in. *)
Theorem backup_restores_exactly :
  forall (hash : file -> list byte) bs sq f0 es1 s1 s2 es2 s3 p bl,
    0 < bs ->
    run hash bs (init sq f0) es1 = Some s1 -> run_hole_free hash bs (init sq f0) es1 ->
    st_final s1 = true -> step hash bs s1 EFinish = Some s2 ->
    run hash bs s2 es2 = Some s3 -> run_hole_free hash bs s2 es2 ->
    prms (st_remote s3) !! p_seq (st_params s1) = Some p ->
    bl ≡ₚ block_nos (st_remote s3) ->
    download_order hash bs (st_remote s3) p bl = DlOk (db_data (st_db s1)).
Proof. exact backup_restores_exactly_lemma. Qed.
Print Assumptions backup_restores_exactly.

(** A history meeting the hypotheses, with concurrent writes, truncation, expiry and a crash. *)
Definition ex_hash (f : file) : list byte := f.
Definition ex_es1 : list event :=
  [EBegin false true; EJob 1; EJob 0; EFinish;
   EWrite 2 [7; 8]; EBegin true false; EWrite 3 [9; 9; 9]; EJob 1; EJob 0; EFinish;
   ETruncate 5; EBegin true true; EJob 0].
Definition ex_es2 : list event :=
  [EFinish; EWrite 0 [5]; EBegin true true; EJob 0; EFinish; EExpire 3; ECrash [1; 2; 3; 4];
   EBegin false true; EJob 1; EJob 0].
Definition ex_after : option (state * state) :=
  match run ex_hash 3 (init 10 [1; 2; 3; 4; 5]) ex_es1 with
  | Some s1 => match run ex_hash 3 s1 ex_es2 with Some s3 => Some (s1, s3) | None => None end
  | None => None
  end.
Example backup_restores_exactly_example :
  match ex_after with
  | Some (s1, s3) =>
    st_final s1 = true /\ p_seq (st_params s1) = 11 /\ db_data (st_db s1) = [1; 2; 7; 9; 9] /\
    run_hole_free ex_hash 3 (init 10 [1; 2; 3; 4; 5]) (ex_es1 ++ ex_es2) /\
    exists p, prms (st_remote s3) !! 11 = Some p /\
      download ex_hash 3 (st_remote s3) p = DlOk [1; 2; 7; 9; 9]
  | None => False
  end.
Proof.
  vm_compute. split_and!; try reflexivity; try (repeat constructor; fail).
  eexists. split; reflexivity.
Qed.

(** C24, for every history, gaps or not: a download never silently yields something else - the
    result of a successful download has the checksum of the file that was uploaded. *)
Theorem download_never_wrong :
  forall (hash : file -> list byte) bs s0 es1 s1 s2 es2 s3 p bl f,
    run hash bs s0 es1 = Some s1 ->
    st_final s1 = true -> step hash bs s1 EFinish = Some s2 ->
    run hash bs s2 es2 = Some s3 ->
    prms (st_remote s3) !! p_seq (st_params s1) = Some p ->
    download_order hash bs (st_remote s3) p bl = DlOk f ->
    f = db_data (st_db s1) \/ (f <> db_data (st_db s1) /\ hash f = hash (db_data (st_db s1))).
Proof. exact download_never_wrong_lemma. Qed.
Print Assumptions download_never_wrong.

(** The history of the refutation below meets the hypotheses up to the download, which then fails. *)
Example download_never_wrong_example :
  match ex_after with
  | Some (s1, s3) => exists p, prms (st_remote s3) !! p_seq (st_params s1) = Some p /\
      download ex_hash 3 (st_remote s3) p = DlOk (db_data (st_db s1))
  | None => False
  end.
Proof. vm_compute. eexists. split; reflexivity. Qed.

(** C25. For every content of the backend: expiry removes no parameter object among the [n] newest,
    and every backup that is left downloads to the same result as before. *)
Theorem expire_preserves_backups :
  forall (hash : file -> list byte) bs n r r' q p bl bl',
    0 < bs -> (forall k o, objs r !! k = Some o -> length o <= bs) ->
    (forall q p, prms r !! q = Some p -> p_seq p = q) ->
    expire_objects bs n r = Some r' ->
    prms r' !! q = Some p -> bl ≡ₚ block_nos r -> bl' ≡ₚ block_nos r' ->
    prms r !! q = Some p /\
    download_order hash bs r' p bl' = download_order hash bs r p bl.
Proof. exact expire_preserves_backups_lemma. Qed.
Print Assumptions expire_preserves_backups.

(** C25. The retained parameter objects are the [n] with the largest sequence numbers. *)
Theorem expire_keeps_newest :
  forall bs n r r' q p,
    0 < n -> expire_objects bs n r = Some r' -> prms r !! q = Some p ->
    (is_Some (prms r' !! q) <->
     length (filter (fun q' => q < q') (elements (dom (prms r)))) < n).
Proof. exact expire_keeps_newest_lemma. Qed.
Print Assumptions expire_keeps_newest.

(** C25. Everything that is left of the metadata blocks is needed by a retained backup. *)
Theorem expire_removes_unneeded :
  forall bs n r r' b v,
    0 < bs -> expire_objects bs n r = Some r' -> is_Some (objs r' !! (b, v)) ->
    exists q p, prms r' !! q = Some p /\ b * bs < p_size p /\ v <= q /\
      forall v', is_Some (objs r !! (b, v')) -> v' <= q -> v' <= v.
Proof. exact expire_removes_unneeded_lemma. Qed.
Print Assumptions expire_removes_unneeded.

(** C25. In gap-free histories expiry never raises. *)
Theorem expire_never_fails :
  forall (hash : file -> list byte) bs sq f0 es s n,
    0 < bs -> run hash bs (init sq f0) es = Some s -> run_hole_free hash bs (init sq f0) es ->
    is_Some (expire_objects bs n (st_remote s)).
Proof. exact expire_never_fails_lemma. Qed.
Print Assumptions expire_never_fails.

Example expire_example :
  match ex_after with
  | Some (s1, s3) =>
    match expire_objects 3 2 (st_remote s3) with
    | Some r => elements (dom (prms (st_remote s3))) = [11; 13; 12; 14] /\ elements (dom (prms r)) = [13; 14]
                /\ size (objs (st_remote s3)) = 5 /\ size (objs r) = 4
    | None => False
    end
  | None => False
  end.
Proof. vm_compute. auto. Qed.

(** C26. In every gap-free history, whenever no upload is running (and the tracker is in charge,
    i.e. no crash happened since the last completed upload), a block of the database that is not
    marked as modified has its current content stored as its newest version. *)
Theorem unmarked_blocks_are_stored :
  forall (hash : file -> list byte) bs sq f0 es s b,
    0 < bs -> run hash bs (init sq f0) es = Some s -> run_hole_free hash bs (init sq f0) es ->
    st_pass s = false -> st_mode s <> NeedsFull ->
    b * bs < length (db_data (st_db s)) -> b ∉ db_dirty (st_db s) ->
    exists o, newest (st_remote s) b o /\
      forall i, i < bs -> b * bs + i < length (db_data (st_db s)) ->
        nth i o 0 = nth (b * bs + i) (db_data (st_db s)) 0.
Proof. exact unmarked_blocks_are_stored_lemma. Qed.
Print Assumptions unmarked_blocks_are_stored.

Example unmarked_blocks_are_stored_example :
  match run ex_hash 3 (init 10 [1; 2; 3; 4; 5]) (take 10 ex_es1) with
  | Some s => st_pass s = false /\ st_mode s <> NeedsFull /\ db_data (st_db s) = [1; 2; 7; 9; 9; 9] /\
              elements (db_dirty (st_db s)) = [1] /\
              map_to_list (objs (st_remote s)) =
                [((1, 11), [9; 9]); ((1, 10), [4; 5]); ((0, 11), [1; 2; 7]); ((0, 10), [1; 2; 3])]
  | None => False
  end.
Proof. vm_compute. split_and!; try reflexivity; done. Qed.

(** C26/C24 without the gap-free condition. Shrinking the file and growing it again with a gap
    leaves a block unmarked whose stored version is stale: the backup just uploaded cannot be
    downloaded. *)
Theorem gap_after_shrink_refuted :
  exists es s p,
    run ex_hash 2 (init 10 [1; 1; 1; 1]) es = Some s /\ st_mode s = Clean /\
    prms (st_remote s) !! 12 = Some p /\ db_data (st_db s) = [1; 1; 0; 0; 5] /\
    download ex_hash 2 (st_remote s) p = DlChecksum.
Proof. exact gap_after_shrink_refuted_lemma. Qed.
Print Assumptions gap_after_shrink_refuted.

(** C25 without the gap-free condition. A gap that is filled later makes expiry raise (and the
    earlier backup impossible to download). *)
Theorem gap_filled_later_refuted :
  exists es s p,
    run ex_hash 2 (init 10 [1; 1]) es = Some s /\ st_mode s = Clean /\
    prms (st_remote s) !! 11 = Some p /\
    download ex_hash 2 (st_remote s) p = DlNoVersion 1 /\
    expire_objects 2 32 (st_remote s) = None.
Proof. exact gap_filled_later_refuted_lemma. Qed.
Print Assumptions gap_filled_later_refuted.
