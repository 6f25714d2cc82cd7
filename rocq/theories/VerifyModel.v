(** s3ql_verify: src/s3ql/verify.py 64-73 (_open_new_file), 76-157 (verify), 167-289 (RetrieveObjects), and
    common.py 426-490 (ParallelPipeline.run).

    The storage maps names to what the underlying backend holds and does not change during the run. Decryption is
    ComprencModel. Not modelled: logging, errors of the underlying backend (retried or aborting the run), and the opening
    of the backend and of the database (SetupModel, MetadataModel). *)
From stdpp Require Import prelude gmap.
From Coq.Strings Require Import Byte.
From Coq Require Import String.
From Verif Require Import Decimal Bytes ComprencModel SetupModel.
Local Close Scope string_scope.
Local Close Scope N_scope.
Local Open Scope nat_scope.
Local Open Scope list_scope.

(** One row of the table objects: id, hash, length (ObjectToVerify 57-61 where the hash is present) *)
Record row := Row { r_id : nat; r_hash : option bytes; r_len : nat }.
Record obj := Obj { o_id : nat; o_hash : bytes; o_len : nat }.
(** 's3ql_data_%d' % obj_id, 243 *)
Definition data_name (i : nat) : bytes := str "s3ql_data_" ++ ((fun c => byte_of (N.of_nat c)) <$> dec i).

(** _iter_objects 197-237, from the [i]-th row on: the objects that are yielded, and whether the generator then raises
    RuntimeError. *)
Fixpoint iter_objects (offset : Z) (i : nat) (rows : list row) : list obj * bool :=
  match rows with
  | [] => ([], false)
  | Row id h len :: rows =>
    match h with
    | None => ([], true)                                                           (* 207-211 *)
    | Some h => let '(l, e) := iter_objects offset (S i) rows in
                if decide (Z.of_nat i <= offset)%Z then (l, e) else (Obj id h len :: l, e)     (* 235-237 *)
    end
  end.

Inductive outcome := Fine | IsMissing | IsCorrupted | Abort.
Global Instance outcome_eq_dec : EqDecision outcome.
Proof. solve_decision. Defined.

(** A worker owns a buffer that is used again for every object (240). *)
Inductive worker := Idle (buf : bytes) | Busy (buf : bytes) (o : obj).
(** [todo]: what the generator will still yield, and whether it raises then; [chan]: the memory channel *)
Record vstate := VState { todo : list obj; raises : bool; chan : list obj; workers : list worker; missing : list bytes; corrupted : list bytes; failed : bool }.

Section verify.
Context (bufsize : nat) (cdec : bytes -> nat -> byte -> byte) (sha256 : bytes -> bytes) (hmac : bytes -> bytes -> bytes).
Context (decomp : algorithm -> list bytes -> option (bytes * bool * bytes)) (thaw : bytes -> option mapping).
Context (p : option bytes) (st : storage) (full : bool) (cap : nat).

(** One round of consume 241-283 with the buffer [buf]. [junk]: what a failed readinto_fh leaves in it. *)
Definition consume (buf junk : bytes) (o : obj) : outcome * bytes :=
  let key := data_name (o_id o) in
  match st !! key with
  | None => (IsMissing, buf)                                                       (* 251-254 *)
  | Some (m, d) =>
    if full then
      match readinto_fh bufsize cdec sha256 hmac decomp thaw p key m d with
      | Ok (_, out) =>
        let buf := out ++ drop (List.length out) buf in                            (* written from offset 0 on, 246-247 *)
        let buf := take (List.length out) buf in                                   (* truncate, 248 *)
        let size := List.length out in                                             (* tell, 263 *)
        if decide (o_len o <> size) then (IsCorrupted, buf)                        (* 267-275 *)
        else if decide (o_hash o <> sha256 buf) then (IsCorrupted, buf)            (* 277-285 *)
        else (Fine, buf)
      | Corrupted => (IsCorrupted, junk)                                           (* 255-258 *)
      | _ => (Abort, junk)
      end
    else match lookup cdec sha256 hmac thaw p key m with
      | Ok _ => (Fine, buf)
      | Corrupted => (IsCorrupted, buf)
      | _ => (Abort, buf)
      end
  end.

(** The interleavings of the producer and the workers; an exception in one of them cancels all others. *)
Inductive step : vstate -> vstate -> Prop :=
  | step_send o l e ch ws m c : List.length ch < cap -> step (VState (o :: l) e ch ws m c false) (VState l e (ch ++ [o]) ws m c false)
  | step_raise ch ws m c : step (VState [] true ch ws m c false) (VState [] true ch ws m c true)
  | step_receive l e o ch ws1 ws2 b m c : step (VState l e (o :: ch) (ws1 ++ Idle b :: ws2) m c false) (VState l e ch (ws1 ++ Busy b o :: ws2) m c false)
  | step_check l e ch ws1 ws2 b o junk r b' m c : consume b junk o = (r, b') ->
      step (VState l e ch (ws1 ++ Busy b o :: ws2) m c false)
           (VState l e ch (ws1 ++ Idle b' :: ws2)
              (if decide (r = IsMissing) then m ++ [data_name (o_id o)] else m)
              (if decide (r = IsCorrupted) then c ++ [data_name (o_id o)] else c) (bool_decide (r = Abort))).
Definition init (offset : Z) (rows : list row) (n : nat) : vstate :=
  let '(l, e) := iter_objects offset 1 rows in VState l e [] (replicate n (Idle [])) [] [] false.
(** All jobs are done and all workers have left. *)
Definition finished (s : vstate) : Prop :=
  failed s = false /\ todo s = [] /\ raises s = false /\ chan s = [] /\ Forall (fun w => exists b, w = Idle b) (workers s).
End verify.

(** The lines of a report, and the files after the end of the program, 64-73, 151-157, 254, 258: [Some] the content, [None] removed.
    The two files are opened separately; if both names are the same, each handle writes from offset 0 on ([m_last]: the
    missing objects are flushed last). *)
Definition lines (l : list bytes) : bytes := List.concat ((fun x => x ++ [x0a]) <$> l).
Definition overlay (a b : bytes) : bytes := a ++ drop (List.length a) b.
Definition reports (same m_last : bool) (m c : list bytes) : option bytes * option bytes * nat :=
  let '(tm, tc) := (lines m, lines c) in
  if decide (tm <> [] \/ tc <> []) then
    if same then let f := if m_last then overlay tm tc else overlay tc tm in (Some f, Some f, 46) else (Some tm, Some tc, 46)
  else (None, None, if same then 1 else 0).     (* the second unlink fails *)
(** _open_new_file: refused if the file exists and is not empty *)
Definition open_new (old : option bytes) : option bytes := match old with Some (_ :: _) => None | _ => Some [] end.
