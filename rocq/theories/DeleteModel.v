(** Deletion of several objects: src/s3ql/backends/common.py, delete_multi and _ParallelDelete (395-411, 693-727, run by ParallelPipeline,
    src/s3ql/common.py 426-490); local.py, delete_multi (203-214); s3c4.py, delete_multi and _delete_multi (88-155); swift.py, delete_multi and
    _delete_multi (612-783). The state is the list of keys and the set of objects in the backend. Progress messages are left out. *)
From stdpp Require Import prelude gmap.

Definition key := nat.
(** list.remove: the first occurrence *)
Fixpoint remove_first (k : key) (l : list key) : list key := match l with [] => [] | x :: l => if decide (x = k) then l else x :: remove_first k l end.

(** * Local backend. [fails i]: the i-th call of delete raises an exception (and then did not remove anything). The result: keys, objects, and
    whether the method returned normally. *)
Section local.
Context (fails : nat -> bool) (keys : list key).
Fixpoint local_loop (rest : list key) (i : nat) (objs : gset key) : list key * gset key * bool :=
  match rest with
  | [] => ([], objs, true)
  | k :: rest => if fails i then (drop i keys, objs, false) else local_loop rest (S i) (objs ∖ {[k]})
  end.
Definition local_delete (objs : gset key) := local_loop keys 0 objs.
End local.

(** * Parallel deletion. [queue]: keys not yet taken by a worker; [flight]: keys for which a worker awaits backend.delete. *)
Record par := Par { queue : list key; flight : list key; pkeys : list key; pobjs : gset key }.
Definition par_start (keys : list key) (objs : gset key) : par := Par keys [] keys objs.
Inductive par_step (workers : nat) : par -> par -> Prop :=
  | Take k q f l o : length f < workers -> par_step workers (Par (k :: q) f l o) (Par q (k :: f) l o)
  (* the server removes the object, the worker does not know yet *)
  | Effect k q f l o : k ∈ f -> par_step workers (Par q f l o) (Par q f l (o ∖ {[k]}))
  (* delete returns; keys.remove (717) *)
  | Done k q f1 f2 l o : par_step workers (Par q (f1 ++ k :: f2) l o) (Par q (f1 ++ f2) (remove_first k l) (o ∖ {[k]})).
(** run returns when nothing is left; when a worker raises an exception (possible at any time with a key in flight), the others are cancelled
    and the exception is passed on. *)
Definition par_returns (p : par) : Prop := queue p = [] /\ flight p = [].
Definition par_raises (p : par) : Prop := flight p <> [].

(** * s3c4 *)
(** Codes of the errors in an answer: NoSuchKey, or others, which get_S3Error makes into exceptions that are temporary or not *)
Inductive code := NoSuchKey | Code (temporary : bool).
(** The answer to a request: keys reported as deleted, keys with errors; or no usable answer: an exception after the server has removed some *)
Inductive answer := Answer (deleted : list key) (errors : list (key * code)) | Broken (removed : list key) (temporary : bool).
Inductive outcome := Ok | Retry | Raise.
(** One call of _delete_multi: the list, the objects, what happens next (128-155). ValueError of keys.remove (140) is [Raise]. *)
Fixpoint remove_all (ks l : list key) : option (list key) := match ks with [] => Some l | k :: ks => if decide (k ∈ l) then remove_all ks (remove_first k l) else None end.
Definition s3_effect (a : answer) (objs : gset key) : gset key := match a with Answer d _ => objs ∖ list_to_set d | Broken d _ => objs ∖ list_to_set d end.
Definition s3_attempt (a : answer) (batch : list key) : list key * outcome :=
  match a with
  | Answer d [] => ([], Ok)
  | Answer d ((_, c) :: _) =>
      match remove_all d batch with
      | None => (batch, Raise)
      | Some batch' => (batch', match c with NoSuchKey => Ok | Code true => Retry | Code false => Raise end)
      end
  | Broken _ t => (batch, if t then Retry else Raise)
  end.
Section s3.
(** What the server does with the n-th request *)
Context (server : nat -> list key -> gset key -> answer).
(** With @retry (101), from request [n] on; [None]: [fuel] requests were not enough. *)
Fixpoint s3_batch (fuel n : nat) (batch : list key) (objs : gset key) : option (list key * gset key * bool * nat) :=
  match fuel with
  | 0 => None
  | S fuel =>
      let a := server n batch objs in
      match s3_attempt a batch with
      | (b, Ok) => Some (b, s3_effect a objs, true, S n)
      | (b, Raise) => Some (b, s3_effect a objs, false, S n)
      | (b, Retry) => s3_batch fuel (S n) b (s3_effect a objs)
      end
  end.
(** delete_multi (88-99): the list is changed at the end only *)
Fixpoint s3_loop (fuel n : nat) (batches : list (list key)) (failures : list key) (objs : gset key) : option (list key * gset key * bool) :=
  match batches with
  | [] => Some (failures, objs, true)
  | b :: batches => match s3_batch fuel n b objs with
      | None => None
      | Some (lft, objs', true, n') => s3_loop fuel n' batches (failures ++ lft) objs'
      | Some (_, objs', false, _) => Some (failures, objs', false)
      end
  end.
Fixpoint chunked (fuel n : nat) (l : list key) : list (list key) := match fuel, l with S fuel, _ :: _ => take n l :: chunked fuel n (drop n l) | _, _ => [] end.
Definition s3_delete (fuel max_keys : nat) (keys : list key) (objs : gset key) : option (list key * gset key * bool) :=
  match s3_loop fuel 0 (chunked (length keys) max_keys keys) [] objs with
  | Some (failures, objs', true) => Some (failures, objs', true)
  | Some (_, objs', false) => Some (keys, objs', false)
  | None => None
  end.
End s3.

(** * swift with bulk deletion. The server goes through the keys: it removes some, finds some missing, and has errors for others. It may stop
    before the end (too many errors, expired authorization, too many keys). The answer has a status, the number of missing objects and the
    errors. *)
Inductive sw_answer := SwAnswer (removed : list key) (missing : nat) (errors : list key) (status : nat) (temporary : bool) | SwBroken (removed : list key) (temporary : bool).
Definition sw_effect (a : sw_answer) (objs : gset key) : gset key := match a with SwAnswer d _ _ _ _ | SwBroken d _ => objs ∖ list_to_set d end.
(** 711-767; [temporary]: whether is_temp_failure holds for the exception raised at the end *)
Definition sw_attempt (a : sw_answer) (batch : list key) : list key * outcome :=
  match a with
  | SwAnswer _ missing errors status t =>
      if decide (status = 200 \/ ((status = 400 \/ status = 404) /\ errors = [] /\ 0 < missing)) then ([], Ok)
      else (filter (fun k => k ∈ errors) batch, if t then Retry else Raise)
  | SwBroken _ t => (batch, if t then Retry else Raise)
  end.
Section swift.
Context (server : nat -> list key -> gset key -> sw_answer).
Fixpoint sw_batch (fuel n : nat) (batch : list key) (objs : gset key) : option (list key * gset key * bool * nat) :=
  match fuel with
  | 0 => None
  | S fuel =>
      let a := server n batch objs in
      match sw_attempt a batch with
      | (b, Ok) => Some (b, sw_effect a objs, true, S n)
      | (b, Raise) => Some (b, sw_effect a objs, false, S n)
      | (b, Retry) => sw_batch fuel (S n) b (sw_effect a objs)
      end
  end.
(** delete_multi, 769-783: the part of the list that was tried is replaced in any case *)
Fixpoint sw_loop (rounds fuel n max_deletes : nat) (keys : list key) (objs : gset key) : option (list key * gset key * bool) :=
  match keys with
  | [] => Some ([], objs, true)
  | _ => match rounds with
      | 0 => None
      | S rounds => match sw_batch fuel n (take max_deletes keys) objs with
          | None => None
          | Some (lft, objs', true, n') => sw_loop rounds fuel n' max_deletes (lft ++ drop max_deletes keys) objs'
          | Some (lft, objs', false, _) => Some (lft ++ drop max_deletes keys, objs', false)
          end
      end
  end.
Definition sw_delete (fuel max_deletes : nat) (keys : list key) (objs : gset key) := sw_loop (length keys) fuel 0 max_deletes keys objs.
End swift.
