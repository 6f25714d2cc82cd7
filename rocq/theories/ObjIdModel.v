(** How fsck finds missing and spurious data objects by their names: src/s3ql/fsck.py 1113-1171 (check_objects_id), with int() of python.

    FsckModel has the same check on the level of object numbers. Left out here: digits of other scripts than ASCII (accepted by int), and log
    messages. A number that does not fit into 64 bits is an uncaught exception of the database, like a number that occurs twice. *)
From stdpp Require Import prelude gmap.
From Coq Require Import ZArith String.
From Verif Require Import Decimal CodecModel ConfigModel.
Local Close Scope string_scope.
Local Close Scope N_scope.
Local Open Scope nat_scope.
Local Open Scope list_scope.

(** '%d' % n *)
Definition digits (n : nat) : text := N.of_nat <$> dec n.
Definition zdec (z : Z) : text := match z with Zneg p => 45%N :: digits (Pos.to_nat p) | _ => digits (Z.to_nat z) end.
(** int(s): white space around the number, a sign, digits with single underscores between them *)
Definition digit (c : N) : option Z := if decide (48 <= c <= 57)%N then Some (Z.of_N c - 48)%Z else None.
Fixpoint int_body (acc : Z) (s : text) : option Z :=
  match s with
  | [] => Some acc
  | c :: s' =>
    match digit c with
    | Some d => int_body (10 * acc + d) s'
    | None => if decide (c = 95%N) then match s' with
                                        | [] => None
                                        | e :: s'' => match digit e with Some d => int_body (10 * acc + d) s'' | None => None end
                                        end else None
    end
  end.
Definition int_unsigned (s : text) : option Z := match s with [] => None | c :: s => match digit c with Some d => int_body d s | None => None end end.
Definition int_of (s : text) : option Z :=
  match strip s with
  | 45%N :: s => Z.opp <$> int_unsigned s
  | 43%N :: s => int_unsigned s
  | s => int_unsigned s
  end.
(** 's3ql_data_%d' and obj_name[10:] *)
Definition DATA : text := lit "s3ql_data_"%string.
Definition object_name (z : Z) : text := DATA ++ zdec z.
Definition object_id (k : text) : option Z := int_of (drop 10 k).

Definition int64 (z : Z) : Prop := (-9223372036854775808 <= z <= 9223372036854775807)%Z.
Global Instance int64_dec z : Decision (int64 z).
Proof. unfold int64. apply _. Defined.
(** 1119-1137: the table obj_ids; [None]: an exception *)
Fixpoint seen_ids (l : list text) (seen : gset Z) : option (gset Z) :=
  match l with
  | [] => Some seen
  | k :: l => match object_id k with
              | None => seen_ids l seen                                              (* 1131-1133 *)
              | Some z => if decide (int64 z /\ z ∉ seen) then seen_ids l ({[z]} ∪ seen) else None
              end
  end.
(** check_objects_id: [l] is the listing, [objects] the rows of the table, [keys] what the backend holds. The result: the rows and keys left, and
    whether an error was reported. Simplified: delete raises NoSuchObject exactly if there is no such key (some services do not). *)
Definition check_ids (unlinked : gset Z) (l : list text) (objects : gset Z) (keys : gset text) : option (gset Z * gset text * bool) :=
  seen ← seen_ids l ∅;
  let spurious := seen ∖ objects in
  let gone : gset text := set_map object_name spurious in
  let found1 := bool_decide (filter (fun z => z ∉ unlinked /\ object_name z ∈ keys) spurious <> ∅) in   (* 1142-1151 *)
  let keys' := keys ∖ gone in
  let missing := filter (fun z => object_name z ∉ keys') (objects ∖ seen) in                    (* 1153-1160 *)
  Some (objects ∖ missing, keys', found1 || bool_decide (missing <> ∅)).
