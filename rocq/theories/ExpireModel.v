(** Model of contrib/expire_backups.py: which old backups are removed.

    A backup is identified by a number; names (dates) are ordered like these numbers.  Python dictionaries are association lists in insertion order without
    duplicate keys.  Not modelled: messages, parsing of dates, the deletion itself (rmtree or s3qlrm), the serialised state file (thaw and freeze, see FreezeModel.v). *)
From stdpp Require Import prelude list sorting.
From Coq Require Import ZArith.
Local Open Scope Z_scope.

Notation backup := Z (only parsing).
(** The age of every backup, in backup cycles *)
Notation ages := (list (Z * Z)) (only parsing).
(** d[k] = v *)
Fixpoint dset {K} `{EqDecision K} (k : K) (v : Z) (d : list (K * Z)) : list (K * Z) :=
  match d with
  | [] => [(k, v)]
  | (k', v') :: d => if decide (k' = k) then (k, v) :: d else (k', v') :: dset k v d
  end.
(** for y in d: d[y] += n *)
Definition older {K} (n : Z) (d : list (K * Z)) : list (K * Z) := (fun x => (x.1, x.2 + n)) <$> d.

(** 171-176: new backups *)
Definition add_backup (state : ages) (x : backup) : ages := dset x 0 (older 1 state).
Definition add_new (backups : list backup) (state : ages) : ages :=
  foldl add_backup state (merge_sort Z.le (filter (fun x => x ∉ state.*1) backups)).
(** 182-185: missing backups *)
Definition drop_missing (backups : list backup) (state : ages) : ages := filter (fun x => x.1 ∈ backups) state.
(** 188-190 *)
Fixpoint ranges_from (lo : Z) (cycles : list Z) : list (Z * Z) := match cycles with [] => [] | c :: cycles => (lo, c) :: ranges_from c cycles end.
Definition ranges (cycles : list Z) : list (Z * Z) := ranges_from 0 cycles.
Definition in_range (r : Z * Z) (age : Z) : bool := (r.1 <=? age) && (age <? r.2).

(** Keys of simstate: a hypothetical backup, made in that step, or a real one *)
Definition sim_key : Type := Z + backup.
(** 206-245: one age range; [keep] in reverse order of insertion *)
Definition look (state : ages) (step : Z) (x : list (sim_key * Z) * list backup) (r : Z * Z) : list (sim_key * Z) * list backup :=
  let '(sim, keep) := x in
  if existsb (fun y => in_range r y.2) sim then (sim, keep)
  else match List.find (fun y => in_range r (y.2 + step)) state with
    | Some (b, age) => (dset (inr b) (age + step) sim, b :: keep)
    | None => (sim, keep)
    end.
(** 196-206: one step *)
Definition sim_step (state : ages) (rs : list (Z * Z)) (x : list (sim_key * Z) * list backup) (step : Z) : list (sim_key * Z) * list backup :=
  let sim := older 1 x.1 in
  let sim := if decide (step = 0) then sim else dset (inl step) 0 sim in
  foldl (look state step) (sim, x.2) rs.
Definition max_of (l : list Z) : Z := foldr Z.max (hd 0 l) l.
Definition simulate (state : ages) (cycles : list Z) (n : nat) : list (sim_key * Z) * list backup := foldl (sim_step state (ranges cycles)) ([], []) (Z.of_nat <$> seq 0 n).
(** process_backups 169-258: the new state and what is to be deleted.  None: cycles is empty, IndexError (188; typer demands at least one) *)
Definition process_backups (backups : list backup) (state : ages) (cycles : list Z) : option (ages * list backup) :=
  if decide (cycles = []) then None else
  let state := drop_missing backups (add_new backups state) in
  let keep := (simulate state cycles (Z.to_nat (max_of cycles))).2 in
  Some (filter (fun x => x.1 ∈ keep) state, filter (fun x => x ∉ keep) state.*1).

(** 86-89, 114-119, 132-137: the command with a state file and without -n.  [num / den]: --proportion-delete.  The result: what is deleted and the saved state, or an error. *)
Definition expire (cycles : list Z) (num den : Z) (backups : list backup) (state : ages) : option (ages * list backup) :=
  if decide (merge_sort Z.le cycles <> cycles) then None
  else if decide (0 < num <= den) then
    match process_backups backups state cycles with
    | None => None
    | Some (state', del) => if decide (backups <> [] /\ Z.of_nat (length del) * den > num * Z.of_nat (length backups)) then None else Some (state', del)
    end
  else None.

(** upgrade_to_state 144-166: the ages in cycles from the ages in seconds *)
Definition cycles_of (step age : Z) : Z := if decide (0 < age) then (age + step - 1) / step else 0.
(** [l]: the backups, sorted, and their ages; None: there are no two different ages, min() of an empty list is a ValueError *)
Definition upgrade_to_state (l : ages) : option ages :=
  match x ← l; y ← l; if decide (x.2 <> y.2) then [Z.abs (x.2 - y.2)] else [] with
  | [] => None
  | d :: ds => let step := foldr Z.min d ds in Some ((fun x => (x.1, cycles_of step x.2)) <$> l)
  end.
