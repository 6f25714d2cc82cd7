(** s3qladm clear: src/s3ql/adm.py 235-293, on any backend: list (page by page, see Paging; for the local backend a page is a directory) while the objects listed so far are being deleted (delete_multi, see Delete).
    Simplified: the removal of the local files does not fail. *)
From stdpp Require Import prelude gmap.
Notation key := (list nat).

(** The local files <cachepath>.db, .params, -cache *)
Record local := Local { has_db : bool; has_params : bool; has_cache : bool }.
Inductive outcome := Done | Refused | Failed.
#[global] Instance local_eq : EqDecision local. Proof. solve_decision. Defined.
#[global] Instance outcome_eq : EqDecision outcome. Proof. solve_decision. Defined.
Section clear.
Context {token : Type}.
(** Prefix of the file system in the bucket; answers of the n-th request for a page ([None]: exception), to which the objects that exist are given; the n-th delete_multi: which names it leaves, which objects are left,
    whether it returns; what others remove and create before the n-th request *)
Context (base : key) (serve : nat -> gset key -> option token -> option (list key * option token)) (delete : nat -> list key -> gset key -> list key * gset key * bool) (removed created : nat -> gset key).
Definition others (n : nat) (objs : gset key) : gset key := (objs ∖ removed n) ∪ created n.
(** 278-285, 287-292: the names are given without the prefix, which delete_multi adds again. [inl]: an exception *)
Definition flush (n : nat) (batch : list key) (objs : gset key) : gset key + gset key :=
  let '(lft, objs', ok) := delete n ((fun k => base ++ k) <$> batch) (others n objs) in
  if ok then match lft with [] => inr objs' | _ => inl objs' end else inl objs'.
(** 276-285: the objects of a page *)
Fixpoint take_in (size n : nat) (names : list key) (batch : list key) (objs : gset key) : nat * (gset key + gset key * list key) :=
  match names with
  | [] => (n, inr (objs, batch))
  | k :: names =>
      let batch := batch ++ [drop (length base) k] in
      if decide (size <= length batch) then match flush n batch objs with inl o => (n, inl o) | inr o => take_in size (S n) names [] o end
      else take_in size n names batch objs
  end.
Fixpoint loop (fuel size n : nat) (tok : option token) (batch : list key) (objs : gset key) : option (outcome * gset key) :=
  match fuel with
  | 0 => None
  | S fuel =>
      let objs := others n objs in
      match serve n objs tok with
      | None => Some (Failed, objs)
      | Some (names, next) =>
          match take_in size (S n) names batch objs with
          | (_, inl o) => Some (Failed, o)
          | (n, inr (o, batch)) =>
              match next with
              | Some t => loop fuel size n (Some t) batch o
              | None => match batch with [] => Some (Done, o) | _ => match flush n batch o with inl o => Some (Failed, o) | inr o => Some (Done, o) end end
              end
          end
      end
  end.
(** 264-275; the size of a batch is 1000 *)
Definition clear (yes : bool) (fuel size : nat) (l : local) (objs : gset key) : option (outcome * gset key * local) :=
  if negb yes then Some (Refused, objs, l)
  else match loop fuel size 0 None [] objs with Some (r, o) => Some (r, o, Local false false false) | None => None end.
End clear.
