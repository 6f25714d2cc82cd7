(** Properties of LinkedDict (C11). *)
From stdpp Require Import prelude list gmap.
From Verif Require Import LinkedDictModel LinkedDictSpec LinkedDictProofs.

(** Every operation answers like an insertion-ordered map; no node operation ever hits a missing node;
    an iterator only yields entries that are present at that moment. *)
Theorem linked_dict_is_ordered_map {V} (os : list (op V)) : replies [] os (run init os).2.
Proof. exact (answers_ok os). Qed.

(** An iteration [g] that starts somewhere in [mid] (or just after it) and ends with the following
    call of next(), whatever else happens in [mid], yields every key that was not removed or moved
    during [mid] and is present at the end exactly once (and not at all if it is not present). *)
Theorem iteration_is_complete {V} (pre mid : list (op V)) (g k : nat) :
  let r := run init (pre ++ mid) in
  let ans := drop (length pre) r.2 in
  Next g ∉ pre -> Close g ∉ pre -> Close g ∉ mid ->
  (Next g, AStop) ∉ zip mid ans -> (step r.1 (Next g)).2 = AStop ->
  Forall (stays k) mid ->
  yields g k mid ans = match find k (contents [] (pre ++ mid)) with Some _ => 1 | None => 0 end.
Proof. exact (iteration_complete_pf pre mid g k). Qed.

(** An undisturbed iteration yields the entries in order and stops. *)
Theorem quiet_iteration_is_in_order {V} (pre : list (op V)) (g : nat) :
  Next g ∉ pre -> Close g ∉ pre ->
  (run (run init pre).1 (replicate (S (length (contents [] pre))) (Next g))).2 =
  map (fun e => AYield e.1 e.2) (contents [] pre) ++ [AStop].
Proof. exact (quiet_iteration_pf pre g). Qed.

(** Once every iteration has ended or was abandoned, the linked list holds the entries only. *)
Theorem no_cursor_left_behind {V} (os : list (op V)) :
  let r := run init os in
  (forall g, Next g ∈ os -> Close g ∈ os \/ (Next g, AStop) ∈ zip os r.2) ->
  (step r.1 LinkLen).2 = ANum (length (contents [] os)).
Proof. exact (no_cursor_left_pf os). Qed.

(** Two interleaved iterations, with an insertion, an overwrite and a removal of other keys. *)
Definition demo_pre : list (op nat) := [SetItem 1 10; SetItem 2 20; SetItem 3 30; SetItem 4 40].
Definition demo_mid : list (op nat) :=
  [Next 7; Next 8; SetItem 2 21; Next 7; Del 3; Next 8; SetItem 5 50; Move 1; Next 7; Next 7; Next 7].
Example demo_answers : (run init (demo_pre ++ demo_mid)).2 =
  [ADone; ADone; ADone; ADone;
   AYield 1 10; AYield 1 10; ADone; AYield 2 21; ADone; AYield 2 21; ADone; ADone;
   AYield 4 40; AYield 5 50; AYield 1 10].
Proof. vm_compute. reflexivity. Qed.
Example demo_iteration :
  let r := run init (demo_pre ++ demo_mid) in
  Next 7 ∉ demo_pre /\ Close 7 ∉ demo_pre /\ Close 7 ∉ demo_mid /\
  (Next 7, AStop) ∉ zip demo_mid (drop (length demo_pre) r.2) /\ (step r.1 (Next 7)).2 = AStop /\
  Forall (stays 4) demo_mid /\ yields 7 4 demo_mid (drop (length demo_pre) r.2) = 1 /\
  (step r.1 LinkLen).2 = ANum 6 /\ length (contents [] (demo_pre ++ demo_mid)) = 4.
Proof.
  cbv zeta. rewrite demo_answers. unfold demo_pre, demo_mid.
  split; [rewrite !not_elem_of_cons; repeat (split; [done|]); apply not_elem_of_nil|].
  split; [rewrite !not_elem_of_cons; repeat (split; [done|]); apply not_elem_of_nil|].
  split; [rewrite !not_elem_of_cons; repeat (split; [done|]); apply not_elem_of_nil|].
  split; [simpl; rewrite !not_elem_of_cons; repeat (split; [done|]); apply not_elem_of_nil|].
  split; [vm_compute; reflexivity|].
  split; [repeat (constructor; [simpl; done|]); constructor|].
  split; [vm_compute; reflexivity|]. split; vm_compute; reflexivity.
Qed.
Example demo_close : (step (run init (demo_pre ++ demo_mid ++ [Next 7; Close 8])).1 LinkLen).2 = ANum 4.
Proof. vm_compute. reflexivity. Qed.

Print Assumptions linked_dict_is_ordered_map.
Print Assumptions iteration_is_complete.
Print Assumptions quiet_iteration_is_in_order.
Print Assumptions no_cursor_left_behind.
