(** Files as arrays of bytes with a position, given byte by byte. *)
From stdpp Require Import prelude.
From Coq Require Import ZArith Lia.
From Verif Require Import EntryModel.

(** The [n] bytes from [off], as far as there are any *)
Definition is_read (l : list N) (off n : nat) (r : list N) : Prop := forall k, r !! k = if decide (k < n) then l !! (off + k) else None.
(** [buf] written at [off]; zeros in the gap *)
Definition is_written (l : list N) (off : nat) (buf l' : list N) : Prop :=
  forall k, l' !! k = if decide (off <= k < off + length buf) then buf !! (k - off) else match l !! k with Some b => Some b | None => if decide (k < off /\ buf <> []) then Some 0%N else None end.
Definition is_cut (l : list N) (n : nat) (l' : list N) : Prop := forall k, l' !! k = if decide (k < n) then Some (default 0%N (l !! k)) else None.

(** A request at contents [l] and position [p] may have this result, contents and position *)
Definition allowed (o : op) (l : list N) (p : nat) (r : result) (l' : list N) (p' : nat) : Prop :=
  match o with
  | Read (Some n) => exists b, r = RBytes b /\ is_read l p n b /\ l' = l /\ p' = p + length b
  | Read None => exists b, r = RBytes b /\ is_read l p (length l) b /\ l' = l /\ p' = p + length b
  | Seek off => r = RPos off /\ l' = l /\ p' = off
  | SeekCur d => l' = l /\ ((0 <= Z.of_nat p + d)%Z /\ r = RPos p' /\ Z.of_nat p' = (Z.of_nat p + d)%Z \/ (Z.of_nat p + d < 0)%Z /\ r = RErr /\ p' = p)
  | SeekEnd d => l' = l /\ ((0 <= Z.of_nat (length l) + d)%Z /\ r = RPos p' /\ Z.of_nat p' = (Z.of_nat (length l) + d)%Z \/ (Z.of_nat (length l) + d < 0)%Z /\ r = RErr /\ p' = p)
  | Tell => r = RPos p /\ l' = l /\ p' = p
  | Truncate n => r = RNone /\ is_cut l (default p n) l' /\ p' = p
  | Write None buf => r = RErr /\ l' = l /\ p' = p
  | Write (Some _) buf => r = RNone /\ is_written l p buf l' /\ p' = p + length buf
  end.
(** The system accepts all or nothing; nothing is written only where there is something *)
Definition whole (o : op) (e : entry) : Prop := match o with Write (Some k) buf => length buf <= k /\ (buf = [] -> pos e <= size e) | _ => True end.
Fixpoint wholes (l : list op) (e : entry) : Prop := match l with [] => True | o :: l => whole o e /\ wholes l (step o e).2 end.
Definition run (l : list op) (e : entry) : entry := fold_left (fun e o => (step o e).2) l e.
(** What the attributes of the entry say is true *)
Definition true_ (e : entry) : Prop := pos e = at_ (fh e) /\ size e = length (bytes (fh e)).
