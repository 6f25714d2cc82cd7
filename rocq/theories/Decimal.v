(** str(n) for natural numbers. *)
From stdpp Require Import prelude.

Fixpoint dec_fuel (fuel n : nat) : list nat :=
  match fuel with
  | 0 => []
  | S fuel => if decide (n < 10) then [48 + n] else dec_fuel fuel (n / 10) ++ [48 + n mod 10]
  end.
Definition dec (n : nat) : list nat := dec_fuel (S n) n.
Definition val (l : list nat) : nat := fold_left (fun a d => 10 * a + (d - 48)) l 0.
Lemma val_snoc l d : val (l ++ [d]) = 10 * val l + (d - 48).
Proof. unfold val. by rewrite fold_left_app. Qed.
Lemma dec_fuel_val fuel n : n < fuel -> val (dec_fuel fuel n) = n.
Proof.
  revert n. induction fuel as [|fuel IH]; intros n H; [lia|]. cbn [dec_fuel]. case_decide as D; [unfold val; cbn [fold_left]; lia|].
  rewrite val_snoc, IH. { pose proof (Nat.div_mod_eq n 10). lia. } apply Nat.div_lt_upper_bound; lia.
Qed.
Lemma dec_val n : val (dec n) = n.
Proof. apply dec_fuel_val. lia. Qed.
Lemma dec_inj m n : dec m = dec n -> m = n.
Proof. intros H. by rewrite <- (dec_val m), H, dec_val. Qed.
Lemma dec_fuel_length fuel n k : n < 10 ^ S k -> length (dec_fuel fuel n) <= S k.
Proof.
  revert n k. induction fuel as [|fuel IH]; intros n k H; [cbn; lia|]. cbn [dec_fuel]. case_decide as D; [cbn; lia|]. rewrite app_length. cbn [length].
  destruct k as [|k]; [change (10 ^ 1) with 10 in H; lia|]. assert (length (dec_fuel fuel (n / 10)) <= S k); [|lia]. apply IH. apply Nat.div_lt_upper_bound; [lia|]. by rewrite <- Nat.pow_succ_r'.
Qed.
Lemma dec_length n k : n < 10 ^ S k -> length (dec n) <= S k.
Proof. apply dec_fuel_length. Qed.
Lemma dec_digits n c : c ∈ dec n -> 48 <= c <= 57.
Proof.
  unfold dec. generalize (S n). intros fuel. revert n. induction fuel as [|fuel IH]; intros n; cbn [dec_fuel]; [by intros ?%elem_of_nil|].
  case_decide; [rewrite elem_of_list_singleton; lia|]. rewrite elem_of_app, elem_of_list_singleton. intros [H1|H1]; [by eapply IH|]. pose proof (Nat.mod_upper_bound n 10). lia.
Qed.
