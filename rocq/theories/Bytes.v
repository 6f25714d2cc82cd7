(** Byte strings, as used by the models of the storage layer. *)
From stdpp Require Import prelude.
From Coq.Strings Require Import Byte.
From Coq Require Import NArith.

Notation byte := Byte.byte.
Notation bytes := (list Byte.byte).
Global Instance byte_eq_dec : EqDecision byte := Byte.byte_eq_dec.

(** The byte with the value of [n] modulo 256. *)
Definition byte_of (n : N) : byte := default x00 (Byte.of_N (n mod 256)).
(** struct.pack('<I', n) and struct.unpack *)
Definition pack32 (n : N) : bytes := [byte_of n; byte_of (n / 256); byte_of (n / 65536); byte_of (n / 16777216)].
Definition unpack32 (b : bytes) : N :=
  match b with
  | [a; b; c; d] => Byte.to_N a + 256 * (Byte.to_N b + 256 * (Byte.to_N c + 256 * Byte.to_N d))
  | _ => 0
  end%N.

Lemma to_N_byte_of n : Byte.to_N (byte_of n) = (n mod 256)%N.
Proof.
  unfold byte_of. destruct (Byte.of_N (n mod 256)) as [b|] eqn:E; [by apply Byte.to_of_N|].
  apply Byte.of_N_None_iff in E. pose proof (N.mod_lt n 256). lia.
Qed.
Lemma byte_to_N_inj a b : Byte.to_N a = Byte.to_N b -> a = b.
Proof. intros H. assert (Some a = Some b) as [= ->]; [|done]. by rewrite <- !Byte.of_to_N, H. Qed.
Lemma byte_of_to_N b : byte_of (Byte.to_N b) = b.
Proof. apply byte_to_N_inj. rewrite to_N_byte_of. apply N.mod_small. pose proof (Byte.to_N_bounded b). lia. Qed.
Lemma pack32_length n : length (pack32 n) = 4.
Proof. done. Qed.
Lemma unpack_pack32 n : (n < 4294967296)%N -> unpack32 (pack32 n) = n.
Proof.
  intros Hn. unfold unpack32, pack32. rewrite !to_N_byte_of.
  assert (n / 65536 = n / 256 / 256)%N as -> by (rewrite N.div_div by lia; done).
  assert (n / 16777216 = n / 256 / 256 / 256)%N as -> by (rewrite !N.div_div by lia; done).
  assert (n / 256 / 256 / 256 < 256)%N as H3.
  { rewrite !N.div_div by lia. apply N.div_lt_upper_bound; lia. }
  rewrite (N.mod_small (n / 256 / 256 / 256) 256) by done.
  pose proof (N.div_mod n 256). pose proof (N.div_mod (n / 256) 256). pose proof (N.div_mod (n / 256 / 256) 256). lia.
Qed.
Lemma pack32_inj n m : (n < 4294967296)%N -> (m < 4294967296)%N -> pack32 n = pack32 m -> n = m.
Proof. intros Hn Hm E. by rewrite <- (unpack_pack32 n), <- (unpack_pack32 m), E. Qed.

(** ASCII literals *)
From Coq Require Import String Ascii.
Definition str (s : string) : bytes := list_byte_of_string s.
Definition nul_free (b : bytes) : Prop := x00 ∉ b.
Global Instance nul_free_dec b : Decision (nul_free b).
Proof. apply _. Defined.
(** Python compares strings by code points, which is the order of their UTF-8 encodings. *)
Fixpoint blt (a b : bytes) : bool :=
  match a, b with
  | _, [] => false
  | [], _ => true
  | x :: a, y :: b => if (Byte.to_N x <? Byte.to_N y)%N then true else if (Byte.to_N x =? Byte.to_N y)%N then blt a b else false
  end.
Lemma blt_irrefl a : blt a a = false.
Proof. induction a as [|x a IH]; cbn; [done|]. by rewrite N.ltb_irrefl, N.eqb_refl. Qed.
Lemma blt_trans a b c : blt a b = true -> blt b c = true -> blt a c = true.
Proof.
  revert b c. induction a as [|x a IH]; intros [|y b] [|z c]; cbn; try done.
  destruct (N.ltb_spec (Byte.to_N x) (Byte.to_N y)); destruct (N.ltb_spec (Byte.to_N y) (Byte.to_N z));
    destruct (N.eqb_spec (Byte.to_N x) (Byte.to_N y)); destruct (N.eqb_spec (Byte.to_N y) (Byte.to_N z)); try done; intros H1 H2;
    destruct (N.ltb_spec (Byte.to_N x) (Byte.to_N z)); destruct (N.eqb_spec (Byte.to_N x) (Byte.to_N z)); try done; try lia; eauto.
Qed.
Lemma blt_app a b : b <> [] -> blt a (a ++ b) = true.
Proof. induction a as [|x a IH]; cbn; [by destruct b|]. intros H. rewrite N.ltb_irrefl, N.eqb_refl. auto. Qed.
