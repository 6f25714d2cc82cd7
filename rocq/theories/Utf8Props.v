(** C30, C41: decoding is exact. A truncated base64 text is refused, or gives the beginning of the value if whole groups are missing. UTF-8 is decoded strictly, so that a text is read only from the very bytes that encode it: no overlong forms, surrogates or stray bytes are accepted. *)
From stdpp Require Import prelude.
From Coq Require Import NArith Lia ZifyBool ZifyN.
From Verif Require Import CodecModel CodecProps.
Local Open Scope N_scope.
Local Ltac Zify.zify_post_hook ::= Z.to_euclidean_division_equations.

Lemma cont_inv y v : cont y = Some v -> 0x80 <= y < 0xc0 /\ y = 0x80 + v.
Proof. unfold cont. destruct ((0x80 <=? y) && (y <? 0xc0)) eqn:E; [|done]. intros [= <-]. lia. Qed.
Lemma ok_inv low c v : utf8_ok low c = Some v -> v = c /\ low <= c /\ encodable c = true.
Proof. unfold utf8_ok. destruct ((low <=? c) && encodable c) eqn:E; [|done]. intros [= <-]. apply andb_true_iff in E as [E1%N.leb_le E2]. done. Qed.
Lemma encode_cons c s b b' : encodable c = true -> utf8_encode s = Some b -> utf8_char c ++ b = b' -> utf8_encode (c :: s) = Some b'.
Proof. intros E H <-. cbn [utf8_encode]. by rewrite E, H. Qed.
Theorem utf8_decode_exact b s : utf8_decode b = Some s -> utf8_encode s = Some b.
Proof.
  remember (length b) as n eqn:Hn. assert (length b <= n)%nat as L by lia. clear Hn. revert b s L. induction n as [|n IH]; intros b s L H; [destruct b; [by inversion H|cbn in L; lia]|].
  destruct b as [|x b]; [by inversion H|]. cbn [length] in L. cbn [utf8_decode] in H. destruct (x <? 0x80) eqn:X1.
  { destruct (utf8_decode b) as [t|] eqn:D; [|done]. injection H as <-. apply (encode_cons _ _ b); [apply encodable_spec; lia|apply IH; [lia|done]|]. unfold utf8_char. by rewrite X1. }
  destruct ((0xc0 <=? x) && (x <? 0xe0)) eqn:X2.
  { destruct b as [|y b]; [done|]. cbn [length] in L. destruct (cont y) as [y'|] eqn:Y; [|done]. cbn [mbind option_bind] in H. destruct (utf8_ok 0x80 _) as [c|] eqn:O; [|done]. cbn [mbind option_bind] in H.
    destruct (utf8_decode b) as [t|] eqn:D; [|done]. injection H as <-. apply cont_inv in Y as [Y ->]. apply ok_inv in O as (-> & O & E). apply (encode_cons _ _ b); [done|apply IH; [lia|done]|].
    unfold utf8_char. replace (_ <? 0x80) with false by lia. replace (_ <? 0x800) with true by lia. cbn [app]. repeat f_equal; lia. }
  destruct ((0xe0 <=? x) && (x <? 0xf0)) eqn:X3.
  { destruct b as [|y [|z b]]; [done|done|]. cbn [length] in L. destruct (cont y) as [y'|] eqn:Y; [|done]. cbn [mbind option_bind] in H. destruct (cont z) as [z'|] eqn:Z; [|done]. cbn [mbind option_bind] in H.
    destruct (utf8_ok 0x800 _) as [c|] eqn:O; [|done]. cbn [mbind option_bind] in H.
    destruct (utf8_decode b) as [t|] eqn:D; [|done]. injection H as <-. apply cont_inv in Y as [Y ->]. apply cont_inv in Z as [Z ->]. apply ok_inv in O as (-> & O & E). apply (encode_cons _ _ b); [done|apply IH; [lia|done]|].
    unfold utf8_char. replace (_ <? 0x80) with false by lia. replace (_ <? 0x800) with false by lia. replace (_ <? 0x10000) with true by lia. cbn [app]. repeat f_equal; lia. }
  destruct ((0xf0 <=? x) && (x <? 0xf8)) eqn:X4; [|done].
  destruct b as [|y [|z [|w b]]]; [done|done|done|]. cbn [length] in L. destruct (cont y) as [y'|] eqn:Y; [|done]. cbn [mbind option_bind] in H. destruct (cont z) as [z'|] eqn:Z; [|done]. cbn [mbind option_bind] in H.
  destruct (cont w) as [w'|] eqn:W; [|done]. cbn [mbind option_bind] in H. destruct (utf8_ok 0x10000 _) as [c|] eqn:O; [|done]. cbn [mbind option_bind] in H.
  destruct (utf8_decode b) as [t|] eqn:D; [|done]. injection H as <-. apply cont_inv in Y as [Y ->]. apply cont_inv in Z as [Z ->]. apply cont_inv in W as [W ->]. apply ok_inv in O as (-> & O & E). apply (encode_cons _ _ b); [done|apply IH; [lia|done]|].
  unfold utf8_char. replace (_ <? 0x80) with false by lia. replace (_ <? 0x800) with false by lia. replace (_ <? 0x10000) with false by lia. cbn [app]. repeat f_equal; lia.
Qed.
Example utf8_exact_sample : utf8_decode [0xe2; 0x82; 0xac; 97] = Some [0x20ac; 97] /\ utf8_decode [0xc0; 0x80] = None /\ utf8_decode [0xc3; 0xff] = None.
Proof. by vm_compute. Qed.
Theorem b64_truncated b q r : Forall (fun x => x < 256) b -> (r < 4)%nat -> (4 * q + r < length (b64encode b))%nat -> b64decode (take (4 * q + r) (b64encode b)) = if decide (r = 0%nat) then Some (take (3 * q) b) else None.
Proof.
  unfold b64decode. revert q. induction b as [|x|x y|x y z l IH] using N3_ind; intros q F R L; cbn [b64encode length] in *; repeat match goal with H : Forall _ (_ :: _) |- _ => apply Forall_cons in H as [? H] end.
  - lia.
  - assert (q = 0%nat) as -> by lia. destruct r as [|[|[|[|r]]]]; [..|lia]; cbn [Nat.mul Nat.add take]; rewrite ?b64_digit by lia; done.
  - assert (q = 0%nat) as -> by lia. destruct r as [|[|[|[|r]]]]; [..|lia]; cbn [Nat.mul Nat.add take]; rewrite ?b64_digit by lia; done.
  - destruct q as [|q].
    + destruct r as [|[|[|[|r]]]]; [..|lia]; cbn [Nat.mul Nat.add take]; rewrite ?b64_digit by lia; done.
    + replace (4 * S q + r)%nat with (S (S (S (S (4 * q + r))))) by lia. replace (3 * S q)%nat with (S (S (S (3 * q)))) by lia. cbn [take]. rewrite !b64_digit by lia. cbn [N.eqb Pos.eqb]. rewrite IH; [|done|done|lia].
      destruct (decide (r = 0%nat)); [|done]. cbn [fmap option_fmap option_map]. do 2 f_equal; [lia|]. f_equal; [lia|]. f_equal. lia.
Qed.
Example b64_truncated_sample : b64decode (take 7 (b64encode [1; 2; 3; 4])) = None /\ b64decode (take 4 (b64encode [1; 2; 3; 4])) = Some [1; 2; 3] /\ b64decode (b64encode [1; 2; 3; 4]) = Some [1; 2; 3; 4].
Proof. by vm_compute. Qed.
Print Assumptions utf8_decode_exact. Print Assumptions b64_truncated.
