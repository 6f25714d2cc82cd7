(** The encodings can be undone. *)
From stdpp Require Import prelude.
From Coq Require Import NArith ZArith Lia.
From Verif Require Import CodecModel.
Local Open Scope N_scope.
Local Ltac Zify.zify_post_hook ::= Z.to_euclidean_division_equations.

Lemma ltb_t a b : a < b -> (a <? b) = true. Proof. apply N.ltb_lt. Qed.
Lemma ltb_f a b : b <= a -> (a <? b) = false. Proof. apply N.ltb_ge. Qed.
Lemma leb_t a b : a <= b -> (a <=? b) = true. Proof. apply N.leb_le. Qed.
Lemma leb_f a b : b < a -> (a <=? b) = false. Proof. apply N.leb_gt. Qed.
(** Decide the comparisons in the goal *)
Ltac cmp := repeat first [ rewrite ltb_t by lia | rewrite ltb_f by lia | rewrite leb_t by lia | rewrite leb_f by lia | rewrite (proj2 (N.eqb_neq _ _)) by lia | rewrite (proj2 (N.eqb_eq _ _)) by lia ]; cbn [andb orb negb].

Lemma encodable_spec c : encodable c = true <-> c < 0x110000 /\ (c < 0xd800 \/ 0xe000 <= c).
Proof. unfold encodable. rewrite andb_true_iff, negb_true_iff, andb_false_iff, N.ltb_lt, N.leb_gt, N.ltb_ge. lia. Qed.
Lemma cont_spec x : x < 64 -> cont (0x80 + x) = Some x.
Proof. intros H. unfold cont. cmp. f_equal. lia. Qed.
Lemma utf8_ok_spec low c : low <= c -> encodable c = true -> utf8_ok low c = Some c.
Proof. intros H E. unfold utf8_ok. rewrite E. cmp. done. Qed.
Lemma utf8_char_decode c b : encodable c = true -> utf8_decode (utf8_char c ++ b) = cons c <$> utf8_decode b.
Proof.
  intros E. pose proof E as [H1 H2]%encodable_spec. unfold utf8_char. destruct (c <? 0x80) eqn:D1; [cbn [app utf8_decode]; by rewrite D1|]. apply N.ltb_ge in D1. destruct (c <? 0x800) eqn:D2.
  - apply N.ltb_lt in D2. cbn [app utf8_decode]. cmp. rewrite cont_spec by lia. cbn [mbind option_bind]. rewrite utf8_ok_spec; [|lia|]; replace ((0xc0 + c / 64 - 0xc0) * 64 + c mod 64) with c by lia; done.
  - apply N.ltb_ge in D2. destruct (c <? 0x10000) eqn:D3.
    + apply N.ltb_lt in D3. cbn [app utf8_decode]. cmp. rewrite !cont_spec by lia. cbn [mbind option_bind]. replace ((0xe0 + c / 4096 - 0xe0) * 4096 + (c / 64) mod 64 * 64 + c mod 64) with c by lia. rewrite utf8_ok_spec; [done|lia|done].
    + apply N.ltb_ge in D3. cbn [app utf8_decode]. cmp. rewrite !cont_spec by lia. cbn [mbind option_bind].
      replace ((0xf0 + c / 262144 - 0xf0) * 262144 + (c / 4096) mod 64 * 4096 + (c / 64) mod 64 * 64 + c mod 64) with c by lia. rewrite utf8_ok_spec; [done|lia|done].
Qed.
Theorem utf8_roundtrip s b : utf8_encode s = Some b -> utf8_decode b = Some s.
Proof.
  revert b. induction s as [|c s IH]; intros b E; cbn [utf8_encode] in E; [by injection E as <-|]. destruct (encodable c) eqn:Ec; [|done]. destruct (utf8_encode s) as [b'|]; [|done]. injection E as <-.
  by rewrite utf8_char_decode, (IH b').
Qed.
Lemma utf8_encode_total s : Forall (fun c => encodable c = true) s -> exists b, utf8_encode s = Some b.
Proof. induction 1 as [|c s Hc _ [b IH]]; [by exists []|]. cbn [utf8_encode]. rewrite Hc, IH. by eexists. Qed.
Lemma utf8_encode_app s1 s2 : utf8_encode (s1 ++ s2) = b1 ← utf8_encode s1; b2 ← utf8_encode s2; Some (b1 ++ b2).
Proof.
  induction s1 as [|c s IH]; cbn [utf8_encode app]; [by destruct (utf8_encode s2)|]. destruct (encodable c); [|done]. rewrite IH. destruct (utf8_encode s); [|done]. cbn. destruct (utf8_encode s2); [|done]. cbn. by rewrite app_assoc.
Qed.
Lemma utf8_bytes s b : utf8_encode s = Some b -> Forall (fun x => x < 256) b.
Proof.
  revert b. induction s as [|c s IH]; intros b E; cbn [utf8_encode] in E; [by injection E as <-; constructor|]. destruct (encodable c) eqn:Ec; [|done]. destruct (utf8_encode s) as [b'|]; [|done]. injection E as <-.
  apply Forall_app. split; [|by apply IH]. apply encodable_spec in Ec. unfold utf8_char. repeat case_match; repeat constructor; try apply N.ltb_lt in H; try apply N.ltb_ge in H; try apply N.ltb_lt in H0; try apply N.ltb_ge in H0; try apply N.ltb_lt in H1; try apply N.ltb_ge in H1; lia.
Qed.

Lemma undigit_digit n : n < 64 -> undigit64 (digit64 n) = Some n.
Proof.
  intros H. unfold digit64. destruct (n <? 26) eqn:D; [apply N.ltb_lt in D; unfold undigit64; cmp; f_equal; lia|]. apply N.ltb_ge in D. destruct (n <? 52) eqn:D2; [apply N.ltb_lt in D2; unfold undigit64; cmp; f_equal; lia|]. apply N.ltb_ge in D2.
  destruct (n <? 62) eqn:D3; [apply N.ltb_lt in D3; unfold undigit64; cmp; f_equal; lia|]. apply N.ltb_ge in D3. destruct (n =? 62) eqn:D4; [apply N.eqb_eq in D4 as ->; done|]. apply N.eqb_neq in D4. replace n with 63 by lia. done.
Qed.
Lemma digit_not_pad n : n < 64 -> (digit64 n =? 61) = false.
Proof. intros H. apply N.eqb_neq. unfold digit64. repeat case_match; try apply N.ltb_lt in H0; try apply N.ltb_ge in H0; try apply N.ltb_lt in H1; try apply N.ltb_ge in H1; try apply N.ltb_lt in H2; try apply N.ltb_ge in H2; lia. Qed.
Lemma b64_digit n l pos lft pads : n < 64 -> b64_loop (digit64 n :: l) pos lft pads = if pos =? 0 then b64_loop l 1 n 0
            else if pos =? 1 then cons (lft * 4 + n / 16) <$> b64_loop l 2 (n mod 16) 0
            else if pos =? 2 then cons (lft * 16 + n / 4) <$> b64_loop l 3 (n mod 4) 0
            else cons (lft * 64 + n) <$> b64_loop l 0 0 0.
Proof. intros H. cbn [b64_loop]. by rewrite digit_not_pad, undigit_digit. Qed.
Lemma N3_ind (P : text -> Prop) : P [] -> (forall x, P [x]) -> (forall x y, P [x; y]) -> (forall x y z l, P l -> P (x :: y :: z :: l)) -> forall l, P l.
Proof. intros H0 H1 H2 H3. fix IH 1. intros [|x [|y [|z l]]]; [done|apply H1|apply H2|]. apply H3, IH. Qed.
Lemma b64_pad2 l : b64_loop [61; 61] 2 l 0 = Some [].
Proof. reflexivity. Qed.
Lemma b64_pad1 l : b64_loop [61] 3 l 0 = Some [].
Proof. reflexivity. Qed.
Theorem b64_roundtrip b : Forall (fun x => x < 256) b -> b64decode (b64encode b) = Some b.
Proof.
  unfold b64decode. induction b as [|x|x y|x y z l IH] using N3_ind; intros F; [done|..]; cbn [b64encode].
  - apply Forall_cons in F as [Hx _]. rewrite !b64_digit by lia. cbn [N.eqb Pos.eqb]. rewrite b64_pad2. cbn [fmap option_fmap option_map]. do 2 f_equal. lia.
  - apply Forall_cons in F as [Hx F]. apply Forall_cons in F as [Hy _]. rewrite !b64_digit by lia. cbn [N.eqb Pos.eqb]. rewrite b64_pad1. cbn [fmap option_fmap option_map]. do 2 f_equal; [lia|]. f_equal. lia.
  - apply Forall_cons in F as [Hx F]. apply Forall_cons in F as [Hy F]. apply Forall_cons in F as [Hz F]. rewrite !b64_digit by lia. cbn [N.eqb Pos.eqb]. rewrite IH by done. cbn [fmap option_fmap option_map]. do 2 f_equal; [lia|]. f_equal; [lia|]. f_equal. lia.
Qed.
Definition b64char (c : N) : Prop := 48 <= c <= 57 \/ 65 <= c <= 90 \/ 97 <= c <= 122 \/ c = 43 \/ c = 47 \/ c = 61.
Lemma digit64_char n : n < 64 -> b64char (digit64 n).
Proof. intros H. unfold b64char, digit64. repeat case_match; try apply N.ltb_lt in H0; try apply N.ltb_ge in H0; try apply N.ltb_lt in H1; try apply N.ltb_ge in H1; try apply N.ltb_lt in H2; try apply N.ltb_ge in H2; lia. Qed.
Lemma b64encode_chars b : Forall (fun x => x < 256) b -> Forall b64char (b64encode b).
Proof.
  assert (b64char 61) as Hp by (unfold b64char; lia). induction b as [|x|x y|x y z l IH] using N3_ind; intros F; [constructor|..]; cbn [b64encode]; repeat match goal with H : Forall _ (_ :: _) |- _ => apply Forall_cons in H as [? H] end; repeat (apply Forall_cons; split); try done; try (apply digit64_char; lia); try by apply Forall_nil. by apply IH.
Qed.

Lemma unhex_hex n : n < 16 -> unhex (hexdigit n) = Some n.
Proof. intros H. unfold hexdigit. destruct (n <? 10) eqn:D; [apply N.ltb_lt in D|apply N.ltb_ge in D]; unfold unhex; cmp; f_equal; lia. Qed.
Lemma unhex_HEX n : n < 16 -> unhex (HEXDIGIT n) = Some n.
Proof. intros H. unfold HEXDIGIT. destruct (n <? 10) eqn:D; [apply N.ltb_lt in D|apply N.ltb_ge in D]; unfold unhex; cmp; f_equal; lia. Qed.
Lemma unhexn_app w w' acc l : unhexn (w + w') acc l = match unhexn w acc l with Some (a, l') => unhexn w' a l' | None => None end.
Proof. revert acc l. induction w as [|w IH]; intros acc l; [done|]. cbn [unhexn Nat.add]. destruct l as [|c l]; [done|]. destruct (unhex c); [|done]. cbn. apply IH. Qed.
Lemma unhexn_hexn w n acc l : n < 16 ^ N.of_nat w -> unhexn w acc (hexn w n ++ l) = Some (acc * 16 ^ N.of_nat w + n, l).
Proof.
  revert n acc l. induction w as [|w IH]; intros n acc l H; [cbn in *; do 2 f_equal; lia|]. rewrite Nat2N.inj_succ, N.pow_succ_r' in *. replace (S w) with (w + 1)%nat at 1 by lia. cbn [hexn]. rewrite <- app_assoc, unhexn_app, IH by (apply N.div_lt_upper_bound; lia).
  cbn [app unhexn]. rewrite unhex_hex by lia. cbn [mbind option_bind]. do 2 f_equal. set (p := 16 ^ N.of_nat w) in *. clearbody p. rewrite N.mul_add_distr_l, N.mul_assoc, (N.mul_comm 16 acc), <- N.mul_assoc, <- N.add_assoc. f_equal. lia.
Qed.
Lemma hexn_chars w n c : c ∈ hexn w n -> 48 <= c <= 57 \/ 97 <= c <= 102.
Proof.
  revert n. induction w as [|w IH]; intros n; cbn [hexn]; [by intros ?%elem_of_nil|]. rewrite elem_of_app, elem_of_list_singleton. intros [H| ->]; [by apply IH in H|]. unfold hexdigit. destruct (n mod 16 <? 10) eqn:D; [apply N.ltb_lt in D|apply N.ltb_ge in D]; lia.
Qed.

Lemma unquote_other c l : c <> 37 -> unquote_bytes (c :: l) = c :: unquote_bytes l.
Proof. intros H. destruct c as [|p]; [done|]. cbn [unquote_bytes]. repeat (destruct p as [p|p|]; try done). Qed.
Lemma unquote_quote_bytes safe b : safe 37 = false -> Forall (fun x => x < 256) b -> unquote_bytes (flat_map (quote_byte safe) b) = b.
Proof.
  intros Hs F. induction F as [|x b Hx F IH]; [done|]. cbn [flat_map]. unfold quote_byte at 1. destruct (safe x) eqn:E.
  - cbn [app]. rewrite unquote_other; [by rewrite IH|]. intros ->. congruence.
  - cbn [app unquote_bytes]. rewrite !unhex_HEX by lia. rewrite IH. f_equal. lia.
Qed.
Theorem quote_roundtrip safe s q : safe 37 = false -> quote safe s = Some q -> unquote q = Some s.
Proof.
  unfold quote, unquote. intros Hs E. destruct (utf8_encode s) as [b|] eqn:Eb; [|done]. injection E as <-. rewrite unquote_quote_bytes; [by apply utf8_roundtrip|done|by eapply utf8_bytes].
Qed.
Print Assumptions utf8_roundtrip. Print Assumptions b64_roundtrip. Print Assumptions quote_roundtrip.
