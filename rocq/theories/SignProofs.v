(** Lemmas about sorting, quoting and joining. *)
From stdpp Require Import prelude gmap sorting.
From Coq Require Import String.
From Verif Require Import Text CodecModel CodecProps ConfigModel ConfigProps SignModel SignSpec.
Local Close Scope string_scope.
Local Close Scope N_scope.
Local Open Scope nat_scope.
Local Open Scope list_scope.

(** * Order *)
Lemma lex_spec a b : lex a b = true <-> text_le a b.
Proof.
  split.
  - revert b. induction a as [|x a IH]; intros b; [intros _; left; apply prefix_nil|]. destruct b as [|y b]; [done|]. cbn [lex].
    destruct (N.ltb_spec x y) as [H|H]; [intros _; right; by exists [], x, y, a, b|]. destruct (N.ltb_spec y x) as [H'|H']; [done|].
    assert (x = y) as -> by lia. intros [Hp|(p & u & v & a' & b' & -> & -> & Huv)]%IH; [left; by apply prefix_cons|right; by exists (y :: p), u, v, a', b'].
  - assert (forall p a' b', lex (p ++ a') (p ++ b') = lex a' b') as Hp by (intros p a' b'; induction p as [|x p IH]; [done|]; cbn; by rewrite N.ltb_irrefl).
    intros [[r ->]|(p & x & y & a' & b' & -> & -> & H)].
    + rewrite <- (app_nil_r a) at 1. by rewrite Hp.
    + rewrite Hp. cbn. apply N.ltb_lt in H. by rewrite H.
Qed.
Lemma lex_total a b : lex a b = false -> lex b a = true.
Proof.
  revert b. induction a as [|x a IH]; intros b; [done|]. destruct b as [|y b]; [done|]. cbn [lex]. destruct (x <? y)%N; [done|]. destruct (y <? x)%N; [done|]. apply IH.
Qed.
Lemma lex_trans a b c : lex a b = true -> lex b c = true -> lex a c = true.
Proof.
  revert b c. induction a as [|x a IH]; intros b c; [done|]. destruct b as [|y b]; [done|]. destruct c as [|z c]; [done|]. cbn [lex].
  destruct (N.ltb_spec x y), (N.ltb_spec y x), (N.ltb_spec y z), (N.ltb_spec z y), (N.ltb_spec x z), (N.ltb_spec z x); try done; try lia. apply IH.
Qed.
Lemma ins_perm {A} le (x : A) l : ins le x l ≡ₚ x :: l.
Proof. induction l as [|y l IH]; [done|]. cbn. destruct (le x y); [done|]. rewrite IH. constructor. Qed.
Lemma sorted_perm {A} (le : A -> A -> bool) l : sorted le l ≡ₚ l.
Proof. induction l as [|x l IH]; [done|]. cbn. rewrite ins_perm. by constructor. Qed.
Lemma ins_sorted x l : StronglySorted text_le l -> StronglySorted text_le (ins lex x l).
Proof.
  induction 1 as [|y l Hs IH Hf]; [repeat constructor|]. cbn. destruct (lex x y) eqn:E.
  - constructor; [by constructor|]. constructor; [by apply lex_spec|]. eapply Forall_impl; [exact Hf|]. intros z Hz. apply lex_spec. eapply lex_trans; [exact E|]. by apply lex_spec.
  - constructor; [done|]. rewrite ins_perm. constructor; [|done]. apply lex_spec. by apply lex_total.
Qed.
Lemma sorted_sorted l : StronglySorted text_le (sorted lex l).
Proof. induction l as [|x l IH]; [constructor|]. cbn. by apply ins_sorted. Qed.
Lemma starts_with_spec p s : starts_with p s = true <-> p `prefix_of` s.
Proof.
  revert s. induction p as [|x p IH]; intros s; [split; [intros _; apply prefix_nil|done]|]. destruct s as [|y s]; [split; [done|by intros [? [=]]]|]. cbn [starts_with].
  rewrite andb_true_iff, N.eqb_eq, IH. split; [intros [-> H]; by apply prefix_cons|]. intros H. split; [by eapply prefix_cons_inv_1|by eapply prefix_cons_inv_2].
Qed.

(** * Quoting *)
Definition bytes (b : text) : Prop := Forall (fun x => x < 256)%N b.
Lemma elem_range (P : N -> Prop) n : (forall k, k < n -> P (N.of_nat k)) -> forall c, (c < N.of_nat n)%N -> P c.
Proof. intros H c Hc. rewrite <- (N2Nat.id c). apply H. lia. Qed.
Definition plainb (slash : bool) (c : N) : bool := bool_decide (c ∈ (lit "ABCDEFGHIJKLMNOPQRSTUVWXYZabcdefghijklmnopqrstuvwxyz0123456789-._~"%string) \/ slash = true /\ c = 47%N).
Lemma plain_unreserved c : (c < 256)%N -> plainb false c = unreserved c /\ plainb true c = safe_path c.
Proof.
  assert (forallb (fun k => Bool.eqb (plainb false (N.of_nat k)) (unreserved (N.of_nat k)) && Bool.eqb (plainb true (N.of_nat k)) (safe_path (N.of_nat k))) (seq 0 256) = true) as H by (vm_compute; reflexivity).
  rewrite forallb_forall in H. revert c. apply (elem_range (fun c => plainb false c = unreserved c /\ plainb true c = safe_path c) 256). intros k Hk.
  specialize (H k). rewrite andb_true_iff in H. destruct H as [H1 H2]; [apply in_seq; lia|]. split; by apply eqb_prop.
Qed.
Lemma uri_encode_eq (slash : bool) b : bytes b -> uri_encode slash b = quoted (if slash then safe_path else unreserved) b.
Proof.
  unfold uri_encode, quoted. induction 1 as [|c b Hc Hb IH]; [done|]. cbn [mbind list_bind flat_map]. f_equal; [|exact IH].
  pose proof (plain_unreserved c Hc) as [P1 P2]. unfold quote_byte.
  assert (plainb slash c = (if slash then safe_path else unreserved) c) as E by (by destruct slash). rewrite <- E.
  destruct (plainb slash c) eqn:Ep; unfold plainb in Ep; [apply bool_decide_eq_true in Ep; by rewrite decide_True|apply bool_decide_eq_false in Ep; by rewrite decide_False].
Qed.
Lemma unquote_quoted safe b : safe 37%N = false -> bytes b -> unquote_bytes (quoted safe b) = b.
Proof. intros H Hb. by apply unquote_quote_bytes. Qed.
(** The characters of an encoded string *)
Definition qchar (safe : N -> bool) (c : N) : Prop := safe c = true \/ c = 37%N \/ (48 <= c <= 57)%N \/ (65 <= c <= 70)%N.
Lemma HEX_char n : (n < 16)%N -> (48 <= HEXDIGIT n <= 57)%N \/ (65 <= HEXDIGIT n <= 70)%N.
Proof. intros H. unfold HEXDIGIT. destruct (N.ltb_spec n 10); lia. Qed.
Lemma quote_byte_chars safe x c : (x < 256)%N -> c ∈ quote_byte safe x -> qchar safe c.
Proof.
  intros Hx. unfold quote_byte. destruct (safe x) eqn:E; [intros ->%elem_of_list_singleton; by left|].
  rewrite !elem_of_cons, elem_of_nil. intros [->|[->|[->|[]]]]; right; [by left| |]; right; apply HEX_char.
  - apply N.div_lt_upper_bound; lia.
  - apply N.mod_lt. lia.
Qed.
Lemma quoted_chars safe b c : bytes b -> c ∈ quoted safe b -> qchar safe c.
Proof.
  intros Hb. induction Hb as [|x b Hx Hb IH]; [by intros ?%elem_of_nil|]. unfold quoted. cbn [flat_map]. rewrite elem_of_app. intros [H|H]; [|by apply IH]. by eapply quote_byte_chars.
Qed.
Lemma quote_plus_chars b c : bytes b -> c ∈ quote_plus b -> qchar unreserved c \/ c = 43%N.
Proof.
  intros Hb. induction Hb as [|x b Hx Hb IH]; [by intros ?%elem_of_nil|]. unfold quote_plus. cbn [flat_map]. rewrite elem_of_app. intros [H|H]; [|by apply IH].
  destruct (x =? 32)%N; [right; by apply elem_of_list_singleton in H|left; by eapply quote_byte_chars].
Qed.
Lemma qchar_not safe (c d : N) : qchar safe c -> safe d = false -> d <> 37%N -> ~ (48 <= d <= 57)%N -> ~ (65 <= d <= 70)%N -> c <> d.
Proof. intros H H1 H2 H3 H4 ->. destruct H as [H|[H|[H|H]]]; [congruence|done..]. Qed.
Lemma quoted_lacks safe b d : bytes b -> safe d = false -> d <> 37%N -> ~ (48 <= d <= 57)%N -> ~ (65 <= d <= 70)%N -> d ∉ quoted safe b.
Proof. intros Hb H1 H2 H3 H4 F. apply quoted_chars in F; [|done]. by eapply qchar_not. Qed.
Lemma quote_plus_lacks b d : bytes b -> unreserved d = false -> d <> 37%N -> d <> 43%N -> ~ (48 <= d <= 57)%N -> ~ (65 <= d <= 70)%N -> d ∉ quote_plus b.
Proof. intros Hb H1 H2 H2' H3 H4 F. apply quote_plus_chars in F as [F|F]; [|done|done]. by eapply qchar_not. Qed.
Lemma quoted_inj safe a b : safe 37%N = false -> bytes a -> bytes b -> quoted safe a = quoted safe b -> a = b.
Proof. intros H Ha Hb E. apply (f_equal unquote_bytes) in E. by rewrite !unquote_quoted in E by done. Qed.
Lemma plus_decode_quote b : bytes b -> plus_decode (quote_plus b) = b.
Proof.
  intros Hb. assert ((fun c => if decide (c = 43%N) then 32%N else c) <$> quote_plus b = quoted (fun c => unreserved c || (c =? 32)%N) b) as E.
  { induction Hb as [|x b Hx Hb IH]; [done|]. unfold quote_plus, quoted. cbn [flat_map]. rewrite fmap_app. f_equal; [|exact IH]. clear IH Hb.
    unfold quote_byte. destruct (N.eqb_spec x 32) as [->|Hne]; [done|]. rewrite orb_false_r. destruct (unreserved x) eqn:U.
    - cbn. rewrite decide_False; [done|]. intros ->. by vm_compute in U.
    - assert (forall c, (48 <= c <= 57)%N \/ (65 <= c <= 70)%N -> (if decide (c = 43%N) then 32%N else c) = c) as K by (intros c Hc; rewrite decide_False; [done|lia]).
      cbn [fmap list_fmap]. rewrite decide_False by done. rewrite !K; [done| |]; apply HEX_char; [apply N.mod_lt; lia|apply N.div_lt_upper_bound; lia]. }
  unfold plus_decode. rewrite E. by apply unquote_quoted.
Qed.
Lemma upto_none' stop a : stop ∉ a -> upto stop a = None.
Proof. apply upto_none. Qed.

(** * Joining *)
Lemma join_inj (c : N) (a b : list text) : Forall (fun w => c ∉ w) a -> Forall (fun w => c ∉ w) b -> a <> [] -> b <> [] -> join c a = join c b -> a = b.
Proof. intros Ha Hb Na Nb E. rewrite <- (split_join c a), <- (split_join c b) by done. by rewrite E. Qed.
