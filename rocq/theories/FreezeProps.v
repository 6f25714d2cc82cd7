(** C30: mappings survive serialisation. *)
From stdpp Require Import prelude.
From Coq Require Import NArith ZArith Lia.
From Verif Require Import CodecModel CodecProps FreezeModel.
Local Open Scope N_scope.
Local Ltac Zify.zify_post_hook ::= Z.to_euclidean_division_equations.

Section freeze.
Context (printable : N -> bool) {F : Type} `{EqDecision F} (fshow : F -> text) (fread : text -> option F).
Notation value := (@value F). Notation mapping := (@mapping F).
Notation repr := (@repr printable F fshow). Notation literal := (@literal F fread). Notation items := (@items F _ fread).
Notation freeze := (@freeze printable F _ fshow fread). Notation thaw := (@thaw F _ fread).

(** A text that ends a value *)
Definition ends (r : text) : Prop := match r with c :: _ => c = 44 \/ c = 32 \/ c = 58 \/ c = 125 | [] => True end.
Lemma string_rest_more fuel fuel' q l s r : string_rest fuel q l = Some (s, r) -> (fuel <= fuel')%nat -> string_rest fuel' q l = Some (s, r).
Proof.
  revert fuel' l s r. induction fuel as [|fuel IH]; intros fuel' l s r E L; [done|]. destruct fuel' as [|fuel']; [lia|]. cbn [string_rest] in *. destruct l as [|c l]; [done|].
  assert (forall c l s r, match string_rest fuel q l with Some (s, r) => Some (c :: s, r) | None => None end = Some (s, r) -> match string_rest fuel' q l with Some (s, r) => Some (c :: s, r) | None => None end = Some (s, r)) as K.
  { intros c0 l0 s0 r0 H. destruct (string_rest fuel q l0) as [[s1 r1]|] eqn:E1; [|done]. rewrite (IH fuel' l0 s1 r1); [done|done|lia]. }
  destruct (c =? q); [done|]. destruct (_ || _); [done|]. destruct (c =? BACKSLASH); [|by apply K]. destruct l as [|e l]; [done|]. cbv zeta in *. repeat (case_match; try done; try by apply K).
Qed.
Lemma string_rest_app fuel q l s r x : string_rest fuel q l = Some (s, r) -> string_rest fuel q (l ++ x) = Some (s, r ++ x).
Proof.
  revert l s r. induction fuel as [|fuel IH]; intros l s r E; [done|]. cbn [string_rest] in *. destruct l as [|c l]; [done|]. cbn [app].
  assert (forall c l s r, match string_rest fuel q l with Some (s, r) => Some (c :: s, r) | None => None end = Some (s, r) -> match string_rest fuel q (l ++ x) with Some (s, r) => Some (c :: s, r) | None => None end = Some (s, r ++ x)) as K.
  { intros c0 l0 s0 r0 H. destruct (string_rest fuel q l0) as [[s1 r1]|] eqn:E1; [|done]. rewrite (IH l0 s1 r1); [|done]. by injection H as <- <-. }
  assert (forall w acc l c l', unhexn w acc l = Some (c, l') -> unhexn w acc (l ++ x) = Some (c, l' ++ x)) as U.
  { clear. induction w as [|w IH]; intros acc l c l' H; cbn [unhexn] in *; [by injection H as <- <-|]. destruct l as [|d l]; [done|]. cbn [app]. destruct (unhex d); [|done]. cbn in *. by apply IH. }
  destruct (c =? q); [by injection E as <- <-|]. destruct (_ || _); [done|]. destruct (c =? BACKSLASH); [|by apply K]. destruct l as [|e l]; [done|]. cbn [app]. cbv zeta in *.
  destruct (_ || _); [by apply K|]. destruct (e =? 116); [by apply K|]. destruct (e =? 110); [by apply K|]. destruct (e =? 114); [by apply K|].
  destruct (e =? 120); [destruct (unhexn 2 0 l) as [[c1 l1]|] eqn:E1; [|done]; rewrite (U _ _ _ _ _ E1); by apply K|].
  destruct (e =? 117); [destruct (unhexn 4 0 l) as [[c1 l1]|] eqn:E1; [|done]; rewrite (U _ _ _ _ _ E1); by apply K|].
  destruct (e =? 85); [destruct (unhexn 8 0 l) as [[c1 l1]|] eqn:E1; [|done]; rewrite (U _ _ _ _ _ E1); destruct (c1 <? 0x110000); [by apply K|done]|]. done.
Qed.
Lemma bytes_rest_app q l s r x : bytes_rest q l = Some (s, r) -> bytes_rest q (l ++ x) = Some (s, r ++ x).
Proof.
  revert s r. induction l as [|c l IH]; intros s r E; [done|]. cbn [bytes_rest app] in *. destruct (c =? q); [by injection E as <- <-|]. destruct (_ || _); [done|]. destruct (bytes_rest q l) as [[s1 r1]|]; [|done]. rewrite (IH s1 r1) by done. by injection E as <- <-.
Qed.
Lemma strip_prefix_app p l r x : strip_prefix p l = Some r -> strip_prefix p (l ++ x) = Some (r ++ x).
Proof. revert l. induction p as [|c p IH]; intros l E; cbn [strip_prefix] in *; [by injection E as <-|]. destruct l as [|d l]; [done|]. cbn [app]. destruct (c =? d); [by apply IH|done]. Qed.
Lemma num_span_ends l x : snd (num_span l) = [] -> ends x -> num_span (l ++ x) = (l, x) /\ num_span l = (l, []).
Proof.
  intros H Hx. induction l as [|c l IH]; cbn [num_span app] in *.
  - split; [|done]. destruct x as [|c x]; [done|]. cbn [num_span]. assert (is_num c = false) as ->; [|done]. cbn in Hx. unfold is_num, is_digit. destruct Hx as [-> |[-> |[-> | ->]]]; done.
  - destruct (is_num c) eqn:E; [|done]. destruct (num_span l) as [a b]. cbn in H. destruct (IH H) as [-> [= -> ->]]. done.
Qed.
(** A value that is read back alone is read back with something after it. *)
Lemma literal_ends l v x : literal l = Some (v, []) -> ends x -> literal (l ++ x) = Some (v, x).
Proof.
  intros E Hx. unfold FreezeModel.literal in *. destruct l as [|c l]; [done|]. cbn [app]. destruct (_ || _).
  - destruct (string_rest _ c l) as [[s r]|] eqn:Es; [|done]. injection E as <- ->. apply (string_rest_app _ _ _ _ _ x) in Es. apply (string_rest_more _ (length (c :: l ++ x))) in Es; [|cbn; rewrite app_length; lia]. by rewrite Es.
  - destruct (c =? 98).
    { destruct l as [|q l]; [done|]. cbn [app]. destruct (_ || _); [|done]. destruct (bytes_rest q l) as [[s r]|] eqn:Es; [|done]. injection E as <- ->. by rewrite (bytes_rest_app _ _ _ _ x Es). }
    destruct (c =? 84). { destruct (strip_prefix TRUE (c :: l)) as [r|] eqn:Es; [|done]. injection E as <- ->. apply (strip_prefix_app _ _ _ x) in Es. cbn [app] in Es. by rewrite Es. }
    destruct (c =? 70). { destruct (strip_prefix FALSE (c :: l)) as [r|] eqn:Es; [|done]. injection E as <- ->. apply (strip_prefix_app _ _ _ x) in Es. cbn [app] in Es. by rewrite Es. }
    destruct (c =? 78). { destruct (strip_prefix NONE (c :: l)) as [r|] eqn:Es; [|done]. injection E as <- ->. apply (strip_prefix_app _ _ _ x) in Es. cbn [app] in Es. by rewrite Es. }
    destruct (num_span (c :: l)) as [a r] eqn:En. destruct (number fread a) as [v'|] eqn:Ev; [|done]. injection E as <- ->. destruct (num_span_ends (c :: l) x) as [E1 E2]; [by rewrite En|done|]. cbn [app] in E1. rewrite E1. rewrite En in E2. injection E2 as ->. by rewrite Ev.
Qed.
(** What can start a value is not a space or a brace *)
Lemma literal_head l v r : literal l = Some (v, r) -> exists c l', l = c :: l' /\ c <> 32 /\ c <> 125 /\ c <> 123.
Proof.
  intros E. destruct l as [|c l]; [done|]. exists c, l. split; [done|]. split_and!; intros ->; done.
Qed.
Lemma skip_id c l : c <> 32 -> skip (c :: l) = c :: l.
Proof. intros H. destruct c as [|p]; [done|]. cbn [skip]. repeat (destruct p as [p|p|]; try done). Qed.
Lemma skip_spaces n l : skip (replicate n 32 ++ l) = skip l.
Proof. induction n as [|n IH]; [done|]. cbn [replicate app skip]. exact IH. Qed.
Lemma skip_literal n l v x : literal l = Some (v, []) -> skip (replicate n 32 ++ l ++ x) = l ++ x.
Proof. intros E. rewrite skip_spaces. destruct (literal_head _ _ _ E) as (c & l' & -> & H & _). cbn [app]. by apply skip_id. Qed.
(** One item *)
Lemma items_step fuel d sp sp' lk lv k v x : literal lk = Some (k, []) -> literal lv = Some (v, []) -> ends x ->
  items (S fuel) d (replicate sp 32 ++ lk ++ 58 :: replicate sp' 32 ++ lv ++ x) =
    match skip x with 44 :: r => items fuel (put k v d) r | 125 :: r => Some (put k v d, r) | _ => None end.
Proof.
  intros Ek Ev Hx. cbn [FreezeModel.items]. rewrite (skip_literal _ _ _ _ Ek). destruct (literal_head _ _ _ Ek) as (c & l' & El & H1 & H2 & _).
  assert (forall (X Y : option (mapping * text)) r, match lk ++ r with 125 :: _ => X | _ => Y end = Y) as Hm.
  { intros X Y r. rewrite El. cbn [app]. destruct c as [|p]; [done|]. repeat (destruct p as [p|p|]; try done). }
  assert (literal (lk ++ 58 :: replicate sp' 32 ++ lv ++ x) = Some (k, 58 :: replicate sp' 32 ++ lv ++ x)) as E1 by (apply literal_ends; [done|cbn; tauto]).
  replace (match lk ++ 58 :: replicate sp' 32 ++ lv ++ x with 125 :: r => Some (d, r) | _ => _ end) with (match skip (58 :: replicate sp' 32 ++ lv ++ x) with
    | 58 :: r => match literal (skip r) with None => None | Some (v, r) => match skip r with 44 :: r => items fuel (put k v d) r | 125 :: r => Some (put k v d, r) | _ => None end end | _ => None end).
  - rewrite skip_id by done. rewrite (skip_literal _ _ _ _ Ev). by rewrite (literal_ends _ _ x Ev Hx).
  - rewrite El in E1 |- *. cbn [app] in E1 |- *. destruct c as [|p]; [by rewrite E1|]. repeat (destruct p as [p|p|]; try (rewrite E1; done); try done).
Qed.
Notation put := (@put F _). Notation element := (@element printable F _ fshow fread). Notation elements := (@elements printable F _ fshow fread).
Lemma put_new k v (d : mapping) : k ∉ d.*1 -> put k v d = d ++ [(k, v)].
Proof. induction d as [|[k' v'] d IH]; [done|]. cbn. intros [N1 N2]%not_elem_of_cons. rewrite decide_False by congruence. by rewrite IH. Qed.
Definition stored (d : mapping) : mapping := (fun kv => (kv.1, elementary kv.2)) <$> d.
Lemma element_spec k v e : element k v = Some e -> e = repr k ++ [58; 32] ++ repr (elementary v) /\ literal (repr k) = Some (k, []) /\ literal (repr (elementary v)) = Some (elementary v, []) /\ exists s, k = VStr s.
Proof. unfold element. destruct k; try done. case_decide as D; [|done]. destruct D as [D1 D2]. intros [= <-]. split_and!; [done..|]. by eexists. Qed.
Lemma items_all d es fuel acc sp : elements d = Some es -> NoDup (acc.*1 ++ d.*1) -> (length es < fuel)%nat ->
  items fuel acc (replicate sp 32 ++ comma es ++ [32; 125]) = Some (acc ++ stored d, []).
Proof.
  revert es fuel acc sp. induction d as [|[k v] d IH]; intros es fuel acc sp E Nd L; cbn [elements] in E.
  - injection E as <-. destruct fuel as [|fuel]; [cbn in L; lia|]. cbn [comma app FreezeModel.items]. rewrite skip_spaces. cbn. by rewrite app_nil_r.
  - destruct (element k v) as [e|] eqn:Ee; [|done]. cbn [mbind option_bind] in E. destruct (elements d) as [es'|] eqn:Ed; [|done]. injection E as <-. apply element_spec in Ee as (-> & Ek & Ev & _).
    destruct fuel as [|fuel]; [cbn in L; lia|]. cbn [length] in L. cbn [fmap list_fmap fst] in Nd.
    assert (NoDup ((acc ++ [(k, elementary v)]).*1 ++ d.*1)) as Nd' by (rewrite fmap_app, <- app_assoc; exact Nd).
    assert (k ∉ acc.*1) as Hk by (apply NoDup_app in Nd as (_ & Nd & _); intros Q; apply (Nd k Q); left). assert (acc ++ stored ((k, v) :: d) = (acc ++ [(k, elementary v)]) ++ stored d) as Est by (rewrite <- app_assoc; done). rewrite Est.
    destruct es' as [|e' es'].
    + assert (d = []) as -> by (destruct d as [|[k1 v1] d]; [done|]; cbn [elements] in Ed; destruct (element k1 v1); [|done]; cbn in Ed; by destruct (elements d)).
      cbn [comma]. replace (replicate sp 32 ++ (repr k ++ [58; 32] ++ repr (elementary v)) ++ [32; 125]) with (replicate sp 32 ++ repr k ++ 58 :: replicate 1 32 ++ repr (elementary v) ++ [32; 125]) by (cbn [replicate app]; by rewrite <- !app_assoc).
      rewrite (items_step fuel acc sp 1 _ _ _ _ [32; 125] Ek Ev) by (cbn; tauto). cbn [skip]. rewrite put_new by done. cbn. by rewrite app_nil_r.
    + replace (replicate sp 32 ++ comma ((repr k ++ [58; 32] ++ repr (elementary v)) :: e' :: es') ++ [32; 125]) with
        (replicate sp 32 ++ repr k ++ 58 :: replicate 1 32 ++ repr (elementary v) ++ (44 :: 32 :: comma (e' :: es') ++ [32; 125])) by (cbn [replicate]; change (comma ((repr k ++ [58; 32] ++ repr (elementary v)) :: e' :: es')) with ((repr k ++ [58; 32] ++ repr (elementary v)) ++ [44; 32] ++ comma (e' :: es')); rewrite <- !app_assoc; done).
      rewrite (items_step fuel acc sp 1 _ _ _ _ _ Ek Ev) by (cbn; tauto). rewrite skip_id by done. rewrite put_new by done. apply (IH (e' :: es') fuel _ 1%nat); [done|done|lia].
Qed.

(** No zeros *)
Lemma esc_no_zero q c x : q <> 0 -> x ∈ esc printable q c -> x <> 0.
Proof.
  intros Hq. assert (forall w, BACKSLASH <> 0 /\ (x ∈ hexn w c -> x <> 0)) as Hh by (intros w; split; [done|]; intros H%hexn_chars; lia). unfold esc.
  destruct ((c =? BACKSLASH) || (c =? q)) eqn:E0; [apply orb_true_iff in E0 as [->%N.eqb_eq| ->%N.eqb_eq]; rewrite !elem_of_cons, elem_of_nil; intros [-> |[-> |[]]]; done|].
  destruct (c =? 9); [rewrite !elem_of_cons, elem_of_nil; intros [-> |[-> |[]]]; done|]. destruct (c =? 10); [rewrite !elem_of_cons, elem_of_nil; intros [-> |[-> |[]]]; done|]. destruct (c =? 13); [rewrite !elem_of_cons, elem_of_nil; intros [-> |[-> |[]]]; done|].
  destruct ((c <? 32) || (c =? 127)) eqn:E1; [rewrite !elem_of_cons; intros [-> |[-> |H]]; [done|done|by apply (Hh 2%nat)]|]. apply orb_false_iff in E1 as [E1%N.ltb_ge _].
  destruct ((c <? 127) || printable c); [rewrite elem_of_list_singleton; intros ->; lia|]. destruct (c <? 256); [rewrite !elem_of_cons; intros [-> |[-> |H]]; [done|done|by apply (Hh 2%nat)]|].
  destruct (c <? 65536); rewrite !elem_of_cons; (intros [-> |[-> |H]]; [done|done|]); [by apply (Hh 4%nat)|by apply (Hh 8%nat)].
Qed.
Lemma the_quote_cases s : the_quote s = QUOTE \/ the_quote s = DQUOTE.
Proof. unfold the_quote. destruct (_ && _); auto. Qed.
Lemma decN_digits fuel n c : c ∈ decN fuel n -> 48 <= c <= 57.
Proof.
  revert n. induction fuel as [|fuel IH]; intros n; cbn [decN]; [by intros ?%elem_of_nil|]. destruct (n <? 10) eqn:D; [apply N.ltb_lt in D; intros ->%elem_of_list_singleton; lia|]. rewrite elem_of_app, elem_of_list_singleton. intros [H| ->]; [by apply IH in H|lia].
Qed.
Lemma num_span_num l : snd (num_span l) = [] -> Forall (fun c => is_num c = true) l.
Proof. induction l as [|c l IH]; [constructor|]. cbn [num_span]. destruct (is_num c) eqn:E; [|done]. destruct (num_span l) as [a b]. cbn in *. intros H. constructor; auto. Qed.
(** Values as they are stored: bytes in base64 *)
Definition storable (v : value) : Prop := match v with VBytes b => Forall b64char b | _ => True end.
Lemma repr_no_zero v : storable v -> literal (repr v) = Some (v, []) -> 0 ∉ repr v.
Proof.
  intros Hs E Hz. destruct v as [s|b|z|[]| |f]; cbn [FreezeModel.repr] in *.
  - unfold repr_str in Hz. apply elem_of_cons in Hz as [Hz|Hz]; [destruct (the_quote_cases s) as [Hq|Hq]; rewrite Hq in Hz; done|]. apply elem_of_app in Hz as [Hz|Hz].
    + apply elem_of_list_In, in_flat_map in Hz as (c & _ & Hz%elem_of_list_In). revert Hz. intros Hz. apply esc_no_zero in Hz; [done|]. destruct (the_quote_cases s) as [-> | ->]; done.
    + apply elem_of_list_singleton in Hz. destruct (the_quote_cases s) as [Hq|Hq]; rewrite Hq in Hz; done.
  - unfold repr_bytes in Hz. rewrite !elem_of_cons, elem_of_app, elem_of_list_singleton in Hz. destruct Hz as [?|[?|[H|?]]]; [done|done| |done]. cbn in Hs. rewrite Forall_forall in Hs. apply Hs in H. unfold b64char in H. lia.
  - unfold repr_int, dec in Hz. destruct (z <? 0)%Z; [apply elem_of_cons in Hz as [?|Hz]; [done|]|]; apply decN_digits in Hz; lia.
  - unfold TRUE in Hz. rewrite !elem_of_cons, elem_of_nil in Hz. by destruct Hz as [?|[?|[?|[?|[]]]]].
  - unfold FALSE in Hz. rewrite !elem_of_cons, elem_of_nil in Hz. by destruct Hz as [?|[?|[?|[?|[?|[]]]]]].
  - unfold NONE in Hz. rewrite !elem_of_cons, elem_of_nil in Hz. by destruct Hz as [?|[?|[?|[?|[]]]]].
  - unfold FreezeModel.literal in E. destruct (fshow f) as [|c l] eqn:Ef; [done|]. destruct (_ || _); [destruct (string_rest _ c l) as [[]|]; done|]. destruct (c =? 98).
    { destruct l as [|q l]; [done|]. destruct (_ || _); [|done]. destruct (bytes_rest q l) as [[]|]; done. }
    destruct (c =? 84); [destruct (strip_prefix TRUE _); done|]. destruct (c =? 70); [destruct (strip_prefix FALSE _); done|]. destruct (c =? 78); [destruct (strip_prefix NONE _); done|].
    destruct (num_span (c :: l)) as [a r] eqn:En. destruct (number fread a) as [v'|]; [|done]. injection E as -> ->. assert (Forall (fun c => is_num c = true) (c :: l)) as Hn by (apply num_span_num; by rewrite En). rewrite Forall_forall in Hn. by apply Hn in Hz.
Qed.
(** Bytes are bytes *)
Definition good (d : mapping) : Prop := Forall (fun kv => match kv.2 with VBytes b => Forall (fun x => x < 256) b | _ => True end) d.
Lemma stored_storable v : match v with VBytes b => Forall (fun x => x < 256) b | _ => True end -> storable (elementary v).
Proof. destruct v; cbn; try done. apply b64encode_chars. Qed.
Lemma comma_no_zero es : Forall (fun e => 0 ∉ e) es -> 0 ∉ comma es.
Proof.
  induction es as [|e es IH]; intros Hf; [apply not_elem_of_nil|]. apply Forall_cons in Hf as [He Hf]. destruct es as [|e' es]; [done|]. change (comma (e :: e' :: es)) with (e ++ [44; 32] ++ comma (e' :: es)). rewrite !elem_of_app, !elem_of_cons, elem_of_nil. intros [?|[[?|[?|[]]]|?]]; [done|done|done|]. by apply IH.
Qed.
Lemma elements_no_zero d es : good d -> elements d = Some es -> Forall (fun e => 0 ∉ e) es.
Proof.
  intros Hg. revert es. induction d as [|[k v] d IH]; intros es E; cbn [elements] in E; [by injection E as <-; constructor|]. destruct (element k v) as [e|] eqn:Ee; [|done]. cbn [mbind option_bind] in E. destruct (elements d) as [es'|]; [|done]. injection E as <-.
  apply Forall_cons in Hg as [Hv Hg]. constructor; [|by apply IH]. apply element_spec in Ee as (-> & Ek & Ev & s & ->). rewrite !elem_of_app, !elem_of_cons, elem_of_nil. intros [H|[[H|[H|[]]]|H]]; [|done|done|].
  - by apply repr_no_zero in H.
  - apply repr_no_zero in H; [done| |done]. by apply stored_storable.
Qed.
Lemma decode_stored d : good d -> decode_values (stored d) = Some d.
Proof.
  induction 1 as [|[k v] d Hv _ IH]; [done|]. cbn [stored fmap list_fmap fst snd]. cbn [decode_values]. fold (stored d). cbn [snd] in Hv. rewrite IH. destruct v as [s|b|z|bo| |f]; cbn [elementary]; try done.
  by rewrite b64_roundtrip by done.
Qed.
Lemma elements_length d es : elements d = Some es -> length es = length d /\ (length d <= length (comma es))%nat.
Proof.
  revert es. induction d as [|[k v] d IH]; intros es E; cbn [elements] in E; [by injection E as <-|]. destruct (element k v) as [e|] eqn:Ee; [|done]. cbn [mbind option_bind] in E. destruct (elements d) as [es'|]; [|done]. injection E as <-.
  destruct (IH es' eq_refl) as [L1 L2]. cbn [length]. split; [lia|]. apply element_spec in Ee as (-> & _ & _ & _). destruct es' as [|e' es']; [cbn [comma]; rewrite app_length; cbn [length app]; cbn in L1; lia|].
  change (comma ((repr k ++ [58; 32] ++ repr (elementary v)) :: e' :: es')) with ((repr k ++ [58; 32] ++ repr (elementary v)) ++ [44; 32] ++ comma (e' :: es')). rewrite !app_length. cbn [length] in *. lia.
Qed.

(** Whatever freeze gives is read back as the same mapping. *)
Theorem freeze_thaw d b : good d -> NoDup d.*1 -> freeze d = Some b -> thaw b = Thawed d.
Proof.
  intros Hg Nd E. unfold FreezeModel.freeze in E. destruct (elements d) as [es|] eqn:Ee; [|done]. cbn [mbind option_bind] in E. apply utf8_roundtrip in E. unfold FreezeModel.thaw. rewrite E. clear E.
  assert (literal_eval fread ([123; 32] ++ comma es ++ [32; 125]) = Mapping (stored d)) as ->; [|by rewrite decode_stored].
  unfold literal_eval. rewrite bool_decide_false. 2: { rewrite !elem_of_app, !elem_of_cons, !elem_of_nil. intros [[?|[?|[]]]|[H|[?|[?|[]]]]]; try done. by apply (comma_no_zero es (elements_no_zero d es Hg Ee)). }
  cbn [app]. rewrite skip_id by done. pose proof (elements_length _ _ Ee) as [L1 L2]. change (32 :: comma es ++ [32; 125]) with (replicate 1 32 ++ comma es ++ [32; 125]). rewrite (items_all d es _ [] 1%nat Ee); [done|done|]. rewrite app_length, app_length. cbn [length replicate]. lia.
Qed.

(** * freeze accepts every mapping of strings to the supported types *)
Lemma string_char fuel q c l : q = QUOTE \/ q = DQUOTE -> c < 0x110000 -> string_rest (S fuel) q (esc printable q c ++ l) = match string_rest fuel q l with Some (s, r) => Some (c :: s, r) | None => None end.
Proof.
  intros Hq Hc. assert ((BACKSLASH =? q) = false) as Hb by (destruct Hq as [-> | ->]; done). assert ((q =? BACKSLASH) = false) as Hb' by (destruct Hq as [-> | ->]; done). unfold esc.
  destruct ((c =? BACKSLASH) || (c =? q)) eqn:E0.
  { cbn [app string_rest]. rewrite Hb. change ((BACKSLASH =? 10) || (BACKSLASH =? 13)) with false. change (BACKSLASH =? BACKSLASH) with true. cbv iota zeta. assert ((c =? BACKSLASH) || (c =? QUOTE) || (c =? DQUOTE) = true) as ->; [|done]. apply orb_true_iff in E0 as [->%N.eqb_eq| ->%N.eqb_eq]; [done|]. by destruct Hq as [-> | ->]. }
  apply orb_false_iff in E0 as [E0 E1].
  assert (forall e l', (e =? BACKSLASH) || (e =? QUOTE) || (e =? DQUOTE) = false -> string_rest (S fuel) q (BACKSLASH :: e :: l') = let char c l := match string_rest fuel q l with Some (s, r) => Some (c :: s, r) | None => None end in
    if e =? 116 then char 9 l' else if e =? 110 then char 10 l' else if e =? 114 then char 13 l' else if e =? 120 then match unhexn 2 0 l' with Some (c, l) => char c l | None => None end
    else if e =? 117 then match unhexn 4 0 l' with Some (c, l) => char c l | None => None end else if e =? 85 then match unhexn 8 0 l' with Some (c, l) => if c <? 0x110000 then char c l else None | None => None end else None) as K.
  { intros e l' He. cbn [string_rest]. rewrite Hb. change ((BACKSLASH =? 10) || (BACKSLASH =? 13)) with false. change (BACKSLASH =? BACKSLASH) with true. cbv iota zeta. by rewrite He. }
  destruct (c =? 9) eqn:E2; [apply N.eqb_eq in E2 as ->; cbn [app]; by rewrite K|]. destruct (c =? 10) eqn:E3; [apply N.eqb_eq in E3 as ->; cbn [app]; by rewrite K|]. destruct (c =? 13) eqn:E4; [apply N.eqb_eq in E4 as ->; cbn [app]; by rewrite K|].
  assert (c < 256 -> string_rest (S fuel) q ((BACKSLASH :: 120 :: hexn 2 c) ++ l) = match string_rest fuel q l with Some (s, r) => Some (c :: s, r) | None => None end) as Kx.
  { intros H. cbn [app]. rewrite K by done. change (120 =? 116) with false. change (120 =? 110) with false. change (120 =? 114) with false. change (120 =? 120) with true. cbv iota zeta. rewrite unhexn_hexn by (change (16 ^ N.of_nat 2) with 256; lia). rewrite N.mul_0_l, N.add_0_l. done. }
  destruct ((c <? 32) || (c =? 127)) eqn:E5; [apply Kx; apply orb_true_iff in E5 as [?%N.ltb_lt|?%N.eqb_eq]; lia|].
  destruct (_ || printable c). { cbn [app string_rest]. rewrite E1, E3, E4, E0. done. }
  destruct (c <? 256) eqn:E6; [apply Kx; by apply N.ltb_lt|]. destruct (c <? 65536) eqn:E7.
  - apply N.ltb_lt in E7. cbn [app]. rewrite K by done. change (117 =? 116) with false. change (117 =? 110) with false. change (117 =? 114) with false. change (117 =? 120) with false. change (117 =? 117) with true. cbv iota zeta.
    rewrite unhexn_hexn by (change (16 ^ N.of_nat 4) with 65536; lia). rewrite N.mul_0_l, N.add_0_l. done.
  - cbn [app]. rewrite K by done. change (85 =? 116) with false. change (85 =? 110) with false. change (85 =? 114) with false. change (85 =? 120) with false. change (85 =? 117) with false. change (85 =? 85) with true. cbv iota zeta.
    rewrite unhexn_hexn by (change (16 ^ N.of_nat 8) with 4294967296; lia). rewrite N.mul_0_l, N.add_0_l. by rewrite ltb_t.
Qed.
Lemma string_all fuel q s l : q = QUOTE \/ q = DQUOTE -> Forall (fun c => c < 0x110000) s -> (length s < fuel)%nat -> string_rest fuel q (flat_map (esc printable q) s ++ q :: l) = Some (s, l).
Proof.
  intros Hq. revert fuel. induction s as [|c s IH]; intros fuel Hs L; (destruct fuel as [|fuel]; [cbn in L; lia|]).
  - cbn [flat_map app string_rest]. by rewrite N.eqb_refl.
  - apply Forall_cons in Hs as [Hc Hs]. cbn [flat_map]. rewrite <- app_assoc, string_char by done. rewrite IH; [done|done|cbn in L; lia].
Qed.
Lemma esc_length q c : (1 <= length (esc printable q c))%nat.
Proof. unfold esc. repeat case_match; cbn; lia. Qed.
Lemma flat_esc_length q s : (length s <= length (flat_map (esc printable q) s))%nat.
Proof. induction s as [|c s IH]; cbn; [lia|]. rewrite app_length. pose proof (esc_length q c). lia. Qed.
Lemma literal_str s : Forall (fun c => c < 0x110000) s -> literal (repr (VStr s)) = Some (VStr s, []).
Proof.
  intros Hs. cbn [FreezeModel.repr]. unfold repr_str. set (q := the_quote s). assert (q = QUOTE \/ q = DQUOTE) as Hq by apply the_quote_cases. unfold FreezeModel.literal. assert ((q =? QUOTE) || (q =? DQUOTE) = true) as -> by (destruct Hq as [-> | ->]; done).
  rewrite string_all; [done|done|done|]. cbn [length]. rewrite app_length. pose proof (flat_esc_length q s). cbn. lia.
Qed.
Lemma literal_bytes b : Forall b64char b -> literal (repr (VBytes b)) = Some (VBytes b, []).
Proof.
  intros Hb. cbn [FreezeModel.repr]. unfold repr_bytes, FreezeModel.literal. change ((98 =? QUOTE) || (98 =? DQUOTE)) with false. change (98 =? 98) with true. cbv iota. change ((QUOTE =? QUOTE) || (QUOTE =? DQUOTE)) with true. cbv iota.
  assert (bytes_rest QUOTE (b ++ [QUOTE]) = Some (b, [])) as ->; [|done]. induction Hb as [|c b Hc _ IH]; [done|]. cbn [app bytes_rest]. assert ((c =? QUOTE) = false) as -> by (apply N.eqb_neq; unfold b64char, QUOTE in *; lia).
  assert ((c =? 10) || (c =? 13) || (c =? BACKSLASH) || (128 <=? c) = false) as ->; [|by rewrite IH]. unfold b64char, BACKSLASH in *. rewrite !orb_false_iff, !N.eqb_neq, N.leb_gt. lia.
Qed.
Lemma valN_snoc l d : valN (l ++ [d]) = 10 * valN l + (d - 48).
Proof. unfold valN. by rewrite fold_left_app. Qed.
Lemma decN_spec fuel n : n < 2 ^ N.of_nat fuel -> (0 < fuel)%nat -> valN (decN fuel n) = n /\ exists d l, decN fuel n = d :: l /\ (n <> 0 -> d <> 48) /\ (n < 10 -> l = []) /\ (10 <= n -> l <> []).
Proof.
  revert n. induction fuel as [|fuel IH]; intros n Hn H0; [lia|]. cbn [decN]. destruct (n <? 10) eqn:D.
  - apply N.ltb_lt in D. split; [cbn; lia|]. exists (48 + n), []. split_and!; [done|lia|done|lia].
  - apply N.ltb_ge in D. rewrite Nat2N.inj_succ, N.pow_succ_r' in Hn. destruct fuel as [|fuel]; [cbn in Hn; lia|]. destruct (IH (n / 10)) as (V & d & l & El & Hd & _); [apply N.div_lt_upper_bound; lia|lia|]. rewrite valN_snoc, V, El. split; [lia|]. exists d, (l ++ [48 + n mod 10]). split_and!; [done| |lia|by destruct l].
    intros _. apply Hd. lia.
Qed.
Lemma digit_num c : 48 <= c <= 57 -> is_num c = true.
Proof. intros H. unfold is_num, is_digit. cmp. done. Qed.
Lemma size_bound n : n < 2 ^ N.of_nat (S (N.size_nat n)).
Proof.
  rewrite Nat2N.inj_succ, N.pow_succ_r'. assert (n < 2 ^ N.of_nat (N.size_nat n)); [|lia]. destruct n as [|p]; [done|]. cbn [N.size_nat]. induction p as [p IH|p IH|]; cbn [Pos.size_nat]; [| |done]; rewrite Nat2N.inj_succ, N.pow_succ_r'; lia.
Qed.
Lemma digits_dec n : digits (dec n) = Some n.
Proof.
  unfold dec. destruct (decN_spec (S (N.size_nat n)) n (size_bound n)) as (V & d & l & El & Hd & H1 & H2); [lia|]. assert (forall c, c ∈ d :: l -> is_digit c = true) as Hc.
  { intros c Hc. rewrite <- El in Hc. apply decN_digits in Hc. unfold is_digit. cmp. done. }
  rewrite El in V |- *. unfold digits. destruct l as [|d' l].
  - rewrite (Hc d) by left. f_equal. unfold valN in V. cbn in V. lia.
  - rewrite (Hc d) by left. assert (n <> 0) as Hn by (intros ->; by discriminate H1). rewrite (proj2 (N.eqb_neq d 48)) by by apply Hd. cbn [negb andb]. assert (forallb is_digit (d' :: l) = true) as ->; [|by rewrite V]. apply forallb_forall. intros c Hin. apply Hc. right. by apply elem_of_list_In.
Qed.
Lemma num_span_all l : Forall (fun c => is_num c = true) l -> num_span l = (l, []).
Proof. induction 1 as [|c l Hc _ IH]; [done|]. cbn [num_span]. by rewrite Hc, IH. Qed.
Lemma dec_cons n : exists d l, dec n = d :: l /\ 48 <= d <= 57.
Proof. unfold dec. destruct (decN_spec (S (N.size_nat n)) n (size_bound n)) as (_ & d & l & El & _); [lia|]. exists d, l. split; [done|]. apply (decN_digits (S (N.size_nat n)) n). rewrite El. left. Qed.
Lemma dec_num n : Forall (fun c => is_num c = true) (dec n).
Proof. apply Forall_forall. intros c Hc%decN_digits. by apply digit_num. Qed.
Lemma literal_number c l : 48 <= c <= 57 \/ c = 45 -> Forall (fun c => is_num c = true) (c :: l) -> literal (c :: l) = v ← number fread (c :: l); Some (v, []).
Proof.
  intros Hc Hn. unfold FreezeModel.literal. rewrite num_span_all by done. unfold QUOTE, DQUOTE. replace ((c =? 39) || (c =? 34)) with false by (symmetry; rewrite orb_false_iff, !N.eqb_neq; lia). rewrite !(proj2 (N.eqb_neq c _)) by lia. done.
Qed.
Lemma number_other l : head l <> Some 45 -> l <> [] -> number fread l = match digits l with Some n => Some (VInt (Z.of_N n)) | None => VFloat <$> fread l end.
Proof. intros H H'. destruct l as [|c l]; [done|]. destruct c as [|p]; [done|]. cbn [number]. repeat (destruct p as [p|p|]; try done). Qed.
Lemma literal_int z : literal (repr (VInt z)) = Some (VInt z, []).
Proof.
  cbn [FreezeModel.repr]. unfold repr_int. destruct (z <? 0)%Z eqn:D.
  - apply Z.ltb_lt in D. rewrite literal_number; [|by right|constructor; [done|apply dec_num]]. cbn [number]. rewrite digits_dec. cbn [mbind option_bind]. do 3 f_equal. lia.
  - apply Z.ltb_ge in D. destruct (dec_cons (Z.to_N z)) as (d & l & El & Hd). rewrite El. rewrite literal_number; [|by left|rewrite <- El; apply dec_num]. rewrite number_other; [|cbn; intros [= ->]; lia|done]. rewrite <- El, digits_dec. cbn [mbind option_bind]. do 3 f_equal. lia.
Qed.
(** What can be frozen: characters of strings are characters, floats are read back (not so infinity and NaN) *)
Definition freezable (v : value) : Prop := match v with VStr s => Forall (fun c => c < 0x110000) s | VBytes b => Forall (fun x => x < 256) b | VFloat f => literal (fshow f) = Some (VFloat f, []) /\ Forall (fun c => encodable c = true) (fshow f) | _ => True end.
Lemma literal_repr v : freezable v -> literal (repr (elementary v)) = Some (elementary v, []).
Proof.
  destruct v as [s|b|z|[]| |f]; cbn [freezable elementary]; intros Hv; [by apply literal_str| |apply literal_int|done|done|done|by apply Hv]. by apply literal_bytes, b64encode_chars.
Qed.
Lemma hexn_encodable w n : Forall (fun c => encodable c = true) (hexn w n).
Proof. apply Forall_forall. intros c Hc%hexn_chars. apply encodable_spec. lia. Qed.
Lemma repr_encodable v : (forall c, printable c = true -> encodable c = true) -> freezable v -> Forall (fun c => encodable c = true) (repr (elementary v)).
Proof.
  intros Hp. destruct v as [s|b|z|[]| |f]; cbn [freezable elementary FreezeModel.repr]; intros Hv; try (repeat constructor; done).
  - unfold repr_str. assert (encodable (the_quote s) = true) as Hq by (destruct (the_quote_cases s) as [-> | ->]; done). constructor; [done|]. apply Forall_app. split; [|by repeat constructor]. revert Hq. generalize (the_quote s). intros q Hq'. induction Hv as [|c s Hc _ IH]; [constructor|]. cbn [flat_map]. apply Forall_app. split; [|done].
    pose proof hexn_encodable as Hh. unfold esc. destruct ((c =? BACKSLASH) || (c =? q)) eqn:E0; [apply orb_true_iff in E0 as [->%N.eqb_eq| ->%N.eqb_eq]; by repeat constructor|]. destruct (c =? 9); [by repeat constructor|]. destruct (c =? 10); [by repeat constructor|]. destruct (c =? 13); [by repeat constructor|]. destruct ((c <? 32) || (c =? 127)); [do 2 (constructor; [done|]); apply Hh|].
    destruct ((c <? 127) || printable c) eqn:E1; [constructor; [|constructor]; apply orb_true_iff in E1 as [E1|E1]; [apply N.ltb_lt in E1; apply encodable_spec; lia|by apply Hp]|].
    destruct (c <? 256); [do 2 (constructor; [done|]); apply Hh|]. destruct (c <? 65536); do 2 (constructor; [done|]); apply Hh.
  - unfold repr_bytes. constructor; [done|]. constructor; [done|]. apply Forall_app. split; [|by repeat constructor]. apply b64encode_chars in Hv. eapply Forall_impl; [exact Hv|]. intros c Hc. apply encodable_spec. unfold b64char in Hc. lia.
  - assert (forall n, Forall (fun c => encodable c = true) (dec n)) as Hd by (intros n; apply Forall_forall; intros c Hc%decN_digits; apply encodable_spec; lia). unfold repr_int. destruct (z <? 0)%Z; [|apply Hd]. constructor; [done|apply Hd].
  - apply Hv.
Qed.
Theorem freeze_total d : (forall c, printable c = true -> encodable c = true) -> Forall (fun kv => freezable kv.1 /\ freezable kv.2 /\ exists s, kv.1 = VStr s) d -> exists b, freeze d = Some b.
Proof.
  intros Hp Hd. unfold FreezeModel.freeze. assert (exists es, elements d = Some es /\ Forall (Forall (fun c => encodable c = true)) es) as (es & -> & He).
  { induction Hd as [|[k v] d (Hk & Hv & s & Es) _ (es & IH & He)]; [by exists []|]. cbn [fst snd] in *. subst k. cbn [elements]. unfold element. rewrite decide_True by (split; [by apply (literal_repr (VStr s))|by apply literal_repr]). cbn [mbind option_bind]. rewrite IH. cbn [mbind option_bind]. eexists. split; [done|].
    constructor; [|done]. apply Forall_app. split; [by apply (repr_encodable (VStr s))|]. apply Forall_app. split; [by repeat constructor|by apply repr_encodable]. }
  cbn [mbind option_bind]. apply utf8_encode_total. apply Forall_app. split; [by repeat constructor|]. apply Forall_app. split; [|by repeat constructor]. clear Hd. induction He as [|e es Hee He IH]; [constructor|]. destruct es as [|e' es]; [done|].
  change (comma (e :: e' :: es)) with (e ++ [44; 32] ++ comma (e' :: es)). apply Forall_app. split; [done|]. apply Forall_app. split; [by repeat constructor|done].
Qed.
End freeze.

(** Malformed input is not always reported as such: a literal that is no mapping. *)
Theorem thaw_error_refuted : ~ forall b, @thaw unit _ (fun _ => None) b <> AttributeError.
Proof. intros Q. apply (Q [53]). vm_compute. reflexivity. Qed.
(** Bytes that are not base64 are accepted: the characters in question are skipped. *)
Theorem thaw_lenient_refuted : ~ forall p, (exists c, c ∈ p /\ ~ b64char c) -> @thaw unit _ (fun _ => None) ([123; 39; 97; 39; 58; 98; 39] ++ p ++ [39; 125]) = ThawError.
Proof. intros Q. assert (@thaw unit _ (fun _ => None) ([123; 39; 97; 39; 58; 98; 39] ++ [33; 33] ++ [39; 125]) = ThawError) as E; [|by vm_compute in E]. apply Q. exists 33. split; [left|]. unfold b64char. lia. Qed.
(** A mapping with every kind of value, characters that need each kind of escape, and both quotes *)
Definition sample : list (@value unit * @value unit) := [(VStr [97; 39; 34; 92; 10; 7; 127; 160; 955; 0xd800; 0x1f600; 0xe0001], VBytes [0; 255; 17; 3]); (VStr [98; 39], VInt (-170)); (VStr [], VInt 0); (VStr [48], VBool true); (VStr [49], VBool false); (VStr [50], VNone); (VStr [51], VBytes [])].
Definition pr (c : N) : bool := bool_decide (c = 955) || bool_decide (c = 0x1f600).
Example freeze_sample : match @freeze pr unit _ (fun _ => []) (fun _ => None) sample with Some b => @thaw unit _ (fun _ => None) b = Thawed sample | None => False end.
Proof. vm_compute. reflexivity. Qed.
Print Assumptions freeze_thaw. Print Assumptions freeze_total. Print Assumptions thaw_error_refuted. Print Assumptions thaw_lenient_refuted.
