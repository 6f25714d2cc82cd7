(** C69: what is uploaded to Google Storage arrives unaltered. *)
From stdpp Require Import prelude.
From Coq Require Import NArith ZArith Lia String.
From Verif Require Import CodecModel CodecProps Text FreezeModel FreezeProps GsUploadModel GsUploadSpec.
Local Open Scope N_scope.
Local Ltac Zify.zify_post_hook ::= Z.to_euclidean_division_equations.
Local Arguments hexn : simpl never. Local Arguments unhexn : simpl never.

(** ** Strings in JSON *)
Lemma jchar_read fuel c l : encodable c = true -> jstring (S fuel) (jchar c ++ l) = match jstring fuel l with Some (s, r) => Some (c :: s, r) | None => None end.
Proof.
  intros [Hc He]%encodable_spec. unfold jchar.
  destruct (c =? 34) eqn:E1; [apply N.eqb_eq in E1 as ->; reflexivity|]. destruct (c =? 92) eqn:E2; [apply N.eqb_eq in E2 as ->; reflexivity|].
  destruct (c =? 10) eqn:E3; [apply N.eqb_eq in E3 as ->; reflexivity|]. destruct (c =? 13) eqn:E4; [apply N.eqb_eq in E4 as ->; reflexivity|].
  destruct (c =? 9) eqn:E5; [apply N.eqb_eq in E5 as ->; reflexivity|]. destruct (c =? 12) eqn:E6; [apply N.eqb_eq in E6 as ->; reflexivity|].
  destruct (c =? 8) eqn:E7; [apply N.eqb_eq in E7 as ->; reflexivity|]. destruct ((32 <=? c) && (c <=? 126)) eqn:E8.
  - apply andb_true_iff in E8 as [E8%N.leb_le E9%N.leb_le]. cbn [app jstring]. rewrite E1, E2. by rewrite (ltb_f c 32) by done.
  - destruct (c <? 0x10000) eqn:E9; [apply N.ltb_lt in E9|apply N.ltb_ge in E9].
    + rewrite <- !app_comm_cons. cbn [jstring]. change (92 =? 34) with false. change (92 =? 92) with true. cbv iota. rewrite unhexn_hexn by (change (16 ^ N.of_nat 4) with 0x10000; lia). cbv iota beta.
      rewrite N.mul_0_l, N.add_0_l. destruct He as [He|He].
      * rewrite (leb_f 0xd800 c), (leb_f 0xdc00 c) by lia. done.
      * rewrite (ltb_f c 0xdc00), (ltb_f c 0xe000), !andb_false_r by lia. done.
    + rewrite <- !app_comm_cons, <- app_assoc, <- !app_comm_cons. cbn [jstring]. change (92 =? 34) with false. change (92 =? 92) with true. cbv iota.
      rewrite unhexn_hexn by (change (16 ^ N.of_nat 4) with 0x10000; lia). cbv iota beta. rewrite N.mul_0_l, N.add_0_l.
      rewrite (leb_t 0xd800), (ltb_t _ 0xdc00) by lia. cbn [andb]. cbv iota.
      rewrite unhexn_hexn by (change (16 ^ N.of_nat 4) with 0x10000; lia). cbv iota beta. rewrite N.mul_0_l, N.add_0_l.
      rewrite (leb_t 0xdc00), (ltb_t _ 0xe000) by lia. cbn [andb]. cbv iota.
      replace (0x10000 + (0xd800 + (c - 0x10000) / 1024 - 0xd800) * 1024 + (0xdc00 + (c - 0x10000) mod 1024 - 0xdc00)) with c by lia. done.
Qed.
Definition chars (s : text) : Prop := Forall (fun c => encodable c = true) s.
Lemma jchars_read s l fuel : chars s -> (List.length s < fuel)%nat -> jstring fuel (flat_map jchar s ++ 34 :: l) = Some (s, l).
Proof.
  revert fuel. induction s as [|c s IH]; intros fuel Hs Hf; (destruct fuel as [|fuel]; [cbn in Hf; lia|]); [reflexivity|].
  apply Forall_cons in Hs as [Hc Hs]. cbn [flat_map]. rewrite <- app_assoc, jchar_read by done. cbn [List.length] in Hf. by rewrite IH by (done || lia).
Qed.
Lemma jchar_long c : (1 <= List.length (jchar c))%nat.
Proof. unfold jchar. repeat case_match; cbn; lia. Qed.
Lemma jchars_long s : (List.length s <= List.length (flat_map jchar s))%nat.
Proof. induction s as [|c s IH]; [done|]. cbn [flat_map]. rewrite app_length. pose proof (jchar_long c). cbn [List.length]. lia. Qed.
Lemma jstr_read s l k : chars s -> (k = 0 \/ k = 1)%nat -> exists l', replicate k 32 ++ jstr s ++ l = l' /\ blank l' = 34 :: flat_map jchar s ++ 34 :: l /\ jstring (List.length l') (flat_map jchar s ++ 34 :: l) = Some (s, l).
Proof.
  intros Hs Hk. eexists; split; [reflexivity|]. unfold jstr. rewrite <- app_comm_cons, <- app_assoc. cbn [app]. split; [by destruct Hk as [-> | ->]|]. apply jchars_read; [done|].
  rewrite app_length. cbn [List.length]. rewrite app_length. cbn [List.length]. pose proof (jchars_long s). lia.
Qed.
(** Only printable ASCII characters *)
Lemma jchar_ascii c x : x ∈ jchar c -> 32 <= x <= 126.
Proof.
  assert (forall w n, x ∈ hexn w n -> 32 <= x <= 126) as Hh by (intros w n H%hexn_chars; lia). unfold jchar.
  destruct (c =? 34); [rewrite !elem_of_cons, elem_of_nil; lia|]. destruct (c =? 92); [rewrite !elem_of_cons, elem_of_nil; lia|]. destruct (c =? 10); [rewrite !elem_of_cons, elem_of_nil; lia|].
  destruct (c =? 13); [rewrite !elem_of_cons, elem_of_nil; lia|]. destruct (c =? 9); [rewrite !elem_of_cons, elem_of_nil; lia|]. destruct (c =? 12); [rewrite !elem_of_cons, elem_of_nil; lia|].
  destruct (c =? 8); [rewrite !elem_of_cons, elem_of_nil; lia|].
  destruct ((32 <=? c) && (c <=? 126)) eqn:E8; [apply andb_true_iff in E8 as [E8%N.leb_le E9%N.leb_le]; rewrite elem_of_list_singleton; intros ->; lia|].
  destruct (c <? 0x10000); [rewrite !elem_of_cons; intros [-> |[-> |H]]; [lia|lia|by eapply Hh]|]. rewrite !elem_of_cons, elem_of_app, !elem_of_cons. intros [-> |[-> |[H|[-> |[-> |H]]]]]; try lia; by eapply Hh.
Qed.
Definition ascii (s : text) : Prop := Forall (fun c => 32 <= c <= 126) s.
Lemma jstr_ascii s : ascii (jstr s).
Proof.
  unfold jstr. constructor; [lia|]. apply Forall_app. split; [|repeat constructor; lia]. apply Forall_forall. intros x Hx. apply elem_of_list_In, in_flat_map in Hx as (c & _ & Hx%elem_of_list_In). by apply jchar_ascii in Hx.
Qed.
Lemma comma_ascii es : Forall ascii es -> ascii (comma es).
Proof. induction es as [|e es IH]; intros H; [constructor|]. apply Forall_cons in H as [He H]. destruct es as [|e' es]; [done|]. change (comma (e :: e' :: es)) with (e ++ [44; 32] ++ comma (e' :: es)). apply Forall_app; split; [done|]. apply Forall_app; split; [repeat constructor; lia|]. by apply IH. Qed.
Lemma jattrs_ascii d : ascii (jattrs d).
Proof.
  unfold jattrs. constructor; [lia|]. apply Forall_app; split; [|repeat constructor; lia]. apply comma_ascii, Forall_fmap, Forall_true. intros [k v]. unfold compose. cbn [fst snd]. apply Forall_app; split; [apply jstr_ascii|]. constructor; [lia|]. constructor; [lia|]. apply jstr_ascii.
Qed.
Lemma lit_ascii s : forallb (fun c => (32 <=? c) && (c <=? 126)) (lit s) = true -> ascii (lit s).
Proof. rewrite forallb_forall. intros H. apply Forall_forall. intros x Hx%elem_of_list_In. apply H in Hx. apply andb_true_iff in Hx as [?%N.leb_le ?%N.leb_le]. done. Qed.
Lemma metadata_ascii d n : ascii (metadata_s d n).
Proof.
  unfold metadata_s. apply Forall_app; split; [by apply lit_ascii|]. apply Forall_app; split; [apply jattrs_ascii|]. apply Forall_app; split; [by apply lit_ascii|]. apply Forall_app; split; [apply jstr_ascii|]. repeat constructor; lia.
Qed.
(** ** Objects in JSON *)
Definition json_of (d : list (text * text)) : list (text * json) := (fun kv => (kv.1, JStr kv.2)) <$> d.
Definition pair_s (kv : text * text) : text := jstr kv.1 ++ [58; 32] ++ jstr kv.2.
Lemma blank_sp l : blank (32 :: l) = blank l. Proof. done. Qed.
Lemma jmembers_one fuel k s w r : (w = 0 \/ w = 1)%nat -> chars k -> chars s ->
  jmembers (S (S fuel)) (replicate w 32 ++ pair_s (k, s) ++ r) =
  match blank r with 44 :: r => match jmembers (S fuel) r with Some (d, r) => Some ((k, JStr s) :: d, r) | None => None end | 125 :: r => Some ([(k, JStr s)], r) | _ => None end.
Proof.
  intros Hw Hk Hs. unfold pair_s. cbn [fst snd]. rewrite <- !app_assoc. destruct (jstr_read k ([58; 32] ++ jstr s ++ r) w Hk Hw) as (l & -> & Hb & Hj).
  cbn [jmembers]. rewrite Hb, Hj. cbn [app blank]. destruct (jstr_read s r 1 Hs) as (l2 & E2 & Hb2 & Hj2); [by right|]. cbn [replicate app] in E2.
  change (jvalue (S fuel) (32 :: jstr s ++ r)) with (jvalue (S fuel) (replicate 1 32 ++ jstr s ++ r)). cbn [replicate app]. rewrite E2. cbn [jvalue]. rewrite Hb2, Hj2. reflexivity.
Qed.
Lemma jmembers_read d : forall fuel w r, d <> [] -> Forall (fun kv => chars kv.1 /\ chars kv.2) d -> (w = 0 \/ w = 1)%nat -> (List.length d < fuel)%nat ->
  jmembers fuel (replicate w 32 ++ comma (pair_s <$> d) ++ 125 :: r) = Some (json_of d, r).
Proof.
  induction d as [|[k s] d IH]; intros fuel w r Hn Hd Hw Hf; [done|]. apply Forall_cons in Hd as [[Hk Hs] Hd]. cbn [fst snd] in Hk, Hs. destruct fuel as [|[|fuel]]; [cbn in Hf; lia|cbn in Hf; lia|].
  destruct d as [|p d].
  - cbn [fmap list_fmap comma]. rewrite jmembers_one by done. reflexivity.
  - change (comma (pair_s <$> (k, s) :: p :: d)) with (pair_s (k, s) ++ [44; 32] ++ comma (pair_s <$> p :: d)). rewrite <- !app_assoc, jmembers_one by done. cbn [app blank].
    change (32 :: comma (pair_s <$> p :: d) ++ 125 :: r) with (replicate 1 32 ++ comma (pair_s <$> p :: d) ++ 125 :: r). rewrite IH; [done|done|done|by right|cbn [List.length] in *; lia].
Qed.
Lemma comma_long d : (List.length d <= List.length (comma (pair_s <$> d)))%nat.
Proof.
  assert (forall p, (1 <= List.length (pair_s p))%nat) as Hp by (intros p; unfold pair_s, jstr; cbn [app List.length]; lia).
  induction d as [|p d IH]; [done|]. destruct d as [|p' d]; [apply Hp|]. change (comma (pair_s <$> p :: p' :: d)) with (pair_s p ++ [44; 32] ++ comma (pair_s <$> p' :: d)). rewrite !app_length. cbn [List.length] in *. lia.
Qed.
Lemma jattrs_read d fuel r : Forall (fun kv => chars kv.1 /\ chars kv.2) d -> (List.length d + 1 < fuel)%nat -> jvalue fuel (32 :: jattrs d ++ r) = Some (JObj (json_of d), r).
Proof.
  intros Hd Hf. destruct fuel as [|fuel]; [lia|]. destruct d as [|p d]; [reflexivity|].
  change (jattrs (p :: d)) with (123 :: comma (pair_s <$> p :: d) ++ [125]). rewrite <- app_comm_cons, <- app_assoc. change ([125] ++ r) with (125 :: r). remember (comma (pair_s <$> p :: d) ++ 125 :: r) as l eqn:El.
  assert (blank l = l /\ head l = Some 34) as [Eb Eh].
  { subst l. by destruct d as [|p' d]. }
  cbn [jvalue blank]. rewrite Eb. pose proof (jmembers_read (p :: d) fuel 0 r) as H. cbn [replicate app] in H. rewrite <- El in H. clear El Eb. destruct l as [|c l]; [done|]. injection Eh as ->. cbv iota.
  rewrite H; [done|done|done|by left|lia].
Qed.
Theorem json_read d n : Forall (fun kv => chars kv.1 /\ chars kv.2) d -> chars n -> jparse (metadata_s d n) = Some (JObj [(lit "metadata", JObj (json_of d)); (lit "name", JStr n)]).
Proof.
  intros Hd Hn. unfold jparse, metadata_s.
  change (lit "{""metadata"": ") with (123 :: jstr (lit "metadata") ++ [58; 32]). change (lit ", ""name"": ") with (44 :: 32 :: jstr (lit "name") ++ [58; 32]).
  rewrite <- !app_comm_cons, <- !app_assoc. set (tl := jstr (lit "name") ++ [58; 32] ++ jstr n ++ [125]).
  assert (exists f, List.length (123 :: jstr (lit "metadata") ++ [58; 32] ++ jattrs d ++ 44 :: 32 :: tl) = S (S (S (S f))) /\ (List.length d < f)%nat) as (f & -> & Hf).
  { set (x := 123 :: jstr (lit "metadata") ++ [58; 32] ++ jattrs d ++ 44 :: 32 :: tl). exists (List.length x - 4)%nat. subst x. cbn [List.length]. rewrite !app_length. cbn [List.length]. pose proof (comma_long d) as H. unfold jattrs. fold pair_s. cbn [List.length]. rewrite app_length. cbn [List.length].
    change (List.length (jstr (lit "metadata"))) with 10%nat. change (fun kv : text * text => jstr kv.1 ++ [58; 32] ++ jstr kv.2) with pair_s. lia. }
  assert (chars (lit "metadata") /\ chars (lit "name")) as [Hm Hna] by (split; repeat constructor).
  assert (jmembers (S (S (S f))) (jstr (lit "metadata") ++ [58; 32] ++ jattrs d ++ 44 :: 32 :: tl) = Some ([(lit "metadata", JObj (json_of d)); (lit "name", JStr n)], [])) as Hj.
  { destruct (jstr_read (lit "metadata") ([58; 32] ++ jattrs d ++ 44 :: 32 :: tl) 0 Hm) as (l & El & Hb & Hs); [by left|]. cbn [replicate] in El. rewrite app_nil_l in El. rewrite El.
    remember (S (S f)) as g eqn:Eg. cbn [jmembers]. rewrite Hb, Hs. cbv beta iota. change (blank ([58; 32] ++ jattrs d ++ 44 :: 32 :: tl)) with (58 :: 32 :: jattrs d ++ 44 :: 32 :: tl). cbv beta iota.
    rewrite jattrs_read by (done || lia). cbv beta iota. change (blank (44 :: 32 :: tl)) with (44 :: 32 :: tl). cbv beta iota.
    change (32 :: tl) with (replicate 1 32 ++ jstr (lit "name") ++ [58; 32] ++ jstr n ++ [125]). 
    replace (jstr (lit "name") ++ [58; 32] ++ jstr n ++ [125]) with (pair_s (lit "name", n) ++ [125]) by (unfold pair_s; cbn [fst snd]; by rewrite <- !app_assoc).
    rewrite Eg, jmembers_one by (done || by right). reflexivity. }
  remember (S (S (S f))) as g eqn:Eg. assert (blank (jstr (lit "metadata") ++ [58; 32] ++ jattrs d ++ 44 :: 32 :: tl) = 34 :: tail (jstr (lit "metadata") ++ [58; 32] ++ jattrs d ++ 44 :: 32 :: tl)) as Eb by reflexivity.
  cbn [jvalue blank]. rewrite Eb, Hj. reflexivity.
Qed.
Lemma strings_of d : strings (json_of d) = Some d.
Proof. induction d as [|[k s] d IH]; [done|]. cbn [json_of fmap list_fmap strings fst snd]. fold (json_of d). change (list_fmap _ _ _ d) with (json_of d). by rewrite IH. Qed.

(** ** The parts *)
Lemma begins_app p l : begins p (p ++ l) = Some l.
Proof. induction p as [|c p IH]; [done|]. cbn. by rewrite N.eqb_refl. Qed.
Lemma begins_spec p l r : begins p l = Some r <-> l = p ++ r.
Proof.
  split; [|intros ->; apply begins_app]. revert l. induction p as [|c p IH]; intros l; [cbn; congruence|]. destruct l as [|x l]; [done|]. cbn. destruct (N.eqb_spec c x) as [-> |]; [|done]. intros H%IH. by subst.
Qed.
Lemma cut_eq d l : cut d l = match begins d l with Some r => Some ([], r) | None => match l with [] => None | c :: l => match cut d l with Some (a, r) => Some (c :: a, r) | None => None end end end.
Proof. by destruct l. Qed.
Lemma cut_line c d m l : c ∉ m -> cut (c :: d) (m ++ (c :: d) ++ l) = Some (m, l).
Proof.
  induction m as [|x m IH]; intros Hm; rewrite cut_eq; [by rewrite app_nil_l, begins_app|]. apply not_elem_of_cons in Hm as [Hx Hm]. cbn [app begins]. destruct (N.eqb_spec c x) as [-> |]; [done|].
  change (c :: d ++ l) with ((c :: d) ++ l). by rewrite IH.
Qed.
Lemma ends_with_app s l : ends_with s (l ++ s) = Some l.
Proof. unfold ends_with. rewrite app_length. replace (List.length l + List.length s - List.length s)%nat with (List.length l) by lia. rewrite drop_app, decide_True, take_app by done. done. Qed.
(** The delimiter occurs in the data *)
Definition occurs (d l : text) : Prop := exists a b, l = a ++ d ++ b.
(** [d] starts with a character that occurs nowhere else in it *)
Lemma cut_exact c d m l : c ∉ d -> (fst <$> cut (c :: d) (m ++ (c :: d) ++ l)) = Some m <-> ~ occurs (c :: d) m.
Proof.
  intros Hc. split.
  - intros H (a & b & ->). revert H. rewrite <- !app_assoc. assert (forall x y z, (fst <$> cut (c :: d) (x ++ (c :: d) ++ y)) = Some z -> (List.length z <= List.length x)%nat) as Hl.
    { intros x y. induction x as [|u x IH]; intros z; rewrite cut_eq; [rewrite app_nil_l, begins_app; cbn; intros [= <-]; cbn; lia|]. destruct (begins (c :: d) _); [cbn; intros [= <-]; cbn; lia|]. cbn [app].
      destruct (cut (c :: d) (x ++ c :: d ++ y)) as [[p q]|] eqn:E; [|done]. cbn. intros [= <-]. cbn [List.length]. specialize (IH p). change (c :: d ++ y) with ((c :: d) ++ y) in E. rewrite E in IH. specialize (IH eq_refl). lia. }
    intros H%Hl. rewrite !app_length in H. cbn [List.length] in H. lia.
  - revert m. induction m as [|x m IH]; intros Ho; rewrite cut_eq; [by rewrite app_nil_l, begins_app|]. destruct (begins (c :: d) ((x :: m) ++ (c :: d) ++ l)) as [r|] eqn:E.
    + exfalso. apply begins_spec in E. change ((x :: m) ++ (c :: d) ++ l) with (x :: (m ++ (c :: d) ++ l)) in E. injection E as -> E.
      apply app_eq_app in E as (k & [[-> E2]|[E1 E2]]).
      * apply Ho. exists [], k. done.
      * destruct k as [|u k]; [rewrite app_nil_r in E1; subst; apply Ho; exists [], []; by rewrite app_nil_r|]. cbn [app] in E2. injection E2 as <- _. apply Hc. rewrite E1, elem_of_app. right. left.
    + cbn [app]. change (c :: d ++ l) with ((c :: d) ++ l). assert (~ occurs (c :: d) m) as Hm by (intros (a & b & ->); apply Ho; exists (x :: a), b; done). specialize (IH Hm). destruct (cut (c :: d) (m ++ (c :: d) ++ l)) as [[p q]|]; [|done]. cbn in *. by injection IH as ->.
Qed.

Section gs.
Context (printable : N -> bool) {F : Type} `{EqDecision F} (fshow : F -> text) (fread : text -> option F).
Notation value := (@value F). Notation mapping := (@mapping F).
Notation wrap := (@wrap printable F fshow). Notation unwrap := (@unwrap F _ fread). Notation values := (@values F fread). Notation write_body := (@write_body printable F fshow).
Notation freezable := (@freezable F fshow fread).
(** Metadata that may be passed: names are texts, values can be written down and read back *)
Definition fine (d : mapping) : Prop := Forall (fun kv => (exists s, kv.1 = VStr s /\ chars s) /\ freezable kv.2) d.

Lemma receive_body b a n data : Forall (fun kv => chars kv.1 /\ chars kv.2) a -> chars n ->
  receive b content_type (body_prefix (metadata_s a n) ++ data ++ body_suffix) =
  if b then Some (Object n a data) else (Object n a) <$> (fst <$> cut (10 :: lit "--foo_bar_baz") (data ++ body_suffix)).
Proof.
  intros Ha Hn. unfold receive, content_type. rewrite begins_app. cbn [mbind option_bind]. unfold body_prefix. set (m := metadata_s a n).
  assert (10 ∉ m) as Hm by (intros H; pose proof (metadata_ascii a n) as Q; unfold ascii in Q; rewrite Forall_forall in Q; apply Q in H; lia).
  assert (jparse m = Some (JObj [(lit "metadata", JObj (json_of a)); (lit "name", JStr n)])) as Hj by by apply json_read. clearbody m.
  rewrite <- !app_assoc, <- !app_comm_cons, <- !app_assoc, <- !app_comm_cons. 
  replace (lit "--" ++ boundary ++ 10 :: lit "Content-Type: application/json; charset=UTF-8" ++ 10 :: 10 :: (m ++ 10 :: lit "--" ++ boundary ++ 10 :: lit "Content-Type: application/octet-stream" ++ [10; 10]) ++ data ++ body_suffix)
    with (((lit "--" ++ boundary) ++ [10]) ++ lit "Content-Type: application/json" ++ lit "; charset=UTF-8" ++ [10; 10] ++ m ++ (10 :: (lit "--" ++ boundary) ++ [10]) ++ lit "Content-Type: application/octet-stream" ++ [10; 10] ++ data ++ body_suffix).
  2:{ change (lit "Content-Type: application/json; charset=UTF-8") with (lit "Content-Type: application/json" ++ lit "; charset=UTF-8"). rewrite <- !app_assoc. cbn [app]. rewrite <- !app_assoc. cbn [app]. rewrite <- !app_assoc. done. }
  rewrite begins_app. cbn [mbind option_bind]. rewrite begins_app. cbn [mbind option_bind].
  assert (forall r, cut [10; 10] (lit "; charset=UTF-8" ++ [10; 10] ++ r) = Some (lit "; charset=UTF-8", r)) as -> by (intros r; apply (cut_line 10 [10]); apply (bool_decide_unpack _); vm_compute; exact I).
  cbn [mbind option_bind]. rewrite cut_line by done. cbn [mbind option_bind]. rewrite begins_app. cbn [mbind option_bind]. rewrite begins_app. cbn [mbind option_bind]. rewrite Hj.
  change (member (lit "name") _) with (Some (JStr n)). change (member (lit "metadata") _) with (Some (JObj (json_of a))). cbv beta iota. rewrite strings_of. cbn [mbind option_bind].
  destruct b.
  - change (10 :: (lit "--" ++ boundary) ++ lit "--" ++ [10]) with body_suffix. by rewrite ends_with_app.
  - change (lit "--" ++ boundary) with (lit "--foo_bar_baz"). by destruct (cut _ _) as [[]|].
Qed.

(** ** Attributes *)
Definition pair_of (kv : value * value) : text * text := (match kv.1 with VStr k => k | _ => [] end, repr printable fshow (elementary kv.2)).
Lemma wrap_spec d : Forall (fun kv => exists s, kv.1 = VStr s) d -> wrap d = Some (pair_of <$> d).
Proof. induction d as [|[k v] d IH]; intros Hd; [done|]. apply Forall_cons in Hd as [[s Hk] Hd]. cbn in Hk. subst k. cbn [GsUploadModel.wrap]. by rewrite IH. Qed.
Lemma wrap_fails d : wrap d = None <-> exists kv, kv ∈ d /\ forall s, kv.1 <> VStr s.
Proof.
  induction d as [|[k v] d IH]; [split; [done|]; intros (kv & []%elem_of_nil & _)|]. cbn [GsUploadModel.wrap]. split.
  - destruct k as [k| | | | |]; try (intros _; eexists; split; [left|]; cbn; congruence). destruct (wrap d) as [a|]; [done|]. intros _. destruct IH as [IH _]. destruct IH as (kv & Hkv & H); [done|]. exists kv. split; [by right|done].
  - intros (kv & [-> |Hkv]%elem_of_cons & H); cbn in *; [destruct k; try done; by destruct (H s)|]. destruct k; try done. destruct IH as [_ IH]. by rewrite IH by eauto.
Qed.
Lemma value_read v : freezable v -> value_eval fread (repr printable fshow (elementary v)) = Some (elementary v).
Proof.
  intros Hv. pose proof (literal_repr printable fshow fread v Hv) as El. unfold value_eval. rewrite bool_decide_false.
  - destruct (literal_head fread _ _ _ El) as (c & l & Ec & Hc & _). rewrite Ec in *. rewrite skip_id by done. by rewrite El.
  - apply (repr_no_zero printable fshow fread); [|done]. apply stored_storable. by destruct v.
Qed.
Lemma values_read d : fine d -> values (pair_of <$> d) = Some d.
Proof.
  induction d as [|[k v] d IH]; intros Hd; [done|]. apply Forall_cons in Hd as [[(s & Hk & _) Hv] Hd]. cbn [fst snd] in Hk, Hv. subst k. cbn [fmap list_fmap pair_of fst snd GsUploadModel.values]. rewrite value_read by done. cbn [mbind option_bind].
  change (list_fmap _ _ pair_of d) with (pair_of <$> d). rewrite IH by done. destruct v as [|b| | | |]; cbn [elementary]; try done. cbn in Hv. by rewrite b64_roundtrip.
Qed.
Lemma values_perm a a' d : a ≡ₚ a' -> values a = Some d -> exists d', values a' = Some d' /\ d' ≡ₚ d.
Proof.
  intros Hp. revert d. induction Hp as [|[k l] a a' Hp IH|[k l] [k2 l2] a|a a2 a3 _ IH1 _ IH2]; intros d E; [by exists d|..].
  - cbn [GsUploadModel.values] in *. destruct (value_eval fread l) as [v|]; [|done]. cbn [mbind option_bind] in *. destruct (match v with VBytes b => _ | _ => _ end) as [v'|]; [|done]. cbn [mbind option_bind] in *.
    destruct (values a) as [r|]; [|done]. injection E as <-. destruct (IH r eq_refl) as (r' & -> & Hr). eexists; split; [reflexivity|]. by rewrite Hr.
  - cbn [GsUploadModel.values] in *. destruct (value_eval fread l2) as [v2|]; [|done]. cbn [mbind option_bind] in *. destruct (match v2 with VBytes b => _ | _ => _ end) as [v2'|]; [|done]. cbn [mbind option_bind] in *.
    destruct (value_eval fread l) as [v|]; [|done]. cbn [mbind option_bind] in *. destruct (match v with VBytes b => _ | _ => _ end) as [v'|]; [|done]. cbn [mbind option_bind] in *. destruct (values a) as [r|]; [|done]. injection E as <-.
    eexists; split; [reflexivity|]. constructor.
  - destruct (IH1 d E) as (d1 & E1 & H1). destruct (IH2 d1 E1) as (d2 & E2 & H2). exists d2. split; [done|]. by rewrite H2.
Qed.
Lemma attr_in k v a : attr k a = Some v -> (k, v) ∈ a.
Proof. induction a as [|[k' v'] a IH]; cbn; [done|]. destruct (decide (k' = k)) as [-> |]; [intros [= ->]; left|]. intros H. right. auto. Qed.
(** Attributes written by this version are never taken for those of an old one *)
Lemma not_legacy a d : fine d -> a ≡ₚ pair_of <$> d -> legacy a = false.
Proof.
  intros Hd Hp. unfold legacy. rewrite bool_decide_false; [done|]. intros H%attr_in. rewrite Hp in H. apply elem_of_list_fmap in H as (kv & E & Hkv). unfold fine in Hd. rewrite Forall_forall in Hd. apply Hd in Hkv as [_ Hv].
  apply value_read in Hv. unfold pair_of in E. injection E as _ E. rewrite <- E in Hv. done.
Qed.
Theorem unwrap_any d a a' : fine d -> wrap d = Some a -> a' ≡ₚ a -> exists d', unwrap a' = Some d' /\ d' ≡ₚ d.
Proof.
  intros Hd E Hp. rewrite wrap_spec in E by (eapply Forall_impl; [exact Hd|]; cbn; intros kv [(s & H & _) _]; eauto). injection E as <-. unfold GsUploadModel.unwrap. rewrite (not_legacy a' d) by done. apply (values_perm (pair_of <$> d)); [done|]. by apply values_read.
Qed.
Theorem unwrap_wrap d a : fine d -> wrap d = Some a -> unwrap a = Some d.
Proof.
  intros Hd E. rewrite wrap_spec in E by (eapply Forall_impl; [exact Hd|]; cbn; intros kv [(s & H & _) _]; eauto). injection E as <-. unfold GsUploadModel.unwrap. rewrite (not_legacy _ d) by done. by apply values_read.
Qed.

(** repr writes characters of the surrogate range, which are not printable, as escapes *)
Definition prints : Prop := forall c, printable c = true -> encodable c = true.
Lemma pairs_chars d : prints -> fine d -> Forall (fun kv => chars kv.1 /\ chars kv.2) (pair_of <$> d).
Proof. intros Hp Hd. apply Forall_fmap. eapply Forall_impl; [exact Hd|]. intros [k v] [(s & Hk & Hs) Hv]. cbn [fst snd] in *. subst k. unfold compose, pair_of. cbn [fst snd]. split; [done|]. by apply (repr_encodable printable fshow fread). Qed.
(** The upload arrives under its name, with its contents and with its metadata, in whatever order the service keeps the attributes, and whether or not it leaves out an empty set of them. *)
Theorem upload_arrives d name data : prints -> fine d -> chars name ->
  exists body a, write_body d name data = Some body /\ receive true content_type body = Some (Object name a data) /\
    unwrap a = Some d /\
    forall reply, reply = None /\ a = [] \/ (exists a', reply = Some a' /\ a' ≡ₚ a) -> exists d', unwrap_reply fread reply = Some d' /\ d' ≡ₚ d.
Proof.
  intros Hp Hd Hn. assert (wrap d = Some (pair_of <$> d)) as E by (apply wrap_spec; eapply Forall_impl; [exact Hd|]; cbn; intros kv [(s & H & _) _]; eauto). unfold GsUploadModel.write_body. rewrite E. eexists _, _. split; [reflexivity|].
  split; [rewrite receive_body by (done || by apply pairs_chars); reflexivity|]. split; [by apply unwrap_wrap|]. intros reply [[-> H]|(a' & -> & H)]; [|by eapply unwrap_any].
  destruct d as [|p d]; [|done]. by exists [].
Qed.
(** A service that looks for the delimiter gets the contents exactly if the delimiter does not occur in them. *)
Theorem upload_delimited d name data : prints -> fine d -> chars name ->
  exists body a, write_body d name data = Some body /\ unwrap a = Some d /\
    (receive false content_type body = Some (Object name a data) <-> ~ occurs (10 :: lit "--foo_bar_baz") data).
Proof.
  intros Hp Hd Hn. assert (wrap d = Some (pair_of <$> d)) as E by (apply wrap_spec; eapply Forall_impl; [exact Hd|]; cbn; intros kv [(s & H & _) _]; eauto). unfold GsUploadModel.write_body. rewrite E. eexists _, (pair_of <$> d). split; [reflexivity|].
  split; [by apply unwrap_wrap|]. rewrite receive_body by (done || by apply pairs_chars). change body_suffix with ((10 :: lit "--foo_bar_baz") ++ lit "--" ++ [10]). rewrite <- (cut_exact 10 (lit "--foo_bar_baz") data (lit "--" ++ [10])) by (apply (bool_decide_unpack _); vm_compute; exact I).
  destruct (fst <$> cut _ _) as [x|]; cbn; split; congruence.
Qed.
End gs.

(** ** Paths *)
Lemma quote_plain s q : quote unreserved s = Some q -> 47 ∉ q.
Proof.
  unfold quote. destruct (utf8_encode s) as [b|] eqn:E; [|done]. cbn. intros [= <-] H. apply elem_of_list_In, in_flat_map in H as (x & _ & H%elem_of_list_In). unfold quote_byte in H.
  destruct (unreserved x) eqn:U; [apply elem_of_list_singleton in H as <-; done|]. rewrite !elem_of_cons, elem_of_nil in H. destruct H as [H|[H|[H|[]]]]; [done|..]; unfold HEXDIGIT in H; case_match; lia.
Qed.
Lemma quote_chars s : chars s -> exists q, quote unreserved s = Some q /\ unquote q = Some s /\ 47 ∉ q.
Proof. intros Hs. destruct (utf8_encode_total s Hs) as [b Hb]. destruct (quote unreserved s) as [q|] eqn:E; [|unfold quote in E; by rewrite Hb in E]. exists q. split; [done|]. split; [by apply (quote_roundtrip unreserved)|by eapply quote_plain]. Qed.
(** Requests refer to the bucket and to the object that are meant, whatever characters their names contain. *)
Theorem path_refers bucket name : chars bucket -> chars name -> exists p, object_path bucket name = Some p /\ refers p = Some (bucket, name).
Proof.
  intros Hb Hn. destruct (quote_chars bucket Hb) as (b & Eb & Ub & Nb). destruct (quote_chars name Hn) as (n & En & Un & Nn). unfold object_path. rewrite Eb, En. cbn [mbind option_bind]. eexists; split; [reflexivity|].
  unfold refers. change (lit "/storage/v1/b/" ++ b ++ lit "/o/" ++ n) with ([] ++ 47 :: lit "storage" ++ 47 :: lit "v1" ++ 47 :: lit "b" ++ 47 :: b ++ 47 :: lit "o" ++ 47 :: n).
  rewrite split_app_sep by apply not_elem_of_nil. rewrite !split_app_sep by (done || (apply (bool_decide_unpack _); vm_compute; exact I)). rewrite split_word by done. rewrite decide_True by done. by rewrite Ub, Un.
Qed.
Theorem upload_refers bucket : chars bucket -> exists p, upload_path bucket = Some p /\ refers_upload p = Some bucket.
Proof.
  intros Hb. destruct (quote_chars bucket Hb) as (b & Eb & Ub & Nb). unfold upload_path. rewrite Eb. cbn [mbind option_bind]. eexists; split; [reflexivity|].
  unfold refers_upload. change (lit "/upload/storage/v1/b/" ++ b ++ lit "/o") with ([] ++ 47 :: lit "upload" ++ 47 :: lit "storage" ++ 47 :: lit "v1" ++ 47 :: lit "b" ++ 47 :: b ++ 47 :: lit "o").
  rewrite split_app_sep by apply not_elem_of_nil. rewrite !split_app_sep by (done || (apply (bool_decide_unpack _); vm_compute; exact I)). rewrite split_word by (apply (bool_decide_unpack _); vm_compute; exact I). by rewrite decide_True by done.
Qed.

(** ** Objects of earlier versions: the metadata as a single text, cut into numbered pieces *)
Definition key_of (i : nat) : text := padded (N.of_nat i).
Definition three (k : text) : bool := match k with [a; b; c] => is_digit a && is_digit b && is_digit c | _ => false end.
Lemma keys_ok : NoDup (lit "format" :: lit "md5" :: (key_of <$> seq 0 1001)) /\ Forall (fun i => three (key_of i) = true) (seq 0 1000).
Proof. split; [apply (bool_decide_unpack _); vm_compute; exact I|]. apply Forall_forall. intros i Hi%elem_of_list_In. revert i Hi. apply forallb_forall. vm_compute. reflexivity. Qed.
Definition legacy_attrs (md5 : text) (pieces : list text) : list (text * text) :=
  (lit "format", lit "raw2") :: (lit "md5", md5) :: imap (fun i p => (key_of i, p)) pieces.
Lemma attr_some k v a : NoDup a.*1 -> (k, v) ∈ a -> attr k a = Some v.
Proof.
  induction a as [|[k' v'] a IH]; intros Nd H; [by apply elem_of_nil in H|]. cbn in *. apply NoDup_cons in Nd as [Hn Nd]. apply elem_of_cons in H as [[= -> ->]|H]; [by rewrite decide_True|]. rewrite decide_False; [auto|]. intros ->. apply Hn, elem_of_list_fmap. by exists (k, v).
Qed.
Lemma attr_none k a : k ∉ a.*1 -> attr k a = None.
Proof. induction a as [|[k' v'] a IH]; intros H; [done|]. cbn in *. apply not_elem_of_cons in H as [H1 H2]. rewrite decide_False by congruence. auto. Qed.
Lemma pieces_keys pieces : (imap (fun i (p : text) => (key_of i, p)) pieces).*1 = key_of <$> seq 0 (List.length pieces).
Proof.
  apply list_eq. intros i. rewrite !list_lookup_fmap, list_lookup_imap. destruct (pieces !! i) as [p|] eqn:E; cbn.
  - apply lookup_lt_Some in E. by rewrite lookup_seq_lt by done.
  - apply lookup_ge_None in E. by rewrite lookup_seq_ge by done.
Qed.
Lemma key_inj i j : (i <= 1000)%nat -> (j <= 1000)%nat -> key_of i = key_of j -> i = j.
Proof.
  intros Hi Hj E. destruct keys_ok as [H _]. apply NoDup_cons in H as [_ H]. apply NoDup_cons in H as [_ H]. assert ((key_of <$> seq 0 1001) !! i = (key_of <$> seq 0 1001) !! j) as Q by (rewrite !list_lookup_fmap, !lookup_seq_lt by lia; cbn; by f_equal).
  eapply (NoDup_lookup _ i j (key_of i) H); rewrite list_lookup_fmap, lookup_seq_lt by lia; [done|]. cbn. by f_equal.
Qed.
Lemma legacy_nodup md5 pieces : (List.length pieces <= 1000)%nat -> NoDup (legacy_attrs md5 pieces).*1 /\ key_of (List.length pieces) ∉ (legacy_attrs md5 pieces).*1.
Proof.
  intros Hl. destruct keys_ok as [H _]. unfold legacy_attrs. cbn [fmap list_fmap fst]. change (list_fmap _ _ fst ?x) with (x.*1). rewrite pieces_keys.
  replace 1001%nat with (List.length pieces + S (1000 - List.length pieces))%nat in H by lia. rewrite seq_app, fmap_app in H. rewrite Nat.add_0_l in H. cbn [seq fmap list_fmap] in H.
  apply (NoDup_app (lit "format" :: lit "md5" :: (key_of <$> seq 0 (List.length pieces)))) in H as (H1 & H2 & _). split; [done|]. intros Q. apply (H2 _ Q). left.
Qed.
Lemma parts_spec pieces a : (forall i, (i <= List.length pieces)%nat -> attr (key_of i) a = pieces !! i) -> forall fuel i, (i <= List.length pieces)%nat -> (List.length pieces < i + fuel)%nat -> parts fuel (N.of_nat i) a = List.concat (drop i pieces).
Proof.
  intros Ha. induction fuel as [|fuel IH]; intros i Hi Hf; [lia|]. cbn [parts]. change (padded (N.of_nat i)) with (key_of i). rewrite Ha by done. destruct (pieces !! i) as [p|] eqn:E.
  - rewrite (drop_S _ _ _ E). cbn [List.concat]. f_equal. replace (N.of_nat i + 1) with (N.of_nat (S i)) by lia. apply lookup_lt_Some in E. apply IH; lia.
  - apply lookup_ge_None in E. by rewrite drop_ge by done.
Qed.
Section legacy.
Context (printable : N -> bool) {F : Type} `{EqDecision F} (fshow : F -> text) (fread : text -> option F).
Theorem legacy_read (d : @mapping F) es pieces md5 a : good d -> NoDup d.*1 -> elements printable fshow fread d = Some es -> List.concat pieces = comma es -> (List.length pieces <= 1000)%nat ->
  a ≡ₚ legacy_attrs md5 pieces -> unwrap fread a = Some d.
Proof.
  intros Hg Nd Ee Ec Hl Hp. destruct (legacy_nodup md5 pieces Hl) as [Na Nk]. assert (NoDup a.*1) as Na' by by rewrite Hp.
  assert (legacy a = true) as Hleg.
  { unfold legacy. rewrite (attr_some _ (lit "raw2")) by (done || (rewrite Hp; left)). rewrite (attr_some _ md5) by (done || (rewrite Hp; right; left)). rewrite !bool_decide_true by done. cbn [andb].
    apply forallb_forall. intros [k v] H%elem_of_list_In. rewrite Hp in H. unfold legacy_attrs in H. apply elem_of_cons in H as [[= -> ->]|H]; [reflexivity|]. apply elem_of_cons in H as [[= -> ->]|H]; [reflexivity|].
    apply elem_of_lookup_imap in H as (i & p & [= -> ->] & Hi). apply lookup_lt_Some in Hi. destruct keys_ok as [_ H]. rewrite Forall_forall in H. assert (three (key_of i) = true) as T by (apply H, elem_of_seq; lia). unfold three in T. cbn [fst]. rewrite T. apply orb_true_r. }
  unfold unwrap. rewrite Hleg.
  assert (forall i, (i <= List.length pieces)%nat -> attr (key_of i) a = pieces !! i) as Ha.
  { intros i Hi. destruct (pieces !! i) as [p|] eqn:E.
    - apply attr_some; [done|]. rewrite Hp. right. right. apply elem_of_lookup_imap. by exists i, p.
    - apply lookup_ge_None in E. replace i with (List.length pieces) by lia. apply attr_none. by rewrite Hp. }
  change 0 with (N.of_nat 0). rewrite (parts_spec pieces a Ha) by (rewrite ?Hp; unfold legacy_attrs; cbn [List.length]; rewrite ?imap_length; lia). rewrite drop_0, Ec.
  change (lit "{ ") with [123; 32]. change (lit " }") with [32; 125].
  assert (literal_eval fread ([123; 32] ++ comma es ++ [32; 125]) = Mapping (stored d)) as ->; [|by apply decode_stored].
  unfold literal_eval. rewrite bool_decide_false. 2: { rewrite !elem_of_app, !elem_of_cons, !elem_of_nil. intros [[?|[?|[]]]|[H|[?|[?|[]]]]]; try done. by apply (comma_no_zero es (elements_no_zero printable fshow fread d es Hg Ee)). }
  cbn [app]. rewrite skip_id by done. pose proof (elements_length printable fshow fread _ _ Ee) as [L1 L2]. change (32 :: comma es ++ [32; 125]) with (replicate 1 32 ++ comma es ++ [32; 125]). rewrite (items_all printable fshow fread d es _ [] 1%nat Ee); [done|done|]. rewrite app_length, app_length. cbn [List.length replicate]. lia.
Qed.
End legacy.

(** Values that cannot be read back are accepted: float('inf') *)
Theorem wrap_readable_refuted : ~ forall (F : Type) (E : EqDecision F) (fshow : F -> text) (fread : text -> option F) (d : @mapping F) a, wrap (fun _ => false) fshow d = Some a -> exists d', unwrap fread a = Some d'.
Proof.
  intros H. destruct (H unit _ (fun _ => lit "inf") (fun _ => None) [(VStr (lit "k"), VFloat tt)] _ eq_refl) as [d' Hd']. vm_compute in Hd'. discriminate.
Qed.

(** Cases that meet the hypotheses: names and values with quotes, backslashes, line breaks, characters outside the BMP, an attribute called format, contents that contain the delimiter *)
Definition meta_example : @mapping unit :=
  [(VStr (lit "format"), VStr (lit "raw2")); (VStr (lit "md5"), VBytes [0; 255; 10]); (VStr [34; 92; 10; 0x1f600; 233], VStr [39; 34; 10; 0xd800; 0x1f600; 127]); (VStr (lit "n"), VInt (-12)); (VStr [], VNone); (VStr (lit "t"), VBool true)].
Example meta_fine : fine (F := unit) (fun _ => []) (fun _ => None) meta_example /\ chars (lit "p/" ++ [34; 10; 0x1f600]).
Proof. split; [|repeat constructor]. unfold meta_example. repeat (apply Forall_cons; split; [split; [eexists; split; [reflexivity|repeat constructor]|cbn; try done; repeat constructor; lia]|]). constructor. Qed.
Example upload_example : let data := [1; 2] ++ 10 :: lit "--foo_bar_baz--" ++ [10; 3] in
  match write_body (fun _ => false) (fun _ : unit => []) meta_example (lit "p/" ++ [34; 10; 0x1f600]) data with
  | Some b => match receive true content_type b, receive false content_type b with
      | Some o, Some o' => bool_decide (o_name o = lit "p/" ++ [34; 10; 0x1f600] /\ o_data o = data /\ unwrap (fun _ : text => @None unit) (o_attrs o) = Some meta_example /\ o_data o' = [1; 2])
      | _, _ => false end
  | None => false end = true.
Proof. vm_compute. reflexivity. Qed.
Example path_example : (p ← object_path (lit "a b/c") (lit "x/?&#" ++ [233; 37]); refers p) = Some (lit "a b/c", lit "x/?&#" ++ [233; 37]) /\
  object_path (lit "a b/c") (lit "x/?&#" ++ [233; 37]) = Some (lit "/storage/v1/b/a%20b%2Fc/o/x%2F%3F%26%23%C3%A9%25").
Proof. split; vm_compute; reflexivity. Qed.
Example legacy_example : let d := [(VStr (lit "a"), VInt 5); (VStr (lit "b"), VBytes [1; 2])] in
  match elements (fun _ => false) (fun _ : unit => []) (fun _ => None) d with
  | Some es => bool_decide (unwrap (fun _ : text => @None unit) ((lit "001", drop 6 (comma es)) :: (lit "md5", []) :: (lit "000", take 6 (comma es)) :: [(lit "format", lit "raw2")]) = Some d)
  | None => false end = true.
Proof. vm_compute. reflexivity. Qed.

Print Assumptions upload_arrives. Print Assumptions upload_delimited. Print Assumptions unwrap_any. Print Assumptions wrap_fails. Print Assumptions legacy_read.
Print Assumptions path_refers. Print Assumptions upload_refers. Print Assumptions wrap_readable_refuted.
