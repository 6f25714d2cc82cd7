(** C80: commands arrive as they were meant. *)
From stdpp Require Import prelude gmap.
From Coq Require Import NArith ZArith Lia.
From Verif Require Import CodecModel CodecProps FreezeModel FreezeProps CmdModel CmdSpec.
Local Open Scope N_scope.

(** * Texts *)
Lemma hd_not_b (c q : N) : 48 <= c <= 57 \/ c = 45 \/ c = QUOTE \/ c = DQUOTE -> (c =? 98) && ((q =? QUOTE) || (q =? DQUOTE)) = false.
Proof. intros H. apply andb_false_intro1, N.eqb_neq. unfold QUOTE, DQUOTE in H. lia. Qed.
Lemma lit_other c l : 48 <= c <= 57 \/ c = 45 \/ c = QUOTE \/ c = DQUOTE -> lit (c :: l) = literal0 (c :: l).
Proof. intros H. destruct l as [|q l]; [done|]. cbn [lit]. by rewrite hd_not_b. Qed.
Lemma int_head z : exists c l, repr_int z = c :: l /\ (48 <= c <= 57 \/ c = 45) /\ Forall (fun c => is_num c = true) (repr_int z).
Proof.
  unfold repr_int. destruct (z <? 0)%Z; [eexists 45, _; split; [done|]; split; [by right|]; constructor; [done|apply (dec_num (fun _ => false))]|].
  destruct (dec_cons (fun _ => false) (fun _ : text => @None unit) (Z.to_N z)) as (c & l & E & H). exists c, l. split; [done|]. split; [by left|]. apply (dec_num (fun _ => false)).
Qed.
Lemma span_stop l x : Forall (fun c => is_num c = true) l -> (match x with c :: _ => is_num c = false | [] => True end) -> num_span (l ++ x) = (l, x).
Proof. intros F H. induction F as [|c l Hc _ IH]; cbn [app num_span]; [destruct x as [|c x]; [done|]; cbn [num_span]; by rewrite H|]. by rewrite Hc, IH. Qed.
Lemma lit_int z x : (match x with c :: _ => is_num c = false | [] => True end) -> lit (repr_int z ++ x) = Some (VInt z, x).
Proof.
  intros H. destruct (int_head z) as (c & l & E & Hc & F). pose proof (literal_int (fun _ => false) (fun _ : unit => []) (fun _ => None) z) as L. cbn [repr] in L.
  rewrite E in *. cbn [app]. rewrite lit_other by (destruct Hc; [by left|by right; left]). rewrite (literal_number (fun _ => false)) in L by done.
  unfold literal0, literal. change (c :: l ++ x) with ((c :: l) ++ x). rewrite (span_stop (c :: l) x F H).
  assert (forall k, k ∈ [QUOTE; DQUOTE; 98; 84; 70; 78] -> (c =? k) = false) as K by (intros k Hk; apply N.eqb_neq; unfold QUOTE, DQUOTE in Hk; set_unfold in Hk; lia).
  cbn [app]. rewrite !K by set_solver. cbn [orb]. destruct (number (fun _ => None) (c :: l)) as [v|]; [|done]. cbn in L |- *. by simplify_eq.
Qed.
Lemma the_quote_ok s : the_quote s = QUOTE \/ the_quote s = DQUOTE. Proof. apply the_quote_cases. Qed.
Lemma esc_ascii q c : q < 128 -> Forall (fun x => x < 128) (esc (fun _ => false) q c).
Proof.
  intros Q. assert (forall w, Forall (fun x => x < 128) (hexn w c)) as X by (intros w; apply Forall_forall; intros x Hx%hexn_chars; lia). unfold esc, BACKSLASH.
  destruct ((c =? 92) || (c =? q)) eqn:E1; [apply orb_true_iff in E1 as [E1%N.eqb_eq|E1%N.eqb_eq]; subst; repeat constructor; lia|].
  destruct (c =? 9); [repeat constructor; lia|]. destruct (c =? 10); [repeat constructor; lia|]. destruct (c =? 13); [repeat constructor; lia|].
  destruct ((c <? 32) || (c =? 127)); [do 2 (constructor; [lia|]); apply X|]. destruct (c <? 127) eqn:E2; cbn [orb]; [apply N.ltb_lt in E2; repeat constructor; lia|].
  destruct (c <? 256); [do 2 (constructor; [lia|]); apply X|]. destruct (c <? 65536); do 2 (constructor; [lia|]); apply X.
Qed.
Lemma flat_ascii q s : q < 128 -> Forall (fun x => x < 128) (flat_map (esc (fun _ => false) q) s).
Proof. intros Q. induction s as [|c s IH]; [constructor|]. cbn [flat_map]. apply Forall_app. split; [by apply esc_ascii|done]. Qed.
Lemma forallb_lt k l : Forall (fun x => x < k) l -> forallb (fun c => c <? k) l = true.
Proof. intros F. apply forallb_forall. intros c Hc%elem_of_list_In. apply N.ltb_lt. rewrite Forall_forall in F. by apply F. Qed.
Lemma lit_bytes b x : Forall (fun c => c < 256) b -> lit (repr_b b ++ x) = Some (VBytes b, x).
Proof.
  intros F. unfold repr_b, repr_str. cbn [app lit]. pose proof (the_quote_ok b) as Q. replace ((the_quote b =? QUOTE) || (the_quote b =? DQUOTE)) with true by (destruct Q as [-> | ->]; done). cbn [andb N.eqb Pos.eqb].
  rewrite <- app_assoc. cbn [app]. rewrite (string_all (fun _ => false) (fun _ : text => @None unit)); [|done|eapply Forall_impl; [exact F|cbn; lia]|].
  - replace (take _ _) with (flat_map (esc (fun _ => false) (the_quote b)) b ++ [the_quote b]).
    + rewrite !forallb_lt; [done|done|]. assert (the_quote b < 128) by (destruct Q as [-> | ->]; done). apply Forall_app. split; [by apply flat_ascii|by constructor].
    + change (the_quote b :: x) with ([the_quote b] ++ x). rewrite app_assoc, app_length. by rewrite Nat.add_sub, take_app.
  - rewrite app_length. pose proof (flat_esc_length (fun _ => false) (fun _ : text => @None unit) (the_quote b) b). cbn [length]. lia.
Qed.
Lemma lit_str printable s x : Forall (fun c => c < 0x110000) s -> lit (repr_str printable s ++ x) = Some (VStr s, x).
Proof.
  intros F. unfold repr_str. cbn [app]. pose proof (the_quote_ok s) as Q. rewrite lit_other by (destruct Q; [by right; right; left|by right; right; right]). unfold literal0, literal.
  replace ((the_quote s =? QUOTE) || (the_quote s =? DQUOTE)) with true by (destruct Q as [-> | ->]; done).
  rewrite <- app_assoc. cbn [app]. rewrite (string_all printable (fun _ : text => @None unit)); [done|done|done|]. cbn [length]. rewrite app_length. pose proof (flat_esc_length printable (fun _ : text => @None unit) (the_quote s) s). cbn [length]. lia.
Qed.
(** Encoded and decoded *)
Definition sendable (l : text) : Prop := Forall (fun c => encodable c = true) l /\ 0 ∉ l.
Lemma decode_encode l : sendable l -> exists b, utf8_encode l = Some b /\ decode b = Some l.
Proof. intros [F Z]. destruct (utf8_encode_total l F) as [b E]. exists b. split; [done|]. unfold decode. rewrite (utf8_roundtrip l b E). by rewrite bool_decide_false. Qed.
Lemma sendable_app l k : sendable l -> sendable k -> sendable (l ++ k).
Proof. intros [F1 Z1] [F2 Z2]. split; [by apply Forall_app|]. by rewrite not_elem_of_app. Qed.
Lemma sendable_int z : sendable (repr_int z).
Proof.
  split; [apply (repr_encodable (fun _ => false) (fun _ : unit => []) (fun _ => None) (VInt z)); [done|exact I]|].
  apply (repr_no_zero (fun _ => false) (fun _ : unit => []) (fun _ => None) (VInt z)); [exact I|apply literal_int].
Qed.
Lemma sendable_str printable s : (forall c, printable c = true -> encodable c = true) -> Forall (fun c => c < 0x110000) s -> sendable (repr_str printable s).
Proof.
  intros P F. split; [apply (repr_encodable printable (fun _ : unit => []) (fun _ => None) (VStr s)); [done|exact F]|].
  apply (repr_no_zero printable (fun _ : unit => []) (fun _ => None) (VStr s)); [exact I|by apply literal_str].
Qed.
Lemma sendable_chars l : Forall (fun c => 0 < c < 128) l -> sendable l.
Proof. intros F. split; [eapply Forall_impl; [exact F|]; intros c H; cbn in H; apply encodable_spec; lia|]. intros Z. rewrite Forall_forall in F. apply F in Z. lia. Qed.
Lemma sendable_pair a b : sendable a -> sendable b -> sendable (pair a b).
Proof. intros A B. unfold pair. apply (sendable_app [40]); [apply sendable_chars; repeat constructor; lia|]. apply sendable_app; [done|]. apply sendable_app; [apply sendable_chars; repeat constructor; lia|]. apply sendable_app; [done|]. apply sendable_chars; repeat constructor; lia. Qed.
Lemma skip_int z x : skip (repr_int z ++ x) = repr_int z ++ x.
Proof. destruct (int_head z) as (c & l & -> & H & _). cbn [app]. apply skip_id. lia. Qed.
Lemma parse_pair_ok z lb w b : sendable (pair (repr_int z) lb) -> skip lb = lb -> (forall x, lit (lb ++ 41 :: x) = Some (w, 41 :: x)) -> (exists c l, lb = c :: l /\ c <> 32) -> utf8_encode (pair (repr_int z) lb) = Some b -> parse_pair b = Some (VInt z, w).
Proof.
  intros S K L (c & l & E & N) U. destruct (decode_encode _ S) as (b' & U' & D). assert (b' = b) as -> by congruence. unfold parse_pair. rewrite D. cbn [mbind option_bind]. unfold pair. rewrite skip_id by done.
  rewrite skip_int, lit_int by done. cbn [app]. rewrite skip_id by done. change (skip (32 :: lb ++ [41])) with (skip (lb ++ [41])). rewrite E. cbn [app]. rewrite (skip_id c) by done. change (c :: l ++ [41]) with ((c :: l) ++ 41 :: []). rewrite <- E, L. by rewrite skip_id.
Qed.
Lemma dec_int n : dec n = repr_int (Z.of_N n).
Proof. unfold repr_int. destruct (Z.ltb_spec (Z.of_N n) 0); [lia|]. by rewrite N2Z.id. Qed.
Lemma inode_int n : inode (VInt (Z.of_N n)) = Some n.
Proof. cbn. destruct (Z.ltb_spec (Z.of_N n) 0); [lia|]. by rewrite N2Z.id. Qed.
Lemma parse_one_ok z b : utf8_encode (repr_int z) = Some b -> parse_one b = Some (VInt z).
Proof.
  intros U. destruct (decode_encode _ (sendable_int z)) as (b' & U' & D). assert (b' = b) as -> by congruence. unfold parse_one. rewrite D. cbn [mbind option_bind].
  pose proof (skip_int z []) as S. pose proof (lit_int z [] I) as L. rewrite app_nil_r in S, L. by rewrite S, L.
Qed.
Lemma split_nonempty s : split s <> [].
Proof. destruct s as [|c s]; [done|]. cbn. destruct (c =? 44); [done|]. by destruct (split s). Qed.
Lemma split_app m s : 44 ∉ m -> split (m ++ 44 :: s) = m :: split s.
Proof. induction m as [|c m IH]; intros N; [done|]. cbn [app split]. apply not_elem_of_cons in N as [N1 N2]. rewrite (proj2 (N.eqb_neq c 44)) by done. by rewrite IH. Qed.
Lemma split_one m : 44 ∉ m -> split m = [m].
Proof. induction m as [|c m IH]; intros N; [done|]. cbn [split]. apply not_elem_of_cons in N as [N1 N2]. rewrite (proj2 (N.eqb_neq c 44)) by done. by rewrite IH. Qed.
Lemma split_join ms : ms <> [] -> Forall (fun m => 44 ∉ m) ms -> split (join ms) = ms.
Proof. induction ms as [|m ms IH]; intros N F; [done|]. apply Forall_cons in F as [F1 F2]. destruct ms as [|m' ms]; [by apply split_one|]. change (join (m :: m' :: ms)) with (m ++ 44 :: join (m' :: ms)). rewrite split_app by done. by rewrite IH. Qed.
Lemma join_bound ms : Forall (Forall (fun c => c < 0x110000)) ms -> Forall (fun c => c < 0x110000) (join ms).
Proof. induction 1 as [|m ms F1 F2 IH]; [constructor|]. destruct ms as [|m' ms]; [done|]. change (join (m :: m' :: ms)) with (m ++ 44 :: join (m' :: ms)). apply Forall_app. split; [done|]. constructor; [lia|done]. Qed.
(** Commands as the tools make them: names of bytes; names of modules without commas, not just one empty name *)
Definition possible (c : command) : Prop := match c with
  | Rm _ n => Forall (fun x => x < 256) n
  | Logging _ ms => ms <> [] /\ ms <> [[]] /\ Forall (fun m => 44 ∉ m /\ Forall (fun c => c < 0x110000) m) ms
  | _ => True end.
Theorem cmd_arrives printable c : (forall c, printable c = true -> encodable c = true) -> possible c -> exists b, snd (send printable c) = Some b /\ receive (fst (send printable c)) b = Some c.
Proof.
  intros P H. destruct c as [| | |s t|i|p n|l ms|z]; cbn [send fst snd receive]; try by eexists.
  - rewrite !dec_int. assert (S : sendable (pair (repr_int (Z.of_N s)) (repr_int (Z.of_N t)))) by (apply sendable_pair; apply sendable_int). destruct (decode_encode _ S) as (b & U & _). exists b. split; [done|].
    rewrite (parse_pair_ok _ _ (VInt (Z.of_N t)) _ S); [cbn [mbind option_bind]; by rewrite !inode_int|by pose proof (skip_int (Z.of_N t) []) as K; rewrite app_nil_r in K|intros x; by apply lit_int| |done].
    destruct (int_head (Z.of_N t)) as (c & l & E & Hc & _). exists c, l. split; [done|lia].
  - rewrite dec_int. destruct (decode_encode _ (sendable_int (Z.of_N i))) as (b & U & _). exists b. split; [done|]. rewrite (parse_one_ok _ _ U). cbn [mbind option_bind]. by rewrite inode_int.
  - rewrite dec_int. assert (S : sendable (pair (repr_int (Z.of_N p)) (repr_b n))).
    { apply sendable_pair; [apply sendable_int|]. apply (sendable_app [98]); [apply sendable_chars; repeat constructor; lia|]. apply sendable_str; [done|]. eapply Forall_impl; [exact H|cbn; lia]. }
    destruct (decode_encode _ S) as (b & U & _). exists b. split; [done|]. rewrite (parse_pair_ok _ _ (VBytes n) _ S); [cbn [mbind option_bind]; by rewrite inode_int|by apply skip_id|intros x; by apply lit_bytes|by eexists _, _|done].
  - destruct H as (N1 & N2 & F). assert (J : Forall (fun c => c < 0x110000) (join ms)) by (apply join_bound; eapply Forall_impl; [exact F|by intros ? []]).
    assert (S : sendable (pair (repr_int l) (repr_str printable (join ms)))) by (apply sendable_pair; [apply sendable_int|by apply sendable_str]).
    destruct (decode_encode _ S) as (b & U & _). exists b. split; [done|]. pose proof (the_quote_ok (join ms)) as Q.
    rewrite (parse_pair_ok _ _ (VStr (join ms)) _ S); [|apply skip_id; destruct Q as [-> | ->]; done|intros x; by apply lit_str|eexists _, _; split; [done|]; destruct Q as [-> | ->]; done|done].
    cbn [mbind option_bind]. assert (split (join ms) = ms) as K by (apply split_join; [done|eapply Forall_impl; [exact F|by intros ? []]]).
    destruct (decide (join ms = [])) as [E|E]; [|by rewrite K]. rewrite E in K. by subst ms.
  - destruct (decode_encode _ (sendable_int z)) as (b & U & _). exists b. split; [done|]. by rewrite (parse_one_ok _ _ U).
Qed.

(** * Paths *)
Lemma walk_more fuel fuel' t root follow cur cs i : walk fuel t root follow cur cs = Some i -> (fuel <= fuel')%nat -> walk fuel' t root follow cur cs = Some i.
Proof.
  revert fuel' cur cs. induction fuel as [|fuel IH]; intros fuel' cur cs W L; [done|]. destruct fuel' as [|fuel']; [lia|]. assert (L' : (fuel <= fuel')%nat) by lia. cbn [walk] in *. destruct cs as [|c cs]; [done|].
  destruct (t !! cur) as [[parent es| |]|]; [|done..]. destruct (decide (c = [] \/ c = DOT)); [by apply IH|]. destruct (decide (c = DOTDOT)); [by apply IH|]. destruct (es !! c) as [j|]; [|done].
  destruct (t !! j) as [[| r l|]|]; try by apply IH. destruct (negb follow && bool_decide (cs = [])); [done|by apply IH].
Qed.
(** One step from a directory to itself by its name and "..", on the way that the tool takes *)
Lemma walk_parent fuel t root cur cs b i p es : proper t -> regular b -> walk fuel t root false cur (cs ++ [b]) = Some i -> t !! i = Some (Dir p es) ->
  walk (S (S fuel)) t root true cur ((cs ++ [b]) ++ [DOTDOT]) = Some p /\ entry t p b = Some i.
Proof.
  intros T (B1 & B2 & B3). revert cur cs. induction fuel as [|fuel IH]; intros cur cs W I; [done|]. remember (S (S fuel)) as f2 eqn:Ef. cbn [walk] in W |- *. destruct cs as [|c cs]; cbn [app] in W |- *.
  - destruct (t !! cur) as [[parent es0| |]|] eqn:C; [|done..]. rewrite decide_False in W |- * by tauto. rewrite decide_False in W |- * by done. destruct (es0 !! b) as [j|] eqn:E; [|done].
    assert (j = i /\ t !! j = Some (Dir p es)) as [-> J].
    { destruct (t !! j) as [[| r l|]|] eqn:J; try (destruct fuel; [done|]; cbn [walk] in W; injection W as ->; split; [done|congruence]). cbn in W. injection W as ->. congruence. }
    rewrite J. destruct (T _ _ _ _ _ C E) as [_ Q]. assert (p = cur) as -> by exact (Q _ _ J). split; [|unfold entry; by rewrite C].
    subst f2. destruct fuel; cbn [walk]; rewrite J; (rewrite decide_False by (by intros [?|?])); by rewrite decide_True.
  - destruct (t !! cur) as [[parent es0| |]|] eqn:C; [|done..]. subst f2. destruct (decide (c = [] \/ c = DOT)); [by apply IH|]. destruct (decide (c = DOTDOT)); [by apply IH|]. destruct (es0 !! c) as [j|]; [|done].
    destruct (t !! j) as [[| r l|]|] eqn:J; [by apply IH| |by apply IH|by apply IH].
    rewrite bool_decide_false in W by (by destruct cs). cbn [negb andb] in W |- *. rewrite app_assoc in W. destruct (IH _ _ W I) as [R1 R2]. split; [|done]. rewrite <- R1. f_equal. by rewrite <- !app_assoc.
Qed.
Lemma rstrip_slash_snoc cs b : b <> [] -> rstrip_slash (cs ++ [b]) = cs ++ [b].
Proof. intros B. induction cs as [|c cs IH]; cbn [app rstrip_slash]; [by rewrite decide_False|]. rewrite IH. by destruct (cs ++ [b]) eqn:E; [destruct cs|]. Qed.
Lemma rstrip_slash_more cs n : rstrip_slash (cs ++ replicate n []) = rstrip_slash cs.
Proof. induction cs as [|c cs IH]; cbn [app rstrip_slash]; [|by rewrite IH]. induction n as [|n IH]; [done|]. cbn [replicate rstrip_slash]. by rewrite IH. Qed.
(** s3qlrm with the path of a directory, whatever links are on the way and however many slashes at the end: the command names the entry by which the directory
    is reached, in the directory that has it. *)
Theorem cmd_rm fuel t root cur cs b n i p es : proper t -> regular b -> walk fuel t root false cur (cs ++ [b]) = Some i -> t !! i = Some (Dir p es) -> i <> root ->
  s3qlrm (S (S fuel)) t root cur (cs ++ [b] ++ replicate n []) = Some (Rm p b) /\ entry t p b = Some i.
Proof.
  intros T B W I N. destruct (walk_parent fuel t root cur cs b i p es T B W I) as [R1 R2]. split; [|done]. unfold s3qlrm. rewrite app_assoc, rstrip_slash_more, rstrip_slash_snoc by apply B.
  rewrite decide_False by (rewrite (walk_more _ (S (S fuel)) _ _ _ _ _ _ W) by lia; congruence). rewrite R1. cbn [mbind option_bind]. by rewrite last_snoc.
Qed.
(** Together: the file system is asked to remove this entry, for all names of bytes. *)
Theorem cmd_rm_arrives printable fuel t root cur cs b i p es : (forall c, printable c = true -> encodable c = true) -> proper t -> regular b -> Forall (fun x => x < 256) b -> walk fuel t root false cur (cs ++ [b]) = Some i ->
  t !! i = Some (Dir p es) -> i <> root ->
  exists c x, s3qlrm (S (S fuel)) t root cur (cs ++ [b]) = Some c /\ snd (send printable c) = Some x /\ receive (fst (send printable c)) x = Some (Rm p b) /\ entry t p b = Some i.
Proof.
  intros P T B F W I N. destruct (cmd_rm fuel t root cur cs b 0 i p es T B W I N) as [R E]. cbn [replicate] in R. rewrite app_nil_r in R. destruct (cmd_arrives printable (Rm p b) P F) as (x & X1 & X2). by exists (Rm p b), x.
Qed.
(** The root is not removed (s3qlrm), nor locked (s3qllock), by its own paths. *)
Theorem cmd_root fuel t root cur path : walk fuel t root false cur (rstrip_slash path) = Some root -> s3qlrm fuel t root cur path = None /\ s3qllock fuel t root cur path = None.
Proof. intros W. unfold s3qlrm, s3qllock. by rewrite !decide_True. Qed.
(** Paths of files are refused: below a file there is no "..". *)
Lemma walk_file fuel t root follow cur cs c i : walk fuel t root true cur cs = Some i -> t !! i = Some File -> forall fuel', walk fuel' t root follow cur (cs ++ [c]) = None.
Proof.
  intros W I fuel'. revert fuel' cur cs W. induction fuel as [|fuel IH]; intros fuel' cur cs W; [done|]. destruct fuel' as [|fuel']; [done|]. cbn [walk] in W |- *. destruct cs as [|c' cs]; cbn [app].
  - injection W as ->. by rewrite I.
  - destruct (t !! cur) as [[parent es| |]|]; [|done..]. destruct (decide (c' = [] \/ c' = DOT)); [by apply IH|]. destruct (decide (c' = DOTDOT)); [by apply IH|]. destruct (es !! c') as [j|]; [|done].
    destruct (t !! j) as [[| r l|]|]; try by apply IH. cbn [negb andb] in W. rewrite (bool_decide_false (cs ++ [c] = [])) by (by destruct cs). rewrite andb_false_r. rewrite app_assoc. by apply IH.
Qed.
Theorem cmd_rm_file fuel fuel' t root cur path i : walk fuel t root true cur (rstrip_slash path) = Some i -> t !! i = Some File -> s3qlrm fuel' t root cur path = None.
Proof. intros W I. unfold s3qlrm. destruct (decide _); [done|]. by rewrite (walk_file _ _ _ true _ _ DOTDOT _ W I fuel'). Qed.
(** A path that ends in "." or "..", or is empty, removes nothing: there is no such entry. *)
Theorem cmd_rm_dots fuel t root cur path p b : proper t -> s3qlrm fuel t root cur path = Some (Rm p b) -> ~ regular b -> entry t p b = None.
Proof. intros T _ R. unfold entry. destruct (t !! p) as [[q es| |]|] eqn:E; [|done..]. destruct (es !! b) as [i|] eqn:X; [|done]. by destruct (T _ _ _ _ _ E X). Qed.
(** s3qllock with any path: the tree that the path leads to, links followed *)
Theorem cmd_lock printable fuel t root cur path i : (forall c, printable c = true -> encodable c = true) -> walk fuel t root true cur (rstrip_slash path) = Some i -> walk fuel t root false cur (rstrip_slash path) <> Some root ->
  exists x, s3qllock fuel t root cur path = Some (Lock i) /\ snd (send printable (Lock i)) = Some x /\ receive ALock x = Some (Lock i).
Proof. intros P W N. unfold s3qllock. rewrite decide_False by done. rewrite W. destruct (cmd_arrives printable (Lock i) P I) as (x & X1 & X2). by exists x. Qed.
(** But with the path of a link to a directory, s3qlrm removes another directory, which has nothing to do with the link but its name: the parent is that of the
    directory the link leads to, the name that of the link. Here: /l is a link to /d/x; `s3qlrm l` removes /d/l. *)
Definition nl : text := [108]. Definition nd : text := [100]. Definition nx : text := [120].
Definition t0 : tree := <[1 := Dir 1 (<[nl := 2]> {[nd := 3]})]> (<[2 := Link false [nd; nx]]> (<[3 := Dir 1 (<[nx := 4]> {[nl := 5]})]> (<[4 := Dir 3 ∅]> {[5 := Dir 3 ∅]}))).
Lemma t0_proper : proper t0.
Proof.
  intros d p es c i D E. assert (d ∈ [1; 2; 3; 4; 5]) as K. { destruct (decide (d ∈ [1; 2; 3; 4; 5])); [done|]. exfalso. unfold t0 in D. rewrite !lookup_insert_ne, lookup_singleton_ne in D by set_solver. done. }
  set_unfold in K. destruct K as [-> |[-> |[-> |[-> |[-> |K]]]]]; [..|done]; vm_compute in D; try done; injection D as <- <-.
  - destruct (decide (c = nl)) as [-> |N1]; [vm_compute in E; injection E as <-; split; [done|by intros]|]. destruct (decide (c = nd)) as [-> |N2]; [vm_compute in E; injection E as <-; split; [done|intros q es' H; vm_compute in H; by injection H as <- _]|].
    change ((<[nl := 2]> {[nd := 3]} : gmap text N) !! c = Some i) in E. by rewrite lookup_insert_ne, lookup_singleton_ne in E.
  - destruct (decide (c = nx)) as [-> |N1]; [vm_compute in E; injection E as <-; split; [done|intros q es' H; vm_compute in H; by injection H as <- _]|]. destruct (decide (c = nl)) as [-> |N2]; [vm_compute in E; injection E as <-; split; [done|intros q es' H; vm_compute in H; by injection H as <- _]|].
    change ((<[nx := 4]> {[nl := 5]} : gmap text N) !! c = Some i) in E. by rewrite lookup_insert_ne, lookup_singleton_ne in E.
  - change ((∅ : gmap text N) !! c = Some i) in E. by rewrite lookup_empty in E.
  - change ((∅ : gmap text N) !! c = Some i) in E. by rewrite lookup_empty in E.
Qed.
Theorem cmd_rm_link_refuted : ~ forall fuel t root cur path p b i, proper t -> s3qlrm fuel t root cur path = Some (Rm p b) -> entry t p b = Some i ->
  walk fuel t root false cur (rstrip_slash path) = Some i \/ walk fuel t root true cur (rstrip_slash path) = Some i.
Proof. intros H. destruct (H 9%nat t0 1 1 [nl] 3 nl 5 t0_proper eq_refl eq_refl) as [X|X]; by vm_compute in X. Qed.

(** * Examples *)
(** The name has both quotes, a backslash, a line feed and a byte that is no text. *)
Definition odd_name : text := [97; 39; 98; 34; 92; 10; 255].
Example cmd_sample : match snd (send (fun _ => false) (Rm 17 odd_name)) with Some b => length b = 22%nat /\ receive ARm b = Some (Rm 17 odd_name) | None => False end.
Proof. by vm_compute. Qed.
Example cmd_log_sample : match snd (send (fun _ => true) (Logging 10 [[115; 233]; [97]])) with Some b => receive ALog b = Some (Logging 10 [[115; 233]; [97]]) | None => False end.
Proof. by vm_compute. Qed.
Example cmd_malformed : receive ARm [40; 49; 44; 32; 39; 97; 39; 41] = None /\ receive ACopy [40; 49; 44; 50] = None /\ receive ALock [84; 114; 117; 101] = None.
Proof. by vm_compute. Qed.
(** d/../d/x// *)
Example cmd_rm_sample : s3qlrm 9 t0 1 1 [nd; DOTDOT; nd; nx; []; []] = Some (Rm 3 nx) /\ entry t0 3 nx = Some 4 /\ walk 7 t0 1 false 1 [nd; DOTDOT; nd; nx] = Some 4 /\ possible (Rm 3 nx) /\ regular nx.
Proof. split_and!; try by vm_compute. repeat constructor; lia. Qed.
Print Assumptions cmd_arrives. Print Assumptions cmd_rm. Print Assumptions cmd_rm_arrives. Print Assumptions cmd_root. Print Assumptions cmd_rm_file. Print Assumptions cmd_rm_dots. Print Assumptions cmd_lock. Print Assumptions cmd_rm_link_refuted.
