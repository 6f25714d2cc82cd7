(** C42: listings are complete. *)
From stdpp Require Import prelude sorting gmap.
From Verif Require Import PagingModel.

Section paging.
(** The order in which the server lists, and the objects it has at the time of each request *)
Context (lt : key -> key -> Prop) `{!StrictOrder lt} `{!Trichotomy lt} (objs : nat -> gset key).
Definition after (m : option key) (k : key) : Prop := match m with None => True | Some m => lt m k end.
Definition wanted (n : nat) (prefix : key) (m : option key) (k : key) : Prop := k ∈ objs n /\ prefix `prefix_of` k /\ after m k.

(** An answer that is right: some of the wanted keys in order, and none left out before the place where the next page starts *)
Record right_page (n : nat) (prefix : key) (m : option key) (names : list key) (next : option (option key)) : Prop := {
  rp_sorted : StronglySorted lt names; rp_wanted : forall k, k ∈ names -> wanted n prefix m k;
  rp_all : forall k, wanted n prefix m k -> k ∈ names \/ exists m', next = Some m' /\ after m' k;
  rp_next : forall m', next = Some m' -> (exists x, m' = Some x /\ after m x) /\ forall k, k ∈ names -> ~ after m' k }.

Lemma after_trans m x k : after m x -> lt x k -> after m k.
Proof. destruct m; cbn; [|done]. intros. by transitivity x. Qed.
Lemma pages_complete {token} (page : nat -> option token -> option (list key * option token)) (place : token -> option key) prefix fuel n tok acc r :
  (forall n tok names next, page n tok = Some (names, next) -> right_page n prefix (t ← tok; place t) names (place <$> next)) ->
  pages page fuel n tok acc = Some (r, Ended) -> exists r', r = acc ++ r' /\ StronglySorted lt r' /\ (forall k, k ∈ r' -> exists i, n <= i /\ wanted i prefix (t ← tok; place t) k) /\
    (forall k, (forall i, n <= i -> wanted i prefix (t ← tok; place t) k) -> k ∈ r').
Proof.
  intros Hp. revert n tok acc. induction fuel as [|fuel IH]; intros n tok acc E; [done|]. cbn [pages] in E. destruct (page n tok) as [[els [t|]]|] eqn:Ep; [| |done].
  - apply Hp in Ep as [S1 W1 A1 N1]. destruct (N1 (place t) eq_refl) as [(x & Ex & Hx) N2]. apply IH in E as (r' & -> & S2 & W2 & A2). cbn [mbind option_bind] in W2, A2. exists (els ++ r'). split_and!.
    + by rewrite app_assoc.
    + revert S1 N2. clear - S2 W2 Ex StrictOrder0 Trichotomy0. intros S1 N2. induction els as [|e els IH]; [done|]. cbn [app]. apply StronglySorted_inv in S1 as [S1 F1]. constructor; [apply IH; [done|]; intros k Hk; apply N2; by right|].
      apply Forall_app. split; [done|]. apply Forall_forall. intros k Hk. apply W2 in Hk as (i & _ & _ & _ & Hk). specialize (N2 e ltac:(left)). rewrite Ex in *. cbn in *. destruct (trichotomy lt e x) as [?|[->|?]]; [by transitivity x|done|done].
    + intros k Hk. apply elem_of_app in Hk as [Hk|Hk]; [exists n; auto|]. apply W2 in Hk as (i & Hi & H1 & H2 & H3). exists i. split; [lia|]. split_and!; [done..|]. rewrite Ex in H3. eapply after_trans; [exact Hx|exact H3].
    + intros k Hk. apply elem_of_app. destruct (A1 k (Hk n ltac:(lia))) as [?|(m' & Em & Hm)]; [by left|]. right. injection Em as <-. apply A2. intros i Hi. destruct (Hk i ltac:(lia)) as (H1 & H2 & _). by split_and!.
  - injection E as <-. apply Hp in Ep as [S1 W1 A1 N1]. exists els. split_and!; [done|done| |].
    + intros k Hk. exists n. auto.
    + intros k Hk. destruct (A1 k (Hk n ltac:(lia))) as [?|(m' & Em & _)]; done.
Qed.
(** What list yields *)
Definition complete (base prefix : key) (skip : key -> bool) (out : list key) : Prop :=
  NoDup out /\ (forall k, k ∈ out -> prefix `prefix_of` k /\ exists n, base ++ k ∈ objs n) /\
  (forall k, prefix `prefix_of` k -> (forall n, base ++ k ∈ objs n) -> skip (base ++ k) = false -> k ∈ out).
Lemma strip_app (base : key) k : drop (length base) (base ++ k) = k.
Proof. apply drop_app. Qed.
Lemma complete_strip base prefix skip r : StronglySorted lt r -> (forall k, k ∈ r -> exists i, wanted i (base ++ prefix) None k) -> (forall k, (forall i, wanted i (base ++ prefix) None k) -> skip k = false -> k ∈ r) ->
  complete base prefix skip (drop (length base) <$> r).
Proof.
  intros S W A. assert (forall k, k ∈ r -> exists x, k = base ++ prefix ++ x) as Hb by (intros k Hk; apply W in Hk as (i & _ & [x ->] & _); exists x; by rewrite app_assoc). split_and!.
  - clear W A. induction r as [|e r IH]; cbn; [constructor|]. apply StronglySorted_inv in S as [S F]. constructor; [|apply IH; [done|]; intros k Hk; apply Hb; by right].
    intros (k & Ek & Hk)%elem_of_list_fmap. destruct (Hb e ltac:(left)) as [x ->]. destruct (Hb k ltac:(by right)) as [y ->]. rewrite !strip_app in Ek. rewrite Ek in F. rewrite Forall_forall in F. apply (irreflexivity lt _ (F _ Hk)).
  - intros k (e & -> & He)%elem_of_list_fmap. destruct (Hb e He) as [x ->]. rewrite strip_app. split; [by exists x|]. apply W in He as (i & Hi & _). by exists i.
  - intros k [x ->] Hk Hs. apply elem_of_list_fmap. exists (base ++ prefix ++ x). rewrite strip_app. split; [done|]. apply A; [|done]. intros i. split_and!; [done|by exists x; rewrite app_assoc|done].
Qed.

(** * s3c *)
(** The server: keys after the marker in order, at most [max] of them; if it says that there are no more there are none; if a page is empty although there are
    more, the place to go on is given. *)
Definition s3_right (serve : nat -> key -> option key -> nat -> s3_page) : Prop := forall n prefix m max, 0 < max -> let p := serve n prefix m max in
  StronglySorted lt (s3_names p) /\ length (s3_names p) <= max /\ (forall k, k ∈ s3_names p -> wanted n prefix m k) /\
  (forall k, wanted n prefix m k -> k ∈ s3_names p \/ s3_truncated p = true /\ forall x, x ∈ s3_names p -> lt x k) /\
  (s3_truncated p = true -> s3_names p = [] -> exists x, x <> [] /\ s3_next_marker p = Some (Some x) /\ after m x /\ forall k, wanted n prefix m k -> lt x k).
Definition place (k : key) : option key := Some k.
Lemma sorted_last l x k : StronglySorted lt l -> last l = Some x -> k ∈ l -> k = x \/ lt k x.
Proof.
  intros S E Hk. destruct (last_Some l x) as [H _]. apply H in E as [l' ->]. apply elem_of_app in Hk as [Hk|Hk]; [right|left; by apply elem_of_list_singleton in Hk].
  clear H. induction l' as [|y l' IH]; [by apply elem_of_nil in Hk|]. cbn in S. apply StronglySorted_inv in S as [S F]. apply elem_of_cons in Hk as [->|Hk]; [|by apply IH]. rewrite Forall_forall in F. apply F, elem_of_app. right. by left.
Qed.
Lemma s3_page_right serve prefix n tok names next : s3_right serve -> (forall n, [] ∉ objs n) -> (tok <> Some []) -> s3_list_page serve prefix n tok = Some (names, next) ->
  right_page n prefix (t ← tok; place t) names (place <$> next) /\ next <> Some [].
Proof.
  intros Hs Hne Ht E. unfold s3_list_page in E. assert (sent tok = tok) as Es by (destruct tok as [[|]|]; done). rewrite Es in E.
  assert ((t ← tok; place t) = tok) as -> by by destruct tok. destruct (Hs n prefix tok 1000 ltac:(lia)) as (S1 & _ & W & A & N). set (p := serve n prefix tok 1000) in *. destruct (s3_truncated p) eqn:Et; cbn [negb] in E.
  - destruct (last (s3_names p)) as [l|] eqn:El.
    + injection E as <- <-. assert (l ∈ s3_names p) as Hl by (apply last_Some in El as [l' ->]; apply elem_of_app; right; by left). split; [|intros [=->]; by apply W in Hl as (?%Hne & _)]. split.
      * done.
      * done.
      * intros k Hk. destruct (A k Hk) as [?|[_ H]]; [by left|]. right. exists (place l). split; [done|]. cbn. by apply H.
      * intros m' [= <-]. split; [exists l; split; [done|]; by apply W in Hl as (_ & _ & ?)|]. intros k Hk Hlt. cbn in Hlt. destruct (sorted_last _ _ _ S1 El Hk) as [->|H]; [exact (irreflexivity lt _ Hlt)|]. by apply (irreflexivity lt k); transitivity l.
    + apply last_None in El. destruct (N eq_refl El) as (x & Hx & Em & Hm & Hk). rewrite Em in E. injection E as <- <-. split; [|congruence]. split.
      * constructor.
      * by intros k ?%elem_of_nil.
      * intros k Hw. right. exists (place x). split; [done|]. by apply Hk.
      * intros m' [= <-]. split; [by exists x|]. by intros k ?%elem_of_nil.
  - injection E as <- <-. split; [|done]. split; [done|done| |done]. intros k Hk. destruct (A k Hk) as [?|[? _]]; [by left|done].
Qed.
Lemma pages_ext {token} (page page' : nat -> option token -> option (list key * option token)) (P : option token -> Prop) fuel n tok acc :
  (forall n tok, P tok -> page n tok = page' n tok) -> (forall n tok names next, P tok -> page n tok = Some (names, next) -> P next) -> P tok -> pages page fuel n tok acc = pages page' fuel n tok acc.
Proof.
  intros He Hp. revert n tok acc. induction fuel as [|fuel IH]; intros n tok acc Ht; [done|]. cbn [pages]. rewrite <- (He n tok Ht). destruct (page n tok) as [[els [t|]]|] eqn:E; [|done|done]. apply IH. by eapply Hp.
Qed.
(** Whatever is created and removed meanwhile: every key is listed at most once, every listed key was there, and every key that is there all the time is listed. *)
Theorem s3_list_complete serve fuel base prefix out : s3_right serve -> (forall n, [] ∉ objs n) -> s3_list serve fuel base prefix = Some (out, Ended) -> complete base prefix (fun _ => false) out.
Proof.
  intros Hs Hne E. unfold s3_list in E. destruct (pages _ _ _ _ _) as [[els e]|] eqn:Ep; [|done]. injection E as <- ->.
  rewrite (pages_ext _ (fun n tok => match tok with Some [] => None | _ => s3_list_page serve (base ++ prefix) n tok end) (fun tok => tok <> Some [])) in Ep; [| | |done].
  - apply (pages_complete _ place (base ++ prefix)) in Ep as (r & -> & S & W & A).
    + cbn. apply complete_strip; [done| |].
      * intros k Hk. apply W in Hk as (i & _ & Hi). by exists i.
      * intros k Hk _. apply A. auto.
    + intros n tok names next Hp. destruct tok as [[|]|]; [done|..]; by apply s3_page_right in Hp as [? _].
  - by intros n [[|]|].
  - intros n tok names next Ht Hp. by apply s3_page_right in Hp as [_ ?].
Qed.
(** It ends if the server has only finitely many keys and no empty pages in between. *)
Lemma pages_end {token} (page : nat -> option token -> option (list key * option token)) (place : token -> option key) prefix (U : list key) fuel n tok acc :
  (forall n tok names next, page n tok = Some (names, next) -> right_page n prefix (t ← tok; place t) names (place <$> next)) ->
  (forall n tok names next, page n tok = Some (names, Some next) -> names <> []) -> (forall n k, k ∈ objs n -> k ∈ U) -> NoDup U ->
  forall V, (forall k, k ∈ U -> after (t ← tok; place t) k -> k ∈ V) -> length V < fuel -> pages page fuel n tok acc <> None.
Proof.
  intros Hp Hn HU Nd. revert n tok acc. induction fuel as [|fuel IH]; intros n tok acc V HV HL; [lia|]. cbn [pages]. destruct (page n tok) as [[els [t|]]|] eqn:E; [|done|done].
  pose proof (Hn _ _ _ _ E) as He. apply Hp in E as [S1 W1 A1 N1]. destruct (N1 (place t) eq_refl) as [(x & Ex & Hx) N2]. destruct els as [|e els]; [done|].
  assert (e ∈ V) as Hv by (apply HV; [apply HU with n|]; apply W1; left). apply elem_of_Permutation in Hv as [V' EV]. apply (IH _ _ _ V').
  - intros k Hk Ha. cbn [mbind option_bind] in Ha. assert (k ∈ V) as Hkv by (apply HV; [done|]; rewrite Ex in Ha; by apply (after_trans _ x)). rewrite EV in Hkv. apply elem_of_cons in Hkv as [->|?]; [|done]. exfalso. apply (N2 e); [left|done].
  - rewrite EV in HL. cbn in HL. lia.
Qed.
Theorem s3_list_ends serve base prefix (U : list key) : s3_right serve -> (forall n, [] ∉ objs n) -> (forall n k, k ∈ objs n -> k ∈ U) -> NoDup U ->
  (forall n p m max, 0 < max -> s3_truncated (serve n p m max) = true -> s3_names (serve n p m max) <> []) -> s3_list serve (S (length U)) base prefix <> None.
Proof.
  intros Hs Hne HU Nd Hf. unfold s3_list. destruct (pages _ _ _ _ _) as [[]|] eqn:E; [done|]. exfalso. revert E.
  rewrite (pages_ext _ (fun n tok => match tok with Some [] => None | _ => s3_list_page serve (base ++ prefix) n tok end) (fun tok => tok <> Some [])); [| | |done].
  - apply (pages_end _ place (base ++ prefix) U) with (V := U); [| |done|done|done|lia].
    + intros n tok names next Hp. destruct tok as [[|]|]; [done|..]; by apply s3_page_right in Hp as [? _].
    + intros n tok names next Hp. assert (s3_list_page serve (base ++ prefix) n tok = Some (names, Some next)) as Hq by by destruct tok as [[|]|]. unfold s3_list_page in Hq. specialize (Hf n (base ++ prefix) (sent tok) 1000 ltac:(lia)).
      destruct (s3_truncated _); [|done]. cbn in Hq. specialize (Hf eq_refl). destruct (last _) as [l|] eqn:El; [injection Hq as <- _; done|]. by apply last_None in El.
  - by intros n [[|]|].
  - intros n tok names next Ht Hp. by apply s3_page_right in Hp as [_ ?].
Qed.

(** * swift: pages are full unless they are the last *)
Definition sw_right (serve : nat -> key -> option key -> nat -> list key) : Prop := forall n prefix m limit, 0 < limit -> let l := serve n prefix m limit in
  StronglySorted lt l /\ (forall k, k ∈ l -> wanted n prefix m k) /\ (forall k, wanted n prefix m k -> k ∈ l \/ length l = limit /\ forall x, x ∈ l -> lt x k).
Lemma sw_page_right temporary serve size prefix n tok names next : sw_right serve -> 0 < size -> (forall n, [] ∉ objs n) -> tok <> Some [] -> sw_list_page temporary serve size prefix n tok = Some (names, next) ->
  exists all, names = List.filter (fun k => negb (temporary k)) all /\ right_page n prefix (t ← tok; place t) all (place <$> next) /\ next <> Some [].
Proof.
  intros Hs H0 Hne Ht E. unfold sw_list_page in E. assert (sent tok = tok) as Es by (destruct tok as [[|]|]; done). rewrite Es in E. assert ((t ← tok; place t) = tok) as -> by by destruct tok.
  destruct (Hs n prefix tok size H0) as (S1 & W & A). set (l := serve n prefix tok size) in *. injection E as <- <-. exists l. split; [done|]. destruct (last l) as [x|] eqn:El.
  - assert (x ∈ l) as Hl by (apply last_Some in El as [l' ->]; apply elem_of_app; right; by left). case_decide as D.
    + split; [|intros [=->]; by apply W in Hl as (?%Hne & _)]. split; [done|done| |].
      * intros k Hk. destruct (A k Hk) as [?|[_ H]]; [by left|]. right. exists (place x). split; [done|]. cbn. by apply H.
      * intros m' [= <-]. split; [exists x; split; [done|]; by apply W in Hl as (_ & _ & ?)|]. intros k Hk Hlt. cbn in Hlt. destruct (sorted_last _ _ _ S1 El Hk) as [->|H]; [exact (irreflexivity lt _ Hlt)|]. by apply (irreflexivity lt k); transitivity x.
    + split; [|done]. split; [done|done| |done]. intros k Hk. destruct (A k Hk) as [?|[? _]]; [by left|done].
  - apply last_None in El. split; [|done]. split; [done|done| |done]. intros k Hk. destruct (A k Hk) as [?|[H _]]; [by left|]. rewrite El in H. cbn in H. lia.
Qed.
Lemma pages_filter {token} (page page' : nat -> option token -> option (list key * option token)) (f : key -> bool) fuel n tok acc acc' r e : acc = List.filter f acc' ->
  (forall n tok names next, page n tok = Some (names, next) -> exists all, names = List.filter f all /\ page' n tok = Some (all, next)) -> (forall n tok, page n tok <> None) ->
  pages page fuel n tok acc = Some (r, e) -> exists r', r = List.filter f r' /\ pages page' fuel n tok acc' = Some (r', e).
Proof.
  intros Ha Hp Hn. revert n tok acc acc' Ha. induction fuel as [|fuel IH]; intros n tok acc acc' -> E; [done|]. cbn [pages] in *. destruct (page n tok) as [[els [t|]]|] eqn:Ep; [| |by apply Hn in Ep].
  - apply Hp in Ep as (all & -> & Ep). rewrite Ep. apply (IH _ _ _ (acc' ++ all)) in E; [done|]. by rewrite List.filter_app.
  - apply Hp in Ep as (all & -> & Ep). rewrite Ep. injection E as <- <-. exists (acc' ++ all). by rewrite List.filter_app.
Qed.
Definition sw_all (serve : nat -> key -> option key -> nat -> list key) (size : nat) (prefix : key) (n : nat) (tok : option key) : option (list key * option key) :=
  let all := serve n prefix (sent tok) size in Some (all, match last all with Some l => if decide (length all = size) then Some l else None | None => None end).
(** Temporary objects are left out, but counted. *)
Theorem sw_list_complete temporary serve fuel size base prefix out : sw_right serve -> 0 < size -> (forall n, [] ∉ objs n) -> sw_list temporary serve fuel size base prefix = Some (out, Ended) ->
  complete base prefix temporary out /\ forall k, k ∈ out -> temporary (base ++ k) = false.
Proof.
  intros Hs H0 Hne E. unfold sw_list in E. destruct (pages _ _ _ _ _) as [[els e]|] eqn:Ep; [|done]. injection E as <- ->.
  remember (sw_all serve size (base ++ prefix)) as page' eqn:Epage.
  destruct (pages_filter (sw_list_page temporary serve size (base ++ prefix)) page' (fun k => negb (temporary k)) fuel 0 None [] [] els Ended) as (r & -> & Eq); [done| |done|done|clear Ep; rename Eq into Ep].
  { intros n tok names next Hp. unfold sw_list_page in Hp. injection Hp as <- <-. rewrite Epage. unfold sw_all. eexists. split; [|reflexivity]. done. }
  { assert (forall n tok names next, tok <> Some [] -> page' n tok = Some (names, next) -> right_page n (base ++ prefix) (t ← tok; place t) names (place <$> next) /\ next <> Some []) as Hr.
    { intros n tok names next Ht Hp. rewrite Epage in Hp. unfold sw_all in Hp. injection Hp as <- <-. destruct (sw_page_right (fun _ => false) serve size (base ++ prefix) n tok _ _ Hs H0 Hne Ht eq_refl) as (all & E1 & E2 & E3).
      cbn in E1. assert (forall l : list key, List.filter (fun _ => true) l = l) as Hf by (induction l; cbn; congruence). rewrite !Hf in E1. subst all. done. }
    rewrite (pages_ext _ (fun n tok => match tok with Some [] => None | _ => page' n tok end) (fun tok => tok <> Some [])) in Ep; [| | |done].
    + apply (pages_complete _ place (base ++ prefix)) in Ep as (r' & Er & S & W & A); [cbn in Er; subst r'; split|].
      * apply complete_strip.
        -- clear - S. induction S as [|x l S IH F]; cbn; [constructor|]. destruct (negb _); [|done]. constructor; [done|]. rewrite Forall_forall in *. intros k Hk. apply F. rewrite elem_of_list_In, List.filter_In, <- elem_of_list_In in Hk. tauto.
        -- intros k Hk. rewrite elem_of_list_In, List.filter_In, <- elem_of_list_In in Hk. destruct Hk as [(i & _ & Hi)%W _]. by exists i.
        -- intros k Hk Hf. rewrite elem_of_list_In, List.filter_In, <- elem_of_list_In, Hf. split; [|done]. apply A. auto.
      * intros k (e & -> & He)%elem_of_list_fmap. rewrite elem_of_list_In, List.filter_In, <- elem_of_list_In in He. destruct He as [(i & _ & _ & [x ->] & _)%W Hf]. rewrite <- app_assoc, strip_app. rewrite <- app_assoc in Hf. by destruct (temporary _).
      * intros n tok names next Hp. destruct tok as [[|]|]; [done|..]; by apply Hr in Hp as [? _].
    + by intros n [[|]|].
    + intros n tok names next Ht Hp. by apply Hr in Hp as [_ ?]. }
Qed.

(** * gs: tokens stand for places, pages without items are the last *)
Definition gs_right {token} (place : token -> option key) (serve : nat -> key -> option token -> nat -> option (list key) * option token) : Prop := forall n prefix tok max, let r := serve n prefix tok max in
  right_page n prefix (t ← tok; place t) (default [] (fst r)) (place <$> snd r).
Theorem gs_list_complete {token} (place : token -> option key) serve fuel base prefix out : gs_right place serve -> gs_list serve fuel base prefix = Some (out, Ended) -> complete base prefix (fun _ => false) out.
Proof.
  intros Hs E. unfold gs_list in E. destruct (pages _ _ _ _ _) as [[els e]|] eqn:Ep; [|done]. injection E as <- ->. apply (pages_complete _ place (base ++ prefix)) in Ep as (r & -> & S & W & A).
  - cbn. apply complete_strip; [done| |].
    + intros k Hk. apply W in Hk as (i & _ & Hi). by exists i.
    + intros k Hk _. apply A. auto.
  - intros n tok names next Hp. unfold gs_list_page in Hp. pose proof (Hs n (base ++ prefix) tok 1000) as Hr. cbn in Hr. destruct (serve n (base ++ prefix) tok 1000) as [[items|] [t|]]; cbn in *; try done; by injection Hp as <- <-.
Qed.
End paging.

(** * A server that meets these premises: keys in the order of code points, in pages of [size] *)
Fixpoint lex (a b : key) : bool := match a, b with [], [] => false | [], _ => true | _, [] => false | x :: a, y :: b => (x <? y) || ((x =? y) && lex a b) end.
Definition before (a b : key) : Prop := lex a b = true.
Global Instance before_strict : StrictOrder before.
Proof.
  split.
  - intros a. unfold complement, before. induction a as [|x a IH]; cbn [lex]; [done|]. rewrite Nat.ltb_irrefl, Nat.eqb_refl. cbn. done.
  - intros a. induction a as [|x a IH]; intros [|y b] [|z c]; unfold before; cbn [lex]; try done. rewrite !orb_true_iff, !andb_true_iff, !Nat.ltb_lt, !Nat.eqb_eq. intros [H|[-> H]] [H'|[-> H']]; [left; lia..|]. right. split; [done|]. by apply (IH b).
Qed.
Global Instance before_trichotomy : Trichotomy before.
Proof.
  intros a. unfold before. induction a as [|x a IH]; intros [|y b]; cbn [lex]; auto. destruct (Nat.lt_trichotomy x y) as [H|[->|H]].
  - left. apply orb_true_iff. left. by apply Nat.ltb_lt.
  - rewrite Nat.ltb_irrefl, Nat.eqb_refl. cbn. destruct (IH b) as [?|[->|?]]; auto.
  - right. right. apply orb_true_iff. left. by apply Nat.ltb_lt.
Qed.
Definition wants (prefix : key) (m : option key) (k : key) : bool := bool_decide (prefix `prefix_of` k) && match m with None => true | Some m => lex m k end.
Definition upto (size : nat) (objs : list key) (prefix : key) (m : option key) : list key := take size (List.filter (wants prefix m) objs).
Definition more (size : nat) (objs : list key) (prefix : key) (m : option key) : bool := size <? length (List.filter (wants prefix m) objs).
Definition s3_server (size : nat) (objs : list key) (n : nat) (prefix : key) (m : option key) (max : nat) : s3_page := S3Page (upto (size `min` max) objs prefix m) (more (size `min` max) objs prefix m) None.
Lemma wants_spec objs n prefix m k : wanted before (fun _ => list_to_set objs) n prefix m k <-> k ∈ List.filter (wants prefix m) objs.
Proof. rewrite elem_of_list_In, List.filter_In, <- elem_of_list_In. unfold wanted, wants. rewrite elem_of_list_to_set, andb_true_iff, bool_decide_eq_true. destruct m; cbn; unfold before; tauto. Qed.
Lemma sorted_filter (f : key -> bool) l : StronglySorted before l -> StronglySorted before (List.filter f l).
Proof. induction 1 as [|x l S IH F]; cbn; [constructor|]. destruct (f x); [|done]. constructor; [done|]. rewrite Forall_forall in *. intros k Hk. apply F. rewrite elem_of_list_In, List.filter_In, <- elem_of_list_In in Hk. tauto. Qed.
Lemma sorted_split (l1 l2 : list key) : StronglySorted before (l1 ++ l2) -> StronglySorted before l1 /\ forall x k, x ∈ l1 -> k ∈ l2 -> before x k.
Proof.
  induction l1 as [|y l1 IH]; cbn; intros S; [split; [constructor|by intros x k ?%elem_of_nil]|]. apply StronglySorted_inv in S as [S F]. destruct (IH S) as [I1 I2]. apply Forall_app in F as [F1 F2]. split; [by constructor|].
  intros x k Hx Hk. apply elem_of_cons in Hx as [->|Hx]; [|by apply I2]. rewrite Forall_forall in F2. by apply F2.
Qed.
Lemma upto_right size objs n prefix m : StronglySorted before objs -> let l := upto size objs prefix m in StronglySorted before l /\ length l <= size /\ (forall k, k ∈ l -> wanted before (fun _ => list_to_set objs) n prefix m k) /\
  (forall k, wanted before (fun _ => list_to_set objs) n prefix m k -> k ∈ l \/ more size objs prefix m = true /\ length l = size /\ forall x, x ∈ l -> before x k).
Proof.
  intros S. unfold upto, more. set (f := List.filter (wants prefix m) objs). assert (StronglySorted before f) as Sf by by apply sorted_filter. rewrite <- (take_drop size f) in Sf. apply sorted_split in Sf as [S1 S2]. split_and!.
  - done.
  - rewrite take_length. lia.
  - intros k Hk. apply wants_spec. fold f. by apply elem_of_take in Hk as (i & Hi%elem_of_list_lookup_2 & _).
  - intros k Hk%wants_spec. fold f in Hk. rewrite <- (take_drop size f) in Hk. apply elem_of_app in Hk as [Hk|Hk]; [by left|right]. assert (0 < length (drop size f)) as L by (destruct (drop size f); [by apply elem_of_nil in Hk|cbn; lia]).
    rewrite drop_length in L. split_and!; [by apply Nat.ltb_lt; lia|rewrite take_length; lia|]. intros x Hx. by apply S2.
Qed.
Lemma s3_server_right size objs : 0 < size -> StronglySorted before objs -> s3_right before (fun _ => list_to_set objs) (s3_server size objs).
Proof.
  intros H0 S n prefix m max Hm p. destruct (upto_right (size `min` max) objs n prefix m S) as (U1 & U2 & U3 & U4). cbn [s3_server s3_names s3_truncated] in *. split_and!; [done|cbn; lia|done| |].
  - intros k Hk. destruct (U4 k Hk) as [?|(? & _ & ?)]; auto.
  - intros Ht He. exfalso. unfold p, s3_server, upto, more in *. cbn in Ht, He. apply Nat.ltb_lt in Ht. apply (f_equal length) in He. rewrite take_length in He. cbn in He. lia.
Qed.
Definition sw_server (objs : list key) (n : nat) (prefix : key) (m : option key) (max : nat) : list key := upto max objs prefix m.
Lemma sw_server_right objs : StronglySorted before objs -> sw_right before (fun _ => list_to_set objs) (sw_server objs).
Proof.
  intros S n prefix m max Hm p. destruct (upto_right max objs n prefix m S) as (U1 & U2 & U3 & U4). split_and!; [done|done|]. intros k Hk. destruct (U4 k Hk) as [?|(_ & ? & ?)]; auto.
Qed.
(** The token is the last name, of which the server makes a place *)
Definition gs_server (size : nat) (objs : list key) (n : nat) (prefix : key) (tok : option key) (max : nat) : option (list key) * option key :=
  let l := upto (size `min` S max) objs prefix tok in (match l with [] => None | _ => Some l end, if more (size `min` S max) objs prefix tok then last l else None).
Lemma gs_server_right size objs : 0 < size -> StronglySorted before objs -> gs_right before (fun _ => list_to_set objs) Some (gs_server size objs).
Proof.
  intros H0 St n prefix tok max r. destruct (upto_right (size `min` S max) objs n prefix tok St) as (U1 & U2 & U3 & U4). set (l := upto (size `min` S max) objs prefix tok) in *.
  assert (default [] (fst r) = l) as -> by (unfold r, gs_server; cbn; fold l; by destruct l). assert ((t ← tok; Some t) = tok) as -> by by destruct tok. unfold r, gs_server. cbn [snd]. fold l.
  assert (more (size `min` S max) objs prefix tok = true -> l <> []) as Hl by (unfold l, more, upto; intros Ht%Nat.ltb_lt He%(f_equal length); rewrite take_length in He; cbn in He; lia). destruct (more _ _ _ _).
  - destruct (last l) as [x|] eqn:El; [|apply last_None in El; by destruct Hl]. assert (x ∈ l) as Hx by (apply last_Some in El as [l' ->]; apply elem_of_app; right; by left). split; [done|done| |].
    + intros k Hk. destruct (U4 k Hk) as [?|(_ & _ & H)]; [by left|]. right. exists (Some x). split; [done|]. cbn. by apply H.
    + intros m' [= <-]. split; [exists x; split; [done|]; by apply U3|]. intros k Hk Hlt. cbn in Hlt. destruct (sorted_last before l x k U1 El Hk) as [->|H]; [exact (irreflexivity before _ Hlt)|]. apply (irreflexivity before k). by transitivity x.
  - split; [done|done| |done]. intros k Hk. destruct (U4 k Hk) as [?|(? & _)]; [by left|done].
Qed.
(** Pages of one object although up to 1000 are asked for *)
Definition four : list key := [[7; 1]; [7; 2]; [7; 3; 4]; [8]].
Lemma four_sorted : StronglySorted before four.
Proof. repeat constructor. Qed.
Example s3_case : s3_list (s3_server 1 four) 5 [7] [] = Some ([[1]; [2]; [3; 4]], Ended).
Proof. vm_compute. reflexivity. Qed.
Example sw_case : sw_list (fun k => bool_decide (k = [7; 2])) (sw_server four) 5 2 [7] [] = Some ([[1]; [3; 4]], Ended).
Proof. vm_compute. reflexivity. Qed.
Example gs_case : gs_list (gs_server 2 four) 5 [] [7] = Some ([[7; 1]; [7; 2]; [7; 3; 4]], Ended).
Proof. vm_compute. reflexivity. Qed.

(** A server with smaller pages than asked for makes swift stop after the first. *)
Theorem swift_short_page_refuted : ~ forall (objs : list key) serve fuel size out,
  (forall n prefix m limit, 0 < limit -> let l := serve n prefix m limit in StronglySorted before l /\ length l <= limit /\ (forall k, k ∈ l -> wanted before (fun _ => list_to_set objs) n prefix m k) /\
    (forall k, wanted before (fun _ => list_to_set objs) n prefix m k -> k ∈ l \/ l <> [] /\ forall x, x ∈ l -> before x k)) ->
  0 < size -> sw_list (fun _ => false) serve fuel size [] [] = Some (out, Ended) -> forall k, k ∈ objs -> k ∈ out.
Proof.
  intros Q. assert ([8] ∈ [[7; 1]]) as H; [|by apply elem_of_list_singleton in H]. apply (Q four (fun n p m max => upto (1 `min` max) four p m) 5 1000 [[7; 1]]); [|lia|vm_compute; reflexivity|unfold four; set_solver].
  intros n prefix m limit Hm l. destruct (upto_right (1 `min` limit) four n prefix m four_sorted) as (U1 & U2 & U3 & U4). split_and!; [done|transitivity (1 `min` limit); [done|lia]|done|]. intros k Hk. destruct (U4 k Hk) as [?|(_ & H & ?)]; [by left|right]. split; [|done].
  fold l in H. intros E. rewrite E in H. cbn [length] in H. lia.
Qed.
(** A page without items that is not the last makes gs raise an exception. *)
Theorem gs_empty_page_refuted : ~ forall (objs : nat -> gset key) (serve : nat -> key -> option nat -> nat -> option (list key) * option nat) place, gs_right before objs place serve -> forall fuel out, gs_list serve fuel [] [] <> Some (out, Raised).
Proof.
  intros Q. set (serve := fun (n : nat) (p : key) (tok : option nat) (max : nat) => match tok with None => (None, Some 0) | Some _ => (None : option (list key), None : option nat) end).
  refine (Q (fun _ => ∅) serve (fun _ => Some [0]) _ 2 [] _); [|vm_compute; reflexivity]. intros n prefix tok max r. destruct tok; cbn; split.
  - constructor.
  - by intros k ?%elem_of_nil.
  - intros k [Hk _]. by apply elem_of_empty in Hk.
  - done.
  - constructor.
  - by intros k ?%elem_of_nil.
  - intros k [Hk _]. by apply elem_of_empty in Hk.
  - intros m' [= <-]. split; [by exists [0]|]. by intros k ?%elem_of_nil.
Qed.
Print Assumptions s3_list_complete. Print Assumptions s3_list_ends. Print Assumptions sw_list_complete. Print Assumptions gs_list_complete. Print Assumptions swift_short_page_refuted. Print Assumptions gs_empty_page_refuted.
Print Assumptions s3_server_right. Print Assumptions sw_server_right. Print Assumptions gs_server_right.
