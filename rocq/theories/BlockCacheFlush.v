(** Iteration over the block cache: what flush() and start_flush() have seen. *)
From stdpp Require Import prelude list gmap.
From Coq Require Import ZArith.
From Verif Require Import BlockCacheModel BlockCacheSpec BlockCacheLemmas BlockCacheSteps BlockCacheInv BlockCacheInv2 BlockCacheTasks.

(** The entries before the cursor of task [t]. *)
Fixpoint before (t : nat) (l : list item) : list (nat * nat * nat) :=
  match l with
  | [] => []
  | E _ e :: l => e :: before t l
  | Cur t' :: l => if decide (t' = t) then [] else before t l
  end.
Lemma before_elem t l e : e ∈ before t l -> exists k, E k e ∈ l.
Proof.
  induction l as [|[k e'|t'] l IH]; simpl; intros Hin; [by apply elem_of_nil in Hin| |].
  - apply elem_of_cons in Hin as [->|Hin]; [exists k; by left|]. destruct (IH Hin) as [k' ?]. exists k'. by right.
  - destruct (decide (t' = t)); [by apply elem_of_nil in Hin|]. destruct (IH Hin) as [k' ?]. exists k'. by right.
Qed.
Lemma before_app t l1 l2 e : e ∈ before t (l1 ++ l2) <-> e ∈ before t l1 \/ (Cur t ∉ l1 /\ e ∈ before t l2).
Proof.
  induction l1 as [|[k e'|t'] l1 IH]; simpl.
  - split; [intros; right; split; [apply not_elem_of_nil|done]|]. intros [Hin|[_ ?]]; [by apply elem_of_nil in Hin|done].
  - rewrite not_elem_of_cons, !elem_of_cons, IH. naive_solver.
  - rewrite not_elem_of_cons. destruct (decide (t' = t)) as [->|Hne].
    + split; [intros Hin; by apply elem_of_nil in Hin|]. intros [Hin|[[? _] _]]; [by apply elem_of_nil in Hin|done].
    + rewrite IH. naive_solver.
Qed.
Lemma before_snoc t l k e e' : e' ∈ before t (l ++ [E k e]) -> e' ∈ before t l \/ e' = e.
Proof. rewrite before_app. simpl. rewrite elem_of_list_singleton. naive_solver. Qed.
Lemma before_cpop t k l e : e ∈ before t (cpop k l) -> e ∈ before t l.
Proof.
  induction l as [|[k' e'|t'] l IH]; simpl; [done| |].
  - destruct (decide (k' = k)); [by right|]. simpl. rewrite !elem_of_cons. naive_solver.
  - destruct (decide (t' = t)); [done|]. done.
Qed.
Lemma cpop_cur t k l : Cur t ∉ cpop k l -> Cur t ∉ l.
Proof.
  induction l as [|[k' e'|t'] l IH]; simpl; [done| |].
  - destruct (decide (k' = k)).
    + intros Hn. by apply not_elem_of_cons.
    + rewrite !not_elem_of_cons; naive_solver.
  - rewrite !not_elem_of_cons; naive_solver.
Qed.
Lemma before_all t l k e : Cur t ∉ l -> E k e ∈ l -> e ∈ before t l.
Proof.
  induction l as [|[k' e'|t'] l IH]; simpl; intros Hn Hin; [by apply elem_of_nil in Hin| |]; apply not_elem_of_cons in Hn as [Hn1 Hn2].
  - apply elem_of_cons in Hin as [[= -> ->]|Hin]; [by left|]. right. by apply IH.
  - apply elem_of_cons in Hin as [?|Hin]; [done|]. rewrite decide_False by congruence. by apply IH.
Qed.
Lemma before_cmove t k l e : e ∈ before t (cmove k l) -> e ∈ before t l.
Proof.
  unfold cmove. destruct (cget k l) as [e'|] eqn:Hg; [|done]. rewrite before_app. intros [Hin|[Hn Hin]]; [by eapply before_cpop|].
  simpl in Hin. apply elem_of_list_singleton in Hin as ->. eapply before_all; [by eapply cpop_cur|by eapply cget_Some_elem].
Qed.
Lemma before_cskip_other t t' l : t' <> t -> before t (cskip t' l).1 = before t l.
Proof.
  intros Hne. induction l as [|[k e|t1] l IH]; simpl; [done| |].
  - by rewrite decide_False.
  - destruct (cskip t' l) as [l' r]. simpl in *. by rewrite IH.
Qed.
Lemma before_cnext_other t t' l : t' <> t -> before t (cnext t' l).1 = before t l.
Proof.
  intros Hne. induction l as [|[k e|t1] l IH]; simpl; [done| |].
  - destruct (cnext t' l) as [l' r]. simpl in *. by rewrite IH.
  - destruct (decide (t1 = t')) as [->|Hne2].
    + rewrite before_cskip_other by done. by rewrite decide_False.
    + destruct (cnext t' l) as [l' r]. simpl in *. by rewrite IH.
Qed.
Lemma before_cclose_other t t' l : t' <> t -> before t (cclose t' l) = before t l.
Proof.
  intros Hne. induction l as [|[k e|t1] l IH]; simpl; [done|by rewrite IH|].
  destruct (decide (t1 = t')) as [->|Hne2]; [by rewrite decide_False|]. simpl. by rewrite IH.
Qed.
Lemma before_cskip t l l' r e : cskip t l = (l', r) -> e ∈ before t l' -> r = Some e.
Proof.
  revert l'. induction l as [|[k e'|t1] l IH]; simpl; intros l' Hs Hin.
  - injection Hs as <- <-. by apply elem_of_nil in Hin.
  - injection Hs as <- <-. simpl in Hin. rewrite decide_True in Hin by done. by apply elem_of_list_singleton in Hin as ->.
  - destruct (cskip t l) as [l2 r2] eqn:Hc. injection Hs as <- <-. simpl in Hin.
    destruct (decide (t1 = t)); [by apply elem_of_nil in Hin|]. by eapply IH.
Qed.
Lemma before_cnext t l l' r e : cnext t l = (l', r) -> e ∈ before t l' -> e ∈ before t l \/ r = Some e.
Proof.
  revert l'. induction l as [|[k e'|t1] l IH]; simpl; intros l' Hs Hin.
  - injection Hs as <- <-. by left.
  - destruct (cnext t l) as [l2 r2] eqn:Hc. injection Hs as <- <-. simpl in Hin.
    apply elem_of_cons in Hin as [->|Hin]; [left; by left|]. destruct (IH _ eq_refl Hin) as [?|?]; [left; by right|by right].
  - destruct (decide (t1 = t)) as [->|Hne].
    + right. by eapply before_cskip.
    + destruct (cnext t l) as [l2 r2] eqn:Hc. injection Hs as <- <-. simpl in Hin. rewrite decide_False in Hin by done. by eapply IH.
Qed.
Lemma cskip_none t l l' k e : cskip t l = (l', None) -> E k e ∈ l -> False.
Proof.
  revert l'. induction l as [|[k' e'|t1] l IH]; simpl; intros l' Hs Hin; [by apply elem_of_nil in Hin|done|].
  destruct (cskip t l) as [l2 r2]. injection Hs as <- ->. apply elem_of_cons in Hin as [?|Hin]; [done|]. by eapply IH.
Qed.
Lemma cnext_none t l l' k e : cnext t l = (l', None) -> E k e ∈ l -> e ∈ before t l.
Proof.
  revert l'. induction l as [|[k' e'|t1] l IH]; simpl; intros l' Hs Hin; [by apply elem_of_nil in Hin| |].
  - destruct (cnext t l) as [l2 r2]. injection Hs as <- ->. apply elem_of_cons in Hin as [[= <- <-]|Hin]; [by left|]. right. by eapply IH.
  - apply elem_of_cons in Hin as [?|Hin]; [done|]. destruct (decide (t1 = t)).
    + exfalso. by eapply cskip_none.
    + destruct (cnext t l) as [l2 r2]. injection Hs as <- ->. by eapply IH.
Qed.

Section flush.
Context {H : Type} `{EqDecision H} (sha : list nat -> H) (nworkers qcap : nat).
Notation shared := (shared H).
Notation state := (state H).
Implicit Types x : shared.
Notation act := (act sha nworkers qcap).
Notation tact := (tact sha nworkers qcap).

(** What flush ([b] = false) or start_flush ([b] = true) achieves for an entry. *)
Definition okq (b : bool) x (e : nat * nat * nat) : Prop :=
  e_dirty (ent x e) = false \/ (b = true /\ e_transit (ent x e) = true).
(** A step that writes block [K], or that is a failed upload of it. *)
Definition disturbs (K : nat * nat) (l : label) (pre : list frame) : Prop :=
  match l with LWrite _ _ | LFailed _ _ => touch l pre = Some K | _ => False end.

Lemma ent_cleaned e1 x e : ent (unmark e1 (set_entry e1 (set_dirty false) x)) e =
  if decide (e1 = e) then set_in_transit false (set_dirty false (ent x e1)) else ent x e.
Proof. rewrite ent_unmark, !ent_set_entry. destruct (decide (e1 = e)) as [->|Hne]; [|done]. by rewrite decide_True. Qed.
Lemma ent_stored e1 x e : ent (set_entry e1 (set_dirty false) (unmark e1 x)) e =
  if decide (e1 = e) then set_dirty false (set_in_transit false (ent x e1)) else ent x e.
Proof. rewrite ent_set_entry, !ent_unmark. destruct (decide (e1 = e)) as [->|Hne]; [|done]. by rewrite decide_True. Qed.
Lemma okq_act l x pre x' post b K e : act l x pre x' post -> ~ disturbs K l pre -> e.1 = K -> e.2 < next_e x -> okq b x e -> okq b x' e.
Proof.
  intros Hact Hd HK Hlt Hok.
  assert (e_dirty (ent x' e) = e_dirty (ent x e) -> e_transit (ent x' e) = e_transit (ent x e) -> okq b x' e) as Hsame.
  { unfold okq. by intros -> ->. }
  assert (forall k c, okq b (new_entry k c x).1 e) as Hnew.
  { intros k c. unfold okq. rewrite ent_new, decide_False; [done|]. intros ->. simpl in Hlt. lia. }
  destruct Hact as [t c x|t f x x' fs Hs He|t e1 o1 x Hsz|t f x x' fs He|t f c x x' He|j e1 o1 x Hj
    |j st e1 o1 x Hj|j K1 x Hj|x Hr Hq|x Hr|t i bb todo later x|k1 k2 o1 x H1 H2 H3 H4]; try (by apply Hsame).
  - destruct f as [| |e1 r|e1 r|e1 r| | | | | | | | | | | | | | | | | | | |e1| | | | | | | | | |]; try done; simpl in He; repeat case_match; try done; try (injection He as <- <-); try (by apply Hsame); try (apply Hnew).
    + unfold okq. rewrite ent_mark. destruct (decide (e1 = e)) as [->|]; [|done]. simpl. destruct Hok as [?|[? ?]]; [by left|by right].
    + unfold okq. rewrite ent_cleaned. destruct (decide (e1 = e)) as [->|]; [|done]. simpl. by left.
    + unfold okq. rewrite ent_cleaned. destruct (decide (e1 = e)) as [->|]; [|done]. simpl. by left.
    + unfold okq. by rewrite ent_cremove.
    + unfold okq. change (ent (set_blocks (delete k) (cremove k x)) e) with (ent (cremove k x) e). by rewrite ent_cremove.
    + unfold okq. by rewrite ent_cremove.
  - destruct f; simpl in He; try done; injection He as <- <-; by apply Hsame.
  - destruct f; simpl in He; try done; repeat case_match; try done; injection He as <-; simpl in Hd; unfold okq; rewrite ent_set_entry;
      (match goal with |- context [decide (?a = e)] => destruct (decide (a = e)) as [Hee|]; [|done] end); exfalso; apply Hd; by rewrite Hee, HK.
  - unfold okq. change (ent (set_jobs <[j:=JRel e1.1]> (uploaded e1 o1 x)) e) with (ent (set_entry e1 (set_dirty false) (unmark e1 x)) e).
    rewrite ent_stored. destruct (decide (e1 = e)) as [->|]; [|done]. simpl. by left.
  - assert (ent (set_jobs <[j:=JRel e1.1]> (upload_failed e1 o1 st x)) e = ent (unmark e1 x) e) as Hu by (by destruct st).
    unfold okq. rewrite Hu, ent_unmark. case_decide as Hee; [|done]. exfalso. apply Hd. simpl. by rewrite Hee, HK.
  - assert (ents (deleted x) = ents x) as E3.
    { unfold deleted; cbv zeta. destruct (bool_decide (Exists _ _)); done. }
    unfold okq, ent in *. by rewrite E3.
Qed.

(** Steps of others, and steps of the task itself outside of its iterations. *)
Lemma before_act l x pre x' post t e : act l x pre x' post ->
  (forall f, l = LRun t -> pre = [f] -> root f = None) ->
  e ∈ before t (cache x') -> e ∈ before t (cache x) \/ (e = (e.1, next_e x) /\ e_dirty (ent x' e) = false).
Proof.
  intros Hact Hroot Hin.
  destruct Hact as [t' c x|t' f x x' fs Hs He|t' e1 o1 x Hsz|t' f x x' fs He|t' f c x x' He|j e1 o1 x Hj
    |j st e1 o1 x Hj|j K1 x Hj|x Hr Hq|x Hr|t' i bb todo later x|k1 k2 o1 x H1 H2 H3 H4]; try (by left).
  - assert (root f = None \/ t' <> t) as Hor.
    { destruct (decide (t' = t)) as [->|]; [left; by eapply Hroot|by right]. }
    assert (forall k c, e ∈ before t (cache (new_entry k c x).1) -> x' = (new_entry k c x).1 ->
      e ∈ before t (cache x) \/ (e = (e.1, next_e x) /\ e_dirty (ent x' e) = false)) as Hnew.
    { intros k c Hin2 ->. simpl in Hin2. apply before_snoc in Hin2 as [?| ->]; [by left|]. right. split; [done|]. by rewrite ent_new, decide_True. }
    assert (forall l', cnext t' (cache x) = l' -> t' <> t -> before t l'.1 = before t (cache x)) as Hnext.
    { intros l' <- Hne. by apply before_cnext_other. }
    destruct f as [| | | | | | | | | | | | | | | | | | | | |[]|? ? ? []|? ? ? ? []| | | | | | | | | | |]; try done; simpl in He; repeat case_match;
      try done; try (injection He as <- <-); try (by left);
      first
      [ left; eapply before_cmove, Hin
      | exact (Hnew _ _ Hin eq_refl)
      | left; unfold cremove in Hin; destruct (cget _ (cache x)); [|done]; eapply before_cpop, Hin
      | destruct Hor as [Hor|Hor]; [done|]; left; simpl in Hin;
        specialize (Hnext _ eq_refl Hor); simpl in Hnext;
        rewrite ?before_cclose_other in Hin by done; rewrite ?decide_False in Hin by done; first [exact Hin | by rewrite <- Hnext]
      | idtac ].
  - left. destruct f; simpl in He; try done; injection He as <- <-; done.
  - left. destruct f; simpl in He; try done; repeat case_match; try done; injection He as <-; done.
  - left. by destruct st.
  - left. unfold deleted in Hin; cbv zeta in Hin. destruct (bool_decide (Exists _ _)); done.
Qed.

(** What a frame of flush or start_flush knows about the entries of block [K] that it has passed:
    [Some (b, ex)]: all but [ex] are fine. *)
Definition expect_ret (K : nat * nat) (e : nat * nat * nat) (r : ret) : option (bool * option (nat * nat * nat)) :=
  match r with
  | RetFlush false => Some (false, Some e)
  | RetStart i => if decide (i = None \/ i = Some K.1) then Some (true, Some e) else None
  | _ => None
  end.
Definition expect (K : nat * nat) (g : frame) : option (bool * option (nat * nat * nat)) :=
  match g with
  | FFlushNext false => Some (false, None)
  | FStartNext i => if decide (i = None \/ i = Some K.1) then Some (true, None) else None
  | FUpload e r | FUploadAcq e r | FUploadLocked e r | FSha e r => expect_ret K e r
  | _ => None
  end.
Definition passed (t : nat) (K : nat * nat) x (g : frame) : Prop :=
  match expect K g with
  | None => True
  | Some (b, ex) => forall e, e ∈ before t (cache x) -> e.1 = K -> Some e <> ex -> okq b x e
  end.

Lemma before_ok t x F e : inv2 x F -> e ∈ before t (cache x) -> cget e.1 (cache x) = Some e /\ e.2 < next_e x.
Proof.
  intros I2 Hin. destruct (before_elem _ _ _ Hin) as [k Hk]. pose proof (i_items _ _ I2) as Hit. rewrite Forall_forall in Hit.
  destruct (Hit _ Hk) as [H1 H2]. split; [|done]. apply elem_cget; [apply I2|]. by rewrite H1.
Qed.
Lemma passed_other t K l x pre x' post F g : act l x pre x' post -> inv2 x (pre ++ F) -> ~ disturbs K l pre ->
  (forall f, l = LRun t -> pre = [f] -> root f = None) -> passed t K x g -> passed t K x' g.
Proof.
  intros Hact I2 Hd Hroot Hp. unfold passed in *. destruct (expect K g) as [[b ex]|]; [|done].
  intros e Hin HK Hne. destruct (before_act _ _ _ _ _ _ _ Hact Hroot Hin) as [Hin2|[_ Hcl]]; [|by left].
  eapply okq_act; try done; [by eapply before_ok|]. by apply Hp.
Qed.
(** The step of the frame itself. *)
Lemma passed_own t K x f x' fs F r : exec sha nworkers qcap t f x = Some (x', fs) -> is_send f = false -> inv2 x (f :: F) ->
  root f = Some r -> (r = RkFlush \/ exists i, r = RkStart i) -> passed t K x f ->
  fs = [] \/ exists pre g, fs = pre ++ [g] /\ passed t K x' g.
Proof.
  intros He Hs I2 Hr Hwhich Hp.
  assert (~ disturbs K (LRun t) [f]) as Hd by (intros []).
  assert (act (LRun t) x [f] x' fs) as Hact by (by constructor).
  assert (forall b e, e ∈ before t (cache x) -> e.1 = K -> okq b x e -> okq b x' e) as Hok.
  { intros b e Hin HK. eapply okq_act; [done|done|done|]. by eapply before_ok. }
  assert (forall g, expect K g = None -> passed t K x' g) as Hnone by (intros g Hg; unfold passed; by rewrite Hg).
  assert (forall pre g, passed t K x' g -> fs = pre ++ [g] -> exists pre g, fs = pre ++ [g] /\ passed t K x' g) as Hex by eauto.
  (* upload_if_dirty returns *)
  assert (forall e r b, f = FUpload e r \/ f = FUploadLocked e r \/ f = FSha e r -> before t (cache x') = before t (cache x) ->
    (b = false -> e ∈ before t (cache x) -> okq false x' e) -> root_ret r = RkFlush \/ (exists i, root_ret r = RkStart i) ->
    (b = true -> root_ret r <> RkFlush -> e ∈ before t (cache x) -> okq true x' e) -> exists g, resume e r b = [g] /\ passed t K x' g) as Hres.
  { intros e r0 b Hf Hb Hoke Hw Hst. destruct r0 as [? ? ? []|i|sth]; [by destruct Hw as [?|[? ?]]|by destruct Hw as [?|[? ?]]| |].
    - exists (FStartNext i). split; [done|]. unfold passed. simpl. destruct (decide _) as [Hi|] eqn:Hdi; [|done]. intros e1 Hin HK _. rewrite Hb in Hin.
      destruct (decide (e1 = e)) as [->|Hne].
      { destruct b; [by apply Hst|]. destruct (Hoke eq_refl Hin) as [?|[? _]]; [by left|done]. }
      apply Hok; [done|done|]. unfold passed in Hp.
      assert (expect K f = Some (true, Some e)) as Hxp by (destruct Hf as [-> |[-> | ->]]; simpl; by rewrite Hdi).
      rewrite Hxp in Hp. apply Hp; [done|done|congruence].
    - exists (FFlushNext (b || sth)). split; [done|]. destruct b; [by apply Hnone|]. destruct sth; [by apply Hnone|].
      unfold passed. simpl. intros e1 Hin HK _. rewrite Hb in Hin. destruct (decide (e1 = e)) as [->|Hne]; [by apply Hoke|].
      apply Hok; [done|done|]. unfold passed in Hp.
      assert (expect K f = Some (false, Some e)) as Hxp by (by destruct Hf as [-> |[-> | ->]]).
      rewrite Hxp in Hp. apply Hp; [done|done|congruence]. }
  (* upload_if_dirty continues *)
  assert (forall e r g, expect K f = expect_ret K e r -> expect K g = expect_ret K e r -> before t (cache x') = before t (cache x) -> passed t K x' g) as Hcont.
  { intros e r0 g Hf Hg Hb. unfold passed in *. rewrite Hg. rewrite Hf in Hp. destruct (expect_ret K e r0) as [[b ex]|]; [|done].
    intros e1 Hin HK Hne. rewrite Hb in Hin. apply Hok; [done|done|]. by apply Hp. }
  destruct f as [|e r0|e r0|e r0|e r0| | | | | | | | | | | | | | | | |[]|? ? ? []|? ? ? ? []| | |i|i| |sth| | | | |]; simpl in Hr; try done;
    try (exfalso; injection Hr as <-; by destruct Hwhich as [?|[? ?]]); injection Hr as Hr; try subst r; simpl in He.
  - destruct (e_transit (ent x e)) eqn:Htr; [|destruct (e_dirty (ent x e)) eqn:Hdi]; injection He as <- <-.
    + destruct (Hres e r0 true) as (g & Hg & Hpg); try done; [by left|by right|]. right. rewrite Hg. by exists [], g.
    + right. exists [], (FUploadAcq e r0). split; [done|]. by apply (Hcont e r0).
    + destruct (Hres e r0 false) as (g & Hg & Hpg); try done; [by left|by left|]. right. rewrite Hg. by exists [], g.
  - destruct (decide (e.1 ∈ locks x)); [done|]. injection He as <- <-. right. exists [], (FUploadLocked e r0). split; [done|]. by apply (Hcont e r0).
  - destruct (decide (cget e.1 (cache x) = Some e)) as [Hg|Hg].
    + destruct (e_transit (ent x e)) eqn:Htr; [|destruct (e_dirty (ent x e)) eqn:Hdi]; injection He as <- <-.
      * destruct (Hres e r0 true) as (g & Hgr & Hpg); try done; [by right; left|by right|]. right. rewrite Hgr. by exists [FRelease e.1], g.
      * right. exists [], (FSha e r0). split; [done|]. by apply (Hcont e r0).
      * destruct (Hres e r0 false) as (g & Hgr & Hpg); try done; [by right; left|by left|]. right. rewrite Hgr. by exists [FRelease e.1], g.
    + injection He as <- <-. destruct (Hres e r0 false) as (g & Hgr & Hpg); try done; [by right; left|intros _ Hin; by eapply before_ok in Hin as [? _]|].
      right. rewrite Hgr. by exists [FRelease e.1], g.
  - destruct (obj_by_hash _ x) as [o2|]; [destruct (decide (blocks x !! e.1 = Some o2))|]; injection He as <- <-.
    + destruct (Hres e r0 false) as (g & Hgr & Hpg); try done; [by right; right|intros _ _; left; by rewrite ent_cleaned, decide_True|].
      right. rewrite Hgr. by exists [FRelease e.1], g.
    + destruct (Hres e r0 false) as (g & Hgr & Hpg); try done; [by right; right|intros _ _; left; by rewrite ent_cleaned, decide_True|].
      right. rewrite Hgr. by exists (FRelease e.1 :: deref (blocks x !! e.1)), g.
    + assert (e_transit (ent x e) = true) as Het by
        (specialize (i_tr _ _ I2 e); cbn [lsum tr]; rewrite bool_decide_eq_true_2 by done; intros Hi;
         pose proof (lsum_nonneg (tr e) F (tr_nonneg e)); destruct (e_transit (ent x e)); [done|simpl in Hi; lia]).
      destruct (Hres e r0 true) as (g & Hgr & Hpg); try done; [by right; right|intros; by right|].
      right. rewrite Hgr. by exists (FSend e (next_o x) :: deref (blocks x !! e.1)), g.
  - injection He as <- <-. right. exists [], (FStartNext i). split; [done|]. unfold passed. simpl.
    destruct (decide _) as [Hi|]; [|done]. rewrite decide_True by done. intros e1 Hin. by apply elem_of_nil in Hin.
  - destruct (cnext t (cache x)) as [l' [e|]] eqn:Hc; [destruct (decide (i = None \/ i = Some e.1.1)) as [Hi|Hi]|]; injection He as <- <-; [right|right|by left].
    + exists [], (FUpload e (RetStart i)). split; [done|]. unfold passed in *. simpl in *. destruct (decide (i = None \/ i = Some K.1)); [|done].
      intros e1 Hin HK Hne. destruct (before_cnext _ _ _ _ _ Hc Hin) as [Hin2|?]; [|congruence]. by apply Hp.
    + exists [], (FStartNext i). split; [done|]. unfold passed in *. simpl in *. destruct (decide (i = None \/ i = Some K.1)) as [HiK|]; [|done].
      intros e1 Hin HK Hne. destruct (before_cnext _ _ _ _ _ Hc Hin) as [Hin2|Heq]; [by apply Hp|]. injection Heq as ->. subst K. done.
  - injection He as <- <-. right. exists [], (FFlushNext false). split; [done|]. unfold passed. simpl.
    rewrite decide_True by done. intros e1 Hin. by apply elem_of_nil in Hin.
  - destruct (cnext t (cache x)) as [l' [e|]] eqn:Hc; [|destruct sth]; injection He as <- <-; [right|right|by left].
    + exists [], (FUpload e (RetFlush sth)). split; [done|]. unfold passed in *. simpl in *. destruct sth; [done|].
      intros e1 Hin HK Hne. destruct (before_cnext _ _ _ _ _ Hc Hin) as [Hin2|?]; [|congruence]. by apply Hp.
    + by exists [FWait], FFlush.
Qed.
End flush.
