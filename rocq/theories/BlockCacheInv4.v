(** Invariants of the block cache, continued: uploads, deletions, hashes. *)
From stdpp Require Import prelude list gmap.
From Coq Require Import ZArith.
From Verif Require Import BlockCacheModel BlockCacheLemmas BlockCacheSteps BlockCacheInv BlockCacheInv2 BlockCacheInv3.

(** Objects about to be deleted from the backend. *)
Definition delf (o : nat) (f : frame) : Z :=
  match f with FDerefWait o' false | FRmSend o' => b2z (bool_decide (o' = o)) | _ => 0%Z end.
Lemma delf_nonneg o f : (0 <= delf o f)%Z.
Proof. destruct f; simpl; try lia; [destruct failed; [lia|]|]; by destruct (bool_decide _). Qed.
Lemma delf_le o f : (delf o f <= deadf o f)%Z.
Proof. destruct f; simpl; try lia. destruct failed; [|lia]. by destruct (bool_decide _). Qed.
Lemma delf_resume o e r b : lsum (delf o) (resume e r b) = 0%Z.
Proof. destruct r, b; done. Qed.
Lemma delf_deref o o' : lsum (delf o) (deref o') = 0%Z.
Proof. by destruct o'. Qed.
Lemma lsum_le {A} (f g : A -> Z) l : (forall a, f a <= g a)%Z -> (lsum f l <= lsum g l)%Z.
Proof. intros Hfg. induction l as [|a l IH]; simpl; [lia|]. specialize (Hfg a). lia. Qed.

Section inv.
Context {H : Type} `{EqDecision H} (sha : list nat -> H) (nworkers qcap : nat).
Notation shared := (shared H).
Implicit Types x : shared.
Notation act := (act sha nworkers qcap).

Definition dead x (F : list frame) (o : nat) : Z := (lsum (deadf o) F + cnt o (rmq x) + cnt o (removing x))%Z.
Definition del x (F : list frame) (o : nat) : Z := (lsum (delf o) F + cnt o (rmq x) + cnt o (removing x))%Z.
Lemma del_le x F o : (del x F o <= dead x F o)%Z.
Proof. unfold del, dead. pose proof (lsum_le (delf o) (deadf o) F (delf_le o)). lia. Qed.
Lemma cnt_app o l1 l2 : cnt o (l1 ++ l2) = (cnt o l1 + cnt o l2)%Z.
Proof. apply lsum_app. Qed.

Lemma act_dead l x pre x' post F o : act l x pre x' post -> inv3 x (pre ++ F) ->
  (l = LDeleted /\ (dead x' (post ++ F) o = dead x (pre ++ F) o - cnt o (removing x))%Z /\
                   (del x' (post ++ F) o = del x (pre ++ F) o - cnt o (removing x))%Z) \/
  (l <> LDeleted /\ (dead x' (post ++ F) o <= dead x (pre ++ F) o)%Z /\ del x' (post ++ F) o = del x (pre ++ F) o) \/
  (l <> LDeleted /\ exists ob, pre = [FDeref o] /\ objs x !! o = Some ob /\ objs x' !! o = None /\
    (dead x' (post ++ F) o = dead x (pre ++ F) o + 1)%Z /\
    (del x' (post ++ F) o = del x (pre ++ F) o + b2z (negb (bool_decide (o_phys ob = None))))%Z).
Proof.
  intros Hact HI. unfold dead, del. rewrite !lsum_app.
  assert (forall o1 fl, 0 <= deadf o1 (FDerefWait o1 fl))%Z as Hnn by (intros; apply deadf_nonneg).
  destruct Hact as [t c x|t f x x' fs Hs He|t e o1 x Hsz|t f x x' fs He|t f c x x' He|j e o1 x Hj
    |j st e o1 x Hj|j K x Hj|x Hr Hq|x Hr|t i b todo later x|k1 k2 o1 x H1 H2 H3 H4];
    try (right; left; split; [done|]; simpl; lia).
  - right; left. split; [done|]. destruct c; simpl; lia.
  - destruct f; try done; simpl in He;
    try (right; left; split; [done|]; unfold cremove in He; repeat case_match; simplify_eq; simpl;
         rewrite ?lsum_app, ?deadf_resume, ?deadf_deref, ?delf_resume, ?delf_deref; lia).
    + destruct (inv3_deref_row _ _ o0 HI) as [ob Ho]; [by left|]. rewrite Ho in He.
      case_decide as Hr; simplify_eq; [right; left; split; [done|]; simpl; lia|].
      destruct (decide (o0 = o)) as [->|Hne].
      * right; right. split; [done|]. exists ob. simpl. rewrite lookup_delete.
        rewrite !(bool_decide_eq_true_2 (o = o)) by done. destruct (bool_decide (o_phys ob = None)); simpl; (split; [done|]; split; [done|]; split; [done|]; lia).
      * right; left. split; [done|]. simpl. rewrite !(bool_decide_eq_false_2 (o0 = o)) by done.
        destruct (bool_decide (o_phys ob = None)); simpl; lia.
    + right; left. split; [done|]. specialize (Hnn o0 failed). repeat case_match; simplify_eq; simpl; try lia.
      destruct (bool_decide (o0 = o)); simpl; lia.
    + right; left. split; [done|]. repeat case_match; simplify_eq; simpl. rewrite cnt_app. change (cnt o [o0]) with (isv o o0 + 0)%Z. unfold isv. lia.
  - right; left. split; [done|]. destruct f; simpl in He; try done; simplify_eq; simpl; lia.
  - right; left. split; [done|]. destruct f; simpl in He; try done; repeat case_match; simplify_eq; simpl; lia.
  - right; left. split; [done|]. destruct st; simpl; lia.
  - right; left. split; [done|]. simpl. rewrite Hr. change (cnt o []) with 0%Z. lia.
  - left. split; [done|]. assert (rmq (deleted x) = rmq x /\ removing (deleted x) = []) as [-> ->].
    { unfold deleted. by destruct (bool_decide _). }
    change (cnt o []) with 0%Z. lia.
Qed.

Lemma act_inflight l x pre x' post F : act l x pre x' post -> inv3 x (pre ++ F) ->
  (forall o, o ∈ inflight x -> o < next_o x) -> (forall e o, FSend e o ∈ pre -> o ∈ inflight x) ->
  forall o, (lsum (sends o) post - lsum (sends o) pre = b2z (bool_decide (o ∈ inflight x')) - b2z (bool_decide (o ∈ inflight x)))%Z.
Proof.
  intros Hact HI Hnew Hin o.
  assert (forall o1, o1 ∈ inflight x -> (0 - (b2z (bool_decide (o1 = o)) + 0) =
    b2z (bool_decide (o ∈ inflight x ∖ {[o1]})) - b2z (bool_decide (o ∈ inflight x)))%Z) as Hrem.
  { intros o1 Ho1. destruct (decide (o1 = o)) as [->|Hne].
    - rewrite bool_decide_eq_true_2 by done. rewrite bool_decide_eq_false_2 by set_solver. rewrite bool_decide_eq_true_2 by done. done.
    - rewrite bool_decide_eq_false_2 by done. rewrite (bool_decide_ext (o ∈ inflight x ∖ {[o1]}) (o ∈ inflight x)) by set_solver. simpl. lia. }
  destruct Hact as [t c x|t f x x' fs Hs He|t e o1 x Hsz|t f x x' fs He|t f c x x' He|j e o1 x Hj
    |j st e o1 x Hj|j K x Hj|x Hr Hq|x Hr|t i b todo later x|k1 k2 o1 x H1 H2 H3 H4];
    try (simpl; lia).
  - destruct c; simpl; lia.
  - destruct f; try done; simpl in He; unfold cremove in He;
    try (repeat case_match; simplify_eq; simpl; rewrite ?lsum_app, ?sends_resume, ?sends_deref; lia).
    repeat case_match; simplify_eq; simpl; rewrite ?lsum_app, ?sends_resume, ?sends_deref; try lia.
    destruct (decide (next_o x = o)) as [<-|Hne].
    + rewrite bool_decide_eq_true_2 by done. rewrite bool_decide_eq_true_2 by set_solver. rewrite bool_decide_eq_false_2; [done|].
      intros Hi. apply Hnew in Hi. lia.
    + rewrite bool_decide_eq_false_2 by done. rewrite (bool_decide_ext (o ∈ {[next_o x]} ∪ inflight x) (o ∈ inflight x)) by set_solver. simpl. lia.
  - destruct f; simpl in He; try done; simplify_eq; simpl; lia.
  - destruct f; simpl in He; try done; repeat case_match; simplify_eq; simpl; lia.
  - simpl. apply Hrem. apply (Hin e). by left.
  - assert (inflight (set_jobs <[j:=JRel e.1]> (upload_failed e o1 st x)) = inflight x ∖ {[o1]}) as -> by (by destruct st).
    simpl. apply Hrem. apply (Hin e). by left.
  - assert (inflight (deleted x) = inflight x) as ->.
    { unfold deleted; cbv zeta. destruct (bool_decide (Exists _ _)); reflexivity. }
    simpl; lia.
Qed.

(** Only new objects become in flight. *)
Lemma act_inflight_sub l x pre x' post o : act l x pre x' post -> o ∈ inflight x' -> o ∈ inflight x \/ o = next_o x.
Proof.
  intros Hact Hi. destruct Hact as [t c x|t f x x' fs Hs He|t e o1 x Hsz|t f x x' fs He|t f c x x' He|j e o1 x Hj
    |j st e o1 x Hj|j K x Hj|x Hr Hq|x Hr|t i b todo later x|k1 k2 o1 x H1 H2 H3 H4]; try (by left).
  - destruct f; try done; simpl in He; unfold cremove in He; repeat case_match; simplify_eq; try (by left).
    simpl in Hi. set_solver.
  - destruct f; simpl in He; try done; simplify_eq; by left.
  - destruct f; simpl in He; try done; repeat case_match; simplify_eq; by left.
  - simpl in Hi. set_solver.
  - destruct st; simpl in Hi; set_solver.
  - left. assert (inflight (deleted x) = inflight x) as <-; [|done].
    unfold deleted; cbv zeta. destruct (bool_decide (Exists _ _)); reflexivity.
Qed.

Record inv4 x (F : list frame) : Prop := {
  u_send : forall e o, FSend e o ∈ F -> blocks x !! e.1 = Some o /\ store x !! o = None /\
    exists ob, objs x !! o = Some ob /\ o_hash ob = Some (sha (e_data (ent x e))) /\ o_phys ob = None;
  u_inflight : forall o, lsum (sends o) F = b2z (bool_decide (o ∈ inflight x));
  u_dead : forall o, (dead x F o <= 1)%Z;
  u_row : forall o, (0 < dead x F o)%Z -> objs x !! o = None /\ o < next_o x;
  u_store : forall o c, store x !! o = Some c -> o < next_o x;
  u_phys : forall o ob, objs x !! o = Some ob -> o_phys ob <> None -> store x !! o <> None;
  u_del : forall o, (0 < del x F o)%Z -> store x !! o <> None;
  h_uniq : forall o1 o2 ob1 ob2 h, objs x !! o1 = Some ob1 -> objs x !! o2 = Some ob2 ->
    o_hash ob1 = Some h -> o_hash ob2 = Some h -> o1 = o2;
  h_store : forall o ob h c, objs x !! o = Some ob -> o_hash ob = Some h -> store x !! o = Some c -> sha c = h;
  h_stored : forall o ob h, objs x !! o = Some ob -> o_hash ob = Some h -> o ∉ inflight x -> store x !! o <> None
}.
Lemma dead_perm x F F' o : Permutation F F' -> dead x F o = dead x F' o.
Proof. intros HP. unfold dead. by rewrite (lsum_perm _ _ _ HP). Qed.
Lemma del_perm x F F' o : Permutation F F' -> del x F o = del x F' o.
Proof. intros HP. unfold del. by rewrite (lsum_perm _ _ _ HP). Qed.
Lemma inv4_perm x F F' : Permutation F F' -> inv4 x F -> inv4 x F'.
Proof.
  intros HP [H1 H2 H3 H4 H5 H6 H7 H8 H9 H10]. split; try done.
  - intros e o Ho. apply H1. by rewrite HP.
  - intros o. by rewrite <- (lsum_perm _ _ _ HP).
  - intros o. by rewrite <- (dead_perm _ _ _ _ HP).
  - intros o. rewrite <- (dead_perm _ _ _ _ HP). apply H4.
  - intros o. rewrite <- (del_perm _ _ _ _ HP). apply H7.
Qed.

Lemma inflight_send x F o : inv4 x F -> o ∈ inflight x -> exists e, FSend e o ∈ F.
Proof.
  intros HI Hi. pose proof (u_inflight _ _ HI o) as Hs. rewrite bool_decide_eq_true_2 in Hs by done. simpl in Hs.
  destruct (lsum_pos (sends o) F) as (f & Hf & Hp); [lia|]. destruct f; simpl in Hp; try lia.
  destruct (bool_decide (o0 = o)) eqn:Hb; [|simpl in Hp; lia]. apply bool_decide_eq_true in Hb as ->. by exists e.
Qed.
Lemma send_inflight x F e o : inv4 x F -> FSend e o ∈ F -> o ∈ inflight x.
Proof.
  intros HI Hi. pose proof (u_inflight _ _ HI o) as Hs. pose proof (lsum_elem (sends o) F _ (sends_nonneg o) Hi) as Hle.
  simpl in Hle. rewrite bool_decide_eq_true_2 in Hle by done. simpl in Hle.
  destruct (bool_decide (o ∈ inflight x)) eqn:Hb; [by apply bool_decide_eq_true in Hb|simpl in Hs; lia].
Qed.
Lemma sends_unique x e o F e' : inv4 x (FSend e o :: F) -> FSend e' o ∈ F -> False.
Proof.
  intros HI Hi. pose proof (u_inflight _ _ HI o) as Hs. simpl in Hs. rewrite bool_decide_eq_true_2 in Hs by done. simpl in Hs.
  pose proof (lsum_elem (sends o) F _ (sends_nonneg o) Hi) as Hle. simpl in Hle. rewrite bool_decide_eq_true_2 in Hle by done. simpl in Hle.
  destruct (bool_decide (o ∈ inflight x)); simpl in Hs; lia.
Qed.
Lemma inflight_lt x F o : inv3 x F -> inv4 x F -> o ∈ inflight x -> o < next_o x.
Proof.
  intros H3 H4 Hi. destruct (inflight_send _ _ _ H4 Hi) as [e He]. destruct (u_send _ _ H4 _ _ He) as (_ & _ & ob & Ho & _).
  apply (r_pos _ _ H3 _ _ Ho).
Qed.

Lemma utarget_some l x pre x' post o : act l x pre x' post -> utarget l pre = Some o ->
  exists e, pre = [FSend e o] /\ post = [FRelease e.1] /\ inflight x' = inflight x ∖ {[o]} /\
  ((exists j, l = LUploaded j) /\ store x' !! o = Some (e_data (ent x e)) /\
     objs x' = alter (with_phys (length (e_data (ent x e)))) o (objs x) \/
   (exists j st, l = LFailed j st) /\ objs x' = alter no_hash o (objs x)).
Proof.
  intros Hact Hu. destruct Hact as [t c x|t f x x' fs Hs He|t e o1 x Hsz|t f x x' fs He|t f c x x' He|j e o1 x Hj
    |j st e o1 x Hj|j K x Hj|x Hr Hq|x Hr|t i b todo later x|k1 k2 o1 x H1 H2 H3 H4]; try done; simpl in Hu; simplify_eq.
  - exists e. split; [done|]. split; [done|]. split; [done|]. left. split; [eauto|]. split; [simpl; by rewrite lookup_insert|].
    unfold uploaded. simpl. f_equal. f_equal. f_equal. by rewrite ent_unmark, decide_True.
  - exists e. split; [done|]. split; [done|]. split; [by destruct st|]. right. split; [eauto|]. by destruct st.
Qed.
Lemma utarget_send l x pre x' post e o : act l x pre x' post -> FSend e o ∈ pre -> utarget l pre = Some o \/ (inflight x' = inflight x /\ store x' = store x /\ post = pre /\ objs x' = objs x /\ blocks x' = blocks x /\ ents x' = ents x).
Proof.
  intros Hact Hin. destruct Hact as [t c x|t f x x' fs Hs He|t e1 o1 x Hsz|t f x x' fs He|t f c x x' He|j e1 o1 x Hj
    |j st e1 o1 x Hj|j K x Hj|x Hr Hq|x Hr|t i b todo later x|k1 k2 o1 x H1 H2 H3 H4]; try (apply elem_of_nil in Hin; done);
    apply elem_of_list_singleton in Hin; simplify_eq; try done.
  - by right.
  - by left.
  - by left.
Qed.

Lemma FSend_not_resume e o e' r b : FSend e o ∉ resume e' r b.
Proof. intros Hin. pose proof (lsum_elem (sends o) _ _ (sends_nonneg o) Hin) as Hle. rewrite sends_resume in Hle. simpl in Hle. rewrite bool_decide_eq_true_2 in Hle by done. simpl in Hle. lia. Qed.
Lemma FSend_not_deref e o o' : FSend e o ∉ deref o'.
Proof. intros Hin. pose proof (lsum_elem (sends o) _ _ (sends_nonneg o) Hin) as Hle. rewrite sends_deref in Hle. simpl in Hle. rewrite bool_decide_eq_true_2 in Hle by done. simpl in Hle. lia. Qed.
(** Where an FSend frame comes from. *)
Lemma post_send l x pre x' post F e o : act l x pre x' post -> inv3 x (pre ++ F) -> FSend e o ∈ post ->
  FSend e o ∈ pre \/ (o = next_o x /\ objs x !! o = None /\ objs x' !! o <> None).
Proof.
  intros Hact HI Hin. destruct Hact as [t c x|t f x x' fs Hs He|t e1 o1 x Hsz|t f x x' fs He|t f c x x' He|j e1 o1 x Hj
    |j st e1 o1 x Hj|j K x Hj|x Hr Hq|x Hr|t i b todo later x|k1 k2 o1 x H1 H2 H3 H4]; try (apply elem_of_nil in Hin; done);
    try (by left); try (apply elem_of_list_singleton in Hin; done).
  - destruct c; apply elem_of_list_singleton in Hin; done.
  - destruct f; try done; simpl in He; unfold cremove in He;
    repeat case_match; simplify_eq;
    repeat first [apply elem_of_cons in Hin as [Heq|Hin] | apply elem_of_app in Hin as [Hin|Hin]]; simplify_eq;
    first [apply elem_of_nil in Hin; done | by apply FSend_not_resume in Hin | by apply FSend_not_deref in Hin | idtac].
    right. split; [done|]. split.
    + destruct (objs x !! next_o x) as [ob|] eqn:Ho; [|done]. apply (r_pos _ _ HI) in Ho. lia.
    + simpl. by rewrite lookup_insert.
  - destruct f; simpl in He; try done; simplify_eq; apply elem_of_list_singleton in Hin; done.
Qed.

Lemma inv4_act l x pre x' post F : act l x pre x' post -> inv2 x (pre ++ F) -> inv3 x (pre ++ F) -> inv4 x (pre ++ F) -> inv4 x' (post ++ F).
Proof.
  intros Hact I2 I3 I4. destruct (act_objs _ _ _ _ _ _ _ _ _ Hact I3) as (Hsome & Hnone & Hnext).
  pose proof (act_guar _ _ _ _ _ _ _ _ Hact) as [G1 G2 G3].
  assert (forall o c, store x' !! o = Some c -> store x !! o = None -> exists e, pre = [FSend e o] /\ c = e_data (ent x e)) as Hnewstore.
  { intros o c Hc Hn. destruct (act_store _ _ _ _ _ _ _ _ o Hact) as [Hst|[(_ & _ & Hst)|(e & _ & -> & Hst)]]; [congruence|congruence|].
    exists e. split; [done|]. congruence. }
  assert (forall o ob, objs x !! o = Some ob -> store x !! o <> None -> store x' !! o <> None) as Hkeep.
  { intros o ob Ho Hn. destruct (act_store _ _ _ _ _ _ _ _ o Hact) as [Hst|[(_ & Hin & _)|(e & _ & _ & Hst)]]; [by rewrite Hst| |by rewrite Hst].
    assert (objs x !! o = None) as Hnn; [|congruence]. apply (u_row _ _ I4). unfold dead. apply cnt_elem in Hin.
    pose proof (cnt_nonneg o (rmq x)). pose proof (lsum_nonneg (deadf o) (pre ++ F) (deadf_nonneg o)). lia. }
  assert (forall o ob', objs x' !! o = Some ob' -> (exists ob, objs x !! o = Some ob) \/ o = next_o x) as Hwhere.
  { intros o ob' Ho'. destruct (objs x !! o) as [ob|] eqn:Ho; [left; by exists ob|]. right.
    destruct (Hnone _ Ho) as [Hn|(-> & _)]; [congruence|done]. }
  assert (store x !! next_o x = None) as Hsn.
  { destruct (store x !! next_o x) eqn:Hs; [|done]. apply (u_store _ _ I4) in Hs. lia. }
  (* rows with a hash: old ones, or the new one *)
  assert (forall o ob' h, objs x' !! o = Some ob' -> o_hash ob' = Some h ->
    (exists ob, objs x !! o = Some ob /\ o_hash ob = Some h) \/
    (o = next_o x /\ store x' !! o = None /\ (exists e r, pre = [FSha e r]) /\ o ∈ inflight x' /\ obj_by_hash h x = None)) as Hhash.
  { intros o ob' h Ho' Hh. destruct (objs x !! o) as [ob|] eqn:Ho.
    - left. exists ob. split; [done|]. destruct (Hsome _ _ Ho) as [(ob2 & Ho2 & _ & Hhh & _)|[Hn _]]; [|congruence]. simplify_eq.
      destruct Hhh; congruence.
    - right. destruct (Hnone _ Ho) as [Hn|(-> & _ & e & r & -> & -> & Ho2 & Hbh & _)]; [congruence|]. simplify_eq. simpl in Hh. simplify_eq.
      split; [done|]. split.
      { destruct (store x' !! next_o x) as [c|] eqn:Hc; [|done]. destruct (Hnewstore _ _ Hc Hsn) as (e' & He' & _). done. }
      split; [eauto|]. split; [|done].
      pose proof (act_inflight _ _ _ _ _ _ Hact I3 ltac:(intros; by eapply inflight_lt) ltac:(intros ? ? Hx; apply elem_of_list_singleton in Hx; done) (next_o x)) as Hd.
      simpl in Hd. rewrite bool_decide_eq_true_2 in Hd by done. rewrite lsum_app, sends_deref, sends_resume in Hd.
      rewrite (bool_decide_eq_false_2 (next_o x ∈ inflight x)) in Hd.
      + destruct (bool_decide (next_o x ∈ inflight x')) eqn:Hb; [by apply bool_decide_eq_true in Hb|simpl in Hd; lia].
      + intros Hi. apply (inflight_lt _ _ _ I3 I4) in Hi. lia. }
  split.
  - (* u_send *)
    intros e o Hin. apply elem_of_app in Hin as [Hin|Hin].
    + destruct (post_send _ _ _ _ _ _ _ _ Hact I3 Hin) as [Hpre|(-> & Hon & Hos)].
      * destruct (u_send _ _ I4 e o) as (Hb & Hst & ob & Ho & Hoh & Hop); [set_solver|].
        destruct (utarget_send _ _ _ _ _ _ _ Hact Hpre) as [Hu|(_ & Es & Ep & Eo & Eb & Ee)].
        { destruct (utarget_some _ _ _ _ _ _ Hact Hu) as (e' & -> & -> & _). apply elem_of_list_singleton in Hin. done. }
        rewrite Es, Eb, Eo. split; [done|]. split; [done|]. exists ob. unfold ent. by rewrite Ee.
      * destruct (Hnone _ Hon) as [Hn|(_ & _ & e1 & r & -> & -> & Ho2 & Hbh & Hent & Hblk)]; [congruence|].
        apply elem_of_cons in Hin as [Heq|Hin].
        2:{ apply elem_of_app in Hin as [Hin|Hin]; [by apply FSend_not_deref in Hin|by apply FSend_not_resume in Hin]. }
        simplify_eq. split; [done|]. split.
        { destruct (store x' !! next_o x) as [c|] eqn:Hc; [|done]. destruct (Hnewstore _ _ Hc Hsn) as (e' & He' & _). done. }
        eexists. split; [done|]. simpl. by rewrite Hent.
    + destruct (u_send _ _ I4 e o) as (Hb & Hst & ob & Ho & Hoh & Hop); [set_solver|].
      assert (Some e.1 <> touch l pre) as Hoff. { eapply other_holder; [done|apply I2|done|done]. }
      rewrite G2 by done. split; [done|].
      assert (Some o <> utarget l pre) as Hnu.
      { intros Hu. symmetry in Hu. destruct (utarget_some _ _ _ _ _ _ Hact Hu) as (e' & -> & _). by eapply sends_unique. }
      split.
      { destruct (store x' !! o) as [c|] eqn:Hc; [|done]. destruct (Hnewstore _ _ Hc Hst) as (e' & -> & _). exfalso. by eapply sends_unique. }
      destruct (Hsome _ _ Ho) as [(ob2 & Ho2 & Hsm & _)|(Hn & -> & Hr1 & _)].
      * exists ob2. specialize (Hsm Hnu) as [-> ->]. rewrite G3 by done. done.
      * exfalso. pose proof (r_count _ _ I3 o) as Hc. unfold oref in Hc. rewrite Ho, Hr1 in Hc. pose proof (nblocks_pos _ _ _ Hb).
        simpl in Hc. rewrite bool_decide_eq_true_2 in Hc by done. simpl in Hc.
        pose proof (lsum_nonneg (isderef o) F (isderef_nonneg o)). lia.
  - intros o. pose proof (act_inflight _ _ _ _ _ _ Hact I3 ltac:(intros; by eapply inflight_lt)
      ltac:(intros ? ? Hx; eapply send_inflight; [exact I4|apply elem_of_app; by left]) o).
    pose proof (u_inflight _ _ I4 o). rewrite lsum_app in *. lia.
  - intros o. pose proof (u_dead _ _ I4 o). pose proof (cnt_nonneg o (removing x)).
    destruct (act_dead _ _ _ _ _ _ o Hact I3) as [(_ & Hd & _)|[(_ & Hd & _)|(_ & ob & _ & Ho & _ & Hd & _)]]; try lia.
    destruct (decide (0 < dead x (pre ++ F) o)%Z) as [Hp|Hp]; [|lia]. apply (u_row _ _ I4) in Hp as [? _]. congruence.
  - intros o Hp. pose proof (cnt_nonneg o (removing x)).
    assert ((0 < dead x (pre ++ F) o)%Z \/ (exists ob, objs x !! o = Some ob /\ objs x' !! o = None)) as [Hd|(ob & Ho & Hn)].
    { destruct (act_dead _ _ _ _ _ _ o Hact I3) as [(_ & Hd & _)|[(_ & Hd & _)|(_ & ob & _ & Ho & Hn & Hd & _)]]; [left; lia|left; lia|right; eauto]. }
    + apply (u_row _ _ I4) in Hd as [Hn Hlt]. split; [|lia]. destruct (Hnone _ Hn) as [?|(-> & _)]; [done|lia].
    + split; [done|]. apply (r_pos _ _ I3) in Ho as [_ ?]. lia.
  - intros o c Hc. destruct (store x !! o) as [c0|] eqn:Hs.
    + apply (u_store _ _ I4) in Hs. lia.
    + destruct (Hnewstore _ _ Hc Hs) as (e & -> & _). destruct (u_send _ _ I4 e o) as (_ & _ & ob & Ho & _); [set_solver|].
      apply (r_pos _ _ I3) in Ho as [_ ?]. lia.
  - intros o ob' Ho' Hp'. destruct (objs x !! o) as [ob|] eqn:Ho.
    + destruct (Hsome _ _ Ho) as [(ob2 & Ho2 & Hsm & _)|[Hn _]]; [|congruence]. simplify_eq.
      destruct (decide (Some o = utarget l pre)) as [Hu|Hu].
      * symmetry in Hu. destruct (utarget_some _ _ _ _ _ _ Hact Hu) as (e & -> & _ & _ & [(_ & Hst & _)|(_ & Heo)]); [by rewrite Hst|].
        rewrite Heo, lookup_alter, Ho in Ho'. simpl in Ho'. simplify_eq. simpl in Hp'.
        eapply Hkeep; [done|]. by eapply (u_phys _ _ I4).
      * specialize (Hsm Hu) as [_ Hph]. eapply Hkeep; [done|]. eapply (u_phys _ _ I4); [done|]. congruence.
    + destruct (Hnone _ Ho) as [Hn|(-> & _ & e & r & -> & -> & Ho2 & _)]; [congruence|]. by simplify_eq.
  - intros o Hp. pose proof (cnt_nonneg o (removing x)).
    assert (del x (pre ++ F) o <= 1)%Z as Hle by (pose proof (del_le x (pre ++ F) o); pose proof (u_dead _ _ I4 o); lia).
    destruct (act_dead _ _ _ _ _ _ o Hact I3) as [(-> & _ & Hd)|[(Hl & _ & Hd)|(Hl & ob & Epre & Ho & Hn & _ & Hd)]].
    + assert (0 < del x (pre ++ F) o)%Z as Hp0 by lia. apply (u_del _ _ I4) in Hp0.
      destruct (act_store _ _ _ _ _ _ _ _ o Hact) as [Hst|[(_ & Hin & _)|(e & _ & _ & Hst)]]; [by rewrite Hst| |by rewrite Hst].
      apply cnt_elem in Hin. lia.
    + rewrite Hd in Hp. apply (u_del _ _ I4) in Hp.
      destruct (act_store _ _ _ _ _ _ _ _ o Hact) as [Hst|[(-> & _)|(e & _ & _ & Hst)]]; [by rewrite Hst|done|by rewrite Hst].
    + assert (store x !! o <> None) as Hs0.
      { destruct (o_phys ob) as [n|] eqn:Hph; simpl in Hd.
        - eapply (u_phys _ _ I4); [done|]. congruence.
        - rewrite Z.add_0_r in Hd. rewrite Hd in Hp. by apply (u_del _ _ I4) in Hp. }
      eapply Hkeep; done.
  - intros o1 o2 ob1 ob2 h Ho1 Ho2 Hh1 Hh2.
    destruct (Hhash _ _ _ Ho1 Hh1) as [(p1 & Hp1 & Hq1)|(-> & _ & _ & _ & Hn1)], (Hhash _ _ _ Ho2 Hh2) as [(p2 & Hp2 & Hq2)|(-> & _ & _ & _ & Hn2)].
    + by eapply (h_uniq _ _ I4).
    + by apply (obj_by_hash_None _ _ _ _ Hn2) in Hp1.
    + by apply (obj_by_hash_None _ _ _ _ Hn1) in Hp2.
    + done.
  - intros o ob' h c Ho' Hh' Hc. destruct (Hhash _ _ _ Ho' Hh') as [(ob & Ho & Hh)|(-> & Hs & _)]; [|congruence].
    destruct (store x !! o) as [c0|] eqn:Hs.
    + assert (c0 = c) as ->; [|by eapply (h_store _ _ I4)].
      destruct (act_store _ _ _ _ _ _ _ _ o Hact) as [Hst|[(_ & _ & Hst)|(e & _ & -> & Hst)]]; [congruence|congruence|].
      destruct (u_send _ _ I4 e o) as (_ & Hs2 & _); [set_solver|]. congruence.
    + destruct (Hnewstore _ _ Hc Hs) as (e & -> & ->). destruct (u_send _ _ I4 e o) as (_ & _ & ob2 & Ho2 & Hh2 & _); [set_solver|].
      congruence.
  - intros o ob' h Ho' Hh' Hni. destruct (Hhash _ _ _ Ho' Hh') as [(ob & Ho & Hh)|(-> & _ & _ & Hi & _)]; [|done].
    destruct (decide (o ∈ inflight x)) as [Hi|Hi].
    + (* the upload has ended *)
      destruct (decide (Some o = utarget l pre)) as [Hu|Hu].
      * symmetry in Hu. destruct (utarget_some _ _ _ _ _ _ Hact Hu) as (e & -> & _ & _ & [(_ & Hst & _)|(_ & Heo)]); [by rewrite Hst|].
        rewrite Heo, lookup_alter, Ho in Ho'. simpl in Ho'. by simplify_eq.
      * exfalso. pose proof (act_inflight _ _ _ _ _ _ Hact I3 ltac:(intros; by eapply inflight_lt)
          ltac:(intros ? ? Hx; eapply send_inflight; [exact I4|apply elem_of_app; by left]) o) as Hd.
        rewrite (bool_decide_eq_true_2 (o ∈ inflight x)) in Hd by done. rewrite (bool_decide_eq_false_2 (o ∈ inflight x')) in Hd by done.
        simpl in Hd. pose proof (lsum_nonneg (sends o) post (sends_nonneg o)).
        destruct (lsum_pos (sends o) pre) as (f & Hf & Hp); [lia|]. destruct f; simpl in Hp; try lia.
        destruct (bool_decide (o0 = o)) eqn:Hb; [|simpl in Hp; lia]. apply bool_decide_eq_true in Hb as ->.
        destruct (utarget_send _ _ _ _ _ _ _ Hact Hf) as [?|(Hif & _)]; [congruence|]. rewrite Hif in Hni. done.
    + eapply Hkeep; [done|]. by eapply (h_stored _ _ I4).
Qed.

(** ** No leak, unless an upload fails that has stored the object. *)
Definition noleak x (F : list frame) : Prop := forall o c, store x !! o = Some c ->
  (exists ob, objs x !! o = Some ob /\ o_phys ob <> None) \/ (0 < del x F o)%Z.
Lemma noleak_act l x pre x' post F : act l x pre x' post -> (forall j, l <> LFailed j true) ->
  inv3 x (pre ++ F) -> inv4 x (pre ++ F) -> noleak x (pre ++ F) -> noleak x' (post ++ F).
Proof.
  intros Hact Hl I3 I4 HN o c Hc. destruct (act_objs _ _ _ _ _ _ _ _ _ Hact I3) as (Hsome & Hnone & Hnext).
  assert ((store x !! o = Some c) \/ exists e, pre = [FSend e o] /\ exists j, l = LUploaded j) as [Hold|(e & -> & j & ->)].
  { destruct (act_store _ _ _ _ _ _ _ _ o Hact) as [Hst|[(_ & _ & Hst)|(e & (j & [-> | ->]) & -> & Hst)]].
    - left. congruence.
    - congruence.
    - right. eauto.
    - by specialize (Hl j). }
  - destruct (HN _ _ Hold) as [(ob & Ho & Hp)|Hd].
    + destruct (Hsome _ _ Ho) as [(ob2 & Ho2 & Hsm & _)|(Hn & -> & _ & ->)].
      * left. exists ob2. split; [done|].
        destruct (decide (Some o = utarget l pre)) as [Hu|Hu].
        { symmetry in Hu. destruct (utarget_some _ _ _ _ _ _ Hact Hu) as (e & -> & _).
          destruct (u_send _ _ I4 e o) as (_ & Hs2 & _); [set_solver|]. congruence. }
        specialize (Hsm Hu) as [_ ->]. done.
      * right. rewrite bool_decide_eq_false_2 by done. unfold del. simpl. rewrite bool_decide_eq_true_2 by done. simpl.
        pose proof (lsum_nonneg (delf o) F (delf_nonneg o)). pose proof (cnt_nonneg o (rmq x')). pose proof (cnt_nonneg o (removing x')). lia.
    + right. destruct (act_dead _ _ _ _ _ _ o Hact I3) as [(-> & _ & Hd')|[(_ & _ & Hd')|(_ & ob & _ & _ & _ & _ & Hd')]].
      * assert (o ∉ removing x) as Hni.
        { intros Hin. inversion Hact; subst. assert (store (deleted x) !! o = None) as Hx; [|congruence].
          replace (store (deleted x)) with (foldr delete (store x) (removing x)) by (unfold deleted; by destruct (bool_decide _)).
          by rewrite foldr_delete, decide_True. }
        assert (cnt o (removing x) = 0)%Z; [|lia]. pose proof (cnt_nonneg o (removing x)).
        destruct (decide (0 < cnt o (removing x))%Z) as [Hp|]; [|lia]. by apply cnt_pos in Hp.
      * lia.
      * destruct (bool_decide _); simpl in Hd'; lia.
  - left. destruct (utarget_some _ _ _ _ _ o Hact) as (e' & _ & _ & _ & [(_ & _ & Heo)|((? & ? & ?) & _)]); [done| |done].
    destruct (u_send _ _ I4 e o) as (_ & _ & ob & Ho & _); [set_solver|].
    rewrite Heo, lookup_alter, Ho. simpl. eexists. split; [done|]. done.
Qed.
End inv.
