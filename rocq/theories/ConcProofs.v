(** Requests handled at the same time behave like requests on byte arrays *)
From stdpp Require Import prelude list gmap.
From Verif Require Import Files FilesFacts FileModel FileSpec FileProofs FloatModel FloatProofs ConcModel ConcSpec.

Section conc.
Context (bs : nat) (Hbs : 0 < bs).
Notation bat := (bat bs).

(** Bytes that a request in progress has already changed, or will change *)
Definition exempt1 (k : task) (ino p : nat) : Prop :=
  match k with
  | TRead _ _ _ _ => False
  | TWrite i off _ written => i = ino /\ off <= p < off + written
  | TTrunc i todo cut => i = ino /\ (p / bs ∈ todo \/ exists b c, cut = Some (b, c) /\ p / bs = b /\ c <= p mod bs)
  end.
Definition exempt (s : cstate) (ino p : nat) : Prop := exists t k, tasks s !! t = Some k /\ exempt1 k ino p.
(** How a request and the task that handles it fit together *)
Definition match1 (f : fstate) (w : world) (t : nat) (r : request) (k : task) : Prop :=
  match r, k with
  | RRead ino off len, TRead ino' off' n acc => ino' = ino /\ off' = off /\ exists data a, due w !! t = Some (AData data) /\ arrs w !! ino = Some a /\ length data = n /\ n <= len /\ acc `prefix_of` data /\
      (forall i, i < n -> byte_at a (off + i) = byte_at data i)
  | RWrite ino off buf, TWrite ino' off' buf' written => ino' = ino /\ off' = off /\ buf' = buf /\ written <= length buf /\ buf <> [] /\ below_limit (off + length buf) /\
      (forall p, off <= p < off + written -> bat f ino p = byte_at buf (p - off))
  | RTrunc ino len, TTrunc ino' todo cut => ino' = ino /\ due w !! t = Some ADone /\ exists a, arrs w !! ino = Some a /\ forall p, exempt1 k ino p -> length a <= p
  | _, _ => False
  end.
Record inv (s : cstate) (w : world) : Prop := {
  i_size : forall ino, sizes (fs s) !! ino = length <$> arrs w !! ino;
  i_lost : lost (fs s) = ∅;
  i_broken : broken (fs s) = ∅;
  i_failsafe : failsafe (fs s) = false;
  i_locked : locked (fs s) = ∅;
  i_none : forall t, tasks s !! t = None <-> flight w !! t = None;
  i_match : forall t r k, flight w !! t = Some r -> tasks s !! t = Some k -> match1 (fs s) w t r k;
  i_arr : forall t r, flight w !! t = Some r -> is_Some (arrs w !! file_of r);
  i_small : forall ino a, arrs w !! ino = Some a -> below_limit (length a);
  i_apart : forall t t' r r', t <> t' -> flight w !! t = Some r -> flight w !! t' = Some r' -> compatible r r';
  i_bytes : forall ino a p, arrs w !! ino = Some a -> ~ exempt s ino p -> bat (fs s) ino p = byte_at a p;
  i_fresh : forall ino b, arrs w !! ino = None -> blks (fs s) !! (ino, b) = None
}.
Lemma compatible_sym r1 r2 : compatible r1 r2 -> compatible r2 r1.
Proof. intros [H|H]; [left; auto|right]. destruct r1, r2; unfold apart in *; tauto. Qed.

Lemma inv_init : inv cinit (World ∅ ∅ ∅).
Proof. split; cbn; intros; rewrite ?lookup_empty in *; try done. Qed.

Definition answer_right (w : world) (a : option (nat * answer)) : Prop := match a with Some (t, r) => due w !! t = Some r | None => True end.

Lemma bat_create f ino : forall i p, bat (set_sizes (insert ino 0) f) i p = bat f i p.
Proof. done. Qed.
Lemma step_new s w ino s' a : inv s w -> cstep bs s (New ino) = Some (s', a) -> inv s' (wstep w (New ino)) /\ answer_right (wstep w (New ino)) a.
Proof.
  intros I E. cbn in E. unfold do_create in E. rewrite (i_failsafe _ _ I) in E. destruct (sizes (fs s) !! ino) eqn:Es; [done|]. injection E as <- <-. split; [|done].
  assert (An : arrs w !! ino = None). { rewrite (i_size _ _ I) in Es. by destruct (arrs w !! ino). }
  split; cbn; try apply I.
  - intros i. destruct (decide (i = ino)) as [->|Hn]; [by rewrite !lookup_insert|]. rewrite !lookup_insert_ne by done. apply I.
  - intros t r k Hf Ht. pose proof (i_match _ _ I t r k Hf Ht) as M. pose proof (i_arr _ _ I t r Hf) as [x A].
    destruct r as [i off len|i off buf|i len], k as [i' off' n acc|i' off' buf' wr|i' todo cut]; cbn in *; try done.
    + destruct M as (-> & -> & data & a & M1 & M2 & M3). split; [done|]. split; [done|]. exists data, a. split; [done|]. split; [|done]. rewrite lookup_insert_ne; [done|]. congruence.
    + destruct M as (-> & M1 & a & M2 & M3). split; [done|]. split; [done|]. exists a. split; [|done]. rewrite lookup_insert_ne; [done|]. congruence.
  - intros t r Hf. destruct (i_arr _ _ I t r Hf) as [x A]. destruct (decide (file_of r = ino)) as [->|Hn]; [by rewrite lookup_insert; eauto | rewrite lookup_insert_ne by done; eauto].
  - intros i a [(-> & <-)|(Hn & Ha)]%lookup_insert_Some; [cbn; unfold below_limit; lia | by eapply I].
  - intros i a p [(-> & <-)|(Hn & Ha)]%lookup_insert_Some He; [|by eapply I]. unfold FileProofs.bat, content. cbn. rewrite (i_fresh _ _ I) by done. cbn. unfold byte_at. by destruct (p mod bs), p.
  - intros i b Ha. apply (i_fresh _ _ I). by apply lookup_insert_None in Ha as [Ha _].
Qed.

(** ** Frames *)
Definition rest_exempt (m : gmap nat task) (t ino p : nat) : Prop := exists t' k, t' <> t /\ m !! t' = Some k /\ exempt1 k ino p.
Lemma exempt_insert f m t k ino p : exempt (CState f (<[t := k]> m)) ino p <-> exempt1 k ino p \/ rest_exempt m t ino p.
Proof.
  split.
  - intros (t' & k' & Ht & He). cbn in Ht. apply lookup_insert_Some in Ht as [(<- & <-)|(Hn & Ht)]; [by left|right; exists t', k'; auto].
  - intros [He|(t' & k' & Hn & Ht & He)]; [exists t, k; cbn; by rewrite lookup_insert | exists t', k'; cbn; by rewrite lookup_insert_ne by done].
Qed.
Lemma exempt_delete f m t ino p : exempt (CState f (delete t m)) ino p <-> rest_exempt m t ino p.
Proof.
  split.
  - intros (t' & k' & Ht & He). cbn in Ht. apply lookup_delete_Some in Ht as [Hn Ht]. exists t', k'; auto.
  - intros (t' & k' & Hn & Ht & He). exists t', k'. cbn. by rewrite lookup_delete_ne by done.
Qed.
Lemma exempt_old s t k ino p : tasks s !! t = Some k -> exempt s ino p <-> exempt1 k ino p \/ rest_exempt (tasks s) t ino p.
Proof.
  intros Hk. split.
  - intros (t' & k' & Ht & He). destruct (decide (t' = t)) as [->|Hn]; [rewrite Hk in Ht; injection Ht as <-; by left|right; exists t', k'; auto].
  - intros [He|(t' & k' & Hn & Ht & He)]; [by exists t, k | by exists t', k'].
Qed.
Lemma exempt_none s t ino p : tasks s !! t = None -> exempt s ino p <-> rest_exempt (tasks s) t ino p.
Proof.
  intros Hk. split.
  - intros (t' & k' & Ht & He). exists t', k'. split; [congruence | done].
  - intros (t' & k' & Hn & Ht & He). by exists t', k'.
Qed.
Lemma match_file f w t r k ino p : match1 f w t r k -> exempt1 k ino p -> file_of r = ino.
Proof. destruct r, k; cbn; naive_solver. Qed.
Lemma match_range f w t ino off buf k p : match1 f w t (RWrite ino off buf) k -> exempt1 k ino p -> off <= p < off + length buf.
Proof. destruct k; cbn; [done | | done]. intros (-> & -> & -> & L & _) [_ H]. lia. Qed.
Lemma rest_compatible s w t r ino p : inv s w -> (forall t' r', t' <> t -> flight w !! t' = Some r' -> compatible r r') -> file_of r = ino -> rest_exempt (tasks s) t ino p ->
  match r with RRead _ off len => ~ off <= p < off + len | RWrite _ off buf => ~ off <= p < off + length buf | RTrunc _ _ => False end.
Proof.
  intros I C Hf (t' & k & Hn & Ht & He). destruct (flight w !! t') as [r'|] eqn:Hfl; [|by apply (i_none _ _ I) in Hfl; congruence].
  pose proof (i_match _ _ I _ _ _ Hfl Ht) as M. pose proof (match_file _ _ _ _ _ _ _ M He) as Hf'. destruct (C _ _ Hn Hfl) as [|C']; [congruence|].
  destruct r' as [| i off buf |].
  - destruct k; cbn in M; try done.
  - cbn in Hf'. subst i. pose proof (match_range _ _ _ _ _ _ _ _ M He). destruct r; unfold apart in C'; cbn in *; lia.
  - by destruct r.
Qed.
(** Matching survives if what it refers to does *)
Lemma match_frame f f' w w' t r k : match1 f w t r k -> due w' !! t = due w !! t ->
  (forall a, arrs w !! file_of r = Some a -> exists a', arrs w' !! file_of r = Some a' /\ match r with RRead _ off len => forall p, off <= p < off + len -> byte_at a' p = byte_at a p | RTrunc _ _ => a' = a | _ => True end) ->
  (forall i off buf p, r = RWrite i off buf -> off <= p < off + length buf -> bat f' i p = bat f i p) -> match1 f' w' t r k.
Proof.
  intros M Hd Ha Hb. destruct r as [i off len|i off buf|i len], k as [i' off' n acc|i' off' buf' wr|i' todo cut]; cbn in M; try done.
  - destruct M as (-> & -> & data & a & M1 & M2 & M3 & M4 & M5 & M6). destruct (Ha a M2) as (a' & A1 & A2). split; [done|]. split; [done|]. exists data, a'. split_and!; try done; [congruence|]. intros j Hj. rewrite A2 by lia. by apply M6.
  - destruct M as (-> & -> & -> & M1 & M2 & M3 & M4). split_and!; try done. intros p Hp. rewrite (Hb i off buf) by (done || lia). by apply M4.
  - destruct M as (-> & M1 & a & M2 & M3). destruct (Ha a M2) as (a' & A1 & ->). split; [done|]. split; [congruence|]. by exists a.
Qed.
Lemma match_same f f' w w' t r k : match1 f w t r k -> due w' !! t = due w !! t -> arrs w' !! file_of r = arrs w !! file_of r ->
  (forall i off buf p, r = RWrite i off buf -> off <= p < off + length buf -> bat f' i p = bat f i p) -> match1 f' w' t r k.
Proof. intros M Hd Ha Hb. eapply match_frame; [exact M | done | | done]. intros a A. exists a. split; [congruence|]. by destruct r. Qed.

Lemma step_begin s w t r s' a : inv s w -> polite w (Begin t r) -> cstep bs s (Begin t r) = Some (s', a) -> inv s' (wstep w (Begin t r)) /\ answer_right (wstep w (Begin t r)) a.
Proof.
  intros I (P1 & P2 & [x P3] & P4 & P5) E. cbn in E. assert (Tn : tasks s !! t = None) by by apply (i_none _ _ I). rewrite Tn in E. injection E as E.
  assert (Hsz : sizes (fs s) !! file_of r = Some (length x)) by (rewrite (i_size _ _ I), P3; done).
  assert (Nn : forall (k : task) (r : request) t', <[t:=k]> (tasks s) !! t' = None <-> <[t:=r]> (flight w) !! t' = None).
  { intros k r0 t'. rewrite !lookup_insert_None. pose proof (i_none _ _ I t'). tauto. }
  assert (C' : forall t1 t2 r1 r2, t1 <> t2 -> <[t:=r]> (flight w) !! t1 = Some r1 -> <[t:=r]> (flight w) !! t2 = Some r2 -> compatible r1 r2).
  { intros t1 t2 r1 r2 Hn [(<- & <-)|(Hn1 & H1)]%lookup_insert_Some [(<- & <-)|(Hn2 & H2)]%lookup_insert_Some; [done | by eapply P4 | apply compatible_sym; by eapply P4 | by apply (i_apart _ _ I t1 t2)]. }
  assert (Cr : forall t' r', t' <> t -> flight w !! t' = Some r' -> compatible r r') by (intros; by eapply P4).
  destruct r as [ino off len|ino off buf|ino len]; cbn in Hsz, E, P3; rewrite Hsz in E.
  - injection E as <- <-. split; [|done]. split; cbn; try apply I; [apply Nn| | |exact C'|].
    + intros t' r' k [(<- & <-)|(Hn & H1)]%lookup_insert_Some Hk.
      * rewrite lookup_insert in Hk. injection Hk as <-. cbn. split; [done|]. split; [done|]. rewrite P3. cbn. exists (fread off len x), x. rewrite lookup_insert, length_fread. split; [done|]. split; [done|]. split; [lia|]. split; [lia|]. split; [by exists (fread off len x)|].
        intros i Hi. by rewrite byte_at_fread, decide_True by lia.
      * rewrite lookup_insert_ne in Hk by done. eapply match_same; [by eapply I | cbn; by rewrite lookup_insert_ne | done | done].
    + intros t' r' [(<- & <-)|(Hn & H1)]%lookup_insert_Some; [cbn; eauto | by eapply I].
    + intros i a p Ha He. eapply (i_bytes _ _ I); [done|]. intros X. apply He. apply exempt_insert. right. by apply (exempt_none _ t) in X.
  - rewrite decide_False in E by (rewrite (i_failsafe _ _ I), (i_locked _ _ I); set_solver). injection E as <- <-. split; [|done]. split; cbn; try apply I; [apply Nn| | |exact C'|].
    + intros t' r' k [(<- & <-)|(Hn & H1)]%lookup_insert_Some Hk.
      * rewrite lookup_insert in Hk. injection Hk as <-. cbn. destruct P5. split_and!; try done; lia.
      * rewrite lookup_insert_ne in Hk by done. eapply match_same; [by eapply I | done..].
    + intros t' r' [(<- & <-)|(Hn & H1)]%lookup_insert_Some; [cbn; eauto | by eapply I].
    + intros i a p Ha He. eapply (i_bytes _ _ I); [done|]. intros X. apply He. apply exempt_insert. right. by apply (exempt_none _ t) in X.
  - rewrite decide_False in E by (rewrite (i_failsafe _ _ I), (i_locked _ _ I); set_solver). injection E as <- <-. split; [|done]. cbn [wstep].
    assert (Hsm : below_limit (length x)) by by eapply (i_small _ _ I).
    pose proof (dm bs Hbs len) as [L1 L2].
    split; cbn; try apply I; [|apply Nn| | | |exact C'| |].
    + intros i. destruct (decide (i = ino)) as [->|Hn]; [|by rewrite lookup_insert_ne, lookup_alter_ne by done; apply I]. rewrite lookup_insert, lookup_alter, P3. cbn. by rewrite length_ftrunc.
    + intros t' r' k [(<- & <-)|(Hn & H1)]%lookup_insert_Some Hk.
      * rewrite lookup_insert in Hk. injection Hk as <-. cbn. rewrite lookup_insert, lookup_alter, P3. split; [done|]. split; [done|]. exists (ftrunc len x). split; [done|]. rewrite length_ftrunc. intros p [_ [Hp|(b & c & Hc & Hb & Hp)]].
        -- unfold removed_blocks in Hp. apply elem_of_list_to_set, elem_of_seq in Hp. pose proof (dm bs Hbs p). case_decide; nia.
        -- case_decide; [done|]. injection Hc as <- <-. pose proof (dm bs Hbs p). nia.
      * rewrite lookup_insert_ne in Hk by done. destruct (Cr t' r') as [Hf|Hf]; [done | done | | by destruct r'].
        eapply match_same; [by eapply I | cbn; by rewrite lookup_insert_ne | cbn; by rewrite lookup_alter_ne | done].
    + intros t' r' [(<- & <-)|(Hn & H1)]%lookup_insert_Some; [cbn; rewrite lookup_alter, P3; by eexists|]. rewrite lookup_alter_is_Some. by eapply I.
    + intros i a. destruct (decide (i = ino)) as [->|Hn]; [rewrite lookup_alter, P3; intros [= <-]; by rewrite length_ftrunc | rewrite lookup_alter_ne by done; apply I].
    + intros i a p Ha He. rewrite exempt_insert in He. change (bat (set_sizes <[ino:=len]> (fs s)) i p) with (bat (fs s) i p). destruct (decide (i = ino)) as [->|Hn].
      * rewrite lookup_alter, P3 in Ha. injection Ha as <-. rewrite byte_at_ftrunc. rewrite (i_bytes _ _ I ino x) by (try done; rewrite (exempt_none _ t) by done; tauto).
        destruct (decide (p < len)) as [Hp|Hp]; [done|]. destruct (decide (p < length x)) as [Hx|Hx]; [|apply byte_at_ge; lia]. exfalso. apply He. left. cbn. split; [done|].
        pose proof (dm bs Hbs p) as [D1 D2]. pose proof (div_lt_ceil bs Hbs p (length x) Hx) as D3. unfold removed_blocks. rewrite elem_of_list_to_set, elem_of_seq. rewrite (float_ceil_exact (length x) bs) by (done || lia). fold (ceil_div (length x) bs).
        destruct (decide (len mod bs = 0)) as [Hz|Hz]; [left; nia|]. destruct (decide (p / bs = len / bs)) as [Hq|Hq]; [right; exists (len / bs), (len mod bs); split_and!; try done; nia | left; nia].
      * rewrite lookup_alter_ne in Ha by done. apply (i_bytes _ _ I i a); [done|]. rewrite (exempt_none _ t) by done. tauto.
    + intros i b. rewrite lookup_alter_None. apply I.
Qed.

(** ** One block *)
Lemma content_same f k k' : content (set_blks (insert k (content f k)) f) k' = content f k'.
Proof. unfold content. cbn. destruct (decide (k = k')) as [->|Hn]; [by rewrite lookup_insert | by rewrite lookup_insert_ne]. Qed.
Lemma content_insert f k c k' : content (set_blks (insert k c) f) k' = if decide (k = k') then c else content f k'.
Proof. unfold content. cbn. case_decide as Hn; [subst; by rewrite lookup_insert | by rewrite lookup_insert_ne]. Qed.
Lemma same_flight s w t r k (k' : task) t' : inv s w -> flight w !! t = Some r -> tasks s !! t = Some k -> <[t:=k']> (tasks s) !! t' = None <-> flight w !! t' = None.
Proof. intros I Hf Ht. rewrite lookup_insert_None, (i_none _ _ I). split; [tauto|]. intros. split; [done|]. congruence. Qed.

Lemma step_work s w t s' a : inv s w -> cstep bs s (Work t) = Some (s', a) -> inv s' w /\ answer_right w a.
Proof.
  intros I E. cbn in E. unfold work in E. destruct (tasks s !! t) as [k|] eqn:Ht; [|done]. destruct (flight w !! t) as [r|] eqn:Hf; [|by apply (i_none _ _ I) in Hf; congruence].
  pose proof (i_match _ _ I _ _ _ Hf Ht) as M. assert (Cr : forall t' r', t' <> t -> flight w !! t' = Some r' -> compatible r r') by (intros; by apply (i_apart _ _ I t t')).
  destruct (i_arr _ _ I _ _ Hf) as [x Hx]. assert (Lb : forall b, lost (fs s) !! b = None) by (intros; rewrite (i_lost _ _ I); apply lookup_empty). assert (Bb : forall b, b ∉ broken (fs s)) by (rewrite (i_broken _ _ I); set_solver).
  destruct k as [ino' off' n acc|ino' off' buf' wr|ino' todo cut].
  - destruct r as [ino off len| |]; cbn in M; try done. destruct M as (-> & -> & data & x' & M1 & M2 & M3 & M4 & M5 & M6). cbn in Hx. rewrite Hx in M2. injection M2 as <-.
    case_decide as Hz; [done|]. destruct (readwrite_read_spec bs Hbs (fs s) ino (off + length acc) (n - length acc)) as [(l & E1 & _ & L1 & _ & L2)|(L & _)]; [lia| |by destruct (Bb (ino, (off + length acc) / bs)); apply L].
    rewrite E1 in E. injection E as <- <-. split; [|done]. set (kk := (ino, (off + length acc) / bs)) in *.
    assert (Sb : forall i p, bat (set_blks (insert kk (content (fs s) kk)) (fs s)) i p = bat (fs s) i p) by (intros i p; unfold FileProofs.bat; by rewrite content_same).
    split; cbn; try apply I.
    + intros t'. by eapply same_flight.
    + intros t' r' k' Hf' [(<- & <-)|(Hn & Hk)]%lookup_insert_Some; [|eapply match_same; [by eapply (i_match _ _ I) | done | done | intros; apply Sb]]. rewrite Hf in Hf'. injection Hf' as <-. cbn. split; [done|]. split; [done|]. exists data, x. split; [done|]. split; [done|]. split; [done|]. split; [done|]. split; [|done].
      destruct M5 as [z ->]. apply prefix_app. exists (drop (length l) z). rewrite app_length in M3. rewrite <- (take_drop (length l) z) at 1. f_equal. apply file_ext; rewrite take_length; [lia|]. intros i Hi.
      rewrite byte_at_take, decide_True by lia. rewrite L2 by lia. rewrite (i_bytes _ _ I ino x); [|done|].
      * replace (off + length acc + i) with (off + (length acc + i)) by lia. rewrite M6 by lia. rewrite byte_at_app, decide_False by lia. f_equal. lia.
      * intros X. apply (exempt_old _ _ _ _ _ Ht) in X as [[]|X]. apply (rest_compatible _ _ _ (RRead ino off len) ino _ I Cr eq_refl) in X. lia.
    + intros i y p Ha He. rewrite Sb. apply (i_bytes _ _ I i y); [done|]. intros X. apply He. apply exempt_insert. apply (exempt_old _ _ _ _ _ Ht) in X as [[]|X]. by right.
    + intros i b Hi. rewrite lookup_insert_ne by (unfold kk; congruence). by apply I.
  - destruct r as [|ino off buf|]; cbn in M; try done. destruct M as (-> & -> & -> & M1 & M2 & M3 & M4). case_decide as Hz; [done|]. cbn in Hx.
    destruct (readwrite_write_spec bs Hbs (fs s) ino (off + wr) (drop wr buf) Hz) as [(n & f' & E1 & L1 & _ & (c & -> & _) & _ & L2)|(L & _)]; [|by destruct (Bb (ino, (off + wr) / bs)); apply L].
    rewrite E1 in E. injection E as <- <-. split; [|done]. rewrite drop_length in L1. set (kk := (ino, (off + wr) / bs)) in *.
    split; cbn; try apply I.
    + intros t'. by eapply same_flight.
    + intros t' r' k' Hf' [(<- & <-)|(Hn & Hk)]%lookup_insert_Some.
      * rewrite Hf in Hf'. injection Hf' as <-. cbn. split_and!; try done; [lia|]. intros p Hp. rewrite L2. destruct (decide (p < off + wr)); [rewrite decide_False by lia; apply M4; lia|]. rewrite decide_True by lia. rewrite byte_at_drop. f_equal. lia.
      * eapply match_same; [by eapply (i_match _ _ I) | done | done|]. intros i o b p -> Hp. rewrite L2. rewrite decide_False; [done|]. intros (-> & Hp').
        destruct (Cr t' _ (not_eq_sym Hn) Hf') as [X|X]; [done|]. unfold apart in X. lia.
    + intros i y p Ha He. rewrite exempt_insert in He. cbn in He. rewrite L2. rewrite decide_False by (intros [-> Hp]; apply He; left; split; [done | lia]). apply (i_bytes _ _ I i y); [done|]. intros X. apply (exempt_old _ _ _ _ _ Ht) in X as [[-> X]|X]; apply He; [left; split; [done | lia] | by right].
    + intros i b Hi. rewrite lookup_insert_ne by (unfold kk; congruence). by apply I.
  - destruct r as [| |ino len]; cbn in M; try done. destruct M as (-> & M1 & x' & M2 & M3). cbn in Hx. rewrite Hx in M2. injection M2 as <-.
    destruct cut as [[b c]|]; [|done]. case_decide as Hz; [subst todo|done]. rewrite Lb in E. injection E as <- <-. split; [|done].
    assert (Sb : forall i p, bat (set_blks (insert (ino, b) (ftrunc c (content (fs s) (ino, b)))) (fs s)) i p = if decide (i = ino /\ p / bs = b /\ c <= p mod bs) then 0 else bat (fs s) i p).
    { intros i p. unfold FileProofs.bat. rewrite content_insert. destruct (decide ((ino, b) = (i, p / bs))) as [[= <- ->]|Hn]; [rewrite byte_at_ftrunc; repeat case_decide; lia || done|]. rewrite decide_False; [done|]. naive_solver. }
    split; cbn; try apply I.
    + intros t'. by eapply same_flight.
    + intros t' r' k' Hf' [(<- & <-)|(Hn & Hk)]%lookup_insert_Some.
      * rewrite Hf in Hf'. injection Hf' as <-. cbn. split; [done|]. split; [done|]. exists x. split; [done|]. intros p [_ [?|(? & ? & ? & _)]]; set_solver.
      * eapply match_same; [by eapply (i_match _ _ I) | done | done|]. intros i o bf p -> Hp. rewrite Sb. rewrite decide_False; [done|]. intros (-> & _). destruct (Cr t' _ (not_eq_sym Hn) Hf') as [X|X]; done.
    + intros i y p Ha He. rewrite exempt_insert in He. rewrite Sb. case_decide as Hp.
      * destruct Hp as (-> & Hp1 & Hp2). rewrite Hx in Ha. injection Ha as <-. symmetry. apply byte_at_ge, M3. split; [done|]. right. eauto.
      * apply (i_bytes _ _ I i y); [done|]. intros X. apply (exempt_old _ _ _ _ _ Ht) in X as [[-> [X|(b' & c' & [= <- <-] & X)]]|X]; [set_solver | tauto | tauto].
    + intros i b' Hi. rewrite lookup_insert_ne by congruence. by apply I.
Qed.
Lemma step_remove s w t b s' a : inv s w -> cstep bs s (Remove t b) = Some (s', a) -> inv s' w /\ answer_right w a.
Proof.
  intros I E. cbn in E. destruct (tasks s !! t) as [k|] eqn:Ht; [|done]. destruct (flight w !! t) as [r|] eqn:Hf; [|by apply (i_none _ _ I) in Hf; congruence].
  pose proof (i_match _ _ I _ _ _ Hf Ht) as M. assert (Cr : forall t' r', t' <> t -> flight w !! t' = Some r' -> compatible r r') by (intros; by apply (i_apart _ _ I t t')).
  destruct k as [| |ino' todo cut]; [done..|]. destruct r as [| |ino len]; cbn in M; try done. destruct M as (-> & M1 & x & M2 & M3). case_decide as Hb; [|done]. injection E as <- <-. split; [|done].
  assert (Sb : forall i p, bat (cache_remove (fs s) ino b (b + 1)) i p = if decide (i = ino /\ p / bs = b) then 0 else bat (fs s) i p).
  { intros i p. unfold FileProofs.bat, content. cbn [cache_remove blks]. case_decide as Hd.
    - destruct Hd as [-> ->]. rewrite (proj2 (map_filter_lookup_None _ _ _)); [by unfold byte_at; destruct (p mod bs)|]. right. intros c _ X. apply X. cbn. lia.
    - destruct (blks (fs s) !! (i, p / bs)) as [c|] eqn:Eb; [|].
      { erewrite (proj2 (map_filter_lookup_Some _ _ _ c)); [done|]. split; [done|]. cbn. lia. }
       rewrite (proj2 (map_filter_lookup_None _ _ _)); [done|]. by left. }
  split; cbn; try apply I.
  - rewrite (i_lost _ _ I). apply map_filter_empty.
  - intros t'. by eapply same_flight.
  - intros t' r' k' Hf' [(<- & <-)|(Hn & Hk)]%lookup_insert_Some.
    + rewrite Hf in Hf'. injection Hf' as <-. cbn. split; [done|]. split; [done|]. exists x. split; [done|]. intros p [_ [Hp|Hp]]; apply M3; (split; [done|]); [left; set_solver | by right].
    + eapply match_same; [by eapply (i_match _ _ I) | done | done|]. intros i o bf p -> Hp. rewrite Sb. rewrite decide_False; [done|]. intros (-> & _). destruct (Cr t' _ (not_eq_sym Hn) Hf') as [X|X]; done.
  - intros i y p Ha He. rewrite exempt_insert in He. rewrite Sb. case_decide as Hp.
    + destruct Hp as (-> & Hp1). rewrite M2 in Ha. injection Ha as <-. symmetry. apply byte_at_ge, M3. split; [done|]. left. by subst b.
    + apply (i_bytes _ _ I i y); [done|]. intros X. apply (exempt_old _ _ _ _ _ Ht) in X as [[-> [X|X]]|X]; apply He; [left; split; [done|]; left; set_solver | left; split; [done | by right] | by right].
  - intros i b' Hi. apply map_filter_lookup_None. left. by apply I.
Qed.
Lemma step_finish s w t s' a : inv s w -> cstep bs s (Finish t) = Some (s', a) -> inv s' (wstep w (Finish t)) /\ answer_right (wstep w (Finish t)) a.
Proof.
  intros I E. cbn in E. unfold finish in E. destruct (tasks s !! t) as [k|] eqn:Ht; [|done]. destruct (flight w !! t) as [r|] eqn:Hf; [|by apply (i_none _ _ I) in Hf; congruence]. cbn. rewrite Hf.
  pose proof (i_match _ _ I _ _ _ Hf Ht) as M. assert (Cr : forall t' r', t' <> t -> flight w !! t' = Some r' -> compatible r r') by (intros; by apply (i_apart _ _ I t t')).
  assert (Nn : forall t', delete t (tasks s) !! t' = None <-> delete t (flight w) !! t' = None). { intros t'. rewrite !lookup_delete_None. pose proof (i_none _ _ I t'). tauto. }
  assert (C' : forall t1 t2 r1 r2, t1 <> t2 -> delete t (flight w) !! t1 = Some r1 -> delete t (flight w) !! t2 = Some r2 -> compatible r1 r2).
  { intros t1 t2 r1 r2 Hn [_ H1]%lookup_delete_Some [_ H2]%lookup_delete_Some. by apply (i_apart _ _ I t1 t2). }
  assert (Simple : (forall ino p, ~ exempt1 k ino p) -> inv (CState (fs s) (delete t (tasks s))) (World (arrs w) (delete t (flight w)) (due w))).
  { intros Hx. split; cbn; try apply I; [exact Nn | | | exact C' |].
    - intros t' r' k' [Hn Hf']%lookup_delete_Some [_ Hk]%lookup_delete_Some. eapply match_same; [by eapply (i_match _ _ I) | done..].
    - intros t' r' [Hn Hf']%lookup_delete_Some. by eapply I.
    - intros i y p Ha He. rewrite exempt_delete in He. apply (i_bytes _ _ I i y); [done|]. intros X. apply (exempt_old _ _ _ _ _ Ht) in X as [X|X]; [by apply Hx in X | done]. }
  destruct k as [ino' off' n acc|ino' off' buf' wr|ino' todo cut]; case_decide as Hz; try done; injection E as <- <-.
  - destruct r as [ino off len| |]; cbn in M; try done. destruct M as (-> & -> & data & x' & M1 & M2 & M3 & M4 & [z ->] & M6). split; [apply Simple; intros ? ? []|]. cbn. rewrite app_length in M3. destruct z; [by rewrite M1, app_nil_r | cbn in *; lia].
  - destruct r as [|ino off buf|]; cbn in M; try done. destruct M as (-> & -> & -> & M1 & M2 & M3 & M4). apply (f_equal length) in Hz. rewrite drop_length in Hz. cbn in Hz. assert (wr = length buf) as -> by lia.
    destruct (i_arr _ _ I _ _ Hf) as [x Hx]. cbn in Hx. split; [|cbn; by rewrite lookup_insert]. split; cbn; try apply I; [|exact Nn| | | |exact C'| |].
    + intros i. destruct (decide (i = ino)) as [->|Hn]; [|rewrite !lookup_alter_ne by done; apply I]. rewrite !lookup_alter, (i_size _ _ I), Hx. cbn. rewrite length_fwrite, decide_False by done. done.
    + intros t' r' k' [Hn Hf']%lookup_delete_Some [_ Hk]%lookup_delete_Some. eapply match_frame; [by eapply (i_match _ _ I) | cbn; by rewrite lookup_insert_ne | | done]. intros y Hy. cbn.
      destruct (decide (file_of r' = ino)) as [Hi|Hi]; [|rewrite lookup_alter_ne by done; exists y; split; [done|]; by destruct r']. subst ino. rewrite lookup_alter, Hy. eexists. split; [reflexivity|].
      destruct (Cr t' _ (not_eq_sym Hn) Hf') as [X|X]; [done|]. destruct r' as [i o l|i o bf|i l]; [|done|done]. intros p Hp. rewrite byte_at_fwrite, decide_False; [done|]. unfold apart in X. lia.
    + intros t' r' [Hn Hf']%lookup_delete_Some. rewrite lookup_alter_is_Some. by eapply I.
    + intros i y. destruct (decide (i = ino)) as [->|Hn]; [|rewrite lookup_alter_ne by done; apply I]. rewrite lookup_alter, Hx. intros [= <-]. rewrite length_fwrite, decide_False by done. pose proof (i_small _ _ I _ _ Hx). unfold below_limit in *. lia.
    + intros i y p Ha He. rewrite exempt_delete in He. change (bat (set_sizes (alter (fun size : nat => size `max` (off + length buf)) ino) (fs s)) i p) with (bat (fs s) i p). destruct (decide (i = ino)) as [->|Hn].
      * rewrite lookup_alter, Hx in Ha. injection Ha as <-. rewrite byte_at_fwrite. case_decide as Hp; [by apply M4|]. apply (i_bytes _ _ I ino x); [done|]. intros X. apply (exempt_old _ _ _ _ _ Ht) in X as [[_ X]|X]; done.
      * rewrite lookup_alter_ne in Ha by done. apply (i_bytes _ _ I i y); [done|]. intros X. apply (exempt_old _ _ _ _ _ Ht) in X as [[X _]|X]; [congruence | done].
    + intros i b. rewrite lookup_alter_None. apply I.
  - destruct r as [| |ino len]; cbn in M; try done. destruct M as (-> & M1 & x & M2 & M3). destruct Hz as [-> ->]. split; [apply Simple; intros i p [_ [X|(? & ? & ? & _)]]; set_solver | done].
Qed.

(** ** Runs *)
Lemma step_inv s w e s' a : inv s w -> polite w e -> cstep bs s e = Some (s', a) -> inv s' (wstep w e) /\ answer_right (wstep w e) a.
Proof. destruct e; intros I P E; [by eapply step_begin | by eapply step_work | by eapply step_remove | by eapply step_finish | by eapply step_new]. Qed.
(** An answer that is due does not change any more *)
Definition writes_open (w : world) : Prop := forall t i off buf, flight w !! t = Some (RWrite i off buf) -> due w !! t = None.
Lemma open_step w e : writes_open w -> polite w e -> writes_open (wstep w e).
Proof.
  intros W P. destruct e as [t r|t|t b|t|ino]; try done.
  - destruct P as (P1 & P2 & _). intros t' i off buf. destruct r as [i' o l|i' o b|i' l]; cbn; intros [(<- & E)|(Hn & E)]%lookup_insert_Some; simplify_eq; rewrite ?lookup_insert_ne by done; eauto.
  - cbn. destruct (flight w !! t) as [[i' o l|i' o b|i' l]|] eqn:E; intros t' i off buf; cbn; intros [Hn E']%lookup_delete_Some; rewrite ?lookup_insert_ne by done; eauto.
Qed.
Lemma due_step w e t a : writes_open w -> polite w e -> due w !! t = Some a -> due (wstep w e) !! t = Some a.
Proof.
  intros W P D. destruct e as [t' r|t'|t' b|t'|ino]; try done.
  - destruct P as (P1 & P2 & _). assert (t <> t') by congruence. destruct r; cbn; rewrite ?lookup_insert_ne by done; done.
  - cbn. destruct (flight w !! t') as [[i' o l|i' o b|i' l]|] eqn:E; cbn; try done. rewrite lookup_insert_ne; [done|]. intros ->. apply W in E. congruence.
Qed.
Lemma due_run w evs t a : writes_open w -> all_polite w evs -> due w !! t = Some a -> due (foldl wstep w evs) !! t = Some a.
Proof. revert w. induction evs as [|e evs IH]; intros w W P D; [done|]. destruct P as [P1 P2]. cbn. apply IH; [by apply open_step | done | by apply due_step]. Qed.
Lemma run_inv s w evs s' l : inv s w -> writes_open w -> all_polite w evs -> crun bs s evs = Some (s', l) -> inv s' (foldl wstep w evs) /\ writes_open (foldl wstep w evs) /\ forall t a, (t, a) ∈ l -> due (foldl wstep w evs) !! t = Some a.
Proof.
  revert s w l. induction evs as [|e evs IH]; intros s w l I W P E; [cbn in E; injection E as <- <-; split; [done|]; split; [done|]; by intros t a ?%elem_of_nil|].
  destruct P as [P1 P2]. cbn in E. destruct (cstep bs s e) as [[s1 a1]|] eqn:E1; [|done]. destruct (crun bs s1 evs) as [[s2 l2]|] eqn:E2; [|done]. injection E as -> <-.
  destruct (step_inv _ _ _ _ _ I P1 E1) as [I1 A1]. pose proof (open_step _ _ W P1) as W1. destruct (IH _ _ _ I1 W1 P2 E2) as (I2 & W2 & A2). split; [done|]. split; [done|].
  intros t a [Ha|Ha]%elem_of_app; [|by apply A2]. cbn. destruct a1 as [[t1 a1]|]; [|by apply elem_of_nil in Ha]. apply elem_of_list_singleton in Ha as [= -> ->]. by apply due_run.
Qed.
Lemma crun_app s evs1 evs2 : crun bs s (evs1 ++ evs2) = match crun bs s evs1 with Some (s1, l1) => match crun bs s1 evs2 with Some (s2, l2) => Some (s2, l1 ++ l2) | None => None end | None => None end.
Proof.
  revert s. induction evs1 as [|e evs1 IH]; intros s; cbn; [by destruct (crun bs s evs2) as [[? ?]|]|]. destruct (cstep bs s e) as [[s1 a1]|]; [|done]. rewrite IH. destruct (crun bs s1 evs1) as [[s2 l2]|]; [|done]. destruct (crun bs s2 evs2) as [[s3 l3]|]; [|done]. by rewrite app_assoc.
Qed.
(** ** Reading when nothing else happens *)
Lemma quiet_read s w ino a off len : inv s w -> flight w = ∅ -> arrs w !! ino = Some a -> (do_read bs (fs s) ino off len).2 = Ok (fread off len a).
Proof.
  intros I Hq Ha. unfold do_read. rewrite (i_size _ _ I), Ha. cbn [fmap option_fmap option_map]. set (n := min (length a - off) len).
  destruct (read_loop_spec bs Hbs n (fs s) ino off n []) as (s1 & s2 & _ & [(l & -> & _ & Hl & _ & Hb)|(_ & _ & _ & p & _ & [X|X])]); [lia | rewrite (i_broken _ _ I); set_solver | | by rewrite (i_lost _ _ I), lookup_empty in X | rewrite (i_broken _ _ I) in X; set_solver].
  cbn. f_equal. apply file_ext; rewrite ?length_fread; [lia|]. intros i Hi. rewrite byte_at_fread, decide_True by lia. rewrite Hb by lia. apply (i_bytes _ _ I); [done|].
  intros (t & k & Ht & _). assert (tasks s !! t = None) by (apply (i_none _ _ I); rewrite Hq; apply lookup_empty). congruence.
Qed.
(** ** Every request ends *)
Definition measure (k : task) : nat := match k with TRead _ _ n acc => n - length acc | TWrite _ _ buf wr => length buf - wr | TTrunc _ todo cut => size todo + (if cut then 1 else 0) end.
Lemma ends m s w t k : inv s w -> tasks s !! t = Some k -> measure k <= m -> exists more s' a, Forall (is_of t) more /\ crun bs s more = Some (s', [(t, a)]).
Proof.
  revert s w k. induction m as [m IH] using lt_wf_ind. intros s w k I Ht Hm. destruct (flight w !! t) as [r|] eqn:Hf; [|by apply (i_none _ _ I) in Hf; congruence].
  pose proof (i_match _ _ I _ _ _ Hf Ht) as M.
  assert (Lb : forall b, lost (fs s) !! b = None) by (intros; rewrite (i_lost _ _ I); apply lookup_empty). assert (Bb : forall b, b ∉ broken (fs s)) by (rewrite (i_broken _ _ I); set_solver).
  assert (Go : forall e s1 k1, is_of t e -> cstep bs s e = Some (s1, None) -> tasks s1 !! t = Some k1 -> measure k1 < measure k -> exists more s' a, Forall (is_of t) more /\ crun bs s more = Some (s', [(t, a)])).
  { intros e s1 k1 He E1 Ht1 Hk. assert (P : polite w e) by by destruct e. destruct (step_inv _ _ _ _ _ I P E1) as [I1 _]. destruct (IH (measure k1) ltac:(lia) s1 _ k1 I1 Ht1 ltac:(lia)) as (more & s' & a & F & R).
    exists (e :: more), s', a. split; [by constructor|]. cbn. by rewrite E1, R. }
  assert (Fin : forall s1 a, finish s t = Some (s1, Some (t, a)) -> exists more s' a, Forall (is_of t) more /\ crun bs s more = Some (s', [(t, a)])).
  { intros s1 a E1. exists [Finish t], s1, a. split; [by repeat constructor|]. cbn. by rewrite E1. }
  destruct k as [ino' off' n acc|ino' off' buf' wr|ino' todo cut].
  - destruct (decide (n - length acc = 0)) as [Hz|Hz].
    { eapply Fin. unfold finish. rewrite Ht, decide_True by done. reflexivity. }
    destruct (readwrite_read_spec bs Hbs (fs s) ino' (off' + length acc) (n - length acc)) as [(l & E1 & _ & L1 & _)|(L & _)]; [lia| |by destruct (Bb (ino', (off' + length acc) / bs)); apply L].
    eapply (Go (Work t)); [done | cbn; unfold work; rewrite Ht, decide_False, E1 by done; reflexivity | cbn; apply lookup_insert | cbn; rewrite app_length; lia].
  - destruct (decide (drop wr buf' = [])) as [Hz|Hz].
    { eapply Fin. unfold finish. rewrite Ht, decide_True by done. reflexivity. }
    destruct (readwrite_write_spec bs Hbs (fs s) ino' (off' + wr) (drop wr buf') Hz) as [(j & f' & E1 & L1 & _)|(L & _)]; [|by destruct (Bb (ino', (off' + wr) / bs)); apply L]. rewrite drop_length in L1.
    eapply (Go (Work t)); [done | cbn; unfold work; rewrite Ht, decide_False, E1 by done; reflexivity | cbn; apply lookup_insert | cbn; lia].
  - destruct (decide (todo = ∅)) as [->|Hz].
    + destruct cut as [[b c]|]; [|eapply Fin; unfold finish; rewrite Ht, decide_True by done; reflexivity].
      eapply (Go (Work t)); [done | cbn; unfold work; rewrite Ht, decide_True, Lb by done; reflexivity | cbn; apply lookup_insert | cbn; rewrite size_empty; lia].
    + apply set_choose_L in Hz as [b Hb]. eapply (Go (Remove t b)); [done | cbn; rewrite Ht, decide_True by done; reflexivity | cbn; apply lookup_insert | cbn].
      assert (size (todo ∖ {[b]}) < size todo); [|lia]. apply subset_size. set_solver.
Qed.
End conc.
