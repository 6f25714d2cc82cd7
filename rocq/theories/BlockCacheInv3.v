(** Invariants of the block cache, continued: reference counts, uploads, deletions, hashes. *)
From stdpp Require Import prelude list gmap.
From Coq Require Import ZArith.
From Verif Require Import BlockCacheModel BlockCacheLemmas BlockCacheSteps BlockCacheInv BlockCacheInv2.

Definition isderef (o : nat) (f : frame) : Z := match f with FDeref o' => b2z (bool_decide (o' = o)) | _ => 0%Z end.
Definition sends (o : nat) (f : frame) : Z := match f with FSend _ o' => b2z (bool_decide (o' = o)) | _ => 0%Z end.
Definition deadf (o : nat) (f : frame) : Z :=
  match f with FDerefWait o' _ | FRmSend o' => b2z (bool_decide (o' = o)) | _ => 0%Z end.
Lemma isderef_nonneg o f : (0 <= isderef o f)%Z.
Proof. destruct f; simpl; try lia; by destruct (bool_decide _). Qed.
Lemma sends_nonneg o f : (0 <= sends o f)%Z.
Proof. destruct f; simpl; try lia; by destruct (bool_decide _). Qed.
Lemma deadf_nonneg o f : (0 <= deadf o f)%Z.
Proof. destruct f; simpl; try lia; by destruct (bool_decide _). Qed.
Lemma isderef_resume o e r b : lsum (isderef o) (resume e r b) = 0%Z.
Proof. destruct r, b; done. Qed.
Lemma sends_resume o e r b : lsum (sends o) (resume e r b) = 0%Z.
Proof. destruct r, b; done. Qed.
Lemma sends_deref o o' : lsum (sends o) (deref o') = 0%Z.
Proof. by destruct o'. Qed.
Lemma deadf_resume o e r b : lsum (deadf o) (resume e r b) = 0%Z.
Proof. destruct r, b; done. Qed.
Lemma deadf_deref o o' : lsum (deadf o) (deref o') = 0%Z.
Proof. by destruct o'. Qed.
Definition isv (o o' : nat) : Z := b2z (bool_decide (o' = o)).
Definition cnt (o : nat) (l : list nat) : Z := lsum (isv o) l.
Lemma isderef_deref o old : lsum (isderef o) (deref old) = match old with Some o' => isv o o' | None => 0%Z end.
Proof. destruct old; simpl; unfold isv; lia. Qed.
Lemma isv_nonneg o o' : (0 <= isv o o')%Z.
Proof. unfold isv. by destruct (bool_decide _). Qed.
Lemma isv_same o : isv o o = 1%Z.
Proof. unfold isv. by rewrite bool_decide_eq_true_2. Qed.
Lemma isv_other o o' : o' <> o -> isv o o' = 0%Z.
Proof. intros. unfold isv. by rewrite bool_decide_eq_false_2. Qed.
Lemma cnt_elem o l : o ∈ l -> (1 <= cnt o l)%Z.
Proof. intros Hin. pose proof (lsum_elem (isv o) l o (isv_nonneg o) Hin) as Hle. by rewrite isv_same in Hle. Qed.
Lemma cnt_pos o l : (0 < cnt o l)%Z -> o ∈ l.
Proof.
  intros Hp. destruct (lsum_pos (isv o) l Hp) as (o' & Hin & Hx). destruct (decide (o' = o)) as [->|Hne]; [done|].
  rewrite isv_other in Hx by done. lia.
Qed.
Lemma cnt_nonneg o l : (0 <= cnt o l)%Z.
Proof. apply lsum_nonneg, isv_nonneg. Qed.

Section inv.
Context {H : Type} `{EqDecision H} (sha : list nat -> H) (nworkers qcap : nat).
Notation shared := (shared H).
Implicit Types x : shared.
Notation act := (act sha nworkers qcap).

Definition nblocks x (o : nat) : Z := msum (isv o) (blocks x).
Definition oref x (o : nat) : Z := match objs x !! o with Some ob => Z.of_nat (o_ref ob) | None => 0%Z end.

Lemma nblocks_pos x k o : blocks x !! k = Some o -> (1 <= nblocks x o)%Z.
Proof. intros Hk. pose proof (msum_le (isv o) (blocks x) k o (isv_nonneg o) Hk) as Hle. by rewrite isv_same in Hle. Qed.
Lemma nblocks_nonneg x o : (0 <= nblocks x o)%Z.
Proof. apply msum_nonneg, isv_nonneg. Qed.
Lemma nblocks_inv x o : (0 < nblocks x o)%Z -> exists k, blocks x !! k = Some o.
Proof.
  intros Hp. destruct (msum_pos _ _ (isv_nonneg o) Hp) as (k & o' & Hk & Hx). destruct (decide (o' = o)) as [->|Hne]; [by exists k|].
  rewrite isv_other in Hx by done. lia.
Qed.

Record inv3 x (F : list frame) : Prop := {
  r_count : forall o, (lsum (isderef o) F + nblocks x o = oref x o)%Z;
  r_pos : forall o ob, objs x !! o = Some ob -> 1 <= o_ref ob /\ o < next_o x
}.
Lemma inv3_perm x F F' : Permutation F F' -> inv3 x F -> inv3 x F'.
Proof. intros HP [H1 H2]. split; [|done]. intros o. by rewrite <- (lsum_perm _ _ _ HP). Qed.
Lemma inv3_row x F k o : inv3 x F -> blocks x !! k = Some o -> exists ob, objs x !! o = Some ob.
Proof.
  intros HI Hk. pose proof (r_count _ _ HI o) as Hc. pose proof (nblocks_pos _ _ _ Hk).
  pose proof (lsum_nonneg (isderef o) F (isderef_nonneg o)). unfold oref in Hc.
  destruct (objs x !! o) as [ob|]; [by exists ob|lia].
Qed.
Lemma inv3_deref_row x F o : inv3 x F -> FDeref o ∈ F -> exists ob, objs x !! o = Some ob.
Proof.
  intros HI Hk. pose proof (r_count _ _ HI o) as Hc. pose proof (nblocks_nonneg x o).
  pose proof (lsum_elem (isderef o) F _ (isderef_nonneg o) Hk) as Hle. simpl in Hle. rewrite bool_decide_eq_true_2 in Hle by done.
  simpl in Hle. unfold oref in Hc. destruct (objs x !! o) as [ob|]; [by exists ob|lia].
Qed.

Lemma obj_by_hash_Some h x o : obj_by_hash h x = Some o -> exists ob, objs x !! o = Some ob /\ o_hash ob = Some h.
Proof.
  unfold obj_by_hash. intros Hh. apply fmap_Some in Hh as ([o' ob] & Hh & ->). apply head_Some_elem_of in Hh.
  apply elem_of_list_filter in Hh as [Hh Hin]. apply elem_of_map_to_list in Hin. by exists ob.
Qed.
Lemma obj_by_hash_None h x o ob : obj_by_hash h x = None -> objs x !! o = Some ob -> o_hash ob <> Some h.
Proof.
  unfold obj_by_hash. intros Hh Ho Hoh. destruct (filter _ _) as [|y l] eqn:Hf; [|done].
  assert ((o, ob) ∈ filter (fun z : nat * obj H => o_hash z.2 = Some h) (map_to_list (objs x))) as Hin.
  { apply elem_of_list_filter. split; [done|]. by apply elem_of_map_to_list. }
  rewrite Hf in Hin. by apply elem_of_nil in Hin.
Qed.

Lemma oref_alter g o x o' : (forall ob, o_ref (g ob) = o_ref ob) ->
  match alter g o (objs x) !! o' with Some ob => Z.of_nat (o_ref ob) | None => 0%Z end = oref x o'.
Proof.
  intros Hg. unfold oref. destruct (decide (o = o')) as [->|Hne].
  - rewrite lookup_alter. destruct (objs x !! o'); simpl; [|done]. by rewrite Hg.
  - by rewrite lookup_alter_ne.
Qed.
Lemma oref_add o x o' ob : objs x !! o = Some ob ->
  match alter add_ref o (objs x) !! o' with Some ob => Z.of_nat (o_ref ob) | None => 0%Z end = (oref x o' + isv o' o)%Z.
Proof.
  intros Ho. unfold oref. destruct (decide (o = o')) as [->|Hne].
  - rewrite lookup_alter, Ho, isv_same. simpl. lia.
  - rewrite lookup_alter_ne, isv_other by done. lia.
Qed.
Lemma nblocks_insert x k o o' : msum (isv o') (<[k := o]> (blocks x)) = (nblocks x o' + isv o' o - match blocks x !! k with Some o1 => isv o' o1 | None => 0 end)%Z.
Proof. rewrite msum_insert. unfold nblocks. destruct (blocks x !! k); lia. Qed.
Lemma nblocks_delete x k o o' : blocks x !! k = Some o -> msum (isv o') (delete k (blocks x)) = (nblocks x o' - isv o' o)%Z.
Proof. intros Hk. unfold nblocks. rewrite (msum_delete _ _ _ _ Hk). lia. Qed.
Lemma objs_cremove k x : objs (cremove k x) = objs x.
Proof. unfold cremove. by destruct (cget _ _). Qed.
Lemma next_o_cremove k x : next_o (cremove k x) = next_o x.
Proof. unfold cremove. by destruct (cget _ _). Qed.

Lemma act_refs l x pre x' post F : act l x pre x' post -> inv3 x (pre ++ F) ->
  forall o, (lsum (isderef o) post - lsum (isderef o) pre + nblocks x' o - nblocks x o = oref x' o - oref x o)%Z.
Proof.
  intros Hact HI o0.
  assert (objs x !! next_o x = None) as Hnew.
  { destruct (objs x !! next_o x) as [ob|] eqn:Hn; [|done]. apply (r_pos _ _ HI) in Hn. lia. }
  destruct Hact as [t c x|t f x x' fs Hs He|t e o x Hsz|t f x x' fs He|t f c x x' He|j e o x Hj
    |j st e o x Hj|j K x Hj|x Hr Hq|x Hr|t i b todo later x|k1 k2 o x H1 H2 H3 H4]; try (unfold oref, nblocks; simpl; lia).
  - destruct c; simpl; lia.
  - destruct f; try done; simpl in He;
    try (repeat case_match; simplify_eq; simpl; rewrite ?lsum_app, ?isderef_resume; unfold oref, nblocks, unlock, lock; simpl; lia).
    + destruct (obj_by_hash _ x) as [o|] eqn:Hh.
      * apply obj_by_hash_Some in Hh as (ob & Ho & _). destruct (decide (blocks x !! e.1 = Some o)) as [Hb|Hb]; simplify_eq.
        { simpl. rewrite isderef_resume. unfold nblocks, oref. simpl. lia. }
        simpl. rewrite lsum_app, isderef_resume, isderef_deref. unfold nblocks at 1, oref at 1. simpl.
        rewrite nblocks_insert, (oref_add _ _ _ _ Ho). lia.
      * simplify_eq. simpl. rewrite lsum_app, isderef_resume, isderef_deref. unfold nblocks at 1, oref at 1. simpl.
        rewrite nblocks_insert. unfold oref. destruct (decide (o0 = next_o x)) as [->|Hne].
        { rewrite lookup_insert, Hnew, isv_same. simpl. lia. }
        { rewrite lookup_insert_ne, isv_other by done. lia. }
    + destruct (inv3_deref_row _ _ o HI) as [ob Ho]; [by left|]. rewrite Ho in He.
      destruct (r_pos _ _ HI _ _ Ho) as [Hp _].
      case_decide as Hr; simplify_eq; simpl; unfold oref, nblocks; simpl.
      * destruct (decide (o = o0)) as [->|Hne].
        { rewrite lookup_alter, Ho. simpl. rewrite bool_decide_eq_true_2 by done. simpl. lia. }
        { rewrite lookup_alter_ne by done. rewrite bool_decide_eq_false_2 by done. simpl. lia. }
      * destruct (decide (o = o0)) as [->|Hne].
        { rewrite lookup_delete, Ho. simpl. rewrite bool_decide_eq_true_2 by done. simpl. lia. }
        { rewrite lookup_delete_ne by done. rewrite bool_decide_eq_false_2 by done. simpl. lia. }
    + case_match; simplify_eq; unfold oref, nblocks; simpl; rewrite ?blocks_cremove, ?objs_cremove; lia.
    + rewrite blocks_cremove in He. destruct (blocks x !! k) as [o|] eqn:Hk; simplify_eq; simpl.
      * unfold oref, nblocks at 1. simpl. rewrite blocks_cremove, objs_cremove. rewrite (nblocks_delete _ _ _ _ Hk). unfold isv. lia.
      * unfold oref, nblocks. rewrite blocks_cremove, objs_cremove. lia.
  - destruct f; simpl in He; try done; simplify_eq; unfold oref, nblocks; simpl; lia.
  - destruct f; simpl in He; try done; repeat case_match; simplify_eq; unfold oref, nblocks; simpl; lia.
  - simpl. unfold nblocks, oref at 1. simpl. rewrite oref_alter by done. lia.
  - simpl. unfold nblocks, oref at 1. destruct st; simpl; rewrite oref_alter by done; lia.
  - unfold deleted. destruct (bool_decide _); unfold oref, nblocks; simpl; lia.
  - destruct (inv3_row _ _ _ _ HI H1) as [ob Ho]. simpl. unfold nblocks at 1, oref at 1. simpl.
    rewrite nblocks_insert, (oref_add _ _ _ _ Ho), H2. lia.
Qed.

(** ** The effect of a step on object rows *)
Definition utarget (l : label) (pre : list frame) : option nat :=
  match l, pre with
  | LUploaded _, FSend _ o :: _ | LFailed _ _, FSend _ o :: _ => Some o
  | _, _ => None
  end.
Definition objs_some_effect l x pre x' (post : list frame) : Prop := forall o ob, objs x !! o = Some ob ->
  (exists ob', objs x' !! o = Some ob' /\
    (Some o <> utarget l pre -> o_hash ob' = o_hash ob /\ o_phys ob' = o_phys ob) /\
    (o_hash ob' = o_hash ob \/ o_hash ob' = None) /\ 1 <= o_ref ob') \/
  (objs x' !! o = None /\ pre = [FDeref o] /\ o_ref ob = 1 /\ post = [FDerefWait o (bool_decide (o_phys ob = None))]).
Definition objs_none_effect x pre x' (post : list frame) : Prop := forall o, objs x !! o = None ->
  objs x' !! o = None \/
  (o = next_o x /\ next_o x' = S (next_o x) /\ exists e r,
    pre = [FSha e r] /\ post = FSend e o :: deref (blocks x !! e.1) ++ resume e r true /\
    objs x' !! o = Some (Obj 1 (Some (sha (e_data (ent x e)))) (length (e_data (ent x e))) None) /\
    obj_by_hash (sha (e_data (ent x e))) x = None /\ ent x' e = ent x e /\ blocks x' !! e.1 = Some o).

Lemma act_objs l x pre x' post F : act l x pre x' post -> inv3 x (pre ++ F) ->
  objs_some_effect l x pre x' post /\ objs_none_effect x pre x' post /\ next_o x <= next_o x'.
Proof.
  intros Hact HI.
  assert (forall o ob, objs x !! o = Some ob -> 1 <= o_ref ob) as Hpos by (intros o ob Ho; apply (r_pos _ _ HI _ _ Ho)).
  assert (forall (y : shared) l pre post, objs y = objs x -> next_o y = next_o x ->
    objs_some_effect l x pre y post /\ objs_none_effect x pre y post /\ next_o x <= next_o y) as Hsame.
  { intros y l0 pre0 post0 Hy Hn. split; [|split; [|lia]].
    - intros o ob Ho. left. exists ob. rewrite Hy. eauto 7.
    - intros o Ho. left. by rewrite Hy. }
  assert (forall (y : shared) l pre post g o1, objs y = alter g o1 (objs x) -> next_o y = next_o x ->
    (forall ob, objs x !! o1 = Some ob -> 1 <= o_ref (g ob)) ->
    ((forall ob, o_hash (g ob) = o_hash ob /\ o_phys (g ob) = o_phys ob) \/ utarget l pre = Some o1) ->
    (forall ob, o_hash (g ob) = o_hash ob \/ o_hash (g ob) = None) ->
    objs_some_effect l x pre y post /\ objs_none_effect x pre y post /\ next_o x <= next_o y) as Halter.
  { intros y l0 pre0 post0 g o1 Hy Hn Hg Hc Hh. split; [|split; [|lia]].
    - intros o ob Ho. left. rewrite Hy. destruct (decide (o = o1)) as [->|Hne].
      + rewrite lookup_alter, Ho. simpl. eexists. split; [done|]. split; [|split; [apply Hh|by apply Hg]].
        intros Hu. destruct Hc as [Hc|Hc]; [done|]. congruence.
      + rewrite lookup_alter_ne by done. exists ob. eauto 7.
    - intros o Ho. left. rewrite Hy. destruct (decide (o = o1)) as [->|Hne].
      + by rewrite lookup_alter, Ho.
      + by rewrite lookup_alter_ne. }
  destruct Hact as [t c x|t f x x' fs Hs He|t e o x Hsz|t f x x' fs He|t f c x x' He|j e o x Hj
    |j st e o x Hj|j K x Hj|x Hr Hq|x Hr|t i b todo later x|k1 k2 o x H1 H2 H3 H4]; try (by apply Hsame).
  - destruct f; try done; simpl in He; try (repeat case_match; simplify_eq; by apply Hsame).
    + destruct (obj_by_hash _ x) as [o|] eqn:Hh.
      * apply obj_by_hash_Some in Hh as (ob & Ho & _). destruct (decide (blocks x !! e.1 = Some o)) as [Hb|Hb]; simplify_eq.
        { by apply Hsame. }
        eapply Halter; [done|done| |by left|by left]. intros ob1 _. simpl. lia.
      * simplify_eq. split; [|split; [|simpl; lia]].
        { intros o ob Ho. left. exists ob. simpl. rewrite lookup_insert_ne; [eauto 7|].
          intros <-. apply (r_pos _ _ HI) in Ho. lia. }
        { intros o Ho. simpl. destruct (decide (o = next_o x)) as [->|Hne].
          - right. split; [done|]. split; [done|]. exists e, r. split; [done|]. split; [done|].
            rewrite !lookup_insert. done.
          - left. by rewrite lookup_insert_ne. }
    + destruct (inv3_deref_row _ _ o HI) as [ob Ho]; [by left|]. rewrite Ho in He.
      case_decide as Hr; simplify_eq.
      * eapply (Halter _ _ _ _ del_ref o); [done|done| |by left|by left]. intros ob1 Ho1. simpl. simplify_eq. lia.
      * split; [|split; [|done]].
        { intros o1 ob1 Ho1. simpl. destruct (decide (o1 = o)) as [->|Hne].
          - right. rewrite lookup_delete. simplify_eq. specialize (Hpos _ _ Ho). split; [done|]. split; [done|]. split; [lia|done].
          - left. rewrite lookup_delete_ne by done. exists ob1. split; [done|]. split; [done|]. split; [by left|]. by eapply Hpos. }
        { intros o1 Ho1. left. simpl. rewrite lookup_delete_None. by right. }
    + repeat case_match; simplify_eq; apply Hsame; try done; [apply objs_cremove|apply next_o_cremove].
    + rewrite blocks_cremove in He. case_match; simplify_eq; (apply Hsame; [apply objs_cremove|apply next_o_cremove]).
  - destruct f; simpl in He; try done; simplify_eq; by apply Hsame.
  - destruct f; simpl in He; try done; repeat case_match; simplify_eq; by apply Hsame.
  - eapply Halter; [done|done|intros ob Ho; simpl; by apply (Hpos _ _ Ho)|by right|by left].
  - destruct st; (eapply (Halter _ _ _ _ no_hash o); [done|done|intros ob Ho; simpl; by apply (Hpos _ _ Ho)|by right|by right]).
  - unfold deleted. destruct (bool_decide _); by apply Hsame.
  - eapply (Halter _ _ _ _ add_ref o); [done|done|intros ob Ho; simpl; lia|by left|by left].
Qed.

Lemma inv3_act l x pre x' post F : act l x pre x' post -> inv3 x (pre ++ F) -> inv3 x' (post ++ F).
Proof.
  intros Hact HI. destruct (act_objs _ _ _ _ _ _ Hact HI) as (Hsome & Hnone & Hnext). split.
  - intros o. pose proof (act_refs _ _ _ _ _ _ Hact HI o). pose proof (r_count _ _ HI o). rewrite lsum_app in *. lia.
  - intros o ob' Ho'. destruct (objs x !! o) as [ob|] eqn:Ho.
    + destruct (Hsome _ _ Ho) as [(ob2 & Ho2 & _ & _ & Hp)|[Hn _]]; [|congruence]. simplify_eq.
      split; [done|]. apply (r_pos _ _ HI) in Ho as [_ Hlt]. lia.
    + destruct (Hnone _ Ho) as [Hn|(-> & Hn & e & r & _ & _ & Ho2 & _)]; [congruence|]. simplify_eq. simpl. lia.
Qed.

(** ** The effect of a step on the store *)
Lemma foldr_delete (m : gmap nat (list nat)) l o :
  foldr delete m l !! o = if decide (o ∈ l) then None else m !! o.
Proof.
  induction l as [|a l IH]; [done|]. cbn [foldr].
  destruct (decide (a = o)) as [->|Hne].
  - rewrite lookup_delete. rewrite decide_True; [done|by left].
  - rewrite lookup_delete_ne by done. rewrite IH. destruct (decide (o ∈ l)).
    + rewrite decide_True; [done|by right].
    + rewrite decide_False; [done|]. intros [?|?]%elem_of_cons; [by subst|done].
Qed.
Lemma act_store l x pre x' post o : act l x pre x' post ->
  store x' !! o = store x !! o \/
  (l = LDeleted /\ o ∈ removing x /\ store x' !! o = None) \/
  (exists e, (exists j, l = LUploaded j \/ l = LFailed j true) /\ pre = [FSend e o] /\ store x' !! o = Some (e_data (ent x e))).
Proof.
  intros Hact.
  destruct Hact as [t c x|t f x x' fs Hs He|t e o1 x Hsz|t f x x' fs He|t f c x x' He|j e o1 x Hj
    |j st e o1 x Hj|j K x Hj|x Hr Hq|x Hr|t i b todo later x|k1 k2 o1 x H1 H2 H3 H4]; try (by left).
  - destruct f; try done; simpl in He; unfold cremove in He; repeat case_match; simplify_eq; by left.
  - destruct f; simpl in He; try done; simplify_eq; by left.
  - destruct f; simpl in He; try done; repeat case_match; simplify_eq; by left.
  - destruct (decide (o1 = o)) as [->|Hne].
    + right. right. exists e. split; [eauto 7|]. split; [done|]. simpl. by rewrite lookup_insert.
    + left. simpl. by rewrite lookup_insert_ne.
  - destruct st; [|by left]. destruct (decide (o1 = o)) as [->|Hne].
    + right. right. exists e. split; [eauto 7|]. split; [done|]. simpl. by rewrite lookup_insert.
    + left. simpl. by rewrite lookup_insert_ne.
  - assert (store (deleted x) = foldr delete (store x) (removing x)) as Hst.
    { unfold deleted. by destruct (bool_decide _). }
    rewrite Hst, foldr_delete. destruct (decide (o ∈ removing x)); [right; left; eauto|by left].
Qed.
End inv.
