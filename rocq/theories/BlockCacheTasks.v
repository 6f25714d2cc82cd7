(** The stack of one task of the block cache: which call it belongs to, which frames hold locks. *)
From stdpp Require Import prelude list gmap.
From Coq Require Import ZArith.
From Verif Require Import BlockCacheModel BlockCacheSpec BlockCacheLemmas BlockCacheSteps BlockCacheInv BlockCacheInv2.

(** The call a frame belongs to. *)
Inductive rk := RkFlush | RkStart (i : option nat) | RkDrop | RkEvict | RkGet (k : nat * nat).
Definition root_ret (r : ret) : rk :=
  match r with RetEvict _ _ _ (Some _) => RkDrop | RetEvict _ _ _ None => RkEvict | RetStart i => RkStart i | RetFlush _ => RkFlush end.
Definition root (f : frame) : option rk :=
  match f with
  | FUpload _ r | FUploadAcq _ r | FUploadLocked _ r | FSha _ r => Some (root_ret r)
  | FFlush | FFlushNext _ => Some RkFlush
  | FStart i | FStartNext i => Some (RkStart i)
  | FDrop | FEvict (Some _) | FEvictNext _ _ _ (Some _) | FEvictAcq _ _ _ _ (Some _) => Some RkDrop
  | FEvict None | FEvictNext _ _ _ None | FEvictAcq _ _ _ _ None => Some RkEvict
  | FGet k _ | FGetFastAcq k _ | FGetFast k _ | FGetSlow k | FGetAcq k | FGetEntry k | FDownWait k _ | FDown k _ | FDownDone k _ => Some (RkGet k)
  | FUseFast e | FUse e _ => Some (RkGet e.1)
  | _ => None
  end.
Notation rootless := (Forall (fun f => root f = None)).
(** Exactly the last frame belongs to call [r]. *)
Definition bottom (r : rk) (fs : list frame) : Prop := exists pre g, fs = pre ++ [g] /\ rootless pre /\ root g = Some r.
Definition inert (fs : list frame) : Prop := Forall (fun f => holds f = None) (tail fs).

Lemma root_resume e r b : exists g, resume e r b = [g] /\ root g = Some (root_ret r) /\ holds g = None.
Proof. destruct r as [ns ne sth [bak|]|i|sth]; destruct b; simpl; eexists; done. Qed.
Lemma root_deref o : rootless (deref o).
Proof. destruct o; repeat constructor. Qed.
Lemma bottom_cons f r fs : root f = None -> bottom r fs -> bottom r (f :: fs).
Proof. intros Hf (pre & g & -> & Hp & Hg). exists (f :: pre), g. split; [done|]. split; [by constructor|done]. Qed.
Lemma bottom_app r fs1 fs2 : rootless fs1 -> bottom r fs2 -> bottom r (fs1 ++ fs2).
Proof. induction 1; simpl; [done|]. intros Hb. apply bottom_cons; [done|by apply IHForall]. Qed.
Lemma bottom_one r g : root g = Some r -> bottom r [g].
Proof. intros Hg. exists [], g. by split. Qed.
Lemma bottom_resume e r b : bottom (root_ret r) (resume e r b).
Proof. destruct (root_resume e r b) as (g & -> & Hg & _). by apply bottom_one. Qed.

Section tasks.
Context {H : Type} `{EqDecision H} (sha : list nat -> H) (nworkers qcap : nat).
Notation shared := (shared H).
Notation state := (state H).
Implicit Types x : shared.
Implicit Types s : state.
Notation exec := (exec sha nworkers qcap).
Notation step := (step sha nworkers qcap).

(** One step of task [t], whose top frame is [f]. *)
Inductive tact (t : nat) : label -> shared -> frame -> shared -> list frame -> Prop :=
| tact_run x f x' fs : exec t f x = Some (x', fs) -> tact t (LRun t) x f x' fs
| tact_leave x f x' fs : leave f x = Some (x', fs) -> tact t (LLeave t) x f x' fs
| tact_write x f c x' : modify f c x = Some x' -> tact t (LWrite t c) x f x' [f]
| tact_skip x i b todo later : tact t (LSkip t) x (FRem0 i (b :: todo) later) x [FRem0 i todo (later ++ [b])].

(** The task that makes a step, if any. *)
Definition by_task (l : label) : option nat :=
  match l with LCall t _ | LRun t | LWrite t _ | LLeave t | LSkip t => Some t | _ => None end.
Lemma step_other s l s' t : step s l = Some s' -> by_task l <> Some t -> tasks s' !! t = tasks s !! t.
Proof.
  destruct s as [x T]. destruct l as [t1 c|t1|t1 c|t1|j|j st|j| | |t1|k k']; simpl; intros Hs Ht; unfold replace_top in Hs;
    repeat case_match; try done; injection Hs as <-; simpl; try done; apply lookup_insert_ne; congruence.
Qed.
Lemma step_call s t c s' : step s (LCall t c) = Some s' ->
  (forall f fs, tasks s !! t <> Some (f :: fs)) /\ tasks s' !! t = Some (enter c) /\ sh s' = sh s.
Proof.
  simpl. intros Hs. split.
  - intros f fs Hf. by rewrite Hf in Hs.
  - destruct (tasks s !! t) as [[|]|]; try done; injection Hs as <-; simpl; by rewrite lookup_insert.
Qed.
Lemma step_tact s l s' t : step s l = Some s' -> by_task l = Some t -> (forall c, l <> LCall t c) ->
  exists f rest fs, tasks s !! t = Some (f :: rest) /\ tact t l (sh s) f (sh s') fs /\ tasks s' !! t = Some (fs ++ rest).
Proof.
  destruct s as [x T]. destruct l as [t1 c|t1|t1 c|t1|j|j st|j| | |t1|k k']; simpl; intros Hs Ht Hc; try done; injection Ht as ->.
  - by destruct (Hc c).
  - destruct (T !! t) as [[|f rest]|] eqn:Hf; try done. destruct (exec t f x) as [[x' fs]|] eqn:He; [|done].
    injection Hs as <-. exists f, rest, fs. split; [done|]. split; [by constructor|]. apply lookup_insert.
  - destruct (T !! t) as [[|f rest]|] eqn:Hf; try done. destruct (modify f c x) as [x'|] eqn:He; [|done].
    injection Hs as <-. exists f, rest, [f]. split; [done|]. split; [by constructor|]. done.
  - destruct (T !! t) as [[|f rest]|] eqn:Hf; try done. destruct (leave f x) as [[x' fs]|] eqn:He; [|done].
    injection Hs as <-. exists f, rest, fs. split; [done|]. split; [by constructor|]. apply lookup_insert.
  - destruct (T !! t) as [[|[] rest]|] eqn:Hf; try done. destruct todo as [|b todo]; [done|].
    injection Hs as <-. eexists _, rest, _. split; [done|]. split; [by constructor|]. apply lookup_insert.
Qed.

(** The frames that come after the first hold no lock. *)
Lemma tact_inert t l x f x' fs : tact t l x f x' fs -> inert fs.
Proof.
  unfold inert. destruct 1 as [x f x' fs He|x f x' fs He|x f c x' He|x i b todo later]; try (by constructor).
  - assert (forall e r b, Forall (fun f => holds f = None) (resume e r b)) as Hr.
    { intros e r b. destruct (root_resume e r b) as (g & -> & _ & Hg). by constructor. }
    assert (forall o, Forall (fun f => holds f = None) (deref o)) as Hd by (intros []; by repeat constructor).
    assert (forall e r b, Forall (fun f => holds f = None) (tail (resume e r b))) as Hrt.
    { intros e r b. destruct (root_resume e r b) as (g & -> & _ & Hg). by constructor. }
    destruct f; simpl in He; repeat case_match; try done; injection He as <- <-; simpl;
      repeat first [done | apply Hr | apply Hd | apply Hrt | apply Forall_app; split | by repeat constructor].
  - destruct f; simpl in He; try done; injection He as <- <-; by constructor.
Qed.
Lemma inert_app fs rest f : inert (f :: rest) -> inert fs -> inert (fs ++ rest).
Proof.
  unfold inert. simpl. intros Hr Hf. destruct fs as [|g fs]; simpl in *.
  - destruct rest; [done|]. by apply Forall_cons in Hr as [_ ?].
  - by apply Forall_app.
Qed.
Lemma enter_inert c : inert (enter c).
Proof. destruct c; constructor. Qed.
Definition all_inert (s : state) : Prop := forall t fs, tasks s !! t = Some fs -> inert fs.
Lemma all_inert_step s l s' : step s l = Some s' -> all_inert s -> all_inert s'.
Proof.
  intros Hs HI t fs Hf. destruct (decide (by_task l = Some t)) as [Ht|Ht].
  - destruct l; simpl in Ht; try done; injection Ht as ->;
      [apply step_call in Hs as (_ & Hs & _); rewrite Hs in Hf; injection Hf as <-; apply enter_inert|..].
    all: destruct (step_tact _ _ _ _ Hs eq_refl ltac:(done)) as (f & rest & fs' & H1 & H2 & H3); rewrite H3 in Hf; injection Hf as <-;
      eapply inert_app; [by apply HI in H1|by eapply tact_inert].
  - rewrite (step_other _ _ _ _ Hs Ht) in Hf. by apply HI in Hf.
Qed.

(** ** Which call a stack belongs to *)
(** Roots of the frames of a get(k) call. *)
Definition get_frame (k : nat * nat) (f : frame) : Prop := root f = None \/ root f = Some RkEvict \/ root f = Some (RkGet k).
Lemma tact_get t l x f x' fs k : tact t l x f x' fs -> (forall k e, cget k (cache x) = Some e -> e.1 = k) ->
  get_frame k f -> Forall (get_frame k) fs.
Proof.
  intros Ht Hkey Hf.
  assert (forall e r b, root_ret r = RkEvict -> Forall (get_frame k) (resume e r b)) as Hr.
  { intros e r b Hr. destruct (root_resume e r b) as (g & -> & Hg & _). constructor; [|done]. right. left. congruence. }
  assert (forall o, Forall (get_frame k) (deref o)) as Hd by (intros []; repeat constructor).
  assert (forall r, (Some (root_ret r) = None \/ Some (root_ret r) = Some RkEvict \/ Some (root_ret r) = Some (RkGet k)) -> root_ret r = RkEvict) as Hre.
  { intros r [?|[[= ->]|Hq]]; try done. by destruct r as [? ? ? []| |]. }
  assert (forall k' g, (Some (RkGet k') = None \/ Some (RkGet k') = Some RkEvict \/ Some (RkGet k') = Some (RkGet k)) -> root g = Some (RkGet k') -> get_frame k g) as Hg.
  { intros k' g [?|[?|[= ->]]]; try done. intros Hg. by right; right. }
  destruct Ht as [x f x' fs He|x f x' fs He|x f c x' He|x i b todo later]; [| |by constructor|by repeat constructor].
  - assert (get_frame k f) as Hf0 by done. unfold get_frame in Hf.
    destruct f; simpl in Hf; simpl in He; try (specialize (Hre r Hf)); repeat case_match; try done; try (injection He as <- <-); subst;
      try (exfalso; by destruct Hf as [?|[?|?]]);
      repeat first [done | by apply Hr | apply Hd | apply Forall_app; split
        | (apply Forall_cons; split; [by first [left; reflexivity | right; left; reflexivity | right; right; reflexivity | right; left; simpl; congruence | eapply Hg; done
            | eapply Hg; [done|simpl; f_equal; f_equal; by apply Hkey]]|]) | by constructor ].
  - unfold get_frame in Hf. destruct f; simpl in He; try done; injection He as <- <-; by repeat constructor.
Qed.
Lemma tact_rootless t l x f x' fs : tact t l x f x' fs -> root f = None -> rootless fs.
Proof.
  intros Ht Hf. destruct Ht as [x f x' fs He|x f x' fs He|x f c x' He|x i b todo later]; [| |by constructor|by repeat constructor].
  - destruct f as [| | | | | | | | | | | | | | | | | | | | |[]|? ? ? []|? ? ? ? []| | | | | | | | | | |]; simpl in He; try done; repeat case_match; try done; injection He as <- <-; by repeat constructor.
  - destruct f; simpl in He; try done; injection He as <- <-; by repeat constructor.
Qed.
Definition is_get (r : rk) : Prop := match r with RkGet _ => True | _ => False end.
Lemma tact_bottom t l x f x' fs r : tact t l x f x' fs -> root f = Some r -> ~ is_get r -> fs = [] \/ bottom r fs.
Proof.
  intros Ht Hf Hg. destruct Ht as [x f x' fs He|x f x' fs He|x f c x' He|x i b todo later]; [| |right; by apply bottom_one|done].
  - destruct f as [|e r0|e r0|e r0|e r0| | | | | | | | | | | | | | | | |[]|? ? ? []|? ? ? ? []| | | | | | | | | | |]; simpl in Hf; try done;
      injection Hf as <-; simpl in Hg; try done; simpl in He; repeat case_match; try done; injection He as <- <-;
      first [by left | right];
      repeat first [by apply bottom_one | apply bottom_resume | apply bottom_app; [apply root_deref|] | apply bottom_cons; [done|]].
  - destruct f; simpl in He; try done; simpl in Hf; injection Hf as <-; done.
Qed.

(** A step of a task whose last frame belongs to call [r]. *)
Lemma bottom_step t l x f x' fs rest r : tact t l x f x' fs -> bottom r (f :: rest) -> ~ is_get r ->
  (root f = None /\ bottom r rest /\ bottom r (fs ++ rest)) \/
  (rest = [] /\ root f = Some r /\ (fs = [] \/ bottom r fs)).
Proof.
  intros Ht (pre & g & Heq & Hp & Hg) Hr. destruct pre as [|f0 pre].
  - injection Heq as -> ->. right. split; [done|]. split; [done|]. by eapply tact_bottom.
  - injection Heq as <- ->. apply Forall_cons in Hp as [Hf Hp]. left. split; [done|].
    assert (bottom r (pre ++ [g])) as Hb by (by exists pre, g). split; [done|]. apply bottom_app; [|done]. by eapply tact_rootless.
Qed.

Ltac no_resume := match goal with Hr : context [resume ?e ?r ?b] |- _ =>
  let g := fresh in let Hg := fresh in destruct (root_resume e r b) as (g & Hg & _); rewrite Hg in Hr; first [done | by destruct (deref _)] end.
(** ** How calls return *)
Lemma return_flush t l x f x' fs : tact t l x f x' fs -> fs = [] -> root f = Some RkFlush ->
  exists l', f = FFlushNext false /\ cnext t (cache x) = (l', None) /\ x' = set_cache (fun _ => l') x.
Proof.
  intros Ht Hnil Hf. destruct Ht as [x f x' fs He|x f x' fs He|x f c x' He|x i' b todo later]; [| |done|done].
  - destruct f as [|e r0|e r0|e r0|e r0| | | | | | | | | | | | | | | | |[]|? ? ? []|? ? ? ? []| | | | | | | | | | |]; simpl in Hf; try done; simpl in He.
    all: repeat case_match; try done; injection He as Hx Hfs; rewrite Hnil in Hfs; try done; try (by destruct r0); try (subst; by eexists).
    all: no_resume.
  - destruct f; simpl in He; try done; simpl in Hf; injection Hf as <-; done.
Qed.
Lemma return_start t l x f x' fs i : tact t l x f x' fs -> fs = [] -> root f = Some (RkStart i) ->
  exists l', f = FStartNext i /\ cnext t (cache x) = (l', None) /\ x' = set_cache (fun _ => l') x.
Proof.
  intros Ht Hnil Hf. destruct Ht as [x f x' fs He|x f x' fs He|x f c x' He|x i' b todo later]; [| |done|done].
  - destruct f as [|e r0|e r0|e r0|e r0| | | | | | | | | | | | | | | | |[]|? ? ? []|? ? ? ? []| | | | | | | | | | |]; simpl in Hf; try done; simpl in He.
    all: repeat case_match; try done; injection He as Hx Hfs; rewrite Hnil in Hfs; try done; try (by destruct r0); try (injection Hf as ->; subst; by eexists).
    all: no_resume.
  - destruct f; simpl in He; try done; simpl in Hf; injection Hf as <-; done.
Qed.
Lemma return_drop t l x f x' fs : tact t l x f x' fs -> fs = [] -> root f = Some RkDrop ->
  exists bak, f = FEvict (Some bak) /\ (csize x - max_size x <= 0)%Z /\ (Z.of_nat (clen (cache x)) - max_entries x <= 0)%Z /\
    x' = set_max_entries (fun _ => bak) x.
Proof.
  intros Ht Hnil Hf. destruct Ht as [x f x' fs He|x f x' fs He|x f c x' He|x i' b todo later]; [| |done|done].
  - destruct f as [|e r0|e r0|e r0|e r0| | | | | | | | | | | | | | | | |[]|? ? ? []|? ? ? ? []| | | | | | | | | | |]; simpl in Hf; try done; simpl in He.
    all: repeat case_match; try done; injection He as Hx Hfs; rewrite Hnil in Hfs; try done; try (by destruct r0); try (subst; eexists; naive_solver).
    all: no_resume.
  - destruct f; simpl in He; try done; simpl in Hf; injection Hf as <-; done.
Qed.
End tasks.
