(** What calls of the block cache have achieved when they return; absence of deadlocks. *)
From stdpp Require Import prelude list gmap.
From Coq Require Import ZArith.
From Verif Require Import BlockCacheModel BlockCacheSpec BlockCacheLemmas BlockCacheSteps BlockCacheInv BlockCacheInv2 BlockCacheInv3
  BlockCacheInv4 BlockCacheInv5 BlockCacheInv6 BlockCacheInv7 BlockCacheTasks BlockCacheFlush BlockCacheReach BlockCacheProofs.

Section calls.
Context {H : Type} `{EqDecision H} (sha : list nat -> H) (nworkers qcap : nat).
Notation shared := (shared H).
Notation state := (state H).
Implicit Types x : shared.
Implicit Types s : state.
Notation step := (step sha nworkers qcap).
Notation steps := (steps sha nworkers qcap).
Notation run := (run sha nworkers qcap).
Notation good_run := (good_run sha nworkers qcap).
Notation act := (act sha nworkers qcap).
Notation tact := (tact sha nworkers qcap).
Notation Inv := (Inv sha).
Notation disturbed := (disturbed sha nworkers qcap).
Notation one_drop := (one_drop sha nworkers qcap).

(** ** flush and start_flush *)
Lemma disturbs_disturbed K s l pre ls : pre_ok s l pre -> disturbs K l pre -> (exists s', step s l = Some s') -> disturbed K s (l :: ls).
Proof.
  intros Hp Hd [s' Hs]. unfold disturbs in Hd. destruct l as [t1 c|t1|t1 c|t1|j|j st|j| | |t1|k k']; try done; simpl in Hp, Hd.
  - destruct Hp as (f & rest & Ht & ->). simpl in Hd. constructor. unfold in_use. rewrite Ht. simpl in Hs. rewrite Ht in Hs.
    destruct f; simpl in Hs; try done.
  - destruct Hp as (e & o & Hj & ->). simpl in Hd. econstructor; [done|congruence].
Qed.
Lemma fresh_cursor l (c : list item) : exists t, Cur t ∉ c /\ by_task l <> Some t.
Proof.
  assert (exists n, forall t, n <= t -> Cur t ∉ c) as [n Hn].
  { induction c as [|[k e|t'] c [n Hn]]; [exists 0; intros; apply not_elem_of_nil| |].
    - exists n. intros t Ht. apply not_elem_of_cons. split; [done|by apply Hn].
    - exists (max n (S t')). intros t Ht. apply not_elem_of_cons. split; [intros [= ->]; lia|apply Hn; lia]. }
  destruct (by_task l) as [t'|].
  - exists (max n (S t')). split; [apply Hn; lia|]. intros [= Heq]. lia.
  - exists n. split; [apply Hn; lia|done].
Qed.
Definition covered (b : bool) (K : nat * nat) x : Prop := forall e, cget K (cache x) = Some e -> okq b x e.
Lemma covered_act b K l x pre x' post F F' : act l x pre x' post -> inv2 x (pre ++ F) -> inv2 x' F' -> ~ disturbs K l pre -> covered b K x -> covered b K x'.
Proof.
  intros Hact I2 I2' Hd Hc e Hg. destruct (fresh_cursor l (cache x')) as (t & Ht & Hl).
  pose proof (inv2_key _ _ _ _ I2' Hg) as [HK _]. apply cget_Some_elem in Hg as Hin.
  destruct (before_act _ _ _ _ _ _ _ _ t e Hact) as [Hin2|[_ Hcl]].
  - intros f ->. by destruct Hl.
  - by eapply before_all.
  - destruct (before_ok _ _ _ _ I2 Hin2) as [Hg2 Hlt]. rewrite HK in Hg2. eapply okq_act; try done. by apply Hc.
  - by left.
Qed.
Section sweep.
Context (t : nat) (K : nat * nat) (b : bool) (r : rk).
Hypothesis Hr : (r = RkFlush /\ b = false) \/ (exists i, r = RkStart i /\ b = true /\ (i = None \/ i = Some K.1)).
Definition sweeping s : Prop := exists fs, tasks s !! t = Some fs /\
  ((fs = [] /\ covered b K (sh s)) \/ (exists pre g, fs = pre ++ [g] /\ rootless pre /\ root g = Some r /\ passed t K (sh s) g)).
Lemma sweep_noget : ~ is_get r.
Proof. destruct Hr as [[-> _]|(i & -> & _)]; intros []. Qed.
Lemma sweep_return l x f x' fs F : tact t l x f x' fs -> fs = [] -> root f = Some r -> inv2 x F -> passed t K x f -> covered b K x'.
Proof.
  intros Ht Hnil Hf I2 Hp e Hg.
  assert (exists l', cnext t (cache x) = (l', None) /\ x' = set_cache (fun _ => l') x /\ expect K f = Some (b, None)) as (l' & Hc & -> & Hx).
  { destruct Hr as [[-> ->]|(i & -> & -> & Hi)].
    - destruct (return_flush _ _ _ _ _ _ _ _ _ Ht Hnil Hf) as (l' & -> & Hc & ->). by exists l'.
    - destruct (return_start _ _ _ _ _ _ _ _ _ _ Ht Hnil Hf) as (l' & -> & Hc & ->). exists l'. simpl. by rewrite decide_True. }
  unfold passed in Hp. rewrite Hx in Hp. simpl in Hg. pose proof (cget_Some_elem _ _ _ Hg) as Hin.
  assert (l' = (cnext t (cache x)).1) as Hl' by (by rewrite Hc).
  assert (cget K (cache x) = Some e) as Hg2.
  { rewrite <- Hg, Hl'. symmetry. apply (se_get _ _ (same_cnext t (cache x))), I2. }
  destruct (inv2_key _ _ _ _ I2 Hg2) as [HK _]. apply cget_Some_elem in Hg2 as Hin2. apply Hp; [|done|done]. by eapply cnext_none.
Qed.
Lemma sweeping_step s l s' : Inv s -> step s l = Some s' -> (forall c, l <> LCall t c) -> ~ disturbed K s [l] -> sweeping s -> sweeping s'.
Proof.
  intros HI Hs Hnc Hnd (fs & Ht & Hsw). pose proof (Inv_step _ _ _ _ _ _ Hs HI) as HI'.
  destruct (step_act _ _ _ _ _ _ Hs) as (pre & post & others & Hact & Hp & P1 & P2).
  pose proof (inv2_perm _ _ _ P1 (v_2 _ _ HI)) as V2. pose proof (v_2 _ _ HI') as V2'.
  assert (~ disturbs K l pre) as Hd. { intros Hd. apply Hnd. eapply disturbs_disturbed; eauto. }
  destruct (decide (by_task l = Some t)) as [Hby|Hby].
  - destruct (step_tact _ _ _ _ _ _ _ Hs Hby Hnc) as (f & rest & fs' & H1 & H2 & H3). rewrite Ht in H1. injection H1 as ->.
    assert (pre = [f]) as ->.
    { destruct l; simpl in Hby; try done; injection Hby as ->; [by destruct (Hnc c)|..]; simpl in Hp; destruct Hp as (f' & rest' & Ht2 & ->); congruence. }
    destruct Hsw as [[? _]|(pre & g & Heq & Hless & Hg & Hpass)]; [done|].
    assert (bottom r (f :: rest)) as Hbot by (rewrite Heq; by exists pre, g).
    exists (fs' ++ rest). split; [done|].
    destruct (bottom_step _ _ _ _ _ _ _ _ _ _ _ H2 Hbot sweep_noget) as [(Hf & Hb1 & Hb2)|(-> & Hf & Hb)].
    + right. destruct pre as [|f0 pre]; [injection Heq as -> ->; congruence|]. injection Heq as <- ->.
      exists (fs' ++ pre), g. rewrite app_assoc. split; [done|]. apply Forall_cons in Hless as [_ Hless]. split; [|split; [done|]].
      * apply Forall_app. split; [|done]. by eapply tact_rootless.
      * eapply passed_other; [exact Hact|exact V2|done| |done]. by intros f' _ [= <-].
    + assert (f = g) as <-. { destruct pre as [|f0 pre]; [by injection Heq as ->|]. injection Heq as <- Heq. by destruct pre. }
      assert (exec sha nworkers qcap t f (sh s) = Some (sh s', fs')) as He.
      { inversion H2 as [? ? ? ? He|? ? ? ? He|? ? ? ? He|]; subst; try done; destruct f; simpl in He; try done;
          simpl in Hf; injection Hf as <-; by destruct Hr as [[? _]|(? & ? & _)]. }
      rewrite app_nil_r. destruct Hb as [Hb|Hb].
      * left. split; [done|]. by eapply sweep_return; [exact H2|..].
      * right. destruct Hb as (pre' & g' & -> & Hl' & Hg'). exists pre', g'. split; [done|]. split; [done|]. split; [done|].
        destruct (passed_own sha nworkers qcap t K _ _ _ _ others r He) as [Hnil|(pre2 & g2 & Heq2 & Hp2)]; try done.
        { by destruct f. }
        { destruct Hr as [[-> _]|(i & -> & _)]; [by left|right; by exists i]. }
        { by destruct pre'. }
        apply app_inj_tail in Heq2 as [_ ->]. done.
  - exists fs. rewrite (step_other _ _ _ _ _ _ _ Hs Hby). split; [done|]. destruct Hsw as [[-> Hc]|(pre' & g & -> & Hless & Hg & Hpass)].
    + left. split; [done|]. by eapply covered_act; [exact Hact|exact V2|exact V2'|..].
    + right. exists pre', g. split; [done|]. split; [done|]. split; [done|]. eapply passed_other; [exact Hact|exact V2|done| |done].
      intros f ->. by destruct Hby.
Qed.
Lemma sweeping_steps s ls s' : steps s ls s' -> Inv s -> no_call t ls -> ~ disturbed K s ls -> sweeping s -> sweeping s'.
Proof.
  induction 1 as [s|s l s1 ls s2 Hs Hst IH]; [done|]. intros HI Hn Hnd Hsw.
  apply IH; [by eapply Inv_step|intros c Hin; apply (Hn c); by right| |].
  - intros Hd. apply Hnd. by eapply dist_later.
  - eapply sweeping_step; try done.
    + intros c ->. apply (Hn c). by left.
    + intros Hd. apply Hnd. inversion Hd as [| |? ? s1' ? Hs1 Hd1]; subst; [by constructor|by econstructor|]. inversion Hd1.
Qed.
End sweep.
Lemma flush_sweeps t K s s1 ls s2 : Inv s -> step s (LCall t CFlush) = Some s1 -> steps s1 ls s2 -> no_call t ls -> ~ disturbed K s1 ls ->
  returned s2 t -> clean (sh s2) K.
Proof.
  intros HI Hs Hst Hn Hnd Hret. pose proof (step_call _ _ _ _ _ _ _ Hs) as (_ & Hc & _).
  assert (sweeping t K false RkFlush s2) as (fs & Ht & Hsw).
  { eapply sweeping_steps; [by left|exact Hst|by eapply Inv_step|done|done|]. exists [FFlush]. split; [done|]. right. exists [], FFlush. by repeat split. }
  unfold returned in Hret. rewrite Hret in Ht. injection Ht as <-. destruct Hsw as [[_ Hcov]|(pre & g & Heq & _)]; [|by destruct pre].
  unfold clean. destruct (cget K (cache (sh s2))) as [e|] eqn:Hg; [|done]. by destruct (Hcov _ Hg) as [?|[? _]].
Qed.
Lemma start_sweeps t K i s s1 ls s2 : Inv s -> (i = None \/ i = Some K.1) -> step s (LCall t (CStart i)) = Some s1 -> steps s1 ls s2 -> no_call t ls ->
  ~ disturbed K s1 ls -> returned s2 t -> covered true K (sh s2).
Proof.
  intros HI Hi Hs Hst Hn Hnd Hret. pose proof (step_call _ _ _ _ _ _ _ Hs) as (_ & Hc & _).
  assert (sweeping t K true (RkStart i) s2) as (fs & Ht & Hsw).
  { eapply sweeping_steps; [right; by exists i|exact Hst|by eapply Inv_step|done|done|]. exists [FStart i]. split; [done|]. right. exists [], (FStart i). by repeat split. }
  unfold returned in Hret. rewrite Hret in Ht. injection Ht as <-. destruct Hsw as [[_ Hcov]|(pre & g & Heq & _)]; [done|by destruct pre].
Qed.
(** An entry in transit is being hashed or stored. *)
Lemma transit_frame s e : Inv s -> e_transit (ent (sh s) e) = true -> hashing s e.1 \/ exists o, FSend e o ∈ frames s.
Proof.
  intros HI Htr. pose proof (i_tr _ _ (v_2 _ _ HI) e) as Hl. rewrite Htr in Hl. simpl in Hl.
  destruct (lsum_pos (tr e) (frames s)) as (f & Hf & Hp); [lia|].
  assert ((exists r, f = FSha e r) \/ exists o, f = FSend e o) as [[r ->]|[o ->]]; [|left|right; by exists o].
  { destruct f; simpl in Hp; try lia; (destruct (bool_decide _) eqn:Hb; simpl in Hp; [|lia]); apply bool_decide_eq_true in Hb as ->; eauto. }
  apply frame_inv in Hf as [(t & fs & Ht & Hin)|(j & jb & Hj & Heq)]; [|by destruct jb].
  pose proof (v_inert _ _ HI _ _ Ht) as Hin2. destruct fs as [|g fs]; [by apply elem_of_nil in Hin|]. unfold inert in Hin2. simpl in Hin2.
  apply elem_of_cons in Hin as [<-|Hin].
  - by exists t, e, r, fs.
  - rewrite Forall_forall in Hin2. by apply Hin2 in Hin.
Qed.
Lemma start_registers s0 cur0 ls0 s cur K : mounted sha s0 cur0 -> collision_free sha cur0 ls0 -> good_run s0 cur0 ls0 s cur ->
  covered true K (sh s) -> registered sha (sh s) cur K \/ (blocks (sh s) !! K = None /\ cur K = []) \/ hashing s K.
Proof.
  intros Hm Hf Hr Hcov. pose proof (good_is_run _ _ _ _ _ _ _ _ Hr) as Hr2. pose proof (reach_data _ _ _ _ _ _ _ _ Hm Hf Hr2) as V5.
  pose proof (run_Inv _ _ _ _ _ _ _ _ Hr2 (mounted_Inv _ _ _ Hm)) as HI.
  assert (clean (sh s) K -> registered sha (sh s) cur K \/ (blocks (sh s) !! K = None /\ cur K = []) \/ hashing s K) as Hcl.
  { intros Hcl. destruct (clean_row _ _ _ _ _ _ _ _ _ Hm Hf Hr Hcl) as [?|(o & ob & Hb & Ho & Hh & _)]; [by right; left|]. left. by exists o, ob. }
  destruct (cget K (cache (sh s))) as [e|] eqn:Hg; [|apply Hcl; unfold clean; by rewrite Hg].
  destruct (Hcov _ Hg) as [Hdi|[_ Htr]]; [apply Hcl; unfold clean; by rewrite Hg|].
  destruct (inv2_key _ _ _ _ (v_2 _ _ HI) Hg) as [HK _]. destruct (transit_frame _ _ HI Htr) as [Hh|[o Ho]]; [right; right; congruence|].
  left. destruct (u_send _ _ _ (v_4 _ _ HI) _ _ Ho) as (Hb & _ & ob & Hob & Hh & _). exists o, ob. rewrite HK in Hb. split; [done|]. split; [done|].
  rewrite Hh. by rewrite (c_data _ _ _ _ _ V5 _ _ Hg).
Qed.

Lemma good_app s cur ls s1 cur1 ls' s2 cur2 : good_run s cur ls s1 cur1 -> good_run s1 cur1 ls' s2 cur2 -> good_run s cur (ls ++ ls') s2 cur2.
Proof. induction 1; intros Ho; simpl; [done|econstructor; eauto]. Qed.
Lemma good_call s0 cur0 ls0 s cur t c s1 ls s2 cur2 : good_run s0 cur0 ls0 s cur -> step s (LCall t c) = Some s1 -> good_run s1 cur ls s2 cur2 ->
  good_run s0 cur0 (ls0 ++ LCall t c :: ls) s2 cur2.
Proof.
  intros Hr Hs Hr2. eapply good_app; [done|]. econstructor; [done|done| |done]. by intros (? & ? & ? & ? & ? & ? & _).
Qed.

(** ** drop *)
Definition bak_ret (r : ret) : option Z := match r with RetEvict _ _ _ d => d | _ => None end.
Definition bak (f : frame) : option Z :=
  match f with
  | FEvict d | FEvictNext _ _ _ d | FEvictAcq _ _ _ _ d => d
  | FUpload _ r | FUploadAcq _ r | FUploadLocked _ r | FSha _ r => bak_ret r
  | _ => None
  end.
Lemma bak_resume e r b : exists g, resume e r b = [g] /\ bak g = bak_ret r.
Proof. destruct r as [? ? ? d|i|sth], b; by eexists. Qed.
Lemma drop_own t f x x' fs b : exec sha nworkers qcap t f x = Some (x', fs) -> bak f = Some b ->
  (fs = [] /\ max_entries x' = b /\ (Z.of_nat (entries x') <= max_entries x)%Z) \/ (max_entries x' = max_entries x /\ exists pre g, fs = pre ++ [g] /\ bak g = Some b).
Proof.
  intros He Hb. destruct f as [|e r0|e r0|e r0|e r0| | | | | | | | | | | | | | | | |d|ns ne sth d|e ns ne sth d| | | | | | | | | | |]; simpl in Hb; try done; simpl in He.
  all: try (destruct (bak_resume e r0 true) as (gt & Hgt & Hbt); destruct (bak_resume e r0 false) as (gf & Hgf & Hbf); rewrite ?Hgt, ?Hgf in He).
  all: repeat case_match; try done; injection He as <- <-.
  all: try (right; split; [done|];
    first [ by eexists [], _ | by eexists [_], _ | eexists (_ :: deref _), _; split; [reflexivity|congruence] | eexists [_], _; split; [reflexivity|congruence] | eexists [], _; split; [reflexivity|congruence]]).
  left. split; [done|]. injection Hb as ->. split; [done|]. pose proof (clen_entries x) as Hcl. unfold entries in *. simpl. lia.
Qed.
Lemma max_act l x pre x' post : act l x pre x' post -> (forall f, pre = [f] -> root f <> Some RkDrop) -> max_entries x' = max_entries x.
Proof.
  intros Hact Hr. destruct Hact as [t c x|t f x x' fs Hs He|t e o x Hsz|t f x x' fs He|t f c x x' He|j e o x Hj|j st e o x Hj|j k x Hj|x Hx Hq|x Hx|t i b todo later x|k k' o x]; try done.
  - specialize (Hr f eq_refl).
    destruct f as [| | | | | | | | | | | | | | | | | | | | |[]|? ? ? []|? ? ? ? []| | | | | | | | | | |]; simpl in He, Hr; try done;
      unfold cremove, new_entry, mark, unmark, set_entry, lock, unlock in He; repeat case_match; simplify_eq; try done.
  - destruct f; simpl in He; try done; by injection He as <- <-.
  - destruct f; simpl in He; try done; [case_decide; [|done]|]; by injection He as <-.
  - by destruct st.
  - unfold deleted. cbv zeta. by destruct (bool_decide (Exists _ _)).
Qed.
Definition nodrop (fs : list frame) : Prop := Forall (fun f => root f <> Some RkDrop) fs.
Lemma tact_nodrop t l x f x' fs : tact t l x f x' fs -> (forall k e, cget k (cache x) = Some e -> e.1 = k) -> root f <> Some RkDrop -> nodrop fs.
Proof.
  intros Ht Hkey Hf. unfold nodrop. rewrite Forall_forall. destruct (root f) as [r|] eqn:Hr.
  - assert (is_get r \/ ~ is_get r) as [Hg|Hg] by (destruct r; simpl; tauto).
    + destruct r; try done. assert (Forall (get_frame k) fs) as Hall by (eapply tact_get; [done..|]; by right; right).
      rewrite Forall_forall in Hall. intros g Hin Hd. destruct (Hall _ Hin) as [?|[?|?]]; congruence.
    + destruct (tact_bottom _ _ _ _ _ _ _ _ _ _ Ht Hr Hg) as [-> |(pre & g & -> & Hp & Hg2)].
      * intros g Hin. by apply elem_of_nil in Hin.
      * rewrite Forall_forall in Hp. intros g' Hin. apply elem_of_app in Hin as [Hin|Hin]; [by rewrite (Hp _ Hin)|].
        apply elem_of_list_singleton in Hin as ->. congruence.
  - pose proof (tact_rootless _ _ _ _ _ _ _ _ _ Ht Hr) as Hl. rewrite Forall_forall in Hl. intros g Hin. by rewrite (Hl _ Hin).
Qed.
Definition dropping (M : Z) s (t : nat) : Prop :=
  (tasks s !! t = Some [] /\ max_entries (sh s) = M) \/
  (tasks s !! t = Some [FDrop] /\ max_entries (sh s) = M) \/
  (exists pre g, tasks s !! t = Some (pre ++ [g]) /\ rootless pre /\ root g = Some RkDrop /\ bak g = Some M /\ max_entries (sh s) = 0%Z).
Record dropinv (M : Z) (d : option nat) s : Prop := {
  dr_others : forall t fs, d <> Some t -> tasks s !! t = Some fs -> nodrop fs;
  dr_none : d = None -> max_entries (sh s) = M;
  dr_task : forall t, d = Some t -> dropping M s t
}.
Lemma bak_root f b : bak f = Some b -> root f = Some RkDrop.
Proof.
  destruct f as [|e r0|e r0|e r0|e r0| | | | | | | | | | | | | | | | |d|ns ne sth d|e ns ne sth d| | | | | | | | | | |]; simpl; try done; try (by intros ->); destruct r0; simpl; try done; by intros ->.
Qed.
Lemma dropinv_step M d s l s' : Inv s -> step s l = Some s' -> (forall t, l <> LCall t CDrop) -> (forall t c, l = LCall t c -> d <> Some t) ->
  dropinv M d s -> dropinv M d s' /\
  (forall t, d = Some t -> (exists f rest, tasks s !! t = Some (f :: rest)) -> returned s' t -> entries (sh s') = 0).
Proof.
  intros HI Hs Hnd Hnc [D1 D2 D3]. destruct (step_act _ _ _ _ _ _ Hs) as (pre & post & others & Hact & Hp & P1 & P2).
  assert (forall k e, cget k (cache (sh s)) = Some e -> e.1 = k) as Hkey.
  { intros k e Hg. by apply (inv2_key _ _ _ _ (v_2 _ _ HI)) in Hg as [? _]. }
  assert (forall t fs, d <> Some t -> tasks s' !! t = Some fs -> nodrop fs) as N1.
  { intros t fs Hd Ht. destruct (decide (by_task l = Some t)) as [Hby|Hby]; [|rewrite (step_other _ _ _ _ _ _ _ Hs Hby) in Ht; by eapply D1].
    assert ((exists c, l = LCall t c) \/ (forall c, l <> LCall t c)) as [[c ->]|Hc].
    { destruct l; simpl in Hby; try done; injection Hby as ->; [left; by eexists|by right..]. }
    - pose proof (step_call _ _ _ _ _ _ _ Hs) as (_ & Hs2 & _). rewrite Hs2 in Ht. injection Ht as <-.
      destruct c; try (by repeat constructor). by destruct (Hnd t).
    - destruct (step_tact _ _ _ _ _ _ _ Hs Hby Hc) as (f & rest & fs' & H1 & H2 & H3). rewrite H3 in Ht. injection Ht as <-.
      apply D1 in H1; [|done]. apply Forall_cons in H1 as [Hf Hrest]. apply Forall_app. split; [|done]. by eapply tact_nodrop. }
  assert (forall t, d <> Some t -> by_task l = Some t -> max_entries (sh s') = max_entries (sh s)) as N2.
  { intros t Hd Hby. eapply max_act; [exact Hact|]. intros f ->. destruct l; simpl in Hby; try done; injection Hby as ->; simpl in Hp; try done;
      destruct Hp as (f' & rest & Ht & [= <-]); apply D1 in Ht; [|done| |done| |done| |done]; by apply Forall_cons in Ht as [? _]. }
  assert (by_task l = None -> max_entries (sh s') = max_entries (sh s)) as N3.
  { intros Hby. eapply max_act; [exact Hact|]. intros f ->. destruct l; simpl in Hby; try done; simpl in Hp; try done;
      [destruct Hp as (? & ? & _ & [= ->])..|destruct Hp as (? & _ & [= ->])]; done. }
  destruct d as [t|].
  2:{ split; [|done]. split; [done| |done]. intros _. rewrite <- (D2 eq_refl). destruct (by_task l) as [t|] eqn:Hby; [by apply (N2 t)|by apply N3]. }
  specialize (D3 t eq_refl).
  assert (dropping M s' t /\ ((exists f rest, tasks s !! t = Some (f :: rest)) -> returned s' t -> entries (sh s') = 0)) as [E1 E2].
  2:{ split; [split|]; [done|done|by intros ? [= <-]|by intros ? [= <-]]. }
  destruct (decide (by_task l = Some t)) as [Hby|Hby].
  - assert (forall c, l <> LCall t c) as Hc by (intros c ->; by destruct (Hnc t c eq_refl)).
    destruct (step_tact _ _ _ _ _ _ _ Hs Hby Hc) as (f & rest & fs & H1 & H2 & H3).
    destruct D3 as [[Ht Hmax]|[[Ht Hmax]|(pre' & g & Ht & Hless & Hg & Hbak & Hmax)]]; rewrite H1 in Ht; [done|injection Ht as -> ->|injection Ht as Ht].
    + inversion H2 as [? ? ? ? He|? ? ? ? He|? ? ? ? He|]; subst; simpl in He; try done. injection He as He1 He2. subst fs. split.
      * right. right. exists [], (FEvict (Some (max_entries (sh s)))). split; [done|]. split; [done|]. split; [done|]. split; [done|]. by rewrite <- He1.
      * intros _ Hret. unfold returned in Hret. by rewrite H3 in Hret.
    + destruct pre' as [|f0 pre'].
      * injection Ht as -> ->.
        assert (exec sha nworkers qcap t g (sh s) = Some (sh s', fs)) as He.
        { inversion H2 as [? ? ? ? He|? ? ? ? He|? ? ? ? He|]; subst; try done; destruct g; simpl in He; try done. }
        destruct (drop_own _ _ _ _ _ _ He Hbak) as [(-> & Hm & Hen)|(Hm & pre2 & g2 & -> & Hb2)].
        -- split; [left; split; [by rewrite H3|done]|]. intros _ _. rewrite Hmax in Hen. lia.
        -- split.
           ++ right. right. exists pre2, g2. rewrite app_nil_r in H3. split; [done|].
              destruct (tact_bottom _ _ _ _ _ _ _ _ _ _ H2 Hg) as [Hb|(pre3 & g3 & Heq & Hp3 & Hg3)]; [by intros []|by destruct pre2|].
              apply app_inj_tail in Heq as [-> ->]. split; [done|]. split; [done|]. split; [done|]. congruence.
           ++ intros _ Hret. unfold returned in Hret. rewrite H3, app_nil_r in Hret. by destruct pre2.
      * injection Ht as -> ->. apply Forall_cons in Hless as [Hf Hless]. split.
        -- right. right. exists (fs ++ pre'), g. rewrite H3, app_assoc. split; [done|]. split; [apply Forall_app; split; [by eapply tact_rootless|done]|].
           split; [done|]. split; [done|]. rewrite <- Hmax. eapply max_act; [exact Hact|]. intros f ->.
           destruct l; simpl in Hby; try done; injection Hby as ->; simpl in Hp; try done;
             destruct Hp as (f' & rest & Ht & [= <-]); rewrite H1 in Ht; injection Ht as <- <-; congruence.
        -- intros _ Hret. unfold returned in Hret. rewrite H3 in Hret. by destruct fs, pre'.
  - assert (max_entries (sh s') = max_entries (sh s)) as Hmax.
    { destruct (by_task l) as [t'|] eqn:Hb; [|by apply N3]. apply (N2 t'); [congruence|done]. }
    unfold dropping, returned. rewrite Hmax, (step_other _ _ _ _ _ _ _ Hs Hby). split; [done|].
    intros (f & rest & Hf) Hret. congruence.
Qed.
Lemma dropinv_run M d s ls s' d' : one_drop d s ls s' d' -> Inv s -> dropinv M d s -> dropinv M d' s' /\ Inv s'.
Proof.
  induction 1 as [d s|s t s1 ls s2 d Hs Hod IH|d s l s1 ls s2 d' Hs Hn1 Hn2 Hod IH|s t ls s2 d Hret Hod IH]; [done|..]; intros HI HD.
  - apply IH; [by eapply Inv_step|]. pose proof (step_call _ _ _ _ _ _ _ Hs) as (Hno & Hc & Hsh). destruct HD as [D1 D2 D3]. split.
    + intros t' fs Hne Ht. rewrite (step_other _ _ _ _ _ _ t' Hs) in Ht; [by eapply (D1 t')|simpl; congruence].
    + done.
    + intros t' [= <-]. right. left. rewrite Hsh. by split; [|apply D2].
  - apply IH; [by eapply Inv_step|]. by eapply dropinv_step.
  - apply IH; [done|]. destruct HD as [D1 D2 D3]. unfold returned in Hret. split; [|intros _|done].
    + intros t' fs _ Ht. destruct (decide (t' = t)) as [->|Hne]; [|eapply D1; [|done]; congruence]. rewrite Hret in Ht. injection Ht as <-. constructor.
    + destruct (D3 t eq_refl) as [[_ ?]|[[Ht _]|(pre & g & Ht & _)]]; [done| |]; rewrite Hret in Ht; [done|by destruct pre].
Qed.
Lemma dropinv_mounted s cur : mounted sha s cur -> dropinv (max_entries (sh s)) None s.
Proof. intros Hm. split; [|done|done]. intros t fs _ Ht. by rewrite (m_tasks _ _ _ Hm) in Ht. Qed.
Lemma drop_restores s0 cur0 ls s d : mounted sha s0 cur0 -> one_drop None s0 ls s d -> d = None \/ (exists t, d = Some t /\ returned s t) ->
  max_entries (sh s) = max_entries (sh s0).
Proof.
  intros Hm Hod Hd. destruct (dropinv_run _ _ _ _ _ _ Hod (mounted_Inv _ _ _ Hm) (dropinv_mounted _ _ Hm)) as [[D1 D2 D3] _].
  destruct Hd as [->|(t & -> & Hret)]; [by apply D2|]. unfold returned in Hret.
  destruct (D3 t eq_refl) as [[_ ?]|[[Ht _]|(pre & g & Ht & _)]]; [done| |]; rewrite Hret in Ht; [done|by destruct pre].
Qed.
Lemma drop_empties s0 cur0 ls s t l s' f rest : mounted sha s0 cur0 -> one_drop None s0 ls s (Some t) ->
  step s l = Some s' -> tasks s !! t = Some (f :: rest) -> returned s' t -> entries (sh s') = 0.
Proof.
  intros Hm Hod Hs Ht Hret. destruct (dropinv_run _ _ _ _ _ _ Hod (mounted_Inv _ _ _ Hm) (dropinv_mounted _ _ Hm)) as [HD HI].
  destruct (decide (by_task l = Some t)) as [Hby|Hby].
  2:{ unfold returned in Hret. rewrite (step_other _ _ _ _ _ _ _ Hs Hby) in Hret. congruence. }
  eapply (dropinv_step (max_entries (sh s0)) (Some t)); [exact HI|exact Hs| | |exact HD|done|by exists f, rest|done].
  - intros t' ->. simpl in Hby. injection Hby as ->. apply step_call in Hs as (Hno & _). by destruct (Hno f rest).
  - intros t' c -> [= <-]. apply step_call in Hs as (Hno & _). by destruct (Hno f rest).
Qed.

(** ** Deadlocks *)
Section live.
Context (Hw : 0 < nworkers) (Hq : 0 < qcap).
Definition can s : Prop := exists l s', progress l /\ step s l = Some s'.
Lemma run_can s t f rest x' fs : tasks s !! t = Some (f :: rest) -> exec sha nworkers qcap t f (sh s) = Some (x', fs) -> can s.
Proof. intros Ht He. exists (LRun t). eexists. split; [done|]. simpl. by rewrite Ht, He. Qed.
Lemma job_can s j jb : jobs (sh s) !! j = Some jb -> can s.
Proof.
  intros Hj. destruct jb as [e o|k].
  - exists (LUploaded j). eexists. split; [done|]. simpl. by rewrite Hj.
  - exists (LJobRelease j). eexists. split; [done|]. simpl. by rewrite Hj.
Qed.
Lemma send_can s t e o rest : tasks s !! t = Some (FSend e o :: rest) -> can s.
Proof.
  intros Ht. destruct (decide (size (jobs (sh s)) < nworkers)) as [Hlt|Hge].
  - eapply run_can; [done|]. simpl. by rewrite decide_True.
  - destruct (map_choose (jobs (sh s))) as (j & jb & Hj); [|by eapply job_can].
    intros He. rewrite He, map_size_empty in Hge. lia.
Qed.
Lemma holder_top s f : Inv s -> f ∈ frames s -> holds f <> None ->
  (exists t rest, tasks s !! t = Some (f :: rest)) \/ can s.
Proof.
  intros HI Hf Hh. apply frame_inv in Hf as [(t & fs & Ht & Hin)|(j & jb & Hj & Heq)]; [left|right; by eapply job_can].
  pose proof (v_inert _ _ HI _ _ Ht) as Hin2. destruct fs as [|g fs]; [by apply elem_of_nil in Hin|]. unfold inert in Hin2. simpl in Hin2.
  apply elem_of_cons in Hin as [<-|Hin]; [by exists t, fs|]. rewrite Forall_forall in Hin2. by apply Hin2 in Hin.
Qed.
Lemma inflight_can s o : Inv s -> o ∈ inflight (sh s) -> can s.
Proof.
  intros HI Ho. destruct (inflight_job _ _ _ HI Ho) as (e & ob & Hf & _). destruct (holder_top _ _ HI Hf) as [(t & rest & Ht)|?]; [done| |done].
  by eapply send_can.
Qed.
Ltac runs := match goal with Ht : tasks ?s !! ?t = Some (?f :: _) |- can ?s =>
  let He := fresh in destruct (exec sha nworkers qcap t f (sh s)) as [[? ?]|] eqn:He; [by eapply run_can|];
  exfalso; clear -He; simpl in He; unfold new_entry in He; repeat case_match; done end.
Lemma locked_can s k : Inv s -> k ∈ locks (sh s) -> can s.
Proof.
  intros HI Hk. destruct (lockinv_holder _ _ _ (i_lock _ _ (v_2 _ _ HI)) Hk) as (f & Hf & Hh).
  destruct (holder_top _ _ HI Hf) as [(t & rest & Ht)|?]; [congruence| |done].
  destruct f; simpl in Hh; try done.
  - by eapply run_can; [done|].
  - runs.
  - runs.
  - by eapply send_can.
  - runs.
  - exists (LLeave t). eexists. split; [done|]. simpl. by rewrite Ht.
  - runs.
  - destruct (decide (o ∈ inflight (sh s))); [by eapply inflight_can|]. eapply run_can; [done|]. simpl. by rewrite decide_False.
  - runs.
  - by eapply run_can; [done|].
  - exists (LLeave t). eexists. split; [done|]. simpl. by rewrite Ht.
  - by eapply run_can; [done|].
  - runs.
Qed.
Lemma no_deadlock s t : Inv s -> unfinished s t -> can s.
Proof.
  intros HI (f & rest & Ht & Hne). assert (f ∈ frames s) as Hin by (eapply task_frame; [done|by left]).
  destruct (holds f) as [k|] eqn:Hh; [by eapply locked_can, lockinv_locked; [|apply HI|..]|].
  assert (forall k (fs : list frame) x', exec sha nworkers qcap t f (sh s) = (if decide (k ∈ locks (sh s)) then None else Some (x', fs)) -> can s) as Hacq.
  { intros k fs x' He. destruct (decide (k ∈ locks (sh s))); [by eapply locked_can|by eapply run_can]. }
  destruct (exec sha nworkers qcap t f (sh s)) as [[x' fs]|] eqn:He; [by eapply run_can|].
  destruct f; simpl in Hh; try done; simpl in He; try (repeat case_match; done).
  - case_decide; [by eapply locked_can|done].
  - destruct (inv3_deref_row _ _ _ (v_3 _ _ HI) Hin) as [ob Ho]. rewrite Ho in He. by repeat case_match.
  - case_decide; [by eapply inflight_can|]. by case_match.
  - case_decide as Hl; [done|]. destruct (removing (sh s)) as [|o1 l1] eqn:Hrm.
    + destruct (rmq (sh s)) as [|o2 l2] eqn:Hrq; [simpl in Hl; lia|]. exists LBatch. eexists. split; [done|]. simpl. by rewrite Hrm, Hrq.
    + exists LDeleted. eexists. split; [done|]. simpl. by rewrite Hrm.
  - case_decide; [by eapply locked_can|done].
  - case_decide; [by eapply locked_can|done].
  - case_decide; [by eapply locked_can|done].
  - case_decide; [by eapply locked_can|done].
Qed.
End live.
End calls.
