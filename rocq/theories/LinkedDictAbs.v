(** The heap of LinkedDict refines a list of entries and cursors. *)
From stdpp Require Import prelude list gmap fin_map_dom.
From Verif Require Import LinkedDictModel LinkedDictSpec LinkedDictChain.

Section abs.
Context {V : Type}.

Inductive item := E (k : nat) (v : V) | Cur (g : nat).

Definition entry_of (i : item) : option (nat * V) := match i with E k v => Some (k, v) | Cur _ => None end.
Fixpoint entries (is : list item) : list (nat * V) :=
  match is with [] => [] | E k v :: is => (k, v) :: entries is | Cur _ :: is => entries is end.
Definition cursor (i : item) : Prop := match i with Cur _ => True | _ => False end.

Lemma entries_app i1 i2 : entries (i1 ++ i2) = entries i1 ++ entries i2.
Proof. induction i1 as [|[k v|g] i1 IH]; simpl; [done| |]; by rewrite IH. Qed.
Lemma elem_of_entries k v is : (k, v) ∈ entries is <-> E k v ∈ is.
Proof.
  induction is as [|[k' v'|g] is IH]; simpl.
  - by rewrite !elem_of_nil.
  - rewrite !elem_of_cons, IH. naive_solver.
  - rewrite elem_of_cons, IH. naive_solver.
Qed.
Lemma entries_cursors is : Forall cursor is -> entries is = [].
Proof. induction 1 as [|[k v|g] is Hc _ IH]; simpl; done. Qed.

(** What each operation does to the list; [fin]: finished generators. *)
Inductive astep (is : list item) (fin : gset nat) : op V -> list item -> gset nat -> answer V -> Prop :=
| a_len : astep is fin Len is fin (ANum (length (entries is)))
| a_contains_yes k v : E k v ∈ is -> astep is fin (Contains k) is fin (ABool true)
| a_contains_no k : (forall v, E k v ∉ is) -> astep is fin (Contains k) is fin (ABool false)
| a_getitem k v : E k v ∈ is -> astep is fin (GetItem k) is fin (AVal (Some v))
| a_getitem_no k : (forall v, E k v ∉ is) -> astep is fin (GetItem k) is fin AKeyError
| a_getdef k v : E k v ∈ is -> astep is fin (GetDef k) is fin (AVal (Some v))
| a_getdef_no k : (forall v, E k v ∉ is) -> astep is fin (GetDef k) is fin (AVal None)
| a_set i1 k v0 v i2 : is = i1 ++ E k v0 :: i2 ->
    astep is fin (SetItem k v) (i1 ++ E k v :: i2) fin ADone
| a_set_new k v : (forall v', E k v' ∉ is) -> astep is fin (SetItem k v) (is ++ [E k v]) fin ADone
| a_del i1 k v i2 : is = i1 ++ E k v :: i2 -> astep is fin (Del k) (i1 ++ i2) fin ADone
| a_del_no k : (forall v, E k v ∉ is) -> astep is fin (Del k) is fin AKeyError
| a_pop i1 k v i2 : is = i1 ++ E k v :: i2 -> astep is fin (Pop k) (i1 ++ i2) fin (AVal (Some v))
| a_pop_no k : (forall v, E k v ∉ is) -> astep is fin (Pop k) is fin AKeyError
| a_move i1 k v i2 : is = i1 ++ E k v :: i2 -> astep is fin (Move k) ((i1 ++ i2) ++ [E k v]) fin ADone
| a_move_no k : (forall v, E k v ∉ is) -> astep is fin (Move k) is fin AKeyError
| a_linklen : astep is fin LinkLen is fin (ANum (length is))
| a_next_fin g : g ∈ fin -> astep is fin (Next g) is fin AStop
| a_next_yield g is0 i1 cs k v i2 : g ∉ fin ->
    is0 = i1 ++ Cur g :: cs ++ E k v :: i2 -> Forall cursor cs ->
    (is0 = is \/ Cur g ∉ is /\ is0 = Cur g :: is) ->
    astep is fin (Next g) (i1 ++ cs ++ E k v :: Cur g :: i2) fin (AYield k v)
| a_next_stop g is0 i1 cs : g ∉ fin ->
    is0 = i1 ++ Cur g :: cs -> Forall cursor cs ->
    (is0 = is \/ Cur g ∉ is /\ is0 = Cur g :: is) ->
    astep is fin (Next g) (i1 ++ cs) ({[g]} ∪ fin) AStop
| a_close_fin g : g ∈ fin -> astep is fin (Close g) is fin ADone
| a_close_new g : g ∉ fin -> Cur g ∉ is -> astep is fin (Close g) is ({[g]} ∪ fin) ADone
| a_close g i1 i2 : g ∉ fin -> is = i1 ++ Cur g :: i2 ->
    astep is fin (Close g) (i1 ++ i2) ({[g]} ∪ fin) ADone.

Definition rel (s : state V) (x : nat) (i : item) : Prop :=
  match i with
  | E k v => tag (mem s) !! x = Some (NKey k, Some v) /\ data s !! k = Some x
  | Cur g => tag (mem s) !! x = Some (NCursor, None) /\ gens s !! g = Some (Running x)
  end.

Record R (s : state V) (l : list nat) (is : list item) (fin : gset nat) : Prop := {
  r_dl : dl (mem s) l;
  r_rel : Forall2 (rel s) l is;
  r_data : forall k x, data s !! k = Some x -> exists v, E k v ∈ is;
  r_gens : forall g c, gens s !! g = Some (Running c) -> Cur g ∈ is;
  r_fin : forall g, gens s !! g = Some Finished <-> g ∈ fin;
  r_fresh : forall x, is_Some (tag (mem s) !! x) -> x < fresh s
}.

Lemma rel_mono (P Q : nat -> item -> Prop) l is :
  (forall x i, x ∈ l -> i ∈ is -> P x i -> Q x i) -> Forall2 P l is -> Forall2 Q l is.
Proof.
  intros H HF. induction HF as [|x i l is Hx HF IH]; constructor.
  - apply H; [by left|by left|done].
  - apply IH. intros y j Hy Hj. apply H; by right.
Qed.

Lemma init_R : R init [] [] ∅.
Proof.
  split; simpl.
  - split; simpl.
    + split; [done|]. split; [done|done].
    + apply NoDup_cons_2; [by rewrite elem_of_list_singleton|apply NoDup_singleton].
    + intros x Hx. rewrite tag_Some. rewrite !elem_of_cons, elem_of_nil in Hx.
      destruct Hx as [->|[->|[]]]; by eexists.
  - constructor.
  - intros k x Hk. by rewrite lookup_empty in Hk.
  - intros g c Hg. by rewrite lookup_empty in Hg.
  - intros g. rewrite lookup_empty. split; [done|set_solver].
  - intros x Hx. rewrite tag_Some in Hx. destruct Hx as [n Hn].
    apply lookup_insert_Some in Hn as [[<- _]|[_ Hn]]; [unfold hd; lia|].
    apply lookup_singleton_Some in Hn as [<- _]. unfold tl. lia.
Qed.

(** The node of an entry or cursor. *)
Lemma R_split s l i1 i i2 fin : R s l (i1 ++ i :: i2) fin ->
  exists l1 x l2, l = l1 ++ x :: l2 /\ Forall2 (rel s) l1 i1 /\ rel s x i /\ Forall2 (rel s) l2 i2 /\
    x ∉ l1 ++ l2.
Proof.
  intros HR. destruct (proj1 (Forall2_app_inv_r _ _ _ _) (r_rel _ _ _ _ HR)) as (l1 & l' & H1 & H2 & Hl).
  inversion H2 as [|x i' l2 ? Hx H3]; subst. exists l1, x, l2. split; [done|]. split; [done|]. split; [done|].
  split; [done|]. pose proof (dl_nodup _ _ (r_dl _ _ _ _ HR)) as Hnd.
  apply NoDup_cons in Hnd as [_ Hnd]. rewrite <- app_assoc in Hnd. simpl in Hnd.
  rewrite <- Permutation_middle in Hnd. apply NoDup_cons in Hnd as [Hn _].
  rewrite app_assoc, elem_of_app in Hn. tauto.
Qed.

Lemma rel_node_unique (s : state V) l is i x y : Forall2 (rel s) l is -> i ∈ is -> x ∉ l ->
  rel s y i -> rel s x i -> False.
Proof.
  intros HF Hi Hx Hy Hxi. apply elem_of_list_lookup in Hi as [n Hn].
  destruct (Forall2_lookup_r _ _ _ _ _ HF Hn) as (z & Hz & Hr).
  assert (z = x) as ->. { destruct i; simpl in *; destruct Hr as [_ Hr], Hxi as [_ Hxi]; congruence. }
  apply Hx. by eapply elem_of_list_lookup_2.
Qed.

Lemma rel_key_absent (s : state V) l is k v v' x : Forall2 (rel s) l is -> x ∉ l -> rel s x (E k v) -> E k v' ∉ is.
Proof.
  intros HF Hx [_ Hd] Hin. apply elem_of_list_lookup in Hin as [n Hn].
  destruct (Forall2_lookup_r _ _ _ _ _ HF Hn) as (z & Hz & Hr). simpl in Hr. destruct Hr as [_ Hr].
  assert (z = x) as -> by congruence. apply Hx. by eapply elem_of_list_lookup_2.
Qed.
Lemma rel_cur_absent (s : state V) l is g x : Forall2 (rel s) l is -> x ∉ l -> rel s x (Cur g) -> Cur g ∉ is.
Proof.
  intros HF Hx [_ Hd] Hin. apply elem_of_list_lookup in Hin as [n Hn].
  destruct (Forall2_lookup_r _ _ _ _ _ HF Hn) as (z & Hz & Hr). simpl in Hr. destruct Hr as [_ Hr].
  assert (z = x) as -> by congruence. apply Hx. by eapply elem_of_list_lookup_2.
Qed.

Lemma R_key_once s l i1 k v i2 fin : R s l (i1 ++ E k v :: i2) fin -> forall v', E k v' ∉ i1 ++ i2.
Proof.
  intros HR v'. destruct (R_split _ _ _ _ _ _ HR) as (l1 & x & l2 & -> & H1 & Hx & H2 & Hn).
  eapply rel_key_absent; [by apply Forall2_app|done|done].
Qed.
Lemma R_cur_once s l i1 g i2 fin : R s l (i1 ++ Cur g :: i2) fin -> Cur g ∉ i1 ++ i2.
Proof.
  intros HR. destruct (R_split _ _ _ _ _ _ HR) as (l1 & x & l2 & -> & H1 & Hx & H2 & Hn).
  eapply rel_cur_absent; [by apply Forall2_app|done|done].
Qed.

Lemma R_lookup s l is fin k :
  R s l is fin ->
  (exists i1 v i2 x, is = i1 ++ E k v :: i2 /\ data s !! k = Some x /\ tag (mem s) !! x = Some (NKey k, Some v)) \/
  (data s !! k = None /\ forall v, E k v ∉ is).
Proof.
  intros HR. destruct (data s !! k) as [x|] eqn:Hk.
  - left. destruct (r_data _ _ _ _ HR _ _ Hk) as [v Hv]. apply elem_of_list_split in Hv as (i1 & i2 & ->).
    destruct (R_split _ _ _ _ _ _ HR) as (l1 & y & l2 & -> & H1 & [Ht Hd] & H2 & Hn).
    exists i1, v, i2, x. rewrite Hk in Hd. injection Hd as ->. done.
  - right. split; [done|]. intros v Hin. apply elem_of_list_lookup in Hin as [n Hn].
    destruct (Forall2_lookup_r _ _ _ _ _ (r_rel _ _ _ _ HR) Hn) as (z & Hz & _ & Hr). congruence.
Qed.

Lemma R_gen s l is fin g :
  R s l is fin ->
  (g ∈ fin /\ gens s !! g = Some Finished /\ Cur g ∉ is) \/
  (g ∉ fin /\ exists i1 i2 c, is = i1 ++ Cur g :: i2 /\ gens s !! g = Some (Running c)) \/
  (g ∉ fin /\ gens s !! g = None /\ Cur g ∉ is).
Proof.
  intros HR.
  assert (Cur g ∈ is -> exists c, gens s !! g = Some (Running c)) as Hc.
  { intros Hin. apply elem_of_list_lookup in Hin as [n Hn].
    destruct (Forall2_lookup_r _ _ _ _ _ (r_rel _ _ _ _ HR) Hn) as (z & Hz & _ & Hr). by exists z. }
  destruct (gens s !! g) as [[c|]|] eqn:Hg.
  - right; left. split; [rewrite <- (r_fin _ _ _ _ HR); congruence|].
    pose proof (r_gens _ _ _ _ HR _ _ Hg) as Hin. apply elem_of_list_split in Hin as (i1 & i2 & ->). by eauto.
  - left. split; [by apply (r_fin _ _ _ _ HR)|]. split; [done|]. intros [c ?]%Hc. congruence.
  - right; right. split; [rewrite <- (r_fin _ _ _ _ HR); congruence|]. split; [done|]. intros [c ?]%Hc. congruence.
Qed.

Lemma size_data s l is fin : R s l is fin -> size (data s) = length (entries is).
Proof.
  intros HR. rewrite <- (size_dom (D := gset nat)).
  assert (dom (data s) = (list_to_set (map fst (entries is)) : gset nat)) as ->.
  { apply set_eq. intros k. rewrite elem_of_dom, elem_of_list_to_set, elem_of_list_fmap. split.
    - intros [x Hx]. destruct (r_data _ _ _ _ HR _ _ Hx) as [v Hv]. exists (k, v). by rewrite elem_of_entries.
    - intros ([k' v] & -> & Hin). rewrite elem_of_entries in Hin. simpl.
      destruct (R_lookup _ _ _ _ k' HR) as [(i1 & v' & i2 & x & _ & Hx & _)|[_ Hno]]; [by eexists|].
      by destruct (Hno v). }
  rewrite size_list_to_set; [by rewrite map_length|].
  assert (forall is' l', Forall2 (rel s) l' is' -> NoDup l' -> NoDup (map fst (entries is'))) as Hnd.
  { clear. intros is' l' HF. induction HF as [|x i l is Hx HF IH]; intros Hnd; simpl; [constructor|].
    apply NoDup_cons in Hnd as [Hn Hnd]. destruct i as [k v|g]; simpl; [|by apply IH].
    constructor; [|by apply IH]. intros ([k' v'] & Hk & Hin)%elem_of_list_fmap. simpl in Hk. subst k'.
    rewrite elem_of_entries in Hin. by eapply rel_key_absent. }
  apply (Hnd is l (r_rel _ _ _ _ HR)).
  pose proof (dl_nodup _ _ (r_dl _ _ _ _ HR)) as Hn. apply NoDup_cons in Hn as [_ Hn]. by apply NoDup_app in Hn as (? & _).
Qed.

Lemma val_of_tag (s : state V) x k v : tag (mem s) !! x = Some (k, v) -> val_of x s = v.
Proof.
  unfold tag, val_of. rewrite lookup_fmap. destruct (mem s !! x) as [n|]; simpl; [|done]. congruence.
Qed.

(** A node that is not in the heap yet. *)
Lemma fresh_node s l is fin k v :
  R s l is fin ->
  let h := <[fresh s := Node k v None None]> (mem s) in
  dl h l /\ fresh s ∉ hd :: l ++ [tl] /\ tag h = <[fresh s := (k, v)]> (tag (mem s)).
Proof.
  intros HR. cbv zeta.
  assert (fresh s ∉ hd :: l ++ [tl]) as Hn.
  { intros Hin. apply (dl_dom _ _ (r_dl _ _ _ _ HR)) in Hin. apply (r_fresh _ _ _ _ HR) in Hin. lia. }
  split; [|split; [done|]].
  - destruct (r_dl _ _ _ _ HR) as [Hc Hnd Hdom]. split; [|done|].
    + eapply (chain_ext_right _ _ _ _ hd); [| |exact Hc].
      * intros y Hy. unfold get_next. rewrite lookup_insert_ne; [done|]. intros <-. done.
      * intros y Hy. unfold get_prev. rewrite lookup_insert_ne; [done|]. intros <-. apply Hn. by right.
    + intros x Hx. rewrite tag_Some. rewrite lookup_insert_is_Some. specialize (Hdom x Hx).
      rewrite tag_Some in Hdom. destruct (decide (fresh s = x)); [by left|by right].
  - unfold tag. by rewrite fmap_insert.
Qed.

(** ** Simulation *)
Lemma count_spec (s : state V) (h : heap V) l x r fuel :
  chain (fun x => get_next x h) (fun x => get_prev x h) (x :: r) ->
  x :: r = l ++ [tl] -> tl ∉ l -> length l < fuel -> count fuel x h = Some (length l).
Proof.
  revert x r fuel. induction l as [|y l IH]; intros x r fuel Hc Heq Hn Hf; (destruct fuel as [|fuel]; [lia|]); simpl.
  - injection Heq as -> ->. by rewrite decide_True.
  - injection Heq as -> ->. rewrite not_elem_of_cons in Hn. destruct Hn as [Hy Hn].
    rewrite decide_False by congruence.
    destruct (l ++ [tl]) as [|z r] eqn:Hr; [by destruct l|].
    change (get_next y h = Some z /\ get_prev z h = Some y /\
            chain (fun x => get_next x h) (fun x => get_prev x h) (z :: r)) in Hc.
    destruct Hc as (-> & _ & Hc). rewrite (IH z r fuel Hc); [done|done|done|]. simpl in Hf. lia.
Qed.

Lemma list_size (h : heap V) l : dl h l -> length l + 2 <= size h.
Proof.
  intros [_ Hnd Hdom]. rewrite <- (size_dom (D := gset nat)).
  assert (length l + 2 = size (list_to_set (hd :: l ++ [tl]) : gset nat)) as ->.
  { rewrite size_list_to_set by done. simpl. rewrite app_length. simpl. lia. }
  apply subseteq_size. intros x Hx. apply elem_of_list_to_set in Hx. apply elem_of_dom. rewrite <- tag_Some. by apply Hdom.
Qed.

(** The inner loop skips cursors. *)
Lemma advance_spec (T : nat -> nkey) (h : heap V) l1 c cs r fuel :
  dl h (l1 ++ c :: cs ++ r) ->
  Forall (fun x => tag h !! x = Some (NCursor, None)) cs ->
  length cs < fuel ->
  match r with
  | [] => exists h', advance fuel c h = Some (h', None) /\ tag h' = tag h /\ dl h' (l1 ++ cs ++ [c])
  | x :: r => forall k v, tag h !! x = Some (NKey k, Some v) ->
      exists h', advance fuel c h = Some (h', Some (k, v)) /\ tag h' = tag h /\ dl h' (l1 ++ cs ++ x :: c :: r)
  end.
Proof.
  revert h l1 fuel. induction cs as [|y cs IH]; intros h l1 fuel Hdl Hcs Hf; (destruct fuel as [|fuel]; [simpl in Hf; lia|]).
  - destruct r as [|x r].
    + simpl. destruct (around l1 c []) as (m1 & a & b & m2 & Hfull & Hm1 & Hm2).
      simpl in Hm2. injection Hm2 as <- <-.
      simpl in Hdl. pose proof (dl_chain _ _ Hdl) as Hc. rewrite Hfull in Hc.
      replace (m1 ++ [a; c; tl]) with ((m1 ++ [a]) ++ c :: tl :: []) in Hc by (by rewrite <- app_assoc).
      destruct (chain_mid _ _ _ _ _ _ Hc) as [-> _]. rewrite decide_True by done. by exists h.
    + intros k v Hx. simpl in Hdl. destruct (swap_spec _ _ _ _ _ Hdl) as (p & a & Hp & Hn & Ha & Hxt & h' & Hh & HT & Hd').
      cbn [advance]. rewrite Hn, decide_False by done. rewrite Hp, Ha.
      revert Hh. destruct (set_next p (Some x) h) as [h1|]; [|done]. cbn [mbind option_bind].
      destruct (set_prev x (Some p) h1) as [h2|]; [|done]. cbn [mbind option_bind].
      destruct (set_next x (Some c) h2) as [h3|]; [|done]. cbn [mbind option_bind].
      destruct (set_prev c (Some x) h3) as [h4|]; [|done]. cbn [mbind option_bind].
      destruct (set_next c (Some a) h4) as [h5|]; [|done]. cbn [mbind option_bind].
      intros ->. cbn [mbind option_bind].
      rewrite <- HT in Hx. unfold tag in Hx. rewrite lookup_fmap in Hx.
      destruct (h' !! x) as [[kk vv pp nn]|]; simpl in Hx; [|done]. injection Hx as -> ->.
      exists h'. done.
  - apply Forall_cons in Hcs as [Hy Hcs]. simpl in Hdl.
    destruct (swap_spec _ _ _ _ _ Hdl) as (p & a & Hp & Hn & Ha & Hxt & h' & Hh & HT & Hd').
    assert (advance (S fuel) c h = advance fuel c h') as Hadv.
    { cbn [advance]. rewrite Hn, decide_False by done. rewrite Hp, Ha.
      revert Hh. destruct (set_next p (Some y) h) as [h1|]; [|done]. cbn [mbind option_bind].
      destruct (set_prev y (Some p) h1) as [h2|]; [|done]. cbn [mbind option_bind].
      destruct (set_next y (Some c) h2) as [h3|]; [|done]. cbn [mbind option_bind].
      destruct (set_prev c (Some y) h3) as [h4|]; [|done]. cbn [mbind option_bind].
      destruct (set_next c (Some a) h4) as [h5|]; [|done]. cbn [mbind option_bind].
      intros ->. cbn [mbind option_bind].
      rewrite <- HT in Hy. unfold tag in Hy. rewrite lookup_fmap in Hy.
      destruct (h' !! y) as [[kk vv pp nn]|]; simpl in Hy; [|done]. injection Hy as -> ->. done. }
    replace (l1 ++ y :: c :: cs ++ r) with ((l1 ++ [y]) ++ c :: cs ++ r) in Hd' by (by rewrite <- app_assoc).
    rewrite <- HT in Hcs. simpl in Hf. specialize (IH h' (l1 ++ [y]) fuel Hd' Hcs ltac:(lia)).
    rewrite Hadv. destruct r as [|x r].
    + destruct IH as (h'' & H1 & H2 & H3). exists h''. split; [done|]. split; [congruence|].
      by rewrite <- app_assoc in H3.
    + intros k v Hx. rewrite <- HT in Hx. destruct (IH k v Hx) as (h'' & H1 & H2 & H3).
      exists h''. split; [done|]. split; [congruence|]. by rewrite <- app_assoc in H3.
Qed.

(** Split what follows a cursor into cursors and the next entry. *)
Lemma split_cursors (i2 : list item) : exists cs r, i2 = cs ++ r /\ Forall cursor cs /\
  (r = [] \/ exists k v r', r = E k v :: r').
Proof.
  induction i2 as [|[k v|g] i2 (cs & r & -> & Hc & Hr)].
  - exists [], []. split; [done|]. split; [constructor|by left].
  - exists [], (E k v :: cs ++ r). split; [done|]. split; [constructor|]. right. by eauto.
  - exists (Cur g :: cs), r. split; [done|]. split; [by constructor|done].
Qed.

(** Body of [next(g)], the cursor being in the list. *)
Lemma next_sim s l i1 g i2 fin c :
  R s l (i1 ++ Cur g :: i2) fin -> gens s !! g = Some (Running c) -> g ∉ fin ->
  exists s' l' is' fin' a,
    match advance (size (mem s)) c (mem s) with
      | None => crash s
      | Some (h, Some (k, v)) => (State h (data s) (fresh s) (<[g := Running c]> (gens s)), AYield k v)
      | Some (h, None) =>
        match unlink c h with
        | None => crash s
        | Some h => (State h (data s) (fresh s) (<[g := Finished]> (gens s)), AStop)
        end
      end = (s', a) /\ R s' l' is' fin' /\
    ((exists cs k v r, i2 = cs ++ E k v :: r /\ Forall cursor cs /\
        is' = i1 ++ cs ++ E k v :: Cur g :: r /\ fin' = fin /\ a = AYield k v) \/
     (Forall cursor i2 /\ is' = i1 ++ i2 /\ fin' = {[g]} ∪ fin /\ a = AStop)).
Proof.
  intros HR Hg Hfin. pose proof HR as HR0.
  destruct (R_split _ _ _ _ _ _ HR) as (l1 & c' & l2 & -> & H1 & [Htc Hgc] & H2 & Hn).
  assert (c' = c) as -> by congruence.
  destruct (split_cursors i2) as (cs & r & -> & Hcs & Hr).
  destruct (proj1 (Forall2_app_inv_r _ _ _ _) H2) as (lcs & lr & H2a & H2b & ->).
  assert (Forall (fun x => tag (mem s) !! x = Some (NCursor, None)) lcs) as Hlcs.
  { apply Forall_forall. intros x Hx. apply elem_of_list_lookup in Hx as [j Hj].
    destruct (Forall2_lookup_l _ _ _ _ _ H2a Hj) as (i & Hi & Hrel).
    apply elem_of_list_lookup_2 in Hi. rewrite Forall_forall in Hcs. specialize (Hcs _ Hi).
    destruct i; [done|]. apply Hrel. }
  pose proof (list_size _ _ (r_dl _ _ _ _ HR)) as Hsz. rewrite !app_length in Hsz. simpl in Hsz. rewrite app_length in Hsz.
  pose proof (advance_spec (fun _ => NNone) (mem s) l1 c lcs lr (size (mem s)) (r_dl _ _ _ _ HR) Hlcs ltac:(lia)) as Hadv.
  destruct Hr as [->|(k & v & r' & ->)].
  - inversion H2b; subst. destruct Hadv as (h & -> & HT & Hdl).
    replace (l1 ++ lcs ++ [c]) with ((l1 ++ lcs) ++ c :: []) in Hdl by (by rewrite <- app_assoc).
    destruct (unlink_spec _ _ _ _ Hdl) as (h' & -> & HT' & Hdl').
    rewrite !app_nil_r in *.
    eexists _, (l1 ++ lcs), (i1 ++ cs), ({[g]} ∪ fin), AStop. split; [done|]. split.
    2:{ right. done. }
    assert (Cur g ∉ i1 ++ cs) as Hno by (by eapply R_cur_once).
    assert (tag h' = tag (mem s)) as HT2 by congruence.
    destruct HR. split; simpl.
    + done.
    + assert (Forall2 (rel s) (l1 ++ lcs) (i1 ++ cs)) as HF by (by apply Forall2_app).
      eapply rel_mono; [|exact HF]. intros x i Hx Hi Hrel. destruct i as [k v|g']; simpl in *; rewrite HT2; [done|].
      rewrite lookup_insert_ne; [done|]. intros <-. done.
    + intros k x Hk. destruct (r_data0 _ _ Hk) as [v Hv]. exists v.
      rewrite elem_of_app, elem_of_cons in Hv. rewrite elem_of_app. naive_solver.
    + intros g' c' Hg'. destruct (decide (g' = g)) as [->|Hne].
      * rewrite lookup_insert in Hg'. done.
      * rewrite lookup_insert_ne in Hg' by done. specialize (r_gens0 _ _ Hg').
        rewrite elem_of_app, elem_of_cons in r_gens0. rewrite elem_of_app. naive_solver.
    + intros g'. rewrite elem_of_union, elem_of_singleton. destruct (decide (g' = g)) as [->|Hne].
      * rewrite lookup_insert. naive_solver.
      * rewrite lookup_insert_ne by done. rewrite r_fin0. naive_solver.
    + rewrite HT2. done.
  - inversion H2b as [|x ? lr' ? Hx H2c]; subst.
    destruct Hx as [Htx Hdx]. destruct (Hadv k v Htx) as (h & -> & HT & Hdl).
    eexists _, (l1 ++ lcs ++ x :: c :: lr'), (i1 ++ cs ++ E k v :: Cur g :: r'), fin, (AYield k v).
    split; [done|]. split.
    2:{ left. exists cs, k, v, r'. done. }
    assert (forall y i, rel s y i -> rel (State h (data s) (fresh s) (<[g:=Running c]> (gens s))) y i) as Hmono.
    { intros y i Hrel. destruct i as [k' v'|g']; simpl in *; rewrite HT; [done|].
      destruct (decide (g' = g)) as [->|Hne]; [|by rewrite lookup_insert_ne].
      rewrite lookup_insert. destruct Hrel as [? Hrel]. split; [done|]. congruence. }
    destruct HR. split; simpl.
    + done.
    + apply (rel_mono (rel s)); [intros; by apply Hmono|].
      apply Forall2_app; [done|]. apply Forall2_app; [done|]. constructor; [done|]. constructor; done.
    + intros k' x' Hk. destruct (r_data0 _ _ Hk) as [v' Hv]. exists v'.
      rewrite elem_of_app, elem_of_cons, elem_of_app, elem_of_cons in Hv.
      rewrite !elem_of_app, !elem_of_cons. naive_solver.
    + intros g' c' Hg'. destruct (decide (g' = g)) as [->|Hne].
      * rewrite !elem_of_app, !elem_of_cons. tauto.
      * rewrite lookup_insert_ne in Hg' by done. specialize (r_gens0 _ _ Hg').
        rewrite elem_of_app, elem_of_cons, elem_of_app, elem_of_cons in r_gens0.
        rewrite !elem_of_app, !elem_of_cons. naive_solver.
    + intros g'. rewrite <- r_fin0. destruct (decide (g' = g)) as [->|Hne].
      * rewrite lookup_insert, Hg. done.
      * by rewrite lookup_insert_ne.
    + rewrite HT. done.
Qed.

Lemma step_sim s l is fin o : R s l is fin ->
  exists l' is' fin', astep is fin o is' fin' (step s o).2 /\ R (step s o).1 l' is' fin'.
Proof.
  intros HR. destruct o as [|k|k|k|k v|k|k|k| |g|g]; cbn [step].
  - exists l, is, fin. rewrite (size_data _ _ _ _ HR). split; [constructor|done].
  - exists l, is, fin. split; [|done].
    destruct (R_lookup _ _ _ _ k HR) as [(i1 & v & i2 & x & -> & Hx & _)|[Hx Hno]]; rewrite Hx.
    + rewrite bool_decide_eq_true_2 by eauto. apply (a_contains_yes _ _ _ v). apply elem_of_app. right. by left.
    + rewrite bool_decide_eq_false_2 by (intros [? ?]; done). by constructor.
  - destruct (R_lookup _ _ _ _ k HR) as [(i1 & v & i2 & x & -> & Hx & Ht)|[Hx Hno]]; rewrite Hx.
    + exists l, (i1 ++ E k v :: i2), fin. simpl. rewrite (val_of_tag _ _ _ _ Ht). split; [|done].
      constructor. apply elem_of_app. right. by left.
    + exists l, is, fin. split; [by constructor|done].
  - destruct (R_lookup _ _ _ _ k HR) as [(i1 & v & i2 & x & -> & Hx & Ht)|[Hx Hno]]; rewrite Hx.
    + exists l, (i1 ++ E k v :: i2), fin. simpl. rewrite (val_of_tag _ _ _ _ Ht). split; [|done].
      constructor. apply elem_of_app. right. by left.
    + exists l, is, fin. split; [by constructor|done].
  - destruct (R_lookup _ _ _ _ k HR) as [(i1 & v0 & i2 & x & -> & Hx & Ht)|[Hx Hno]]; rewrite Hx.
    + (* overwrite *)
      destruct (R_split _ _ _ _ _ _ HR) as (l1 & x' & l2 & -> & H1 & [_ Hd] & H2 & Hn).
      assert (x' = x) as -> by congruence.
      pose proof (R_key_once _ _ _ _ _ _ _ HR) as Honce.
      unfold set_val. assert (is_Some (mem s !! x)) as [n Hnx] by (rewrite <- tag_Some; by eexists).
      rewrite Hnx. simpl. exists (l1 ++ x :: l2), (i1 ++ E k v :: i2), fin. split; [by apply (a_set _ _ i1 k v0)|].
      set (h := <[x := _]> (mem s)).
      assert (tag h = <[x := (NKey k, Some v)]> (tag (mem s))) as HT.
      { unfold h, tag. rewrite fmap_insert. simpl. unfold tag in Ht. rewrite lookup_fmap, Hnx in Ht. simpl in Ht. congruence. }
      assert (forall y, get_next y h = get_next y (mem s)) as HN.
      { intros y. unfold h, get_next. destruct (decide (y = x)) as [->|]; [by rewrite lookup_insert, Hnx|by rewrite lookup_insert_ne]. }
      assert (forall y, get_prev y h = get_prev y (mem s)) as HP.
      { intros y. unfold h, get_prev. destruct (decide (y = x)) as [->|]; [by rewrite lookup_insert, Hnx|by rewrite lookup_insert_ne]. }
      destruct HR. split; simpl.
      * destruct r_dl0 as [Hc Hnd Hdom]. split; [|done|].
        { eapply (chain_ext_right _ _ _ _ hd); [| |exact Hc]; intros; [apply HN|apply HP]. }
        { intros y Hy. rewrite HT. apply lookup_insert_is_Some'. right. by apply Hdom. }
      * apply Forall2_app; [|constructor].
        { eapply rel_mono; [|exact H1]. intros y i Hy Hi Hrel. rewrite elem_of_app in Hn.
          destruct i; simpl in *; rewrite HT, lookup_insert_ne by (intros ->; tauto); done. }
        { simpl. rewrite HT, lookup_insert. done. }
        { eapply rel_mono; [|exact H2]. intros y i Hy Hi Hrel. rewrite elem_of_app in Hn.
          destruct i; simpl in *; rewrite HT, lookup_insert_ne by (intros ->; tauto); done. }
      * intros k' x' Hk'. destruct (decide (k' = k)) as [->|Hne].
        { exists v. apply elem_of_app. right. by left. }
        destruct (r_data0 _ _ Hk') as [v' Hv']. exists v'.
        rewrite elem_of_app, elem_of_cons in Hv'; rewrite elem_of_app, elem_of_cons. naive_solver.
      * intros g c Hg. specialize (r_gens0 _ _ Hg). rewrite elem_of_app, elem_of_cons in r_gens0; rewrite elem_of_app, elem_of_cons. naive_solver.
      * done.
      * intros y Hy. rewrite HT in Hy. apply lookup_insert_is_Some' in Hy as [<-|Hy]; [|by apply r_fresh0].
        apply r_fresh0. by eexists.
    + (* new *)
      destruct (fresh_node s l is fin (NKey k) (Some v) HR) as (Hdl & Hfr & HT).
      destruct (append_spec _ _ (fresh s) Hdl Hfr) as (h' & -> & HT' & Hdl').
      { rewrite HT, lookup_insert. by eexists. }
      exists (l ++ [fresh s]), (is ++ [E k v]), fin. split; [by apply a_set_new|].
      rewrite HT in HT'.
      assert (forall y, y ∈ l -> y <> fresh s) as Hne.
      { intros y Hy ->. apply Hfr. right. apply elem_of_app. by left. }
      destruct HR. split; simpl.
      * done.
      * apply Forall2_app; [|constructor; [|constructor]].
        { eapply rel_mono; [|exact r_rel0]. intros y i Hy Hi Hrel. specialize (Hne y Hy).
          destruct i as [k' v'|g]; simpl in *; rewrite HT', lookup_insert_ne by done; [|done].
          rewrite lookup_insert_ne; [done|]. intros <-. by apply (Hno v'). }
        { simpl. rewrite HT', !lookup_insert. done. }
      * intros k' x' Hk'. destruct (decide (k' = k)) as [->|Hkk].
        { exists v. apply elem_of_app. right. by left. }
        rewrite lookup_insert_ne in Hk' by done. destruct (r_data0 _ _ Hk') as [v' Hv']. exists v'.
        apply elem_of_app. by left.
      * intros g c Hg. apply elem_of_app. left. by eapply r_gens0.
      * done.
      * intros y Hy. rewrite HT' in Hy. apply lookup_insert_is_Some' in Hy as [<-|Hy]; [lia|].
        apply r_fresh0 in Hy. lia.
  - destruct (R_lookup _ _ _ _ k HR) as [(i1 & v & i2 & x & -> & Hx & Ht)|[Hx Hno]]; rewrite Hx.
    + destruct (R_split _ _ _ _ _ _ HR) as (l1 & x' & l2 & -> & H1 & [_ Hd] & H2 & Hn).
      assert (x' = x) as -> by congruence.
      pose proof (R_key_once _ _ _ _ _ _ _ HR) as Honce.
      destruct (unlink_spec _ _ _ _ (r_dl _ _ _ _ HR)) as (h' & -> & HT & Hdl). simpl.
      exists (l1 ++ l2), (i1 ++ i2), fin. split; [by apply (a_del _ _ i1 k v)|].
      destruct HR. split; simpl; [done| | |..]; rewrite ?HT; try done.
      * apply (rel_mono (rel s)); [|by apply Forall2_app]. intros y i Hy Hi Hrel.
        destruct i as [k' v'|g]; simpl in *; rewrite HT; [|done].
        rewrite lookup_delete_ne; [done|]. intros <-. by apply (Honce v').
      * intros k' x' Hk'. apply lookup_delete_Some in Hk' as [Hne Hk'].
        destruct (r_data0 _ _ Hk') as [v' Hv']. exists v'.
        rewrite elem_of_app, elem_of_cons in Hv'. rewrite elem_of_app. naive_solver.
      * intros g c Hg. specialize (r_gens0 _ _ Hg). rewrite elem_of_app, elem_of_cons in r_gens0. rewrite elem_of_app. naive_solver.
    + exists l, is, fin. split; [by constructor|done].
  - destruct (R_lookup _ _ _ _ k HR) as [(i1 & v & i2 & x & -> & Hx & Ht)|[Hx Hno]]; rewrite Hx.
    + destruct (R_split _ _ _ _ _ _ HR) as (l1 & x' & l2 & -> & H1 & [_ Hd] & H2 & Hn).
      assert (x' = x) as -> by congruence.
      pose proof (R_key_once _ _ _ _ _ _ _ HR) as Honce.
      destruct (unlink_spec _ _ _ _ (r_dl _ _ _ _ HR)) as (h' & -> & HT & Hdl). simpl.
      exists (l1 ++ l2), (i1 ++ i2), fin. rewrite (val_of_tag _ _ _ _ Ht). split; [by apply (a_pop _ _ i1 k v)|].
      destruct HR. split; simpl; [done| | |..]; rewrite ?HT; try done.
      * apply (rel_mono (rel s)); [|by apply Forall2_app]. intros y i Hy Hi Hrel.
        destruct i as [k' v'|g]; simpl in *; rewrite HT; [|done].
        rewrite lookup_delete_ne; [done|]. intros <-. by apply (Honce v').
      * intros k' x' Hk'. apply lookup_delete_Some in Hk' as [Hne Hk'].
        destruct (r_data0 _ _ Hk') as [v' Hv']. exists v'.
        rewrite elem_of_app, elem_of_cons in Hv'. rewrite elem_of_app. naive_solver.
      * intros g c Hg. specialize (r_gens0 _ _ Hg). rewrite elem_of_app, elem_of_cons in r_gens0. rewrite elem_of_app. naive_solver.
    + exists l, is, fin. split; [by constructor|done].
  - destruct (R_lookup _ _ _ _ k HR) as [(i1 & v & i2 & x & -> & Hx & Ht)|[Hx Hno]]; rewrite Hx.
    + destruct (R_split _ _ _ _ _ _ HR) as (l1 & x' & l2 & -> & H1 & [_ Hd] & H2 & Hn).
      assert (x' = x) as -> by congruence.
      destruct (unlink_spec _ _ _ _ (r_dl _ _ _ _ HR)) as (h & -> & HT & Hdl). cbn [mbind option_bind].
      destruct (append_spec _ _ x Hdl) as (h' & -> & HT' & Hdl').
      { pose proof (dl_nodup _ _ (r_dl _ _ _ _ HR)) as Hnd. rewrite <- app_assoc in Hnd. simpl in Hnd.
        change (hd :: l1 ++ x :: l2 ++ [tl]) with ((hd :: l1) ++ x :: l2 ++ [tl]) in Hnd.
        rewrite <- Permutation_middle in Hnd. apply NoDup_cons in Hnd as [Hnn _]. by rewrite <- app_assoc. }
      { rewrite HT, Ht. by eexists. }
      simpl. exists ((l1 ++ l2) ++ [x]), ((i1 ++ i2) ++ [E k v]), fin. split; [by apply a_move|].
      assert (tag h' = tag (mem s)) as HT2 by congruence.
      destruct HR. split; simpl; [done| | |..]; rewrite ?HT2; try done.
      * apply (rel_mono (rel s)).
        { intros y i Hy Hi Hrel. destruct i; simpl in *; by rewrite HT2. }
        apply Forall2_app; [by apply Forall2_app|]. constructor; [done|constructor].
      * intros k' x' Hk'. destruct (r_data0 _ _ Hk') as [v' Hv']. exists v'.
        rewrite elem_of_app, elem_of_cons in Hv'. rewrite !elem_of_app, elem_of_list_singleton. naive_solver.
      * intros g c Hg. specialize (r_gens0 _ _ Hg). rewrite elem_of_app, elem_of_cons in r_gens0.
        rewrite !elem_of_app, elem_of_list_singleton. naive_solver.
    + exists l, is, fin. split; [by constructor|done].
  - exists l, is, fin.
    destruct (l ++ [tl]) as [|z r] eqn:Hr; [by destruct l|].
    pose proof (dl_chain _ _ (r_dl _ _ _ _ HR)) as Hc. rewrite Hr in Hc.
    destruct Hc as (Hz & _ & Hc). rewrite Hz.
    assert (tl ∉ l) as Htl.
    { pose proof (dl_nodup _ _ (r_dl _ _ _ _ HR)) as Hnd. apply NoDup_cons in Hnd as [_ Hnd].
      apply NoDup_app in Hnd as (_ & Hd & _). intros Hin. apply (Hd _ Hin). by left. }
    rewrite (count_spec s (mem s) l z r _ Hc (eq_sym Hr) Htl).
    2:{ pose proof (list_size _ _ (r_dl _ _ _ _ HR)). lia. }
    simpl. rewrite (Forall2_length _ _ _ (r_rel _ _ _ _ HR)). split; [constructor|done].
  - destruct (R_gen _ _ _ _ g HR) as [(Hf & -> & _)|[(Hf & i1 & i2 & c & -> & Hg)|(Hf & Hg & Hno)]].
    + exists l, is, fin. split; [by constructor|done].
    + rewrite Hg. destruct (next_sim _ _ _ _ _ _ _ HR Hg Hf) as (s' & l' & is' & fin' & a & -> & HR' & Hres).
      exists l', is', fin'. simpl. split; [|done].
      destruct Hres as [(cs & k & v & r & -> & Hcs & -> & -> & ->)|(Hcs & -> & -> & ->)].
      * eapply a_next_yield; [done|done|done|by left].
      * eapply a_next_stop; [done|done|done|by left].
    + rewrite Hg. destruct (fresh_node s l is fin NCursor None HR) as (Hdl & Hfr & HT).
      destruct (start_spec _ _ (fresh s) Hdl Hfr) as (h' & -> & HT' & Hdl').
      { rewrite HT, lookup_insert. by eexists. }
      rewrite HT in HT'.
      set (c := fresh s) in *.
      (* the state in which the generator is registered *)
      assert (R (State h' (data s) (S c) (<[g := Running c]> (gens s))) (c :: l) (Cur g :: is) fin) as HR'.
      { destruct HR. split; simpl.
        - done.
        - constructor; [simpl; by rewrite HT', !lookup_insert|].
          eapply rel_mono; [|exact r_rel0]. intros y i Hy Hi Hrel.
          assert (y <> c). { intros ->. apply Hfr. right. apply elem_of_app. by left. }
          destruct i as [k v|g']; simpl in *; rewrite HT', lookup_insert_ne by done; [done|].
          rewrite lookup_insert_ne; [done|]. intros <-. done.
        - intros k x Hk. destruct (r_data0 _ _ Hk) as [v Hv]. exists v. by right.
        - intros g' c' Hg'. destruct (decide (g' = g)) as [->|Hne]; [by left|].
          rewrite lookup_insert_ne in Hg' by done. right. by eapply r_gens0.
        - intros g'. rewrite <- r_fin0. destruct (decide (g' = g)) as [->|Hne].
          + rewrite lookup_insert, Hg. done.
          + by rewrite lookup_insert_ne.
        - intros y Hy. rewrite HT' in Hy. apply lookup_insert_is_Some' in Hy as [<-|Hy]; [lia|].
          apply r_fresh0 in Hy. unfold c. lia. }
      assert (gens (State h' (data s) (S c) (<[g := Running c]> (gens s))) !! g = Some (Running c)) as Hgc
        by (simpl; by rewrite lookup_insert).
      destruct (next_sim _ _ [] _ _ _ _ HR' Hgc Hf) as (s' & l' & is' & fin' & a & Heq & HR'' & Hres).
      simpl in Heq. simpl. rewrite !insert_insert in Heq.
      exists l', is', fin'.
      destruct (advance (size h') c h') as [[h2 [[k v]|]]|] eqn:Hadv.
      * injection Heq as <- <-. rewrite ?insert_insert in *. split; [|done]. simpl.
        destruct Hres as [(cs & k' & v' & r & -> & Hcs & -> & -> & Ha)|(Hcs & -> & -> & [=])].
        injection Ha as -> ->. eapply (a_next_yield _ _ _ _ []); [done|done|done|by right].
      * destruct (unlink c h2) as [h3|].
        { injection Heq as <- <-. split; [|done]. simpl.
          destruct Hres as [(cs & k' & v' & r & -> & Hcs & -> & -> & [=])|(Hcs & -> & -> & Ha)].
          eapply (a_next_stop _ _ _ _ []); [done|done|done|by right]. }
        { exfalso. injection Heq as <- <-.
          destruct Hres as [(? & ? & ? & ? & _ & _ & _ & _ & [=])|(_ & _ & _ & [=])]. }
      * exfalso. injection Heq as <- <-.
        destruct Hres as [(? & ? & ? & ? & _ & _ & _ & _ & [=])|(_ & _ & _ & [=])].
  - destruct (R_gen _ _ _ _ g HR) as [(Hf & -> & _)|[(Hf & i1 & i2 & c & -> & Hg)|(Hf & Hg & Hno)]].
    + exists l, is, fin. split; [by constructor|done].
    + rewrite Hg. destruct (R_split _ _ _ _ _ _ HR) as (l1 & c' & l2 & -> & H1 & [_ Hgc] & H2 & Hn).
      assert (c' = c) as -> by congruence.
      pose proof (R_cur_once _ _ _ _ _ _ HR) as Honce.
      destruct (unlink_spec _ _ _ _ (r_dl _ _ _ _ HR)) as (h' & -> & HT & Hdl). simpl.
      exists (l1 ++ l2), (i1 ++ i2), ({[g]} ∪ fin). split; [by apply a_close|].
      destruct HR. split; simpl; rewrite ?HT; try done.
      * apply (rel_mono (rel s)); [|by apply Forall2_app]. intros y i Hy Hi Hrel.
        destruct i as [k' v'|g']; simpl in *; rewrite HT; [done|].
        rewrite lookup_insert_ne; [done|]. intros <-. done.
      * intros k' x' Hk'. destruct (r_data0 _ _ Hk') as [v' Hv']. exists v'.
        rewrite elem_of_app, elem_of_cons in Hv'. rewrite elem_of_app. naive_solver.
      * intros g' c' Hg'. destruct (decide (g' = g)) as [->|Hne].
        { by rewrite lookup_insert in Hg'. }
        rewrite lookup_insert_ne in Hg' by done. specialize (r_gens0 _ _ Hg').
        rewrite elem_of_app, elem_of_cons in r_gens0. rewrite elem_of_app. naive_solver.
      * intros g'. rewrite elem_of_union, elem_of_singleton. destruct (decide (g' = g)) as [->|Hne].
        { rewrite lookup_insert. naive_solver. }
        { rewrite lookup_insert_ne by done. rewrite r_fin0. naive_solver. }
    + rewrite Hg. exists l, is, ({[g]} ∪ fin). split; [by apply a_close_new|].
      destruct HR. split; simpl; try done.
      * eapply rel_mono; [|exact r_rel0]. intros y i Hy Hi Hrel.
        destruct i as [k' v'|g']; simpl in *; [done|].
        rewrite lookup_insert_ne; [done|]. intros <-. done.
      * intros g' c' Hg'. destruct (decide (g' = g)) as [->|Hne].
        { by rewrite lookup_insert in Hg'. }
        rewrite lookup_insert_ne in Hg' by done. by eapply r_gens0.
      * intros g'. rewrite elem_of_union, elem_of_singleton. destruct (decide (g' = g)) as [->|Hne].
        { rewrite lookup_insert. naive_solver. }
        { rewrite lookup_insert_ne by done. rewrite r_fin0. naive_solver. }
Qed.
End abs.
Arguments item : clear implicits.
