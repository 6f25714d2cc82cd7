From stdpp Require Import prelude gmap.
From Verif Require Import PoolModel.

Lemma count_new P (m : gmap nat phase) t p : m !! t = None -> count P (<[t := p]> m) = count P m + (if P p then 1 else 0).
Proof.
  intros Ht. unfold count. rewrite map_filter_insert. cbn. destruct (P p) eqn:E.
  - rewrite decide_True by done. rewrite map_size_insert_None; [lia|]. apply map_filter_lookup_None. by left.
  - rewrite decide_False by done. rewrite delete_notin by done. lia.
Qed.
Lemma count_delete P (m : gmap nat phase) t p : m !! t = Some p -> count P (delete t m) + (if P p then 1 else 0) = count P m.
Proof. intros Ht. rewrite <- (insert_delete m t p Ht) at 2. by rewrite (count_new P (delete t m) t p (lookup_delete _ _)). Qed.
Lemma count_insert P (m : gmap nat phase) t p p' : m !! t = Some p -> count P (<[t := p']> m) + (if P p then 1 else 0) = count P m + (if P p' then 1 else 0).
Proof. intros Ht. rewrite <- insert_delete_insert, (count_new P (delete t m) t p' (lookup_delete _ _)). pose proof (count_delete P m t p Ht). lia. Qed.
Definition has_conn (p : phase) : bool := match conn_of p with Some _ => true | None => false end.
Lemma count_le P Q (m : gmap nat phase) : (forall p, P p = true -> Q p = true) -> count P m <= count Q m.
Proof.
  intros H. induction m as [|t p m Hm IH] using map_ind; [unfold count; by rewrite !map_filter_empty|]. rewrite !count_new by done.
  specialize (H p). destruct (P p); [rewrite H by done|]; destruct (Q p); lia.
Qed.

Section proofs.
Context {C : Type} (is_idle : C -> bool) (fresh : C) (max_connections : nat).
Local Notation reachable := (reachable is_idle fresh max_connections).
Local Notation step := (step is_idle fresh max_connections).
Implicit Types s : pool C.
Record inv s : Prop := Inv {
  i_nodup : NoDup (idle s);
  i_idle : forall c, c ∈ idle s -> is_Some (conns s !! c);
  i_held : forall t p c, tasks s !! t = Some p -> conn_of p = Some c -> is_Some (conns s !! c) /\ c ∉ idle s;
  i_inj : forall t t' p p' c, tasks s !! t = Some p -> tasks s !! t' = Some p' -> conn_of p = Some c -> conn_of p' = Some c -> t = t';
  i_conn : forall c, is_Some (conns s !! c) -> c ∈ idle s \/ exists t p, tasks s !! t = Some p /\ conn_of p = Some c;
  i_next : forall c, is_Some (conns s !! c) -> c < next s;
  i_clean : forall c x, c ∈ idle s -> conns s !! c = Some x -> is_idle x = true;
  i_tokens : count holds (tasks s) <= max_connections;
  i_size : size (conns s) = length (idle s) + count has_conn (tasks s);
  i_max : size (conns s) <= max_connections;
  i_closed : closed s = true -> idle s = [] }.
Lemma last_snoc_inv (l : list nat) c : last l = Some c -> exists l', l = l' ++ [c] /\ take (length l - 1) l = l'.
Proof.
  intros H. apply last_Some in H as [l' ->]. exists l'. split; [done|]. rewrite app_length. cbn. replace (length l' + 1 - 1) with (length l') by lia. by rewrite take_app.
Qed.
(** A task that has no connection before and after. *)
Lemma inv_phase s t p p' : inv s -> tasks s !! t = Some p -> conn_of p = None -> conn_of p' = None -> count holds (<[t := p']> (tasks s)) <= max_connections -> inv (set_task t p' s).
Proof.
  intros H Ht Hp Hp' Hc. destruct H. constructor; cbn; try done.
  - intros t1 p1 c1. destruct (decide (t1 = t)) as [->|]; [rewrite lookup_insert; intros [= <-]; congruence|rewrite lookup_insert_ne by done; eauto].
  - intros t1 t2 p1 p2 c1. destruct (decide (t1 = t)) as [->|]; [rewrite lookup_insert; intros [= <-]; congruence|]. rewrite lookup_insert_ne by done.
    destruct (decide (t2 = t)) as [->|]; [rewrite lookup_insert; intros ? [= <-]; congruence|]. rewrite lookup_insert_ne by done. eauto.
  - intros c1 H1. destruct (i_conn0 c1 H1) as [|(t1 & p1 & H2 & H3)]; [by left|right]. exists t1, p1. rewrite lookup_insert_ne; [done|]. intros ->. congruence.
  - pose proof (count_insert has_conn (tasks s) t p p' Ht) as Hi. unfold has_conn in Hi. rewrite Hp, Hp' in Hi. unfold has_conn. rewrite i_size0. unfold has_conn. lia.
Qed.
(** A task keeps its connection. *)
Lemma inv_keep s t p p' c : inv s -> tasks s !! t = Some p -> conn_of p = Some c -> conn_of p' = Some c -> inv (set_task t p' s).
Proof.
  intros H Ht Hp Hp'. destruct H. assert (holds p = true /\ holds p' = true) as [Hh Hh'] by (by destruct p, p').
  constructor; cbn; try done.
  - intros t1 p1 c1. destruct (decide (t1 = t)) as [->|]; [rewrite lookup_insert; intros [= <-] E; eapply i_held0; [done|congruence]|rewrite lookup_insert_ne by done; eauto].
  - intros t1 t2 p1 p2 c1. destruct (decide (t1 = t)) as [->|]; destruct (decide (t2 = t)) as [->|]; rewrite ?lookup_insert, ?lookup_insert_ne by done; try done.
    + intros [= <-] H2 E1 E2. eapply i_inj0; [done|done| |done]. congruence.
    + intros H1 [= <-] E1 E2. eapply i_inj0; [done|done|done|]. congruence.
    + eauto.
  - intros c1 H1. destruct (i_conn0 c1 H1) as [|(t1 & p1 & H2 & H3)]; [by left|right]. destruct (decide (t1 = t)) as [->|].
    + exists t, p'. rewrite lookup_insert. split; [done|congruence].
    + exists t1, p1. rewrite lookup_insert_ne by done. done.
  - pose proof (count_insert holds (tasks s) t p p' Ht) as Hi. rewrite Hh, Hh' in Hi. lia.
  - pose proof (count_insert has_conn (tasks s) t p p' Ht) as Hi. unfold has_conn in Hi. rewrite Hp, Hp' in Hi. unfold has_conn. rewrite i_size0. unfold has_conn. lia.
Qed.
(** A task closes its connection. *)
Lemma inv_close s t p p' c : inv s -> tasks s !! t = Some p -> conn_of p = Some c -> conn_of p' = None -> inv (set_task t p' (close c s)).
Proof.
  intros H Ht Hp Hp'. destruct H. assert (holds p = true) as Hh by (by destruct p). destruct (i_held0 t p c Ht Hp) as [[x Hx] Hni].
  constructor; cbn; try done.
  - intros c1 H1. rewrite lookup_delete_ne; [by apply i_idle0|]. intros ->. done.
  - intros t1 p1 c1. destruct (decide (t1 = t)) as [->|Hne]; [rewrite lookup_insert; intros [= <-]; congruence|]. rewrite lookup_insert_ne by done. intros H1 H2.
    rewrite lookup_delete_ne; [by eapply i_held0|]. intros ->. apply Hne. symmetry. eapply i_inj0; [exact Ht|exact H1|done|done].
  - intros t1 t2 p1 p2 c1. destruct (decide (t1 = t)) as [->|]; [rewrite lookup_insert; intros [= <-]; congruence|]. rewrite lookup_insert_ne by done.
    destruct (decide (t2 = t)) as [->|]; [rewrite lookup_insert; intros ? [= <-]; congruence|]. rewrite lookup_insert_ne by done. eauto.
  - intros c1 [y H1]. apply lookup_delete_Some in H1 as [Hc1 H1]. destruct (i_conn0 c1 ltac:(by eexists)) as [|(t1 & p1 & H2 & H3)]; [by left|right]. exists t1, p1.
    rewrite lookup_insert_ne; [done|]. intros ->. congruence.
  - intros c1 [y H1]. apply lookup_delete_Some in H1 as [Hc1 H1]. apply i_next0. by eexists.
  - intros c1 x1 H1 H2. apply lookup_delete_Some in H2 as [_ H2]. eauto.
  - pose proof (count_insert holds (tasks s) t p p' Ht) as Hi. rewrite Hh in Hi. destruct (holds p'); lia.
  - pose proof (count_insert has_conn (tasks s) t p p' Ht) as Hi. unfold has_conn in Hi. rewrite Hp, Hp' in Hi.
    rewrite map_size_delete, Hx. cbn. unfold has_conn. rewrite i_size0. unfold has_conn. lia.
  - rewrite map_size_delete, Hx. cbn. lia.
Qed.
(** A task without connection ends. *)
Lemma inv_end s t p : inv s -> tasks s !! t = Some p -> conn_of p = None -> inv (end_task t s).
Proof.
  intros H Ht Hp. destruct H. constructor; cbn; try done.
  - intros t1 p1 c1 [_ H1]%lookup_delete_Some. eauto.
  - intros t1 t2 p1 p2 c1 [_ H1]%lookup_delete_Some [_ H2]%lookup_delete_Some. eauto.
  - intros c1 H1. destruct (i_conn0 c1 H1) as [|(t1 & p1 & H2 & H3)]; [by left|right]. exists t1, p1. rewrite lookup_delete_ne; [done|]. intros ->. congruence.
  - pose proof (count_delete holds (tasks s) t p Ht). lia.
  - pose proof (count_delete has_conn (tasks s) t p Ht) as Hi. unfold has_conn in Hi. rewrite Hp in Hi. unfold has_conn. rewrite i_size0. unfold has_conn. lia.
Qed.
Lemma inv_step s e s' : inv s -> step e s = Some s' -> inv s'.
Proof.
  intros H. destruct e as [t|t|t|t|t x|t|t|t|]; cbn.
  - case_decide as D; [|done]. destruct D as [Ht Hcl]. intros [= <-]. destruct H. constructor; cbn; try done.
    + intros t1 p1 c1. destruct (decide (t1 = t)) as [->|]; [rewrite lookup_insert; by intros [= <-]|rewrite lookup_insert_ne by done; eauto].
    + intros t1 t2 p1 p2 c1. destruct (decide (t1 = t)) as [->|]; [rewrite lookup_insert; by intros [= <-]|]. rewrite lookup_insert_ne by done.
      destruct (decide (t2 = t)) as [->|]; [rewrite lookup_insert; by intros ? [= <-]|]. rewrite lookup_insert_ne by done. eauto.
    + intros c1 H1. destruct (i_conn0 c1 H1) as [|(t1 & p1 & H2 & H3)]; [by left|right]. exists t1, p1. rewrite lookup_insert_ne; [done|]. intros ->. congruence.
    + rewrite (count_new holds (tasks s) t Waiting Ht). cbn. lia.
    + rewrite (count_new has_conn (tasks s) t Waiting Ht). cbn. lia.
  - destruct (tasks s !! t) as [[]|] eqn:Ht; try done. case_decide; [|done]. intros [= <-]. eapply inv_phase; try done.
    pose proof (count_insert holds (tasks s) t Waiting Popping Ht) as Hi. cbn in Hi. lia.
  - destruct (tasks s !! t) as [[]|] eqn:Ht; try done. destruct (last (idle s)) as [c|] eqn:El.
    + apply last_snoc_inv in El as (l & El & Et). rewrite Et. cbn. destruct (conns s !! c) as [x|] eqn:Ex; [|done]. intros [= <-].
      destruct H. rewrite El in *. apply NoDup_app in i_nodup0 as (Hnd & Hdisj & _).
      assert (c ∉ l) as Hcl. { intros Hin. apply (Hdisj c Hin). by apply elem_of_list_singleton. }
      set (p' := if is_idle x then Using c else Closing c). assert (conn_of p' = Some c) as Hp' by (unfold p'; by destruct (is_idle x)).
      assert (holds p' = true) as Hh by (unfold p'; by destruct (is_idle x)).
      constructor; cbn; try done.
      * intros c1 H1. apply i_idle0. apply elem_of_app. by left.
      * intros t1 p1 c1. destruct (decide (t1 = t)) as [->|]; [rewrite lookup_insert; intros [= <-] E; rewrite Hp' in E; injection E as <-; split; [by eexists|done]|]. rewrite lookup_insert_ne by done.
        intros H1 H2. destruct (i_held0 _ _ _ H1 H2) as [? Hn]. split; [done|]. intros Hin. apply Hn. apply elem_of_app. by left.
      * intros t1 t2 p1 p2 c1. destruct (decide (t1 = t)) as [->|]; destruct (decide (t2 = t)) as [->|]; rewrite ?lookup_insert, ?lookup_insert_ne by done; try done.
        -- intros [= <-] H2 E1 E2. rewrite Hp' in E1. injection E1 as <-. destruct (i_held0 _ _ _ H2 E2) as [_ Hn]. destruct Hn. apply elem_of_app. right. by left.
        -- intros H1 [= <-] E1 E2. rewrite Hp' in E2. injection E2 as <-. destruct (i_held0 _ _ _ H1 E1) as [_ Hn]. destruct Hn. apply elem_of_app. right. by left.
        -- eauto.
      * intros c1 H1. destruct (i_conn0 c1 H1) as [Hin|(t1 & p1 & H2 & H3)].
        -- apply elem_of_app in Hin as [?| ->%elem_of_list_singleton]; [by left|]. right. exists t, p'. by rewrite lookup_insert.
        -- right. exists t1, p1. rewrite lookup_insert_ne; [done|]. intros ->. rewrite Ht in H2. injection H2 as <-. done.
      * intros c1 x1 H1. apply i_clean0. apply elem_of_app. by left.
      * pose proof (count_insert holds (tasks s) t Popping p' Ht) as Hi. rewrite Hh in Hi. cbn in Hi. lia.
      * pose proof (count_insert has_conn (tasks s) t Popping p' Ht) as Hi. unfold has_conn at 2 4 in Hi. rewrite Hp' in Hi. cbn in Hi. rewrite app_length in i_size0. cbn in i_size0. lia.
      * intros Hc. specialize (i_closed0 Hc). by destruct l.
    + apply last_None in El. intros [= <-]. destruct H. rewrite El in *. assert (conns s !! next s = None) as Hnx.
      { destruct (conns s !! next s) eqn:E; [|done]. specialize (i_next0 (next s) ltac:(by eexists)). lia. }
      constructor; cbn; rewrite ?El; try done.
      * by intros c1 ?%elem_of_nil.
      * intros t1 p1 c1. destruct (decide (t1 = t)) as [->|]; [rewrite lookup_insert; intros [= <-] [= <-]; rewrite lookup_insert; split; [by eexists|apply not_elem_of_nil]|]. rewrite lookup_insert_ne by done.
        intros H1 H2. destruct (i_held0 _ _ _ H1 H2) as [Hs Hn]. split; [|done]. apply lookup_insert_is_Some'. by right.
      * intros t1 t2 p1 p2 c1. destruct (decide (t1 = t)) as [->|]; destruct (decide (t2 = t)) as [->|]; rewrite ?lookup_insert, ?lookup_insert_ne by done; try done.
        -- intros [= <-] H2 [= <-] E2. destruct (i_held0 _ _ _ H2 E2) as [Hs _]. rewrite Hnx in Hs. by destruct Hs.
        -- intros H1 [= <-] E1 [= <-]. destruct (i_held0 _ _ _ H1 E1) as [Hs _]. rewrite Hnx in Hs. by destruct Hs.
        -- eauto.
      * intros c1 H1. destruct (decide (c1 = next s)) as [->|]; [right; exists t, (Using (next s)); by rewrite lookup_insert|]. rewrite lookup_insert_ne in H1 by done.
        destruct (i_conn0 c1 H1) as [?%elem_of_nil|(t1 & p1 & H2 & H3)]; [done|]. right. exists t1, p1. rewrite lookup_insert_ne; [done|]. intros ->. rewrite Ht in H2. injection H2 as <-. done.
      * intros c1 H1. destruct (decide (c1 = next s)) as [->|]; [lia|]. rewrite lookup_insert_ne in H1 by done. specialize (i_next0 c1 H1). lia.
      * by intros c1 x1 ?%elem_of_nil.
      * pose proof (count_insert holds (tasks s) t Popping (Using (next s)) Ht) as Hi. cbn in Hi. lia.
      * pose proof (count_insert has_conn (tasks s) t Popping (Using (next s)) Ht) as Hi. cbn in Hi. rewrite map_size_insert_None by done. cbn in *. lia.
      * rewrite map_size_insert_None by done. cbn in i_size0. rewrite i_size0.
        pose proof (count_insert has_conn (tasks s) t Popping (Using (next s)) Ht) as Hi. cbn in Hi.
        pose proof (count_insert holds (tasks s) t Popping (Using (next s)) Ht) as Hi2. cbn in Hi2.
        pose proof (count_le has_conn holds (<[t := Using (next s)]> (tasks s)) ltac:(by intros [])). lia.
  - destruct (tasks s !! t) as [[| |c| |]|] eqn:Ht; try done. intros [= <-]. by eapply inv_close.
  - destruct (tasks s !! t) as [[| | |c|]|] eqn:Ht; try done. intros [= <-]. destruct H. destruct (i_held0 _ _ c Ht eq_refl) as [Hs Hn]. constructor; cbn; try done.
    + intros c1 H1. apply lookup_insert_is_Some'. right. auto.
    + intros t1 p1 c1 H1 H2. destruct (i_held0 _ _ _ H1 H2). split; [|done]. apply lookup_insert_is_Some'. by right.
    + intros c1 H1. apply i_conn0. destruct (decide (c1 = c)) as [->|]; [done|]. by rewrite lookup_insert_ne in H1.
    + intros c1 H1. apply i_next0. destruct (decide (c1 = c)) as [->|]; [done|]. by rewrite lookup_insert_ne in H1.
    + intros c1 x1 H1 H2. rewrite lookup_insert_ne in H2 by congruence. eauto.
    + destruct Hs as [y Hy]. rewrite map_size_insert, Hy. cbn. done.
    + destruct Hs as [y Hy]. rewrite map_size_insert, Hy. cbn. done.
  - destruct (tasks s !! t) as [[| | |c|]|] eqn:Ht; try done. destruct (conns s !! c) as [x|] eqn:Ex; [|done].
    destruct (negb (closed s) && is_idle x) eqn:E; intros [= <-]; [|by eapply inv_keep].
    apply andb_true_iff in E as [Ec Ei]. apply negb_true_iff in Ec. destruct H. destruct (i_held0 _ _ c Ht eq_refl) as [Hs Hn]. constructor; cbn; try done.
    + apply NoDup_app. split; [done|]. split; [|apply NoDup_singleton]. intros c1 H1 ->%elem_of_list_singleton. done.
    + intros c1 [H1| ->%elem_of_list_singleton]%elem_of_app; [auto|done].
    + intros t1 p1 c1 [Hne H1]%lookup_delete_Some H2. destruct (i_held0 _ _ _ H1 H2). split; [done|]. rewrite elem_of_app, elem_of_list_singleton. intros [?| ->]; [done|].
      apply Hne. by eapply i_inj0.
    + intros t1 t2 p1 p2 c1 [_ H1]%lookup_delete_Some [_ H2]%lookup_delete_Some. eauto.
    + intros c1 H1. rewrite elem_of_app, elem_of_list_singleton. destruct (i_conn0 c1 H1) as [|(t1 & p1 & H2 & H3)]; [by left; left|]. destruct (decide (t1 = t)) as [->|].
      * left. right. rewrite Ht in H2. injection H2 as <-. by injection H3 as <-.
      * right. exists t1, p1. by rewrite lookup_delete_ne.
    + intros c1 x1 [H1| ->%elem_of_list_singleton]%elem_of_app H2; [eauto|]. rewrite Ex in H2. by injection H2 as <-.
    + pose proof (count_delete holds (tasks s) t _ Ht). lia.
    + pose proof (count_delete has_conn (tasks s) t _ Ht) as Hi. cbn in Hi. rewrite app_length. cbn. lia.
    + congruence.
  - destruct (tasks s !! t) as [[| | | |c]|] eqn:Ht; try done. intros [= <-].
    apply (inv_close s t (Leaving c) Waiting c) in H as H'; try done. apply (inv_end _ t Waiting) in H' as H''; [|apply lookup_insert|done]. unfold end_task, set_task in H''. cbn in H''. by rewrite delete_insert_delete in H''.
  - destruct (tasks s !! t) as [[| |c| |c]|] eqn:Ht; try done; intros [= <-].
    + by eapply inv_end.
    + apply (inv_close s t (Closing c) Waiting c) in H as H'; try done. apply (inv_end _ t Waiting) in H' as H''; [|apply lookup_insert|done]. unfold end_task, set_task in H''. cbn in H''. by rewrite delete_insert_delete in H''.
    + apply (inv_close s t (Leaving c) Waiting c) in H as H'; try done. apply (inv_end _ t Waiting) in H' as H''; [|apply lookup_insert|done]. unfold end_task, set_task in H''. cbn in H''. by rewrite delete_insert_delete in H''.
  - intros [= <-]. destruct H.
    assert (forall c x, foldr (fun c m => delete c m) (conns s) (idle s) !! c = Some x <-> conns s !! c = Some x /\ c ∉ idle s) as Hd.
    { clear. intros c x. induction (idle s) as [|d l IH]; cbn; [split; [intros; split; [done|apply not_elem_of_nil]|by intros []]|].
      rewrite lookup_delete_Some, IH, not_elem_of_cons. naive_solver. }
    assert (size (foldr (fun c m => delete c m) (conns s) (idle s)) + length (idle s) = size (conns s)) as Hsz.
    { clear -i_nodup0 i_idle0. revert i_nodup0 i_idle0. generalize (conns s). induction (idle s) as [|d l IH]; intros m Hnd Hs; cbn; [lia|]. apply NoDup_cons in Hnd as [Hn Hnd].
      rewrite map_size_delete. assert (foldr (fun c m => delete c m) m l !! d = m !! d) as ->.
      { clear -Hn. induction l as [|e l IH]; [done|]. apply not_elem_of_cons in Hn as [? ?]. cbn. rewrite lookup_delete_ne by done. auto. }
      destruct (Hs d ltac:(left)) as [x Hx]. rewrite Hx. cbn. specialize (IH m Hnd ltac:(intros; apply Hs; by right)).
      assert (size (foldr (fun c m => delete c m) m l) <> 0); [|lia]. intros E. apply map_size_empty_inv in E. assert (foldr (fun c m => delete c m) m l !! d = Some x) as F; [|by rewrite E in F].
      rewrite <- Hx. clear -Hn. induction l as [|e l IH]; [done|]. apply not_elem_of_cons in Hn as [? ?]. cbn. rewrite lookup_delete_ne by done. auto. }
    constructor; cbn; try done.
    + constructor.
    + by intros c ?%elem_of_nil.
    + intros t1 p1 c1 H1 H2. destruct (i_held0 _ _ _ H1 H2) as [[x Hx] Hn]. split; [|apply not_elem_of_nil]. exists x. by apply Hd.
    + intros c [x [Hx Hn]%Hd]. right. destruct (i_conn0 c ltac:(by eexists)) as [|?]; done.
    + intros c [x [Hx Hn]%Hd]. apply i_next0. by eexists.
    + by intros c x ?%elem_of_nil.
    + lia.
    + lia.
Qed.
Lemma reachable_inv s : reachable s -> inv s.
Proof.
  induction 1 as [|s e s' _ IH Hs]; [|by eapply inv_step]. constructor; cbn; try done; try (by intros ? ?%elem_of_nil); try (by intros ? [? ?]); try (unfold count; rewrite map_filter_empty; cbn; try rewrite map_size_empty; lia).
  - constructor.
  - rewrite map_size_empty. lia.
Qed.
End proofs.
