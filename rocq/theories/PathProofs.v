From stdpp Require Import prelude.
From Coq.Strings Require Import Byte.
From Verif Require Import Bytes Text PathModel PathSpec.

Lemma entry_Some t p n i : entry t p n = Some i -> (p, n, i) ∈ t.
Proof.
  unfold entry. destruct (filter _ t) as [|[x j] l] eqn:E; [done|]. cbn. intros [= ->].
  assert ((x, i) ∈ filter (fun x : nat * bytes * nat => x.1 = (p, n)) t) as H by (rewrite E; left).
  apply elem_of_list_filter in H as [H1 H2]. cbn in H1. by subst.
Qed.
Lemma entry_unique t p n i : unique t -> (p, n, i) ∈ t -> entry t p n = Some i.
Proof.
  intros Hu H. unfold entry. destruct (filter _ t) as [|[x j] l] eqn:E; cbn.
  - assert ((p, n, i) ∈ filter (fun x : nat * bytes * nat => x.1 = (p, n)) t) as H' by (by apply elem_of_list_filter). rewrite E in H'. by apply elem_of_nil in H'.
  - f_equal. assert ((x, j) ∈ filter (fun x : nat * bytes * nat => x.1 = (p, n)) t) as H' by (rewrite E; left).
    apply elem_of_list_filter in H' as [H1 H2]. cbn in H1. subst x. by eapply Hu.
Qed.
Lemma walk_leads t i ns j : unique t -> walk t i ns = Some j <-> leads t i ns j.
Proof.
  intros Hu. revert i. induction ns as [|n ns IH]; intros i; cbn.
  - split; [intros [= ->]; constructor|by inversion 1].
  - split.
    + destruct (entry t i n) as [k|] eqn:E; [|done]. intros H%IH. econstructor; [by apply entry_Some|done].
    + inversion 1 as [|? ? k ? ? Hin Hl]; subst. rewrite (entry_unique _ _ _ _ Hu Hin). by apply IH.
Qed.
Lemma leads_app t i ns j ms k : leads t i ns j -> leads t j ms k -> leads t i (ns ++ ms) k.
Proof. induction 1; cbn; [done|]. intros. econstructor; eauto. Qed.
Lemma leads_snoc t i ns j n k : leads t i ns j -> (j, n, k) ∈ t -> leads t i (ns ++ [n]) k.
Proof. intros H ?. eapply leads_app; [exact H|]. econstructor; [done|constructor]. Qed.
Lemma written_join ns : ns <> [] -> written ns = SLASH :: join SLASH ns.
Proof.
  intros Hne. induction ns as [|n ns IH]; [done|]. destruct ns as [|m ns]; [cbn; by rewrite app_nil_r|].
  unfold written in *. cbn [mbind list_bind join] in *. cbn. f_equal. f_equal. by apply IH.
Qed.
Lemma join_head ns : ns <> [] -> Forall good_name ns -> head (join SLASH ns) <> Some SLASH.
Proof.
  intros Hne Hf. destruct ns as [|n ns]; [done|]. apply Forall_cons in Hf as [[Hn Hs] _]. destruct n as [|b n]; [done|].
  apply not_elem_of_cons in Hs as [Hs _]. destruct ns; cbn; congruence.
Qed.
Lemma join_last ns : ns <> [] -> Forall good_name ns -> last (join SLASH ns) <> Some SLASH.
Proof.
  intros Hne Hf. induction ns as [|n ns IH]; [done|]. apply Forall_cons in Hf as [[Hn Hs] Hf]. destruct ns as [|m ns].
  - cbn. intros H. apply last_Some_elem_of in H. done.
  - change (join SLASH (n :: m :: ns)) with (n ++ SLASH :: join SLASH (m :: ns)). assert (join SLASH (m :: ns) <> []) as Hj.
    { intros E. apply (f_equal (split SLASH)) in E. rewrite split_join in E; [|done|eapply Forall_impl; [exact Hf|by intros ? []]].
      apply Forall_cons in Hf as [[Hm _] _]. cbn in E. congruence. }
    destruct (join SLASH (m :: ns)) as [|x l] eqn:E; [done|]. rewrite last_app_cons, last_cons_cons. by apply IH.
Qed.
Lemma leads_good t i ns j : good_names t -> leads t i ns j -> Forall good_name ns.
Proof. intros Hg. induction 1; constructor; [by eapply Hg|done]. Qed.
Lemma strip_written n m ns : ns <> [] -> Forall good_name ns -> split SLASH (rstrip SLASH (lstrip SLASH (replicate n SLASH ++ written ns ++ replicate m SLASH))) = ns.
Proof.
  intros Hne Hf. rewrite lstrip_sep, written_join by done.
  change ((SLASH :: join SLASH ns) ++ replicate m SLASH) with (replicate 1 SLASH ++ join SLASH ns ++ replicate m SLASH). rewrite lstrip_sep.
  rewrite lstrip_id. 2:{ pose proof (join_head ns Hne Hf) as Hh. destruct (join SLASH ns) eqn:E; [|exact Hh]. exfalso. pose proof (split_join SLASH ns Hne ltac:(eapply Forall_impl; [exact Hf|by intros ? []])) as E'. rewrite E in E'. cbn in E'. subst ns. by apply Forall_cons in Hf as [[] _]. }
  rewrite rstrip_sep, rstrip_id by (by apply join_last). apply split_join; [done|]. eapply Forall_impl; [exact Hf|by intros ? []].
Qed.
Lemma up_leads pick t n i path l : picks pick -> up pick t n i path = Ok l -> exists ms, l = path ++ ms /\ leads t ROOT (reverse ms) i /\ (i <> ROOT -> ms <> []).
Proof.
  intros Hp. revert i path. induction n as [|n IH]; intros i path; cbn; (case_decide as D; [intros [= <-]; exists []; rewrite app_nil_r; subst; by repeat constructor|]);
    pose proof (Hp t i) as Hpi; destruct (pick t i) as [[name p]|]; try done.
  intros H%IH. destruct H as (ms & -> & Hl & _). exists (name :: ms). rewrite <- app_assoc. split; [done|]. split; [|done].
  rewrite reverse_cons. by eapply leads_snoc.
Qed.
Lemma up_total pick t d i path : picks pick -> within t i d -> exists l, up pick t d i path = Ok l.
Proof.
  intros Hp Hw. revert path. induction Hw as [d|i d Hex Hall IH]; intros path.
  - destruct d; cbn; rewrite decide_True by done; by eexists.
  - cbn. case_decide; [by eexists|]. pose proof (Hp t i) as Hpi. destruct (pick t i) as [[name p]|]; [by eapply IH|].
    destruct Hex as (p & n & Hin). by apply Hpi in Hin.
Qed.
Lemma up_mono pick t d d' i path l : up pick t d i path = Ok l -> (d <= d')%nat -> up pick t d' i path = Ok l.
Proof.
  revert d' i path. induction d as [|d IH]; intros d' i path H Hd; destruct d'; try lia; cbn in *; case_decide; try done; destruct (pick t i) as [[name p]|]; try done.
  apply IH; [done|lia].
Qed.
