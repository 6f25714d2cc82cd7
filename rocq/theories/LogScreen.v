(** C74: the lines on the console; the levels *)
From stdpp Require Import prelude strings gmap.
From Coq Require Import Ascii.
From Verif Require Import LogModel.
From Verif Require LogSpec.
Import LogSpec(Screen, show, blank, seen_lines, Message, instead, over).
Local Open Scope string_scope.

Section screen.
Context (h2 : name * nat * string -> Z).
Definition of_record (r : record) : LogSpec.message (name * nat * string) := Message (kind r) (update r) (last r) (shown_as r).
Definition clean (t : text) : Prop := CR ∉ t /\ LF ∉ t.
Lemma show_app s a b : show s (a ++ b) = show (show s a) b.
Proof. apply foldl_app. Qed.
Lemma show_clean a p t l : clean t -> show (Screen a (p ++ l) (length p)) t = Screen a (p ++ t ++ drop (length t) l) (length (p ++ t)).
Proof.
  revert p l. induction t as [|c t IH]; intros p l [C1 C2]; [cbn; by rewrite drop_0, app_nil_r|].
  apply not_elem_of_cons in C1 as [C1 C1']. apply not_elem_of_cons in C2 as [C2 C2']. cbn. unfold LogSpec.put at 2. cbn.
  destruct (decide (c = "010"%char)); [by destruct C2|]. destruct (decide (c = "013"%char)); [by destruct C1|].
  rewrite take_app. replace (drop (S (length p)) (p ++ l)) with (drop 1 l) by (clear; induction p; [by destruct l | done]).
  replace (p ++ c :: drop 1 l)%list with ((p ++ [c]) ++ drop 1 l)%list by (by rewrite <- app_assoc). replace (S (length p)) with (length (p ++ [c])) by (rewrite app_length; cbn; lia).
  pose proof (IH (p ++ [c])%list (drop 1 l) (conj C1' C2')) as E. unfold show in E. rewrite E. f_equal.
  - rewrite <- app_assoc. cbn. do 3 f_equal. rewrite drop_drop. f_equal. 
  - rewrite <- app_assoc. done.
Qed.
Lemma show_zero a t l : clean t -> show (Screen a l 0) t = Screen a (over t l) (length t).
Proof. apply (show_clean a [] t l). Qed.
Lemma over_nil t : over t [] = t.
Proof. unfold over. by rewrite drop_nil, app_nil_r. Qed.
Lemma show_lf s : show s [LF] = Screen (LogSpec.line s :: LogSpec.above s) [] 0.
Proof. done. Qed.
Lemma show_cr_cons s t : show s (CR :: t) = show (Screen (LogSpec.above s) (LogSpec.line s) 0) t.
Proof. done. Qed.
Lemma show_lf_cons s t : show s (LF :: t) = show (Screen (LogSpec.line s :: LogSpec.above s) [] 0) t.
Proof. done. Qed.

(** What is seen and the state of the handler *)
Definition matches (P : name * nat * string -> Prop) (s : LogSpec.screen) (m : option Z) (v : list text * option (name * nat * string * text)) : Prop :=
  LogSpec.above s = v.1 /\ LogSpec.line s = from_option snd [] v.2 /\ m = (h2 ∘ fst) <$> v.2 /\ (v.2 = None -> LogSpec.col s = 0) /\ forall k t, v.2 = Some (k, t) -> P k.
Lemma emit_matches (P : name * nat * string -> Prop) s m v r : (forall k k', P k -> P k' -> h2 k = h2 k' -> k = k') -> (forall k, P k -> h2 k <> 0%Z) -> P (kind r) -> clean (shown_as r) -> matches P s m v ->
  matches P (show s (emit h2 true m r).1) (emit h2 true m r).2 (LogSpec.seen_step over v (of_record r)).
Proof.
  intros Inj Nz Pr C (Ha & Hl & -> & Hc & Hp). destruct s as [a l c]. cbn in Ha, Hl, Hc. destruct v as [d cur]. cbn in Ha, Hl, Hc, Hp. subst a l.
  unfold emit. cbn [andb LogSpec.seen_step of_record LogSpec.replaces LogSpec.final LogSpec.of LogSpec.words]. destruct (update r) eqn:U.
  - destruct cur as [[k t]|]; cbn.
    + assert (Pk : P k) by (by eapply Hp). destruct (decide (Some (h2 k) = Some (h2 (kind r)))) as [E|E].
      * assert (k = kind r) as -> by (apply Inj; congruence). rewrite (bool_decide_eq_true_2 (kind r = kind r)) by done.
        destruct (last r); cbn [fst snd].
        -- cbn [app]. rewrite show_cr_cons, show_app, show_zero, show_lf by done. cbn. split_and!; try done.
        -- cbn [app]. rewrite show_cr_cons, show_zero by done. cbn. split_and!; try done. by intros ? ? [= <- <-].
      * assert (k <> kind r) by congruence. rewrite (bool_decide_eq_false_2 (k = kind r)) by done.
        assert (Ez : (h2 k =? 0)%Z = false) by (apply Z.eqb_neq; auto). rewrite Ez. cbn [negb].
        destruct (last r); cbn [fst snd].
        -- cbn [app]. rewrite show_lf_cons, show_app, show_zero, over_nil, show_lf by done. cbn. split_and!; done.
        -- cbn [app]. rewrite show_lf_cons, show_zero, over_nil by done. cbn. split_and!; try done. by intros ? ? [= <- <-].
    + rewrite Hc by done. destruct (decide (None = Some _)); [done|]. destruct (last r); cbn [fst snd].
      * cbn [app]. rewrite show_app, show_zero, over_nil, show_lf by done. split_and!; done.
      * cbn [app]. rewrite show_zero, over_nil by done. split_and!; try done. by intros ? ? [= <- <-].
  - destruct cur as [[k t]|]; cbn.
    + assert (Pk : P k) by (by eapply Hp). assert (Ez : (h2 k =? 0)%Z = false) by (apply Z.eqb_neq; auto). rewrite Ez. cbn [negb].
      cbn [app]. rewrite show_lf_cons, show_app, show_zero, over_nil, show_lf by done. split_and!; done.
    + rewrite Hc by done. cbn [app]. rewrite show_app, show_zero, over_nil, show_lf by done. split_and!; done.
Qed.
Lemma emits_matches (P : name * nat * string -> Prop) rs s m v : (forall k k', P k -> P k' -> h2 k = h2 k' -> k = k') -> (forall k, P k -> h2 k <> 0%Z) -> (forall r, r ∈ rs -> P (kind r) /\ clean (shown_as r)) -> matches P s m v ->
  matches P (show s (emits h2 true m rs).1) (emits h2 true m rs).2 (seen_lines over v (of_record <$> rs)).
Proof.
  intros Inj Nz. revert s m v. induction rs as [|r rs IH]; intros s m v Hr M; [done|]. cbn [emits fmap list_fmap].
  destruct (Hr r) as [Pr C]; [apply elem_of_list_here|]. pose proof (emit_matches P s m v r Inj Nz Pr C M) as M'. destruct (emit h2 true m r) as [a m']. cbn in M'.
  assert (Hr' : forall r, r ∈ rs -> P (kind r) /\ clean (shown_as r)) by (intros; apply Hr; by apply elem_of_list_further).
  specialize (IH (show s a) m' _ Hr' M'). destruct (emits h2 true m' rs) as [b m'']. cbn [fst snd] in *. by rewrite show_app.
Qed.
(** On a terminal: every ordinary message has a line of its own; a series of updates has a line, each of them being written over the one before *)
Theorem screen_exact rs : (forall r r', r ∈ rs -> r' ∈ rs -> h2 (kind r) = h2 (kind r') -> kind r = kind r') -> (forall r, r ∈ rs -> h2 (kind r) <> 0%Z) -> (forall r, r ∈ rs -> clean (shown_as r)) ->
  let s := show blank (emits h2 true None rs).1 in let v := seen_lines over ([], None) (of_record <$> rs) in
  LogSpec.above s = v.1 /\ LogSpec.line s = from_option snd [] v.2.
Proof.
  intros Inj Nz C. cbv zeta. destruct (emits_matches (fun k => exists r, r ∈ rs /\ kind r = k) rs blank None ([], None)) as (H1 & H2 & _).
  - intros k k' (r & Hr & <-) (r' & Hr' & <-). by apply Inj.
  - intros k (r & Hr & <-). by apply Nz.
  - intros r Hr. split; [eauto | by apply C].
  - split_and!; done.
  - done.
Qed.
(** If updates do not become shorter, that is what it should be *)
Definition growing (rs : list record) : Prop := forall i r r', rs !! i = Some r -> rs !! S i = Some r' -> update r = true -> update r' = true -> last r = false -> kind r = kind r' -> length (shown_as r) <= length (shown_as r').
Lemma over_longer t old : length old <= length t -> over t old = t.
Proof. intros H. unfold over. by rewrite drop_ge, app_nil_r. Qed.
Lemma lines_instead rs d cur : growing rs -> (forall k t r, cur = Some (k, t) -> head rs = Some r -> update r = true -> k = kind r -> length t <= length (shown_as r)) ->
  seen_lines over (d, cur) (of_record <$> rs) = seen_lines instead (d, cur) (of_record <$> rs).
Proof.
  revert d cur. induction rs as [|r rs IH]; intros d cur G H; [done|].
  assert (E : LogSpec.seen_step over (d, cur) (of_record r) = LogSpec.seen_step instead (d, cur) (of_record r)).
  { unfold LogSpec.seen_step, of_record. cbn [LogSpec.replaces LogSpec.final LogSpec.of LogSpec.words]. destruct (update r) eqn:U; [|done]. destruct cur as [[k t]|]; [|done]. destruct (bool_decide _) eqn:B; [|done]. apply bool_decide_eq_true in B. rewrite over_longer by (by eapply H). done. }
  assert (G' : growing rs) by (intros i r1 r2 H1 H2; by apply (G (S i))).
  cbn [fmap list_fmap]. unfold seen_lines. cbn [foldl]. rewrite E. destruct (LogSpec.seen_step instead (d, cur) (of_record r)) as [d' cur'] eqn:E'. apply (IH d' cur' G').
  intros k t r' -> Hh U' Ek. unfold LogSpec.seen_step, of_record in E'. cbn [LogSpec.replaces LogSpec.final LogSpec.of LogSpec.words] in E'. destruct (update r) eqn:U; [|congruence]. destruct (last r) eqn:La; [congruence|].
  assert (X : kind r = kind r' /\ t = shown_as r) by (apply (f_equal snd) in E'; cbn [snd] in E'; unfold instead in E'; destruct (match cur with Some _ => _ | None => false end); split; congruence).
  destruct X as [X ->]. apply (G 0 r r'); [done | by destruct rs | done..].
Qed.
Theorem screen_instead rs : (forall r r', r ∈ rs -> r' ∈ rs -> h2 (kind r) = h2 (kind r') -> kind r = kind r') -> (forall r, r ∈ rs -> h2 (kind r) <> 0%Z) -> (forall r, r ∈ rs -> clean (shown_as r)) -> growing rs ->
  let s := show blank (emits h2 true None rs).1 in let v := seen_lines instead ([], None) (of_record <$> rs) in
  LogSpec.above s = v.1 /\ LogSpec.line s = from_option snd [] v.2.
Proof. intros Inj Nz C G. cbv zeta. rewrite <- lines_instead by (done || by intros). by apply screen_exact. Qed.
(** If it is not a terminal, every message has its line *)
Theorem redirected rs : (emits h2 false None rs).1 = rs ≫= (fun r => (shown_as r ++ [LF])%list) /\ (emits h2 false None rs).2 = None.
Proof.
  induction rs as [|r rs [IH1 IH2]]; [done|]. cbn. destruct (emits h2 false None rs) as [b m]. cbn in *. subst. done.
Qed.
End screen.
(** That an update replaces the one before: if it is shorter, the end of the old one remains *)
Definition upd (t : string) : record := Rec ["s3ql"; "verify"] 20 "%s read" t false 1 false true (String.list_ascii_of_string t).
Theorem leftover_refuted : ~ forall h2 rs, (forall r r', r ∈ rs -> r' ∈ rs -> h2 (kind r) = h2 (kind r') -> kind r = kind r') -> (forall r, r ∈ rs -> h2 (kind r) <> 0%Z) -> (forall r, r ∈ rs -> clean (shown_as r)) ->
  LogSpec.line (show blank (emits h2 true None rs).1) = from_option snd [] (seen_lines instead ([], None) (of_record <$> rs)).2.
Proof.
  intros H. specialize (H (fun _ => 1%Z) [upd "1023.9 MiB read"; upd "1.0 GiB read"]). vm_compute in H.
  assert (M : forall r, r ∈ [upd "1023.9 MiB read"; upd "1.0 GiB read"] -> r = upd "1023.9 MiB read" \/ r = upd "1.0 GiB read") by (intros r [->|[->|[]%elem_of_nil]%elem_of_cons]%elem_of_cons; auto).
  specialize (H ltac:(intros r r' Hr Hr' _; destruct (M r Hr) as [-> | ->], (M r' Hr') as [-> | ->]; reflexivity) ltac:(done)).
  assert (C : forall r, r ∈ [upd "1023.9 MiB read"; upd "1.0 GiB read"] -> clean (shown_as r)) by (intros r Hr; destruct (M r Hr) as [-> | ->]; split; apply (bool_decide_unpack _); vm_compute; exact I).
  specialize (H C). discriminate H.
Qed.

(** * Levels: which messages are considered at all, and by whom *)
Definition debug_list (debug : bool) (modules : list name) : list name := if debug && negb (bool_decide (["s3ql"] ∈ modules)) then (modules ++ [["s3ql"]])%list else modules.
Lemma debug_list_in debug modules m : m ∈ debug_list debug modules <-> m ∈ modules \/ debug = true /\ m = ["s3ql"].
Proof. unfold debug_list. destruct debug; cbn; [|naive_solver]. destruct (bool_decide _) eqn:E; cbn; [apply bool_decide_eq_true in E; naive_solver|]. rewrite elem_of_app, elem_of_list_singleton. naive_solver. Qed.
Lemma effective_all c l rn : root c = l -> (forall m l', (m, l') ∈ own c -> l' = l) -> effective c rn = l.
Proof.
  intros R O. induction rn as [|x rn IH]; cbn; destruct (list_find _ _) as [[i [m l']]|] eqn:E; try done; apply list_find_Some in E as (E & _ & _); apply elem_of_list_lookup_2 in E; eauto.
Qed.
Lemma effective_own c l rn : (forall m l', (m, l') ∈ own c -> l' = l) -> effective c rn = if decide (Exists (fun x : name * nat => x.1 `prefix_of` reverse rn) (own c)) then l else root c.
Proof.
  intros O. induction rn as [|x rn IH]; cbn; destruct (list_find _ _) as [[i [m l']]|] eqn:E.
  - apply list_find_Some in E as (E & Em & _). cbn in Em. apply elem_of_list_lookup_2 in E. rewrite decide_True; [eauto|]. apply Exists_exists. exists (m, l'). split; [done|]. cbn. by rewrite Em.
  - rewrite decide_False; [done|]. rewrite Exists_exists. intros ([m l'] & Hin & Hp). cbn in Hp. apply prefix_nil_inv in Hp as ->. apply list_find_None in E. rewrite Forall_forall in E. by apply (E _ Hin).
  - apply list_find_Some in E as (E & Em & _). cbn in Em. apply elem_of_list_lookup_2 in E. rewrite decide_True; [eauto|]. apply Exists_exists. exists (m, l'). split; [done|]. cbn. by rewrite Em.
  - rewrite IH. apply list_find_None in E. rewrite Forall_forall in E.
    assert (Eq : Exists (fun x : name * nat => x.1 `prefix_of` reverse rn) (own c) <-> Exists (fun x0 : name * nat => x0.1 `prefix_of` reverse (x :: rn)) (own c)).
    { rewrite !Exists_exists. split; intros ([m l'] & Hin & Hp); exists (m, l'); (split; [done|]); cbn [fst] in Hp |- *.
      - rewrite reverse_cons. by apply prefix_app_r.
      - rewrite reverse_cons in Hp. destruct Hp as [z Hz]. destruct z as [|y z _] using rev_ind; [rewrite app_nil_r in Hz; exfalso; apply (E _ Hin); change (m = reverse (x :: rn)); rewrite reverse_cons; congruence|].
        rewrite app_assoc in Hz. apply app_inj_tail in Hz as [-> _]. by exists z. }
    by apply decide_ext.
Qed.
(** Without debugging: messages from INFO on. With it, also those from DEBUG on of the modules given and all below them (or of all). *)
Theorem enabled_exact quiet log debug modules systemd n l : enabled (setup quiet log debug modules systemd) n l = true <->
  INFO <= l \/ DEBUG <= l /\ (debug = true \/ modules <> []) /\ (["all"] ∈ modules \/ ["__main__"] `prefix_of` n \/ (exists m, m ∈ modules /\ m `prefix_of` n) \/ debug = true /\ ["s3ql"] `prefix_of` n).
Proof.
  unfold enabled, setup. cbn [disabled]. fold (debug_list debug modules). pose proof (debug_list_in debug modules) as DI.
  assert (Dn : debug_list debug modules = [] <-> debug = false /\ modules = []).
  { split; [|by intros [-> ->]]. intros E. rewrite E in DI. split; [destruct debug; [|done]; exfalso; eapply not_elem_of_nil, DI; eauto|]. destruct modules as [|m ms]; [done|]. exfalso. eapply not_elem_of_nil, DI. left. apply elem_of_list_here. }
  set (dl := debug_list debug modules) in *. unfold INFO, DEBUG, NOTSET. destruct (bool_decide (dl = [])) eqn:B; cbn [negb andb].
  - apply bool_decide_eq_true in B. apply Dn in B as [-> ->]. rewrite (effective_all _ 20) by (done || by intros ? ? ?%elem_of_nil). destruct (decide (l <= 10)).
    + split; [done|]. intros [H|(_ & [H|H] & _)]; [lia | done | done].
    + rewrite bool_decide_eq_true. split; [by left|]. intros [H|(_ & [H|H] & _)]; done.
  - apply bool_decide_eq_false in B. assert (B' : debug = true \/ modules <> []) by (destruct debug; [by left|]; right; intros E; apply B, Dn; done).
    assert (A : ["all"] ∈ dl <-> ["all"] ∈ modules) by (rewrite DI; naive_solver).
    destruct (bool_decide (["all"] ∈ dl)) eqn:Ba.
    + apply bool_decide_eq_true, A in Ba. rewrite (effective_all _ 10) by (done || by intros ? ? [= -> ->]%elem_of_list_singleton).
      destruct (decide (l <= 0)); [split; [done|lia]|]. rewrite bool_decide_eq_true. split; [intros; right; eauto|lia].
    + apply bool_decide_eq_false in Ba. rewrite A in Ba. erewrite (effective_own _ 10); cycle 1.
      { cbn. intros m l' [[= -> ->]|[m' [[= -> ->] _]]%elem_of_list_fmap]%elem_of_cons; done. }
      cbn [own root]. rewrite reverse_involutive. destruct (decide (l <= 0)); [split; [done|lia]|]. rewrite bool_decide_eq_true. destruct (decide _) as [D|D].
      * split; [|lia]. intros H. destruct (decide (20 <= l)); [by left|]. right. split; [done|]. split; [done|]. right. apply Exists_cons in D as [D|D]; [by left|]. right. apply Exists_exists in D as (x & [m [-> Hm]]%elem_of_list_fmap & Hp). cbn in Hp. apply DI in Hm as [Hm|[-> ->]]; [left; eauto | by right].
      * split; [by left|]. intros [H|(Hl & _ & H)]; [done|]. exfalso. apply D. destruct H as [H|[H|[(m & Hm & Hp)|[-> Hp]]]]; [done | by left | |]; right; apply Exists_exists.
        -- exists (m, 10). split; [|done]. apply elem_of_list_fmap. exists m. split; [done|]. apply DI. by left.
        -- exists (["s3ql"], 10). split; [|done]. apply elem_of_list_fmap. eexists. split; [reflexivity|]. apply DI. by right.
Qed.
(** The console: warnings and errors always; information unless it was asked to be quiet (which has no effect with systemd, and none with debugging to the console). The file gets everything that is considered. *)
Theorem console_level quiet log debug modules systemd l : console (setup quiet log debug modules systemd) <= l <->
  WARNING <= l \/ INFO <= l /\ (quiet = false \/ systemd = true) \/ log = None /\ (debug = true \/ modules <> []).
Proof.
  unfold setup. cbn [console]. fold (debug_list debug modules). pose proof (debug_list_in debug modules) as DI.
  assert (Dn : debug_list debug modules = [] <-> debug = false /\ modules = []).
  { split; [|by intros [-> ->]]. intros E. rewrite E in DI. split; [destruct debug; [|done]; exfalso; eapply not_elem_of_nil, DI; eauto|]. destruct modules as [|m ms]; [done|]. exfalso. eapply not_elem_of_nil, DI. left. apply elem_of_list_here. }
  unfold WARNING, INFO, NOTSET. destruct (bool_decide (debug_list debug modules = [])) eqn:B.
  - apply bool_decide_eq_true, Dn in B as [-> ->]. destruct log, quiet, systemd; cbn; split; intros; repeat match goal with H : _ \/ _ |- _ => destruct H | H : _ /\ _ |- _ => destruct H end; try done; try lia; auto.
  - apply bool_decide_eq_false in B. assert (B' : debug = true \/ modules <> []) by (destruct debug; [by left|]; right; intros E; apply B, Dn; done).
    destruct log, quiet, systemd; cbn; split; intros; repeat match goal with H : _ \/ _ |- _ => destruct H | H : _ /\ _ |- _ => destruct H end; try done; try lia; auto.
Qed.
Theorem file_level quiet log debug modules systemd : file (setup quiet log debug modules systemd) = (fun _ => 0) <$> log.
Proof. by destruct log. Qed.
(** Hence warnings and errors without limits are everywhere *)
Theorem warnings_considered quiet log debug modules systemd n l h : WARNING <= l -> h ∈ handlers (setup quiet log debug modules systemd) -> enabled (setup quiet log debug modules systemd) n l = true /\ h <= l.
Proof.
  intros Hl Hh. split; [apply enabled_exact; left; unfold INFO, WARNING in *; lia|]. unfold handlers in Hh. apply elem_of_cons in Hh as [->|Hh]; [apply console_level; by left|].
  rewrite file_level in Hh. destruct log; cbn in Hh; [apply elem_of_list_singleton in Hh as ->; lia | by apply elem_of_nil in Hh].
Qed.
Example setup_example : let c := setup true (Some "mount.log") true [["trio"; "abc"]] false in
  enabled c ["s3ql"; "fs"] 10 = true /\ enabled c ["trio"] 10 = false /\ enabled c ["trio"; "abc"; "x"] 10 = true /\ handlers c = [30; 0].
Proof. vm_compute. done. Qed.
Example screen_example : show blank (emits (fun k => Z.of_nat (k.1.2)) true None [upd "1"; upd "22"; Rec ["a"] 30 "x" "" false 0 false false (String.list_ascii_of_string "hello"); upd "333"]).1
  = Screen (String.list_ascii_of_string <$> ["hello"; "22"]) (String.list_ascii_of_string "333") 3.
Proof. reflexivity. Qed.
Print Assumptions screen_instead.
Print Assumptions enabled_exact.
