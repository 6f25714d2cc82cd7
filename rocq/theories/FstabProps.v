(** C72: options given as in fstab mean the same as long options. *)
From stdpp Require Import prelude strings.
From Coq Require Import Ascii.
From Verif Require Text.
From Verif Require Import FstabModel.
Local Open Scope string_scope.

(** What an option means: an option with a value, a flag, or nothing *)
Inductive means : text -> list text -> Prop :=
  | means_value key val : eq_ ∉ key -> eq_ ∉ val -> means (key ++ eq_ :: val)%list [(txt "--" ++ key)%list; val]
  | means_flag opt : eq_ ∉ opt -> opt ∉ ignored -> opt <> txt "ro" -> means opt [(txt "--" ++ opt)%list]
  | means_nothing opt : opt ∈ ignored -> means opt [].

Lemma ignored_plain opt : opt ∈ ignored -> eq_ ∉ opt /\ opt <> txt "ro".
Proof. intros H. assert (Forall (fun o => eq_ ∉ o /\ o <> txt "ro") ignored) as F by (apply (bool_decide_unpack _); vm_compute; exact I). rewrite Forall_forall in F. by apply F. Qed.
Lemma insert_at_app n x l l' : length l = n -> insert_at n x (l ++ l')%list = (l ++ x :: l')%list.
Proof. intros <-. unfold insert_at. by rewrite take_app, drop_app. Qed.
Lemma split_two (o a b : text) : Text.split eq_ o = [a; b] <-> o = (a ++ eq_ :: b)%list /\ eq_ ∉ a /\ eq_ ∉ b.
Proof.
  split.
  - intros E. pose proof (Text.join_split eq_ o) as J. pose proof (Text.split_no_sep eq_ o) as F. rewrite E in J, F. cbn in J. rewrite !Forall_cons in F. naive_solver.
  - intros (-> & Ha & Hb). rewrite Text.split_app_sep by done. by rewrite Text.split_word.
Qed.
Lemma one_means pre post o l : means o l -> one (length pre) o (pre ++ post)%list = Done (pre ++ l ++ post)%list.
Proof.
  intros M. unfold one. destruct M as [key val Hk Hv|opt H1 H2 H3|opt H].
  - rewrite decide_True by set_solver. rewrite (proj2 (split_two _ key val)) by done. rewrite insert_at_app by done. by rewrite insert_at_app.
  - rewrite decide_False by done. rewrite decide_False by done. rewrite decide_False by done. by rewrite insert_at_app.
  - destruct (ignored_plain opt H). rewrite decide_False by done. by rewrite decide_True by done.
Qed.
Lemma one_cases o : (exists l, means o l) \/ (o = txt "ro") \/ (exists a b c, o = (a ++ eq_ :: b ++ eq_ :: c)%list).
Proof.
  destruct (decide (eq_ ∈ o)) as [H|H].
  - destruct (Text.split eq_ o) as [|a [|b [|c l]]] eqn:E.
    + by apply Text.split_not_nil in E.
    + exfalso. pose proof (Text.join_split eq_ o) as J. pose proof (Text.split_no_sep eq_ o) as F. rewrite E in J, F. cbn in J. subst. by apply Forall_cons in F as [? _].
    + apply split_two in E as (-> & ? & ?). left. eexists. by constructor.
    + right. right. pose proof (Text.join_split eq_ o) as J. rewrite E in J. cbn [Text.join] in J. exists a, b. eexists. symmetry. exact J.
  - destruct (decide (o ∈ ignored)); [left; eexists; by apply means_nothing|]. destruct (decide (o = txt "ro")); [by right; left|]. left. eexists. by apply means_flag.
Qed.
Lemma loop_app pos o1 o2 args : loop pos (o1 ++ o2)%list args = match loop pos o1 args with Done args => loop pos o2 args | r => r end.
Proof. revert args. induction o1 as [|o o1 IH]; intros args; [done|]. cbn. destruct (one pos o args); [apply IH|done..]. Qed.
Lemma loop_means pre os ls post : Forall2 means os ls -> loop (length pre) (reverse os) (pre ++ post)%list = Done (pre ++ concat ls ++ post)%list.
Proof.
  intros F. induction F as [|o l os ls M F IH]; [done|]. rewrite reverse_cons, loop_app, IH. cbn [loop]. rewrite one_means with (l := l) by done. cbn [concat]. by rewrite <- app_assoc.
Qed.
Lemma index_app x l l' : x ∉ l -> index x (l ++ x :: l')%list = Some (length l).
Proof. induction l as [|y l IH]; cbn; [by rewrite decide_True|]. intros [? ?]%not_elem_of_cons. rewrite decide_False by congruence. by rewrite IH. Qed.
Lemma index_none x l : x ∉ l -> index x l = None.
Proof. induction l as [|y l IH]; cbn; [done|]. intros [? ?]%not_elem_of_cons. rewrite decide_False by congruence. by rewrite IH. Qed.
Lemma index_some x l n : index x l = Some n -> exists a b, l = (a ++ x :: b)%list /\ length a = n /\ x ∉ a.
Proof.
  revert n. induction l as [|y l IH]; intros n; cbn; [done|]. case_decide as D; [intros [= <-]; exists [], l; subst; repeat split; apply not_elem_of_nil|]. intros (m & Hm & ->)%fmap_Some. destruct (IH m Hm) as (a & b & -> & <- & ?). exists (y :: a), b. repeat split. apply not_elem_of_cons. split; [congruence|done].
Qed.
Lemma del_mid (pre : list text) x post : del (length pre) (pre ++ x :: post)%list = (pre ++ post)%list.
Proof. unfold del. induction pre as [|y pre IH]; [by destruct post|]. cbn. f_equal. exact IH. Qed.
Lemma expand_start pre val post : txt "-o" ∉ pre -> txt "--" ∉ pre -> expand (pre ++ txt "-o" :: val :: post)%list = loop (length pre) (reverse (Text.split comma val)) (pre ++ post).
Proof.
  intros H1 H2. unfold expand. rewrite decide_True.
  - rewrite index_app by done. cbn [from_option id]. rewrite (lookup_app_r pre) by lia. replace (S (length pre) - length pre) with 1 by lia. cbn [lookup list_lookup]. by rewrite !del_mid.
  - destruct (index (txt "--") (pre ++ txt "-o" :: val :: post)) as [n|] eqn:E; cbn [from_option id].
    + apply index_some in E as (a & b & E & <- & Ha). assert (length pre < length a) as Hl.
      { destruct (decide (length pre < length a)) as [|N]; [done|]. exfalso. assert ((a ++ txt "--" :: b)%list !! length a = Some (txt "--")) as L by (rewrite lookup_app_r, Nat.sub_diag by done; done). rewrite <- E in L. destruct (decide (length a = length pre)) as [Q|Q]; [rewrite Q, lookup_app_r, Nat.sub_diag in L by done; done|]. rewrite lookup_app_l in L by lia. apply elem_of_list_lookup_2 in L. done. }
      apply elem_of_list_lookup. exists (length pre). rewrite lookup_take by done. rewrite lookup_app_r by done. by rewrite Nat.sub_diag.
    + rewrite take_ge by done. apply elem_of_app. right. left.
Qed.
(** ** Options are replaced, in order and in place, by what they mean. *)
Theorem expand_exact pre os ls post : txt "-o" ∉ pre -> txt "--" ∉ pre -> os <> [] -> Forall (fun o => comma ∉ o) os -> Forall2 means os ls -> expand (pre ++ txt "-o" :: Text.join comma os :: post)%list = Done (pre ++ concat ls ++ post)%list.
Proof. intros H1 H2 Hn Hc M. rewrite expand_start by done. rewrite Text.split_join by done. by apply loop_means. Qed.
(** Every option has exactly one meaning, unless it is [ro] or has two equality signs. *)
Theorem means_unique o l l' : means o l -> means o l' -> l = l'.
Proof.
  intros M M'. pose proof (one_means [] [] o l M) as H. pose proof (one_means [] [] o l' M') as H'. rewrite H in H'. injection H' as H'. cbn in H'. by rewrite !app_nil_r in H'.
Qed.
Theorem means_total o : (exists l, means o l) <-> o <> txt "ro" /\ forall a b c, o <> (a ++ eq_ :: b ++ eq_ :: c)%list.
Proof.
  split.
  - intros [l M]. assert (exists x, one 0 o [] = Done x) as [x E] by (pose proof (one_means [] [] o l M) as H; eauto). split.
    + intros ->. by vm_compute in E.
    + intros a b c ->. unfold one in E. rewrite decide_True in E by set_solver. destruct (Text.split eq_ _) as [|u [|v [|w k]]] eqn:Es; try done. apply split_two in Es as (Ex & Hu & Hv). clear E M.
      revert u Ex Hu. induction a as [|y a IH]; intros u Ex Hu; destruct u as [|z u]; cbn in Ex; injection Ex as Ex.
      * subst. set_solver.
      * subst. set_solver.
      * subst. set_solver.
      * eapply IH; [eassumption|set_solver].
  - intros [H1 H2]. destruct (one_cases o) as [?|[?|(a & b & c & ?)]]; [done|done|]. by destruct (H2 a b c).
Qed.
(** Without [-o], or after [--], the arguments stay as they are. *)
Theorem expand_none args : txt "-o" ∉ args -> expand args = Done args.
Proof. intros H. unfold expand. rewrite decide_False; [done|]. intros Q. apply H. by eapply elem_of_take_1 || (apply elem_of_list_lookup in Q as [k Q]; apply elem_of_list_lookup; exists k; apply lookup_take_Some in Q; tauto). Qed.
Theorem expand_after pre post : txt "-o" ∉ pre -> txt "--" ∉ pre -> expand (pre ++ txt "--" :: post)%list = Done (pre ++ txt "--" :: post)%list.
Proof. intros H1 H2. unfold expand. rewrite index_app by done. cbn [from_option id]. rewrite take_app. by rewrite decide_False. Qed.
(** Read-only mounting is refused: if [ro] is among the options, the file system is not mounted. *)
Theorem ro_refused pre os post : txt "-o" ∉ pre -> txt "--" ∉ pre -> Forall (fun o => comma ∉ o) os -> txt "ro" ∈ os -> forall args, expand (pre ++ txt "-o" :: Text.join comma os :: post) <> Done args.
Proof.
  intros H1 H2 Hc Hr args. rewrite expand_start by done. rewrite Text.split_join by (done || (intros ->; by apply elem_of_nil in Hr)). apply elem_of_list_split in Hr as (o1 & o2 & ->). rewrite reverse_app, reverse_cons, <- app_assoc, loop_app. destruct (loop _ (reverse o2) _); try done.
Qed.
(** ** Where this does not hold *)
(** A value that contains an equality sign (as backend options do) raises ValueError. *)
Theorem value_refuted : ~ (forall pre key val post, txt "-o" ∉ pre -> txt "--" ∉ pre -> eq_ ∉ key -> comma ∉ key -> comma ∉ val -> expand (pre ++ txt "-o" :: (key ++ eq_ :: val)%list :: post)%list = Done (pre ++ (txt "--" ++ key)%list :: val :: post)%list).
Proof.
  intros H. specialize (H [] (txt "backend-options") (txt "tcp-timeout=20") []). assert (expand ([] ++ [txt "-o"; (txt "backend-options" ++ eq_ :: txt "tcp-timeout=20")%list]) = ValueError) as E by (vm_compute; reflexivity). rewrite E in H. assert (ValueError = Done ([(txt "--" ++ txt "backend-options")%list; txt "tcp-timeout=20"])) as Q by (apply H; apply (bool_decide_unpack _); vm_compute; exact I). done.
Qed.
Theorem value_crash pre os post a b c : txt "-o" ∉ pre -> txt "--" ∉ pre -> Forall (fun o => comma ∉ o) os -> (a ++ eq_ :: b ++ eq_ :: c)%list ∈ os -> forall args, expand (pre ++ txt "-o" :: Text.join comma os :: post) <> Done args.
Proof.
  intros H1 H2 Hc Hr args. rewrite expand_start by done. rewrite Text.split_join by (done || (intros ->; by apply elem_of_nil in Hr)). apply elem_of_list_split in Hr as (o1 & o2 & ->). rewrite reverse_app, reverse_cons, <- app_assoc, loop_app. destruct (loop _ (reverse o2) _) as [x| | |]; try done. cbn [app loop].
  destruct (one (length pre) (a ++ eq_ :: b ++ eq_ :: c) x) eqn:E; try done. exfalso. set (o := (a ++ eq_ :: b ++ eq_ :: c)%list) in *. assert (~ exists l, means o l) as N by (intros Q; apply means_total in Q as [_ Q]; by apply (Q a b c)). unfold one in E. rewrite decide_True in E by (unfold o; set_solver). destruct (Text.split eq_ o) as [|u [|v [|w k]]] eqn:Es; try done. apply split_two in Es as (-> & ? & ?). apply N. eexists. by constructor.
Qed.
(** An empty option (two commas, or one at the end) becomes [--]: the arguments after it are not taken as options any more. *)
Theorem empty_option_refuted : ~ (forall pre os post args, txt "-o" ∉ pre -> txt "--" ∉ pre -> txt "--" ∉ os -> txt "--" ∉ post -> Forall (fun o => comma ∉ o) os -> expand (pre ++ txt "-o" :: Text.join comma os :: post)%list = Done args -> txt "--" ∉ args).
Proof.
  intros H. apply (H [] [txt "allow-other"; []; txt "log=x"] [txt "url"] [txt "--allow-other"; txt "--"; txt "--log"; txt "x"; txt "url"]); [apply (bool_decide_unpack _); vm_compute; exact I..|vm_compute; reflexivity|set_solver].
Qed.
(** [-o] at the end raises IndexError. *)
Theorem last_refuted : ~ (forall args, expand args = IndexError -> False).
Proof. intros H. apply (H [txt "-o"]). by vm_compute. Qed.
(** Only the first [-o] is replaced. *)
Theorem second_refuted : ~ (forall args args', txt "--" ∉ args -> expand args = Done args' -> txt "-o" ∉ args').
Proof. intros H. apply (H [txt "-o"; txt "rw"; txt "-o"; txt "nodev"] [txt "-o"; txt "nodev"]); [apply (bool_decide_unpack _); vm_compute; exact I|by vm_compute|left]. Qed.

(** ** Example *)
Example expand_example : expand (txt <$> ["local:///x"; "/mnt"; "-o"; "rw,allow-other,log=none,nofail,cachesize=100"; "--quiet"]) = Done (txt <$> ["local:///x"; "/mnt"; "--allow-other"; "--log"; "none"; "--cachesize"; "100"; "--quiet"]).
Proof. by vm_compute. Qed.
Example means_example : Forall2 means (txt <$> ["rw"; "allow-other"; "log=none"]) [[]; [txt "--allow-other"]; [txt "--log"; txt "none"]].
Proof.
  constructor; [apply means_nothing; apply (bool_decide_unpack _); vm_compute; exact I|]. constructor; [apply (means_flag (txt "allow-other")); apply (bool_decide_unpack _); vm_compute; exact I|]. constructor; [|constructor]. apply (means_value (txt "log") (txt "none")); apply (bool_decide_unpack _); vm_compute; exact I.
Qed.
Example ro_example : expand (txt <$> ["-o"; "rw,ro"; "x"]) = Quiet. Proof. by vm_compute. Qed.

Print Assumptions expand_exact.
Print Assumptions means_unique.
Print Assumptions means_total.
Print Assumptions expand_none.
Print Assumptions expand_after.
Print Assumptions ro_refused.
Print Assumptions value_refuted.
Print Assumptions value_crash.
Print Assumptions empty_option_refuted.
Print Assumptions last_refuted.
Print Assumptions second_refuted.
