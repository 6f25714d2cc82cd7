(** C80: s3qlcp names the source and the new directory. *)
From stdpp Require Import prelude gmap.
From Coq Require Import NArith Lia.
From Verif Require Import CodecModel CmdModel CmdSpec CmdProps CpModel.
Local Open Scope N_scope.

Definition plain (c : text) : Prop := c <> [] /\ c <> DOT.
Global Instance plain_dec c : Decision (plain c).
Proof. unfold plain. apply _. Defined.
Lemma norm_filter acc cs : Forall (fun c => c <> DOTDOT) cs -> foldl norm_step acc cs = reverse (filter plain cs) ++ acc.
Proof.
  intros F. revert acc. induction F as [|c cs H _ IH]; intros acc; [done|]. cbn [foldl]. rewrite IH. unfold norm_step. destruct (decide (c = [] \/ c = DOT)) as [E|E].
  - rewrite filter_cons_False; [done|]. unfold plain. tauto.
  - rewrite decide_False by done. rewrite filter_cons_True by (unfold plain; tauto). by rewrite reverse_cons, <- app_assoc.
Qed.
Lemma walk_filter fuel t root cur l cs q : walk fuel t root true cur (l ++ cs) = Some q -> walk fuel t root true cur (l ++ filter plain cs) = Some q.
Proof.
  revert cur l cs. induction fuel as [|fuel IH]; intros cur l cs W; [done|].
  assert (forall c r r', (forall cur', walk fuel t root true cur' r = Some q -> walk fuel t root true cur' r' = Some q) -> (forall cur' k, walk fuel t root true cur' (k ++ r) = Some q -> walk fuel t root true cur' (k ++ r') = Some q) ->
    walk (S fuel) t root true cur (c :: r) = Some q -> walk (S fuel) t root true cur (c :: r') = Some q) as X.
  { intros c r r' H1 H2 W'. cbn [walk] in W' |- *. destruct (t !! cur) as [[parent es| |]|]; [|done..]. destruct (decide (c = [] \/ c = DOT)); [by apply H1|]. destruct (decide (c = DOTDOT)); [by apply H1|]. destruct (es !! c) as [j|]; [|done].
    destruct (t !! j) as [[| r0 l0|]|]; try by apply H1. cbn [negb andb] in W' |- *. by apply H2. }
  destruct l as [|c l]; cbn [app] in W |- *.
  - destruct cs as [|c cs]; [done|]. destruct (decide (plain c)) as [P|P].
    + rewrite filter_cons_True by done. apply (X c cs (filter plain cs)); [intros cur' W'; by apply (IH cur' [])|intros cur' k W'; by apply IH|done].
    + rewrite filter_cons_False by done. cbn [walk] in W. destruct (t !! cur) as [[parent es| |]|]; [|done..]. rewrite decide_True in W by (unfold plain in P; destruct (decide (c = [])); [by left|right; destruct (decide (c = DOT)); [done|tauto]]).
      apply (IH cur []) in W. cbn [app] in W. apply (walk_more fuel); [done|lia].
  - apply (X c (l ++ cs) (l ++ filter plain cs)); [intros cur' W'; by apply IH|intros cur' k W'; rewrite app_assoc in W' |- *; by apply IH|done].
Qed.
Lemma walk_concat f1 f2 t root x a cur b q : walk f1 t root true x a = Some cur -> walk f2 t root true cur b = Some q -> walk (f1 + f2) t root true x (a ++ b) = Some q.
Proof.
  revert x a. induction f1 as [|f1 IH]; intros x a W1 W2; [done|]. destruct a as [|c a].
  - cbn in W1. injection W1 as ->. cbn [app]. apply (walk_more f2); [done|lia].
  - cbn [walk Nat.add app] in W1 |- *. destruct (t !! x) as [[parent es| |]|]; [|done..]. destruct (decide (c = [] \/ c = DOT)); [by apply IH|]. destruct (decide (c = DOTDOT)); [by apply IH|]. destruct (es !! c) as [j|]; [|done].
    destruct (t !! j) as [[| r l|]|]; try by apply IH. cbn [negb andb] in W1 |- *. rewrite app_assoc. by apply IH.
Qed.
Lemma walk_same f1 f2 t root follow x cs i j : walk f1 t root follow x cs = Some i -> walk f2 t root follow x cs = Some j -> i = j.
Proof. intros W1 W2. apply (walk_more _ (f1 `max` f2)) in W1; [|lia]. apply (walk_more _ (f1 `max` f2)) in W2; [|lia]. congruence. Qed.

(** Paths without links, step by step *)
Inductive steps (t : tree) : N -> list text -> N -> Prop :=
  | steps_nil x : steps t x [] x
  | steps_stay x p es c cs y : t !! x = Some (Dir p es) -> c = [] \/ c = DOT -> steps t x cs y -> steps t x (c :: cs) y
  | steps_up x p es cs y : t !! x = Some (Dir p es) -> steps t p cs y -> steps t x (DOTDOT :: cs) y
  | steps_down x p es c i cs y : t !! x = Some (Dir p es) -> regular c -> es !! c = Some i -> (forall r l, t !! i <> Some (Link r l)) -> steps t i cs y -> steps t x (c :: cs) y.
(** The way down from the root, last component first *)
Inductive downs (t : tree) (root : N) : list text -> N -> Prop :=
  | downs_nil : downs t root [] root
  | downs_cons x p es c i acc : downs t root acc x -> t !! x = Some (Dir p es) -> regular c -> es !! c = Some i -> (forall r l, t !! i <> Some (Link r l)) -> downs t root (c :: acc) i.
Lemma steps_app t x a y b z : steps t x a y -> steps t y b z -> steps t x (a ++ b) z.
Proof. induction 1; intros S; cbn [app]; [done|eapply steps_stay; eauto|eapply steps_up; eauto|eapply steps_down; eauto]. Qed.
Lemma steps_walk t root x cs y : steps t x cs y -> walk (S (length cs)) t root true x cs = Some y.
Proof.
  induction 1 as [x|x p es c cs y E C W IH|x p es cs y E W IH|x p es c i cs y E (B1 & B2 & B3) I L W IH]; [done|..]; remember (S (length cs)) as k; cbn [length]; rewrite <- Heqk; cbn [walk]; rewrite E.
  - by rewrite decide_True.
  - by rewrite decide_False, decide_True by (done || by intros [|]).
  - rewrite decide_False by tauto. rewrite decide_False by done. rewrite I. destruct (t !! i) as [[| r l|]|]; try done. by destruct (L r l).
Qed.
Lemma downs_walk t root acc x : downs t root acc x -> walk (S (length acc) * 2) t root true root (reverse acc) = Some x.
Proof.
  induction 1 as [|x p es c i acc D IH E B I L]; [done|]. rewrite reverse_cons. apply (walk_more (S (length acc) * 2 + 2)); [|cbn [length]; lia]. apply (walk_concat _ _ _ _ _ _ x); [done|].
  apply (steps_walk t root x [c] i). eapply steps_down; [done..|constructor].
Qed.
Lemma norm_steps t root es acc x cs y : proper t -> t !! root = Some (Dir root es) -> downs t root acc x -> steps t x cs y -> downs t root (foldl norm_step acc cs) y.
Proof.
  intros T R D S. revert acc D. induction S as [x|x p es' c cs y E C S IH|x p es' cs y E S IH|x p es' c i cs y E (B1 & B2 & B3) I L S IH]; intros acc D; cbn [foldl]; [done|..]; apply IH; unfold norm_step.
  - by rewrite decide_True.
  - rewrite decide_False by (by intros [|]). rewrite decide_True by done. destruct D as [|x' p' es1 c' i acc D E' B' I' L']; cbn [tail].
    + rewrite R in E. injection E as <- _. constructor.
    + destruct (T _ _ _ _ _ E' I') as [_ X]. by rewrite (X _ _ E).
  - rewrite decide_False by tauto. rewrite decide_False by done. by eapply downs_cons; [..|repeat split|].
Qed.

Lemma rstrip_slash_le cs : (length (rstrip_slash cs) <= length cs)%nat.
Proof. induction cs as [|c cs IH]; [done|]. cbn [rstrip_slash]. destruct (rstrip_slash cs) as [|c' cs']; [destruct (decide (c = []))|]; cbn [length] in *; lia. Qed.

Section cp.
Context (dev ino fresh : N -> N) (mountpoint : N -> bool).
Notation s3qlcp := (s3qlcp dev ino fresh mountpoint).
Definition cp_right (fuel : nat) (t : tree) (root cur : N) (source target : list text) (c : command) (d n : N) : Prop :=
  exists s q b, walk fuel t root true cur (rstrip_slash source) = Some s /\ is_dir t s = true /\ (forall i, walk fuel t root false cur (rstrip_slash source) = Some i -> mountpoint i = false) /\
    mkdir_in fuel t root cur target = Some (q, b) /\ n = fresh q /\ d = dev q /\ c = Copy (ino s) n /\ d = dev s.
Lemma cp_core fuel t root cur cwd source target c d n :
  (forall cs b p q, rstrip_slash target = cs ++ [b] -> regular b -> walk fuel t root true cur cs = Some q -> walk fuel t root true root (dirname (abspath cwd (cs ++ [b]))) = Some p -> p = q) ->
  s3qlcp fuel t root cur cwd source target = Some (c, (d, n)) -> cp_right fuel t root cur source target c d n.
Proof.
  intros PQ H. unfold CpModel.s3qlcp in H. assert (rstrip_slash (rstrip_slash target) = rstrip_slash target) as RR.
  { clear. induction target as [|c l IH]; [done|]. cbn [rstrip_slash]. destruct (rstrip_slash l) as [|c' l'] eqn:E; [destruct (decide (c = [])) as [->|N]; [done|]; cbn [rstrip_slash]; by rewrite decide_False|]. cbn [rstrip_slash] in IH |- *. by rewrite IH. }
  destruct (walk fuel t root true cur (rstrip_slash source)) as [s|] eqn:S; [|done]. cbn [mbind option_bind] in H. destruct (decide _) as [|X]; [done|].
  destruct (walk fuel t root true root (dirname (abspath cwd (rstrip_slash target)))) as [p|] eqn:P; [|done]. cbn [mbind option_bind] in H.
  destruct (is_dir t s && is_dir t p && bool_decide (dev p = dev s) && negb _) eqn:A; [|done]. rewrite !andb_true_iff, negb_true_iff, bool_decide_eq_true in A. destruct A as [[[A1 A2] A3] A4].
  destruct (mkdir_in fuel t root cur (rstrip_slash target)) as [[q b]|] eqn:M; [|done]. cbn [mbind option_bind] in H. injection H as <- <- <-.
  exists s, q, b. unfold mkdir_in in M |- *. rewrite RR in M. split_and!; try done; [intros i I; by rewrite I in A4|]. rewrite <- A3. f_equal. symmetry.
  destruct (last (rstrip_slash target)) as [b'|] eqn:L; [|done]. apply last_Some in L as [cs L]. rewrite L in *. rewrite removelast_last in M.
  destruct (walk fuel t root true cur cs) as [q'|] eqn:Q; [|done]. cbn [mbind option_bind] in M. destruct (_ && _ && negb _) eqn:G; [|done]. injection M as -> ->. rewrite !andb_true_iff, negb_true_iff, !bool_decide_eq_false in G. destruct G as [_ G].
  refine (PQ cs b p q eq_refl _ Q P).
  split; [|tauto]. intros ->. clear -RR. pose proof (rstrip_slash_more cs 1) as N. cbn [replicate] in N. rewrite RR in N. pose proof (rstrip_slash_le cs) as L. rewrite <- N, app_length in L. cbn [length] in L. lia.
Qed.
(** Without ".." in the target path (and in the path of the current directory), the command names the source directory and the directory that was made, and
    both are on the same file system; a mount point is not copied. *)
Theorem cmd_cp fuel f t root cur cwd source target c d n : Forall (fun x => x <> DOTDOT) (cwd ++ rstrip_slash target) -> walk f t root true root cwd = Some cur -> s3qlcp fuel t root cur cwd source target = Some (c, (d, n)) ->
  cp_right fuel t root cur source target c d n.
Proof.
  intros D C. apply cp_core. intros cs b p q L B Q P. rewrite L in D. pose proof (walk_concat _ _ _ _ _ _ _ _ _ C Q) as W. pose proof (walk_filter _ _ _ _ [] _ _ W) as W'. cbn [app] in W'. refine (walk_same _ _ _ _ _ _ _ _ _ P _).
  unfold dirname, abspath. rewrite reverse_involutive, norm_filter by done. rewrite app_nil_r, app_assoc, filter_app. rewrite filter_cons_True by (split; apply B). rewrite filter_nil, reverse_snoc. cbn [tail]. rewrite reverse_involutive. exact W'.
Qed.
(** And it is sent whenever the source is a directory but no mount point, the target is not there and its parent is a directory on the same file system. *)
Theorem cmd_cp_done f t root cur cwd source target cs b s q : Forall (fun x => x <> DOTDOT) (cwd ++ rstrip_slash target) -> walk f t root true root cwd = Some cur ->
  walk f t root true cur (rstrip_slash source) = Some s -> is_dir t s = true -> (forall k i, walk k t root false cur (rstrip_slash source) = Some i -> mountpoint i = false) ->
  rstrip_slash target = cs ++ [b] -> regular b -> (forall k follow, walk k t root follow cur (cs ++ [b]) = None) -> walk f t root true cur cs = Some q -> is_dir t q = true -> dev q = dev s ->
  s3qlcp (f + f) t root cur cwd source target = Some (Copy (ino s) (fresh q), (dev q, fresh q)).
Proof.
  intros D C S S1 S2 L B N Q Q1 V. unfold CpModel.s3qlcp, mkdir_in. rewrite (walk_more _ (f + f) _ _ _ _ _ _ S) by lia. cbn [mbind option_bind]. rewrite L, (N _ true). rewrite decide_False by (by intros [? ?]).
  assert (walk (f + f) t root true root (dirname (abspath cwd (cs ++ [b]))) = Some q) as ->.
  { rewrite L in D. pose proof (walk_concat _ _ _ _ _ _ _ _ _ C Q) as W. pose proof (walk_filter _ _ _ _ [] _ _ W) as W'. cbn [app] in W'. unfold dirname, abspath. rewrite reverse_involutive, norm_filter by done.
    rewrite app_nil_r, app_assoc, filter_app. rewrite filter_cons_True by (split; apply B). rewrite filter_nil, reverse_snoc. cbn [tail]. rewrite reverse_involutive. exact W'. }
  cbn [mbind option_bind]. rewrite S1, Q1, bool_decide_eq_true_2 by done. cbn [andb].
  assert (match walk (f + f) t root false cur (rstrip_slash source) with Some i => mountpoint i | None => false end = false) as -> by (destruct (walk (f + f) t root false cur (rstrip_slash source)) eqn:E; [by eapply S2|done]). cbn [negb].
  rewrite rstrip_slash_snoc by apply B. rewrite last_snoc, removelast_last. rewrite (walk_more _ (f + f) _ _ _ _ _ _ Q) by lia. cbn [mbind option_bind]. rewrite Q1, (N _ false). rewrite bool_decide_eq_true_2 by done. rewrite bool_decide_eq_false_2 by (destruct B as (? & ? & ?); tauto). done.
Qed.
(** With "..", if there is no link on the way. *)
Theorem cmd_cp_dots fuel t root es cur cwd source target cs b q c d n : proper t -> t !! root = Some (Dir root es) -> steps t root cwd cur -> rstrip_slash target = cs ++ [b] -> steps t cur cs q ->
  s3qlcp fuel t root cur cwd source target = Some (c, (d, n)) -> cp_right fuel t root cur source target c d n.
Proof.
  intros T R C E Q. apply cp_core. intros cs' b' p q' L B Q' P. rewrite E in L. apply app_inj_tail in L as [<- <-]. rewrite (walk_same _ _ _ _ _ _ _ _ _ Q' (steps_walk _ root _ _ _ Q)).
  pose proof (norm_steps _ _ _ [] _ _ _ T R (downs_nil _ _) (steps_app _ _ _ _ _ _ C Q)) as D. refine (walk_same _ _ _ _ _ _ _ _ _ P (downs_walk _ _ _ _ _)).
  unfold dirname, abspath. rewrite reverse_involutive, app_assoc, foldl_app. cbn [foldl]. unfold norm_step at 1. rewrite decide_False by (destruct B as (? & ? & ?); tauto). rewrite decide_False by apply B. cbn [tail]. exact D.
Qed.
End cp.

(** A tree of two file systems: directory 1 (device 7) with "a" (2), "m" (3, the root of device 8, with "d" (4)) and a link "l" to "m/d". *)
Definition cpt : tree := <[1 := Dir 1 {[ [97] := 2; [109] := 3; [108] := 5 ]}]> (<[2 := Dir 1 ∅]> (<[3 := Dir 1 {[ [100] := 4 ]}]> (<[4 := Dir 3 ∅]> {[ 5 := Link false [[109]; [100]] ]}))).
Definition cpdev (i : N) : N := if decide (i = 3 \/ i = 4) then 8 else 7.
Definition cpfresh (i : N) : N := if decide (cpdev i = 8) then 2 else 40.
Definition cpmount (i : N) : bool := bool_decide (i = 1 \/ i = 3).
Example cmd_cp_case : s3qlcp cpdev id cpfresh cpmount 10 cpt 1 1 [] [[97]] [[46]; [97]; []; [98]; []] = Some (Copy 2 40, (7, 40)).
Proof. vm_compute. reflexivity. Qed.
Example cmd_cp_case_dots : s3qlcp cpdev id cpfresh cpmount 10 cpt 1 1 [] [[97]] [[109]; DOTDOT; [98]] = Some (Copy 2 40, (7, 40)) /\ steps cpt 1 [[109]; DOTDOT] 1.
Proof. split; [vm_compute; reflexivity|]. eapply (steps_down _ 1 _ _ _ 3); [reflexivity|done|reflexivity|done|]. eapply steps_up; [reflexivity|constructor]. Qed.
Example cmd_cp_done_case : s3qlcp cpdev id cpfresh cpmount (5 + 5) cpt 1 1 [] [[97]] [[98]] = Some (Copy 2 40, (7, 40)).
Proof.
  apply (cmd_cp_done cpdev id cpfresh cpmount 5 cpt 1 1 [] _ _ [] [98] 2 1); try done; [by repeat constructor| |].
  - intros [|[|k]] i W; [done|done|]. cbn in W. by injection W as <-.
  - intros [|k] follow; reflexivity.
Qed.
Example cmd_cp_case_other : s3qlcp cpdev id cpfresh cpmount 10 cpt 1 1 [] [[97]] [[108]; [98]] = None.
Proof. vm_compute. reflexivity. Qed.
(** Refuted with ".." behind a link: s3qlcp a l/../b looks at the device of the directory that has "l", makes the new directory beside the one that "l" leads
    to, and sends its number to the file system of "a", where it is the number of another directory (here of "a" itself). *)
Theorem cmd_cp_link_refuted : exists dev ino fresh mountpoint fuel t root cur cwd source target s d n, walk fuel t root true root cwd = Some cur /\ walk fuel t root true cur (rstrip_slash source) = Some s /\
  s3qlcp dev ino fresh mountpoint fuel t root cur cwd source target = Some (Copy (ino s) n, (d, n)) /\ d <> dev s /\ n = ino s.
Proof. exists cpdev, id, cpfresh, cpmount, 10%nat, cpt, 1, 1, [], [[97]], [[108]; DOTDOT; [98]], 2, 8, 2. split_and!; [vm_compute; reflexivity..|done|done]. Qed.

Print Assumptions cmd_cp. Print Assumptions cmd_cp_done. Print Assumptions cmd_cp_dots.
Print Assumptions cmd_cp_link_refuted.
