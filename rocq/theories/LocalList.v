(** Listing the local backend. *)
From stdpp Require Import prelude gmap.
From Verif Require Import Text LocalModel LocalPaths.

Lemma NoDup_omap_on {A B} (f : A -> option B) (l : list A) : NoDup l -> (forall x y b, x ∈ l -> y ∈ l -> f x = Some b -> f y = Some b -> x = y) -> NoDup (omap f l).
Proof.
  induction 1 as [|x l Hx Hl IH]; intros Hf; [constructor|]. cbn. destruct (f x) as [b|] eqn:E.
  - constructor; [|apply IH; intros; eapply Hf; eauto; by right]. intros (y & Hy & Ey)%elem_of_list_omap. apply Hx. rewrite (Hf x y b); [done|left|by right|done|done].
  - apply IH. intros; eapply Hf; eauto; by right.
Qed.
Lemma NoDup_bind_on {A B} (f : A -> list B) (l : list A) : NoDup l -> (forall x, x ∈ l -> NoDup (f x)) -> (forall x y b, x ∈ l -> y ∈ l -> b ∈ f x -> b ∈ f y -> x = y) -> NoDup (l ≫= f).
Proof.
  induction 1 as [|x l Hx Hl IH]; intros Hf Hd; [constructor|]. cbn. apply NoDup_app. split_and!.
  - apply Hf. left.
  - intros b Hb (y & Hy & Hyl)%elem_of_list_bind. apply Hx. rewrite (Hd x y b); [done|left|by right|done|done].
  - apply IH; [intros; apply Hf; by right|]. intros; eapply Hd; eauto; by right.
Qed.
Lemma omap_bind_swap {A B C} (g : B -> option C) (f : A -> list B) (l : list A) : omap g (l ≫= f) = l ≫= (fun x => omap g (f x)).
Proof. induction l as [|x l IH]; [done|]. rewrite !bind_cons. rewrite <- IH. generalize (l ≫= f). intros r. induction (f x) as [|y k IHk]; [done|]. cbn. destruct (g y); cbn; by rewrite IHk. Qed.
Lemma omap_fmap_comp {A B C} (g : B -> option C) (f : A -> B) (l : list A) : omap g (f <$> l) = omap (fun x => g (f x)) l.
Proof. induction l as [|x l IH]; [done|]. cbn. destruct (g (f x)); by rewrite IH. Qed.
Lemma omap_app' {A B} (g : A -> option B) l1 l2 : omap g (l1 ++ l2) = omap g l1 ++ omap g l2.
Proof. induction l1 as [|x l IH]; [done|]. cbn. destruct (g x); cbn; by rewrite IH. Qed.

Lemma last_dirname (p : path) n : last p = Some n -> p = dirname p ++ [n].
Proof. intros H. apply last_Some in H as [q ->]. by rewrite dirname_snoc. Qed.
Lemma in_dir (l : list path) (dir : path) n : n ∈ omap (fun p => if decide (dirname p = dir) then last p else None) l <-> dir ++ [n] ∈ l.
Proof.
  rewrite elem_of_list_omap. split.
  - intros (p & Hp & H). case_decide as D; [|done]. apply last_dirname in H. rewrite D in H. by subst p.
  - intros H. exists (dir ++ [n]). split; [done|]. rewrite dirname_snoc, decide_True by done. apply last_snoc.
Qed.
Lemma in_dir_NoDup (l : list path) (dir : path) : NoDup l -> NoDup (omap (fun p => if decide (dirname p = dir) then last p else None) l).
Proof.
  intros H. apply NoDup_omap_on; [done|]. intros p q n _ _ Hp Hq. case_decide as D1; [|done]. case_decide as D2; [|done]. apply last_dirname in Hp, Hq. rewrite Hp, Hq. by rewrite D1, D2.
Qed.
Section listing.
Context (files dirs : list path).
(** The paths of the files visited. *)
Fixpoint walkp (fuel : nat) (prefix : str) (dir : path) : list path :=
  match fuel with
  | 0 => []
  | S fuel => ((fun n => dir ++ [n]) <$> files_in files dir) ++ (filter (descend prefix dir) (dirs_in dirs dir) ≫= fun n => walkp fuel prefix (dir ++ [n]))
  end.
Definition yieldp (prefix : str) (p : path) : option str := last p ≫= yield prefix.
Lemma walk_walkp fuel prefix dir : walk files dirs fuel prefix dir = omap (yieldp prefix) (walkp fuel prefix dir).
Proof.
  revert dir. induction fuel as [|fuel IH]; intros dir; [done|]. cbn [walk walkp]. rewrite omap_app', omap_fmap_comp, omap_bind_swap. f_equal.
  - apply list_omap_ext. apply Forall2_same_length_lookup. split; [done|]. intros i x y Hx Hy. assert (x = y) as -> by congruence. unfold yieldp. rewrite last_snoc. done.
  - apply list_bind_ext; [|done]. intros n. apply IH.
Qed.
Lemma walkp_below fuel prefix dir p : p ∈ walkp fuel prefix dir -> p ∈ files /\ exists q n, p = dir ++ q ++ [n].
Proof.
  revert dir. induction fuel as [|fuel IH]; intros dir; cbn [walkp]; [by intros ?%elem_of_nil|]. rewrite elem_of_app. intros [H|H].
  - apply elem_of_list_fmap in H as (n & -> & Hn). apply in_dir in Hn. split; [done|]. by exists [], n.
  - apply elem_of_list_bind in H as (n & H & _). apply IH in H as (Hf & q & n' & ->). split; [done|]. exists (n :: q), n'. by rewrite <- !app_assoc.
Qed.
Lemma walkp_NoDup fuel prefix dir : NoDup files -> NoDup dirs -> NoDup (walkp fuel prefix dir).
Proof.
  intros Hf Hd. revert dir. induction fuel as [|fuel IH]; intros dir; cbn [walkp]; [constructor|]. apply NoDup_app. split_and!.
  - apply NoDup_fmap_2_strong; [|by apply in_dir_NoDup]. intros x y _ _ E. by apply app_inv_head in E as [= ->].
  - intros p (n & -> & _)%elem_of_list_fmap (n' & H & _)%elem_of_list_bind. apply walkp_below in H as (_ & q & n'' & E). rewrite <- app_assoc in E. apply app_inv_head in E. cbn in E. injection E as _ E. by destruct q.
  - apply NoDup_bind_on.
    + apply NoDup_filter. by apply in_dir_NoDup.
    + intros n _. apply IH.
    + intros x y p _ _ Hx Hy. apply walkp_below in Hx as (_ & q1 & n1 & ->). apply walkp_below in Hy as (_ & q2 & n2 & E). rewrite <- !app_assoc in E. apply app_inv_head in E. cbn in E. by injection E.
Qed.
Lemma walkp_complete fuel prefix dir q n : length q < fuel -> dir ++ q ++ [n] ∈ files ->
  (forall q1 m q2, q = q1 ++ m :: q2 -> dir ++ q1 ++ [m] ∈ dirs /\ descend prefix (dir ++ q1) m = true) -> dir ++ q ++ [n] ∈ walkp fuel prefix dir.
Proof.
  revert dir q. induction fuel as [|fuel IH]; intros dir q Hl Hf Hd; [lia|]. cbn [walkp]. apply elem_of_app. destruct q as [|m q].
  - left. apply elem_of_list_fmap. exists n. split; [done|]. by apply in_dir.
  - right. apply elem_of_list_bind. destruct (Hd [] m q eq_refl) as [H1 H2]. cbn in H1. rewrite app_nil_r in H2. exists m. split.
    + replace (dir ++ (m :: q) ++ [n]) with ((dir ++ [m]) ++ q ++ [n]) by by rewrite <- app_assoc. apply IH; [cbn in Hl; lia|by rewrite <- app_assoc|].
      intros q1 m' q2 ->. destruct (Hd (m :: q1) m' q2 eq_refl) as [H3 H4]. rewrite <- !app_assoc. done.
    + apply elem_of_list_filter. split; [by rewrite H2|]. by apply in_dir.
Qed.
Lemma depth_bound p : p ∈ dirs -> length p < depth dirs.
Proof.
  intros H. unfold depth. apply le_n_S. induction H as [p l|p q l H IH]; cbn; [lia|]. lia.
Qed.
Lemma descend_prefix prefix dir n y : concat dir ++ n = escape prefix ++ y -> descend prefix dir n = true.
Proof.
  intros H. unfold descend. rewrite H, unescape_escape_app. cbv zeta. apply orb_true_iff. right. apply starts_with_spec. exists (unescape y). rewrite take_ge; [done|]. rewrite app_length. lia.
Qed.
End listing.

(** On the way to a key that begins with the prefix. *)
Lemma data_prefix key prefix r : key = prefix ++ r -> is_data key -> ~ is_data prefix -> exists y, DATA = escape prefix ++ y.
Proof.
  intros -> H Hn. unfold is_data in *. apply starts_with_spec in H as [r' H]. assert (length prefix < 10) as Hl.
  { destruct (decide (length prefix < 10)) as [?|Hl]; [done|]. exfalso. apply Hn, starts_with_spec. exists (drop 10 prefix). rewrite <- (take_drop 10 prefix) at 1. f_equal.
    apply (f_equal (take 10)) in H. rewrite take_app_le in H by lia. rewrite H. by rewrite take_app_alt. }
  assert (DATA = prefix ++ take (10 - length prefix) r) as E.
  { apply (f_equal (take 10)) in H. rewrite take_app_ge in H by lia. rewrite H. by rewrite take_app_alt. }
  exists (escape (take (10 - length prefix) r)). rewrite <- escape_app, <- E. done.
Qed.
Lemma way_data key q1 m q2 n : is_data key -> key_to_path key = q1 ++ m :: q2 ++ [n] -> exists y, concat q1 ++ m = DATA ++ y /\
  (q1 <> [] -> exists z, y = take 3 (number key) ++ z).
Proof.
  intros H E. destruct (path_data key H) as [Ep _]. rewrite Ep in E. destruct q1 as [|a q1]; cbn [app] in E.
  - injection E as <- _. exists []. by split.
  - injection E as <- E. replace (q1 ++ m :: q2 ++ [n]) with ((q1 ++ m :: q2) ++ [n]) in E by by rewrite <- app_assoc. apply app_inj_tail in E as [E _].
    set (f := (fun i => take i (number key)) <$> cuts (length (number key))) in *. destruct q1 as [|b q1].
    + assert (f !! 0 = Some m) as E0 by by rewrite E. apply number_dirs in E0 as [-> _]. exists (take (3 * 1) (number key)). cbn [concat app]. rewrite app_nil_r. split; [done|]. intros _. exists []. by rewrite app_nil_r.
    + assert (f !! 0 = Some b) as E0 by by rewrite E. apply number_dirs in E0 as [-> _]. exists (take (3 * 1) (number key) ++ concat q1 ++ m). cbn [concat]. rewrite <- !app_assoc. split; [done|]. intros _. by exists (concat q1 ++ m).
Qed.
Definition base (prefix : str) : path := if decide (prefix = []) then [] else dirname (key_to_path prefix).
Lemma base_short prefix : ~ is_data prefix -> base prefix = [].
Proof. intros H. unfold base. case_decide; [done|]. by rewrite path_other. Qed.
Lemma base_data prefix : is_data prefix -> length (escape prefix) <= 13 -> base prefix = [DATA].
Proof.
  intros H Hl. unfold base. rewrite decide_False by (intros ->; done). destruct (path_data prefix H) as [E E']. rewrite E. apply (f_equal length) in E'. rewrite app_length in E'. change (length DATA) with 10 in E'.
  assert (length (number prefix) <= 3) as Hn by lia. destruct (length (number prefix)) as [|[|[|[|n]]]]; [done..|lia].
Qed.
Lemma way key prefix r q n : key = prefix ++ r -> ~ is_data prefix \/ length (escape prefix) <= 13 -> key_to_path key = base prefix ++ q ++ [n] ->
  forall q1 m q2, q = q1 ++ m :: q2 -> descend prefix (base prefix ++ q1) m = true.
Proof.
  intros Hk Hp E q1 m q2 ->. destruct (decide (is_data key)) as [Dk|Dk].
  2: { rewrite path_other in E by done. apply (f_equal length) in E. rewrite !app_length in E. cbn in E. lia. }
  assert (key_to_path key = (base prefix ++ q1) ++ m :: q2 ++ [n]) as E'. { rewrite E. by rewrite <- !app_assoc. }
  destruct (way_data _ _ _ _ _ Dk E') as (y & Hy & Hy'). destruct (decide (is_data prefix)) as [Dp|Dp].
  - destruct Hp as [?|Hl]; [done|]. rewrite base_data in * by done. destruct Hy' as [z ->]; [done|].
    destruct (path_data prefix Dp) as [_ E2]. destruct (path_data key Dk) as [_ E3].
    assert (number key = number prefix ++ escape r) as En. { assert (escape key = escape prefix ++ escape r) as E4 by (subst key; by rewrite escape_app). rewrite E2, E3 in E4. rewrite <- app_assoc in E4. by apply app_inv_head in E4. }
    assert (length (number prefix) <= 3) as Hn3. { apply (f_equal length) in E2. rewrite app_length in E2. change (length DATA) with 10 in E2. lia. }
    apply (descend_prefix _ _ _ (take (3 - length (number prefix)) (escape r) ++ z)). rewrite Hy, E2, En. rewrite take_app_ge by done. by rewrite <- !app_assoc.
  - destruct (data_prefix _ _ _ Hk Dk Dp) as [w Ew]. apply (descend_prefix _ _ _ (w ++ y)). rewrite Hy. rewrite Ew at 1. by rewrite <- app_assoc.
Qed.
Lemma base_prefix key prefix r : key = prefix ++ r -> ~ is_data prefix \/ length (escape prefix) <= 13 -> exists q, key_to_path key = base prefix ++ q ++ [escape key].
Proof.
  intros Hk Hp. destruct (decide (is_data prefix)) as [Dp|Dp].
  - destruct Hp as [?|Hl]; [done|]. rewrite base_data by done. assert (is_data key) as Dk. { unfold is_data in *. apply starts_with_spec in Dp as [r' ->]. apply starts_with_spec. exists (r' ++ r). by rewrite Hk, app_assoc. }
    destruct (path_data key Dk) as [-> _]. eexists. done.
  - rewrite base_short by done. exists (dirname (key_to_path key)). apply path_split.
Qed.
