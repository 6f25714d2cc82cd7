(** C60: escaped names.

    common.py 146-153 (escape), used in parse_args.py 304 for the files kept in the cache directory; fsck.py 1505-1508 (escape),
    used at 421 and 776 for names in /lost+found. Texts are lists of code points (or bytes). *)
From stdpp Require Import prelude.
From Verif Require Import Text LocalModel LocalPaths.

Definition NUL : nat := 0.
Definition X00 : str := [61; 48; 48].
(** common.escape, 146-153 *)
Definition escape_url (s : str) : str := replace NUL X00 (replace SLASH X2F (replace EQ X3D s)).
(** fsck.escape, 1505-1508 *)
Definition US : nat := 95.
Definition escape_fsck (p : str) : str := replace SLASH [US] (replace US [US; US] (drop 1 p)).

Definition escu (c : nat) : str := if decide (c = EQ) then X3D else if decide (c = SLASH) then X2F else if decide (c = NUL) then X00 else [c].
Lemma escape_url_one c : escape_url [c] = escu c.
Proof.
  unfold escape_url, escu. rewrite replace_one. destruct (decide (c = EQ)) as [->|H1]; [reflexivity|]. rewrite replace_one. destruct (decide (c = SLASH)) as [->|H2]; [reflexivity|].
  rewrite replace_one. done.
Qed.
Lemma escape_url_cons c s : escape_url (c :: s) = escu c ++ escape_url s.
Proof. change (c :: s) with ([c] ++ s). unfold escape_url. rewrite !replace_app. fold (escape_url [c]). by rewrite escape_url_one. Qed.
Lemma escu_prefix c1 c2 r1 r2 : escu c1 ++ r1 = escu c2 ++ r2 -> c1 = c2 /\ r1 = r2.
Proof.
  unfold escu, X3D, X2F, X00, EQ, SLASH, NUL. repeat case_decide; subst; cbn; intros [=]; subst; try done.
Qed.
Lemma escape_url_app s1 s2 : escape_url (s1 ++ s2) = escape_url s1 ++ escape_url s2.
Proof. unfold escape_url. by rewrite !replace_app. Qed.

(** Different storage URLs have different names in the cache directory, and these are names of files in it. *)
Theorem url_escape_injective s1 s2 : escape_url s1 = escape_url s2 -> s1 = s2.
Proof.
  revert s2. induction s1 as [|c1 s1 IH]; intros [|c2 s2]; rewrite ?escape_url_cons.
  - done.
  - intros H. exfalso. change (escape_url []) with (@nil nat) in H. unfold escu in H. repeat case_decide; done.
  - intros H. exfalso. change (escape_url []) with (@nil nat) in H. unfold escu in H. repeat case_decide; done.
  - intros H. apply escu_prefix in H as [-> H]. by rewrite (IH _ H).
Qed.
Theorem url_escape_is_file_name s c : c ∈ escape_url s -> c <> SLASH /\ c <> NUL.
Proof.
  induction s as [|x s IH]; [by intros ?%elem_of_nil|]. rewrite escape_url_cons, elem_of_app. intros [H|H]; [|by apply IH]. revert H. unfold escu, X3D, X2F, X00, EQ, SLASH, NUL.
  repeat case_decide; rewrite ?elem_of_cons, elem_of_nil; intros; destruct_or?; subst; done.
Qed.

(** The files belonging to a file system in the cache directory: the name with one of these endings
    ('.db', '.db-wal', '.db-shm', '.db-journal', '.params', '.params.tmp', '-cache', '-cache.bak' and a number;
    database.py 1276, mkfs.py 217-247, fsck.py 1375-1390, adm.py 268-273). *)
Definition S_DB : str := [46; 100; 98].
Definition S_WAL : str := S_DB ++ [45; 119; 97; 108].
Definition S_SHM : str := S_DB ++ [45; 115; 104; 109].
Definition S_JOURNAL : str := S_DB ++ [45; 106; 111; 117; 114; 110; 97; 108].
Definition S_PARAMS : str := [46; 112; 97; 114; 97; 109; 115].
Definition S_TMP : str := S_PARAMS ++ [46; 116; 109; 112].
Definition S_CACHE : str := [45; 99; 97; 99; 104; 101].
Definition S_BAK : str := S_CACHE ++ [46; 98; 97; 107].
Definition fixed : list str := [S_DB; S_WAL; S_SHM; S_JOURNAL; S_PARAMS; S_TMP; S_CACHE].
Definition is_digit (c : nat) : Prop := 48 <= c <= 57.
Definition ending (e : str) : Prop := e ∈ fixed \/ exists ds, ds <> [] /\ Forall is_digit ds /\ e = S_BAK ++ ds.

Lemma app_suffix (x1 x2 e1 e2 : str) : x1 ++ e1 = x2 ++ e2 -> (exists z, e1 = z ++ e2 /\ x2 = x1 ++ z) \/ (exists z, e2 = z ++ e1 /\ x1 = x2 ++ z).
Proof.
  revert x2. induction x1 as [|a x1 IH]; intros [|b x2]; cbn.
  - intros ->. left. by exists [].
  - intros ->. left. by exists (b :: x2).
  - intros <-. right. by exists (a :: x1).
  - intros [= -> H]. destruct (IH _ H) as [(z & -> & ->)|(z & -> & ->)]; [left|right]; by exists z.
Qed.
Fixpoint suffixb (e1 e2 : str) : bool := bool_decide (e1 = e2) || match e2 with [] => false | _ :: e2 => suffixb e1 e2 end.
Lemma suffixb_complete e1 z : suffixb e1 (z ++ e1) = true.
Proof. induction z as [|a z IH]; [destruct e1; cbn; by rewrite bool_decide_true|]. cbn. rewrite IH. by rewrite orb_true_r. Qed.
Lemma fixed_suffix e1 e2 z : e1 ∈ fixed -> e2 ∈ fixed -> e2 = z ++ e1 -> z = [].
Proof.
  intros H1 H2 E. assert (e1 = e2) as E1.
  { assert (Forall (fun a => Forall (fun b => suffixb a b = true -> a = b) fixed) fixed) as HF.
    { unfold fixed at 2. repeat (apply Forall_cons_2; [unfold fixed; repeat (apply Forall_cons_2; [vm_compute; congruence|]); apply Forall_nil_2|]). apply Forall_nil_2. }
    rewrite Forall_forall in HF. specialize (HF _ H1). rewrite Forall_forall in HF. apply (HF _ H2). subst e2. apply suffixb_complete. }
  subst e1. apply (f_equal length) in E. rewrite app_length in E. destruct z; [done|cbn in E; lia].
Qed.
Lemma last_not_digit e : e ∈ fixed -> exists x c, e = x ++ [c] /\ ~ is_digit c.
Proof.
  unfold fixed, is_digit. intros H. repeat (apply elem_of_cons in H as [H|H]; [exists (removelast e), (List.last e 0); subst e; split; [reflexivity|cbn; lia]|]). by apply elem_of_nil in H.
Qed.
Lemma last_digit ds : ds <> [] -> Forall is_digit ds -> exists x c, ds = x ++ [c] /\ is_digit c.
Proof. intros Hne H. destruct ds as [|c x _] using rev_ind; [done|]. exists x, c. split; [done|]. by apply Forall_app in H as [_ H]; inversion H. Qed.
Lemma digits_suffix ds1 ds2 (y1 y2 : str) k : ~ is_digit k -> Forall is_digit ds1 -> Forall is_digit ds2 -> y1 ++ k :: ds1 = y2 ++ k :: ds2 -> y1 = y2 /\ ds1 = ds2.
Proof.
  intros Hk H1 H2 E. destruct (app_suffix _ _ _ _ E) as [(z & Ez & Ey)|(z & Ez & Ey)].
  - destruct z as [|a z]; cbn in Ez; [injection Ez as ->; by rewrite app_nil_r in Ey|]. injection Ez as <- Ez. exfalso. subst ds1. apply Forall_app in H1 as [_ H1]. by inversion H1.
  - destruct z as [|a z]; cbn in Ez; [injection Ez as ->; by rewrite app_nil_r in Ey|]. injection Ez as <- Ez. exfalso. subst ds2. apply Forall_app in H2 as [_ H2]. by inversion H2.
Qed.
(** No file in the cache directory belongs to two file systems, or to one in two ways. *)
Theorem cache_files_distinct u1 u2 e1 e2 : ending e1 -> ending e2 -> escape_url u1 ++ e1 = escape_url u2 ++ e2 -> u1 = u2 /\ e1 = e2.
Proof.
  intros H1 H2 H. assert (escape_url u1 = escape_url u2 /\ e1 = e2) as [E ->]; [|by apply url_escape_injective in E].
  destruct H1 as [H1|(d1 & N1 & D1 & ->)]; destruct H2 as [H2|(d2 & N2 & D2 & ->)].
  - destruct (app_suffix _ _ _ _ H) as [(z & Ez & Ey)|(z & Ez & Ey)].
    + assert (z = []) as -> by by eapply (fixed_suffix e2 e1). by rewrite app_nil_r in Ey.
    + assert (z = []) as -> by by eapply (fixed_suffix e1 e2). by rewrite app_nil_r in Ey.
  - exfalso. destruct (last_not_digit _ H1) as (x & c & -> & Hc). destruct (last_digit _ N2 D2) as (x' & c' & -> & Hc'). rewrite !app_assoc in H. apply app_inj_tail in H as [_ ->]. done.
  - exfalso. destruct (last_not_digit _ H2) as (x & c & -> & Hc). destruct (last_digit _ N1 D1) as (x' & c' & -> & Hc'). rewrite !app_assoc in H. apply app_inj_tail in H as [_ ->]. done.
  - replace (S_BAK ++ d1) with (removelast S_BAK ++ 107 :: d1) in * by done. replace (S_BAK ++ d2) with (removelast S_BAK ++ 107 :: d2) in * by done. rewrite !app_assoc in H.
    apply digits_suffix in H as [H ->]; try done; [|unfold is_digit; lia]. apply app_inv_tail in H. done.
Qed.
Example ex_endings : ending S_DB /\ ending (S_BAK ++ [49; 50]) /\ escape_url [97; 47; 98] ++ S_DB = [97; 61; 50; 70; 98; 46; 100; 98].
Proof. split_and!; [left; left|right; exists [49; 50]; split_and!; [done| |done]; repeat constructor|reflexivity]. Qed.

(** The names for objects of the local backend: see LocalProps. *)
Theorem object_escape_injective s1 s2 : escape s1 = escape s2 -> s1 = s2.
Proof. apply escape_inj. Qed.
Theorem object_unescape s : unescape (escape s) = s.
Proof. apply unescape_escape. Qed.

(** Names for /lost+found have no slash, but are not distinct: '/a_/b' and '/a/_b'. *)
Theorem fsck_escape_is_file_name p : SLASH ∉ escape_fsck p.
Proof.
  unfold escape_fsck. generalize (replace US [US; US] (drop 1 p)). intros l. induction l as [|c l IH]; [by intros ?%elem_of_nil|]. change (c :: l) with ([c] ++ l). rewrite replace_app, replace_one, elem_of_app.
  intros [H|H]; [|done]. case_decide as D; apply elem_of_list_singleton in H; [discriminate|]. by subst c.
Qed.
Theorem fsck_escape_refuted : escape_fsck [47; 97; 95; 47; 98] = escape_fsck [47; 97; 47; 95; 98] /\ [47; 97; 95; 47; 98] <> [47; 97; 47; 95; 98].
Proof. split; [reflexivity|discriminate]. Qed.
(** Without underscores it is. *)
Theorem fsck_escape_partly p1 p2 : US ∉ p1 -> US ∉ p2 -> escape_fsck (SLASH :: p1) = escape_fsck (SLASH :: p2) -> p1 = p2.
Proof.
  unfold escape_fsck. change (drop 1 (SLASH :: p1)) with p1. change (drop 1 (SLASH :: p2)) with p2. assert (forall p, US ∉ p -> replace US [US; US] p = p) as Hr.
  { induction p as [|c p IH]; [done|]. intros H. apply not_elem_of_cons in H as [H1 H2]. change (c :: p) with ([c] ++ p). rewrite replace_app, replace_one, IH by done. rewrite decide_False by done. done. }
  intros H1 H2. rewrite !Hr by done. assert (forall c p, replace SLASH [US] (c :: p) = (if decide (c = SLASH) then [US] else [c]) ++ replace SLASH [US] p) as Hc by done.
  revert p2 H2. induction p1 as [|c1 p1 IH]; intros [|c2 p2] H2; rewrite ?Hc.
  - done.
  - intros E. exfalso. change (replace SLASH [US] []) with (@nil nat) in E. by case_decide.
  - intros E. exfalso. change (replace SLASH [US] []) with (@nil nat) in E. by case_decide.
  - apply not_elem_of_cons in H1 as [N1 H1]. apply not_elem_of_cons in H2 as [N2 H2].
    intros E. assert (c1 = c2 /\ replace SLASH [US] p1 = replace SLASH [US] p2) as [-> E']; [|f_equal; by apply IH]. repeat case_decide; cbn [app] in E; injection E; intros; subst; try done.
Qed.

Print Assumptions url_escape_injective.
Print Assumptions cache_files_distinct.
Print Assumptions object_unescape.
Print Assumptions fsck_escape_refuted.
