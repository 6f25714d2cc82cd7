(** C35, C36, C37: the local backend. *)
From stdpp Require Import prelude gmap.
From Verif Require Import Text LocalModel LocalPaths LocalSpec LocalProofs LocalList.

(** ** C35: distinct keys are distinct files *)
Theorem distinct_paths k1 k2 : key_to_path k1 = key_to_path k2 -> k1 = k2.
Proof. apply path_inj. Qed.
(** The name can be recovered from the name of the file. *)
Theorem name_recovered key : exists dir n, key_to_path key = dir ++ [n] /\ unescape n = key.
Proof. exists (dirname (key_to_path key)), (escape key). split; [apply path_split|apply unescape_escape]. Qed.
(** Temporary files are no objects, no directories on the way to objects, and distinct for distinct objects. *)
Theorem temporary_distinct ident k1 k2 : good_ident ident ->
  (forall q, key_to_path k2 <> tmp_path ident (key_to_path k1) ++ q) /\ (tmp_path ident (key_to_path k1) = tmp_path ident (key_to_path k2) -> k1 = k2).
Proof.
  intros H. split; [|by apply tmp_inj]. intros q E. rewrite tmp_path_key in E. eapply (tmp_not_path ident k1 k2 H (escape k1 ++ ident)); [|done]. rewrite E. apply elem_of_app. left. apply elem_of_app. right. left.
Qed.
(** The listing skips exactly the temporary files. *)
Theorem temporary_skipped ident prefix key : good_ident ident -> yield prefix (escape key ++ ident) = None /\ (yield prefix (escape key) = Some key <-> exists r, key = prefix ++ r).
Proof.
  intros (r & -> & _). unfold yield. split; [rewrite decide_True; [done|]; apply elem_of_app; right; left|]. rewrite decide_False by (intros Hx%escape_safe; naive_solver). rewrite unescape_escape, <- starts_with_spec.
  by destruct (starts_with prefix key).
Qed.
(** No object lies where another has a directory. *)
Theorem no_object_in_place_of_directory k1 k2 n q : key_to_path k2 <> key_to_path k1 ++ n :: q.
Proof. intros H. by eapply path_no_conflict. Qed.
(** For the operating system, too, the paths are distinct, and none has a slash in a component. *)
Theorem paths_on_disk k1 k2 : regular k1 -> regular k2 ->
  resolve (key_to_path k1) = key_to_path k1 /\ (resolve (key_to_path k1) = resolve (key_to_path k2) -> k1 = k2) /\ Forall (fun n => SLASH ∉ n) (key_to_path k1).
Proof.
  intros H1 H2. rewrite !resolve_regular by by apply path_regular. split_and!; [done|apply path_inj|]. apply Forall_forall. intros n Hn. by eapply path_no_slash.
Qed.
(** Three names do not name files: they mean the directory itself, or the one above. *)
Theorem special_names_refuted : resolve (key_to_path []) = [] /\ resolve (key_to_path DOT) = [] /\ resolve (key_to_path DOTDOT) = [] /\ ~ regular [] /\ ~ regular DOT /\ ~ regular DOTDOT.
Proof. unfold regular. split_and!; try reflexivity; naive_solver. Qed.
(** 's3ql_data_1234567': s3ql_data_/123/123456/s3ql_data_1234567 *)
Example ex_path : key_to_path (DATA ++ [49; 50; 51; 52; 53; 54; 55]) = [DATA; [49; 50; 51]; [49; 50; 51; 52; 53; 54]; DATA ++ [49; 50; 51; 52; 53; 54; 55]].
Proof. reflexivity. Qed.
(** 'a/b=c' and 'a=2Fb=c' *)
Example ex_escape : escape [97; 47; 98; 61; 99] = [97; 61; 50; 70; 98; 61; 51; 68; 99] /\ escape [97; 61; 50; 70; 98] = [97; 61; 51; 68; 50; 70; 98].
Proof. split; reflexivity. Qed.

(** ** C36: the local backend stores what it is given *)
Section store.
Context {byte meta : Type} `{!EqDecision byte}.
Context (header : list byte) (pack : nat -> list byte) (unpack : list byte -> nat) (freeze : meta -> list byte) (thaw : list byte -> option meta) (ident : str).
Context (Hheader : length header = 7) (Hpack : forall n, length (pack n) = 2) (Hunpack : forall n, n < 2 ^ 16 -> unpack (pack n) = n).
Context (Hthaw : forall m, thaw (freeze m) = Some m) (Hident : good_ident ident).
Local Notation step := (step header pack unpack freeze thaw ident).
Local Notation encode := (encode header pack freeze).
Local Notation history := (history header pack unpack freeze thaw ident).

(** A read that completes has the metadata and data of the object as of when it opened the file, whatever happened since. *)
Theorem read_returns_stored s st ex t n s' r : history s st ex -> step (ReadSome t n) s = Some (s', Data r) -> is_Some r /\ r = ex !! t.
Proof.
  intros Hh H. apply history_inv in Hh; [|done]. cbn in H. destruct (tasks s !! t) as [[| | |key i got]|] eqn:Et; try done.
  destruct (j_reading _ _ _ _ _ _ _ Hh _ _ _ _ Et) as [_ (m & d & l & E1 & E2 & E3 & [r' ->])]. rewrite E2 in H. change (default [] (Some (got ++ r'))) with (got ++ r') in H. rewrite drop_app in H.
  case_decide as D; [|done]. injection H as _ <-. subst r'. rewrite app_nil_r in E3. erewrite decode_encode by done. rewrite E1. eauto.
Qed.
(** Whether there is an object is told correctly. *)
Theorem open_tells s st ex t key s' o : history s st ex -> tasks s !! t = Some (Reader key) -> step (OpenRead t) s = Some (s', o) ->
  (o = NoSuchObject /\ st !! key = None) \/ (o = Nothing /\ is_Some (st !! key) /\ seen (byte := byte) (OpenRead t) s st ex !! t = st !! key).
Proof.
  intros Hh Et H. apply history_inv in Hh; [|done]. cbn in H. rewrite Et in H. pose proof (j_store _ _ _ _ _ _ _ Hh key) as Hs. destruct (names s !! obj key) as [i|]; injection H as _ <-; [right|by left].
  destruct Hs as (m & d & l & Hs & _). split_and!; [done|by eauto|]. cbn. rewrite Et. by rewrite lookup_partial_alter.
Qed.
(** Nothing fails, except an upload whose metadata is too large; a completed upload reports the size of the object. *)
Theorem only_large_metadata_fails s st ex e s' : history s st ex -> allowed e s -> step e s = Some (s', Failed) ->
  exists t pieces key m d, e = OpenWrite t pieces /\ tasks s !! t = Some (Writer key m d) /\ 2 ^ 16 <= length (freeze m) /\ names s' = names s.
Proof.
  intros Hh Ha H. apply history_inv in Hh; [|done]. destruct Hh as [H1 H2 H3 H4 HP HC H5 H6 H7 H8]. destruct e as [t key m d|t pieces|t n|t|t key|t|t n|t|key|]; cbn [LocalModel.step] in H.
  - by case_decide.
  - destruct (tasks s !! t) as [[key m d| | |]|] eqn:Et; try done. destruct (encode m d) as [l|] eqn:Ee.
    2: { injection H as <-. exists t, pieces, key, m, d. split_and!; try done. unfold LocalModel.encode in Ee. case_decide as D; [done|lia]. }
    case_decide as D; [|done]. destruct (decide (Exists _ _ \/ _)) as [DX|DX] in H; [|done]. exfalso. destruct DX as [DX|DX].
    + apply Exists_exists in DX as (p & Hp & i & Hi). apply parents_spec in Hp as (_ & n & q & E). destruct (H3 _ _ Hi) as [[k ->]|[k ->]]; [by eapply path_no_conflict|]. by eapply (tmp_parent ident Hident).
    + apply H4 in DX as (_ & k & n & q & E). by eapply (tmp_parent ident Hident).
  - destruct (tasks s !! t) as [[|key m d i pos [|l ls]| |]|] eqn:Et; done.
  - destruct (tasks s !! t) as [[|key m d i pos [|l ls]| |]|] eqn:Et; try done. destruct (H5 _ _ _ _ _ _ _ Et) as [Hn _]. rewrite Hn in H. destruct (decide (obj key ∈ dirs s)) as [DX|DX] in H; [|done].
    exfalso. apply H4 in DX as (_ & k & n & q & E). by eapply path_no_conflict.
  - by case_decide.
  - destruct (tasks s !! t) as [[| |key|]|] eqn:Et; try done. by destruct (names s !! obj key).
  - destruct (tasks s !! t) as [[| | |key i got]|] eqn:Et; try done. cbv zeta in H. by case_decide.
  - done.
  - done.
  - done.
Qed.
Theorem completed_is_stored s st ex t s' size : history s st ex -> step (Commit t) s = Some (s', Stored size) ->
  exists key m d l, after (Commit t) (Stored size) s st = <[key := (m, d)]> st /\ encode m d = Some l /\ size = length l /\ exists i, names s' !! obj key = Some i /\ data s' !! i = Some l.
Proof.
  intros Hh H. apply history_inv in Hh; [|done]. cbn [LocalModel.step] in H. destruct (tasks s !! t) as [[|key m d i pos [|l ls]| |]|] eqn:Et; try done. destruct (j_writing _ _ _ _ _ _ _ Hh _ _ _ _ _ _ _ Et) as [Hn (c & Hc & -> & He)].
  rewrite Hn in H. destruct (decide (obj key ∈ dirs s)) as [DX|DX] in H; [done|]. injection H as <- <-. exists key, m, d, c. cbn. rewrite Et. cbn in He. rewrite app_nil_r in He. split_and!; try done.
  exists i. rewrite lookup_delete_ne by apply (tmp_obj ident Hident). by rewrite lookup_insert.
Qed.
(** What is on the disk at any time, also after a crash, is exactly the stored objects: the files that are not temporary. *)
Theorem disk_is_store s st ex key m d : history s st ex -> st !! key = Some (m, d) <-> exists i l, names s !! obj key = Some i /\ data s !! i = Some l /\ decode header unpack thaw l = Some (m, d).
Proof.
  intros Hh. apply history_inv in Hh; [|done]. pose proof (j_store _ _ _ _ _ _ _ Hh key) as Hs. split.
  - intros E. destruct (names s !! obj key) as [i|]; [|congruence]. destruct Hs as (m' & d' & l & Hs & Hl & He). exists i, l. rewrite Hs in E. injection E as -> ->. split_and!; try done. by erewrite decode_encode.
  - intros (i & l & Ei & El & Ed). rewrite Ei in Hs. destruct Hs as (m' & d' & l' & Hs & Hl & He). rewrite Hl in El. injection El as ->. erewrite decode_encode in Ed by done. by injection Ed as -> ->.
Qed.
Theorem crash_keeps_objects s st ex : history s st ex -> exists s' : state byte meta, step Crash s = Some (s', Nothing) /\ history s' st ex /\ tasks s' = ∅.
Proof using Type. intros H. eexists. split; [reflexivity|]. split; [|done]. change st with (after (byte := byte) Crash Nothing s st). change ex with (seen (byte := byte) Crash s st ex). by eapply hist_step. Qed.
Theorem delete_exact s st ex key : history s st ex -> is_regular key -> exists s' : state byte meta, step (Delete key) s = Some (s', Nothing) /\ history s' (delete key st) ex.
Proof using Type.
  intros H Hr. eexists. split; [reflexivity|]. change (delete key st) with (after (byte := byte) (Delete key) Nothing s st). change ex with (seen (byte := byte) (Delete key) s st ex). by eapply hist_step.
Qed.

(** ** C37: listing *)
(** The listing as one snapshot of the files and directories, enumerated in any order. *)
Definition snapshot (s : state byte meta) (files ds : list path) : Prop :=
  NoDup files /\ (forall p, p ∈ files <-> is_Some (names s !! p)) /\ NoDup ds /\ (forall p, p ∈ ds <-> p ∈ dirs s).
Lemma yieldp_key s st ex (files : list path) prefix p key : history s st ex -> (forall p, p ∈ files <-> is_Some (names s !! p)) -> p ∈ files -> yieldp prefix p = Some key -> p = obj key /\ is_Some (st !! key) /\ starts_with prefix key = true.
Proof using Hident.
  intros Hh Hf Hp H. apply history_inv in Hh; [|done]. apply Hf in Hp as [i Hi]. unfold yieldp in H. destruct (j_names _ _ _ _ _ _ _ Hh _ _ Hi) as [[k ->]|[k ->]].
  - unfold obj in H. rewrite last_path in H. cbn in H. unfold yield in H. case_decide; [done|]. rewrite unescape_escape in H. destruct (starts_with prefix k) eqn:E; [|done]. injection H as <-.
    split_and!; try done. pose proof (j_store _ _ _ _ _ _ _ Hh k) as Hs. rewrite Hi in Hs. destruct Hs as (? & ? & ? & -> & _). by eauto.
  - exfalso. unfold tmp, obj in H. rewrite tmp_path_key, last_snoc in H. cbn in H. unfold yield in H. case_decide as D; [done|]. apply D. destruct Hident as (r & -> & _). apply elem_of_app. right. left.
Qed.
Theorem listing_sound s st ex files ds prefix key : history s st ex -> snapshot s files ds -> key ∈ list_keys files ds prefix -> is_Some (st !! key) /\ exists r, key = prefix ++ r.
Proof using Hident.
  intros Hh (N1 & F1 & N2 & F2) H. unfold list_keys in H. rewrite walk_walkp in H. apply elem_of_list_omap in H as (p & Hp & Hy). apply walkp_below in Hp as (Hp & _).
  destruct (yieldp_key s st ex files prefix p key Hh F1 Hp Hy) as (_ & ? & ?). split; [done|]. by apply starts_with_spec.
Qed.
Theorem listing_once s st ex files ds prefix : history s st ex -> snapshot s files ds -> NoDup (list_keys files ds prefix).
Proof using Hident.
  intros Hh (N1 & F1 & N2 & F2). unfold list_keys. rewrite walk_walkp. apply NoDup_omap_on; [by apply walkp_NoDup|]. intros p q key Hp Hq E1 E2. apply walkp_below in Hp as (Hp & _). apply walkp_below in Hq as (Hq & _).
  destruct (yieldp_key s st ex files prefix p key Hh F1 Hp E1) as (-> & _). destruct (yieldp_key s st ex files prefix q key Hh F1 Hq E2) as (-> & _). done.
Qed.
(** Every key with the prefix is listed if the prefix is short enough ('s3ql_data_' and three characters, or not a data object
    at all), and otherwise if it lies in the directory of the prefix. *)
Theorem listing_complete s st ex files ds prefix r : history s st ex -> snapshot s files ds -> is_Some (st !! (prefix ++ r)) ->
  ~ is_data prefix \/ length (escape prefix) <= 13 \/ dirname (obj (prefix ++ r)) = dirname (obj prefix) -> prefix ++ r ∈ list_keys files ds prefix.
Proof using Hident.
  intros Hh (N1 & F1 & N2 & F2) Hst Hp. apply history_inv in Hh; [|done]. set (key := prefix ++ r) in *.
  assert (exists i, names s !! obj key = Some i) as [i Hi]. { pose proof (j_store _ _ _ _ _ _ _ Hh key) as Hs. destruct (names s !! obj key) as [i|]; [by eauto|]. destruct Hst as [x Hx]. assert (None = Some x) as E by (etransitivity; [symmetry; exact Hs|exact Hx]). done. }
  unfold list_keys. rewrite walk_walkp. fold (base prefix). apply elem_of_list_omap. exists (obj key). split.
  2: { unfold yieldp, obj. rewrite last_path. cbn. unfold yield. rewrite decide_False by (intros [_ Hx]%escape_safe; by apply Hx). rewrite unescape_escape. assert (starts_with prefix key = true) as -> by (apply starts_with_spec; by exists r). done. }
  assert (exists q, obj key = base prefix ++ q ++ [escape key] /\ forall q1 m q2, q = q1 ++ m :: q2 -> descend prefix (base prefix ++ q1) m = true) as (q & Eq & Hd).
  { assert ((~ is_data prefix \/ length (escape prefix) <= 13) \/ dirname (obj key) = dirname (obj prefix)) as [Hp'|Hp'] by tauto.
    - destruct (base_prefix key prefix r eq_refl Hp') as [q Eq]. exists q. split; [done|]. by eapply way.
    - destruct (decide (prefix = [])) as [Ep|Ep].
      + destruct (base_prefix key prefix r eq_refl) as [q Eq]. { left. by rewrite Ep. } exists q. split; [done|]. intros. unfold descend. rewrite bool_decide_true by done. done.
      + exists []. split; [|intros [|] ? ?; done]. unfold base. rewrite decide_False by done. cbn. change (key_to_path prefix) with (obj prefix). rewrite <- Hp'. apply path_split. }
  assert (forall q1 m q2, q = q1 ++ m :: q2 -> base prefix ++ q1 ++ [m] ∈ ds) as Hds.
  { intros q1 m q2 ->. apply F2. eapply (j_parents _ _ _ _ _ _ _ Hh); [exact Hi|]. apply parents_spec. split; [by destruct (base prefix), q1|]. destruct q2 as [|x q2]; [exists (escape key), []|exists x, (q2 ++ [escape key])]; rewrite Eq; by rewrite <- !app_assoc. }
  rewrite Eq. apply walkp_complete; [|rewrite <- Eq; apply F1; by eauto|].
  - destruct q as [|m q] using rev_ind; [cbn; unfold depth; clear; lia|]. specialize (Hds q m [] eq_refl). apply depth_bound in Hds. rewrite !app_length in *. revert Hds. clear. lia.
  - intros q1 m q2 E. split; [by eapply Hds|by eapply Hd].
Qed.
End store.

(** ** Where it does not work, and an instance of the hypotheses *)
Definition header0 : list nat := [115; 51; 113; 108; 95; 49; 10].
Definition pack0 (n : nat) : list nat := [n mod 256; n / 256].
Definition unpack0 (l : list nat) : nat := match l with [a; b] => a + 256 * b | _ => 0 end.
Definition ident0 : str := [HASH; 49; 45; 50].
Definition step0 := step (byte := nat) (meta := list nat) header0 pack0 unpack0 (fun m => m) Some ident0.
Lemma instance0 : length header0 = 7 /\ (forall n, length (pack0 n) = 2) /\ (forall n, n < 2 ^ 16 -> unpack0 (pack0 n) = n) /\ (forall m : list nat, Some ((fun m => m) m) = Some m) /\ good_ident ident0.
Proof.
  split_and!; try done; [|exists [49; 45; 50]; split; [done|]; intros H; repeat (apply elem_of_cons in H as [H|H]; [discriminate|]); by apply elem_of_nil in H].
  intros n _. unfold unpack0, pack0. rewrite (Nat.div_mod_eq n 256) at 3. lia.
Qed.
(** Running a list of events; the outcomes *)
Fixpoint runs (es : list (event nat (list nat))) (s : state nat (list nat)) : option (state nat (list nat) * list (outcome nat (list nat))) :=
  match es with
  | [] => Some (s, [])
  | e :: es => match step0 e s with Some (s', o) => match runs es s' with Some (s'', os) => Some (s'', o :: os) | None => None end | None => None end
  end.
Definition results (os : list (outcome nat (list nat))) : list (outcome nat (list nat)) := List.filter (fun o => match o with Nothing => false | _ => true end) os.
(** s3ql_data_1 *)
Definition key0 : str := DATA ++ [49].
Definition deep : str := DATA ++ [49; 50; 51; 52; 53; 54; 55].
Definition pieces0 (d : list (list nat)) : list (list nat) := [header0; pack0 2; [7; 7]] ++ d.
Definition upload (t : nat) (key : str) (d : list (list nat)) : list (event nat (list nat)) :=
  [BeginWrite t key [7; 7] (concat d); OpenWrite t (pieces0 d)] ++ replicate (3 + length d) (WriteSome t 1000) ++ [Commit t].
Definition fetch (t : nat) (key : str) : list (event nat (list nat)) := [BeginRead t key; OpenRead t; ReadSome t 1000; ReadSome t 1000].
Lemma run_results es s0 r : (fun x => results x.2) <$> runs es s0 = Some r -> exists s os, runs es s0 = Some (s, os) /\ results os = r.
Proof. destruct (runs es s0) as [[s os]|]; [|done]. intros [= <-]. by exists s, os. Qed.
Example ex_store : exists s os, runs (upload 0 key0 [[1; 2]; [3]] ++ fetch 0 key0 ++ upload 0 key0 [[9]] ++ fetch 0 key0 ++ [Delete key0] ++ [BeginRead 0 key0; OpenRead 0]) empty_dir = Some (s, os) /\
  results os = [Stored 14; Data (Some ([7; 7], [1; 2; 3])); Stored 12; Data (Some ([7; 7], [9])); NoSuchObject].
Proof. apply run_results. vm_compute. reflexivity. Qed.

(** The hypotheses of the theorems hold in particular for this history, and [allowed] excludes only the overlapping uploads. *)
Definition allowedb (e : event nat (list nat)) (s : state nat (list nat)) : bool :=
  match e with
  | BeginWrite _ key _ _ | BeginRead _ key | Delete key => negb (bool_decide (key = [])) && negb (bool_decide (key = DOT)) && negb (bool_decide (key = DOTDOT))
  | OpenWrite t _ => forallb (fun x => match x.2 with Writing _ _ _ _ _ _ => false | _ => true end) (map_to_list (tasks s))
  | WriteSome t n => match tasks s !! t with Some (Writing _ _ _ _ _ (l :: _)) => bool_decide (length l <= n) | _ => true end
  | _ => true
  end.
Lemma allowedb_allowed e s : allowedb e s = true -> allowed e s.
Proof.
  destruct e; cbn; try done.
  - unfold is_regular. rewrite !andb_true_iff, !negb_true_iff, !bool_decide_eq_false. tauto.
  - rewrite forallb_forall. intros H key m d t' m' d' i pos todo _ Ht. apply elem_of_map_to_list in Ht. apply elem_of_list_In in Ht. by apply H in Ht.
  - intros H key m d i pos l ls E. rewrite E in H. by apply bool_decide_eq_true in H.
  - unfold is_regular. rewrite !andb_true_iff, !negb_true_iff, !bool_decide_eq_false. tauto.
  - unfold is_regular. rewrite !andb_true_iff, !negb_true_iff, !bool_decide_eq_false. tauto.
Qed.
Fixpoint follow (es : list (event nat (list nat))) (s : state nat (list nat)) : bool :=
  match es with
  | [] => true
  | e :: es => allowedb e s && match step0 e s with Some (s', o) => follow es s' | None => false end
  end.
Lemma follow_history es s st0 ex0 : history header0 pack0 unpack0 (fun m => m) Some ident0 s st0 ex0 -> follow es s = true ->
  exists s' os st' ex', runs es s = Some (s', os) /\ history header0 pack0 unpack0 (fun m => m) Some ident0 s' st' ex'.
Proof.
  revert s st0 ex0. induction es as [|e es IH]; intros s st0 ex0 Hh H; [by exists s, [], st0, ex0|]. cbn in H. apply andb_true_iff in H as [Ha H]. apply allowedb_allowed in Ha. destruct (step0 e s) as [[s1 o]|] eqn:E; [|done].
  eapply IH in H as (s' & os & st' & ex' & Hr & Hh'); [|by eapply hist_step]. exists s', (o :: os), st', ex'. split; [|done]. cbn. rewrite E, Hr. done.
Qed.
Definition stored0 (s : state nat (list nat)) (key : list nat) : option (list nat * list nat) :=
  match names s !! obj key with Some i => match data s !! i with Some l => decode header0 unpack0 Some l | None => None end | None => None end.
Lemma stored0_spec s key m d : stored0 s key = Some (m, d) -> exists i l, names s !! obj key = Some i /\ data s !! i = Some l /\ decode header0 unpack0 Some l = Some (m, d).
Proof. unfold stored0. destruct (names s !! obj key) as [i|]; [|done]. destruct (data s !! i) as [l|] eqn:E; [|done]. intros H. by exists i, l. Qed.
Example ex_history : exists s os st ex, runs (upload 0 key0 [[1; 2]; [3]] ++ fetch 0 key0 ++ upload 0 deep [[9]]) empty_dir = Some (s, os) /\ history header0 pack0 unpack0 (fun m => m) Some ident0 s st ex /\
  st !! key0 = Some ([7; 7], [1; 2; 3]) /\ st !! deep = Some ([7; 7], [9]).
Proof.
  destruct (follow_history (upload 0 key0 [[1; 2]; [3]] ++ fetch 0 key0 ++ upload 0 deep [[9]]) empty_dir ∅ ∅) as (s & os & st & ex & Hr & Hh); [constructor|vm_compute; reflexivity|].
  exists s, os, st, ex. split; [done|]. split; [done|]. destruct instance0 as (A1 & A2 & A3 & A4 & A5).
  assert ((fun x => (stored0 x.1 key0, stored0 x.1 deep)) <$> runs (upload 0 key0 [[1; 2]; [3]] ++ fetch 0 key0 ++ upload 0 deep [[9]]) empty_dir =
    Some (Some ([7; 7], [1; 2; 3]), Some ([7; 7], [9]))) as Ht by (vm_compute; reflexivity).
  rewrite Hr in Ht. injection Ht as H1 H2. split; apply (disk_is_store _ _ _ _ _ _ A1 A2 A3 A4 A5 _ _ _ _ _ _ Hh); by apply stored0_spec.
Qed.
(** Two uploads under the same key at the same time use the same temporary file: here the one that is still at work changes the
    object that the other has completed, its reader gets a mixture, and the slower upload fails. *)
Definition both : list (event nat (list nat)) :=
  [BeginWrite 0 key0 [7; 7] [1; 2]; OpenWrite 0 (pieces0 [[1]; [2]]); BeginWrite 1 key0 [7; 7] [8; 9]; OpenWrite 1 (pieces0 [[8]; [9]])] ++
  replicate 5 (WriteSome 0 1000) ++ [Commit 0] ++ replicate 4 (WriteSome 1 1000) ++ fetch 2 key0 ++ [WriteSome 1 1000; Commit 1].
Theorem shared_temp_refuted : exists s os, runs both empty_dir = Some (s, os) /\ results os = [Stored 13; Data (Some ([7; 7], [8; 2])); Failed].
Proof. apply run_results. vm_compute. reflexivity. Qed.
(** A short write is not noticed: the upload succeeds, the object is not what was given. *)
Definition short : list (event nat (list nat)) :=
  [BeginWrite 0 key0 [7; 7] [1; 2; 3]; OpenWrite 0 (pieces0 [[1; 2; 3]])] ++ replicate 3 (WriteSome 0 1000) ++ [WriteSome 0 1; Commit 0] ++ fetch 0 key0.
Theorem short_write_refuted : exists s os, runs short empty_dir = Some (s, os) /\ results os = [Stored 12; Data (Some ([7; 7], [1]))].
Proof. apply run_results. vm_compute. reflexivity. Qed.
(** 's3ql_data_1234567' is not listed under 's3ql_data_1234'. *)
Definition after_deep : option (state nat (list nat)) := fst <$> runs (upload 0 deep [[1]]) empty_dir.
Theorem long_prefix_refuted : exists s, after_deep = Some s /\ let files := elements (dom (names s)) in let ds := elements (dirs s) in
  files = [obj deep] /\ list_keys files ds (take 14 deep) = [] /\ list_keys files ds (take 13 deep) = [deep] /\ list_keys files ds [] = [deep].
Proof.
  assert ((fun s => let files := elements (dom (names s)) in let ds := elements (dirs s) in
    (files, list_keys files ds (take 14 deep), list_keys files ds (take 13 deep), list_keys files ds [])) <$> after_deep = Some ([obj deep], [], [deep], [deep])) as H by (vm_compute; reflexivity).
  destruct after_deep as [s|]; [|done]. apply Some_inj, pair_equal_spec in H as [[[H1 H2]%pair_equal_spec H3]%pair_equal_spec H4].
  exists s. exact (conj eq_refl (conj H1 (conj H2 (conj H3 H4)))).
Qed.

Print Assumptions distinct_paths.
Print Assumptions paths_on_disk.
Print Assumptions read_returns_stored.
Print Assumptions only_large_metadata_fails.
Print Assumptions disk_is_store.
Print Assumptions listing_complete.
Print Assumptions listing_once.
Print Assumptions shared_temp_refuted.
