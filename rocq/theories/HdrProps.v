(** C79: metadata is found in the headers in which it was put. *)
From stdpp Require Import prelude gmap fin_sets.
From Coq Require Import NArith Lia.
From Verif Require Import CodecModel CodecProps FreezeModel FreezeProps HeaderModel HeaderProps HdrModel HdrSpec.
Local Open Scope N_scope.

(** * Names *)
Definition value10 (l : text) : N := foldl (fun a c => a * 10 + (c - 48)) 0 l.
Lemma value10_app l c : value10 (l ++ [c]) = value10 l * 10 + (c - 48).
Proof. unfold value10. by rewrite foldl_app. Qed.
Lemma dec_value fuel n : n < N.of_nat fuel -> value10 (dec fuel n) = n.
Proof.
  revert n. induction fuel as [|fuel IH]; intros n L; [lia|]. cbn [dec]. rewrite value10_app.
  pose proof (N.div_mod n 10). pose proof (N.mod_lt n 10). destruct (N.ltb_spec n 10) as [H1|H1].
  - rewrite N.mod_small by done. cbn. lia.
  - rewrite IH; [lia|]. assert (n / 10 < n) by (apply N.div_lt; lia). lia.
Qed.
Lemma value10_zeros k l : value10 (replicate k 48 ++ l) = value10 l.
Proof. unfold value10. rewrite foldl_app. f_equal. induction k as [|k IH]; [done|]. cbn. exact IH. Qed.
Lemma fmt03_value i : value10 (fmt03 i) = N.of_nat i.
Proof. unfold fmt03. rewrite value10_zeros. apply dec_value. lia. Qed.
Definition digit (c : N) : Prop := 48 <= c < 58.
Lemma dec_digits fuel n : Forall digit (dec fuel n).
Proof. revert n. induction fuel as [|fuel IH]; intros n; cbn [dec]; [constructor|]. apply Forall_app. split; [destruct (n <? 10); [constructor|apply IH]|]. constructor; [|constructor]. pose proof (N.mod_lt n 10). unfold digit. lia. Qed.
Lemma fmt03_digits i : Forall digit (fmt03 i).
Proof. unfold fmt03. apply Forall_app. split; [apply Forall_replicate; unfold digit; lia|apply dec_digits]. Qed.
Lemma lower_digits l : Forall digit l -> lower <$> l = l.
Proof. induction 1 as [|c l H _ IH]; [done|]. cbn. rewrite IH. f_equal. unfold digit in H. unfold lower. destruct (N.leb_spec 65 c); [lia|done]. Qed.
Lemma hname_app p s : hname p s = hname p [] ++ (lower <$> s).
Proof. unfold hname. rewrite !fmap_app. cbn [fmap list_fmap]. by rewrite app_nil_r, app_assoc. Qed.
Lemma hname_inj p i j : hname p (fmt03 i) = hname p (fmt03 j) -> i = j.
Proof.
  rewrite (hname_app p (fmt03 i)), (hname_app p (fmt03 j)). intros H%app_inv_head. rewrite !lower_digits in H by apply fmt03_digits.
  apply (f_equal value10) in H. rewrite !fmt03_value in H. lia.
Qed.
Lemma fmt03_head i : exists c l, fmt03 i = c :: l /\ digit c.
Proof.
  pose proof (fmt03_digits i) as H. destruct (fmt03 i) as [|c l] eqn:E; [|exists c, l; split; [done|by inversion H]].
  exfalso. unfold fmt03 in E. apply app_eq_nil in E as [_ E]. cbn [dec] in E. by destruct (app_cons_not_nil (if N.of_nat i <? 10 then [] else dec i (N.of_nat i / 10)) [] (48 + N.of_nat i mod 10)).
Qed.
Lemma hname_format p i : hname p (fmt03 i) <> hname p FORMAT.
Proof. rewrite (hname_app p (fmt03 i)), (hname_app p FORMAT). intros H%app_inv_head. rewrite lower_digits in H by apply fmt03_digits. destruct (fmt03_head i) as (c & l & E & D). rewrite E in H. injection H as -> _. by destruct D as [_ D]. Qed.
Lemma hname_md5 p i : hname p (fmt03 i) <> hname p MD5.
Proof. rewrite (hname_app p (fmt03 i)), (hname_app p MD5). intros H%app_inv_head. rewrite lower_digits in H by apply fmt03_digits. destruct (fmt03_head i) as (c & l & E & D). rewrite E in H. injection H as -> _. by destruct D as [_ D]. Qed.
Lemma hname_md5_format p : hname p MD5 <> hname p FORMAT.
Proof. rewrite (hname_app p MD5), (hname_app p FORMAT). intros H%app_inv_head. discriminate. Qed.
Lemma hname_prefix p s : hname p [] `prefix_of` hname p s.
Proof. rewrite (hname_app p s). by eexists. Qed.

(** * Parts *)
Lemma put_parts_other p i ps h k : (forall j, (i <= j)%nat -> k <> hname p (fmt03 j)) -> put_parts p i ps h !! k = h !! k.
Proof. revert i h. induction ps as [|t ps IH]; intros i h N; [done|]. cbn [put_parts]. rewrite IH by (intros j L; apply N; lia). apply lookup_insert_ne. intros E. by apply (N i). Qed.
Lemma put_parts_at p i ps h j : (j < length ps)%nat -> put_parts p i ps h !! hname p (fmt03 (i + j)) = ps !! j.
Proof.
  revert i h j. induction ps as [|t ps IH]; intros i h j L; [cbn in L; lia|]. cbn [put_parts]. destruct j as [|j].
  - rewrite Nat.add_0_r, put_parts_other; [by rewrite lookup_insert|]. intros j' L' E%hname_inj. lia.
  - replace (i + S j)%nat with (S i + j)%nat by lia. cbn in L. by rewrite IH by lia.
Qed.
Lemma put_parts_beyond p i ps h j : (length ps <= j)%nat -> put_parts p i ps h !! hname p (fmt03 (i + j)) = h !! hname p (fmt03 (i + j)).
Proof.
  revert i h j. induction ps as [|t ps IH]; intros i h j L; [done|]. cbn [put_parts]. cbn in L. destruct j as [|j]; [lia|]. replace (i + S j)%nat with (S i + j)%nat by lia.
  rewrite IH by lia. apply lookup_insert_ne. intros E%hname_inj. lia.
Qed.
Lemma collect_exact fuel p i h ps l : (forall j, (j < length ps)%nat -> h !! hname p (fmt03 (i + j)) = ps !! j) -> h !! hname p (fmt03 (i + length ps)) = None -> collect fuel p i h = Some l -> l = ps.
Proof.
  revert i ps l. induction fuel as [|fuel IH]; intros i ps l H N C; [done|]. cbn [collect] in C. destruct ps as [|t ps].
  - cbn [length] in N. rewrite Nat.add_0_r in N. rewrite N in C. by inversion C.
  - pose proof (H 0%nat ltac:(cbn; lia)) as H0. rewrite Nat.add_0_r in H0. rewrite H0 in C. cbn in C. destruct (collect fuel p (S i) h) as [l'|] eqn:E; [|done]. cbn in C. injection C as <-. f_equal.
    apply (IH (S i)); [|cbn [length] in N; by replace (S i + length ps)%nat with (i + S (length ps))%nat by lia|done].
    intros j L. pose proof (H (S j) ltac:(cbn; lia)) as H1. by replace (S i + j)%nat with (i + S j)%nat by lia.
Qed.
Lemma collect_none fuel p i h : collect fuel p i h = None -> forall j, (i <= j < i + fuel)%nat -> is_Some (h !! hname p (fmt03 j)).
Proof.
  revert i. induction fuel as [|fuel IH]; intros i C j L; [lia|]. cbn [collect] in C. destruct (h !! hname p (fmt03 i)) as [t|] eqn:E; [|done].
  destruct (decide (j = i)) as [->|N]; [by rewrite E|]. apply (IH (S i)); [|lia]. by destruct (collect fuel p (S i) h).
Qed.
Lemma collect_ends p h : collect (S (size h)) p 0 h <> None.
Proof.
  intros C. pose proof (collect_none _ _ _ _ C) as H.
  assert (list_to_set ((fun j => hname p (fmt03 j)) <$> seq 0 (S (size h))) ⊆ dom h) as S1.
  { intros k. rewrite elem_of_list_to_set, elem_of_list_fmap. intros (j & -> & J%elem_of_seq). apply elem_of_dom, H. lia. }
  apply subseteq_size in S1. rewrite size_list_to_set, fmap_length, seq_length, size_dom in S1; [lia|].
  apply NoDup_fmap_2; [intros a b; apply hname_inj|apply NoDup_seq].
Qed.

Section props.
Context (printable : N -> bool) {F : Type} `{EqDecision F} (fshow : F -> text) (fread : text -> option F) (md5 : @mapping F -> option text) (lossy : text -> text).
Notation mapping := (@mapping F). Notation freezable := (@freezable F fshow fread). Notation passes := (@passes printable F fshow).
Notation write_headers := (@write_headers printable F fshow md5). Notation read_headers := (@read_headers F _ fread md5 lossy).
Notation b2_read := (@b2_read F _ fread md5 lossy). Notation b2_session := (@b2_session F _ fread md5 lossy).
(** Metadata that C41 covers: each key once, values that can be read back, and spaces not next to the end of a header; the checksum is written without spaces (base64) *)
Definition fine (cs : nat) (d : mapping) : Prop := (forall m, md5 d = Some m -> 32 ∉ m) /\ (0 < cs)%nat /\ Forall (fun kv => freezable kv.1 /\ freezable kv.2) d /\ NoDup d.*1 /\ Forall (passes cs) d.

(** Only the headers in the name space, format, checksum and parts, matter. *)
Lemma collect_some fuel1 fuel2 p i h1 h2 l1 l2 : (forall k, hname p [] `prefix_of` k -> h1 !! k = h2 !! k) -> collect fuel1 p i h1 = Some l1 -> collect fuel2 p i h2 = Some l2 -> l1 = l2.
Proof.
  intros K. revert fuel2 i l1 l2. induction fuel1 as [|fuel1 IH]; intros fuel2 i l1 l2 C1 C2; [done|]. destruct fuel2 as [|fuel2]; [done|]. cbn [collect] in C1, C2.
  rewrite (K _ (hname_prefix p (fmt03 i))) in C1. destruct (h2 !! hname p (fmt03 i)) as [t|]; [|by simplify_eq].
  destruct (collect fuel1 p (S i) h1) as [k1|] eqn:E1; [|done]. destruct (collect fuel2 p (S i) h2) as [k2|] eqn:E2; [|done]. cbn in C1, C2. injection C1 as <-. injection C2 as <-. f_equal. by eapply IH.
Qed.
Theorem hdr_others p h1 h2 key : (forall k, hname p [] `prefix_of` k -> h1 !! k = h2 !! k) -> read_headers p h1 key = read_headers p h2 key.
Proof.
  intros K. unfold HdrModel.read_headers. rewrite (K _ (hname_prefix p FORMAT)), (K _ (hname_prefix p MD5)).
  destruct (decide (h2 !! hname p FORMAT = Some RAW2)); [|done].
  destruct (collect (S (size h1)) p 0 h1) as [l1|] eqn:E1; [|by destruct (collect_ends p h1)]. destruct (collect (S (size h2)) p 0 h2) as [l2|] eqn:E2; [|by destruct (collect_ends p h2)].
  by rewrite (collect_some _ _ _ _ _ _ _ _ K E1 E2).
Qed.
(** The search for parts ends, whatever the server answers. *)
Theorem hdr_ends p h key : exists r, read_headers p h key = Some r.
Proof. unfold HdrModel.read_headers. destruct (decide (h !! hname p FORMAT = Some RAW2)); [|by eexists]. destruct (collect (S (size h)) p 0 h) as [l|] eqn:E; [by eexists|by destruct (collect_ends p h)]. Qed.
(** Metadata comes back from the headers, among any others in request and answer. *)
Theorem hdr_roundtrip p cs d h0 h r key : fine cs d -> foreign (hname p []) h0 -> write_headers p cs d h0 = Some h -> kept (hname p []) h r -> read_headers p r key = Some (Got d).
Proof.
  intros (F0 & F1 & F2 & F3 & F4) N W K. unfold HdrModel.write_headers in W. destruct (add_meta printable fshow md5 cs d) as [ps m| | | |] eqn:A; try done. injection W as <-.
  assert (M : md5 d = Some m). { unfold add_meta in A. destruct (add_loop printable fshow cs d [] 0) as [ps0 m0| | | |]; try done. destruct (md5 d); [by inversion A|done]. }
  pose proof (headers_roundtrip _ _ _ _ lossy _ _ _ _ F1 F2 F3 F4 A) as R.
  assert (r !! hname p FORMAT = Some RAW2) as HF.
  { rewrite K by apply hname_prefix. rewrite lookup_insert_ne by apply hname_md5_format. by rewrite lookup_insert. }
  assert (r !! hname p MD5 = Some (strip m)) as HM by (rewrite K by apply hname_prefix; by rewrite lookup_insert).
  assert (forall j, r !! hname p (fmt03 j) = strip <$> put_parts p 0 ps h0 !! hname p (fmt03 j)) as HP.
  { intros j. rewrite K by apply hname_prefix. rewrite lookup_insert_ne by (apply not_eq_sym, hname_md5). by rewrite lookup_insert_ne by (apply not_eq_sym, hname_format). }
  unfold HdrModel.read_headers. rewrite decide_True by done. destruct (collect (S (size r)) p 0 r) as [l|] eqn:C; [|by destruct (collect_ends p r)].
  apply (collect_exact _ _ _ _ (strip <$> ps)) in C as ->.
  2: { intros j L. rewrite fmap_length in L. rewrite (HP (0 + j)%nat), (put_parts_at p 0 ps h0 j) by done. by rewrite list_lookup_fmap. }
  2: { rewrite fmap_length, (HP (0 + length ps)%nat), put_parts_beyond by lia. by rewrite N by apply hname_prefix. }
  rewrite HM, (strip_clean m) by (by apply clean_no_space, F0). by rewrite R.
Qed.
(** The other headers of the request stay as they are. *)
Theorem hdr_request p cs d h0 h k : write_headers p cs d h0 = Some h -> ~ hname p [] `prefix_of` k -> h !! k = h0 !! k.
Proof.
  intros W N. unfold HdrModel.write_headers in W. destruct (add_meta printable fshow md5 cs d) as [ps m| | | |]; try done. injection W as <-. assert (forall s, hname p s <> k) as X by (intros s <-; apply N, hname_prefix).
  rewrite !lookup_insert_ne by apply X. apply put_parts_other. intros j _ E. by apply (X (fmt03 j)).
Qed.
(** Nothing is returned whose format and checksum are not those of the headers. *)
Theorem hdr_checked p h key d : read_headers p h key = Some (Got d) -> h !! hname p FORMAT = Some RAW2 /\ is_Some (md5 d) /\ h !! hname p MD5 = md5 d.
Proof.
  unfold HdrModel.read_headers. destruct (decide (h !! hname p FORMAT = Some RAW2)) as [E|]; [|done]. destruct (collect (S (size h)) p 0 h) as [ps|]; [|done]. intros [= H]. split; [done|].
  destruct (h !! hname p MD5) as [m|].
  - destruct (extract fread md5 lossy ps m) as [d'| |] eqn:X; [|by destruct (special key)|done]. injection H as ->. apply extract_checked in X. by rewrite X.
  - destruct (extract fread (fun _ => None) lossy ps []) as [d'| |] eqn:X; [|by destruct (special key)|done]. by apply extract_checked in X.
Qed.
(** The two objects that are read before anything else do not give the error after which the program would try again for long; others do. *)
Theorem hdr_special p h key : read_headers p h key = Some Digest -> special key = false.
Proof.
  unfold HdrModel.read_headers. destruct (decide (h !! hname p FORMAT = Some RAW2)) as [E|]; [|done]. destruct (collect (S (size h)) p 0 h) as [ps|]; [|done]. intros [= H]. destruct (special key); [|done].
  destruct (h !! hname p MD5) as [m|]; [by destruct (extract fread md5 lossy ps m)|by destruct (extract fread (fun _ => None) lossy ps [])].
Qed.
Theorem hdr_damaged p h key ps m : h !! hname p FORMAT = Some RAW2 -> (forall j, h !! hname p (fmt03 j) = ps !! j) -> h !! hname p MD5 = Some m -> extract fread md5 lossy ps m = BadDigest ->
  read_headers p h key = Some (if special key then Corrupted else Digest).
Proof.
  intros HF HP HM X. unfold HdrModel.read_headers. rewrite decide_True by done. destruct (collect (S (size h)) p 0 h) as [l|] eqn:C; [|by destruct (collect_ends p h)].
  apply (collect_exact _ _ _ _ ps) in C as ->; [|intros j _; apply HP|rewrite HP; by apply lookup_ge_None]. rewrite HM, X. by destruct (special key).
Qed.
(** Metadata without the mark of its format is refused. *)
Theorem hdr_format p h key : h !! hname p FORMAT <> Some RAW2 -> read_headers p h key = Some Corrupted.
Proof. intros H. unfold HdrModel.read_headers. by rewrite decide_False. Qed.

(** * Backblaze *)
Lemma hname_meta p s : hname p (META ++ s) = hname (p ++ META) s.
Proof. unfold hname. by rewrite <- !app_assoc. Qed.
(** Objects of this version *)
Theorem hdr_b2_new p cs d h0 h r key : fine cs d -> foreign (hname p []) h0 -> write_headers p cs d h0 = Some h -> kept (hname p []) h r -> b2_read p r key = (Some (Got d), p).
Proof.
  intros F1 N W K. pose proof (hdr_roundtrip p cs d h0 h r key F1 N W K) as R. pose proof (hdr_checked _ _ _ _ R) as (HF & _). unfold HdrModel.b2_read. by rewrite decide_True, R by (by rewrite HF).
Qed.
(** Objects of the earlier backend: the same headers, with "meta-" twice *)
Theorem hdr_b2_old p cs d h0 h r key : fine cs d -> foreign (hname p META) h0 -> write_headers (p ++ META) cs d h0 = Some h -> kept (hname p META) h r -> r !! hname p FORMAT = None ->
  b2_read p r key = (Some (Got d), p).
Proof.
  intros F1 N W K L. replace (hname p META) with (hname (p ++ META) []) in N, K by (rewrite <- hname_meta; by rewrite app_nil_r).
  pose proof (hdr_roundtrip (p ++ META) cs d h0 h r key F1 N W K) as R. pose proof (hdr_checked _ _ _ _ R) as (HF & _). unfold HdrModel.b2_read. rewrite decide_False by (rewrite L; by intros [? ?]).
  rewrite decide_True by (rewrite hname_meta, HF; by eexists). by rewrite R.
Qed.
(** An object with the present mark is read by the present names only. *)
Theorem hdr_b2_prefers p h key : is_Some (h !! hname p FORMAT) -> b2_read p h key = (read_headers p h key, p).
Proof. intros H. unfold HdrModel.b2_read. by rewrite decide_True. Qed.
(** What is returned was checked, with the one or the other names. *)
Theorem hdr_b2_checked p h key d p' : b2_read p h key = (Some (Got d), p') -> exists q, (q = p \/ q = p ++ META) /\ h !! hname q FORMAT = Some RAW2 /\ is_Some (md5 d) /\ h !! hname q MD5 = md5 d.
Proof.
  unfold HdrModel.b2_read. destruct (decide (is_Some (h !! hname p FORMAT))); [|destruct (decide (is_Some (h !! hname p (META ++ FORMAT))))]; intros H%(f_equal fst); cbn [fst] in H; apply hdr_checked in H; eexists; (split; [|exact H]); tauto.
Qed.
(** Neither *)
Theorem hdr_b2_none p h key : h !! hname p FORMAT = None -> h !! hname p (META ++ FORMAT) = None -> b2_read p h key = (Some Corrupted, p).
Proof. intros H1 H2. unfold HdrModel.b2_read. rewrite H1, H2, !decide_False by (by intros [? ?]). by rewrite hdr_format by (by rewrite H1). Qed.
(** An answer is read as if it were the first of the session, whatever the answers before it, damaged ones included. *)
Theorem hdr_b2_session p rs : b2_session p rs = (fun r => fst (b2_read p r.1 r.2)) <$> rs.
Proof.
  induction rs as [|[h key] rs IH]; [done|]. cbn [HdrModel.b2_session fmap list_fmap fst snd]. assert (snd (b2_read p h key) = p) as E.
  { unfold HdrModel.b2_read. destruct (decide (is_Some (h !! hname p FORMAT))); [done|]. by destruct (decide (is_Some (h !! hname p (META ++ FORMAT)))). }
  destruct (b2_read p h key) as [r q]. cbn [snd] in E. subst q. by rewrite IH.
Qed.
End props.

(** * Examples *)
Definition XAMZ : text := [120; 45; 97; 109; 122; 45].
Definition class : text := XAMZ ++ [115; 45; 99].
Definition sent0 (p : text) : headers := default ∅ (write_headers (fun c => bool_decide (c = 228)) (fun _ => []) m0 p 100 sample {[class := [49]]}).
Definition is_got (r : option (@outcome unit)) : bool := match r with Some (Got d) => bool_decide (d = sample) | _ => false end.
Definition b2 := @b2_read unit _ (fun _ => None) m0 (fun l => l).
(** Four parts, format, checksum and the header that was there; read in both layouts *)
Example hdr_sample : size (sent0 XAMZ) = 7%nat /\ is_got (fst (b2 XAMZ (strip <$> sent0 XAMZ) [97])) = true /\ is_got (fst (b2 XAMZ (strip <$> sent0 (XAMZ ++ META)) [97])) = true.
Proof. vm_compute. auto. Qed.
(** A part got lost. *)
Example hdr_lost : fst (b2 XAMZ (delete (hname XAMZ (fmt03 2)) (sent0 XAMZ)) [97]) <> fst (b2 XAMZ (sent0 XAMZ) [97]).
Proof. vm_compute. discriminate. Qed.
(** The hypotheses can be met. *)
Example hdr_hypotheses : fine (fun _ => false) (fun _ : unit => []) (fun _ => None) m0 255 [(VStr [97], VInt 5)] /\ foreign (hname XAMZ []) {[class := [49]]} /\
  is_Some (write_headers (fun _ => false) (fun _ : unit => []) m0 XAMZ 255 [(VStr [97], VInt 5)] {[class := [49]]}) /\ special [97] = false.
Proof.
  split_and!; [|intros k [l ->]; by apply lookup_singleton_ne|vm_compute; by eexists|done].
  split_and!; [intros m [= <-]; by apply not_elem_of_nil|lia| | |].
  - repeat constructor.
  - apply NoDup_singleton.
  - constructor; [|constructor]. left. split; [|done]. cbn. set_solver.
Qed.
Print Assumptions hdr_roundtrip. Print Assumptions hdr_others. Print Assumptions hdr_ends. Print Assumptions hdr_checked. Print Assumptions hdr_special. Print Assumptions hdr_damaged. Print Assumptions hdr_format.
Print Assumptions hdr_request. Print Assumptions hdr_b2_prefers. Print Assumptions hdr_b2_new. Print Assumptions hdr_b2_old. Print Assumptions hdr_b2_checked. Print Assumptions hdr_b2_none. Print Assumptions hdr_b2_session.
