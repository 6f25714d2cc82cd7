(** Proofs about the encrypted and compressed storage. *)
From stdpp Require Import prelude pretty.
From Coq.Strings Require Import Byte.
From Coq Require Import String Ascii.
From Verif Require Import Bytes ComprencModel ComprencSpec.
Local Close Scope string_scope.
Local Open Scope list_scope.

(** * The encoding of mappings *)
Lemma str_inj a b : str a = str b -> a = b.
Proof. intros H. rewrite <- (string_of_list_byte_of_string a), <- (string_of_list_byte_of_string b). unfold str in H. by rewrite H. Qed.
Lemma decimal_inj a b : decimal a = decimal b -> a = b.
Proof. intros H. apply str_inj in H. by apply (inj pretty). Qed.

Lemma app_nul_inj a b x y : nul_free a -> nul_free b -> a ++ x00 :: x = b ++ x00 :: y -> a = b /\ x = y.
Proof.
  unfold nul_free. revert b. induction a as [|u a IH]; intros [|v b] Ha Hb E; cbn in E.
  - by injection E.
  - injection E as <- _. destruct Hb. by left.
  - injection E as -> _. destruct Ha. by left.
  - injection E as <- E. apply not_elem_of_cons in Ha, Hb. destruct (IH b) as [-> ->]; naive_solver.
Qed.
Lemma str_cons c s : str (String c s) = byte_of_ascii c :: str s.
Proof. done. Qed.
Lemma pretty_N_nul_free (x : N) : nul_free (str (pretty x)).
Proof.
  assert (forall y s, nul_free (str s) -> nul_free (str (pretty_N_go y s))) as H.
  { intros y. induction (N.lt_wf_0 y) as [y _ IH]. intros s Hs.
    assert (y = 0 \/ 0 < y)%N as [->|Hy] by lia; [done|]. rewrite pretty_N_go_step by done.
    apply IH; [by apply N.div_lt|]. rewrite str_cons. apply not_elem_of_cons. split; [|done].
    unfold pretty_N_char. by repeat case_match. }
  unfold pretty, pretty_N. case_decide; [by apply (bool_decide_unpack _)|]. apply H. by apply (bool_decide_unpack _).
Qed.
Lemma decimal_nul_free z : nul_free (decimal z).
Proof.
  unfold decimal, pretty, pretty_Z. destruct z as [|p|p].
  - by apply (bool_decide_unpack _).
  - apply (pretty_N_nul_free (Npos p)).
  - cbn. apply not_elem_of_cons. split; [done|]. apply (pretty_N_nul_free (Npos p)).
Qed.

Lemma enc_val_nul v : exists r, enc_val v = x00 :: r.
Proof. destruct v as [s| |[]|z|d|b]; by eexists. Qed.
(** The encodings of values are a prefix code. *)
Lemma enc_val_inj v v' x y : val_ok v -> val_ok v' -> val_clean v -> val_clean v' ->
  enc_val v ++ x = enc_val v' ++ y -> v = v' /\ x = y.
Proof.
  intros O O' C C' E.
  destruct v as [s| |[]|z|d|b], v' as [s'| |[]|z'|d'|b']; cbn in E; try discriminate E;
    try (injection E as E; by subst).
  - injection E as E. rewrite <- !app_assoc in E. cbn in E. apply app_nul_inj in E as [-> ->]; done.
  - injection E as E. rewrite <- !app_assoc in E. cbn in E. apply app_nul_inj in E as [E ->]; [|apply decimal_nul_free..].
    apply decimal_inj in E as ->. done.
  - injection E as E. cbn in O, O'. apply app_inj_1 in E as [-> ->]; [done|congruence].
  - cbn in O, O'. injection E as E1 E2 E3 E4 E.
    assert (N.of_nat (List.length b) = N.of_nat (List.length b')) as HL.
    { apply pack32_inj; [done..|]. unfold pack32. congruence. }
    apply app_inj_1 in E as [-> ->]; [done|lia].
Qed.

Lemma Forall_filter' {A} (P : A -> Prop) (Q : A -> Prop) `{forall x, Decision (Q x)} l : Forall P l -> Forall P (filter Q l).
Proof. rewrite !Forall_forall. intros Hl x Hx. apply elem_of_list_filter in Hx as [_ Hx]. auto. Qed.
Lemma encoding_inj m1 m2 : mapping_ok m1 -> mapping_ok m2 -> mapping_clean m1 -> mapping_clean m2 ->
  encoding m1 = encoding m2 -> unsigned m1 = unsigned m2.
Proof.
  assert (forall a b : mapping, mapping_ok a -> mapping_ok b -> mapping_clean a -> mapping_clean b ->
    List.concat (enc_item <$> a) = List.concat (enc_item <$> b) -> a = b) as H.
  { intros a. induction a as [|[k v] a IH]; intros [|[k' v'] b] O1 O2 C1 C2 E; cbn in E; [done| | |].
    - exfalso. destruct (enc_val_nul v') as [r Hr]. unfold enc_item in E. cbn in E. rewrite Hr in E. by destruct k'.
    - exfalso. destruct (enc_val_nul v) as [r Hr]. unfold enc_item in E. cbn in E. rewrite Hr in E. by destruct k.
    - unfold mapping_ok, mapping_clean in *. inversion O1; inversion O2; inversion C1; inversion C2; subst. cbn in *.
      assert (k ++ enc_val v ++ List.concat (enc_item <$> a) = k' ++ enc_val v' ++ List.concat (enc_item <$> b)) as E'
        by (rewrite !app_assoc; exact E). clear E. rename E' into E.
      destruct (enc_val_nul v) as [r Hr], (enc_val_nul v') as [r' Hr'].
      assert (k = k' /\ enc_val v ++ List.concat (enc_item <$> a) = enc_val v' ++ List.concat (enc_item <$> b)) as [-> E2].
      { rewrite Hr, Hr' in *. cbn in *. apply app_nul_inj in E as [-> ->]; naive_solver. }
      apply enc_val_inj in E2 as [-> E2]; [|naive_solver..]. f_equal. by apply IH. }
  intros O1 O2 C1 C2. unfold encoding. apply H.
  - by apply Forall_filter'.
  - by apply Forall_filter'.
  - by apply Forall_filter'.
  - by apply Forall_filter'.
Qed.

(** A presented mapping whose encoding is that of a mapping with clean strings. *)
Lemma get_elem (m : mapping) k v : get m k = Some v -> (k, v) ∈ m.
Proof.
  induction m as [|[k' v'] m IH]; cbn; [done|]. case_decide; [intros [= ->]; subst; by left|]. intros. right. auto.
Qed.
Lemma enc_first U k v0 v rest : sorted U -> (k, v) ∈ U -> nul_free k ->
  val_ok v -> val_ok v0 -> val_clean v -> val_clean v0 ->
  List.concat (enc_item <$> U) = enc_item (k, v0) ++ rest ->
  exists U', U = (k, v0) :: U' /\ v = v0 /\ List.concat (enc_item <$> U') = rest.
Proof.
  intros Hs Hin Hk O O0 C C0 E. destruct U as [|[k1 v1] U']; [by apply elem_of_nil in Hin|]. cbn in E.
  assert (k1 ++ enc_val v1 ++ List.concat (enc_item <$> U') = k ++ enc_val v0 ++ rest) as E' by (rewrite !app_assoc; exact E).
  clear E. inversion Hs as [|? ? Hs' Hall]; subst.
  assert (k1 = k \/ blt k1 k = true) as Hle.
  { apply elem_of_cons in Hin as [[= -> ->]|Hin]; [by left|]. right. rewrite Forall_forall in Hall. apply (Hall (k, v) Hin). }
  destruct (enc_val_nul v1) as [r1 Hr1], (enc_val_nul v0) as [r0 Hr0].
  assert (k1 = k) as ->.
  { destruct Hle as [?|Hlt]; [done|]. exfalso. rewrite Hr1, Hr0 in E'. cbn in E'.
    destruct (decide (nul_free k1)) as [Hn|Hn].
    - apply app_nul_inj in E' as [-> _]; [|done..]. by rewrite blt_irrefl in Hlt.
    - unfold nul_free in Hn. apply dec_stable in Hn. 
      assert (exists a b, k1 = a ++ x00 :: b /\ nul_free a) as (a & b & -> & Ha).
      { clear -Hn. induction k1 as [|x k1 IH]; [by apply elem_of_nil in Hn|]. destruct (decide (x = x00)) as [->|Hx].
        - exists [], k1. split; [done|]. apply not_elem_of_nil.
        - apply elem_of_cons in Hn as [?|Hn]; [done|]. destruct (IH Hn) as (a & b & -> & Ha). exists (x :: a), b. split; [done|].
          apply not_elem_of_cons. done. }
      rewrite <- app_assoc in E'. cbn in E'. apply app_nul_inj in E' as [-> _]; [|done..].
      pose proof (blt_app k (x00 :: b) ltac:(done)) as H1. pose proof (blt_trans _ _ _ H1 Hlt) as H2. by rewrite blt_irrefl in H2. }
  apply app_inv_head in E'.
  assert (v1 = v) as ->.
  { apply elem_of_cons in Hin as [[= ->]|Hin]; [done|]. rewrite Forall_forall in Hall. specialize (Hall _ Hin). cbn in Hall.
    by rewrite blt_irrefl in Hall. }
  apply enc_val_inj in E' as [-> <-]; [|done..]. by exists U'.
Qed.
Lemma enc_nil (U : mapping) : List.concat (enc_item <$> U) = [] -> U = [].
Proof.
  destruct U as [|[k v] U]; [done|]. cbn. unfold enc_item at 1. cbn. destruct (enc_val_nul v) as [r ->]. by destruct k.
Qed.
Lemma get_unsigned m k v : k <> str "signature" -> get m k = Some v -> (k, v) ∈ unsigned m.
Proof. intros Hk Hg. apply elem_of_list_filter. split; [done|]. by apply get_elem. Qed.
Lemma sorted_unsigned m : sorted m -> sorted (unsigned m).
Proof.
  unfold sorted, unsigned. induction 1 as [|a m Hs IH Hall]; [constructor|]. rewrite filter_cons. case_decide; [|done].
  constructor; [done|]. by apply Forall_filter'.
Qed.

(** * Streams *)

Lemma upd_length f i b : List.length (upd f i b) = List.length b.
Proof. unfold upd. by rewrite imap_length. Qed.
Lemma upd_app f i a b : upd f i (a ++ b) = upd f i a ++ upd f (i + List.length a) b.
Proof. unfold upd. rewrite imap_app. f_equal. apply imap_ext. intros j x _. cbn. f_equal. lia. Qed.
Lemma upd_cons f i x b : upd f i (x :: b) = f i x :: upd f (S i) b.
Proof.
  change (x :: b) with ([x] ++ b). rewrite upd_app. cbn [List.length]. rewrite Nat.add_1_r. unfold upd at 1. cbn.
  by rewrite Nat.add_0_r.
Qed.
Lemma upd_inv f g i b : (forall j x, f j (g j x) = x) -> upd f i (upd g i b) = b.
Proof. intros H. revert i. induction b as [|x b IH]; intros i; [done|]. by rewrite !upd_cons, H, IH. Qed.
Lemma upd_nil f i b : upd f i b = [] -> b = [].
Proof. destruct b; [done|]. by rewrite upd_cons. Qed.

Section streams.
Context (bufsize : nat) (Hbuf : 0 < bufsize).
Lemma chunks_spec fuel len d : List.length d < fuel ->
  List.concat (chunks bufsize fuel len d) = take len d /\ Forall (fun c => c <> [] /\ List.length c <= bufsize) (chunks bufsize fuel len d).
Proof.
  revert len d. induction fuel as [|fuel IH]; intros len d Hf; [lia|]. cbn. case_decide as Hl.
  - case_decide as Hb.
    + split; [|constructor]. cbn. destruct d as [|x d]; [by rewrite take_nil|]. exfalso.
      destruct (min bufsize len) as [|n] eqn:E; [lia|]. done.
    + assert (List.length (take (min bufsize len) d) <= min bufsize len) as Hlen by (rewrite take_length; lia).
      destruct (IH (len - List.length (take (min bufsize len) d)) (drop (min bufsize len) d)) as [H1 H2].
      { rewrite drop_length. destruct d; [by rewrite take_nil in Hb|]. cbn in *. lia. }
      split; [|constructor; [split; [done|lia]|done]]. cbn. rewrite H1.
      rewrite take_length. destruct (decide (min bufsize len <= List.length d)).
      * rewrite (Nat.min_l (min bufsize len)) by lia. rewrite take_take_drop. f_equal. lia.
      * rewrite (drop_ge d) by lia. rewrite take_nil, app_nil_r, !take_ge by lia. done.
  - split; [|constructor]. replace len with 0 by lia. by rewrite take_0.
Qed.

Context (cenc cdec : bytes -> nat -> byte -> byte) (hmac : bytes -> bytes -> bytes).
Context (Hcipher : cipher_ok cenc cdec) (Hhmac : hmac_ok hmac) (Hbig : (N.of_nat bufsize < 4294967296)%N).

Lemma read_packet_ok fuel k n i l t out : List.length l < fuel -> n <= List.length l ->
  read_packet bufsize cdec fuel k n i l t out =
    Some (i + n, drop n l, t ++ upd (cdec k) i (take n l), out ++ upd (cdec k) i (take n l)).
Proof.
  revert n i l t out. induction fuel as [|fuel IH]; intros n i l t out Hf Hn; [lia|]. cbn. case_decide as H0.
  - subst. rewrite Nat.add_0_r, take_0, drop_0. cbn. by rewrite !app_nil_r.
  - case_decide as Hb.
    + exfalso. destruct l; [cbn in *; lia|]. destruct (min n bufsize) eqn:E; [lia|done].
    + assert (List.length (take (min n bufsize) l) = min n bufsize) as Hlen by (rewrite take_length; lia).
      rewrite Hlen. rewrite IH; [|rewrite drop_length; lia..]. rewrite drop_drop.
      assert (take n l = take (min n bufsize) l ++ take (n - min n bufsize) (drop (min n bufsize) l)) as ->.
      { rewrite <- (take_drop (min n bufsize) l) at 1. rewrite take_app_ge by lia. by rewrite Hlen. }
      rewrite upd_app, Hlen, !app_assoc.
      replace (min n bufsize + (n - min n bufsize)) with n by lia.
      replace (i + min n bufsize + (n - min n bufsize)) with (i + n) by lia. done.
Qed.
Lemma read_packet_some fuel k n i l t out i' l' t' out' :
  read_packet bufsize cdec fuel k n i l t out = Some (i', l', t', out') ->
  exists c, l = c ++ l' /\ i' = i + List.length c /\ t' = t ++ upd (cdec k) i c /\ out' = out ++ upd (cdec k) i c.
Proof.
  revert n i l t out. induction fuel as [|fuel IH]; intros n i l t out; cbn; [done|]. case_decide.
  - intros [= <- <- <- <-]. exists []. cbn. rewrite !app_nil_r. auto.
  - case_decide; [done|]. intros H1. apply IH in H1 as (c & Hc & -> & -> & ->).
    exists (take (min n bufsize) l ++ c). rewrite upd_app, !app_assoc. rewrite <- app_assoc, <- Hc, take_drop, app_length.
    split; [done|]. split; [lia|done].
Qed.
Lemma read_packets_some fuel k i l t out i' l' t' out' :
  read_packets bufsize cdec fuel k i l t out = Some (i', l', t', out') ->
  exists c, l = c ++ l' /\ i' = i + List.length c /\ t' = t ++ upd (cdec k) i c.
Proof.
  revert i l t out. induction fuel as [|fuel IH]; intros i l t out; cbn -[read_packet take drop]; [done|].
  case_decide as Hb; [done|]. rewrite upd_length. case_decide as H4; [done|].
  case_decide as H0.
  - intros [= <- <- <- <-]. exists (take 4 l). rewrite take_drop. split; [done|]. split; [lia|done].
  - destruct (read_packet _ _ _ _ _ _ _ _ _) as [[[[i1 l1] t1] out1]|] eqn:E; [|done]. intros H.
    apply read_packet_some in E as (c1 & E1 & -> & -> & ->). apply IH in H as (c2 & -> & -> & ->).
    exists (take 4 l ++ c1 ++ c2). rewrite !upd_app, H4, !app_assoc. rewrite <- !app_assoc, <- E1, take_drop, !app_length, H4.
    split; [done|]. split; [lia|done].
Qed.
Lemma decrypt_some k d out : decrypt_fh bufsize cdec hmac k d = Ok out -> exists t, upd (cdec k) 0 d = t ++ hmac k t.
Proof.
  unfold decrypt_fh. destruct (read_packets _ _ _ _ _ _ _ _) as [[[[i l] t] o]|] eqn:E; [|done].
  apply read_packets_some in E as (c & -> & -> & ->). case_decide as He; [|done]. case_decide as Ht; [|done]. intros _.
  exists (upd (cdec k) 0 c). cbn in *. rewrite upd_app. f_equal. rewrite <- Ht. f_equal. cbn.
  destruct (drop 32 l) as [|x r] eqn:Ed; [|destruct bufsize; [lia|done]].
  rewrite <- (take_drop 32 l) at 1. by rewrite Ed, app_nil_r.
Qed.

Lemma read_packets_step fuel k i h l t out : List.length h = 4 ->
  read_packets bufsize cdec (S fuel) k i (h ++ l) t out =
    let n := N.to_nat (unpack32 (upd (cdec k) i h)) in
    if decide (n = 0) then Some (i + 4, l, t ++ upd (cdec k) i h, out)
    else match read_packet bufsize cdec (S (List.length (h ++ l))) k n (i + 4) l (t ++ upd (cdec k) i h) out with
         | None => None
         | Some (i, l, t, out) => read_packets bufsize cdec fuel k i l t out
         end.
Proof.
  intros Hh. cbn [read_packets]. rewrite take_app_alt by done. rewrite drop_app_alt by done.
  rewrite decide_False by (by destruct h). rewrite upd_length. rewrite decide_False by lia. done.
Qed.
Lemma read_packets_ok fuel k cs i r t out :
  Forall (fun c => c <> [] /\ List.length c <= bufsize) cs -> List.length (transcript cs) < fuel ->
  read_packets bufsize cdec fuel k i (upd (cenc k) i (transcript cs) ++ r) t out =
    Some (i + List.length (transcript cs), r, t ++ transcript cs, out ++ List.concat cs).
Proof.
  destruct Hcipher as [Hde _].
  revert fuel i t out. induction cs as [|c cs IH]; intros fuel i t out Hc Hf.
  - destruct fuel as [|fuel]; [lia|]. unfold transcript. cbn [fmap list_fmap List.concat app].
    rewrite read_packets_step by (by rewrite upd_length). rewrite upd_inv by auto. rewrite unpack_pack32 by lia.
    cbv zeta. rewrite decide_True by done. by rewrite app_nil_r.
  - inversion Hc as [|? ? [Hne Hle] Hc']; subst. destruct fuel as [|fuel]; [lia|].
    assert (transcript (c :: cs) = pack32 (N.of_nat (List.length c)) ++ c ++ transcript cs) as Et.
    { unfold transcript. cbn [fmap list_fmap List.concat]. unfold frame at 1. by rewrite <- !app_assoc. }
    rewrite Et in *. rewrite !upd_app, <- !app_assoc.
    rewrite read_packets_step by (by rewrite upd_length). rewrite upd_inv by auto. rewrite unpack_pack32 by lia.
    rewrite Nat2N.id. cbv zeta. rewrite decide_False by (by destruct c). change (List.length (pack32 _)) with 4.
    rewrite read_packet_ok; [|rewrite ?app_length, ?upd_length; change (List.length (pack32 _)) with 4; lia..].
    rewrite take_app_alt by (by rewrite upd_length). rewrite drop_app_alt by (by rewrite upd_length).
    rewrite upd_inv by auto. rewrite IH; [|done|rewrite !app_length in Hf; change (List.length (pack32 _)) with 4 in Hf; lia].
    rewrite !app_length. change (List.length (pack32 _)) with 4. cbn [List.concat].
    rewrite <- !app_assoc. f_equal. f_equal. f_equal. f_equal. lia.
Qed.
Lemma decrypt_ok k cs : Forall (fun c => c <> [] /\ List.length c <= bufsize) cs ->
  decrypt_fh bufsize cdec hmac k (upd (cenc k) 0 (transcript cs ++ hmac k (transcript cs))) = Ok (List.concat cs).
Proof.
  intros Hc. unfold decrypt_fh. rewrite upd_app. rewrite read_packets_ok; [|done|rewrite app_length, !upd_length; lia].
  cbn [app]. set (t := transcript cs). destruct Hcipher as [Hde _].
  rewrite (take_ge (upd _ _ _)) by (by rewrite upd_length, Hhmac). rewrite (drop_ge (upd _ _ _)) by (by rewrite upd_length, Hhmac).
  rewrite take_nil. rewrite decide_True by done. rewrite upd_inv by auto. by rewrite decide_True.
Qed.
Lemma encrypt_decrypt k d len : decrypt_fh bufsize cdec hmac k (encrypt_fh bufsize cenc hmac k d len) = Ok (take len d).
Proof.
  unfold encrypt_fh. destruct (chunks_spec (S (List.length d)) len d) as [H1 H2]; [lia|]. rewrite decrypt_ok by done. by rewrite H1.
Qed.
(** A stream that is accepted and whose message is that of a stored stream, is this stream. *)
Lemma accepted_is_stored k t d d' : d' = upd (cenc k) 0 (t ++ hmac k t) -> upd (cdec k) 0 d = t ++ hmac k t -> d = d'.
Proof. intros -> H. rewrite <- H. destruct Hcipher as [_ Hed]. symmetry. apply upd_inv. auto. Qed.
End streams.

Section storage.
Context (bufsize : nat) (Hbuf : 0 < bufsize) (Hbig : (N.of_nat bufsize < 4294967296)%N).
Context (cenc cdec : bytes -> nat -> byte -> byte) (sha256 : bytes -> bytes) (hmac : bytes -> bytes -> bytes).
Context (comp : algorithm -> list bytes -> bytes) (decomp : algorithm -> list bytes -> option (bytes * bool * bytes)).
Context (freeze : mapping -> bytes) (thaw : bytes -> option mapping).
Context (Hcipher : cipher_ok cenc cdec) (Hhmac : hmac_ok hmac) (Hcomp : compressor_ok comp decomp).

Local Notation readinto := (readinto_fh bufsize cdec sha256 hmac decomp thaw).
Local Notation stored := (stored bufsize cenc sha256 hmac comp freeze).
Local Notation lookup := (lookup cdec sha256 hmac thaw).

Lemma pop_size_id z m : get m (str "__size") = None -> pop_size ((str "__size", VInt z) :: m) = m.
Proof.
  intros H. unfold pop_size. rewrite filter_cons, decide_False by (intros Hx; by apply Hx).
  induction m as [|[k v] m IH]; [done|]. cbn in H. case_decide as E; [done|]. rewrite filter_cons, decide_True by done. by rewrite IH.
Qed.
Lemma token_inv a : algorithm_by_token (token a) = Some a.
Proof. by destruct a. Qed.
Lemma decompress_compress a d len : decompress_fh bufsize decomp a (compress_fh bufsize comp a d len) = Ok (take len d).
Proof.
  unfold decompress_fh, compress_fh. set (c := comp a _).
  destruct (chunks_spec bufsize Hbuf (S (List.length c)) (List.length c) c) as [H1 H2]; [lia|].
  rewrite (Hcomp a (chunks bufsize (S (List.length d)) len d)).
  - cbn [negb]. rewrite decide_True by done. destruct (chunks_spec bufsize Hbuf (S (List.length d)) len d) as [H3 _]; [lia|]. by rewrite H3.
  - eapply Forall_impl; [exact H2|]. by intros ? [].
  - rewrite H1. by apply take_ge.
Qed.
Lemma plain_none d pos len : (if decide (pos <> 0 \/ List.length d <> len) then List.concat (chunks bufsize (S (List.length d)) len (drop pos d)) else d) = take len (drop pos d).
Proof.
  case_decide as E.
  - apply chunks_spec; [done|]. rewrite drop_length. lia.
  - assert (pos = 0) as -> by lia. assert (List.length d = len) as <- by lia. by rewrite drop_0, take_ge.
Qed.


Definition six (alg : algorithm) (md nonce key : bytes) : mapping :=
  [(str "compression", VStr (token alg)); (str "data", VBytes md); (str "encryption", VStr (str "AES_v2")); (str "format_version", VInt 2);
   (str "nonce", VBytes nonce); (str "object_id", VStr key)].
Definition signed (alg : algorithm) (md nonce key sig : bytes) : mapping := six alg md nonce key ++ [(str "signature", VBytes sig)].
Lemma unsigned_signed alg md nonce key sig : unsigned (signed alg md nonce key sig) = six alg md nonce key.
Proof. reflexivity. Qed.
Lemma unsigned_six alg md nonce key : unsigned (six alg md nonce key) = six alg md nonce key.
Proof. reflexivity. Qed.
Lemma encoding_signed alg md nonce key sig : encoding (signed alg md nonce key sig) = encoding (six alg md nonce key).
Proof. unfold encoding. by rewrite unsigned_signed, unsigned_six. Qed.

Lemma verify_signed p alg md nonce key m :
  let mk := meta_key sha256 p nonce in thaw (upd (cdec mk) 0 md) = Some m ->
  verify_meta cdec sha256 hmac thaw (Some p) key (signed alg md nonce key (hmac mk (encoding (six alg md nonce key)))) = Ok (Some nonce, m).
Proof.
  intros mk Ht. unfold verify_meta. set (sg := signed _ _ _ _ _). rewrite decide_False by (intros Hx; apply Hx; by left).
  assert (get sg (str "encryption") = Some (VStr (str "AES_v2"))) as -> by done.
  assert (get sg (str "compression") = Some (VStr (token alg))) as -> by done.
  assert (get sg (str "data") = Some (VBytes md)) as -> by done.
  assert (get sg (str "nonce") = Some (VBytes nonce)) as -> by done.
  assert (get sg (str "object_id") = Some (VStr key)) as -> by done.
  assert (get sg (str "signature") = Some (VBytes (hmac mk (encoding (six alg md nonce key))))) as -> by done.
  destruct (decide _) as [_|Hx]; [|by destruct Hx].
  assert (encoding sg = encoding (six alg md nonce key)) as -> by apply encoding_signed. rewrite decide_False by (intros Hx; by apply Hx). rewrite decide_False by (intros Hx; by apply Hx).
  fold mk. by rewrite Ht.
Qed.
Lemma verify_plain alg md m key : thaw md = Some m ->
  verify_meta cdec sha256 hmac thaw None key
    [(str "compression", VStr (token alg)); (str "data", VBytes md); (str "encryption", VStr (str "None")); (str "format_version", VInt 2)] = Ok (None, m).
Proof.
  intros Ht. unfold verify_meta. set (sg := _ :: _). rewrite decide_False by (intros Hx; apply Hx; by left).
  assert (get sg (str "encryption") = Some (VStr (str "None"))) as -> by done.
  assert (get sg (str "compression") = Some (VStr (token alg))) as -> by done.
  assert (get sg (str "data") = Some (VBytes md)) as -> by done.
  destruct (decide _) as [Hx|_]; [by destruct Hx|]. by rewrite Ht.
Qed.

Lemma stored_some p w m d : stored (Some p) w = Some (m, d) ->
  exists alg md, get (w_meta w) (str "__size") = None /\
    md = upd (cenc (meta_key sha256 p (w_nonce w))) 0 (freeze ((str "__size", VInt (Z.of_nat (w_len w))) :: w_meta w)) /\
    m = signed alg md (w_nonce w) (w_key w) (hmac (meta_key sha256 p (w_nonce w)) (encoding (six alg md (w_nonce w) (w_key w)))) /\
    (let d1 := if decide (alg = ANone) then w_content w else compress_fh bufsize comp alg (drop (w_pos w) (w_file w)) (w_len w) in
     d = encrypt_fh bufsize cenc hmac (data_key sha256 p (w_nonce w)) d1 (List.length d1)).
Proof.
  unfold ComprencSpec.stored, write_fh. case_decide as Hsz; [done|]. intros [= <- <-].
  eexists _, _. split; [by destruct (get (w_meta w) (str "__size")); [destruct Hsz|]|]. split; [reflexivity|].
  split; [reflexivity|]. reflexivity.
Qed.

Lemma write_read p w m d : stored p w = Some (m, d) -> freeze_ok freeze thaw ((str "__size", VInt (Z.of_nat (w_len w))) :: w_meta w) ->
  w_now w <> [] -> readinto p (w_key w) m d = Ok (w_meta w, w_content w) /\ lookup p (w_key w) m = Ok (w_meta w).
Proof.
  intros Hs Hf Hn. destruct p as [p|].
  - apply stored_some in Hs as (alg & md & Hsz & -> & -> & ->). unfold readinto_fh, ComprencModel.lookup.
    rewrite (verify_signed p alg _ (w_nonce w) (w_key w) ((str "__size", VInt (Z.of_nat (w_len w))) :: w_meta w)); [|rewrite upd_inv by (destruct Hcipher; auto); exact Hf].
    rewrite pop_size_id by done. split; [|done].
    assert (w_nonce w <> []) as Hnn. { unfold w_nonce. by destruct (w_now w). }
    rewrite decide_False by done. set (sg := signed _ _ _ _ _).
    assert (get sg (str "compression") = Some (VStr (token alg))) as -> by done.
    assert (get sg (str "encryption") = Some (VStr (str "AES_v2"))) as -> by done.
    assert (get sg (str "payload_offset") = None) as -> by done.
    rewrite decide_False by naive_solver. rewrite token_inv, drop_0. cbv zeta.
    rewrite encrypt_decrypt by done. rewrite take_ge by done. case_decide; [done|]. by rewrite decompress_compress.
  - unfold ComprencSpec.stored, write_fh in Hs. case_decide as Hsz; [done|]. injection Hs as <- <-.
    unfold readinto_fh, ComprencModel.lookup. rewrite (verify_plain _ _ ((str "__size", VInt (Z.of_nat (w_len w))) :: w_meta w)) by done.
    rewrite pop_size_id by (by destruct (get (w_meta w) (str "__size")); [destruct Hsz|]). split; [|done].
    set (alg := if w_dont w then ANone else w_compress w). set (sg := _ :: _).
    assert (get sg (str "compression") = Some (VStr (token alg))) as -> by done.
    assert (get sg (str "encryption") = Some (VStr (str "None"))) as -> by done.
    assert (get sg (str "payload_offset") = None) as -> by done.
    rewrite decide_False by naive_solver. rewrite token_inv, drop_0.
    destruct (decide (alg = ANone)).
    + by rewrite plain_none.
    + by rewrite decompress_compress.
Qed.

(** readinto_fh only depends on the looked-up values and the encoding. *)
Lemma readinto_ext p key m m' d : (forall k, get m k = get m' k) -> encoding m = encoding m' -> readinto p key m d = readinto p key m' d.
Proof. intros Hg He. unfold readinto_fh, verify_meta. by rewrite !Hg, He. Qed.
Lemma get_unsigned_eq m k : k <> str "signature" -> get (unsigned m) k = get m k.
Proof.
  intros Hk. unfold unsigned. induction m as [|[k' v] m IH]; [done|]. rewrite filter_cons. cbn [get fst].
  destruct (decide (k' <> str "signature")) as [Hn|Hn].
  - cbn [get]. case_decide; [done|]. exact IH.
  - apply dec_stable in Hn as ->. rewrite (decide_False (P := str "signature" = k)) by congruence. exact IH.
Qed.

Local Notation authenticated := (authenticated bufsize cenc sha256 hmac comp freeze).
Local Notation forged := (forged bufsize cenc cdec sha256 hmac comp freeze).
Lemma authenticated_dec p hist k t : Decision (authenticated p hist k t).
Proof.
  refine (cast_if (decide (Exists (fun w => match stored (Some p) w with
    | Some (m, d) => (k = meta_key sha256 p (w_nonce w) /\ t = encoding m) \/
       (k = data_key sha256 p (w_nonce w) /\ d = upd (cenc k) 0 (t ++ hmac k t)) | None => False end) hist))).
  - refine (List.Exists_dec _ _ _). intros w. destruct (stored (Some p) w) as [[m d]|]; match goal with |- {?P} + {_} => change (Decision P) end; apply _.
  - abstract (apply Exists_exists in e as (w & Hw & H); destruct (stored (Some p) w) as [[m d]|] eqn:E; [|done]; by exists w, m, d).
  - abstract (intros (w & m & d & Hw & E & H); apply n, Exists_exists; exists w; by rewrite E).
Defined.

Lemma verify_some p key m nonce meta : verify_meta cdec sha256 hmac thaw (Some p) key m = Ok (Some nonce, meta) ->
  exists encr comprv data, is_two (get m (str "format_version")) /\ get m (str "encryption") = Some encr /\
    encr <> VStr (str "None") /\ get m (str "compression") = Some comprv /\ get m (str "data") = Some (VBytes data) /\
    get m (str "nonce") = Some (VBytes nonce) /\ get m (str "signature") = Some (VBytes (hmac (meta_key sha256 p nonce) (encoding m))) /\
    get m (str "object_id") = Some (VStr key) /\ thaw (upd (cdec (meta_key sha256 p nonce)) 0 data) = Some meta.
Proof.
  unfold verify_meta. destruct (decide _) as [|Hv]; [done|]. apply dec_stable in Hv.
  destruct (get m (str "encryption")) as [encr|]; [|done]. destruct (get m (str "compression")) as [cv|]; [|done].
  destruct (get m (str "data")) as [data|]; [|done]. destruct (decide _) as [He|]; [|done].
  destruct data as [| | | | |data]; try done. destruct (get m (str "nonce")) as [[| | | | |n]|]; try done.
  destruct (get m (str "signature")) as [[| | | | |sig]|]; try done. destruct (get m (str "object_id")) as [[sk| | | | |]|]; try done.
  destruct (decide _) as [|Hs]; [done|]. apply dec_stable in Hs. destruct (decide _) as [|Hk]; [done|]. apply dec_stable in Hk.
  destruct (thaw _) as [meta'|] eqn:Ht; [|done]. intros [= <- <-]. exists encr, cv, data. subst. done.
Qed.
Lemma verify_nonce p key m on meta : verify_meta cdec sha256 hmac thaw (Some p) key m = Ok (on, meta) -> exists nonce, on = Some nonce.
Proof. unfold verify_meta. intros H. repeat case_match; simplify_eq; eauto. Qed.

Lemma token_clean a : nul_free (token a).
Proof. by destruct a; apply (bool_decide_unpack _). Qed.
Lemma get_ok m k v : mapping_ok m -> get m k = Some v -> val_ok v.
Proof. intros Hm Hg. apply get_elem in Hg. unfold mapping_ok in Hm. rewrite Forall_forall in Hm. exact (Hm _ Hg). Qed.

(** A presented mapping with clean values for the required keys, whose encoding is that of a stored one. *)
Local Ltac clean := first [done|by apply (bool_decide_unpack _)|cbn; by apply token_clean|idtac].
Lemma presented_is_stored m alg md nonce key (cv ev : bytes) (data n2 : bytes) key2 fv :
  sorted m -> mapping_ok m -> mapping_ok (six alg md nonce key) -> nul_free key -> nul_free key2 ->
  get m (str "compression") = Some (VStr cv) -> nul_free cv -> get m (str "data") = Some (VBytes data) ->
  get m (str "encryption") = Some (VStr ev) -> nul_free ev -> get m (str "format_version") = Some fv -> val_clean fv ->
  get m (str "nonce") = Some (VBytes n2) -> get m (str "object_id") = Some (VStr key2) ->
  encoding m = encoding (six alg md nonce key) -> unsigned m = six alg md nonce key.
Proof.
  intros Hs Ho Ho6 Hk Hk2 G1 C1 G2 G3 C3 G4 C4 G5 G6 E. unfold encoding in E. rewrite unsigned_six in E.
  pose proof (sorted_unsigned _ Hs) as Hsu.
  pose proof (get_ok _ _ _ Ho G2) as O2. pose proof (get_ok _ _ _ Ho G5) as O5. pose proof (get_ok _ _ _ Ho G4) as O4.
  apply get_unsigned in G1, G2, G3, G4, G5, G6; try done.
  unfold mapping_ok, six in Ho6. rewrite !Forall_cons in Ho6. destruct Ho6 as (_ & P2 & _ & _ & P5 & _).
  set (U := unsigned m) in *. unfold six in *. cbn [fmap list_fmap List.concat] in E.
  assert (forall k v k' v' (U' : mapping), (k, v) ∈ (k', v') :: U' -> k <> k' -> (k, v) ∈ U') as Hdrop.
  { intros k v k' v' U' Hin Hne. apply elem_of_cons in Hin as [[= -> ->]|]; done. }
  apply (enc_first U (str "compression") _ (VStr cv)) in E as (U1 & EU & [= ->] & E); clean.
  rewrite EU in *. clear EU U C1. inversion Hsu as [|? ? Hsu1 _]; subst.
  eapply Hdrop in G2, G3, G4, G5, G6; try done. clear Hsu.
  apply (enc_first U1 (str "data") _ (VBytes data)) in E as (U2 & -> & [= ->] & E); clean.
  inversion Hsu1 as [|? ? Hsu2 _]; subst. eapply Hdrop in G3, G4, G5, G6; try done. clear Hsu1.
  apply (enc_first U2 (str "encryption") _ (VStr ev)) in E as (U3 & -> & [= ->] & E); clean.
  inversion Hsu2 as [|? ? Hsu3 _]; subst. eapply Hdrop in G4, G5, G6; try done. clear Hsu2.
  apply (enc_first U3 (str "format_version") _ fv) in E as (U4 & -> & -> & E); clean.
  inversion Hsu3 as [|? ? Hsu4 _]; subst. eapply Hdrop in G5, G6; try done. clear Hsu3.
  apply (enc_first U4 (str "nonce") _ (VBytes n2)) in E as (U5 & -> & [= ->] & E); clean.
  inversion Hsu4 as [|? ? Hsu5 _]; subst. eapply Hdrop in G6; try done. clear Hsu4.
  apply (enc_first U5 (str "object_id") _ (VStr key2)) in E as (U6 & -> & [= ->] & E); clean.
  by apply enc_nil in E as ->.
Qed.

Local Notation history_ok := (history_ok bufsize cenc sha256 hmac comp freeze thaw).
Lemma keys_distinct p hist nonce w : no_collision sha256 p hist nonce -> w ∈ hist ->
  (meta_key sha256 p nonce = meta_key sha256 p (w_nonce w) -> w_nonce w = nonce) /\
  (meta_key sha256 p nonce = data_key sha256 p (w_nonce w) -> w_nonce w = nonce ++ str "meta") /\
  (data_key sha256 p nonce = meta_key sha256 p (w_nonce w) -> nonce = w_nonce w ++ str "meta") /\
  (data_key sha256 p nonce = data_key sha256 p (w_nonce w) -> w_nonce w = nonce).
Proof.
  intros Hc Hw. unfold meta_key, data_key. split_and!; intros E; symmetry in E; apply (Hc w _ _ Hw) in E; auto;
    apply app_inv_head in E; try done. by apply app_inv_tail in E.
Qed.
Lemma meta_authentic p hist m nonce : history_ok p hist -> no_collision sha256 p hist nonce ->
  authenticated p hist (meta_key sha256 p nonce) (encoding m) ->
  exists w alg md d, w ∈ hist /\ w_nonce w = nonce /\ get (w_meta w) (str "__size") = None /\
    stored (Some p) w = Some (signed alg md nonce (w_key w) (hmac (meta_key sha256 p nonce) (encoding (six alg md nonce (w_key w)))), d) /\
    mapping_ok (six alg md nonce (w_key w)) /\ encoding m = encoding (six alg md nonce (w_key w)).
Proof.
  intros Hh Hc (w & m0 & d0 & Hw & Hst & Hor). destruct Hor as [[Hk He]|[Hk _]].
  - assert (w_nonce w = nonce) as <-.
    { destruct (keys_distinct p hist nonce w Hc Hw) as (K & _). auto. }
    destruct (h_stored _ _ _ _ _ _ _ _ _ Hh w Hw) as (md0 & Hst' & Hok). rewrite Hst in Hst'. injection Hst' as <-. cbn in Hok.
    pose proof (stored_some _ _ _ _ Hst) as (alg & md & Hsz & Emd & -> & _).
    exists w, alg, md, d0. split; [done|]. split; [done|]. split; [done|]. split; [done|]. split.
    { unfold mapping_ok, signed in Hok. by apply Forall_app in Hok as [Hok _]. }
    rewrite He. by rewrite encoding_signed.
  - exfalso. apply (h_meta _ _ _ _ _ _ _ _ _ Hh w nonce Hw). destruct (keys_distinct p hist nonce w Hc Hw) as (_ & K & _). auto.
Qed.

Lemma algorithm_token ct a : algorithm_by_token ct = Some a -> ct = token a.
Proof. unfold algorithm_by_token. intros H. repeat case_decide; simplify_eq; done. Qed.

Theorem read_authentic p hist key m d meta out : history_ok p hist ->
  (forall nonce, get m (str "nonce") = Some (VBytes nonce) -> no_collision sha256 p hist nonce) ->
  nul_free key -> sorted m -> mapping_ok m ->
  readinto (Some p) key m d = Ok (meta, out) ->
  forged p hist m d \/ exists w, w ∈ hist /\ w_key w = key /\ stored (Some p) w = Some (unsigned m ++ [(str "signature", default VNone (get m (str "signature")))], d) /\
    meta = w_meta w /\ out = w_content w.
Proof.
  intros Hh Hcol Hkey Hsort Hok Hr. pose proof Hr as Hr0. unfold readinto_fh in Hr0.
  destruct (verify_meta _ _ _ _ _ _ _) as [[on meta0]| | |] eqn:Hv; try done.
  destruct (verify_nonce _ _ _ _ _ Hv) as [nonce ->].
  destruct (verify_some _ _ _ _ _ Hv) as (encr & cv & data & G4 & G3 & Hne & G1 & G2 & G5 & G7 & G6 & Hth).
  specialize (Hcol nonce G5). rewrite G1, G3 in Hr0. destruct cv as [ct| | | | |]; try done. destruct encr as [ea| | | | |]; try done.
  case_decide as Hea; [done|]. assert (ea = str "AES_v2") as ->.
  { destruct (decide (ea = str "AES_v2")); [done|]. destruct Hea. split; [done|congruence]. }
  destruct (algorithm_by_token ct) as [a|] eqn:Ha; [|done]. apply algorithm_token in Ha as ->.
  destruct (authenticated_dec p hist (meta_key sha256 p nonce) (encoding m)) as [Hau|Hau].
  2:{ left. exists nonce, (meta_key sha256 p nonce), (encoding m). split; [done|]. split; [done|]. left. done. }
  destruct (meta_authentic _ _ _ _ Hh Hcol Hau) as (w & alg & md & d0 & Hw & Hn & Hsz & Hst & Hok6 & Henc).
  assert (exists fv, get m (str "format_version") = Some fv /\ val_clean fv) as (fv & G4' & C4) by (destruct G4; eexists; (split; [eassumption|done])).
  assert (unsigned m = six alg md nonce (w_key w)) as HU.
  { eapply presented_is_stored; try done; [by eapply h_names|apply token_clean|by apply (bool_decide_unpack _)]. }
  assert (get m (str "object_id") = Some (VStr (w_key w))) as G6'. { rewrite <- get_unsigned_eq by done. by rewrite HU. }
  rewrite G6 in G6'. injection G6' as ->.
  assert (get m (str "payload_offset") = None) as Gp. { rewrite <- get_unsigned_eq by done. by rewrite HU. }
  assert (nonce <> []) as Hnn. { rewrite <- Hn. unfold w_nonce. pose proof (h_now _ _ _ _ _ _ _ _ _ Hh w Hw). by destruct (w_now w). }
  rewrite decide_False in Hr0 by done. rewrite Gp, drop_0 in Hr0.
  destruct (decrypt_fh _ _ _ _ d) as [b| | |] eqn:Hd; try done.
  destruct (decrypt_some bufsize Hbuf cdec hmac Hbig _ _ _ Hd) as [t Ht].
  destruct (authenticated_dec p hist (data_key sha256 p nonce) t) as [Hau2|Hau2].
  2:{ left. exists nonce, (data_key sha256 p nonce), t. split; [done|]. split; [done|]. right. split; [done|]. exists 0. by rewrite drop_0. }
  destruct Hau2 as (w' & m' & d' & Hw' & Hst' & [[Hk _]|[Hk Hd']]).
  - exfalso. apply (h_meta _ _ _ _ _ _ _ _ _ Hh w (w_nonce w') Hw). rewrite Hn. destruct (keys_distinct p hist nonce w' Hcol Hw') as (_ & _ & K & _). auto.
  - assert (w' = w) as ->.
    { apply (h_nonce _ _ _ _ _ _ _ _ _ Hh); [done..|]. rewrite Hn. destruct (keys_distinct p hist nonce w' Hcol Hw') as (_ & _ & _ & K). auto. }
    rewrite Hst in Hst'. injection Hst' as <- <-.
    pose proof (accepted_is_stored cenc cdec hmac Hcipher _ _ _ _ Hd' Ht) as ->.
    right. exists w. split; [done|]. split; [done|]. split.
    { rewrite HU, G7. cbn. rewrite Henc. exact Hst. }
    assert (readinto (Some p) (w_key w) m d0 = Ok (w_meta w, w_content w)) as Hrw.
    { rewrite (readinto_ext _ _ m (signed alg md nonce (w_key w) (hmac (meta_key sha256 p nonce) (encoding (six alg md nonce (w_key w)))))).
      - eapply write_read; [exact Hst|by eapply h_freeze|]. pose proof (h_now _ _ _ _ _ _ _ _ _ Hh w Hw). by destruct (w_now w).
      - intros k. destruct (decide (k = str "signature")) as [->|Hk'].
        + rewrite G7, Henc. reflexivity.
        + rewrite <- (get_unsigned_eq m k) by done. rewrite HU. set (sg := signed _ _ _ _ _). rewrite <- (get_unsigned_eq sg k) by done. subst sg. by rewrite unsigned_signed.
      - by rewrite encoding_signed. }
    rewrite Hr in Hrw. by injection Hrw as -> ->.
Qed.

Theorem lookup_authentic p hist key m meta : history_ok p hist ->
  (forall nonce, get m (str "nonce") = Some (VBytes nonce) -> no_collision sha256 p hist nonce) ->
  nul_free key -> sorted m -> mapping_ok m -> mapping_clean m ->
  lookup (Some p) key m = Ok meta ->
  forged p hist m [] \/ exists w, w ∈ hist /\ w_key w = key /\ meta = w_meta w.
Proof.
  intros Hh Hcol Hkey Hsort Hok Hclean. unfold ComprencModel.lookup.
  destruct (verify_meta _ _ _ _ _ _ _) as [[on meta0]| | |] eqn:Hv; try done. intros [= <-].
  destruct (verify_nonce _ _ _ _ _ Hv) as [nonce ->].
  destruct (verify_some _ _ _ _ _ Hv) as (encr & cv & data & G4 & G3 & Hne & G1 & G2 & G5 & G7 & G6 & Hth).
  specialize (Hcol nonce G5).
  destruct (authenticated_dec p hist (meta_key sha256 p nonce) (encoding m)) as [Hau|Hau].
  2:{ left. exists nonce, (meta_key sha256 p nonce), (encoding m). split; [done|]. split; [done|]. left. done. }
  destruct (meta_authentic _ _ _ _ Hh Hcol Hau) as (w & alg & md & d0 & Hw & Hn & Hsz & Hst & Hok6 & Henc).
  assert (unsigned m = six alg md nonce (w_key w)) as HU.
  { rewrite <- unsigned_six. apply encoding_inj; [done|done|done| |done].
    unfold mapping_clean, six. rewrite !Forall_cons. cbn. pose proof (token_clean alg). pose proof (h_names _ _ _ _ _ _ _ _ _ Hh w Hw).
    split_and!; try done; by apply (bool_decide_unpack _). }
  assert (get m (str "object_id") = Some (VStr (w_key w))) as G6'. { rewrite <- get_unsigned_eq by done. by rewrite HU. }
  rewrite G6 in G6'. injection G6' as ->.
  assert (get m (str "data") = Some (VBytes md)) as G2'. { rewrite <- get_unsigned_eq by done. by rewrite HU. }
  rewrite G2 in G2'. injection G2' as ->. right. exists w. split; [done|]. split; [done|].
  pose proof (stored_some _ _ _ _ Hst) as (alg' & md' & _ & Emd & Em & _).
  assert (Some (VBytes md) = Some (VBytes md')) as [= ->].
  { transitivity (get (signed alg md nonce (w_key w) (hmac (meta_key sha256 p nonce) (encoding (six alg md nonce (w_key w))))) (str "data")); [done|]. by rewrite Em. }
  rewrite Emd, Hn, upd_inv in Hth by (destruct Hcipher; auto).
  pose proof (h_freeze _ _ _ _ _ _ _ _ _ Hh w Hw) as Hf. unfold freeze_ok in Hf. rewrite Hf in Hth. injection Hth as <-.
  by apply pop_size_id.
Qed.

Lemma sorted_signed alg md nonce key sig : sorted (signed alg md nonce key sig).
Proof. unfold sorted, signed, six. cbn [app]. repeat (constructor; [|by repeat constructor]). constructor. Qed.
Theorem altered_detected p hist w m d d' r : history_ok p hist -> w ∈ hist -> stored (Some p) w = Some (m, d) ->
  no_collision sha256 p hist (w_nonce w) -> d' <> d -> readinto (Some p) (w_key w) m d' = Ok r -> forged p hist m d'.
Proof.
  intros Hh Hw Hst Hc Hne Hr. destruct r as [meta out].
  destruct (stored_some _ _ _ _ Hst) as (alg & md & _ & _ & Em & _).
  assert (get m (str "nonce") = Some (VBytes (w_nonce w))) as Hn by (by rewrite Em).
  destruct (h_stored _ _ _ _ _ _ _ _ _ Hh w Hw) as ([m2 d2] & Hst2 & Hok). rewrite Hst in Hst2. injection Hst2 as <- <-.
  destruct (read_authentic p hist (w_key w) m d' meta out) as [?|(w2 & Hw2 & _ & Hst2 & _)]; try done.
  - intros nonce Hg. rewrite Hn in Hg. by injection Hg as <-.
  - by eapply h_names.
  - rewrite Em. apply sorted_signed.
  - exfalso. apply Hne. assert (w_nonce w2 = w_nonce w) as Hnn.
    { destruct (stored_some _ _ _ _ Hst2) as (alg2 & md2 & _ & _ & Em2 & _).
      assert (get (unsigned m ++ [(str "signature", default VNone (get m (str "signature")))]) (str "nonce") = Some (VBytes (w_nonce w2))) as E by (by rewrite Em2).
      rewrite Em, unsigned_signed in E. cbn in E. by injection E as ->. }
    apply (h_nonce _ _ _ _ _ _ _ _ _ Hh) in Hnn; [|done..]. subst w2. rewrite Hst in Hst2. by injection Hst2.
Qed.
Lemma mixed_rejected p key m r : lookup p key m = Ok r -> (p = None <-> get m (str "encryption") = Some (VStr (str "None"))).
Proof.
  unfold ComprencModel.lookup, verify_meta. intros H. destruct (decide _); [done|]. destruct (get m (str "encryption")) as [e|]; [|done].
  destruct (get m (str "compression")); [|done]. destruct (get m (str "data")); [|done]. destruct p, (decide _) as [Hd|Hd]; try done.
  - split; [done|]. congruence.
  - apply dec_stable in Hd as ->. done.
Qed.
Lemma mixed_rejected_read p key m d r : readinto p key m d = Ok r -> (p = None <-> get m (str "encryption") = Some (VStr (str "None"))).
Proof.
  intros H. assert (exists r', lookup p key m = Ok r') as [r' Hl]; [|by eapply mixed_rejected].
  unfold readinto_fh, ComprencModel.lookup in *. destruct (verify_meta _ _ _ _ _ _ _) as [[? ?]| | |]; try done. by eexists.
Qed.
End storage.
