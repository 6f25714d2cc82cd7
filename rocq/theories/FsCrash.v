(** Requests do not raise unexpected exceptions. *)
From stdpp Require Import prelude gmap strings sorting.
From Coq Require Import ZArith String.
From Verif Require Import FsModel FsSpec FsLemmas FsInv FsOps FsSteps FsHist FsLock.
Local Close Scope string_scope.
Local Open Scope Z_scope.

Section crash.
Context (max_obj_size : Z) (Hmax : 0 < max_obj_size) (exact : bool).
Local Notation consistent := (consistent max_obj_size exact).
Local Notation allowed := (allowed max_obj_size exact).

Lemma setattr_no_crash i rq bad o now s s' r : is_Some (inodes s !! i) -> bad <> Some false -> setattr max_obj_size i rq bad o now s = (s', r) -> r <> Crash.
Proof.
  intros [a Ha] Hb. unfold setattr. rewrite Ha. destruct (_ || _); [by intros [= <- <-]|]. cbv zeta.
  destruct (match r_atime rq with None => _ | Some _ => _ end); [|by intros [= <- <-]]. destruct (match r_mtime rq with None => _ | Some _ => _ end); [|by intros [= <- <-]].
  destruct (r_size rq); [|by intros [= <- <-]]. destruct (decide _); [by intros [= <- <-]|]. by destruct bad as [[]|]; intros [= <- <-].
Qed.
Lemma open_no_crash i w t now s s' r : is_Some (inodes s !! i) -> open_ max_obj_size i w t now s = (s', r) -> r <> Crash.
Proof.
  intros Hi. unfold open_. destruct (_ && _); [by intros [= <- <-]|]. destruct (inodes s !! i) as [a|] eqn:Ha; [|by destruct Hi]. destruct (_ && _); [by intros [= <- <-]|].
  destruct t; [|by intros [= <- <-]]. destruct (negb w); [by intros [= <- <-]|]. destruct (S_ISREG _); [|destruct (_ || _); by intros [= <- <-]].
  destruct (setattr _ _ _ _ _ _ _) as [s1 r1] eqn:E. apply setattr_no_crash in E; [|by rewrite Ha|done]. destruct r1; by intros [= <- <-].
Qed.
Lemma add_name_fresh p n s s1 s2 k : consistent s -> entry s p n = None -> names s1 = names s -> contents s1 = contents s -> add_name n s1 = (s2, k) -> contents s2 !! (p, k) = None.
Proof.
  intros Hc He En Ec Ha.
  assert (contents s2 = contents s) as Ec2. { unfold add_name in Ha. destruct (names s1 !! n) as [[k0 rc0]|]; by injection Ha as <- <-. }
  assert (core max_obj_size exact s) as Hcore by (apply consistent_core in Hc; tauto).
  rewrite Ec2. destruct (add_name n s) as [s3 k3] eqn:Ha3.
  assert (k3 = k) as -> by (unfold add_name in Ha, Ha3; rewrite En in Ha; destruct (names s !! n) as [[? ?]|]; congruence).
  apply (no_entry max_obj_size exact s p n k (default 0 (snd <$> names s3 !! n)) s3 Hcore He Ha3).
  unfold add_name in Ha3. destruct (names s !! n) as [[k0 rc0]|]; injection Ha3 as <- <-; cbn; by rewrite lookup_insert.
Qed.
Lemma create__no_crash p n m c rd sz now s s' x : consistent s -> is_Some (inodes s !! p) -> entry s p n = None -> create_ p n m c rd sz now s = (s', x) -> x <> inl Crash.
Proof.
  intros Hc [ap Hp] He Hr. unfold create_ in Hr. case_decide; [by injection Hr as <- <-|]. rewrite Hp in Hr. destruct (locked ap); [by injection Hr as <- <-|]. case_decide; [by injection Hr as <- <-|]. cbv zeta in Hr.
  set (s1 := set_seq _ _) in Hr. destruct (add_name n s1) as [s2 k] eqn:Ha. destruct (contents s2 !! (p, k)) eqn:Hk; [|by injection Hr as <- <-].
  by rewrite (add_name_fresh p n s s1 s2 k Hc He) in Hk.
Qed.
Lemma forget_no_crash l s s' r : consistent s -> forget_ok max_obj_size l s -> forget max_obj_size l s = (s', r) -> r <> Crash.
Proof.
  revert s. induction l as [|[i n] l IH]; intros s Hc Hf Hr; cbn in Hr; [by injection Hr as <- <-|]. destruct Hf as (Hn & (c & Hop & Hle) & Hf).
  destruct (forget1 max_obj_size i n s) as [s1 r1] eqn:E. destruct (forget1_ok max_obj_size Hmax exact i n c s s1 r1 Hc Hop (conj Hn Hle) E) as (-> & Hc1 & _). by eapply IH.
Qed.
Lemma reply_no_crash l s s' r : (forall k n i, (k, n, i) ∈ l -> is_Some (inodes s !! i)) -> reply l s = (s', r) -> r <> Crash.
Proof.
  revert s s' r. induction l as [|[[k n] i] l IH]; intros s s' r Hl Hr; cbn in Hr; [by injection Hr as <- <-|]. destruct (Hl k n i) as [a Ha]; [by left|]. rewrite Ha in Hr.
  destruct (reply l _) as [s1 r1] eqn:E. apply (IH (incr_open i s)) in E; [|intros k' n' i' Hi; by apply (Hl k' n'); right]. destruct r1; by injection Hr as <- <-.
Qed.
Lemma exec_no_crash s c s' r : consistent s -> allowed s c -> wellformed s c -> exec max_obj_size c s = (s', r) -> r <> Crash.
Proof.
  intros Hc Ha Hw Hr. destruct c; cbn in Hr, Ha, Hw.
  - unfold lookup in Hr. destruct (lookup_ p n s) as [s1 x] eqn:Hl. pose proof (lookup__ok _ _ _ _ _ _ _ Hc Hl) as Hx. destruct x as [e|i].
    + destruct e as [| | | | | |[]|]; try done. by injection Hr as <- <-.
    + destruct Hx as (-> & [a Hi] & _). cbn in Hr. rewrite Hi in Hr. by injection Hr as <- <-.
  - destruct Hw as [a Hi]. unfold getattr in Hr. rewrite Hi in Hr. by injection Hr as <- <-.
  - destruct Hw as [a Hi]. unfold readlink in Hr. rewrite Hi in Hr. injection Hr as <- <-. by destruct (symlinks s !! i).
  - destruct Hw as [a Hi]. unfold readdir in Hr. rewrite Hi in Hr. eapply reply_no_crash; [|exact Hr]. intros k0 n j Hj.
    apply elem_of_take in Hj as (z & Hz & _). apply elem_of_list_lookup_2 in Hz. unfold rows in Hz. rewrite merge_sort_Permutation in Hz. apply elem_of_list_omap in Hz as ([m [k1 rc]] & _ & Hz).
    destruct (contents s !! (i, k1)) as [j0|] eqn:Hk; [|done]. destruct (decide (_ < _)); [|done]. injection Hz as <- <- <-. destruct (c_entries _ _ _ Hc _ _ _ Hk) as (_ & _ & _ & _ & Hj0). by apply upd_inode_is_Some.
  - unfold getxattr in Hr. injection Hr as <- <-. destruct (is_acl n); [done|]. by destruct (xattr s i n).
  - by injection Hr as <- <-.
  - destruct Hw as [a Hi]. unfold setxattr in Hr. rewrite Hi in Hr. destruct (is_acl n); [by injection Hr as <- <-|]. destruct (failsafe s); [by injection Hr as <- <-|]. destruct (locked a); [by injection Hr as <- <-|].
    destruct (add_name n s). by injection Hr as <- <-.
  - destruct Hw as [a Hi]. unfold removexattr in Hr. rewrite Hi in Hr. destruct (failsafe s); [by injection Hr as <- <-|]. destruct (locked a); [by injection Hr as <- <-|].
    destruct (del_name n s) as [[s1 k]|]; [|by injection Hr as <- <-]. by destruct (xattrs s1 !! (i, k)); injection Hr as <- <-.
  - by destruct (unlink_ok max_obj_size Hmax exact _ _ _ _ _ _ Hc Ha Hr) as [_ ?].
  - destruct Hw as [ap Hp]. unfold rmdir in Hr. destruct (failsafe s); [by injection Hr as <- <-|]. destruct (lookup_ p n s) as [s1 x] eqn:Hl. pose proof (lookup__ok _ _ _ _ _ _ _ Hc Hl) as Hx. destruct x as [e|i].
    { destruct e as [| | | | | |[]|]; try done. by injection Hr as <- <-. }
    destruct Hx as (-> & Hi & [[? ?]|[_ He]]); [done|]. cbn [inodes incr_open set_opens] in Hr. rewrite Hp in Hr. destruct (locked ap); [by injection Hr as <- <-|]. destruct (negb _); [by injection Hr as <- <-|].
    destruct (remove_forget max_obj_size Hmax exact _ _ _ _ _ _ _ Hc Hi He Hr) as [([e ->] & _)|(-> & _)]; done.
  - destruct Hw as [Hp He]. unfold mknod in Hr. destruct (failsafe s); [by injection Hr as <- <-|]. destruct (create_ _ _ _ _ _ _ _ _) as [s1 x] eqn:E. pose proof (create__no_crash _ _ _ _ _ _ _ _ _ _ Hc Hp He E) as Hx.
    destruct x as [e|i]; [injection Hr as <- <-; congruence|]. destruct (create__good max_obj_size exact _ _ _ _ _ _ _ _ _ _ Hc Ha E) as (_ & [a Hi] & _). rewrite Hi in Hr. by injection Hr as <- <-.
  - destruct Hw as [Hp He]. unfold symlink in Hr. destruct (failsafe s); [by injection Hr as <- <-|]. destruct (create_ _ _ _ _ _ _ _ _) as [s1 x] eqn:E. pose proof (create__no_crash _ _ _ _ _ _ _ _ _ _ Hc Hp He E) as Hx.
    destruct x as [e|i]; [injection Hr as <- <-; congruence|]. destruct (create__good max_obj_size exact _ _ _ _ _ _ _ _ _ _ Hc Ha E) as (_ & [a Hi] & _). rewrite Hi in Hr. by injection Hr as <- <-.
  - destruct Ha as (Hpn & Hd & _). destruct Hw as [[ao Hao] [an Han]]. unfold rename in Hr. destruct fl; [by injection Hr as <- <-|]. case_decide as Hn; [by injection Hr as <- <-|]. destruct (failsafe s); [by injection Hr as <- <-|].
    rewrite Hao, Han in Hr. destruct (_ || _); [by injection Hr as <- <-|]. destruct (lookup_ po no s) as [s1 x] eqn:Hl. pose proof (lookup__ok _ _ _ _ _ _ _ Hc Hl) as Hx. destruct x as [e|io].
    { destruct e as [| | | | | |[]|]; try done. by injection Hr as <- <-. }
    destruct Hx as (-> & Hio & [[? ?]|[_ He]]); [by destruct Hn; auto|]. assert (consistent (incr_open io s)) as Hc1 by by apply consistent_incr.
    assert (forall j, 0 <= lookups s j) as Hnn. { intros j. unfold lookups. destruct (opens s !! j) as [c|] eqn:E; cbn; [|lia]. apply (c_opens _ _ _ Hc) in E. lia. }
    assert (forall j, lookups (incr_open io s) j = lookups s j + if decide (io = j) then 1 else 0) as Hi1.
    { intros j. unfold lookups. cbn. destruct (decide (io = j)) as [<-|Hne]; [rewrite lookup_insert|rewrite lookup_insert_ne by done]; cbn; lia. }
    destruct (lookup_ pn nn _) as [s2 x] eqn:Hl2. pose proof (lookup__ok _ _ _ _ _ _ _ Hc1 Hl2) as Hx. destruct x as [e|iw].
    + destruct e as [| | | | | |[]|]; try done. destruct Hx as (-> & _ & Hew). destruct (rename_ _ _ _ _ _ _) as [s3 r3] eqn:Hrn.
      destruct (rename__ok max_obj_size exact po no pn nn now _ s3 r3 io Hc1 He Hew Hpn) as (-> & Hc3 & Ho3 & _); [by exists an|done|].
      eapply forget_no_crash; [exact Hc3| |exact Hr]. apply (forget_covered max_obj_size Hmax exact); [done|by repeat constructor|]. intros j. unfold lookups at 1. rewrite Ho3. fold (lookups (incr_open io s) j). rewrite Hi1.
      specialize (Hnn j). cbn. lia.
    + destruct Hx as (-> & Hiw & [[? ?]|[_ Hew]]); [by destruct Hn; auto|]. assert (consistent (incr_open iw (incr_open io s))) as Hc2 by by apply consistent_incr.
      destruct (replace _ _ _ _ _ _ _ _ _) as [s3 r3] eqn:Hrp.
      destruct (replace_ok max_obj_size Hmax exact po no pn nn io iw now _ s3 r3 Hc2 He Hew Hrp) as [(e & -> & ->)|(-> & Hc3 & Ho3 & _)]; [by injection Hr as <- <-|].
      eapply forget_no_crash; [exact Hc3| |exact Hr]. apply (forget_covered max_obj_size Hmax exact); [done|by repeat constructor|]. intros j. unfold lookups at 1. rewrite Ho3.
      fold (lookups (incr_open iw (incr_open io s)) j).
      assert (lookups (incr_open iw (incr_open io s)) j = lookups (incr_open io s) j + if decide (iw = j) then 1 else 0) as ->.
      { unfold lookups. cbn. destruct (decide (iw = j)) as [<-|Hne]; [rewrite (lookup_insert (<[io:=_]> _))|rewrite (lookup_insert_ne (<[io:=_]> _)) by done]; cbn; lia. }
      rewrite Hi1. specialize (Hnn j). cbn. lia.
  - destruct Hw as ([a Hi] & [ap Hp] & He). unfold link in Hr. case_decide; [by injection Hr as <- <-|]. rewrite Hp in Hr. case_decide; [by injection Hr as <- <-|]. destruct (_ || _); [by injection Hr as <- <-|]. cbv zeta in Hr.
    destruct (add_name n _) as [s1 k] eqn:Hadd. rewrite (add_name_fresh p n s (upd_inode p (set_mctime now) s) s1 k Hc He eq_refl eq_refl Hadd) in Hr.
    assert (inodes s1 = alter (set_mctime now) p (inodes s)) as Ei. { unfold add_name in Hadd. cbn in Hadd. destruct (names s !! n) as [[? ?]|]; by injection Hadd as <- <-. }
    cbn [inodes set_contents] in Hr. assert (is_Some (inodes s1 !! i)) as [a1 Ha1] by (rewrite Ei; apply lookup_alter_is_Some; by eexists). rewrite Ha1 in Hr.
    cbn [inodes incr_open set_opens upd_inode set_inodes set_contents] in Hr. rewrite lookup_alter, Ha1 in Hr. by injection Hr as <- <-.
  - destruct Hw as [Hi Hb]. by eapply setattr_no_crash.
  - by eapply open_no_crash.
  - unfold create in Hr. destruct (failsafe s); [by injection Hr as <- <-|]. destruct (entry s p n) as [j|] eqn:He.
    + destruct (entry_inv _ _ _ _ He) as (k & rc & _ & Hk). destruct (c_entries _ _ _ Hc _ _ _ Hk) as (_ & _ & _ & _ & Hj).
      destruct (open_ _ _ _ _ _ _) as [s1 r1] eqn:E. pose proof (open_no_crash _ _ _ _ _ _ _ Hj E) as Hn1. destruct r1; try (by injection Hr as <- <-).
      destruct (open_good max_obj_size Hmax exact _ _ _ _ _ _ _ Hc E Hn1) as (_ & Hi & _). apply Hi in Hj as [a1 Ha1]. rewrite Ha1 in Hr. by injection Hr as <- <-.
    + destruct (create_ _ _ _ _ _ _ _ _) as [s1 x] eqn:E. pose proof (create__no_crash _ _ _ _ _ _ _ _ _ _ Hc Hw He E) as Hx.
      destruct x as [e|i]; [injection Hr as <- <-; congruence|]. destruct (create__good max_obj_size exact _ _ _ _ _ _ _ _ _ _ Hc Ha E) as (_ & [a Hi] & _). rewrite Hi in Hr. by injection Hr as <- <-.
  - destruct Hw as [a Hi]. unfold read in Hr. rewrite Hi in Hr. by destruct bad; injection Hr as <- <-.
  - destruct Hw as [a Hi]. unfold write in Hr. rewrite Hi in Hr. destruct (failsafe s); [by injection Hr as <- <-|]. destruct (locked a); [by injection Hr as <- <-|]. cbv zeta in Hr. by destruct bad; injection Hr as <- <-.
  - by eapply forget_no_crash.
  - destruct Hw as [a Hi]. unfold lock in Hr. rewrite Hi in Hr. by injection Hr as <- <-.
  - destruct Ha as [_ He]. destruct (remove_ok max_obj_size Hmax exact p n i true now _ _ _ Hc He Hr) as [(e & -> & ->)|(-> & _)]; done.
Qed.
End crash.
