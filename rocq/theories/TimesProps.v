(** C70: time stamps tell what was changed. *)
From stdpp Require Import prelude gmap.
From Coq Require Import NArith ZArith Lia.
From Verif Require Import TimesModel TimesSpec TimesProofs.
Local Open Scope N_scope.

(** ** Single requests *)
(** A successful request sets the time stamps of everything that it changes. *)
Theorem marked B t bad o s s' i b a : step B t bad o s = (Ok, s') -> (i, b) ∈ marks o s -> inodes s' !! i = Some a -> ctime a = t /\ (b = true -> mtime a = t).
Proof. intros E Hm Ha. destruct (marked_step _ _ _ _ _ _ _ _ _ E Hm) as [[? _]|H]; [eauto|intros Hx; by destruct o|done|by apply H]. Qed.
Lemma fresh_marked B t bad o s r s' i a : wf s -> step B t bad o s = (r, s') -> inodes s' !! i = Some a -> inodes s !! i = None -> ctime a = t /\ mtime a = t.
Proof. intros Hw E Ha Hn. destruct (dom_step _ _ _ _ _ _ _ E) as [[H _]|[_ H]]; [destruct (H i) as [x Hx]; [eauto|congruence]|]. destruct (H i a Ha) as [[x Hx]|(_ & ?)]; [congruence|done]. Qed.
Lemma wf_step B t bad o s r s' : wf s -> step B t bad o s = (r, s') -> wf s' /\ next s <= next s'.
Proof.
  intros Hw E. destruct (dom_step _ _ _ _ _ _ _ E) as [[H Hn]|[Hn H]]; (split; [|lia]).
  - intros i Hi. rewrite Hn. apply Hw, H, Hi.
  - intros i [a Ha]. rewrite Hn. destruct (H i a Ha) as [Q|[-> _]]; [apply Hw in Q; lia|lia].
Qed.
(** Whatever happens to an inode, the time of its last change of status says so; inodes that are not concerned keep everything. *)
Theorem unconcerned B t bad o s r s' i : wf s -> step B t bad o s = (r, s') -> is_Some (inodes s !! i) -> is_Some (inodes s' !! i) -> (forall b, (i, b) ∉ marks o s) -> same i s s'.
Proof.
  intros Hw E Hi Hi' Hm. assert (i <> next s) as Hn by (apply Hw in Hi; lia). destruct (decide (reads o = Some i)) as [Hr|Hr]; [|by eapply keep_same, keep_step]. destruct o; try done; injection Hr as ->; cbn [step] in E.
  - unfold readlink in E. destruct (inodes s !! i); [|by injection E as <- <-]. destruct (targets _ !! i); injection E as <- <-; apply same_accessed.
  - unfold readdir in E. destruct (inodes s !! i); injection E as <- <-; [apply same_accessed|done].
  - unfold read in E. destruct (inodes s !! i); [|by injection E as <- <-]. destruct (blocks_bad _ _ _ _ _); injection E as <- <-; [done|apply same_accessed].
Qed.
Lemma marks_dec o s i : (exists b, (i, b) ∈ marks o s) \/ (forall b, (i, b) ∉ marks o s).
Proof. destruct (decide ((i, true) ∈ marks o s)); [by left; exists true|]. destruct (decide ((i, false) ∈ marks o s)); [by left; exists false|]. right. by intros []. Qed.
Theorem status_change B t bad o s r s' i a : wf s -> step B t bad o s = (r, s') -> ~ exempt o r -> inodes s' !! i = Some a -> (is_Some (inodes s !! i) /\ same i s s') \/ ctime a = t.
Proof.
  intros Hw E Hx Ha. destruct (inodes s !! i) as [a0|] eqn:E0; [|right; by eapply fresh_marked]. destruct (marks_dec o s i) as [[b Hm]|Hm].
  - destruct (marked_step _ _ _ _ _ _ _ _ _ E Hm) as [[_ K]|H]; [eauto|done| |right; by apply H]. left. split; [done|]. by apply keep_same.
  - left. split; [done|]. eapply unconcerned; [done|done|eauto|eauto|done].
Qed.
(** The same for contents and the time of the last modification, except for explicit changes of the attributes. *)
Theorem content_change B t bad o s r s' i a : wf s -> step B t bad o s = (r, s') -> ~ exempt o r -> inodes s' !! i = Some a -> (forall f, o = Setattr i f -> f_size f = None /\ f_mtime f = None) ->
  (exists a0, inodes s !! i = Some a0 /\ mtime a = mtime a0 /\ same_contents i s s') \/ mtime a = t.
Proof.
  intros Hw E Hx Ha Hf. destruct (inodes s !! i) as [a0|] eqn:E0; [|right; by eapply fresh_marked]. assert (i <> next s) as Hn by (assert (i < next s) by (apply Hw; eauto); lia).
  assert (keepc i s s' -> exists a1, Some a0 = Some a1 /\ mtime a = mtime a1 /\ same_contents i s s') as Hk.
  { intros K. exists a0. split; [done|]. split; [|by apply keepc_contents_same]. destruct K as (K & _). rewrite E0, Ha in K. cbn in K. by injection K. }
  destruct (decide ((i, true) ∈ marks o s)) as [Hm|Hm].
  - destruct (marked_step _ _ _ _ _ _ _ _ _ E Hm) as [[_ K]|H]; [eauto|done|left; by apply Hk, keep_keepc|right; by apply H].
  - left. apply Hk. eapply content_step; eauto.
Qed.
(** setattr: attributes that are not given stay as they are, times that are given are set *)
Theorem setattr_exact B t bad i f s s' a a' : step B t bad (Setattr i f) s = (Ok, s') -> inodes s !! i = Some a -> inodes s' !! i = Some a' ->
  a' = Attrs (default (mode a) (f_mode f)) (default (uid a) (f_uid f)) (default (gid a) (f_gid f)) (rdev a) (refs a) (default (size a) (f_size f)) (default (atime a) (f_atime f)) (default (mtime a) (f_mtime f)) t (locked a).
Proof.
  cbn [step]. unfold setattr. intros E Ha Ha'. rewrite Ha in E. destruct (failsafe s || locked a); [done|]. destruct (match f_atime f with Some z => too_big z | None => false end); [done|]. destruct (match f_mtime f with Some z => too_big z | None => false end); [done|].
  assert (inodes s' !! i = match f_size f with Some len => with_size len <$> (with_ctime t <$> (inodes (opt with_mtime (f_mtime f) i (opt with_atime (f_atime f) i (opt with_gid (f_gid f) i (opt with_uid (f_uid f) i (opt with_mode (f_mode f) i s))))) !! i))
    | None => with_ctime t <$> (inodes (opt with_mtime (f_mtime f) i (opt with_atime (f_atime f) i (opt with_gid (f_gid f) i (opt with_uid (f_uid f) i (opt with_mode (f_mode f) i s))))) !! i) end) as H.
  { destruct (f_size f) as [len|]; [|injection E as <-; cbn; by rewrite lookup_alter]. destruct (len mod B =? 0); [injection E as <-; cbn; by rewrite !lookup_alter|]. destruct (bad _); [done|]. injection E as <-. cbn. by rewrite !lookup_alter. }
  rewrite Ha' in H. assert (forall (A : Type) (g : A -> attrs -> attrs) x s0, inodes (opt g x i s0) !! i = (match x with Some y => g y | None => id end) <$> inodes s0 !! i) as Ho.
  { intros A g [x|] s0; cbn; [by rewrite lookup_alter|]. by destruct (inodes s0 !! i). }
  rewrite !Ho, Ha in H. destruct (f_size f), (f_mtime f), (f_atime f), (f_gid f), (f_uid f), (f_mode f); cbn in H; injection H as ->; destruct a; reflexivity.
Qed.
(** All times of 64 bits are accepted, and no others. *)
Definition storable (o : option Z) : Prop := forall z, o = Some z -> (- 2 ^ 63 < z < 2 ^ 63)%Z.
Theorem setattr_times B t bad i f s a : inodes s !! i = Some a -> failsafe s = false -> locked a = false ->
  ((step B t bad (Setattr i f) s).1 = Err EINVAL <-> ~ (storable (f_atime f) /\ storable (f_mtime f))) /\
  (storable (f_atime f) -> storable (f_mtime f) -> (forall b, bad b = false) -> (step B t bad (Setattr i f) s).1 = Ok).
Proof.
  intros Ha Hf Hl. assert (forall o, storable o <-> match o with Some z => too_big z | None => false end = false) as ST.
  { intros [z|]; unfold storable, too_big; [|split; [done|by intros _ z]]. rewrite Z.leb_gt. split; [intros Q; specialize (Q z eq_refl); lia|]. intros Q z' [= <-]. lia. }
  cbn [step]. unfold setattr. rewrite Ha, Hf, Hl. cbn [orb]. rewrite !ST. destruct (match f_atime f with Some z => too_big z | None => false end); [by split; [split; [intros _ [? _]|]|]|].
  destruct (match f_mtime f with Some z => too_big z | None => false end); [by split; [split; [intros _ [_ ?]|]|]|]. split.
  - split; [|by intros []]. intros E _. destruct (f_size f) as [len|]; [|done]. destruct (len mod B =? 0); [done|]. by destruct (bad (len / B)).
  - intros _ _ Hb. destruct (f_size f) as [len|]; [|done]. destruct (len mod B =? 0); [done|]. by rewrite Hb.
Qed.
(** The time of last access is set by reading, and only if it is older than one of the others; nothing else changes it but setattr. *)
Definition stale (a : attrs) : bool := ((atime a <? ctime a) || (atime a <? mtime a))%Z.
Lemma atime_upd i j f s a a' : (forall a, atime (f a) = atime a) -> inodes s !! i = Some a -> inodes (upd j f s) !! i = Some a' -> atime a' = atime a.
Proof. intros Hf Ha. cbn. destruct (decide (j = i)) as [-> |]; [rewrite lookup_alter, Ha; intros [= <-]; apply Hf|rewrite lookup_alter_ne by done; congruence]. Qed.
Theorem access_read B t bad o s s' i a a' : step B t bad o s = (Ok, s') -> reads o = Some i -> inodes s !! i = Some a -> inodes s' !! i = Some a' -> a' = if stale a then with_atime t a else a.
Proof.
  intros E Hr Ha Ha'. assert (s' = accessed t i s) as ->.
  { destruct o; try done; injection Hr as ->; cbn [step] in E.
    - unfold readlink in E. rewrite Ha in E. destruct (targets _ !! i); [by injection E|done].
    - unfold readdir in E. rewrite Ha in E. by injection E.
    - unfold read in E. rewrite Ha in E. destruct (blocks_bad _ _ _ _ _); [done|by injection E]. }
  cbn in Ha'. rewrite lookup_alter, Ha in Ha'. by injection Ha' as <-.
Qed.
Corollary access_seen B t bad o s s' i a a' : step B t bad o s = (Ok, s') -> reads o = Some i -> inodes s !! i = Some a -> inodes s' !! i = Some a' -> (ctime a <= t)%Z -> (mtime a <= t)%Z -> stale a' = false.
Proof.
  intros E Hr Ha Ha' Hc Hm. pose proof (access_read _ _ _ _ _ _ _ _ _ E Hr Ha Ha') as ->. destruct (stale a) eqn:Es; [|done]. unfold stale. cbn. apply orb_false_iff. split; apply Z.ltb_ge; lia.
Qed.

(** ** Histories *)
(** If the last change of status of an inode is not later than a point in time, then nothing of it was changed after that: not its attributes, entries, bytes, extended attributes or target. *)
Theorem status_history B l s i a t0 : wf s -> during B (fun e r => ~ exempt e.2 r /\ (t0 < e.1.1)%Z) l s -> inodes (run B l s) !! i = Some a -> (ctime a <= t0)%Z -> is_Some (inodes s !! i) /\ same i s (run B l s).
Proof.
  revert s. induction l as [|[[t bad] o] l IH]; intros s Hw Hd Ha Hc; cbn [run during fst snd] in *; [split; [eauto|by apply keep_same, keep_refl]|]. destruct Hd as [[Hx Ht] Hd]. destruct (step B t bad o s) as [r s1] eqn:E. cbn [fst snd] in *.
  destruct (wf_step _ _ _ _ _ _ _ Hw E) as [Hw1 _]. destruct (IH s1 Hw1 Hd Ha Hc) as [[a1 H1] S1]. destruct (status_change _ _ _ _ _ _ _ _ _ Hw E Hx H1) as [[H0 S0]|Q].
  - split; [done|]. destruct S0 as (A & C & D & X & T), S1 as (A' & C' & D' & X' & T'). repeat split; intros; etrans; eauto.
  - exfalso. destruct S1 as (A & _). rewrite H1, Ha in A. cbn in A. unfold seen in A. injection A. intros. lia.
Qed.
(** The same for the last modification, if size and time of the file are not set explicitly. *)
Theorem content_history B l s i a t0 : wf s ->
  during B (fun e r => ~ exempt e.2 r /\ (t0 < e.1.1)%Z /\ forall f, e.2 = Setattr i f -> f_size f = None /\ f_mtime f = None) l s ->
  inodes (run B l s) !! i = Some a -> (mtime a <= t0)%Z -> is_Some (inodes s !! i) /\ same_contents i s (run B l s).
Proof.
  intros Hw Hd Ha Hc. cut (exists a0, inodes s !! i = Some a0 /\ mtime a = mtime a0 /\ same_contents i s (run B l s)); [intros (a0 & ? & _ & ?); eauto|].
  revert s Hw Hd Ha. induction l as [|[[t bad] o] l IH]; intros s Hw Hd Ha; cbn [run during fst snd] in *; [by exists a|]. destruct Hd as [(Hx & Ht & Hf) Hd]. destruct (step B t bad o s) as [r s1] eqn:E. cbn [fst snd] in *.
  destruct (wf_step _ _ _ _ _ _ _ Hw E) as [Hw1 _]. destruct (IH s1 Hw1 Hd Ha) as (a1 & H1 & M1 & S1). destruct (content_change _ _ _ _ _ _ _ _ _ Hw E Hx H1 Hf) as [(a0 & H0 & M0 & S0)|Q]; [|lia].
  exists a0. split; [done|]. split; [congruence|]. destruct S0 as (A & C & D & T), S1 as (A' & C' & D' & T'). repeat split; intros; etrans; eauto.
Qed.
(** Other requests do not change the time of last access. *)
Theorem access_only B t bad o s r s' i a a' : wf s -> step B t bad o s = (r, s') -> inodes s !! i = Some a -> inodes s' !! i = Some a' -> reads o <> Some i -> (forall f, o = Setattr i f -> f_atime f = None) -> atime a' = atime a.
Proof.
  intros Hw E Ha Ha' Hr Hf. assert (i <> next s) as Hn by (assert (i < next s) by (apply Hw; eauto); lia). destruct (access_step _ _ _ _ _ _ _ _ E Hn Hr Hf a' Ha') as (b & Hb & ->). congruence.
Qed.
(** Requests that fail change nothing, except for those that cannot retrieve or store something. *)
Definition aborted (o : op) (e : errno) : Prop := match o, e with Write _ _ _, EIO => True | Setattr _ _, (EINVAL | EIO) => True | _, _ => False end.
Lemma same_refl i s : same i s s. Proof. apply keep_same, keep_refl. Qed.
Lemma same_opened i f s : same i s (set_opened f s). Proof. done. Qed.
Lemma open_failed B t bad j wr trunc s e s' : open B t bad j wr trunc s = (Err e, s') -> s' = s.
Proof.
  unfold open. intros E. destruct (inodes s !! j) as [a|] eqn:Ej; [|by injection E]. destruct (wr && _); [by injection E|]. destruct trunc; [|by injection E]. destruct (negb wr); [by injection E|].
  destruct (is_reg a); [|destruct (_ || _); by injection E]. unfold setattr in E. rewrite Ej in E. cbn [f_mode f_uid f_gid f_atime f_mtime f_size opt] in E. destruct (failsafe s || locked a); [by injection E|]. destruct (too_big t); [by injection E|].
  replace (0 mod B =? 0) with true in E by (symmetry; destruct B; reflexivity). done.
Qed.
Lemma create_failed t p n m u g dev sz s e j s' : create_inode t p n m u g dev sz s = (Err e, j, s') -> s' = s.
Proof.
  unfold create_inode. intros E. destruct (n =? CTRL); [by injection E|]. destruct (inodes s !! p) as [a|]; [|by injection E]. destruct (locked a); [by injection E|]. destruct (refs a =? 0); [by injection E|]. destruct (contents s !! (p, n)); [by injection E|]. by destruct (if negb _ then _ else _).
Qed.
Lemma remove_failed t p n j s e s' : remove t p n j s = (Err e, s') -> s' = s.
Proof. unfold remove. intros E. destruct (children j s); [by injection E|]. destruct (inodes s !! p) as [a|]; [|by injection E]. destruct (locked a); by injection E. Qed.
Theorem failed_same B t bad o s e s' i : step B t bad o s = (Err e, s') -> ~ aborted o e -> same i s s'.
Proof.
  intros E Hx. destruct o as [p n|j|j n|j|j|j|j off len|p n|p n|p n m u g dev|p n u g tg|p n p' n' fl|j p n|j n v|j n|j f|j wr tr|p n m u g wr tr|j off buf]; cbn [step] in *.
  - destruct (look p n s) as [[j a]|]; [done|by injection E as <- <-].
  - injection E as _ <-. done.
  - done.
  - done.
  - unfold readlink in E. destruct (inodes s !! j); [|by injection E as <- <-]. destruct (targets _ !! j); [done|]. injection E as <- <-. apply same_accessed.
  - unfold readdir in E. destruct (inodes s !! j); [done|by injection E as <- <-].
  - unfold read in E. destruct (inodes s !! j); [|by injection E as <- <-]. destruct (blocks_bad _ _ _ _ _); [|done]. by injection E as <- <-.
  - unfold unlink in E. destruct (failsafe s); [by injection E as <- <-|]. destruct (look p n s) as [[j a]|]; [|by injection E as <- <-]. destruct (is_dir a); [by injection E as <- <-|]. destruct (remove t p n j (open_plus j s)) as [[|e0] s0] eqn:Er; [done|]. injection E as <- <-. apply remove_failed in Er as ->. done.
  - unfold rmdir in E. destruct (failsafe s); [by injection E as <- <-|]. destruct (look p n s) as [[j a]|]; [|by injection E as <- <-]. destruct (inodes (open_plus j s) !! p) as [b|]; [|by injection E as <- <-]. destruct (locked b); [by injection E as <- <-|]. destruct (negb (is_dir a)); [by injection E as <- <-|].
    destruct (remove t p n j (open_plus j s)) as [[|e0] s0] eqn:Er; [done|]. injection E as <- <-. apply remove_failed in Er as ->. done.
  - unfold mknod in E. destruct (failsafe s); [by injection E as <- <-|]. destruct (create_inode t p n m u g dev 0 s) as [[[|e0] j] s0] eqn:Er; [done|]. injection E as <- <-. by apply create_failed in Er as ->.
  - unfold symlink in E. destruct (failsafe s); [by injection E as <- <-|]. destruct (create_inode t p n _ u g 0 _ s) as [[[|e0] j] s0] eqn:Er; [done|]. injection E as <- <-. by apply create_failed in Er as ->.
  - unfold rename in E. destruct fl; [by injection E as <- <-|]. destruct (_ || _); [by injection E as <- <-|]. destruct (inodes s !! p) as [a|]; [|by injection E as <- <-]. destruct (inodes s !! p') as [a'|]; [|by injection E as <- <-]. destruct (failsafe s || locked a || locked a'); [by injection E as <- <-|].
    destruct (look p n s) as [[k b]|]; [|by injection E as <- <-]. destruct (look p' n' (open_plus k s)) as [[j c]|]; [|done]. destruct (children j _); [|done]. by injection E as <- <-.
  - unfold link in E. destruct (n =? CTRL); [by injection E as <- <-|]. destruct (inodes s !! p) as [a|]; [|by injection E as <- <-]. destruct (inodes s !! j) as [a'|]; [|by injection E as <- <-]. destruct (refs a =? 0); [by injection E as <- <-|]. destruct (failsafe s || locked a); [by injection E as <- <-|]. destruct (contents s !! (p, n)); [|done]. by injection E as <- <-.
  - unfold setxattr in E. destruct (inodes s !! j) as [a|]; [|by injection E as <- <-]. destruct (failsafe s || locked a); [by injection E as <- <-|done].
  - unfold removexattr in E. destruct (inodes s !! j) as [a|]; [|by injection E as <- <-]. destruct (failsafe s || locked a); [by injection E as <- <-|]. destruct (xattrs s !! (j, n)); [done|by injection E as <- <-].
  - unfold setattr in E. destruct (inodes s !! j) as [a|]; [|by injection E as <- <-]. destruct (failsafe s || locked a); [by injection E as <- <-|]. destruct (match f_atime f with Some z => too_big z | None => false end); [injection E as <- <-; by destruct Hx|].
    destruct (match f_mtime f with Some z => too_big z | None => false end); [injection E as <- <-; by destruct Hx|]. destruct (f_size f) as [len|]; [|done]. destruct (len mod B =? 0); [done|]. destruct (bad _); [|done]. injection E as <- <-. by destruct Hx.
  - by apply open_failed in E as ->.
  - unfold create in E. destruct (failsafe s); [by injection E as <- <-|]. destruct (contents s !! (p, n)) as [j|].
    + destruct (open B t bad j wr tr s) as [[|e0] s0] eqn:Eo; [done|]. injection E as <- <-. by apply open_failed in Eo as ->.
    + destruct (create_inode t p n m u g 0 0 s) as [[[|e0] j] s0] eqn:Er; [done|]. injection E as <- <-. by apply create_failed in Er as ->.
  - unfold write in E. destruct (inodes s !! j) as [a|]; [|by injection E as <- <-]. destruct (failsafe s || locked a); [by injection E as <- <-|]. destruct (write_blocks _ _ _ _ _ _ _) as [[] s0]; [done|]. injection E as <- <-. by destruct Hx.
Qed.

(** Targets of links stay, and extended attributes are changed by the requests for them only; a new link has the target that was given. *)
Theorem target_fixed B t bad o s r s' i : wf s -> step B t bad o s = (r, s') -> is_Some (inodes s !! i) -> is_Some (inodes s' !! i) -> (forall n v, o <> Setxattr i n v) -> (forall n, o <> Removexattr i n) -> targets s' !! i = targets s !! i /\ forall n, xattrs s' !! (i, n) = xattrs s !! (i, n).
Proof. intros Hw E Hi Hi' H1 H2. assert (i <> next s) as Hn by (apply Hw in Hi; lia). by destruct (target_step _ _ _ _ _ _ _ _ E Hn H1 H2 Hi'). Qed.
Theorem symlink_made B t bad p n u g tg s s' : step B t bad (Symlink p n u g tg) s = (Ok, s') -> contents s' !! (p, n) = Some (next s) /\ targets s' !! (next s) = Some tg /\ exists a, inodes s' !! (next s) = Some a /\ size a = N.of_nat (length tg) /\ refs a = 1 /\ atime a = t /\ mtime a = t /\ ctime a = t.
Proof.
  cbn [step]. unfold symlink. intros E. destruct (failsafe s); [done|]. unfold create_inode in E. destruct (n =? CTRL); [done|]. destruct (inodes s !! p) as [a|]; [|done]. destruct (locked a); [done|]. destruct (refs a =? 0); [done|]. destruct (contents s !! (p, n)); [done|]. destruct (if negb _ then _ else _) as [g' m']. injection E as <-. cbn. rewrite !lookup_insert. split; [done|]. split; [done|]. by eexists.
Qed.
Theorem xattr_set B t bad i n v s s' : step B t bad (Setxattr i n v) s = (Ok, s') -> xattrs s' = <[(i, n) := v]> (xattrs s).
Proof. cbn [step]. unfold setxattr. destruct (inodes s !! i) as [a|]; [|done]. destruct (failsafe s || locked a); [done|]. by intros [= <-]. Qed.
Theorem xattr_removed B t bad i n s s' : step B t bad (Removexattr i n) s = (Ok, s') -> xattrs s' = delete (i, n) (xattrs s).
Proof. cbn [step]. unfold removexattr. destruct (inodes s !! i) as [a|]; [|done]. destruct (failsafe s || locked a); [done|]. destruct (xattrs s !! (i, n)); [|done]. by intros [= <-]. Qed.

(** ** Where this does not hold *)
Definition ok : N -> bool := fun _ => false.
Definition dir_ := Attrs 0x41ed 0 0 0 1 0 10 10 10 false.
Definition file_ (sz : N) := Attrs 0x81a4 0 0 0 1 sz 10 10 10 false.
(* directory 1 with a file of six bytes, in blocks of four *)
Definition s0 : state := State {[1 := dir_; 2 := file_ 6]} {[(1, 7) := 2]} (put_bytes 2 0 [65; 66; 67; 68; 69; 70] ∅) ∅ ∅ ∅ false 3.
Lemma s0_wf : wf s0.
Proof. intros i [a H]. change (inodes s0) with ({[1 := dir_; 2 := file_ 6]} : gmap N attrs) in H. apply lookup_insert_Some in H as [[<- _]|[_ H]]; [by vm_compute|]. apply lookup_singleton_Some in H as [<- _]. by vm_compute. Qed.
(** truncate(2) and ftruncate(2) change the size, but not the time of the last modification. *)
Theorem truncate_refuted : ~ (forall B t bad i f s s' a a', wf s -> step B t bad (Setattr i f) s = (Ok, s') -> f_mtime f = None -> inodes s !! i = Some a -> inodes s' !! i = Some a' -> size a' = size a \/ mtime a' = t).
Proof.
  intros H. destruct (H 4 99%Z ok 2 (Fields None None None None None (Some 3)) s0 (step 4 99 ok (Setattr 2 (Fields None None None None None (Some 3))) s0).2 (file_ 6) (with_ctime 99 (file_ 3)) s0_wf) as [Q|Q]; [| | | |by vm_compute in Q|by vm_compute in Q]; vm_compute; reflexivity.
Qed.
(** If a block cannot be retrieved then the blocks before it are written, and both times stay. *)
Theorem failed_write_refuted : ~ (forall B t bad i off buf s r s' a, wf s -> step B t bad (Write i off buf) s = (r, s') -> inodes s' !! i = Some a -> same_contents i s s' \/ ctime a = t).
Proof.
  intros H. set (bad := fun b => b =? 1). destruct (H 4 99%Z bad 2 2 [97; 98; 99; 100] s0 (Err EIO) (step 4 99 bad (Write 2 2 [97; 98; 99; 100]) s0).2 (file_ 6) s0_wf) as [Q|Q]; [| |destruct Q as (_ & _ & D & _); specialize (D 2); by vm_compute in D|by vm_compute in Q]; vm_compute; reflexivity.
Qed.
(** A time that cannot be stored: setattr fails, after the attributes before it were changed. *)
Theorem bad_time_refuted : ~ (forall B t bad i f s r s' a, wf s -> step B t bad (Setattr i f) s = (r, s') -> inodes s' !! i = Some a -> same i s s' \/ ctime a = t).
Proof.
  intros H. set (f := Fields (Some 0x81ff) None None None (Some (2 ^ 63)%Z) None). destruct (H 4 99%Z ok 2 f s0 (Err EINVAL) (step 4 99 ok (Setattr 2 f) s0).2 (with_mode 0x81ff (file_ 6)) s0_wf) as [Q|Q]; [| |destruct Q as (A & _); by vm_compute in A|by vm_compute in Q]; vm_compute; reflexivity.
Qed.

(** ** Examples *)
(* a file is created, written, linked, read, and renamed over the first; another directory stays as it was *)
Definition s1 : state := State {[1 := dir_; 2 := file_ 6; 3 := dir_]} {[(1, 7) := 2; (1, 8) := 3]} (put_bytes 2 0 [65; 66; 67; 68; 69; 70] ∅) ∅ ∅ ∅ false 4.
Definition history : list event :=
  [(20%Z, ok, Create 1 9 0x81a4 5 5 true false); (21%Z, ok, Write 4 0 [1; 2; 3; 4; 5]); (22%Z, ok, Link 4 1 10); (23%Z, ok, Setxattr 4 1 [3]); (24%Z, ok, Read 4 0 3); (25%Z, ok, Readdir 3); (26%Z, ok, Rename 1 9 1 7 false); (27%Z, ok, Rmdir 1 7)].
Lemma s1_wf : wf s1.
Proof. intros i [a H]. change (inodes s1) with ({[1 := dir_; 2 := file_ 6; 3 := dir_]} : gmap N attrs) in H. apply lookup_insert_Some in H as [[<- _]|[_ H]]; [by vm_compute|]. apply lookup_insert_Some in H as [[<- _]|[_ H]]; [by vm_compute|]. apply lookup_singleton_Some in H as [<- _]. by vm_compute. Qed.
Lemma history_during t0 : (t0 < 20)%Z -> during 4 (fun e r => ~ exempt e.2 r /\ (t0 < e.1.1)%Z) history s1.
Proof. intros Ht. unfold history. cbn [during fst snd]. repeat split; try (cbn [fst snd]; lia); vm_compute; tauto. Qed.
Example history_example : is_Some (inodes s1 !! 3) /\ same 3 s1 (run 4 history s1).
Proof. apply (status_history 4 history s1 3 (Attrs 0x41ed 0 0 0 1 0 10 10 10 false) 15); [apply s1_wf|by apply history_during|by vm_compute|by vm_compute]. Qed.
Example history_times : (fun a => (atime a, mtime a, ctime a)) <$> (inodes (run 4 history s1) !! 4) = Some (24, 21, 23)%Z.
Proof. vm_compute. reflexivity. Qed.
Example history_dir : (fun a => (atime a, mtime a, ctime a)) <$> (inodes (run 4 history s1) !! 1) = Some (10, 26, 26)%Z.
Proof. vm_compute. reflexivity. Qed.
Example history_content : is_Some (inodes s1 !! 3) /\ same_contents 3 s1 (run 4 history s1).
Proof.
  apply (content_history 4 history s1 3 (Attrs 0x41ed 0 0 0 1 0 10 10 10 false) 15); [apply s1_wf| |by vm_compute|by vm_compute]. unfold history. cbn [during fst snd]. repeat split; try (cbn [fst snd]; lia); try done; try (vm_compute; tauto).
Qed.
(* requests of one kind each, in the middle of this history *)
Definition mid := run 4 (take 4 history) s1.
Example marked_example : (step 4 30 ok (Rename 1 9 3 7 false) mid).1 = Ok /\ (3, true) ∈ marks (Rename 1 9 3 7 false) mid /\ is_Some (inodes (step 4 30 ok (Rename 1 9 3 7 false) mid).2 !! 3).
Proof. split; [by vm_compute|]. split; [cbn; right; left|]. eexists. by vm_compute. Qed.
Example access_example : (step 4 30 ok (Read 4 0 3) mid).1 = Ok /\ reads (Read 4 0 3) = Some 4 /\ (stale <$> (inodes mid !! 4)) = Some true /\ (stale <$> (inodes (step 4 30 ok (Read 4 0 3) mid).2 !! 4)) = Some false.
Proof. repeat split; by vm_compute. Qed.
Example symlink_example : (step 4 30 ok (Symlink 1 12 0 0 [5; 6]) mid).1 = Ok /\ is_Some (inodes mid !! 1) /\ is_Some (inodes (step 4 30 ok (Symlink 1 12 0 0 [5; 6]) mid).2 !! 1). Proof. split; [by vm_compute|]. split; eexists; by vm_compute. Qed.
Example failed_example : (step 4 30 ok (Rmdir 1 9) mid).1 = Err ENOTDIR /\ ~ aborted (Rmdir 1 9) ENOTDIR. Proof. split; [by vm_compute|tauto]. Qed.
Example setattr_example : (step 4 30 ok (Setattr 4 (Fields None (Some 7) None None None (Some 3))) mid).1 = Ok /\ (fun a => (uid a, size a, mtime a, ctime a)) <$> (inodes (step 4 30 ok (Setattr 4 (Fields None (Some 7) None None None (Some 3))) mid).2 !! 4) = Some (7, 3, 21%Z, 30%Z).
Proof. split; by vm_compute. Qed.

Print Assumptions marked.
Print Assumptions status_change.
Print Assumptions content_change.
Print Assumptions status_history.
Print Assumptions content_history.
Print Assumptions setattr_exact.
Print Assumptions setattr_times.
Print Assumptions access_read.
Print Assumptions access_seen.
Print Assumptions access_only.
Print Assumptions failed_same.
Print Assumptions target_fixed.
Print Assumptions symlink_made.
Print Assumptions xattr_set.
Print Assumptions xattr_removed.
Print Assumptions truncate_refuted.
Print Assumptions failed_write_refuted.
Print Assumptions bad_time_refuted.
