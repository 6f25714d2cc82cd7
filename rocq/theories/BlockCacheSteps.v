(** The steps of BlockCacheModel without the identity of tasks: a step takes a frame away from the bag of
    all frames (of tasks and upload tasks) and puts other frames in. *)
From stdpp Require Import prelude list gmap.
From Coq Require Import ZArith.
From Verif Require Import BlockCacheModel BlockCacheLemmas.

(** ** Sums over lists of frames *)
Section lsum.
Context {A : Type}.
Fixpoint lsum (f : A -> Z) (l : list A) : Z := match l with [] => 0%Z | x :: l => (f x + lsum f l)%Z end.
Lemma lsum_app f l1 l2 : lsum f (l1 ++ l2) = (lsum f l1 + lsum f l2)%Z.
Proof. induction l1; simpl; lia. Qed.
Lemma lsum_perm f l1 l2 : Permutation l1 l2 -> lsum f l1 = lsum f l2.
Proof. induction 1; simpl; lia. Qed.
Lemma lsum_ext f g l : (forall x, x ∈ l -> f x = g x) -> lsum f l = lsum g l.
Proof.
  induction l as [|x l IH]; intros Hf; simpl; [done|]. rewrite (Hf x) by (by left).
  rewrite IH; [done|]. intros y Hy. apply Hf. by right.
Qed.
Lemma lsum_nonneg f l : (forall x, 0 <= f x)%Z -> (0 <= lsum f l)%Z.
Proof. intros Hf. induction l as [|x l IH]; simpl; [lia|]. specialize (Hf x). lia. Qed.
Lemma lsum_elem f l x : (forall x, 0 <= f x)%Z -> x ∈ l -> (f x <= lsum f l)%Z.
Proof.
  intros Hf. induction 1 as [x l|x y l Hin IH]; simpl.
  - pose proof (lsum_nonneg f l Hf). lia.
  - specialize (Hf y). lia.
Qed.
Lemma lsum_pos f l : (0 < lsum f l)%Z -> exists x, x ∈ l /\ (0 < f x)%Z.
Proof.
  induction l as [|x l IH]; simpl; [lia|]. intros Hs. destruct (decide (0 < f x)%Z) as [Hx|Hx].
  - exists x. split; [by left|done].
  - destruct IH as (y & Hy & Hp); [lia|]. exists y. split; [by right|done].
Qed.
Lemma lsum_zero f l : (forall x, x ∈ l -> f x = 0%Z) -> lsum f l = 0%Z.
Proof. intros Hf. rewrite (lsum_ext f (fun _ => 0%Z)) by done. induction l; simpl; [done|]. rewrite IHl; [done|]. intros y Hy. apply Hf. by right. Qed.
End lsum.

Definition allf (m : gmap nat (list frame)) : list frame := concat ((map_to_list m).*2).
Definition jframe (j : job) : frame := match j with JUp e o => FSend e o | JRel k => FRelease k end.
Definition alljobs (m : gmap nat job) : list frame := jframe <$> (map_to_list m).*2.

Lemma allf_new m t fs : m !! t = None -> Permutation (allf (<[t := fs]> m)) (fs ++ allf m).
Proof. intros Ht. unfold allf. rewrite map_to_list_insert by done. done. Qed.
Lemma allf_take m t fs : m !! t = Some fs -> Permutation (allf m) (fs ++ allf (delete t m)).
Proof. intros Ht. rewrite <- (insert_delete m t fs Ht) at 1. apply allf_new, lookup_delete. Qed.
Lemma allf_put m t fs : Permutation (allf (<[t := fs]> m)) (fs ++ allf (delete t m)).
Proof. rewrite <- insert_delete_insert. apply allf_new, lookup_delete. Qed.
Lemma alljobs_new m t j : m !! t = None -> Permutation (alljobs (<[t := j]> m)) (jframe j :: alljobs m).
Proof. intros Ht. unfold alljobs. rewrite map_to_list_insert by done. done. Qed.
Lemma alljobs_take m t j : m !! t = Some j -> Permutation (alljobs m) (jframe j :: alljobs (delete t m)).
Proof. intros Ht. rewrite <- (insert_delete m t j Ht) at 1. apply alljobs_new, lookup_delete. Qed.
Lemma alljobs_put m t j : Permutation (alljobs (<[t := j]> m)) (jframe j :: alljobs (delete t m)).
Proof. rewrite <- insert_delete_insert. apply alljobs_new, lookup_delete. Qed.

Section steps.
Context {H : Type} `{EqDecision H} (sha : list nat -> H) (nworkers qcap : nat).
Notation shared := (shared H).
Notation state := (state H).
Implicit Types x : shared.

Definition frames (s : state) : list frame := allf (tasks s) ++ alljobs (jobs (sh s)).

Definition uploaded (e : nat * nat * nat) (o : nat) x : shared :=
  let x := set_store <[o := e_data (ent x e)]> x in
  let x := unmark e x in
  let x := set_objs (alter (with_phys (length (e_data (ent x e)))) o) x in
  let x := set_entry e (set_dirty false) x in
  set_inflight (fun i => i ∖ {[o]}) x.
Definition upload_failed (e : nat * nat * nat) (o : nat) (stored : bool) x : shared :=
  let x := if stored then set_store <[o := e_data (ent x e)]> x else x in
  let x := unmark e x in
  let x := set_objs (alter no_hash o) x in
  set_inflight (fun i => i ∖ {[o]}) x.
Definition deleted x : shared :=
  let lost := bool_decide (Exists (fun o => store x !! o = None) (removing x)) in
  let y := set_store (fun m => foldr delete m (removing x)) x in
  let y := if lost then set_failsafe (fun _ => true) y else y in
  set_removing (fun _ => []) y.

Definition is_send (f : frame) : bool := match f with FSend _ _ => true | _ => false end.

Inductive act : label -> shared -> list frame -> shared -> list frame -> Prop :=
| act_call t c x : act (LCall t c) x [] x (enter c)
| act_exec t f x x' fs : is_send f = false -> exec sha nworkers qcap t f x = Some (x', fs) -> act (LRun t) x [f] x' fs
| act_send t e o x : size (jobs x) < nworkers ->
    act (LRun t) x [FSend e o] (set_jobs (fun m => <[fresh (dom m) := JUp e o]> m) x) [FSend e o]
| act_leave t f x x' fs : leave f x = Some (x', fs) -> act (LLeave t) x [f] x' fs
| act_write t f c x x' : modify f c x = Some x' -> act (LWrite t c) x [f] x' [f]
| act_uploaded j e o x : jobs x !! j = Some (JUp e o) ->
    act (LUploaded j) x [FSend e o] (set_jobs <[j := JRel e.1]> (uploaded e o x)) [FRelease e.1]
| act_failed j st e o x : jobs x !! j = Some (JUp e o) ->
    act (LFailed j st) x [FSend e o] (set_jobs <[j := JRel e.1]> (upload_failed e o st x)) [FRelease e.1]
| act_jobrel j k x : jobs x !! j = Some (JRel k) ->
    act (LJobRelease j) x [FRelease k] (set_jobs (delete j) (unlock k x)) []
| act_batch x : removing x = [] -> rmq x <> [] ->
    act LBatch x [] (set_rmq (fun _ => []) (set_removing (fun _ => rmq x) x)) []
| act_deleted x : removing x <> [] -> act LDeleted x [] (deleted x) []
| act_skip t i b todo later x : act (LSkip t) x [FRem0 i (b :: todo) later] x [FRem0 i todo (later ++ [b])]
| act_copy k k' o x : blocks x !! k = Some o -> blocks x !! k' = None -> cget k' (cache x) = None -> k' ∉ locks x ->
    act (LCopy k k') x [] (set_blocks <[k' := o]> (set_objs (alter add_ref o) x)) [].

Lemma exec_jobs t f x x' fs : is_send f = false -> exec sha nworkers qcap t f x = Some (x', fs) -> jobs x' = jobs x.
Proof.
  intros Hf. destruct f; simpl in Hf |- *; try done; unfold cremove, new_entry, mark, unmark, set_entry, lock, unlock;
    intros He; repeat case_match; simplify_eq/=; done.
Qed.

(** The frame that is taken away is the top frame of the task. *)
Definition pre_ok (s : state) (l : label) (pre : list frame) : Prop :=
  match l with
  | LRun t | LWrite t _ | LLeave t | LSkip t => exists f rest, tasks s !! t = Some (f :: rest) /\ pre = [f]
  | LUploaded j | LFailed j _ => exists e o, jobs (sh s) !! j = Some (JUp e o) /\ pre = [FSend e o]
  | LJobRelease j => exists k, jobs (sh s) !! j = Some (JRel k) /\ pre = [FRelease k]
  | _ => pre = []
  end.
Lemma step_act s l s' : step sha nworkers qcap s l = Some s' ->
  exists pre post others, act l (sh s) pre (sh s') post /\ pre_ok s l pre /\
    Permutation (frames s) (pre ++ others) /\ Permutation (frames s') (post ++ others).
Proof.
  unfold frames. destruct s as [x T]. destruct l as [t c|t|t c|t|j|j st|j| | |t|k k']; simpl.
  - destruct (T !! t) as [[|f0 fs0]|] eqn:Ht; [|done|]; intros [= <-]; simpl;
      exists [], (enter c), (allf (delete t T) ++ alljobs (jobs x)); (split; [constructor|]); (split; [done|]); simpl;
      rewrite allf_put; rewrite app_assoc; (split; [|done]).
    + by rewrite (allf_take T t [] Ht).
    + by rewrite delete_notin.
  - destruct (T !! t) as [[|f rest]|] eqn:Ht; [done| |done].
    destruct (exec _ _ _ t f x) as [[x' fs]|] eqn:He; [|done]. intros [= <-]; simpl.
    destruct (is_send f) eqn:Hs.
    + destruct f; try done. simpl in He. case_decide as Hsz; [|done]. injection He as <- <-.
      exists [FSend e o], [FSend e o], (rest ++ allf (delete t T) ++ alljobs (jobs x)).
      split; [by constructor|]. split; [by eauto|]. rewrite allf_put, (allf_take T t _ Ht). simpl. split.
      * by rewrite <- app_assoc.
      * rewrite alljobs_new; [|apply not_elem_of_dom, is_fresh]. simpl.
        rewrite <- Permutation_middle. by rewrite <- app_assoc.
    + exists [f], fs, (rest ++ allf (delete t T) ++ alljobs (jobs x)).
      split; [by constructor|]. split; [by eauto|]. rewrite allf_put, (allf_take T t _ Ht). simpl. rewrite (exec_jobs _ _ _ _ _ Hs He).
      split; [by rewrite <- app_assoc|by rewrite <- !app_assoc].
  - destruct (T !! t) as [[|f rest]|] eqn:Ht; [done| |done].
    destruct (modify f c x) as [x'|] eqn:He; [|done]. intros [= <-]; simpl.
    exists [f], [f], (rest ++ allf (delete t T) ++ alljobs (jobs x)). split; [by constructor|]. split; [by eauto|].
    assert (jobs x' = jobs x) as ->. { destruct f; simpl in He; try done; [case_decide; [|done]|]; by simplify_eq. }
    rewrite (allf_take T t _ Ht). simpl. by rewrite <- !app_assoc.
  - destruct (T !! t) as [[|f rest]|] eqn:Ht; [done| |done].
    destruct (leave f x) as [[x' fs]|] eqn:He; [|done]. intros [= <-]; simpl.
    exists [f], fs, (rest ++ allf (delete t T) ++ alljobs (jobs x)). split; [by constructor|]. split; [by eauto|].
    assert (jobs x' = jobs x) as ->. { destruct f; simpl in He; try done; by simplify_eq. }
    rewrite allf_put, (allf_take T t _ Ht). simpl. by rewrite <- !app_assoc.
  - destruct (jobs x !! j) as [[e o|k]|] eqn:Hj; [|done|done]. intros [= <-]; simpl.
    exists [FSend e o], [FRelease e.1], (allf T ++ alljobs (delete j (jobs x))). split; [by apply act_uploaded|]. split; [by eauto|].
    rewrite alljobs_put, (alljobs_take _ _ _ Hj). simpl. rewrite <- !Permutation_middle. done.
  - destruct (jobs x !! j) as [[e o|k]|] eqn:Hj; [|done|done]. intros [= <-]; simpl.
    exists [FSend e o], [FRelease e.1], (allf T ++ alljobs (delete j (jobs x))). split; [by apply act_failed|]. split; [by eauto|].
    destruct st; simpl; rewrite alljobs_put, (alljobs_take _ _ _ Hj); simpl; (split; symmetry; apply Permutation_middle).
  - destruct (jobs x !! j) as [[e o|k]|] eqn:Hj; [done| |done]. intros [= <-]; simpl.
    exists [FRelease k], [], (allf T ++ alljobs (delete j (jobs x))). split; [by constructor|]. split; [by eauto|].
    rewrite (alljobs_take _ _ _ Hj). simpl. rewrite <- !Permutation_middle. done.
  - destruct (removing x) eqn:Hr; [|done]. destruct (rmq x) eqn:Hq; [done|]. intros [= <-]; simpl.
    exists [], [], (allf T ++ alljobs (jobs x)). split; [|done]. rewrite <- Hq. constructor; [done|]. by rewrite Hq.
  - destruct (removing x) eqn:Hr; [done|]. intros [= <-]; simpl.
    exists [], [], (allf T ++ alljobs (jobs x)). split.
    + assert (removing x <> []) as Hne by (by rewrite Hr). apply act_deleted in Hne.
      unfold deleted in Hne. rewrite Hr in Hne. done.
    + split; [done|]. split; [done|]. destruct (bool_decide _); done.
  - destruct (T !! t) as [[|[] rest]|] eqn:Ht; try done. destruct todo as [|b todo]; [done|]. intros [= <-]; simpl.
    exists [FRem0 i (b :: todo) later], [FRem0 i todo (later ++ [b])], (rest ++ allf (delete t T) ++ alljobs (jobs x)).
    split; [constructor|]. split; [by eauto|]. rewrite allf_put, (allf_take T t _ Ht). simpl. rewrite <- app_assoc. done.
  - destruct (blocks x !! k) as [o|] eqn:Hk; [|done]. destruct (blocks x !! k') as [o'|] eqn:Hk'; [done|].
    destruct (cget k' (cache x)) eqn:Hc; [done|]. case_decide as Hl; [done|]. intros [= <-]; simpl.
    exists [], [], (allf T ++ alljobs (jobs x)). split; [by constructor|]. split; done.
Qed.
End steps.
