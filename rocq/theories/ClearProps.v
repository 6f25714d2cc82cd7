(** C76: s3qladm clear deletes what it should, and says so if it did not *)
From stdpp Require Import prelude gmap.
From Verif Require Import ClearModel.

Section clear.
Context {token : Type} (base : key) (serve : nat -> gset key -> option token -> option (list key * option token)) (delete : nat -> list key -> gset key -> list key * gset key * bool) (removed created : nat -> gset key).
(** Names that the backend never lists (temporary objects); which objects are still to be listed *)
Context (hidden : key -> Prop) (ahead : option token -> key -> Prop).
Definition mine (k : key) : Prop := base `prefix_of` k /\ ~ hidden k.
(** Listings and deletions as they should be (C42 and the other properties of Paging, Local, Delete) *)
Definition serve_right : Prop := (forall k, ahead None k) /\ forall n objs tok names next, serve n objs tok = Some (names, next) ->
  (forall k, k ∈ names -> k ∈ objs /\ mine k) /\ forall k, k ∈ objs -> mine k -> ahead tok k -> k ∈ names \/ exists t, next = Some t /\ ahead (Some t) k.
Definition delete_right : Prop := forall n keys objs lft objs' ok, delete n keys objs = (lft, objs', ok) ->
  objs' ⊆ objs /\ (forall k, k ∈ objs -> k ∉ keys -> k ∈ objs') /\ (ok = true -> lft = [] -> forall k, k ∈ keys -> k ∉ objs').
Context (Hs : serve_right) (Hd : delete_right).

Definition new (k : key) : Prop := exists n, k ∈ created n.
Definition kept (k : key) : Prop := forall n, k ∉ removed n.
(** What the steps do to the objects *)
Definition only (o o' : gset key) : Prop := (forall k, k ∈ o' -> k ∈ o \/ new k) /\ (forall k, k ∈ o -> ~ mine k -> kept k -> k ∈ o').
Lemma only_refl o : only o o. Proof. split; auto. Qed.
Lemma only_trans o1 o2 o3 : only o1 o2 -> only o2 o3 -> only o1 o3.
Proof. intros [A1 B1] [A2 B2]. split; [intros k [H|H]%A2; auto | auto]. Qed.
Lemma only_others n o : only o (others removed created n o).
Proof. unfold others. split; [intros k; rewrite elem_of_union, elem_of_difference; intros [[]|]; [by left | right; by exists n] | intros k Hk _ Hr; rewrite elem_of_union, elem_of_difference; left; split; [done | apply Hr]]. Qed.
Lemma flush_right n batch o : Forall (fun k => mine (base ++ k)) batch -> match flush base delete removed created n batch o with
  | inl o' => only o o' | inr o' => only o o' /\ forall k, k ∈ batch -> base ++ k ∉ o' end.
Proof.
  intros F. unfold flush. destruct (delete n _ _) as [[lft o'] ok] eqn:E. destruct (Hd _ _ _ _ _ _ E) as (D1 & D2 & D3).
  assert (O : only o o'). { eapply only_trans; [apply (only_others n)|]. split; [intros k Hk; left; set_solver|]. intros k Hk Hm _. apply D2; [done|]. intros (k' & -> & Hk')%elem_of_list_fmap. rewrite Forall_forall in F. by apply Hm, F. }
  destruct ok; [|done]. destruct lft; [|done]. split; [done|]. intros k Hk. apply D3; [done | done|]. apply elem_of_list_fmap. eauto.
Qed.
Lemma strip_name k : base `prefix_of` k -> base ++ drop (length base) k = k.
Proof. intros [z ->]. by rewrite drop_app. Qed.
Lemma take_in_right size names n batch o : Forall (fun k => mine (base ++ k)) batch -> Forall mine names -> match (take_in base delete removed created size n names batch o).2 with
  | inl o' => only o o'
  | inr (o', batch') => only o o' /\ Forall (fun k => mine (base ++ k)) batch' /\ forall k, k ∈ o' -> k ∈ ((fun k => base ++ k) <$> batch) ++ names -> (exists k', k' ∈ batch' /\ k = base ++ k') \/ new k
  end.
Proof.
  revert n batch o. induction names as [|k names IH]; intros n batch o F Fn.
  - cbn. split; [apply only_refl|]. split; [done|]. intros k Hk. rewrite app_nil_r. intros (k' & -> & Hk')%elem_of_list_fmap. left. eauto.
  - apply Forall_cons in Fn as [Hk Fn]. cbn. assert (F' : Forall (fun k => mine (base ++ k)) (batch ++ [drop (length base) k])). { apply Forall_app. split; [done|]. constructor; [|constructor]. rewrite strip_name; [done | apply Hk]. }
    destruct (decide (size <= length (batch ++ [drop (length base) k]))) as [L|L].
    + pose proof (flush_right n _ o F') as Fl. destruct (flush _ _ _ _ _ _ _) as [o1|o1]; [done|]. destruct Fl as [O1 D1]. specialize (IH (S n) [] o1 (Forall_nil_2 _) Fn).
      destruct (take_in base delete removed created size (S n) names [] o1) as [n' [o2|[o2 b2]]]; cbn in *; [by eapply only_trans|]. destruct IH as (O2 & F2 & C2). split; [by eapply only_trans|]. split; [done|].
      intros q Hq [Hb|[->|Hn]%elem_of_cons]%elem_of_app.
      * right. apply elem_of_list_fmap in Hb as (q' & -> & Hb). apply O2 in Hq as [Hq|Hq]; [|done]. exfalso. apply (D1 q'); [|done]. apply elem_of_app. by left.
      * right. apply O2 in Hq as [Hq|Hq]; [|done]. exfalso. apply (D1 (drop (length base) k)); [apply elem_of_app; right; apply elem_of_list_here|]. rewrite strip_name; [done | apply Hk].
      * by apply C2.
    + specialize (IH n _ o F' Fn). destruct (take_in _ _ _ _ size n names _ o) as [n' [o2|[o2 b2]]]; cbn in *; [done|]. destruct IH as (O2 & F2 & C2). split; [done|]. split; [done|].
      intros q Hq Hin. apply C2; [done|]. rewrite fmap_app. cbn. rewrite strip_name by apply Hk. rewrite <- app_assoc. done.
Qed.
Lemma loop_right fuel size n tok batch o r o' : Forall (fun k => mine (base ++ k)) batch -> loop base serve delete removed created fuel size n tok batch o = Some (r, o') ->
  only o o' /\ r <> Refused /\ (r = Done -> (forall k, k ∈ o -> mine k -> (exists k', k' ∈ batch /\ k = base ++ k') \/ new k \/ ahead tok k) -> forall k, k ∈ o' -> mine k -> new k).
Proof.
  revert n tok batch o. induction fuel as [|fuel IH]; intros n tok batch o F E; [done|]. cbn in E. set (o0 := others removed created n o) in *.
  assert (O0 : only o o0) by apply only_others.
  destruct (serve n o0 tok) as [[names next]|] eqn:Es; [|injection E as <- <-; done]. destruct Hs as [_ Hs']. destruct (Hs' _ _ _ _ _ Es) as [N1 N2].
  assert (Fn : Forall mine names) by (apply Forall_forall; intros k Hk; by apply N1).
  pose proof (take_in_right size names (S n) batch o0 F Fn) as T. destruct (take_in _ _ _ _ size (S n) names batch o0) as [n' [o1|[o1 b1]]]; cbn in T.
  { injection E as <- <-. split; [by eapply only_trans | done]. }
  destruct T as (O1 & F1 & C1). assert (O01 : only o o1) by (by eapply only_trans).
  (* what is left is in the batch, new, or still to be listed *)
  assert (K : (forall k, k ∈ o -> mine k -> (exists k', k' ∈ batch /\ k = base ++ k') \/ new k \/ ahead tok k) -> forall k, k ∈ o1 -> mine k -> (exists k', k' ∈ b1 /\ k = base ++ k') \/ new k \/ exists t, next = Some t /\ ahead (Some t) k).
  { intros A k Hk Hm. destruct (proj1 O1 k Hk) as [Hk0|]; [|by auto]. destruct (proj1 O0 k Hk0) as [Hko|]; [|by auto]. destruct (A k Hko Hm) as [(k' & Hk' & ->)|[|Ha]]; [|by auto|].
    - destruct (C1 (base ++ k') Hk) as [|]; [apply elem_of_app; left; apply elem_of_list_fmap; eauto | by auto | by auto].
    - destruct (N2 k Hk0 Hm Ha) as [Hn|]; [|by auto]. destruct (C1 k Hk) as [|]; [apply elem_of_app; by right | by auto | by auto]. }
  destruct next as [t|].
  - apply IH in E as (O2 & R2 & D2); [|done]. split; [by eapply only_trans|]. split; [done|]. intros -> A. apply D2; [done|]. intros k Hk Hm. destruct (K A k Hk Hm) as [|[|(t' & [= <-] & Ha)]]; auto.
  - destruct b1 as [|b b1].
    + injection E as <- <-. split; [done|]. split; [done|]. intros _ A k Hk Hm. destruct (K A k Hk Hm) as [(k' & []%elem_of_nil & _)|[|(t' & [=] & _)]]; done.
    + pose proof (flush_right n' _ o1 F1) as Fl. destruct (flush _ _ _ _ _ _ _) as [o2|o2]; injection E as <- <-; [split; [by eapply only_trans | done]|]. destruct Fl as [O2 D2]. split; [by eapply only_trans|]. split; [done|].
      intros _ A k Hk Hm. destruct (proj1 O2 k Hk) as [Hk1|]; [|done]. destruct (K A k Hk1 Hm) as [(k' & Hk' & ->)|[|(t' & [=] & _)]]; [|done]. by destruct (D2 k' Hk').
Qed.
(** If it ends without an error, all objects of the file system are gone, except for those that others have created meanwhile *)
Theorem clear_done fuel size l o o' l' k : clear base serve delete removed created true fuel size l o = Some (Done, o', l') -> k ∈ o' -> mine k -> new k.
Proof.
  unfold clear. cbn [negb]. destruct (loop _ _ _ _ _ _ _ _ _ _ _) as [[r o1]|] eqn:E; [|done]. intros [= -> -> _]. apply loop_right in E as (_ & _ & D); [|constructor]. apply D; [done|]. intros q _ _. right. right. apply Hs.
Qed.
(** In any case nothing else is deleted, and nothing is created *)
Theorem clear_only yes fuel size l o r o' l' k : clear base serve delete removed created yes fuel size l o = Some (r, o', l') -> (k ∈ o' -> k ∈ o \/ new k) /\ (k ∈ o -> ~ mine k -> kept k -> k ∈ o').
Proof.
  unfold clear. destruct yes; cbn [negb]; [|intros [= _ -> _]; auto]. destruct (loop _ _ _ _ _ _ _ _ _ _ _) as [[r1 o1]|] eqn:E; [|done]. intros [= -> -> _]. apply loop_right in E as ([H1 H2] & _); [|constructor]. auto.
Qed.
(** Without "yes" nothing happens; otherwise the local files are removed, also if it fails later *)
Theorem clear_local yes fuel size l o r o' l' : clear base serve delete removed created yes fuel size l o = Some (r, o', l') -> if yes then r <> Refused /\ l' = Local false false false else r = Refused /\ o' = o /\ l' = l.
Proof.
  unfold clear. destruct yes; cbn [negb]; [|intros [= -> -> ->]; done]. destruct (loop _ _ _ _ _ _ _ _ _ _ _) as [[r1 o1]|] eqn:E; [|done]. intros [= -> -> <-]. apply loop_right in E as (_ & R & _); [done | constructor].
Qed.
End clear.

(** * A server, to see that the hypotheses can be met: four pages, with the names of length 0, 1, 2, and the longer ones; some are hidden *)
Section server.
Context (hid : key -> bool) (fails : nat -> bool).
Definition class (k : key) : nat := length k `min` 3.
Definition lists (base : key) (n : nat) (objs : gset key) (tok : option nat) : option (list key * option nat) :=
  let t := from_option id 0 tok in
  Some (List.filter (fun k => bool_decide (class k = t) && bool_decide (base `prefix_of` k) && negb (hid k)) (elements objs), if decide (t < 3) then Some (S t) else None).
Definition deletes (n : nat) (keys : list key) (objs : gset key) : list key * gset key * bool := if fails n then (keys, objs, false) else ([], objs ∖ list_to_set keys, true).
Definition still (tok : option nat) (k : key) : Prop := from_option id 0 tok <= class k.
Lemma deletes_right : delete_right deletes.
Proof. clear hid. intros n keys o lft o' ok. unfold deletes. destruct (fails n); intros [= <- <- <-]; [by split_and! | set_solver]. Qed.
Lemma lists_right (base : key) : serve_right base (lists base) (fun k => hid k = true) still.
Proof.
  split; [intros k; unfold still; cbn; lia|]. intros n objs tok names next [= <- <-]. split.
  - intros k Hk%elem_of_list_In%List.filter_In. destruct Hk as [H0%elem_of_list_In [[_ H2%bool_decide_eq_true]%andb_true_iff H3%negb_true_iff]%andb_true_iff]. split; [by apply elem_of_elements|]. split; [done|]. congruence.
  - intros k Hk [Hb Hh] Hst. unfold still in Hst. destruct (decide (class k = from_option id 0 tok)) as [E|E].
    + left. apply elem_of_list_In, List.filter_In. split; [by apply elem_of_list_In, elem_of_elements|]. rewrite !andb_true_iff, !bool_decide_eq_true, negb_true_iff. split; [done|]. by destruct (hid k).
    + right. assert (class k <= 3) by (unfold class; lia). rewrite decide_True by lia. eexists. split; [done|]. unfold still. cbn. lia.
Qed.
End server.
Definition temporary (k : key) : bool := bool_decide (k = [7; 9]).
Definition nobody : nat -> gset key := fun _ => ∅.
Definition everything : gset key := list_to_set [[7; 1]; [7; 2]; [7; 3; 5]; [7; 9]; [8]].
(** Everything below the prefix but the hidden one is deleted, in batches of two *)
Example clear_example : clear [7] (lists temporary [7]) (deletes (fun _ => false)) nobody nobody true 5 2 (Local true true true) everything = Some (Done, list_to_set [[7; 9]; [8]], Local false false false).
Proof. apply (bool_decide_unpack _). vm_compute. exact I. Qed.
(** That all objects are gone: temporary ones are not, which local.py (names with #) and swift.py (names that end with TEMP_SUFFIX) do not list *)
Theorem clear_hidden_refuted : ~ forall base (serve : nat -> gset key -> option nat -> option (list key * option nat)) delete hidden ahead fuel size l o o' l' k, serve_right base serve hidden ahead -> delete_right delete ->
  clear base serve delete nobody nobody true fuel size l o = Some (Done, o', l') -> base `prefix_of` k -> k ∉ o'.
Proof.
  intros H. specialize (H [7] (fun _ _ _ => Some ([], None)) (deletes (fun _ => false)) (fun _ => True) (fun _ _ => True) 1 1 (Local true true true) {[ [7; 9] ]} {[ [7; 9] ]} (Local false false false) [7; 9]).
  apply H; [split; [done|]; intros n o tok names next [= <- <-]; split; [by intros k ?%elem_of_nil | intros k _ [_ Hh]; exfalso; apply Hh; exact I] | apply deletes_right | apply (bool_decide_unpack _); vm_compute; exact I | by exists [9] | set_solver].
Qed.
(** That if it fails the file system cannot be used any more: the objects are deleted in the order of the listing, data before parameters ([[7; 3; 5]]) *)
Theorem clear_failed_refuted : ~ forall base (serve : nat -> gset key -> option nat -> option (list key * option nat)) delete fuel size l (o o' : gset key) l' params, params ∈ o ->
  clear base serve delete nobody nobody true fuel size l o = Some (Failed, o', l') -> o' = o \/ params ∉ o'.
Proof.
  intros H. specialize (H [7] (lists temporary [7]) (deletes (fun n => bool_decide (4 <= n))) 5 2 (Local true true true) everything ({[ [7; 3; 5]; [7; 9]; [8] ]} : gset key) (Local false false false) [7; 3; 5]).
  assert (E : everything = ({[ [7; 3; 5]; [7; 9]; [8] ]} : gset key) -> False). { intros E. assert (X : [7; 1] ∈ everything) by (apply (bool_decide_unpack _); vm_compute; exact I). rewrite E in X. revert X. apply (bool_decide_unpack _). vm_compute. exact I. }
  destruct H as [X|X]; [apply (bool_decide_unpack _); vm_compute; exact I | apply (bool_decide_unpack _); vm_compute; exact I | by apply E | apply X, (bool_decide_unpack _); vm_compute; exact I].
Qed.
Print Assumptions clear_done.
