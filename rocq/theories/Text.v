(** Operations of python on texts, as lists of any kind of characters: split, join, strip, replace. *)
From stdpp Require Import prelude.

Section text.
Context {A : Type} `{!EqDecision A}.
(** s.split(c) for a single character: one piece more than there are separators. *)
Fixpoint split (c : A) (l : list A) : list (list A) :=
  match l with
  | [] => [[]]
  | x :: l => if decide (x = c) then [] :: split c l
              else match split c l with [] => [[x]] | w :: ws => (x :: w) :: ws end
  end.
(** c.join(ws) *)
Fixpoint join (c : A) (ws : list (list A)) : list A :=
  match ws with
  | [] => []
  | [w] => w
  | w :: ws => w ++ c :: join c ws
  end.
(** s.lstrip(c), s.rstrip(c) *)
Fixpoint lstrip (c : A) (l : list A) : list A :=
  match l with [] => [] | x :: l' => if decide (x = c) then lstrip c l' else l end.
Definition rstrip (c : A) (l : list A) : list A := reverse (lstrip c (reverse l)).
(** s.replace(c, w) for a single character *)
Definition replace (c : A) (w : list A) (l : list A) : list A := l ≫= fun x => if decide (x = c) then w else [x].

Lemma split_not_nil c l : split c l <> [].
Proof. induction l as [|x l IH]; cbn; [done|]. case_decide; [done|]. by destruct (split c l). Qed.
Lemma split_word c w : c ∉ w -> split c w = [w].
Proof. induction w as [|x w IH]; cbn; [done|]. intros [? ?]%not_elem_of_cons. rewrite decide_False by congruence. by rewrite IH. Qed.
Lemma split_app_sep c w l : c ∉ w -> split c (w ++ c :: l) = w :: split c l.
Proof.
  induction w as [|x w IH]; cbn; [by rewrite decide_True|]. intros [? ?]%not_elem_of_cons. rewrite decide_False by congruence. by rewrite IH.
Qed.
Lemma split_join c ws : ws <> [] -> Forall (fun w => c ∉ w) ws -> split c (join c ws) = ws.
Proof.
  intros Hne Hf. induction ws as [|w ws IH]; [done|]. apply Forall_cons in Hf as [Hw Hf]. destruct ws as [|w' ws]; [by apply split_word|].
  cbn [join]. rewrite split_app_sep by done. f_equal. by apply IH.
Qed.
Lemma join_split c l : join c (split c l) = l.
Proof.
  induction l as [|x l IH]; cbn; [done|]. pose proof (split_not_nil c l). case_decide as D.
  - subst x. destruct (split c l) as [|w ws]; [done|]. cbn. f_equal. exact IH.
  - destruct (split c l) as [|w [|w' ws]]; [done| |]; cbn in *; by rewrite <- IH.
Qed.
Lemma split_no_sep c l : Forall (fun w => c ∉ w) (split c l).
Proof.
  induction l as [|x l IH]; cbn; [repeat constructor; apply not_elem_of_nil|]. case_decide as D; [constructor; [apply not_elem_of_nil|done]|].
  destruct (split c l) as [|w ws]; [repeat constructor; rewrite elem_of_list_singleton; congruence|].
  apply Forall_cons in IH as [? ?]. constructor; [|done]. rewrite elem_of_cons. intros [?|?]; [congruence|done].
Qed.
Lemma lstrip_sep c n l : lstrip c (replicate n c ++ l) = lstrip c l.
Proof. induction n as [|n IH]; cbn; [done|]. by rewrite decide_True. Qed.
Lemma lstrip_id c l : head l <> Some c -> lstrip c l = l.
Proof. destruct l as [|x l]; cbn; [done|]. intros H. rewrite decide_False; [done|]. congruence. Qed.
Lemma rstrip_sep c n l : rstrip c (l ++ replicate n c) = rstrip c l.
Proof. unfold rstrip. by rewrite reverse_app, reverse_replicate, lstrip_sep. Qed.
Lemma rstrip_id c l : last l <> Some c -> rstrip c l = l.
Proof. intros H. unfold rstrip. rewrite lstrip_id; [apply reverse_involutive|]. by rewrite head_reverse. Qed.
Lemma lstrip_spec c l : exists n, l = replicate n c ++ lstrip c l.
Proof. induction l as [|x l [n IH]]; [by exists 0%nat|]. cbn. case_decide as D; [|by exists 0%nat]. subst x. exists (S n). cbn. by rewrite <- IH. Qed.
Lemma lstrip_head c l : head (lstrip c l) <> Some c.
Proof. induction l as [|x l IH]; [done|]. cbn. case_decide; [done|]. cbn. congruence. Qed.
Lemma rstrip_spec c l : exists n, l = rstrip c l ++ replicate n c.
Proof.
  unfold rstrip. destruct (lstrip_spec c (reverse l)) as [n H]. exists n.
  apply (f_equal reverse) in H. by rewrite reverse_app, reverse_involutive, reverse_replicate in H.
Qed.
Lemma rstrip_last c l : last (rstrip c l) <> Some c.
Proof. unfold rstrip. rewrite last_reverse. apply lstrip_head. Qed.
Lemma rstrip_head c l : head l <> Some c -> head (rstrip c l) <> Some c.
Proof.
  intros H. destruct (rstrip_spec c l) as [n E]. destruct (rstrip c l) as [|x m] eqn:F; [done|]. rewrite E in H. done.
Qed.
End text.
