(** Case-insensitive headers (C58). *)
From stdpp Require Import prelude.
From Verif Require Import CaseDictModel CaseDictSpec CaseDictProofs.

(** Every answer is the one that the history of the map demands. *)
Theorem headers_correct {K V L : Type} `{!EqDecision L} (lower : K -> L) (os : list (op K V)) : all_correct lower [] os (run lower os []).2.
Proof.
  enough (forall h d, good lower h d -> all_correct lower h os (run lower os d).2) as H.
  { apply H. split; [constructor|]. split; [by intros ? ? ? ?%elem_of_nil|done]. }
  induction os as [|o os IH]; intros h d Hg; [done|]. cbn. destruct (exec lower o d) as [d' a] eqn:E. destruct (run lower os d') as [d'' r] eqn:F. cbn.
  destruct (exec_ok lower h d o Hg) as [Hg' Ha]. rewrite E in Hg', Ha. split; [done|]. specialize (IH _ _ Hg'). cbn in IH. by rewrite F in IH.
Qed.
(** In particular: setting a key replaces every other spelling, and deleting one removes all of them. *)
Theorem set_replaces {K V L : Type} `{!EqDecision L} (lower : K -> L) (d : store K V L) k k' v : lower k = lower k' -> getitem lower k' (setitem lower k v d) = Some v.
Proof. intros E. unfold getitem, setitem. rewrite dict_get_set, decide_True by done. done. Qed.
Theorem del_removes {K V L : Type} `{!EqDecision L} (lower : K -> L) (d d' : store K V L) k k' : lower k = lower k' -> delitem lower k d = Some d' -> getitem lower k' d' = None.
Proof. intros E. unfold delitem, dict_del. destruct (dict_get _ d); [|done]. intros [= <-]. unfold getitem. rewrite dict_get_filter, decide_True by done. done. Qed.
(** The order of the keys is the one in which they were inserted first. *)
Theorem order_kept {K V L : Type} `{!EqDecision L} (lower : K -> L) (d : store K V L) k v : exists e, (setitem lower k v d).*1 = d.*1 ++ e.
Proof. unfold setitem. rewrite dict_set_fst. case_decide; [exists []; by rewrite app_nil_r|by eexists]. Qed.

(** Keys are numbers here, and two spellings differ by 100. *)
Example headers_example : (run (fun k => k mod 100) [Set_ 1 10; Set_ 2 20; Set_ 101 11; Iter; Get 1; Del 201; Len; Contains 1; Items] [] : store nat nat nat * _).2 =
  [ADone; ADone; ADone; AKeys [101; 2]; AValue 11; ADone; ALen 1; ABool false; AItems [(2, 20)]].
Proof. done. Qed.

Print Assumptions headers_correct.
Print Assumptions set_replaces.
Print Assumptions del_removes.
Print Assumptions order_kept.
