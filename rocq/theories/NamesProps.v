(** Names of metadata objects are recognised, and differ (C24). *)
From stdpp Require Import prelude.
From Coq.Strings Require Import Byte.
From Coq Require Import String.
From Verif Require Import Bytes NamesModel.
Local Close Scope string_scope.
Local Open Scope list_scope.

Lemma unhex_hexdig d : d < 16 -> unhexdig (hexdig d) = Some d.
Proof. intros H. do 16 (destruct d as [|d]; [done|]). lia. Qed.
Lemma unhex_app acc a b : unhex acc (a ++ b) = unhex acc a ≫= fun v => unhex v b.
Proof. revert acc. induction a as [|c a IH]; intros acc; cbn; [done|]. destruct (unhexdig c); cbn; [apply IH|done]. Qed.
Lemma unhex_hex_fuel fuel n : n < fuel -> unhex 0 (hex_fuel fuel n) = Some n.
Proof.
  revert n. induction fuel as [|fuel IH]; intros n H; [lia|]. cbn [hex_fuel]. rewrite unhex_app. case_decide as D.
  - cbn [unhex mbind option_bind]. rewrite Nat.mod_small, unhex_hexdig by done. done.
  - pose proof (Nat.div_mod n 16 ltac:(lia)). pose proof (Nat.mod_upper_bound n 16 ltac:(lia)).
    rewrite IH by (apply Nat.div_lt_upper_bound; lia). cbn [mbind option_bind unhex]. rewrite unhex_hexdig by done. cbn [mbind option_bind unhex]. f_equal. lia.
Qed.
Lemma unhex_zeros n s : unhex 0 (replicate n x30 ++ s) = unhex 0 s.
Proof. induction n as [|n IH]; [done|]. cbn. done. Qed.
Lemma unhex_hexpad w n : unhex 0 (hexpad w n) = Some n.
Proof. unfold hexpad, hex. rewrite unhex_zeros. apply unhex_hex_fuel. lia. Qed.
Definition digits (s : bytes) : Prop := Forall (fun c => is_Some (unhexdig c)) s.
Lemma digits_hex_fuel fuel n : digits (hex_fuel fuel n).
Proof.
  revert n. induction fuel as [|fuel IH]; intros n; cbn [hex_fuel]; [constructor|]. apply Forall_app. split.
  - case_decide; [constructor|apply IH].
  - constructor; [|constructor]. rewrite unhex_hexdig; [done|]. apply Nat.mod_upper_bound. lia.
Qed.
Lemma digits_hexpad w n : digits (hexpad w n).
Proof. apply Forall_app. split; [|apply digits_hex_fuel]. apply Forall_replicate. done. Qed.
Lemma hexpad_nonempty w n : hexpad w n <> [].
Proof. unfold hexpad, hex. cbn [hex_fuel]. intros [_ [_ [=]]%app_eq_nil]%app_eq_nil. Qed.
Lemma span_hex_app a r : digits a -> match r with [] => True | c :: _ => unhexdig c = None end -> span_hex (a ++ r) = (a, r).
Proof.
  intros Ha Hr. induction Ha as [|c a [d Hc] _ IH]; cbn [app span_hex].
  - destruct r as [|c r]; [done|]. cbn [span_hex]. by rewrite Hr.
  - by rewrite Hc, IH.
Qed.
Lemma strip_prefix_app p s : strip_prefix p (p ++ s) = Some s.
Proof. unfold strip_prefix. rewrite take_app, drop_app. by rewrite decide_True. Qed.

(** The name of a metadata object gives back block and version, for all numbers (also those that need more digits than the format has). *)
Theorem meta_name_parsed b s : parse_meta (meta_name b s) = Some (b, s).
Proof.
  unfold parse_meta, meta_name. rewrite strip_prefix_app. cbn [mbind option_bind]. rewrite span_hex_app; [|apply digits_hexpad|done].
  destruct (hexpad 12 b) as [|x a] eqn:Ea; [by apply hexpad_nonempty in Ea|]. destruct (hexpad 10 s) as [|y c] eqn:Ec; [by apply hexpad_nonempty in Ec|].
  cbn [app]. rewrite decide_True by done. rewrite <- Ea, <- Ec, !unhex_hexpad. done.
Qed.
Theorem params_name_parsed s : parse_params (params_name s) = Some s.
Proof.
  unfold parse_params, params_name. rewrite strip_prefix_app. cbn [mbind option_bind]. rewrite decide_False by apply hexpad_nonempty. apply unhex_hexpad.
Qed.
Theorem meta_name_inj b s b' s' : meta_name b s = meta_name b' s' -> b = b' /\ s = s'.
Proof. intros E. pose proof (meta_name_parsed b s) as H. rewrite E, meta_name_parsed in H. by simplify_eq. Qed.
Theorem params_name_inj s s' : params_name s = params_name s' -> s = s'.
Proof. intros E. pose proof (params_name_parsed s) as H. rewrite E, params_name_parsed in H. by simplify_eq. Qed.
(** Metadata, parameters and the other objects of a file system are never confused. *)
Definition special : list bytes := str <$> ["s3ql_params"; "s3ql_metadata"; "s3ql_passphrase"; "s3ql_passphrase_bak1"; "s3ql_passphrase_bak2"; "s3ql_passphrase_bak3"]%string.
Theorem names_differ b s s' k : k ∈ special -> meta_name b s <> k /\ params_name s' <> k /\ meta_name b s <> params_name s'.
Proof.
  intros Hk. split_and!.
  - intros E. pose proof (meta_name_parsed b s) as H. rewrite E in H. clear E. repeat (apply elem_of_cons in Hk as [->|Hk]; [by vm_compute in H|]). by apply elem_of_nil in Hk.
  - intros E. pose proof (params_name_parsed s') as H. rewrite E in H. clear E. repeat (apply elem_of_cons in Hk as [->|Hk]; [by vm_compute in H|]). by apply elem_of_nil in Hk.
  - intros E. apply (f_equal (take 12)) in E. unfold meta_name, params_name in E. rewrite take_app_le in E by (cbn; lia). rewrite take_app_alt in E by done. by vm_compute in E.
Qed.
(** Two different names may denote the same version of the same block: shorter names, which are never written, are also accepted. *)
Theorem foreign_name_refuted : exists k, parse_meta k = Some (1, 2) /\ k <> meta_name 1 2.
Proof. exists (str "s3ql_metadata_1_2"). by vm_compute. Qed.
Example names_example : meta_name 26 300 = str "s3ql_metadata_00000000001a_000000012c" /\ params_name 255 = str "s3ql_params_00000000ff" /\
  parse_meta (str "s3ql_metadata_bak_1") = None /\ parse_meta (str "s3ql_metadata_00000000001a") = None /\ parse_meta (str "s3ql_data_1") = None /\ parse_params (str "s3ql_params_") = None.
Proof. by vm_compute. Qed.

Print Assumptions meta_name_parsed. Print Assumptions params_name_parsed. Print Assumptions meta_name_inj. Print Assumptions params_name_inj.
Print Assumptions names_differ. Print Assumptions foreign_name_refuted.
