(** Proofs on keyword arguments and on histories of objects. *)
(*HEAD*)
From Coq Require Import Reals String List ZArith Bool Lia Lra Permutation.
From Verif Require Import Base.Res Model.MTrack Model.MMachine Model.MObjects Spec.MachineSpec Spec.ObjectSpec.
Import ListNotations.
Local Open Scope R_scope.
(*DAEH*)
From Verif Require Import Base.ResLemmas.
Local Open Scope string_scope.

(** ** Keywords *)

Lemma eqb_refl' : forall s, String.eqb s s = true. Proof. intros. apply String.eqb_refl. Qed.
Lemma get_set_same : forall V (d : dict V) k v, dict_get V (dict_set V d k v) k = Some v.
Proof.
  intros V. induction d as [|[k' w] d IH]; intros k v; cbn; [rewrite eqb_refl'; auto|].
  destruct (String.eqb k' k) eqn:E; cbn; rewrite E; auto.
Qed.
Lemma get_set_other : forall V (d : dict V) k k' v, k <> k' -> dict_get V (dict_set V d k v) k' = dict_get V d k'.
Proof.
  intros V. induction d as [|[q w] d IH]; intros k k' v N; cbn.
  - destruct (String.eqb_spec k k'); [contradiction|auto].
  - destruct (String.eqb_spec q k) as [->|]; cbn.
    + destruct (String.eqb_spec k k'); [contradiction|auto].
    + destruct (String.eqb q k'); auto.
Qed.
Lemma fold_set_get : forall V (P : string -> bool) (l : list (string * V)) d k,
  NoDup (map fst l) ->
  dict_get V (fold_left (fun u kv => if P (fst kv) then dict_set V u (fst kv) (snd kv) else u) l d) k =
  match dict_get V l k with Some v => if P k then Some v else dict_get V d k | None => dict_get V d k end.
Proof.
  intros V P. induction l as [|[k' v] l IH]; intros d k N; [reflexivity|]. cbn [fold_left fst snd dict_get]. inversion N as [|? ? N1 N2]; subst. rewrite IH by auto.
  destruct (String.eqb_spec k' k) as [->|Ne].
  - assert (E : dict_get V l k = None).
    { clear - N1. induction l as [|[q w] l IH]; auto. cbn in *. destruct (String.eqb_spec q k) as [->|]; [tauto|]. apply IH. tauto. }
    rewrite E. destruct (P k); [apply get_set_same|auto].
  - destruct (dict_get V l k); destruct (P k'); try rewrite get_set_other by auto; auto.
Qed.
Lemma in_get : forall V (d : dict V) k, dict_in V d k = match dict_get V d k with Some _ => true | None => false end.
Proof. intros V. induction d as [|[q w] d IH]; intros k; auto. cbn. destruct (String.eqb q k); [reflexivity|exact (IH k)]. Qed.
Lemma process_get : forall V (defaults kwargs : dict V) k, NoDup (map fst defaults) -> NoDup (map fst kwargs) ->
  dict_get V (process_kwargs V defaults kwargs) k =
  match dict_get V defaults k with
  | None => None
  | Some d => match dict_get V kwargs k with Some v => Some v | None => Some d end
  end.
Proof.
  intros V defaults kwargs k N1 N2. unfold process_kwargs. cbv zeta.
  rewrite (fold_set_get V (fun x => dict_in V defaults x)) by auto.
  assert (E := fold_set_get V (fun _ => true) defaults [] k N1). cbn [dict_get] in E. cbv beta iota in E. rewrite E, in_get.
  destruct (dict_get V defaults k), (dict_get V kwargs k); auto.
Qed.
Lemma defaults_nodup : NoDup (map fst machine_base_defaults) /\ NoDup (map fst machine_opts_def).
Proof. split; repeat constructor; cbn; intuition discriminate. Qed.
Lemma param_base : forall kwargs k d, call kwargs -> dict_get pyval machine_base_defaults k = Some d ->
  param (process_kwargs pyval machine_base_defaults kwargs) k = match dict_get pyval kwargs k with Some v => v | None => d end.
Proof. intros kwargs k d C E. unfold param. rewrite process_get by (auto; apply defaults_nodup). rewrite E. destruct (dict_get pyval kwargs k); auto. Qed.
Lemma param_opts : forall kwargs k d, call kwargs -> dict_get pyval machine_opts_def k = Some d ->
  param (process_kwargs pyval machine_opts_def kwargs) k = match dict_get pyval kwargs k with Some v => v | None => d end.
Proof. intros kwargs k d C E. unfold param. rewrite process_get by (auto; apply defaults_nodup). rewrite E. destruct (dict_get pyval kwargs k); auto. Qed.
Lemma get_given : forall kwargs k v, call kwargs -> given kwargs k v -> dict_get pyval kwargs k = Some v.
Proof.
  unfold call, given. induction kwargs as [|[q w] l IH]; intros k v N H; [destruct H|]. inversion N as [|? ? N1 N2]; subst. cbn. destruct H as [H|H].
  - injection H as -> ->. rewrite eqb_refl'. auto.
  - destruct (String.eqb_spec q k) as [->|]; auto. exfalso. apply N1. cbn. apply (in_map fst) in H. exact H.
Qed.
Lemma get_missing : forall kwargs k, missing kwargs k -> dict_get pyval kwargs k = None.
Proof.
  unfold missing. induction kwargs as [|[q w] l IH]; intros k H; auto. cbn. destruct (String.eqb_spec q k) as [->|].
  - exfalso. apply (H w). left. auto.
  - apply IH. intros v X. apply (H v). right. auto.
Qed.

(** C94.  A documented keyword sets its attribute; without it the attribute has
    the documented default. *)
Lemma C94_keywords_partial_lem : forall p kwargs name attr default, call kwargs -> In (name, (attr, default)) documented ->
  (forall v, given kwargs name v -> attribute (new_machine p kwargs) attr v) /\
  (missing kwargs name -> attribute (new_machine p kwargs) attr default).
Proof.
  intros p kwargs name attr default C H.
  cut (attribute (new_machine p kwargs) attr (match dict_get pyval kwargs name with Some v => v | None => default end)).
  { intros E. split; [intros v G; rewrite (get_given _ _ _ C G) in E|intros G; rewrite (get_missing _ _ G) in E]; auto. }
  unfold documented in H. cbn [In] in H.
  repeat (destruct H as [H|H]; [injection H as <- <- <-; unfold attribute, new_machine; cbv zeta;
    first [rewrite <- (param_base kwargs _ _ C) by reflexivity|rewrite <- (param_opts kwargs _ _ C) by reflexivity]; reflexivity|]).
  destruct H.
Qed.

(** C94.  The limits of the reconstruction area: by default, or if None is
    given, 0 and the length of the profile. *)
Lemma C94_times_lem : forall p kwargs, call kwargs ->
  (forall v, given kwargs "min_dt" v -> v <> PyNone -> attribute (new_machine p kwargs) "min_dt" v) /\
  (forall v, given kwargs "max_dt" v -> v <> PyNone -> attribute (new_machine p kwargs) "max_dt" v) /\
  (missing kwargs "min_dt" \/ given kwargs "min_dt" PyNone -> attribute (new_machine p kwargs) "min_dt" (PyNum 0)) /\
  (missing kwargs "max_dt" \/ given kwargs "max_dt" PyNone -> attribute (new_machine p kwargs) "max_dt" (PyNum (po_nbins p * po_dtbin p))).
Proof.
  intros p kwargs C. unfold attribute, new_machine. cbv zeta.
  rewrite (param_base kwargs "min_dt" PyNone C eq_refl), (param_base kwargs "max_dt" PyNone C eq_refl).
  repeat split.
  - intros v G N. rewrite (get_given _ _ _ C G). destruct v; try reflexivity. congruence.
  - intros v G N. rewrite (get_given _ _ _ C G). destruct v; try reflexivity. congruence.
  - intros [G|G]; [rewrite (get_missing _ _ G)|rewrite (get_given _ _ _ C G)]; reflexivity.
  - intros [G|G]; [rewrite (get_missing _ _ G)|rewrite (get_given _ _ _ C G)]; reflexivity.
Qed.

(** C94.  The positional arguments set the attributes of their names, the rest
    energy that of the name e_rest, whatever the keywords; the energy of the
    synchronous particle is in the middle of the image. *)
Lemma C94_positional_lem : forall p kwargs,
  attribute (new_machine p kwargs) "dturns" (PyNum (po_dturns p)) /\
  attribute (new_machine p kwargs) "vrf1" (PyNum (po_vrf1 p)) /\
  attribute (new_machine p kwargs) "mean_orbit_rad" (PyNum (po_mean_orbit_rad p)) /\
  attribute (new_machine p kwargs) "bending_rad" (PyNum (po_bending_rad p)) /\
  attribute (new_machine p kwargs) "b0" (PyNum (po_b0 p)) /\
  attribute (new_machine p kwargs) "trans_gamma" (PyNum (po_trans_gamma p)) /\
  attribute (new_machine p kwargs) "e_rest" (PyNum (po_rest_energy p)) /\
  attribute (new_machine p kwargs) "nprofiles" (PyNum (po_nprofiles p)) /\
  attribute (new_machine p kwargs) "nbins" (PyNum (po_nbins p)) /\
  attribute (new_machine p kwargs) "dtbin" (PyNum (po_dtbin p)) /\
  attribute (new_machine p kwargs) "synch_part_y" (PyNum (po_nbins p / 2)).
Proof. intros. unfold attribute, new_machine. cbv zeta. repeat split. Qed.

(** C94.  The order of the keywords does not matter. *)
Lemma C94_order_lem : forall p k1 k2, call k1 -> Permutation k1 k2 -> new_machine p k1 = new_machine p k2.
Proof.
  intros p k1 k2 C P. assert (C2 : call k2). { unfold call in *. eapply Permutation_NoDup; [|exact C]. apply Permutation_map. exact P. }
  assert (G : forall k, dict_get pyval k1 k = dict_get pyval k2 k).
  { intros k. destruct (dict_get pyval k2 k) as [v|] eqn:E.
    - apply get_given; auto. apply (Permutation_in _ (Permutation_sym P)). clear - E. induction k2 as [|[q w] l IH]; [discriminate|]. cbn in E.
      destruct (String.eqb_spec q k) as [->|]; [injection E as ->; left; auto|right; auto].
    - apply get_missing. intros v H. apply (Permutation_in _ P) in H. apply (get_given _ _ _ C2) in H. congruence. }
  assert (B : forall k, param (process_kwargs pyval machine_base_defaults k1) k = param (process_kwargs pyval machine_base_defaults k2) k).
  { intros k. unfold param. rewrite !process_get by (auto; apply defaults_nodup). rewrite G. reflexivity. }
  assert (O : forall k, param (process_kwargs pyval machine_opts_def k1) k = param (process_kwargs pyval machine_opts_def k2) k).
  { intros k. unfold param. rewrite !process_get by (auto; apply defaults_nodup). rewrite G. reflexivity. }
  unfold new_machine. cbv zeta. rewrite !B, !O. reflexivity.
Qed.

(** C94.  Refuted: a keyword that is not known, e.g. a misspelt one or the name
    q of the attribute for the charge, is neither used nor reported. *)
Lemma C94_unknown_refuted_lem : forall p kwargs name v, call ((name, v) :: kwargs) -> ~ known name ->
  new_machine p ((name, v) :: kwargs) = new_machine p kwargs.
Proof.
  intros p kwargs name v C N.
  assert (U : forall defaults, dict_in pyval defaults name = false ->
    process_kwargs pyval defaults ((name, v) :: kwargs) = process_kwargs pyval defaults kwargs).
  { intros defaults E. unfold process_kwargs. cbn [fold_left fst]. rewrite E. reflexivity. }
  assert (D1 : dict_in pyval machine_base_defaults name = false /\ dict_in pyval machine_opts_def name = false).
  { split; apply not_true_is_false; intros E; apply N; clear - E; unfold dict_in in E; apply existsb_exists in E; destruct E as ([k w] & H & E);
      apply String.eqb_eq in E; cbn in E; subst k; unfold known; cbn in H; repeat (destruct H as [H|H]; [injection H as <- _; cbn; repeat (first [left; reflexivity|right])|]); destruct H. }
  unfold new_machine. rewrite !U by apply D1. reflexivity.
Qed.

(*EX*)
Example C94_ex : ~ known "q" /\ ~ known "vrf2_dot" /\ call [("h_ratio", PyNum 2); ("charge", PyNum 54); ("q", PyNum 3)]%string /\
  In ("charge", ("q", PyNum 1))%string documented.
Proof.
  split; [unfold known; cbn; intuition discriminate|]. split; [unfold known; cbn; intuition discriminate|].
  split; [repeat constructor; cbn; intuition discriminate|cbn; tauto].
Qed.
(*XE*)
