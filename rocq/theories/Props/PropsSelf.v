(** Theorems on tracking with self-fields (C13, C50).
    Statements only: each theorem is closed by the lemma of the same name in
    Proof/CSelf.v.  Written by tools/mkprops.py. *)
From Coq Require Import Reals List ZArith Bool Lia Lra.
From Verif Require Import Base.Res Base.RLib Model.MRecon Model.MParticles Model.MTrack Model.MMachine Model.MSelf
  Spec.TrackSpec Spec.MachineSpec Spec.SelfSpec.
Import ListNotations.
Local Open Scope R_scope.
From Verif Require Import Proof.CSelf.

(** C13: when the window fits at every turn, tracking returns for every start
    profile and distribution, and each row has the positions of the particles
    followed turn by turn from the start profile; the accepted deltaturn has
    no effect. *)
Theorem C13_rows_partial : forall m p12 f F d np cells r delta p l, self_setting m p12 f F d np cells ->
  fits (window_of f cells) (d * (np - 1)) ->
  track_checks (Z.of_nat np) (Z.of_nat d) r delta = Ok (Z.of_nat p) ->
  exists xs ys, track_self m p12 f np (Z.of_nat d) r delta (map fst l) (map snd l) = Ok (xs, ys) /\
    self_rows_are F f cells d np (p * d) l xs ys.
Proof. exact C13_rows_partial_lem. Qed.
Print Assumptions C13_rows_partial.

(** C13: the routine itself, for every start profile including the last. *)
Theorem C13_routine_rows : forall m p12 f F d np cells p l, self_setting m p12 f F d np cells ->
  fits (window_of f cells) (d * (np - 1)) -> (p < np)%nat ->
  exists xs ys, kick_and_drift_self m p12 f np (map snd l) (map fst l) (Z.of_nat d) (Z.of_nat p) 0 (Z.of_nat (d * (np - 1))) = Ok (xs, ys) /\
    self_rows_are F f cells d np (p * d) l xs ys.
Proof. exact C13_routine_rows_lem. Qed.
Print Assumptions C13_routine_rows.

(** C13: without self-field voltages the path of a particle is the ordinary
    one. *)
Theorem C13_no_field : forall F w table q d, Forall (Forall (fun v => v = 0)) table ->
  forall a b s, self_travel F w table q d a b s = travel Rplus Rminus Rmult sin F a b s.
Proof. exact C13_no_field_lem. Qed.
Print Assumptions C13_no_field.

(** C13: one turn forward and one turn back changes the energy by q times the
    sum of two neighbouring cells of the table; one turn is undone exactly if
    that sum vanishes. *)
Theorem C13_one_turn_partial : forall F w table q d t s,
  let c := rfloor (position w (S t) (fst (forward Rplus Rminus Rmult sin F t s) + ph0 F (S t))) in
  let err := q * (field table d t (c - 1) + field table d t c) in
  self_backward F w table q d t (self_forward F w table q d t s) = (fst s + coef F t * err, snd s + err) /\
  (self_backward F w table q d t (self_forward F w table q d t s) = s <-> err = 0).
Proof. exact C13_one_turn_partial_lem. Qed.
Print Assumptions C13_one_turn_partial.

(** C13 does not hold: in a machine that changes no energy and no phase, with
    the same voltage in every cell, the table started at profile 1 with the
    coordinates found there has another energy at profile 0. *)
Theorem C13_reversible_refuted : exists m f xs ys ys',
  self_setting m 0 f (still_params 0) 1 3 7 /\ fits (window_of f 7) (1 * (3 - 1)) /\
  track_self m 0 f 3 1 0 0 [0] [0] = Ok (xs, ys) /\ ys = [[0]; [1]; [2]] /\
  track_self m 0 f 3 1 1 0 [0] [1] = Ok (xs, ys') /\ ys' = [[2]; [1]; [2]].
Proof. exact C13_reversible_refuted_lem. Qed.
Print Assumptions C13_reversible_refuted.

(** C13 does not hold: with deltaturn 1 the particle is not followed from turn
    1, not even without fields: its energy 1 at turn 1 puts it at phase 1 at
    turn 0, and the table has phase 0. *)
Theorem C13_deltaturn_refuted : exists m f xs ys,
  self_setting m 0 f (still_params 1) 2 3 7 /\ fits (window_of f 7) (2 * (3 - 1)) /\
  track_self m 0 f 3 2 0 1 [0] [1] = Ok (xs, ys) /\
  ~ self_rows_are (still_params 1) f 7 2 3 (0 * 2 + 1) [(0, 1)] xs ys /\
  self_rows_are (still_params 1) f 7 2 3 (0 * 2) [(0, 1)] xs ys.
Proof. exact C13_deltaturn_refuted_lem. Qed.
Print Assumptions C13_deltaturn_refuted.

(** C13: the window made by find_wrap_length fits at every turn whose
    revolution frequency is not much below the one the window was made with:
    then no index of the table is out of range. *)
Theorem C13_bounds_partial : forall m p12 f F d np nbins wl bdot om r delta p l,
  (1 < np)%nat -> (0 < nbins)%nat -> 0 < sf_h f -> 0 < sf_dtbin f ->
  find_wrap_length bdot (sf_h f) (sf_dtbin f) (sf_omega f) (Z.of_nat np) (Z.of_nat d) (Z.of_nat nbins) = Ok (sf_phiwrap f, wl) ->
  om = at_ (sf_omega f) (window_turn bdot np d) -> 0 < om ->
  (forall t, (t <= d * (np - 1))%nat -> 0 < at_ (sf_omega f) t /\ IZR wl * om <= (IZR wl + 1) * at_ (sf_omega f) t) ->
  self_setting m p12 f F d np (Z.to_nat wl) ->
  track_checks (Z.of_nat np) (Z.of_nat d) r delta = Ok (Z.of_nat p) ->
  exists xs ys, track_self m p12 f np (Z.of_nat d) r delta (map fst l) (map snd l) = Ok (xs, ys) /\
    self_rows_are F f (Z.to_nat wl) d np (p * d) l xs ys.
Proof. exact C13_bounds_partial_lem. Qed.
Print Assumptions C13_bounds_partial.

(** C13 does not hold: with a rising field the window is made with a late
    (high) revolution frequency; at an early turn the index is out of range. *)
Theorem C13_bounds_refuted : exists m f wl,
  find_wrap_length 1 (sf_h f) (sf_dtbin f) (sf_omega f) 4 1 2 = Ok (sf_phiwrap f, wl) /\
  self_setting m 0 f (still_params 0) 1 4 (Z.to_nat wl) /\
  (forall t, (t < 3)%nat -> 0 < at_ (sf_omega f) t <= at_ (sf_omega f) (S t)) /\
  track_checks 4 1 0 0 = Ok 0%Z /\
  track_self m 0 f 4 1 0 0 [11 / 6 * PI] [0] = Fail (Raised IndexError).
Proof. exact C13_bounds_refuted_lem. Qed.
Print Assumptions C13_bounds_refuted.

From Verif Require Import Proof.PInput Proof.PMachine Proof.PSelf.
(** The hypotheses of the C13 theorems are met by a machine with drift and a
    table of alternating voltages, started between two profiles. *)
Example C13_ex : exists f, f = still_field 1 (repeat 1 5) [[1; -2; 3; -4; 5; -6; 7; 0]; [2; 0; 1; 0; 1; 0; 1; 0]] /\
  self_setting (still_machine 1 4) 0 f (still_params 1) 2 3 7 /\ fits (window_of f 7) (2 * (3 - 1)) /\
  track_checks 3 2 (-3) 1 = Ok 0%Z /\
  self_forward (still_params 1) (window_of f 7) (sf_vself f) 1 2 0 (1, -1) = (2, -3).
Proof.
  eexists. split; [reflexivity|]. split. { apply still_setting; cbn; try lia. repeat constructor. }
  split. { apply (still_fits 4). lia. } split; [reflexivity|].
  unfold self_forward, forward. cbv zeta. cbn [fst snd]. rewrite still_gain. cbn [still_params coef ph0].
  replace (1 - 1 * -1 + 0) with 2 by ring.
  assert (P := PI2_1). rewrite (still_position 5) by (lia || lra).
  replace (rfloor 2) with 2%Z by (symmetry; apply rfloor_unique; lra).
  match goal with |- context [field ?a ?b ?c ?e] => replace (field a b c e) with (-2) by reflexivity end. f_equal; ring.
Qed.
Example C13_one_turn_ex : exists w table, let c := rfloor (position w 1 (fst (forward Rplus Rminus Rmult sin (still_params 0) 0 (1, 2)) + ph0 (still_params 0) 1)) in
  field table 1 0 (c - 1) + field table 1 0 c = 0 /\ field table 1 0 c <> 0.
Proof.
  exists (window_of (still_field 1 (repeat 1 5) []) 7), [[1; -1; 1; -1; 1; -1; 1; -1]]. intros c.
  assert (E : c = 1%Z). { unfold c, forward. cbv zeta. cbn [fst snd still_params coef ph0]. replace (1 - 0 * 2 + 0) with 1 by ring.
    assert (P := PI2_1). rewrite (still_position 5) by (lia || lra). apply rfloor_unique. lra. }
  rewrite E. match goal with |- field ?a ?b ?c _ + _ = _ /\ _ => assert (A : field a b c (1 - 1) = 1) by reflexivity; assert (B : field a b c 1 = -1) by reflexivity end.
  rewrite A, B. lra.
Qed.

(** C50: the window is the smallest whole number of RF periods that covers the
    image, and its length in bins is rounded up; bins have the length of the
    turn the window is made with. *)
Theorem C50_window : forall bdot h dt omega np d nbins phiwrap wl om, (1 < np)%nat -> (0 < d)%nat -> (0 < nbins)%nat ->
  nth_error omega (window_turn bdot np d) = Some om -> 0 < h * om * dt ->
  find_wrap_length bdot h dt omega (Z.of_nat np) (Z.of_nat d) (Z.of_nat nbins) = Ok (phiwrap, wl) ->
  let bin := h * om * dt in
  (exists k : Z, (0 < k)%Z /\ phiwrap = IZR k * (2 * PI) /\ IZR (Z.of_nat nbins) * bin <= phiwrap /\ IZR (k - 1) * (2 * PI) < IZR (Z.of_nat nbins) * bin) /\
  (Z.of_nat nbins <= wl)%Z /\ phiwrap <= IZR wl * bin /\ IZR (wl - 1) * bin < phiwrap.
Proof. exact C50_window_lem. Qed.
Print Assumptions C50_window.

(** C50: if no revolution frequency exceeds the one the window is made with,
    the window covers the image at every turn. *)
Theorem C50_covers_partial : forall bdot h dt omega np d nbins phiwrap wl om, (1 < np)%nat -> (0 < d)%nat -> (0 < nbins)%nat ->
  nth_error omega (window_turn bdot np d) = Some om -> 0 < h -> 0 < om -> 0 < dt ->
  find_wrap_length bdot h dt omega (Z.of_nat np) (Z.of_nat d) (Z.of_nat nbins) = Ok (phiwrap, wl) ->
  forall t o, nth_error omega t = Some o -> o <= om -> IZR (Z.of_nat nbins) * (h * o * dt) <= phiwrap.
Proof. exact C50_covers_partial_lem. Qed.
Print Assumptions C50_covers_partial.

(** C50 does not hold: with a rising field the turn used is the last but one;
    at the last turn the image is longer than the window. *)
Theorem C50_covers_refuted : exists omega phiwrap wl,
  find_wrap_length 1 1 (PI / 2) omega 2 1 4 = Ok (phiwrap, wl) /\ omega = [1; 2] /\
  phiwrap < 4 * (1 * 2 * (PI / 2)).
Proof. exact C50_covers_refuted_lem. Qed.
Print Assumptions C50_covers_refuted.

(** C50: the table has one row per pair of neighbouring profiles and one column
    more than the window has bins.  Within the image an entry is the mean of
    the two profiles' fields; it is zero outside. *)
Theorem C50_table : forall sfc charge ds nbins np wl v, (Z.of_nat nbins <= wl)%Z ->
  calculate_self sfc charge ds nbins np wl = Ok v ->
  length v = (np - 1)%nat /\
  forall i, (i < np - 1)%nat -> exists row s0 d0 s1 d1,
    nth_error v i = Some row /\ nth_error sfc i = Some s0 /\ nth_error ds i = Some d0 /\
    nth_error sfc (S i) = Some s1 /\ nth_error ds (S i) = Some d1 /\
    Z.of_nat (length row) = (wl + 1)%Z /\
    (forall j, (j < nbins)%nat -> exists a b, nth_error d0 j = Some a /\ nth_error d1 j = Some b /\
       nth_error row j = Some ((charge * (s0 * a) + charge * (s1 * b)) / 2)) /\
    (forall j, (nbins <= j)%nat -> (Z.of_nat j <= wl)%Z -> nth_error row j = Some 0).
Proof. exact C50_table_lem. Qed.
Print Assumptions C50_table.

(** C50: the self-field coefficient of a profile in terms of the impedances: the
    space charge impedance g Z0 / (2 beta gamma^2) less the wall impedance. *)
Theorem C50_coefficient : forall omega beta g z dtbin d np sfc, 
  calc_self_field_coeffs omega beta g z dtbin (Z.of_nat d) np = Ok sfc ->
  length sfc = np /\
  forall i, (i < np)%nat -> exists om b s,
    nth_error omega (i * d) = Some om /\ nth_error beta (i * d) = Some b /\ nth_error sfc i = Some s /\
    om <> 0 /\ b <> 0 /\ dtbin <> 0 /\
    forall gamma, gamma ^ 2 * (1 - b ^ 2) = 1 ->
    s = e_charge / (om * dtbin ^ 2) * (g * free_space / (2 * b * gamma ^ 2) - z).
Proof. exact C50_coefficient_lem. Qed.
Print Assumptions C50_coefficient.

(** The window of C50 for 3 bins of a quarter of a turn, and a table for two
    profiles. *)
Example C50_ex : find_wrap_length 0 1 (PI / 2) [1; 2] 2 1 3 = Ok (2 * PI, 4%Z) /\
  exists v, calculate_self [1; 3] 2 [[1; 2; 3]; [4; 5; 6]] 3 2 4 = Ok v /\ v = [[13; 17; 21; 0; 0]].
Proof.
  assert (P := PI_RGT_0). split.
  - unfold find_wrap_length. cbv zeta. destruct (Rlt_dec 0 0); [lra|]. change (np_get [1; 2] 0) with (Ok 1). cbn [bind].
    rewrite rdiv_val by lra. cbn [bind].
    replace (rceil (3 * (1 * 1 * (PI / 2)) / (2 * PI))) with 1%Z.
    2:{ symmetry. apply rceil_unique. replace (3 * (1 * 1 * (PI / 2)) / (2 * PI)) with (3 / 4) by (field; lra). lra. }
    rewrite rdiv_val by lra. cbn [bind].
    replace (rceil (1 * 2 * PI / (1 * 1 * (PI / 2)))) with 4%Z.
    2:{ symmetry. apply rceil_unique. replace (1 * 2 * PI / (1 * 1 * (PI / 2))) with 4 by (field; lra). lra. }
    repeat f_equal. ring.
  - eexists. split; [reflexivity|]. cbn. repeat f_equal; field.
Qed.
Example C50_coefficient_ex : exists sfc, calc_self_field_coeffs [1; 1; 2] [3 / 5; 3 / 5; 4 / 5] 1 0 1 2 2 = Ok sfc /\ (5 / 4) ^ 2 * (1 - (3 / 5) ^ 2) = 1.
Proof.
  assert (E : forall i om b, np_get [1; 1; 2] (Z.of_nat i * 2) = Ok om -> np_get [3 / 5; 3 / 5; 4 / 5] (Z.of_nat i * 2) = Ok b -> om <> 0 -> b <> 0 ->
    exists s, self_field_coeff [1; 1; 2] [3 / 5; 3 / 5; 4 / 5] 1 0 1 2 (Z.of_nat i) = Ok s).
  { intros i om b E1 E2 H1 H2. unfold self_field_coeff. rewrite E1, E2. cbn [bind]. rewrite !rdiv_val by auto. cbn [bind]. rewrite rdiv_val by lra. eauto. }
  destruct (E 0%nat 1 (3 / 5) eq_refl eq_refl) as [s0 E0]; [lra|lra|]. destruct (E 1%nat 2 (4 / 5) eq_refl eq_refl) as [s1 E1]; [lra|lra|].
  exists [s0; s1]. split; [|field]. unfold calc_self_field_coeffs. apply mapM_forall2. repeat constructor; assumption.
Qed.
