(** Theorems on the phase between two RF systems (C93).
    Statements only: each theorem is closed by the lemma of the same name in
    Proof/CPhi12.v.  Written by tools/mkprops.py. *)
From Coq Require Import Reals List ZArith Bool Lia Lra Psatz.
From Verif Require Import Base.Res Base.RLib Model.MParticles Model.MTrack Model.MMachine Model.MPrograms Model.MObjects Spec.MachineSpec Spec.ProgramsSpec Spec.ObjectSpec.
Import ListNotations.
Local Open Scope R_scope.
From Verif Require Import Proof.CPhi12.

(** C93.  The modes 0 and 1, for particles of positive charge: the second RF
    system is at a zero at the synchronous phase phi of the first one, so that
    phi is a synchronous phase of both together; and the second system lowers
    the slope of the voltage there. *)
Theorem C93_synchronous_partial : forall m v mode v', calc_phi12 m v mode = Ok v' -> 0 < pg_q m -> mode <> 2%Z ->
  exists l, pv_phi12 v' = Some (PhiArray l) /\ length l = length (pv_vrf1 v) /\
  forall i, (i < length l)%nat -> exists phi, - (PI / 2) <= phi <= PI / 2 /\
    let gain := 2 * PI * pg_radius m * pg_bending m * at_ (pv_bdot v) i * rsign (pg_q m) in
    let h := pv_h_ratio v in let v1 := at_ (pv_vrf1 v) i in let v2 := at_ (pv_vrf2 v) i in
    v1 * sin phi = gain /\
    v1 * sin phi + v2 * sin (h * (phi - at_ l i)) = gain /\
    v1 * cos phi + h * v2 * cos (h * (phi - at_ l i)) = v1 * cos phi - h * v2.
Proof. exact C93_synchronous_partial_lem. Qed.
Print Assumptions C93_synchronous_partial.

(** C93.  Mode 2 with an integer ratio k of the harmonics: again the phase is
    kept; the slope is lowered for even k and raised for odd k. *)
Theorem C93_second_partial : forall m v v' k, calc_phi12 m v 2 = Ok v' -> 0 < pg_q m -> pv_h_ratio v = INR k ->
  exists l, pv_phi12 v' = Some (PhiArray l) /\ length l = length (pv_vrf1 v) /\
  forall i, (i < length l)%nat -> exists phi, - (PI / 2) <= phi <= PI / 2 /\
    let gain := 2 * PI * pg_radius m * pg_bending m * at_ (pv_bdot v) i * rsign (pg_q m) in
    let h := pv_h_ratio v in let v1 := at_ (pv_vrf1 v) i in let v2 := at_ (pv_vrf2 v) i in
    v1 * sin phi = gain /\
    v1 * sin phi + v2 * sin (h * (phi - at_ l i)) = gain /\
    v1 * cos phi + h * v2 * cos (h * (phi - at_ l i)) = if Nat.even k then v1 * cos phi - h * v2 else v1 * cos phi + h * v2.
Proof. exact C93_second_partial_lem. Qed.
Print Assumptions C93_second_partial.

(** C93.  When it is defined: the first system must give the energy gain. *)
Theorem C93_defined : forall m v mode, length (pv_bdot v) = length (pv_vrf1 v) -> pv_h_ratio v <> 0 ->
  ((exists v', calc_phi12 m v mode = Ok v') <->
   forall i, (i < length (pv_vrf1 v))%nat -> at_ (pv_vrf1 v) i <> 0 /\
     Rabs (2 * PI * pg_radius m * pg_bending m * at_ (pv_bdot v) i) <= Rabs (at_ (pv_vrf1 v) i)).
Proof. exact C93_defined_lem. Qed.
Print Assumptions C93_defined.

(** C93.  Refuted: bunch shortening (0) and bunch lengthening (1) are the same,
    for every machine. *)
Theorem C93_modes_refuted : forall m v, calc_phi12 m v 0 = calc_phi12 m v 1.
Proof. exact C93_modes_refuted_lem. Qed.
Print Assumptions C93_modes_refuted.

(** C93.  Refuted for particles of negative charge: the phase taken for the
    synchronous one is not one whenever the field changes. *)
Theorem C93_charge_refuted : forall m v mode v', calc_phi12 m v mode = Ok v' -> pg_q m < 0 -> mode <> 2%Z ->
  exists l, pv_phi12 v' = Some (PhiArray l) /\ length l = length (pv_vrf1 v) /\
  forall i, (i < length l)%nat -> at_ (pv_bdot v) i <> 0 -> pg_radius m <> 0 -> pg_bending m <> 0 ->
    let gain := 2 * PI * pg_radius m * pg_bending m * at_ (pv_bdot v) i * rsign (pg_q m) in
    let h := pv_h_ratio v in let v1 := at_ (pv_vrf1 v) i in
    let phi := at_ l i - PI / h in
    v1 * sin phi = - gain /\ v1 * sin phi <> gain /\
    v1 * sin phi + at_ (pv_vrf2 v) i * sin (h * (phi - at_ l i)) <> gain.
Proof. exact C93_charge_refuted_lem. Qed.
Print Assumptions C93_charge_refuted.

(** C93.  Refuted above transition, where the synchronous phase lies on the
    falling side: with a second system of twice the frequency that phase is
    kept only if v2 * sin (4 * phi) is 0. *)
Theorem C93_above_refuted : forall m v mode v', calc_phi12 m v mode = Ok v' -> 0 < pg_q m -> pv_h_ratio v = 2 ->
  exists l, pv_phi12 v' = Some (PhiArray l) /\ length l = length (pv_vrf1 v) /\
  forall i phi, (i < length l)%nat ->
    let gain := 2 * PI * pg_radius m * pg_bending m * at_ (pv_bdot v) i * rsign (pg_q m) in
    let v1 := at_ (pv_vrf1 v) i in let v2 := at_ (pv_vrf2 v) i in
    v1 * sin phi = gain -> cos phi < 0 ->
    v1 * sin phi + v2 * sin (pv_h_ratio v * (phi - at_ l i)) = gain - v2 * sin (4 * phi).
Proof. exact C93_above_refuted_lem. Qed.
Print Assumptions C93_above_refuted.

(** C93.  Without calc_phi12 no phases are found; after it the phases found are
    synchronous for both systems at every turn. *)
Theorem C93_found : forall newton fuel m mode v i0, finds_roots newton -> pg_i0 m = Z.of_nat i0 ->
  pg_phi12 m = None -> pg_phase m = None ->
  (forall w, programs_machine newton fuel m = Ok w -> find_synchronous_phase newton m w = Fail (Raised ValueError)) /\
  (machine_with_mode newton fuel m mode = Ok v ->
   exists l, pv_phi12 v = Some (PhiArray l) /\
   forall i, (Z.of_nat i < pv_n_turns v)%Z -> let phi := at_ (pv_phi0 v) i in
    at_ (pv_vrf1 v) i * sin phi + at_ (pv_vrf2 v) i * sin (pv_h_ratio v * (phi - at_ l i)) =
    2 * PI * pg_radius m * pg_bending m * at_ (pv_bdot v) i * rsign (pg_q m)).
Proof. exact C93_found_lem. Qed.
Print Assumptions C93_found.

(** A machine with voltage in both systems, without phases: the whole sequence
    of calls succeeds. *)
Example C93_ex : finds_roots pi_newton /\ pg_i0 flat2 = Z.of_nat 0 /\ pg_phi12 flat2 = None /\ pg_phase flat2 = None /\ 0 < pg_q flat2 /\
  (exists v, programs_machine pi_newton 3 flat2 = Ok v /\ pv_h_ratio v = 2 /\ pv_h_ratio v = INR 2 /\
    (forall i, (i < 3)%nat -> at_ (pv_vrf2 v) i = 1)) /\
  exists v, machine_with_mode pi_newton 3 flat2 0 = Ok v.
Proof.
  split. { intros f x0 f' x H. unfold pi_newton in H. destruct (Req_EM_T (f PI) 0); [|discriminate]. injection H as <-. auto. }
  split; [reflexivity|]. split; [reflexivity|]. split; [reflexivity|]. split; [cbn; lra|]. split; [|apply flat2_mode].
  destruct flat2_built as (v & H & _ & E & _ & _ & _ & _ & V). exists v. split; auto. split; auto. split; [rewrite E; simpl; lra|].
  intros i Hi. apply V; auto.
Qed.
