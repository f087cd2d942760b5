(** Theorems on the machine turn by turn (C11, C12, C45-C47).
    Statements only: each theorem is closed by the lemma of the same name in
    Proof/CMachine.v.  Written by tools/mkprops.py. *)
From Coq Require Import Reals List ZArith Bool Lia Lra.
From Verif Require Import Base.Res Base.RLib Model.MRecon Model.MParticles Model.MTrack Model.MMachine Spec.TrackSpec Spec.MachineSpec.
Import ListNotations.
Local Open Scope R_scope.
From Verif Require Import Proof.CMachine.

(** C45: the arrays have one entry per turn, and every entry follows from its
    neighbour, whatever the reference frame p and the root finder. *)
Theorem C45_turns : forall newton m v d np p, (0 < d)%nat -> (0 < np)%nat ->
  rm_dturns m = Z.of_nat d -> rm_nprofiles m = Z.of_nat np -> rm_ref_frame m = Z.of_nat p ->
  values_at_turns newton m = Ok v ->
  all_length (d * (np - 1) + 1) v /\
  (forall i, (i < d * (np - 1))%nat -> turn_follows m (tv_turns v) i) /\
  (forall i, (i <= d * (np - 1))%nat -> speed_of_energy m (tv_turns v) i) /\
  at_ (tn_time (tv_turns v)) (p * d) = 0 /\
  at_ (tn_e0 (tv_turns v)) (p * d) ^ 2 = (rm_q m * rm_b0 m * rm_bending m * c_light) ^ 2 + rm_e_rest m ^ 2 /\
  0 <= at_ (tn_e0 (tv_turns v)) (p * d).
Proof. exact C45_turns_lem. Qed.
Print Assumptions C45_turns.

(** C45: with a root finder that returns roots only, the RF voltage at the
    synchronous phase is the one the magnetic field asks for, at every turn. *)
Theorem C45_synchronous_phase : forall newton m v d np p, (0 < d)%nat -> (0 < np)%nat -> finds_roots newton ->
  rm_dturns m = Z.of_nat d -> rm_nprofiles m = Z.of_nat np -> rm_ref_frame m = Z.of_nat p ->
  values_at_turns newton m = Ok v ->
  forall i, (i <= d * (np - 1))%nat ->
  rf_at m (at_ (tn_time (tv_turns v)) i) (at_ (tn_phi0 (tv_turns v)) i) = field_gain m * rsign (rm_q m).
Proof. exact C45_synchronous_phase_lem. Qed.
Print Assumptions C45_synchronous_phase.

(** C45: slip factor, drift coefficient, revolution frequency and voltages of
    every turn belong to the energy and time of that turn. *)
Theorem C45_derived : forall newton m v d np p, (0 < d)%nat -> (0 < np)%nat ->
  rm_dturns m = Z.of_nat d -> rm_nprofiles m = Z.of_nat np -> rm_ref_frame m = Z.of_nat p ->
  values_at_turns newton m = Ok v ->
  forall i, (i <= d * (np - 1))%nat ->
  let s := tv_turns v in
  at_ (tv_eta0 v) i = rm_e_rest m ^ 2 / at_ (tn_e0 s) i ^ 2 - 1 / rm_trans_gamma m ^ 2 /\
  at_ (tv_drift_coef v) i * (at_ (tn_e0 s) i * at_ (tn_beta0 s) i ^ 2) = 2 * PI * rm_h_num m * at_ (tv_eta0 v) i /\
  at_ (tv_omega_rev0 v) i * rm_radius m = at_ (tn_beta0 s) i * c_light /\
  at_ (tv_vrf1 v) i = rm_vrf1 m + rm_vrf1dot m * at_ (tn_time s) i /\
  at_ (tv_vrf2 v) i = rm_vrf2 m + rm_vrf2dot m * at_ (tn_time s) i /\
  0 < at_ (tn_beta0 s) i.
Proof. exact C45_derived_lem. Qed.
Print Assumptions C45_derived.

(** C45, energy gain: deltaE0[i] = e0[i] - e0[i-1] holds for the turns after
    the reference turn only. *)
Theorem C45_energy_gain_partial : forall newton m v d np p, (0 < d)%nat -> (0 < np)%nat ->
  rm_dturns m = Z.of_nat d -> rm_nprofiles m = Z.of_nat np -> rm_ref_frame m = Z.of_nat p ->
  values_at_turns newton m = Ok v ->
  let s := tv_turns v in
  (forall i, (p * d < i <= d * (np - 1))%nat -> at_ (tn_deltaE0 s) i = at_ (tn_e0 s) i - at_ (tn_e0 s) (i - 1)) /\
  (forall i, (i < p * d)%nat -> at_ (tn_deltaE0 s) i = at_ (tn_e0 s) (i + 1) - at_ (tn_e0 s) i) /\
  at_ (tn_deltaE0 s) (p * d) = 0.
Proof. exact C45_energy_gain_partial_lem. Qed.
Print Assumptions C45_energy_gain_partial.

(** C45, energy gain, refuted: with the reference frame after the first
    profile the gain at the reference turn is 0 although the energy differs
    from the one at the turn before. *)
Theorem C45_energy_gain_refuted : exists newton m v, finds_roots newton /\ values_at_turns newton m = Ok v /\
  rm_dturns m = 1%Z /\ rm_nprofiles m = 2%Z /\ rm_ref_frame m = 1%Z /\
  at_ (tn_deltaE0 (tv_turns v)) 1 <> at_ (tn_e0 (tv_turns v)) 1 - at_ (tn_e0 (tv_turns v)) 0.
Proof. exact C45_energy_gain_refuted_lem. Qed.
Print Assumptions C45_energy_gain_refuted.

Example C45_ex : finds_roots ramp_newton /\ exists v, values_at_turns ramp_newton (ramp_machine 1) = Ok v /\
  tn_e0 (tv_turns v) = [4; 5] /\ tn_deltaE0 (tv_turns v) = [1; 0].
Proof.
  split.
  - intros f x0 f' x Hx. unfold ramp_newton in Hx. destruct (Req_EM_T (f (PI / 6)) 0); [|discriminate]. injection Hx as <-. auto.
  - destruct ex_values as (v & H & E & D & _). exists v. auto.
Qed.

(** C12, proved for profiles not before the machine reference frame (so for
    all profiles if the machine reference frame is the first one): a particle
    with zero offsets keeps them. *)
Theorem C12_synchronous_partial : forall newton m v d np ref p r ph de ftn,
  (0 < d)%nat -> (S p < np)%nat -> (ref <= p)%nat -> (r = Z.of_nat p \/ r = Z.of_nat p - Z.of_nat np)%Z ->
  rm_dturns m = Z.of_nat d -> rm_nprofiles m = Z.of_nat np -> rm_ref_frame m = Z.of_nat ref ->
  values_at_turns newton m = Ok v -> length ph = length de ->
  exists s, track Rplus Rminus Rmult sin 0 (tracking_machine m v) np (Z.of_nat d) r 0 ph de ftn = Ok s /\
  forall q k, (ref <= q < np)%nat -> nth_error ph k = Some 0 -> nth_error de k = Some 0 ->
    exists x y, nth_error (xp s) q = Some x /\ nth_error (yp s) q = Some y /\
      nth_error x k = Some 0 /\ nth_error y k = Some 0.
Proof. exact C12_synchronous_partial_lem. Qed.
Print Assumptions C12_synchronous_partial.

(** C12, refuted for a machine reference frame after the first profile: the
    particle with zero offsets at the first profile has energy offset 1 at the
    second. *)
Theorem C12_synchronous_refuted : exists newton m v s y,
  finds_roots newton /\ rm_ref_frame m = 1%Z /\ values_at_turns newton m = Ok v /\
  track Rplus Rminus Rmult sin 0 (tracking_machine m v) 2 1 0 0 [0] [0] false = Ok s /\
  nth_error (yp s) 1 = Some [y] /\ y <> 0.
Proof. exact C12_synchronous_refuted_lem. Qed.
Print Assumptions C12_synchronous_refuted.

(** The hypotheses are met with the reference frame 0 as well. *)
Example C12_ex : exists m, rm_ref_frame m = 0%Z /\ rm_dturns m = 1%Z /\ rm_nprofiles m = 2%Z /\
  exists v, values_at_turns ramp_newton m = Ok v.
Proof. exists (ramp_machine 0). repeat split. exact ex_values_0. Qed.

(** C11: the coordinates at profile q of any distribution are the image of
    the initial ones under one map, which preserves areas; for every machine,
    every start profile and every profile q. *)
Theorem C11_area : forall m F np d p q, (0 < d)%nat -> (S p < np)%nat -> (q < np)%nat ->
  holds m F (d * (np - 1)) ->
  exists f, area_preserving f /\
    forall ph de ftn s, length ph = length de ->
      track Rplus Rminus Rmult sin 0 m np (Z.of_nat d) (Z.of_nat p) 0 ph de ftn = Ok s ->
      row_is (xp s) (yp s) q (map f (combine ph de)).
Proof. exact C11_area_lem. Qed.
Print Assumptions C11_area.

(** C11, negative offsets: the same for a start before the profile, when the
    distribution is given at turn a = p * dturns + deltaturn. *)
Theorem C11_area_deltaturn : forall m F np d p q delta a, (0 < d)%nat -> (q < np)%nat -> (delta <= 0)%Z ->
  Z.of_nat a = (p * Z.of_nat d + delta)%Z -> (0 <= p < Z.of_nat np)%Z ->
  holds m F (d * (np - 1)) ->
  exists f, area_preserving f /\
    forall ph de ftn s, length ph = length de ->
      track Rplus Rminus Rmult sin 0 m np (Z.of_nat d) p delta ph de ftn = Ok s ->
      row_is (xp s) (yp s) q (map f (combine ph de)).
Proof. exact C11_area_deltaturn_lem. Qed.
Print Assumptions C11_area_deltaturn.

(** A constant machine with two RF systems meets the hypotheses; the map that
    doubles the energy is rejected. *)
Example C11_ex : exists m F, holds m F (2 * (3 - 1)) /\ rf1v m = repeat 1 5 /\ hratio m = 2.
Proof.
  exists (Machine (repeat 1 5) (repeat 1 5) (repeat 1 5) (repeat 1 5) (repeat 1 5) (repeat 1 5) 2),
    (Params (fun _ => 1) (fun _ => 1) (fun _ => 1) (fun _ => 1) (fun _ => 1) (fun _ => 1) 2).
  split; [|split; reflexivity]. split; [reflexivity|].
  intros t Ht. do 5 (destruct t as [|t]; [repeat split; reflexivity|]). lia.
Qed.
Example C11_ex_not : ~ area_preserving (fun p => (fst p, 2 * snd p)).
Proof. exact not_area. Qed.

(** C46: the derivatives given to the root finder for the synchronous phase,
    for all voltages, phases and machines. *)
Theorem C46_rf_voltage : forall v1 v2 bdot h_ratio phi12 radius bending_rad charge phi,
  derivable_pt_lim (fun x => rf_voltage x v1 v2 bdot h_ratio phi12 radius bending_rad charge) phi
    (drf_voltage phi v1 v2 h_ratio phi12) /\
  derivable_pt_lim (fun x => rfvolt_rf1 x v1 bdot radius bending_rad charge) phi (drfvolt_rf1 phi v1).
Proof. exact C46_rf_voltage_lem. Qed.
Print Assumptions C46_rf_voltage.

Theorem C46_machine : forall m time phi,
  derivable_pt_lim (rf_voltage_mch m time) phi (drf_voltage_mch m time phi) /\
  derivable_pt_lim (rfvolt_rf1_mch m time) phi (drfvolt_rf1_mch m time phi).
Proof. exact C46_machine_lem. Qed.
Print Assumptions C46_machine.

(** C46, potential energy: the derivative is right if the voltages at the
    turn and at the index of the reference frame are the same. *)
Theorem C46_phase_low_partial : forall len vrf1 vrf2 phi0 h_ratio phi12 rf_turn ref_frame f phase df,
  (forall x, phase_low x len vrf1 vrf2 phi0 h_ratio phi12 rf_turn ref_frame = Ok (f x)) ->
  dphase_low phase len vrf1 vrf2 h_ratio phi12 rf_turn = Ok df ->
  np_get vrf1 ref_frame = np_get vrf1 rf_turn -> np_get vrf2 ref_frame = np_get vrf2 rf_turn ->
  derivable_pt_lim f phase df.
Proof. exact C46_phase_low_partial_lem. Qed.
Print Assumptions C46_phase_low_partial.

(** C46, potential energy, refuted: [ref_frame] is a frame number but used as
    a turn number; with 2 turns per frame, reference frame 1 and a rising
    voltage, the derivative belongs to another function. *)
Theorem C46_phase_low_refuted : exists len vrf1 vrf2 phi0 h_ratio phi12 dturns ref_frame f phase df,
  (forall x, phase_low x len vrf1 vrf2 phi0 h_ratio phi12 (ref_frame * dturns) ref_frame = Ok (f x)) /\
  dphase_low phase len vrf1 vrf2 h_ratio phi12 (ref_frame * dturns) = Ok df /\
  ~ derivable_pt_lim f phase df.
Proof. exact C46_phase_low_refuted_lem. Qed.
Print Assumptions C46_phase_low_refuted.

Example C46_ex : exists f, (forall x, phase_low x 1 [1; 1] [3; 3] [0; 0] 2 0 1 0 = Ok (f x)) /\
  exists df, dphase_low 5 1 [1; 1] [3; 3] 2 0 1 = Ok df.
Proof.
  eexists. split; [|eexists; reflexivity]. intros x. unfold phase_low.
  change (np_get [1; 1] 0) with (@Ok R 1). change (np_get [3; 3] 0) with (@Ok R 3). cbn [bind].
  unfold rdiv. destruct (Req_EM_T 2 0); [lra|]. cbn. reflexivity.
Qed.

(** C47: energy, momentum and mass at the reference turn. *)
Theorem C47_energy : forall m, exists e, b_to_e m = Ok e /\ Rabs (rm_e_rest m) <= e /\
  e ^ 2 = (rm_q m * rm_b0 m * rm_bending m * c_light) ^ 2 + rm_e_rest m ^ 2.
Proof. exact C47_energy_lem. Qed.
Print Assumptions C47_energy.

(** C47: a charged particle in a field moves, slower than light; its speed is
    momentum over energy. *)
Theorem C47_beta : forall m, 0 < rm_e_rest m -> rm_q m * rm_b0 m * rm_bending m <> 0 ->
  exists e b, b_to_e m = Ok e /\ lorentz_beta m e = Ok b /\ rm_e_rest m < e /\ 0 < b < 1 /\
    b * e = Rabs (rm_q m * rm_b0 m * rm_bending m * c_light).
Proof. exact C47_beta_lem. Qed.
Print Assumptions C47_beta.

(** C47: at every turn the energy exceeds the rest energy, the speed is
    between 0 and that of light, the revolution frequency between 0 and c/R,
    and the slip factor is positive exactly below transition. *)
Theorem C47_turns : forall newton m v d np p, (0 < d)%nat -> (0 < np)%nat ->
  rm_dturns m = Z.of_nat d -> rm_nprofiles m = Z.of_nat np -> rm_ref_frame m = Z.of_nat p ->
  0 < rm_e_rest m -> 0 < rm_radius m -> 0 < rm_trans_gamma m ->
  values_at_turns newton m = Ok v ->
  forall i, (i <= d * (np - 1))%nat ->
  let s := tv_turns v in
  rm_e_rest m < Rabs (at_ (tn_e0 s) i) /\
  0 < at_ (tn_beta0 s) i < 1 /\
  0 < at_ (tv_omega_rev0 v) i < c_light / rm_radius m /\
  (0 < at_ (tv_eta0 v) i <-> Rabs (at_ (tn_e0 s) i) < rm_trans_gamma m * rm_e_rest m).
Proof. exact C47_turns_lem. Qed.
Print Assumptions C47_turns.

(** C47, charge 0 (which the input checks accept): the speed is 0, and no
    machine with finite values results. *)
Theorem C47_charge_zero_refuted : forall newton m v d np p, (0 < d)%nat -> (0 < np)%nat ->
  rm_dturns m = Z.of_nat d -> rm_nprofiles m = Z.of_nat np -> rm_ref_frame m = Z.of_nat p ->
  (p < np)%nat -> rm_e_rest m <> 0 -> rm_q m = 0 ->
  values_at_turns newton m <> Ok v.
Proof. exact C47_charge_zero_refuted_lem. Qed.
Print Assumptions C47_charge_zero_refuted.

Example C47_ex : 0 < rm_e_rest (ramp_machine 1) /\ 0 < rm_radius (ramp_machine 1) /\ 0 < rm_trans_gamma (ramp_machine 1) /\
  rm_q (ramp_machine 1) * rm_b0 (ramp_machine 1) * rm_bending (ramp_machine 1) <> 0 /\
  exists v, values_at_turns ramp_newton (ramp_machine 1) = Ok v.
Proof. exact ex_bounds. Qed.
