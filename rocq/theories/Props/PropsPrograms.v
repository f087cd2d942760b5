(** Theorems on the machine built from programs (C64-C68).
    Statements only: each theorem is closed by the lemma of the same name in
    Proof/CPrograms.v.  Written by tools/mkprops.py. *)
From Coq Require Import Reals List ZArith Bool Lia Lra Psatz.
From Verif Require Import Base.Res Base.RLib Model.MParticles Model.MTrack Model.MMachine Model.MPrograms Spec.MachineSpec Spec.ProgramsSpec.
Import ListNotations.
Local Open Scope R_scope.
From Verif Require Import Proof.CPrograms.

(** C64: the turns follow the momentum program.  If at least i0 revolutions lie
    between the start of the program and t_ref, then turn i0 is the first that
    is not before t_ref, and from each turn to the next one revolution passes
    and the momentum is that of the program.  The number of turns is the one
    asked for, or one less. *)
Theorem C64_turns_partial : forall m time mom p i0 n fuel ts ps,
  good_program m time mom -> 0 < p -> (forall i, (i < length time)%nat -> p <= at_ mom i) ->
  pg_i0 m = Z.of_nat i0 -> pg_nturns m = Z.of_nat n -> (i0 < n)%nat ->
  at_ time 0 + INR i0 * revolution m p < pg_t_ref m ->
  interpolate_momentum fuel m time mom = Ok (ts, ps) ->
  (length ts = n \/ S (length ts) = n) /\ length ps = length ts /\ first_at ts (pg_t_ref m) i0 /\
  (forall i, (S i < length ts)%nat -> follows m time mom ts ps i) /\
  ((at_ ts 0 = at_ time 0 + revolution m (at_ mom 0) /\ at_ ps 0 = at_ mom 0) \/ on_line time mom (at_ ts 0) (at_ ps 0)).
Proof. exact C64_turns_partial_lem. Qed.
Print Assumptions C64_turns_partial.

(** C65: the construction ends, with the turns or with an IndexError or
    ValueError; more steps would not change that. *)
Theorem C65_ends : forall m time mom, good_program m time mom -> exists F, forall fuel, (F <= fuel)%nat ->
  interpolate_momentum fuel m time mom = interpolate_momentum F m time mom /\
  ((exists ts ps, interpolate_momentum fuel m time mom = Ok (ts, ps)) \/
   interpolate_momentum fuel m time mom = Fail (Raised IndexError) \/
   interpolate_momentum fuel m time mom = Fail (Raised ValueError)).
Proof. exact C65_ends_lem. Qed.
Print Assumptions C65_ends.

(** C65: a program long enough gives the turns.  It has to reach from i0
    (slowest) revolutions before t_ref to n - i0 + 1 after it. *)
Theorem C65_enough : forall m time mom p i0 n,
  good_program m time mom -> 0 < p -> (forall i, (i < length time)%nat -> p <= at_ mom i) ->
  pg_i0 m = Z.of_nat i0 -> pg_nturns m = Z.of_nat n -> (i0 + 2 <= n)%nat ->
  at_ time 0 + INR i0 * revolution m p < pg_t_ref m ->
  pg_t_ref m + INR (n - i0 + 1) * revolution m p <= at_ time (length time - 1) ->
  exists F ts ps, forall fuel, (F <= fuel)%nat -> interpolate_momentum fuel m time mom = Ok (ts, ps).
Proof. exact C65_enough_lem. Qed.
Print Assumptions C65_enough.

(** C66: what is stored for each turn belongs together: energy, speed, slip
    factor, drift coefficient, revolution frequency; the reference turn is at
    time 0.  (Each time step is the revolution at the speed of the later
    turn, and the energy differences are those to the next turn.) *)
Theorem C66_values_partial : forall newton fuel m v time mom i0,
  pg_momentum m = [time; mom] -> good_program m time mom -> pg_i0 m = Z.of_nat i0 ->
  programs_machine newton fuel m = Ok v ->
  exists n ts, pv_n_turns v = Z.of_nat n /\ stored_per_turn n v /\ length (pv_deltaE0 v) = (n - 1)%nat /\
    length ts = n /\ interpolate_momentum fuel m time mom = Ok (ts, pv_momentum v) /\
    at_ (pv_time v) i0 = 0 /\ (i0 < n)%nat /\
    (forall i, (i < n)%nat ->
      let p := at_ (pv_momentum v) i in let e := at_ (pv_e0 v) i in let b := at_ (pv_beta0 v) i in
      0 < p /\ 0 < e /\ e ^ 2 = p ^ 2 + pg_e_rest m ^ 2 /\ b * e = p /\
      at_ (pv_eta0 v) i = pg_e_rest m ^ 2 / e ^ 2 - 1 / pg_trans_gamma m ^ 2 /\
      at_ (pv_drift_coef v) i * (e * b ^ 2) = 2 * PI * pg_h_num m * at_ (pv_eta0 v) i /\
      at_ (pv_omega_rev0 v) i * revolution m p = 2 * PI) /\
    (forall i, (S i < n)%nat ->
      at_ (pv_time v) (S i) - at_ (pv_time v) i = revolution m (at_ (pv_momentum v) (S i)) /\
      at_ (pv_deltaE0 v) i = at_ (pv_e0 v) (S i) - at_ (pv_e0 v) i).
Proof. exact C66_values_partial_lem. Qed.
Print Assumptions C66_values_partial.

(** C67: with an exact root finder, the phases stored are synchronous: the
    voltage of turn i at that phase equals the energy gain the field asks for. *)
Theorem C67_synchronous : forall newton fuel m v a i0, finds_roots newton -> pg_i0 m = Z.of_nat i0 ->
  programs_machine newton fuel m = Ok v -> pv_phi12 v = Some a ->
  forall i, (Z.of_nat i < pv_n_turns v)%Z -> exists p12, phi12_at a (Z.of_nat i) = Ok p12 /\
    let phi := at_ (pv_phi0 v) i in
    at_ (pv_vrf1 v) i * sin phi + at_ (pv_vrf2 v) i * sin (pv_h_ratio v * (phi - p12)) =
    2 * PI * pg_radius m * pg_bending m * at_ (pv_bdot v) i * rsign (pg_q m).
Proof. exact C67_synchronous_lem. Qed.
Print Assumptions C67_synchronous.

(** C67: where the search starts.  At the reference turn it starts at 0 below
    transition and at pi above, first with the first system alone; every other
    turn starts with the phase of its neighbour. *)
Theorem C67_search : forall newton fuel m v a i0, pg_i0 m = Z.of_nat i0 ->
  programs_machine newton fuel m = Ok v -> pv_phi12 v = Some a ->
  let gain i := 2 * PI * pg_radius m * pg_bending m * at_ (pv_bdot v) i * rsign (pg_q m) in
  let search i p12 x := newton
    (fun phi => at_ (pv_vrf1 v) i * sin phi + at_ (pv_vrf2 v) i * sin (pv_h_ratio v * (phi - p12)) - gain i) x
    (fun phi => at_ (pv_vrf1 v) i * cos phi + pv_h_ratio v * at_ (pv_vrf2 v) i * cos (pv_h_ratio v * (phi - p12))) in
  let centre := if Rlt_dec 0 (pg_q m * (pg_trans_gamma m - at_ (pv_e0 v) i0 / pg_e_rest m)) then 0 else PI in
  (exists s p12, phi12_at a (Z.of_nat i0) = Ok p12 /\
     newton (fun phi => at_ (pv_vrf1 v) i0 * sin phi - gain i0) centre (fun phi => at_ (pv_vrf1 v) i0 * cos phi) = Ok s /\
     search i0 p12 s = Ok (at_ (pv_phi0 v) i0)) /\
  (forall i, (i < i0)%nat -> exists p12, phi12_at a (Z.of_nat i) = Ok p12 /\
     search i p12 (at_ (pv_phi0 v) (i + 1)) = Ok (at_ (pv_phi0 v) i)) /\
  (forall i, (i0 < i)%nat -> (Z.of_nat i < pv_n_turns v)%Z -> exists p12, phi12_at a (Z.of_nat i) = Ok p12 /\
     search i p12 (at_ (pv_phi0 v) (i - 1)) = Ok (at_ (pv_phi0 v) i)).
Proof. exact C67_search_lem. Qed.
Print Assumptions C67_search.

(** C67: without a phase program and phi12, no phase is searched; the phases
    are 0 and phi12 is left open. *)
Theorem C67_open : forall newton fuel m v, pg_phi12 m = None -> pg_phase m = None ->
  programs_machine newton fuel m = Ok v -> pv_phi12 v = None /\ forall i, at_ (pv_phi0 v) i = 0.
Proof. exact C67_open_lem. Qed.
Print Assumptions C67_open.

(** C67, passing phi12: a number or a numpy array never gives a machine. *)
Theorem C67_phi12_refuted : forall newton fuel m a i0, pg_phi12 m = Some a -> pg_i0 m = Z.of_nat i0 ->
  match a with PhiList _ => False | _ => True end ->
  forall v, programs_machine newton fuel m <> Ok v.
Proof. exact C67_phi12_refuted_lem. Qed.
Print Assumptions C67_phi12_refuted.

(** C64: the voltages of a turn are those of the voltage program at its time;
    the second one is 0 if there is one harmonic only. *)
Theorem C64_voltages : forall newton fuel m v time mom vt v1 rest,
  pg_momentum m = [time; mom] -> pg_voltage m = vt :: v1 :: rest -> increasing vt ->
  programs_machine newton fuel m = Ok v ->
  exists ts, interpolate_momentum fuel m time mom = Ok (ts, pv_momentum v) /\
    forall i, (i < length ts)%nat -> program_value vt v1 (at_ ts i) (at_ (pv_vrf1 v) i) /\
      (length (pg_harmonics m) = 1%nat -> at_ (pv_vrf2 v) i = 0 /\ pv_h_ratio v = 1) /\
      (forall h0 h1, pg_harmonics m = [h0; h1] -> exists v2 rest', rest = v2 :: rest' /\
         program_value vt v2 (at_ ts i) (at_ (pv_vrf2 v) i) /\ pv_h_ratio v * h0 = h1).
Proof. exact C64_voltages_lem. Qed.
Print Assumptions C64_voltages.

Theorem C67_phases : forall newton fuel m v time mom pt p1 p2 h0 h1,
  pg_momentum m = [time; mom] -> pg_phase m = Some [pt; p1; p2] -> pg_phi12 m = None -> increasing pt ->
  pg_harmonics m = [h0; h1] -> programs_machine newton fuel m = Ok v ->
  exists ts l, interpolate_momentum fuel m time mom = Ok (ts, pv_momentum v) /\ pv_phi12 v = Some (PhiArray l) /\
    length l = length ts /\
    forall i, (i < length ts)%nat -> exists y1 y2, program_value pt p1 (at_ ts i) y1 /\ program_value pt p2 (at_ ts i) y2 /\
      at_ l i * pv_h_ratio v = y1 - y2 + PI.
Proof. exact C67_phases_lem. Qed.
Print Assumptions C67_phases.

(** C68: the numerical derivative is exact for a linear function, and inside
    also for a quadratic one, however the points are spaced. *)
Theorem C68_derivative : forall f x g a b c, gradient f x = Ok g -> increasing x ->
  (forall i, (i < length x)%nat -> at_ f i = a + b * at_ x i + c * at_ x i ^ 2) ->
  length g = length x /\
  (forall i, (0 < i)%nat -> (S i < length x)%nat -> at_ g i = b + 2 * c * at_ x i) /\
  (c = 0 -> forall i, (i < length x)%nat -> at_ g i = b).
Proof. exact C68_derivative_lem. Qed.
Print Assumptions C68_derivative.

(** C68: so if the momentum is linear in the stored time, the stored field
    derivative is its slope over charge, bending radius and c. *)
Theorem C68_field : forall newton fuel m v time mom i0 a b,
  pg_momentum m = [time; mom] -> good_program m time mom -> pg_i0 m = Z.of_nat i0 ->
  programs_machine newton fuel m = Ok v ->
  (forall i, (Z.of_nat i < pv_n_turns v)%Z -> at_ (pv_momentum v) i = a + b * at_ (pv_time v) i) ->
  forall i, (Z.of_nat i < pv_n_turns v)%Z -> at_ (pv_bdot v) i = b / (pg_bending m * pg_q m) / c_light.
Proof. exact C68_field_lem. Qed.
Print Assumptions C68_field.

(** C65: with the turns found, with voltage programs and with sensible
    constants, the machine is built (no phases are searched here). *)
Theorem C65_built : forall newton fuel m time mom vt v1 v2 ts ps i0,
  pg_momentum m = [time; mom] -> good_program m time mom -> pg_i0 m = Z.of_nat i0 ->
  interpolate_momentum fuel m time mom = Ok (ts, ps) -> (2 <= length ts)%nat -> (i0 < length ts)%nat ->
  pg_voltage m = [vt; v1; v2] -> increasing vt -> (0 < length vt)%nat -> length v1 = length vt -> length v2 = length vt ->
  ((exists h, pg_harmonics m = [h]) \/ (exists h0 h1, pg_harmonics m = [h0; h1] /\ h0 <> 0)) ->
  pg_phi12 m = None -> pg_phase m = None ->
  pg_trans_gamma m <> 0 -> pg_bending m * pg_q m <> 0 ->
  exists v, programs_machine newton fuel m = Ok v.
Proof. exact C65_built_lem. Qed.
Print Assumptions C65_built.

(** C64, number of turns: a program that is long enough may still give one
    turn less than asked for. *)
Theorem C64_length_refuted : exists m time mom fuel ts ps,
  good_program m time mom /\ (forall i, (i < length time)%nat -> at_ mom i = 9) /\ pg_i0 m = 0%Z /\ pg_nturns m = 3%Z /\
  at_ time 0 < pg_t_ref m /\ interpolate_momentum fuel m time mom = Ok (ts, ps) /\ length ts = 2%nat.
Proof. exact C64_length_refuted_lem. Qed.
Print Assumptions C64_length_refuted.

(** C64, first turn: at the first turn, one revolution after the start of the
    program, the momentum is still that of the start. *)
Theorem C64_first_refuted : exists m time mom fuel ts ps,
  good_program m time mom /\ pg_i0 m = 0%Z /\ at_ time 0 < pg_t_ref m /\
  interpolate_momentum fuel m time mom = Ok (ts, ps) /\ ~ program_value time mom (at_ ts 0) (at_ ps 0).
Proof. exact C64_first_refuted_lem. Qed.
Print Assumptions C64_first_refuted.

(** C64, reference turn: with less than i0 turns before t_ref, the cut is
    silently empty. *)
Theorem C64_lead_refuted : exists m time mom fuel,
  good_program m time mom /\ at_ time 0 < pg_t_ref m /\ pg_i0 m = 2%Z /\ pg_nturns m = 4%Z /\
  interpolate_momentum fuel m time mom = Ok ([], []).
Proof. exact C64_lead_refuted_lem. Qed.
Print Assumptions C64_lead_refuted.

(** C66, energy gain: the stored differences are not those to the turn before,
    and one is missing. *)
Theorem C66_gain_refuted : exists m time mom fuel, pg_momentum m = [time; mom] /\ good_program m time mom /\
  forall newton, exists v, programs_machine newton fuel m = Ok v /\ pv_n_turns v = 3%Z /\ length (pv_deltaE0 v) = 2%nat /\
    at_ (pv_deltaE0 v) 1 <> at_ (pv_e0 v) 1 - at_ (pv_e0 v) 0.
Proof. exact C66_gain_refuted_lem. Qed.
Print Assumptions C66_gain_refuted.

(** C66, time: the stored times do not take one revolution at the speed of a
    turn to the next. *)
Theorem C66_time_refuted : exists m time mom fuel, pg_momentum m = [time; mom] /\ good_program m time mom /\
  forall newton, exists v, programs_machine newton fuel m = Ok v /\
    at_ (pv_time v) 1 - at_ (pv_time v) 0 <> revolution m (at_ (pv_momentum v) 0).
Proof. exact C66_time_refuted_lem. Qed.
Print Assumptions C66_time_refuted.

(** C66, harmonic: the drift coefficients are those of harmonic h_num (1 unless
    given), not those of the first harmonic passed. *)
Theorem C66_harmonic_refuted : exists m time mom fuel h, pg_momentum m = [time; mom] /\ good_program m time mom /\
  pg_harmonics m = [h] /\ pg_h_num m = 1 /\
  forall newton, exists v, programs_machine newton fuel m = Ok v /\
    at_ (pv_drift_coef v) 0 * (at_ (pv_e0 v) 0 * at_ (pv_beta0 v) 0 ^ 2) <> 2 * PI * h * at_ (pv_eta0 v) 0.
Proof. exact C66_harmonic_refuted_lem. Qed.
Print Assumptions C66_harmonic_refuted.

Theorem C66_tracking_refuted : forall newton fuel m v time mom i0 np recprof deltaturn phi12 ph de ftn,
  pg_momentum m = [time; mom] -> good_program m time mom -> pg_i0 m = Z.of_nat i0 ->
  programs_machine newton fuel m = Ok v -> pv_n_turns v = Z.of_nat np ->
  forall s, track Rplus Rminus Rmult sin 0 (pg_tracking m v phi12) np 1 recprof deltaturn ph de ftn <> Ok s.
Proof. exact C66_tracking_refuted_lem. Qed.
Print Assumptions C66_tracking_refuted.

(** Three turns of the ramp: C64, C65 and C66 speak about it. *)
Example C64_ex : good_program (ramp3 [1]) ramp_time ramp_mom /\ (forall i, (i < length ramp_time)%nat -> 9 <= at_ ramp_mom i) /\
  pg_i0 (ramp3 [1]) = Z.of_nat 0 /\ pg_nturns (ramp3 [1]) = Z.of_nat 3 /\
  at_ ramp_time 0 + INR 0 * revolution (ramp3 [1]) 9 < pg_t_ref (ramp3 [1]) /\
  interpolate_momentum 1 (ramp3 [1]) ramp_time ramp_mom = Ok ([2; 3; 15 / 4], [9; 16; 16]).
Proof.
  split; [apply ramp_good|]. split. { intros [|[|[|[|i]]]] Hi; try at_lra. cbn in Hi. lia. }
  split; [reflexivity|]. split; [reflexivity|]. split; [cbn; lra|]. apply ramp_interp. lia.
Qed.
Example C65_enough_ex : let m := ramp 1 2 0 (1 / 2) ramp_time ramp_mom [1] None None in
  good_program m ramp_time ramp_mom /\ at_ ramp_time 0 + INR 0 * revolution m 9 < pg_t_ref m /\
  pg_t_ref m + INR (2 - 0 + 1) * revolution m 9 <= at_ ramp_time (length ramp_time - 1).
Proof.
  cbv zeta. split; [apply ramp_good|]. rewrite rev_9 by reflexivity. split; [cbn; lra|]. unfold at_. cbn. lra.
Qed.
Example C66_ex : forall newton, exists v, programs_machine newton 1 (ramp3 [1]) = Ok v /\ pv_n_turns v = 3%Z /\ pv_momentum v = [9; 16; 16].
Proof. intros newton. destruct (ramp_machine_built newton 1 ltac:(lra)) as (v & H & N & M & _). eauto. Qed.
(** A machine with a phase program and a root finder that finds its phases. *)
Example C67_ex : finds_roots pi_newton /\
  exists v a, programs_machine pi_newton 3 ramp3_phase = Ok v /\ pv_phi12 v = Some a /\ pv_n_turns v = 3%Z.
Proof.
  split; [|apply phase_built]. intros f x0 f' x H. unfold pi_newton in H. destruct (Req_EM_T (f PI) 0); [|discriminate]. injection H as <-. auto.
Qed.
Example C68_ex : exists v, programs_machine pi_newton 3 ramp3_phase = Ok v /\
  forall i, (Z.of_nat i < pv_n_turns v)%Z -> at_ (pv_momentum v) i = 9 + 0 * at_ (pv_time v) i.
Proof.
  destruct phase_built as (v & a & H & _ & N). exists v. split; auto.
  assert (G : good_program ramp3_phase [0; 4] [9; 9]) by (destruct (flat_good 1 3 0 (3 / 2) [1; 2] None None); constructor; auto).
  destruct (C66_values_partial_lem pi_newton 3 ramp3_phase v [0; 4] [9; 9] 0 eq_refl G eq_refl H) as (n & ts & _ & _ & _ & _ & Hi & _).
  rewrite flat_interp in Hi. injection Hi as _ <-. rewrite N. intros [|[|[|i]]] Hi; unfold at_; cbn [nth]; try lra. lia.
Qed.
