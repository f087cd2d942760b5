(** Model of LT/tracking/machine.py [Machine.values_at_turns] and the formulas
    of LT/utils/physics.py, over the real numbers.  Rounding is not modelled.
    scipy's Newton root finder is a function parameter. *)
From Coq Require Import Reals List ZArith Bool.
From Verif Require Import Base.Res Base.RLib Model.MRecon Model.MParticles Model.MTrack.
Import ListNotations.
Local Open Scope R_scope.

(** scipy.constants.c [m/s] (exact) and e [C] (exact). *)
Definition c_light : R := IZR 299792458.
Definition e_charge : R := IZR 1602176634 / 10 ^ 28.

(** The settings used, machine_base.py 197-247, machine.py 96-115. *)
Record rmachine := RMachine {
  rm_dturns : Z; rm_nprofiles : Z; rm_ref_frame : Z;
  rm_q : R; rm_b0 : R; rm_bdot : R; rm_bending : R; rm_radius : R; rm_trans_gamma : R; rm_e_rest : R;
  rm_h_num : R; rm_h_ratio : R; rm_phi12 : R; rm_vrf1 : R; rm_vrf1dot : R; rm_vrf2 : R; rm_vrf2dot : R }.

(** ** physics.py *)

(** 38-42 [b_to_e]. *)
Definition b_to_e (m : rmachine) : res R :=
  rsqrt ((rm_q m * rm_b0 m * rm_bending m * c_light) ^ 2 + rm_e_rest m ^ 2).

(** 60-61 [lorentz_beta], for the energy e of the turn; machine.py 153-154 and
    165 are the same expression. *)
Definition lorentz_beta (m : rmachine) (e : R) : res R :=
  r <- rdiv (rm_e_rest m) e ;; rsqrt (1 - r ^ 2).

(** 90-93 [rfvolt_rf1]. *)
Definition rfvolt_rf1 (phi v1 bdot radius bending_rad charge : R) : R :=
  v1 * sin phi - 2 * PI * radius * bending_rad * bdot * rsign charge.
(** 113 [drfvolt_rf1]. *)
Definition drfvolt_rf1 (phi v1 : R) : R := v1 * cos phi.
(** 185-189 [rf_voltage]. *)
Definition rf_voltage (phi v1 v2 bdot h_ratio phi12 radius bending_rad charge : R) : R :=
  v1 * sin phi + v2 * sin (h_ratio * (phi - phi12)) - PI * 2 * radius * bending_rad * bdot * rsign charge.
(** 243 [drf_voltage]. *)
Definition drf_voltage (phi v1 v2 h_ratio phi12 : R) : R :=
  v1 * cos phi + h_ratio * v2 * cos (h_ratio * (phi - phi12)).
(** 307 [vrft]. *)
Definition vrft (vrf vrf_dot turn_time : R) : R := vrf + vrf_dot * turn_time.
(** 116-131 [rfvolt_rf1_mch], [drfvolt_rf1_mch], at the time of the turn. *)
Definition rfvolt_rf1_mch (m : rmachine) (time phi : R) : R :=
  rfvolt_rf1 phi (vrft (rm_vrf1 m) (rm_vrf1dot m) time) (rm_bdot m) (rm_radius m) (rm_bending m) (rm_q m).
Definition drfvolt_rf1_mch (m : rmachine) (time phi : R) : R :=
  drfvolt_rf1 phi (vrft (rm_vrf1 m) (rm_vrf1dot m) time).
(** 192-200 [rf_voltage_mch]. *)
Definition rf_voltage_mch (m : rmachine) (time phi : R) : R :=
  rf_voltage phi (vrft (rm_vrf1 m) (rm_vrf1dot m) time) (vrft (rm_vrf2 m) (rm_vrf2dot m) time)
    (rm_bdot m) (rm_h_ratio m) (rm_phi12 m) (rm_radius m) (rm_bending m) (rm_q m).
(** 246-255 [drf_voltage_mch]. *)
Definition drf_voltage_mch (m : rmachine) (time phi : R) : R :=
  vrft (rm_vrf1 m) (rm_vrf1dot m) time * cos phi
  + rm_h_ratio m * vrft (rm_vrf2 m) (rm_vrf2dot m) time * cos (rm_h_ratio m * (phi - rm_phi12 m)).
(** 282-285 and 268-277 [rf_voltage_at_phase]. *)
Definition rf_voltage_at_phase (phi vrf1 vrf2 h_ratio phi12 : R) : R :=
  vrf1 * sin phi + vrf2 * sin (h_ratio * (phi - phi12)).
Definition rf_voltage_at_turn (m : rmachine) (phi time : R) : R :=
  rf_voltage_at_phase phi (vrft (rm_vrf1 m) (rm_vrf1dot m) time) (vrft (rm_vrf2 m) (rm_vrf2dot m) time)
    (rm_h_ratio m) (rm_phi12 m).
(** 371-381 [find_phi_lower_upper], for the energy e of the turn. *)
Definition find_phi_lower_upper (m : rmachine) (e : R) : res (R * R) :=
  g <- rdiv e (rm_e_rest m) ;;
  Ok (if Rlt_dec 0 (rm_q m * (rm_trans_gamma m - g)) then (- PI, PI) else (0, 2 * PI)).
(** 397 [phase_slip_factor], one turn. *)
Definition phase_slip_factor (m : rmachine) (beta : R) : res R :=
  g <- rdiv 1 (rm_trans_gamma m ^ 2) ;; Ok ((1 - beta ^ 2) - g).
(** 414-415 [find_dphase], one turn. *)
Definition find_dphase (m : rmachine) (eta e beta : R) : res R :=
  rdiv (2 * PI * rm_h_num m * eta) (e * beta ^ 2).
(** 431 [revolution_freq], one turn. *)
Definition revolution_freq (m : rmachine) (beta : R) : res R := rdiv (beta * c_light) (rm_radius m).

(** 494-507 [phase_low] and 580-593 [dphase_low]; voltages and synchronous
    phases are arrays over the turns, phi12 one number. *)
Definition phase_low (phase bunch_phaselength : R) (vrf1 vrf2 phi0 : list R) (h_ratio phi12 : R) (rf_turn ref_frame : Z) : res R :=
  v1r <- np_get vrf1 ref_frame ;;
  v2r <- np_get vrf2 ref_frame ;;
  v2 <- rdiv (v2r * (cos (h_ratio * (phase + bunch_phaselength - phi12)) - cos (h_ratio * (phase - phi12)))) h_ratio ;;
  p <- np_get phi0 rf_turn ;; v1t <- np_get vrf1 rf_turn ;; v2t <- np_get vrf2 rf_turn ;;
  Ok (v1r * (cos (phase + bunch_phaselength) - cos phase) + v2
      + bunch_phaselength * rf_voltage_at_phase p v1t v2t h_ratio phi12).
Definition dphase_low (phase bunch_phaselength : R) (vrf1 vrf2 : list R) (h_ratio phi12 : R) (rf_turn : Z) : res R :=
  v2 <- np_get vrf2 rf_turn ;;
  v1 <- np_get vrf1 rf_turn ;;
  Ok (-1 * v2 * (sin (h_ratio * (phase + bunch_phaselength - phi12)) - sin (h_ratio * (phase - phi12)))
      - v1 * (sin (phase + bunch_phaselength) - sin phase)).

Section Newton.
(** scipy.optimize.newton(func, x0, fprime). *)
Variable newton : (R -> R) -> R -> (R -> R) -> res R.

(** except RuntimeError: raise ValueError. *)
Definition as_value_error {A} (r : res A) : res A :=
  match r with Fail (Raised RuntimeError) => Fail (Raised ValueError) | _ => r end.

(** physics.py 310-348 [find_synch_phase_mch], at the time of the turn. *)
Definition find_synch_phase_mch (m : rmachine) (time phi_lower phi_upper : R) : res R :=
  as_value_error
    (phi_start <- newton (rfvolt_rf1_mch m time) ((phi_lower + phi_upper) / 2) (drfvolt_rf1_mch m time) ;;
     newton (rf_voltage_mch m time) phi_start (drf_voltage_mch m time)).

(** ** machine.py 122-195 *)

(** The arrays filled turn by turn. *)
Record turns := Turns { tn_time : list R; tn_phi0 : list R; tn_e0 : list R; tn_beta0 : list R; tn_deltaE0 : list R }.

(** 256-265 [_array_initial_values], before the loops. *)
Definition array_initial_values (m : rmachine) (s : turns) : res (turns * Z) :=
  let i0 := (rm_ref_frame m * rm_dturns m)%Z in
  time <- pyset (tn_time s) i0 0 ;;
  e <- b_to_e m ;;
  e0 <- pyset (tn_e0 s) i0 e ;;
  b <- lorentz_beta m e ;;
  beta0 <- pyset (tn_beta0 s) i0 b ;;
  ' (lo, up) <- find_phi_lower_upper m e ;;
  p <- find_synch_phase_mch m 0 lo up ;;
  phi0 <- pyset (tn_phi0 s) i0 p ;;
  Ok (Turns time phi0 e0 beta0 (tn_deltaE0 s), i0).

(** 132-156: one pass of the upward loop. *)
Definition turn_up (m : rmachine) (i : Z) (s : turns) : res turns :=
  t <- np_get (tn_time s) (i - 1) ;;
  b <- np_get (tn_beta0 s) (i - 1) ;;
  dt <- rdiv (2 * PI * rm_radius m) (b * c_light) ;;
  time <- pyset (tn_time s) i (t + dt) ;;
  p <- np_get (tn_phi0 s) (i - 1) ;;
  p' <- as_value_error (newton (rf_voltage_mch m (t + dt)) p (drf_voltage_mch m (t + dt))) ;;
  phi0 <- pyset (tn_phi0 s) i p' ;;
  e <- np_get (tn_e0 s) (i - 1) ;;
  let e' := e + rm_q m * rf_voltage_at_turn m p' (t + dt) in
  e0 <- pyset (tn_e0 s) i e' ;;
  b' <- lorentz_beta m e' ;;
  beta0 <- pyset (tn_beta0 s) i b' ;;
  dE <- pyset (tn_deltaE0 s) i (e' - e) ;;
  Ok (Turns time phi0 e0 beta0 dE).

(** 157-182: one pass of the downward loop. *)
Definition turn_down (m : rmachine) (i : Z) (s : turns) : res turns :=
  e <- np_get (tn_e0 s) (i + 1) ;;
  p <- np_get (tn_phi0 s) (i + 1) ;;
  t <- np_get (tn_time s) (i + 1) ;;
  let e' := e - rm_q m * rf_voltage_at_turn m p t in
  e0 <- pyset (tn_e0 s) i e' ;;
  b' <- lorentz_beta m e' ;;
  beta0 <- pyset (tn_beta0 s) i b' ;;
  dE <- pyset (tn_deltaE0 s) i (e - e') ;;
  dt <- rdiv (2 * PI * rm_radius m) (b' * c_light) ;;
  time <- pyset (tn_time s) i (t - dt) ;;
  p' <- as_value_error (newton (rf_voltage_mch m (t - dt)) p (drf_voltage_mch m (t - dt))) ;;
  phi0 <- pyset (tn_phi0 s) i p' ;;
  Ok (Turns time phi0 e0 beta0 dE).

(** All arrays over the turns. *)
Record turn_values := TurnValues {
  tv_turns : turns; tv_eta0 : list R; tv_drift_coef : list R; tv_omega_rev0 : list R;
  tv_vrf1 : list R; tv_vrf2 : list R }.

(** range(a, b) and range(a, -1, -1). *)
Definition range_up (a b : Z) : list Z := map (fun k => a + Z.of_nat k)%Z (seq 0 (Z.to_nat (b - a))).
Definition range_down (a : Z) : list Z := map (fun k => a - Z.of_nat k)%Z (seq 0 (Z.to_nat (a + 1))).

(** 123-195, after assert_machine_input (modelled in MInput.v). *)
Definition values_at_turns (m : rmachine) : res turn_values :=
  let all_turns := ((rm_nprofiles m - 1) * rm_dturns m)%Z in
  if (all_turns + 1 <? 0)%Z then Fail (Raised ValueError)
  else
    let z := repeat 0 (Z.to_nat (all_turns + 1)) in
    ' (s, i0) <- array_initial_values m (Turns z z z z z) ;;
    s <- forl (range_up (i0 + 1) (all_turns + 1)) (turn_up m) s ;;
    s <- forl (range_down (i0 - 1)) (turn_down m) s ;;
    eta <- mapM (phase_slip_factor m) (tn_beta0 s) ;;
    drift <- mapM (fun x => find_dphase m (fst x) (fst (snd x)) (snd (snd x)))
               (combine eta (combine (tn_e0 s) (tn_beta0 s))) ;;
    omega <- mapM (revolution_freq m) (tn_beta0 s) ;;
    Ok (TurnValues s eta drift omega
          (map (fun t => rm_vrf1 m + rm_vrf1dot m * t) (tn_time s))
          (map (fun t => rm_vrf2 m + rm_vrf2dot m * t) (tn_time s))).
End Newton.

(** The arrays handed to the tracking routine, tracking.py 186-190 and
    207-213; phi12 as an array over the turns. *)
Definition tracking_machine (m : rmachine) (v : turn_values) : machine R :=
  Machine (map (fun x => x * rm_q m) (tv_vrf1 v)) (map (fun x => x * rm_q m) (tv_vrf2 v))
    (tn_phi0 (tv_turns v)) (tn_deltaE0 (tv_turns v)) (tv_drift_coef v)
    (map (fun _ => rm_phi12 m) (tn_phi0 (tv_turns v))) (rm_h_ratio m).
