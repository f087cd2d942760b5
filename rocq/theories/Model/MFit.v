(** Model of the fit of the synchronous bin, LT/data/pre_process.py 90-150 and
    337-352 (the version with a waterfall; 153-193 calls it with the waterfall
    and the machine of a Profiles object), and of the charge of a profile,
    LT/data/profiles.py 145-157.  Profiles are exact rational numbers, the
    machine is over the real numbers; scipy.optimize.newton is a function
    parameter. *)
From Coq Require Import Reals Qreals List ZArith Bool QArith Qcanon.
From Verif Require Import Base.Res Base.QcLib Base.RLib Model.MRecon Model.MParticles Model.MPreproc Model.MFoot Model.MMachine.
Import ListNotations.

(** 337-352 [_calc_tangentfeet]: the zeros of the lines through four bins at
    either end; bin i is at i + 0.5.  Returns (up, low). *)
Definition calc_tangentfeet (ref_prof : list Qc) : res (Qc * Qc) :=
  let index := tab (length ref_prof) (fun i => qn i + qq 1 2)%Qc in
  ' (up, low) <- calc_tangentbins ref_prof ;;
  ' (bl, al) <- polyfit1 (slice index (low - 2) (low + 2)) (slice ref_prof (low - 2) (low + 2)) ;;
  ' (bu, au) <- polyfit1 (slice index (up - 1) (up + 3)) (slice ref_prof (up - 1) (up + 3)) ;;
  foot_low <- qdiv (qz (-1) * al)%Qc bl ;;
  foot_up <- qdiv (qz (-1) * au)%Qc bu ;;
  Ok (foot_up, foot_low).

(** The machine parameters used. *)
Record fmachine := FMachine {
  fm_beam_ref : Z; fm_machine_ref : Z; fm_dturns : Z; fm_dtbin : R; fm_h_num : R; fm_h_ratio : R; fm_phi12 : R;
  fm_phi0 : list R; fm_omega : list R; fm_vrf1 : list R; fm_vrf2 : list R }.

(** The rational number as a real number. *)
Definition real (q : Qc) : R := Q2R (this q).

Section Fit.
(** scipy.optimize.newton(func, x0, fprime, tol, maxiter); func may raise. *)
Variable newton : (R -> res R) -> R -> (R -> res R) -> res R.
Local Open Scope R_scope.

(** 121-150 [fit_synch_part_x]. *)
Definition fit_synch_part_x (waterfall : list (list Qc)) (m : fmachine) : res (R * R * R) :=
  ref_prof <- np_get waterfall (fm_beam_ref m) ;;
  let ref_turn := (fm_beam_ref m * fm_dturns m)%Z in
  ' (up, low) <- calc_tangentfeet ref_prof ;;
  let tfoot_up := real up in let tfoot_low := real low in
  let bunch_duration := (tfoot_up - tfoot_low) * fm_dtbin m in
  omega <- np_get (fm_omega m) ref_turn ;;
  let bunch_phaselength := fm_h_num m * bunch_duration * omega in
  phi0 <- np_get (fm_phi0 m) ref_turn ;;
  phil <- newton (fun phase => phase_low phase bunch_phaselength (fm_vrf1 m) (fm_vrf2 m) (fm_phi0 m)
                    (fm_h_ratio m) (fm_phi12 m) ref_turn (fm_machine_ref m))
                 (phi0 - bunch_phaselength / 2)
                 (fun phase => dphase_low phase bunch_phaselength (fm_vrf1 m) (fm_vrf2 m)
                    (fm_h_ratio m) (fm_phi12 m) ref_turn) ;;
  d <- rdiv (phi0 - phil) (fm_h_num m * omega * fm_dtbin m) ;;
  Ok (tfoot_low + d, tfoot_low, tfoot_up).
End Fit.

(** profiles.py 154-157 [calc_profilecharge]; e: the elementary charge. *)
Definition calc_profilecharge (e : Qc) (waterfall : list (list Qc)) (beam_ref : Z) (sampling_time pickup : Qc) : res Qc :=
  ref_prof <- np_get waterfall beam_ref ;;
  qdiv (qsum ref_prof * sampling_time)%Qc (e * pickup)%Qc.
