(** Model of LT/tracking/phase_space_info.py [PhaseSpaceInfo]: the limits of the
    reconstruction area, over the real numbers.  Rounding is not modelled, nor
    is the overflow of the conversion to 32-bit integers. *)
From Coq Require Import Reals List ZArith Bool.
From Verif Require Import Base.Res Base.RLib Model.MRecon Model.MParticles Model.MMachine.
Import ListNotations.
Local Open Scope R_scope.

(** machine.phi12: one number, or one for each turn (315-318). *)
Inductive phase12 := OnePhi12 (x : R) | EachPhi12 (l : list R).

(** The machine parameters used. *)
Record lmachine := LMachine {
  l_nbins : nat; l_synch_x : R; l_synch_y : R; l_dtbin : R; l_h_num : R; l_demax : R; l_q : R; l_h_ratio : R;
  l_min_dt : R; l_max_dt : R; l_full : bool; l_beam_ref : Z; l_filmstart : Z; l_dturns : Z; l_phi12 : phase12;
  l_phi0 : list R; l_omega : list R; l_vrf1 : list R; l_vrf2 : list R; l_drift : list R;
  l_beta0 : list R; l_e0 : list R; l_eta0 : list R }.

(** 165-182 [calc_xorigin]. *)
Definition calc_xorigin (m : lmachine) : res R :=
  let turn := (l_beam_ref m * l_dturns m)%Z in
  p0 <- np_get (l_phi0 m) turn ;;
  om <- np_get (l_omega m) turn ;;
  x <- rdiv p0 (l_h_num m * om * l_dtbin m) ;;
  Ok (x - l_synch_x m).

(** 303-309 [_calculate_phases]: element i. *)
Definition phase_at (m : lmachine) (xorigin : R) (turn : Z) (i : nat) : res R :=
  om <- np_get (l_omega m) turn ;;
  Ok ((xorigin + INR i) * l_dtbin m * l_h_num m * om).

(** 312-345 [_trajectoryheight]: the real part of the complex square root. *)
Definition real_sqrt (x : R) : R := if Rlt_dec x 0 then 0 else sqrt x.
Definition phi12_at (m : lmachine) (turn : Z) : res R :=
  match l_phi12 m with OnePhi12 x => Ok x | EachPhi12 l => np_get l turn end.
Definition trajectory_height (m : lmachine) (phi phi_known delta_e_known : R) (turn : Z) : res R :=
  p12 <- phi12_at m turn ;;
  d <- np_get (l_drift m) turn ;;
  v1 <- np_get (l_vrf1 m) turn ;;
  v2 <- np_get (l_vrf2 m) turn ;;
  p0 <- np_get (l_phi0 m) turn ;;
  c <- rdiv (2 * l_q m) d ;;
  w <- rdiv (v2 * (cos (l_h_ratio m * (phi - p12)) - cos (l_h_ratio m * (phi_known - p12)))) (l_h_ratio m) ;;
  Ok (real_sqrt (c * (v1 * (cos phi - cos phi_known) + w
      + (phi - phi_known) * rf_voltage_at_phase p0 v1 v2 (l_h_ratio m) p12) + delta_e_known ^ 2)).

(** np.amax; the arrays have nbins+1 elements. *)
Definition rmax (l : list R) : res R :=
  match l with [] => Fail (Raised ValueError) | x :: r => Ok (fold_left Rmax r x) end.

(** 109-163 [find_dEbin]. *)
Definition find_dEbin (m : lmachine) (xorigin : R) : res R :=
  let turn := (l_beam_ref m * l_dturns m)%Z in
  let edges := seq 0 (l_nbins m + 1) in
  phases <- mapM (phase_at m xorigin turn) edges ;;
  if Req_EM_T (l_demax m) 0 then Fail (Raised EnergyBinningError)
  else if Rlt_dec (l_demax m) 0 then
    v2 <- np_get (l_vrf2 m) turn ;;
    if Req_EM_T v2 0 then
      beta <- np_get (l_beta0 m) turn ;;
      e0 <- np_get (l_e0 m) turn ;;
      v1 <- np_get (l_vrf1 m) turn ;;
      p0 <- np_get (l_phi0 m) turn ;;
      eta <- np_get (l_eta0 m) turn ;;
      om <- np_get (l_omega m) turn ;;
      x <- rdiv (e0 * l_q m * v1 * cos p0) (2 * PI * l_h_num m * eta) ;;
      s <- rsqrt x ;;
      Ok (beta * s * l_dtbin m * l_h_num m * om)
    else
      first <- np_get phases 0 ;;
      last <- np_get phases (Z.of_nat (l_nbins m)) ;;
      low <- mapM (fun phi => trajectory_height m phi first 0 turn) phases ;;
      up <- mapM (fun phi => trajectory_height m phi last 0 turn) phases ;;
      a <- rmax low ;;
      b <- rmax up ;;
      rdiv (Rmin a b) (INR (l_nbins m) - l_synch_y m)
  else rdiv (l_demax m) (INR (l_nbins m) - l_synch_y m).

(** 223-253 [_find_max_binned_energy]: edge i of the bins, then bin i. *)
Definition edge_limits (m : lmachine) (xorigin dEbin : R) (turn : Z) (i : nat) : res (Z * Z) :=
  phi <- phase_at m xorigin turn i ;;
  first <- phase_at m xorigin turn 0 ;;
  last <- phase_at m xorigin turn (l_nbins m) ;;
  h <- trajectory_height m phi first 0 turn ;;
  a <- rdiv h dEbin ;;
  h' <- trajectory_height m phi last 0 turn ;;
  b <- rdiv h' dEbin ;;
  Ok (rfloor (l_synch_y m + a), rfloor (l_synch_y m + b)).
Definition max_energy (m : lmachine) (edges : list (Z * Z)) (i : nat) : res Z :=
  e <- np_get edges (Z.of_nat i) ;;
  e' <- np_get edges (Z.of_nat i + 1)%Z ;;
  Ok (Z.min (Z.min (Z.min (snd e) (snd e')) (Z.min (fst e) (fst e'))) (Z.of_nat (l_nbins m))).
Definition find_max_binned_energy (m : lmachine) (xorigin dEbin : R) (turn : Z) : res (list Z) :=
  edges <- mapM (edge_limits m xorigin dEbin turn) (seq 0 (l_nbins m + 1)) ;;
  mapM (max_energy m edges) (seq 0 (l_nbins m)).

(** 258-261 [_find_min_binned_energy] with threshold 1. *)
Definition min_energy (m : lmachine) (jmax : Z) : Z :=
  let j := rceil (2 * l_synch_y m - IZR jmax - 1 / 2) in
  if (1 <=? j)%Z then j else 1%Z.

(** 371-375 [_assert_jlimits_ok]. *)
Definition assert_jlimits (jmin jmax : list Z) : res unit :=
  if forallb (fun p => snd p <=? fst p)%Z (combine jmin jmax) then Fail (Raised EnergyLimitsError) else Ok tt.

(** 264-275: the first and the last bin, bin 0 excepted, with jmax >= jmin;
    none: Python's None. *)
Definition valid_bin (jmin jmax : list Z) (i : nat) : bool := (0 <=? nth i jmax 0 - nth i jmin 0)%Z.
Definition find_min_binned_phase (m : lmachine) (jmin jmax : list Z) : option Z :=
  option_map Z.of_nat (find (valid_bin jmin jmax) (seq 0 (l_nbins m))).
Definition find_max_binned_phase (m : lmachine) (jmin jmax : list Z) : option Z :=
  option_map Z.of_nat (find (valid_bin jmin jmax) (rev (seq 1 (l_nbins m - 1)))).

(** 187-197 [_limits_track_full_image]. *)
Definition limits_full_image (m : lmachine) : list Z * list Z * option Z * option Z :=
  let n := Z.of_nat (l_nbins m) in
  (repeat (rceil (2 * l_synch_y m - IZR n + 1 / 2)) (l_nbins m), repeat n (l_nbins m), Some 0%Z, Some n).

(** 200-219 [_limits_track_rec_area]. *)
Definition limits_rec_area (m : lmachine) (xorigin dEbin : R) : res (list Z * list Z * option Z * option Z) :=
  let turn := (l_filmstart m * l_dturns m)%Z in
  jmax <- find_max_binned_energy m xorigin dEbin turn ;;
  let jmin := map (min_energy m) jmax in
  _ <- assert_jlimits jmin jmax ;;
  Ok (jmin, jmax, find_min_binned_phase m jmin jmax, find_max_binned_phase m jmin jmax).

(** l[a:b] = v: negative bounds count from the end. *)
Definition slice_bound (n : nat) (z : Z) : Z :=
  (if z <? 0 then Z.max 0 (z + Z.of_nat n) else Z.min z (Z.of_nat n))%Z.
Definition fill (l : list Z) (a b : Z) (v : Z) : list Z :=
  map (fun ix => if (a <=? Z.of_nat (fst ix)) && (Z.of_nat (fst ix) <? b) then v else snd ix)%Z
    (combine (seq 0 (length l)) l).

(** None compared with a number: TypeError. *)
Definition need (o : option Z) : res Z := match o with Some z => Ok z | None => Fail (Raised TypeError) end.

(** 281-300 [_adjust_limits]. *)
Definition mirrored (m : lmachine) (jmax : list Z) : list Z :=
  map (fun j => rceil (2 * l_synch_y m - IZR j + 1 / 2)) jmax.
Definition adjust_limits (m : lmachine) (jmax jmin : list Z) (imin imax : option Z)
  : res (list Z * list Z * Z * Z) :=
  q <- rdiv (l_max_dt m) (l_dtbin m) ;;
  let max_dtbin := rceil q in
  q' <- rdiv (l_min_dt m) (l_dtbin m) ;;
  let min_dtbin := rtrunc q' in
  imin <- need imin ;;
  let '(jmin, jmax, imin) :=
    if (imin <? min_dtbin)%Z || l_full m then
      let jmax := fill jmax 0 (slice_bound (length jmax) min_dtbin) (rfloor (l_synch_y m)) in
      (mirrored m jmax, jmax, min_dtbin)
    else (jmin, jmax, imin) in
  imax <- need imax ;;
  let '(jmin, jmax, imax) :=
    if (max_dtbin <? imax)%Z || l_full m then
      let jmax := fill jmax (slice_bound (length jmax) max_dtbin) (slice_bound (length jmax) (Z.of_nat (l_nbins m)))
                    (rfloor (l_synch_y m)) in
      (mirrored m jmax, jmax, (max_dtbin - 1)%Z)
    else (jmin, jmax, imax) in
  Ok (jmin, jmax, imin, imax).

(** 347-368 [_assert_correct_ijlimits].  imin is at least 0 at the slices. *)
Definition zslice {A} (l : list A) (a b : Z) : list A := firstn (Z.to_nat (b - a)) (skipn (Z.to_nat a) l).
Definition assert_correct_ijlimits (m : lmachine) (jmin jmax : list Z) (imin imax : Z) : res unit :=
  if ((imin <? 0) || (imax <? imin))%Z then Fail (Raised PhaseLimitsError)
  else if (Z.of_nat (length jmax) <? imax)%Z then Fail (Raised PhaseLimitsError)
  else if existsb (fun p => (fst p <? 0) || (snd p <? fst p))%Z (combine (zslice jmin imin imax) (zslice jmax imin imax))
  then Fail (Raised EnergyLimitsError)
  else if existsb (fun j => Z.of_nat (l_nbins m) <? j)%Z (zslice jmax imin imax) then Fail (Raised EnergyLimitsError)
  else if negb (Nat.eqb (length jmin) (length jmax)) then Fail (Raised ArrayLengthError)
  else assert_jlimits jmin jmax.

(** The attributes set by 58-107 [find_binned_phase_energy_limits]. *)
Record limits := Limits { lim_xorigin : R; lim_dEbin : R; lim_jmin : list Z; lim_jmax : list Z; lim_imin : Z; lim_imax : Z }.
Definition find_limits (m : lmachine) : res limits :=
  xorigin <- calc_xorigin m ;;
  dEbin <- find_dEbin m xorigin ;;
  if Rle_dec dEbin 0 then Fail (Raised EnergyBinningError)
  else
    ' (jmin, jmax, imin, imax) <-
      (if l_full m then Ok (limits_full_image m) else limits_rec_area m xorigin dEbin) ;;
    ' (jmin, jmax, imin, imax) <- adjust_limits m jmax jmin imin imax ;;
    _ <- assert_correct_ijlimits m jmin jmax imin imax ;;
    Ok (Limits xorigin dEbin jmin jmax imin imax).
