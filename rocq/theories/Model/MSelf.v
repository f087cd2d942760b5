(** Model of tracking with self-fields, over the real numbers:
    LT/tracking/tracking.py [Tracking.kick_and_drift_self], [_calc_xp_sf];
    LT/data/profiles.py [Profiles._find_wrap_length], [_calculate_self];
    LT/utils/physics.py [calc_self_field_coeffs].  Rounding is not modelled. *)
From Coq Require Import Reals List ZArith Bool.
From Verif Require Import Base.Res Base.RLib Model.MRecon Model.MParticles Model.MTrack Model.MMachine.
Import ListNotations.
Local Open Scope R_scope.

(** What the self-field routine reads besides the arrays of [machine]:
    Tracking._phiwrap, _vself; particles.xorigin, dEbin; machine.synch_part_y,
    h_num, omega_rev0, dtbin, q. *)
Record sfield := SField {
  sf_phiwrap : R; sf_vself : list (list R); sf_xorigin : R; sf_dEbin : R; sf_synch_y : R;
  sf_h : R; sf_omega : list R; sf_dtbin : R; sf_q : R }.

(** tracking.py 461-464 [_calc_xp_sf], one particle. *)
Definition calc_xp_sf (dphi phi0 xorigin h_num omega_rev0 dtbin phiwrap : R) : res R :=
  let temp_xp := dphi + phi0 - xorigin * h_num * omega_rev0 * dtbin in
  r <- rdiv temp_xp phiwrap ;;
  rdiv (temp_xp - phiwrap * IZR (rfloor r)) (h_num * omega_rev0 * dtbin).

(** The calls of [_calc_xp_sf], for the array of particles at a turn. *)
Definition xp_sf (m : machine R) (f : sfield) (ph : list R) (turn : Z) : res (list R) :=
  p0 <- np_get (phi0 m) turn ;;
  om <- np_get (sf_omega f) turn ;;
  mapM (fun x => calc_xp_sf x p0 (sf_xorigin f) (sf_h f) om (sf_dtbin f) (sf_phiwrap f)) ph.

(** denergy / dEbin + synch_part_y. *)
Definition yp_sf (f : sfield) (de : list R) : res (list R) :=
  mapM (fun e => d <- rdiv e (sf_dEbin f) ;; Ok (d + sf_synch_y f)) de.

(** vself[profile, index array]. *)
Definition selfvolt (f : sfield) (profile : Z) (idx : list Z) : res (list R) :=
  row <- np_get (sf_vself f) profile ;; mapM (np_get row) idx.

(** denergy += selfvolt * q. *)
Definition add_volt (f : sfield) (de sv : list R) : list R :=
  map (fun x => fst x + snd x * sf_q f) (combine de sv).

Record sstate := SState {
  s_dphi : list R; s_denergy : list R; s_xp : list (list R); s_yp : list (list R);
  s_profile : Z; s_turn : Z; s_temp : list R }.

(** tracking.py 393-415: one pass of the upward loop. *)
Definition self_up_step (m : machine R) (p12 : R) (f : sfield) (dturns : Z) (s : sstate) : res sstate :=
  let nparts := length (s_denergy s) in
  co <- get (drift_coef m) (s_turn s) ;;
  ph <- drift_up Rminus Rmult (s_dphi s) (s_denergy s) co nparts ;;
  let t := (s_turn s + 1)%Z in
  temp <- xp_sf m f ph t ;;
  sv <- selfvolt f (s_profile s) (map (fun x => rtrunc x - 1)%Z temp) ;;
  v1 <- get (rf1v m) t ;; v2 <- get (rf2v m) t ;; p0 <- get (phi0 m) t ;; acc <- get (deltaE0 m) t ;;
  de <- kick_up Rplus Rminus Rmult sin ph (s_denergy s) v1 v2 p0 p12 (hratio m) nparts acc ;;
  let de := add_volt f de sv in
  if (dturns =? 0)%Z then Fail (Raised ZeroDivisionError) else
  if (Z.modulo t dturns =? 0)%Z then
    let p := (s_profile s + 1)%Z in
    xp' <- pyset (s_xp s) p temp ;;
    y <- yp_sf f de ;;
    yp' <- pyset (s_yp s) p y ;;
    Ok (SState ph de xp' yp' p t temp)
  else Ok (SState ph de (s_xp s) (s_yp s) (s_profile s) t temp).

Fixpoint self_up_loop (fuel : nat) (m : machine R) (p12 : R) (f : sfield) (dturns nturns : Z) (s : sstate) : res sstate :=
  if (s_turn s <? nturns)%Z then
    match fuel with
    | O => Fail OutOfFuel
    | S k => s' <- self_up_step m p12 f dturns s ;; self_up_loop k m p12 f dturns nturns s'
    end
  else Ok s.

(** tracking.py 426-448: one pass of the downward loop. *)
Definition self_down_step (m : machine R) (p12 : R) (f : sfield) (dturns : Z) (s : sstate) : res sstate :=
  let nparts := length (s_denergy s) in
  sv <- selfvolt f (s_profile s) (map rtrunc (s_temp s)) ;;
  v1 <- get (rf1v m) (s_turn s) ;; v2 <- get (rf2v m) (s_turn s) ;;
  p0 <- get (phi0 m) (s_turn s) ;; acc <- get (deltaE0 m) (s_turn s) ;;
  de <- kick_down Rplus Rminus Rmult sin (s_dphi s) (s_denergy s) v1 v2 p0 p12 (hratio m) nparts acc ;;
  let de := add_volt f de sv in
  let t := (s_turn s - 1)%Z in
  co <- get (drift_coef m) t ;;
  ph <- drift_down Rplus Rmult (s_dphi s) de co nparts ;;
  temp <- xp_sf m f ph t ;;
  if (dturns =? 0)%Z then Fail (Raised ZeroDivisionError) else
  if (Z.modulo t dturns =? 0)%Z then
    xp' <- pyset (s_xp s) (s_profile s) temp ;;
    y <- yp_sf f de ;;
    yp' <- pyset (s_yp s) (s_profile s) y ;;
    Ok (SState ph de xp' yp' (s_profile s - 1)%Z t temp)
  else Ok (SState ph de (s_xp s) (s_yp s) (s_profile s) t temp).

Fixpoint self_down_loop (fuel : nat) (m : machine R) (p12 : R) (f : sfield) (dturns : Z) (s : sstate) : res sstate :=
  if (0 <? s_turn s)%Z then
    match fuel with
    | O => Fail OutOfFuel
    | S k => s' <- self_down_step m p12 f dturns s ;; self_down_loop k m p12 f dturns s'
    end
  else Ok s.

(** tracking.py 365-452 [kick_and_drift_self].  libtomo.drift and libtomo.kick
    are those of libtomo.cpp 82-160 (phi12 is one number there). *)
Definition kick_and_drift_self (m : machine R) (p12 : R) (f : sfield) (nprofiles : nat)
    (de ph : list R) (dturns rec_prof deltaturn nturns : Z) : res (list (list R) * list (list R)) :=
  let z := repeat (repeat 0 (length de)) nprofiles in
  let rec_turn := (rec_prof * dturns + deltaturn)%Z in
  let prof := if (deltaturn <? 0)%Z then (rec_prof - 1)%Z else rec_prof in
  temp <- xp_sf m f ph rec_turn ;;
  x0 <- pyset z rec_prof temp ;;
  y <- yp_sf f de ;;
  y0 <- pyset z rec_prof y ;;
  s1 <- self_up_loop (Z.to_nat (nturns - rec_turn)) m p12 f dturns nturns (SState ph de x0 y0 prof rec_turn temp) ;;
  temp <- np_get (s_xp s1) rec_prof ;;
  s2 <- self_down_loop (Z.to_nat rec_turn) m p12 f dturns
          (SState ph de (s_xp s1) (s_yp s1) (rec_prof - 1)%Z rec_turn temp) ;;
  Ok (s_xp s2, s_yp s2).

(** [Tracking.track] with self-fields and a user distribution (tracking.py
    136-160, 175-199): deltaturn is checked, and not handed on. *)
Definition track_self (m : machine R) (p12 : R) (f : sfield) (nprofiles : nat)
    (dturns recprof deltaturn : Z) (ph de : list R) : res (list (list R) * list (list R)) :=
  p <- track_checks (Z.of_nat nprofiles) dturns recprof deltaturn ;;
  kick_and_drift_self m p12 f nprofiles de ph dturns p 0 (dturns * (Z.of_nat nprofiles - 1)).

(** ** The table of self-fields *)

(** profiles.py 238-257 [_find_wrap_length]. *)
Definition find_wrap_length (bdot h_num dtbin : R) (omega : list R) (nprofiles dturns nbins : Z) : res (R * Z) :=
  om <- np_get omega (if Rlt_dec 0 bdot then (nprofiles - 1) * dturns - 1 else 0)%Z ;;
  let drad_bin := h_num * om * dtbin in
  r <- rdiv (IZR nbins * drad_bin) (2 * PI) ;;
  let phiwrap := IZR (rceil r) * 2 * PI in
  w <- rdiv phiwrap drad_bin ;;
  Ok (phiwrap, rceil w).

(** physics.py 448-457 [calc_self_field_coeffs]. *)
Definition self_field_coeff (omega beta : list R) (g_coupling zwall_over_n dtbin : R) (dturns i : Z) : res R :=
  om <- np_get omega (i * dturns)%Z ;;
  b <- np_get beta (i * dturns)%Z ;;
  a <- rdiv e_charge om ;;
  ib <- rdiv 1 b ;;
  rdiv (a * ((ib - b) * g_coupling * PI * (2 / 10 ^ 7) * c_light - zwall_over_n)) (dtbin ^ 2).
Definition calc_self_field_coeffs (omega beta : list R) (g_coupling zwall_over_n dtbin : R) (dturns : Z) (nprofiles : nat) : res (list R) :=
  mapM (fun i => self_field_coeff omega beta g_coupling zwall_over_n dtbin dturns (Z.of_nat i)) (seq 0 nprofiles).

(** profiles.py 260-273 [_calculate_self], row i: the first nbins elements of a
    row of zeros are overwritten.  numpy's broadcasting of a one-element array
    is not modelled. *)
Definition self_row (sfc : list R) (charge : R) (ds : list (list R)) (nbins : nat) (width : nat) (i : nat) : res (list R) :=
  s0 <- np_get sfc (Z.of_nat i) ;; d0 <- np_get ds (Z.of_nat i) ;;
  s1 <- np_get sfc (Z.of_nat i + 1)%Z ;; d1 <- np_get ds (Z.of_nat i + 1)%Z ;;
  let v := map (fun x => (1 / 2) * charge * (s0 * fst x + s1 * snd x)) (combine (firstn nbins d0) (firstn nbins d1)) in
  let k := Nat.min nbins width in
  if negb (Nat.eqb (length v) k) then Fail (Raised ValueError)
  else Ok (v ++ repeat 0 (width - k)).
Definition calculate_self (sfc : list R) (charge : R) (ds : list (list R)) (nbins nprofiles : nat) (wrap_length : Z) : res (list (list R)) :=
  if (Z.of_nat nprofiles - 1 <? 0)%Z || (wrap_length + 1 <? 0)%Z then Fail (Raised ValueError)
  else mapM (self_row sfc charge ds nbins (Z.to_nat (wrap_length + 1))) (seq 0 (nprofiles - 1)).
