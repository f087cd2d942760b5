(** Model of LT/tracking/programs_machine.py [ProgramsMachine] and the formulas
    of LT/utils/physics.py it uses, over the real numbers.  Rounding is not
    modelled.  scipy's Newton root finder is a function parameter.  t_ref is a
    number (None makes the comparison on line 333 raise TypeError). *)
From Coq Require Import Reals List ZArith Bool.
From Verif Require Import Base.Res Base.RLib Model.MParticles Model.MTrack Model.MPreproc Model.MMachine.
Import ListNotations.
Local Open Scope R_scope.

(** What is passed as phi12: a number, a numpy array, a list; or nothing. *)
Inductive phi12_arg := PhiNumber (x : R) | PhiArray (l : list R) | PhiList (l : list R).

(** The arguments, 61-76 and machine_base.py 205-240.  The programs are tables
    of rows; the first row is the time. *)
Record programmed := Programmed {
  pg_dturns : Z; pg_nprofiles : Z; pg_ref_frame : Z;
  pg_q : R; pg_bending : R; pg_radius : R; pg_trans_gamma : R; pg_e_rest : R; pg_h_num : R; pg_t_ref : R;
  pg_voltage : list (list R); pg_momentum : list (list R); pg_harmonics : list R;
  pg_phase : option (list (list R)); pg_phi12 : option phi12_arg }.

(** 98. *)
Definition circumference (m : programmed) : R := 2 * PI * pg_radius m.
(** 298, 323-325 and 169: sqrt(1 / (1 + (e_rest / p)^2)). *)
Definition beta_of (m : programmed) (p : R) : res R :=
  r <- rdiv (pg_e_rest m) p ;; q <- rdiv 1 (1 + r ^ 2) ;; rsqrt q.
(** 299, 305-306, 327-329 and 170: one revolution. *)
Definition period_of (m : programmed) (beta : R) : res R := rdiv (circumference m) (beta * c_light).

(** ** 279-359 [_interpolate_momentum] *)

(** The lists that grow, the index i and the turn counter. *)
Record growing := Growing { gr_time : list R; gr_beta : list R; gr_mom : list R; gr_i : Z; gr_turn : Z }.

(** 316-334: one pass of the inner loop. *)
Definition grow (m : programmed) (time mom : list R) (k : Z) (s : growing) : res growing :=
  let i := gr_i s in
  p0 <- np_get mom (k - 1) ;; p1 <- np_get mom k ;;
  t <- np_get (gr_time s) (i + 1) ;;
  t0 <- np_get time (k - 1) ;; t1 <- np_get time k ;;
  slope <- rdiv ((p1 - p0) * (t - t0)) (t1 - t0) ;;
  let momi := gr_mom s ++ [p0 + slope] in
  p <- np_get momi (i + 1) ;;
  b <- beta_of m p ;;
  let betai := gr_beta s ++ [b] in
  T <- period_of m b ;;
  let timei := gr_time s ++ [t + T] in
  let i := (i + 1)%Z in
  t' <- np_get timei (i + 1) ;;
  Ok (Growing timei betai momi i (if Rlt_dec (pg_t_ref m) t' then (gr_turn s + 1)%Z else gr_turn s)).

(** 315: while time_interp[i + 1] <= time[k]. *)
Fixpoint grow_to (fuel : nat) (m : programmed) (time mom : list R) (k : Z) (s : growing) : res growing :=
  t <- np_get (gr_time s) (gr_i s + 1) ;;
  tk <- np_get time k ;;
  if Rle_dec t tk then
    match fuel with
    | O => Fail OutOfFuel
    | S f => s <- grow m time mom k s ;; grow_to f m time mom k s
    end
  else Ok s.

(** 312-336: while turn < nturns.  [rounds]: at most one for each element of
    time, after which time[k] raises. *)
Fixpoint grow_all (fuel rounds : nat) (m : programmed) (time mom : list R) (nturns k : Z) (s : growing) : res growing :=
  if (gr_turn s <? nturns)%Z then
    match rounds with
    | O => Fail OutOfFuel
    | S r => s <- grow_to fuel m time mom k s ;; grow_all fuel r m time mom nturns (k + 1) s
    end
  else Ok s.

(** numpy.min(numpy.where(l >= x)[0]), counted from i. *)
Fixpoint first_not_before (x : R) (i : Z) (l : list R) : res Z :=
  match l with
  | [] => Fail (Raised ValueError)
  | y :: r => if Rle_dec x y then Ok i else first_not_before x (i + 1) r
  end.

Definition pg_nturns (m : programmed) : Z := (pg_dturns m * pg_nprofiles m)%Z.
Definition pg_i0 (m : programmed) : Z := (pg_ref_frame m * pg_dturns m)%Z.

(** 298-336, then 338 [pop]. *)
Definition interpolated (fuel : nat) (m : programmed) (time mom : list R) : res (list R * list R) :=
  p <- np_get mom 0 ;;
  b <- beta_of m p ;;
  T0 <- period_of m b ;;
  t0 <- np_get time 0 ;;
  T <- period_of m b ;;
  s <- grow_all fuel (S (length time)) m time mom (pg_nturns m) 0
         (Growing [t0 + T0; t0 + T0 + T] [b] [p] 0 (pg_i0 m)) ;;
  Ok (removelast (gr_time s), gr_mom s).

(** 343-359. *)
Definition interpolate_momentum (fuel : nat) (m : programmed) (time mom : list R) : res (list R * list R) :=
  ' (ti, mi) <- interpolated fuel m time mom ;;
  first <- first_not_before (pg_t_ref m) 0 ti ;;
  let initial := (first - pg_i0 m)%Z in
  let final := (initial + pg_nturns m)%Z in
  if (Z.of_nat (length ti) + 1 <? final)%Z then Fail (Raised ValueError)
  else Ok (slice ti initial final, slice mi initial final).

(** ** numpy *)

(** numpy.interp(x, xp, fp) for xp in increasing order. *)
Fixpoint rinterp_from (x x0 f0 : R) (rest : list (R * R)) : res R :=
  match rest with
  | [] => Ok f0
  | (x1, f1) :: r =>
    if Rle_dec x1 x then rinterp_from x x1 f1 r
    else s <- rdiv (f1 - f0) (x1 - x0) ;; Ok (s * (x - x0) + f0)
  end.
Definition rinterp (xp fp : list R) (x : R) : res R :=
  if negb (length xp =? length fp)%nat then Fail (Raised ValueError)
  else match combine xp fp with
  | [] => Fail (Raised ValueError)
  | (x0, f0) :: r => if Rlt_dec x x0 then Ok f0 else rinterp_from x x0 f0 r
  end.
(** Two rows of a table, interpolated at the given times. *)
Definition interp_rows (table : list (list R)) (row : Z) (times : list R) : res (list R) :=
  xp <- np_get table 0 ;; fp <- np_get table row ;; mapM (rinterp xp fp) times.

(** numpy.diff, numpy.cumsum. *)
Fixpoint rdiffs (l : list R) : list R :=
  match l with x :: ((y :: _) as r) => (y - x) :: rdiffs r | _ => [] end.
Fixpoint rcumsum (acc : R) (l : list R) : list R :=
  match l with [] => [] | x :: r => (acc + x) :: rcumsum (acc + x) r end.

(** numpy.gradient(f, x): one-sided differences at the ends, and inside the
    formula for unequal distances (which for equal ones is the central
    difference). *)
Definition gradient_inside (f0 f1 f2 x0 x1 x2 : R) : res R :=
  let dx1 := x1 - x0 in let dx2 := x2 - x1 in
  a <- rdiv (- dx2) (dx1 * (dx1 + dx2)) ;;
  b <- rdiv (dx2 - dx1) (dx1 * dx2) ;;
  c <- rdiv dx1 (dx2 * (dx1 + dx2)) ;;
  Ok (a * f0 + b * f1 + c * f2).
Fixpoint gradient_from (f0 f1 x0 x1 : R) (rest : list (R * R)) : res (list R) :=
  match rest with
  | [] => g <- rdiv (f1 - f0) (x1 - x0) ;; Ok [g]
  | (f2, x2) :: r => g <- gradient_inside f0 f1 f2 x0 x1 x2 ;; gs <- gradient_from f1 f2 x1 x2 r ;; Ok (g :: gs)
  end.
Definition gradient (f x : list R) : res (list R) :=
  if negb (length f =? length x)%nat then Fail (Raised ValueError)
  else match combine f x with
  | (f0, x0) :: (f1, x1) :: r => g <- rdiv (f1 - f0) (x1 - x0) ;; gs <- gradient_from f0 f1 x0 x1 r ;; Ok (g :: gs)
  | _ => Fail (Raised ValueError)
  end.

(** ** 111-206 [values_at_turns] *)

(** What is stored in the object. *)
Record pvalues := PValues {
  pv_n_turns : Z; pv_vrf1 : list R; pv_vrf2 : list R; pv_h_ratio : R; pv_phi12 : option phi12_arg;
  pv_momentum : list R; pv_bdot : list R; pv_beta0 : list R; pv_deltaE0 : list R; pv_drift_coef : list R;
  pv_e0 : list R; pv_eta0 : list R; pv_omega_rev0 : list R; pv_phi0 : list R; pv_time : list R }.

(** 166-171, 178, 184-186, 188: one turn. *)
Definition energy_of (m : programmed) (p : R) : res R := rsqrt (p ^ 2 + pg_e_rest m ^ 2).
Definition omega_of (T : R) : res R := f <- rdiv 1 T ;; Ok (2 * PI * f).
Definition eta_of (m : programmed) (beta : R) : res R :=
  g <- rdiv 1 (pg_trans_gamma m ^ 2) ;; Ok ((1 - beta ^ 2) - g).
Definition drift_of (m : programmed) (eta e beta : R) : res R :=
  rdiv (2 * PI * pg_h_num m * eta) (e * beta ^ 2).
Definition bfield_of (m : programmed) (p : R) : res R :=
  b <- rdiv p (pg_bending m * pg_q m) ;; rdiv b c_light.

(** physics.py 371-381 [find_phi_lower_upper], for the energy of the turn. *)
Definition pg_phi_lower_upper (m : programmed) (e : R) : res (R * R) :=
  g <- rdiv e (pg_e_rest m) ;;
  Ok (if Rlt_dec 0 (pg_q m * (pg_trans_gamma m - g)) then (- PI, PI) else (0, 2 * PI)).

Section Newton.
Variable newton : (R -> R) -> R -> (R -> R) -> res R.

(** phi12[rf_turn], physics.py 209 and 263: a number has no elements. *)
Definition phi12_at (a : phi12_arg) (i : Z) : res R :=
  match a with PhiNumber _ => Fail (Raised TypeError) | PhiArray l => np_get l i | PhiList l => np_get l i end.

(** physics.py 132-146, 203-213 and 258-265. *)
Definition newton_rf1 (m : programmed) (v : pvalues) (i : Z) (x0 : R) : res R :=
  v1 <- np_get (pv_vrf1 v) i ;; bdot <- np_get (pv_bdot v) i ;;
  newton (fun phi => rfvolt_rf1 phi v1 bdot (pg_radius m) (pg_bending m) (pg_q m)) x0 (fun phi => drfvolt_rf1 phi v1).
Definition newton_rf (m : programmed) (v : pvalues) (phi12 : phi12_arg) (i : Z) (x0 : R) : res R :=
  v1 <- np_get (pv_vrf1 v) i ;; v2 <- np_get (pv_vrf2 v) i ;; bdot <- np_get (pv_bdot v) i ;;
  p <- phi12_at phi12 i ;;
  newton (fun phi => rf_voltage phi v1 v2 bdot (pv_h_ratio v) p (pg_radius m) (pg_bending m) (pg_q m)) x0
         (fun phi => drf_voltage phi v1 v2 (pv_h_ratio v) p).

(** 235-277 [find_synchronous_phase]: the phases found. *)
Definition find_synchronous_phase (m : programmed) (v : pvalues) : res (list R) :=
  match pv_phi12 v with
  | None => Fail (Raised ValueError)
  | Some phi12 =>
    let i0 := pg_i0 m in
    e <- np_get (pv_e0 v) i0 ;;
    ' (lo, up) <- pg_phi_lower_upper m e ;;
    let z := repeat 0 (length (pv_vrf1 v)) in
    as_value_error
      (start <- newton_rf1 m v i0 ((lo + up) / 2) ;;
       synch <- newton_rf m v phi12 i0 start ;;
       phi0 <- pyset z i0 synch ;;
       phi0 <- forl (range_up (i0 + 1) (pv_n_turns v)) (fun i phi0 =>
         x <- np_get phi0 (i - 1) ;; p <- newton_rf m v phi12 i x ;; pyset phi0 i p) phi0 ;;
       forl (range_down (i0 - 1)) (fun i phi0 =>
         x <- np_get phi0 (i + 1) ;; p <- newton_rf m v phi12 i x ;; pyset phi0 i p) phi0)
  end.

(** 61-76 and 77-91: the checks of the constructor. *)
Definition pg_check (m : programmed) : res unit :=
  if ((length (pg_harmonics m) <? 1) || (2 <? length (pg_harmonics m)))%nat%bool then Fail (Raised ArrayLengthError)
  else match pg_phi12 m, pg_phase m with Some _, Some _ => Fail (Raised ValueError) | _, _ => Ok tt end.

(** 119-206 for the values read from the programs; phase1 and phase2 are the
    interpolated phases. *)
Definition pg_values (fuel : nat) (m : programmed) : res pvalues :=
  mtime <- np_get (pg_momentum m) 0 ;; mmom <- np_get (pg_momentum m) 1 ;;
  ' (times, momentum) <- interpolate_momentum fuel m mtime mmom ;;
  vrf1 <- interp_rows (pg_voltage m) 1 times ;;
  phase1 <- match pg_phi12 m, pg_phase m with
            | None, Some ph => interp_rows ph 1 times
            | Some (PhiArray _), _ => Fail (Raised TypeError)   (* phi12.size() *)
            | _, _ => Ok []
            end ;;
  ' (vrf2, h_ratio, phase2) <-
    match pg_harmonics m with
    | h0 :: h1 :: _ =>
      v2 <- interp_rows (pg_voltage m) 2 times ;;
      hr <- rdiv h1 h0 ;;
      ph2 <- match pg_phi12 m, pg_phase m with None, Some ph => interp_rows ph 2 times | _, _ => Ok [] end ;;
      Ok (v2, hr, ph2)
    | _ => Ok (map (fun _ => 0) vrf1, 1, map (fun _ => 0) phase1)
    end ;;
  energy <- mapM (energy_of m) momentum ;;
  beta0 <- mapM (beta_of m) momentum ;;
  t_rev <- mapM (period_of m) beta0 ;;
  let cum := rcumsum 0 t_rev in
  t_i0 <- np_get cum (pg_i0 m) ;;
  let time := map (fun t => t - t_i0) cum in
  omega <- mapM omega_of t_rev ;;
  phi12 <- match pg_phi12 m, pg_phase m with
           | Some a, _ => Ok (Some a)
           | None, Some _ =>
             l <- mapM (fun x => rdiv (fst x - snd x + PI) h_ratio) (combine phase1 phase2) ;; Ok (Some (PhiArray l))
           | None, None => Ok None
           end ;;
  eta0 <- mapM (eta_of m) beta0 ;;
  drift <- mapM (fun x => drift_of m (fst x) (fst (snd x)) (snd (snd x))) (combine eta0 (combine energy beta0)) ;;
  bfield <- mapM (bfield_of m) momentum ;;
  bdot <- gradient bfield time ;;
  Ok (PValues (Z.of_nat (length times)) vrf1 vrf2 h_ratio phi12 momentum bdot beta0 (rdiffs energy) drift
        energy eta0 omega (map (fun _ => 0) vrf1) time).

(** The constructor with vat_now; 205-206: the phases are searched unless
    neither phi12 nor a phase program is given. *)
Definition set_phi0 (v : pvalues) (phi0 : list R) : pvalues :=
  PValues (pv_n_turns v) (pv_vrf1 v) (pv_vrf2 v) (pv_h_ratio v) (pv_phi12 v) (pv_momentum v) (pv_bdot v) (pv_beta0 v)
    (pv_deltaE0 v) (pv_drift_coef v) (pv_e0 v) (pv_eta0 v) (pv_omega_rev0 v) phi0 (pv_time v).
Definition programs_machine (fuel : nat) (m : programmed) : res pvalues :=
  _ <- pg_check m ;;
  v <- pg_values fuel m ;;
  match pv_phi12 v with
  | None => Ok v
  | Some _ => phi0 <- find_synchronous_phase m v ;; Ok (set_phi0 v phi0)
  end.
End Newton.

(** The arrays handed to the tracking routine, as in MMachine.v. *)
Definition pg_tracking (m : programmed) (v : pvalues) (phi12 : list R) : machine R :=
  Machine (map (fun x => x * pg_q m) (pv_vrf1 v)) (map (fun x => x * pg_q m) (pv_vrf2 v))
    (pv_phi0 v) (pv_deltaE0 v) (pv_drift_coef v) phi12 (pv_h_ratio v).
