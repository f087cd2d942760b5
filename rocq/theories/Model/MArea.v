(** Model of the matched area, the density inside contours and the clipping of
    weights, LT/utils/tomographics.py 158-251 and 347-624, over the real
    numbers.  scipy.optimize.minimize and numpy.interp are function parameters.
    A division by zero is a failure here; numpy returns nan or inf with a warning. *)
From Coq Require Import Reals List ZArith Bool.
From Verif Require Import Base.Res Base.QcLib Base.RLib Model.MParticles Model.MPreproc Model.MPost.
Import ListNotations.
Local Open Scope R_scope.

(** The machine parameters used; the arrays have one entry per turn. *)
Record amachine := AMachine {
  am_ref_frame : Z; am_dturns : Z; am_phi0 : list R; am_e0 : list R; am_eta0 : list R; am_omega : list R;
  am_e_rest : R; am_h : R; am_vrf1 : R; am_q : R; am_synch_x : R }.

(** numpy.linspace(a, b, n). *)
Definition linspace (a b : R) (n : nat) : list R := tab n (fun i => a + INR i * ((b - a) / INR (n - 1))).

(** numpy.max and numpy.min. *)
Definition rmax_list (l : list R) : res R := match l with [] => Fail (Raised ValueError) | x :: r => Ok (fold_left Rmax r x) end.
Definition rmin_list (l : list R) : res R := match l with [] => Fail (Raised ValueError) | x :: r => Ok (fold_left Rmin r x) end.

(** numpy.trapz(y, dx=dx). *)
Fixpoint trapz (dx : R) (y : list R) : R :=
  match y with a :: ((b :: _) as r) => dx * (a + b) / 2 + trapz dx r | _ => 0 end.

(** x[p(phi)] for two arrays of the same length: the entries of [x] where the
    test on the other array holds. *)
Definition mask (p : R -> bool) (phi x : list R) : list R := map snd (filter (fun a => p (fst a)) (combine phi x)).
Definition ltb (a b : R) : bool := if Rlt_dec a b then true else false.
Definition leb (a b : R) : bool := if Rle_dec a b then true else false.
Definition eqb (a b : R) : bool := if Req_EM_T a b then true else false.

(** k[argsort(k)] and x[argsort(k)]: pairs sorted by the first component. *)
Fixpoint insert_key (p : R * R) (l : list (R * R)) : list (R * R) :=
  match l with [] => [p] | q :: r => if Rle_dec (fst p) (fst q) then p :: l else q :: insert_key p r end.
Fixpoint sort_key (l : list (R * R)) : list (R * R) := match l with [] => [] | p :: r => insert_key p (sort_key r) end.

(** The frame, or the reference frame of the machine for None: 207-208, 377-378, 531-532. *)
Definition frame_of (m : amachine) (idx_frame : option Z) : Z :=
  match idx_frame with Some i => i | None => am_ref_frame m end.

(** 220, 389, 545: 1000 phases of one period around phi_0. *)
Definition phases (phi_0 : R) : list R := map (fun d => phi_0 + d) (linspace (- PI) PI 1000).
(** 221-222, 391-392, 546-547: the RF potential. *)
Definition urf_at (v phi_0 phi : R) : R := v * (cos phi_0 - cos phi) + (phi_0 - phi) * v * sin phi_0.

(** 233-245: the height of the contour that starts at [phi_left]; the root of a
    negative number is a nan, which is replaced by 0. *)
Definition height (k v phi_0 phi_left phi : R) : R :=
  let x := k * (v * (cos phi - cos phi_left) + (phi - phi_left) * v * sin phi_0) in
  if Rlt_dec x 0 then 0 else Rabs (sqrt x).

(** tomomachine.q*(gamma0 - 1/gamma0)*tomomachine.e_rest/(np.pi*h_num*eta0). *)
Definition height_factor (m : amachine) (energy eta0 : R) : res R :=
  gamma0 <- rdiv energy (am_e_rest m) ;;
  inv <- rdiv 1 gamma0 ;;
  rdiv (am_q m * (gamma0 - inv) * am_e_rest m) (PI * am_h m * eta0).

Section Area.
(** numpy.interp(x, xp, fp). *)
Variable interp : R -> list R -> list R -> R.
(** The ValueErrors of numpy.interp. *)
Definition np_interp (x : R) (xp fp : list R) : res R :=
  if (length xp =? 0)%nat then Fail (Raised ValueError)
  else if negb (length xp =? length fp)%nat then Fail (Raised ValueError)
  else Ok (interp x xp fp).

(** 158-170 [_urf_length_at_level]. *)
Definition urf_length_at_level (phi_array urf : list R) (phi_0 urf_level : R) : res (R * R * R) :=
  let urf_left := map (fun u => u - urf_level) (mask (fun p => ltb p phi_0) phi_array urf) in
  let urf_right := map (fun u => u - urf_level) (mask (fun p => ltb phi_0 p) phi_array urf) in
  phi_left <- np_interp 0 urf_left (mask (fun p => ltb p phi_0) phi_array phi_array) ;;
  let right := sort_key (combine urf_right (mask (fun p => ltb phi_0 p) phi_array phi_array)) in
  phi_right <- np_interp 0 (map fst right) (map snd right) ;;
  Ok (phi_right - phi_left, phi_right, phi_left).

(** 173-180 [_residue_urf_length]. *)
Definition residue_urf_length (phi_target : R) (phi_array urf : list R) (phi_0 urf_level : R) : res R :=
  ' (phi_tot, _, _) <- urf_length_at_level phi_array urf phi_0 urf_level ;;
  Ok ((phi_tot - phi_target) ^ 2).

(** 183-251 [matched_area_calc]; [minimize f x0] is the x of the result. *)
Definition matched_area_calc (minimize : (R -> res R) -> R -> res R) (m : amachine) (bunch_length : R)
    (idx_frame : option Z) : res R :=
  let turn := (frame_of m idx_frame * am_dturns m)%Z in
  phi_0 <- np_get (am_phi0 m) turn ;;
  energy <- np_get (am_e0 m) turn ;;
  eta0 <- np_get (am_eta0 m) turn ;;
  omega_rev0 <- np_get (am_omega m) turn ;;
  let bunch_length_phase := bunch_length * omega_rev0 * am_h m in
  let phi_array := phases phi_0 in
  let urf := map (urf_at (am_vrf1 m) phi_0) phi_array in
  mx <- rmax_list urf ;;
  mn <- rmin_list urf ;;
  urf_level_opti <- minimize (residue_urf_length bunch_length_phase phi_array urf phi_0) ((mx - mn) / 2 + mn) ;;
  ' (_, phi_right, phi_left) <- urf_length_at_level phi_array urf phi_0 urf_level_opti ;;
  let phi_array_matched := linspace phi_left phi_right 1000 in
  k <- height_factor m energy eta0 ;;
  let dE_height_array := map (height k (am_vrf1 m) phi_0 phi_left) phi_array_matched in
  p0 <- np_get phi_array_matched 0 ;;
  p1 <- np_get phi_array_matched 1 ;;
  f <- rdiv 2 (am_h m * omega_rev0) ;;
  Ok (f * trapz (p1 - p0) dE_height_array).

(** ** Contours over the time axis of an image: 389-419 and 545-576 *)

(** 393-394, 548-549: the phases of the time axis. *)
Definition time_phases (m : amachine) (time_array : list R) (omega_rev0 phi_0 : R) : res (list R) :=
  t0 <- np_get time_array 0 ;;
  t1 <- np_get time_array 1 ;;
  let sync_time := am_synch_x m * (t1 - t0) in
  Ok (map (fun t => (t - sync_time) * (am_h m * omega_rev0) + phi_0) time_array).

(** 405-419, 558-571: the heights of the contour of one amplitude. *)
Definition contour (m : amachine) (phi_0 energy eta0 : R) (matched : list R) (amplitude : R) : res (list R) :=
  let phi_array := phases phi_0 in
  let urf := map (urf_at (am_vrf1 m) phi_0) phi_array in
  ' (_, _, phi_left) <- urf_length_at_level phi_array urf phi_0 amplitude ;;
  k <- height_factor m energy eta0 ;;
  Ok (map (height k (am_vrf1 m) phi_0 phi_left) matched).
(** 473-477, 573-576: the emittance of a contour. *)
Definition contour_emittance (m : amachine) (omega_rev0 : R) (matched heights : list R) : res R :=
  p0 <- np_get matched 0 ;;
  p1 <- np_get matched 1 ;;
  f <- rdiv 2 (am_h m * omega_rev0) ;;
  Ok (f * trapz (p1 - p0) heights).

(** The amplitudes: 396, 551. *)
Definition amplitudes (m : amachine) (phi_0 : R) (n : nat) : res (list R) :=
  mn <- rmin_list (map (urf_at (am_vrf1 m) phi_0) (phases phi_0)) ;;
  Ok (linspace 0 mn n).

(** numpy.where(p(l))[0]. *)
Fixpoint rwhere (i : nat) (p : R -> bool) (l : list R) : list nat :=
  match l with [] => [] | x :: r => if p x then i :: rwhere (S i) p r else rwhere (S i) p r end.

(** 421, 432-457: one column of the image: the density between -h and h, and the
    densities at h and -h. *)
Definition column_density (row dE : list R) (h : R) : res (R * R * R) :=
  d0 <- np_get dE 0 ;;
  d1 <- np_get dE 1 ;;
  let dE_resolution := d1 - d0 in
  let good_idx := rwhere 0 (fun e => ltb (- h) e && ltb e h) dE in
  inner <- mapM (fun i => np_get row (Z.of_nat i)) good_idx ;;
  let summed := trapz 1 inner in
  gl <- np_get good_idx (-1) ;;
  let gl := Z.of_nat gl in
  gf <- np_get good_idx 0 ;;
  let gf := Z.of_nat gf in
  cross_top <- np_interp h (slice dE gl (gl + 2)) (slice row gl (gl + 2)) ;;
  rl <- np_get row gl ;;
  el <- np_get dE gl ;;
  dx_top <- rdiv (h - el) dE_resolution ;;
  let summed := summed + trapz dx_top [rl; cross_top] in
  cross_bottom <- np_interp (- h) (slice dE (gf - 1) (gf + 1)) (slice row (gf - 1) (gf + 1)) ;;
  rf <- np_get row gf ;;
  ef <- np_get dE gf ;;
  dx_bottom <- rdiv (ef - - h) dE_resolution ;;
  Ok (summed + trapz dx_bottom [cross_bottom; rf], cross_top, cross_bottom).

(** The variables of the loop over the time axis: 422-426; None is infinity. *)
Record dstate := DState { ds_sum : R; ds_n : nat; ds_local : R; ds_min : option R; ds_max : R }.
Definition min_inf (o : option R) (x : R) : R := match o with Some y => Rmin y x | None => x end.
(** 428-465. *)
Definition density_step (img : list (list R)) (dE heights : list R) (i : nat) (s : dstate) : res dstate :=
  h <- np_get heights (Z.of_nat i) ;;
  if Req_EM_T h 0 then Ok s
  else
    row <- np_get img (Z.of_nat i) ;;
    ' (d, top, bottom) <- column_density row dE h ;;
    Ok (DState (ds_sum s + d) (S (ds_n s)) (ds_local s + (top + bottom) / 2)
          (Some (Rmin (min_inf (ds_min s) top) bottom)) (Rmax (Rmax (ds_max s) top) bottom)).

(** 467-477: what is stored for one amplitude: emittance, local density, its
    minimum and maximum, fraction of the density inside. *)
Record contour_data := CData { cd_emittance : R; cd_local : R; cd_min : R; cd_max : R; cd_sum : R }.
Definition amplitude_data (m : amachine) (phi_0 energy eta0 omega_rev0 : R) (img : list (list R)) (time_array dE : list R)
    (matched : list R) (amplitude : R) : res contour_data :=
  heights <- contour m phi_0 energy eta0 matched amplitude ;;
  s <- for_ 0 (length time_array) (density_step img dE heights) (DState 0 0 0 None 0) ;;
  match ds_n s, ds_min s with
  | S _, Some mn =>
      frac <- rdiv (ds_sum s) (rsum (map rsum img)) ;;
      let local := ds_local s / INR (ds_n s) in
      em <- contour_emittance m omega_rev0 matched heights ;;
      Ok (CData em local mn (ds_max s) frac)
  | _, _ => Ok (CData 0 0 0 0 0)
  end.

(** 479-487: a local density of 0 in the centre is extrapolated. *)
Definition extrapolated (l : list contour_data) : res (list contour_data) :=
  c0 <- np_get l 0 ;;
  if Req_EM_T (cd_local c0) 0 then
    c2 <- np_get l 2 ;;
    c1 <- np_get l 1 ;;
    slope <- rdiv (cd_local c2 - cd_local c1) (cd_emittance c2 - cd_emittance c1) ;;
    let origin := cd_local c1 - slope * cd_emittance c1 in
    Ok (CData (cd_emittance c0) origin origin origin (cd_sum c0) :: tl l)
  else Ok l.

(** 347-490 [density_vs_emittance]: the five arrays as one list of records. *)
Definition density_vs_emittance (m : amachine) (img : list (list R)) (time_array dE : list R) (n_points : nat)
    (idx_frame : option Z) : res (list contour_data) :=
  let turn := (frame_of m idx_frame * am_dturns m)%Z in
  phi_0 <- np_get (am_phi0 m) turn ;;
  energy <- np_get (am_e0 m) turn ;;
  eta0 <- np_get (am_eta0 m) turn ;;
  omega_rev0 <- np_get (am_omega m) turn ;;
  matched <- time_phases m time_array omega_rev0 phi_0 ;;
  amps <- amplitudes m phi_0 n_points ;;
  l <- mapM (amplitude_data m phi_0 energy eta0 omega_rev0 img time_array dE matched) amps ;;
  extrapolated l.

(** 556-579: the first contour with the wanted emittance, or the last one.
    Without amplitudes the names of the loop do not exist. *)
Fixpoint search_contour (m : amachine) (phi_0 energy eta0 omega_rev0 : R) (matched : list R) (target : R) (amps : list R) : res (list R) :=
  match amps with
  | [] => Fail (Raised UnboundLocalError)
  | a :: rest =>
      heights <- contour m phi_0 energy eta0 matched a ;;
      em <- contour_emittance m omega_rev0 matched heights ;;
      if leb target em then Ok heights
      else match rest with [] => Ok heights | _ => search_contour m phi_0 energy eta0 omega_rev0 matched target rest end
  end.

(** 583-618: one slot of the time axis; xs and ys: the columns of the frame. *)
Definition clip_slot (xs ys time_array dE heights : list R) (k : nat) (s : list R * list nat) : res (list R * list nat) :=
  let '(w, minmax) := s in
  t0 <- np_get time_array 0 ;;
  t1 <- np_get time_array 1 ;;
  e0 <- np_get dE 0 ;;
  e1 <- np_get dE 1 ;;
  tk <- np_get time_array (Z.of_nat k) ;;
  tn <- np_get time_array (Z.of_nat k + 1) ;;
  h <- np_get heights (Z.of_nat k) ;;
  lo <- rdiv (tk - t0) (t1 - t0) ;;
  hi <- rdiv (tn - t0) (t1 - t0) ;;
  top <- rdiv (h - e0) (e1 - e0) ;;
  bottom <- rdiv (- h - e0) (e1 - e0) ;;
  let in_slot x := leb lo x && leb x hi in
  let outside p := in_slot (fst p) && (leb top (snd p) || leb (snd p) bottom) in
  let inside p := in_slot (fst p) && (ltb (snd p) top && ltb bottom (snd p)) in
  let pts := combine xs ys in
  if negb (length xs =? length ys)%nat then Fail (Raised ValueError)
  else if negb (length pts =? length w)%nat then Fail (Raised IndexError)
  else
    let w := map (fun pw => if outside (fst pw) then 0 else snd pw) (combine pts w) in
    let idx_in := map snd (filter (fun pi => inside (fst pi)) (combine pts (seq 0 (length pts)))) in
    match idx_in with
    | [] => Ok (w, minmax)
    | [_] => Fail (Raised AttributeError)
    | _ =>
        vals <- mapM (fun i => np_get ys (Z.of_nat i)) idx_in ;;
        mx <- rmax_list vals ;;
        mn <- rmin_list vals ;;
        let first v := find (fun i => eqb (nth i ys 0) v) idx_in in
        match first mn, first mx with
        | Some a, Some b => Ok (w, minmax ++ [a; b])
        | _, _ => Fail (Raised IndexError)
        end
    end.

(** 493-624 [tomo_weight_clipping].  Here idx_frame also selects the columns of
    the coordinates.  An array of weights whose length is not the number of
    particles fails in the first slot with a particle outside only; here in
    every slot. *)
Definition tomo_weight_clipping (m : amachine) (time_array dE : list R) (map_x map_y : list (list R)) (weights : list R)
    (target : R) (n_points : nat) (idx_frame : option Z) : res (list R * list R * list nat) :=
  let frame := frame_of m idx_frame in
  let turn := (frame * am_dturns m)%Z in
  phi_0 <- np_get (am_phi0 m) turn ;;
  energy <- np_get (am_e0 m) turn ;;
  eta0 <- np_get (am_eta0 m) turn ;;
  omega_rev0 <- np_get (am_omega m) turn ;;
  matched <- time_phases m time_array omega_rev0 phi_0 ;;
  amps <- amplitudes m phi_0 n_points ;;
  heights <- search_contour m phi_0 energy eta0 omega_rev0 matched target amps ;;
  xs <- mapM (fun r => np_get r frame) map_x ;;
  ys <- mapM (fun r => np_get r frame) map_y ;;
  ' (w, minmax) <- for_ 0 (length time_array - 1) (clip_slot xs ys time_array dE heights) (weights, []) ;;
  w <- mapM (fun x => q <- rdiv x (rsum w) ;; Ok (q * rsum weights)) w ;;
  Ok (w, heights, minmax).
End Area.
