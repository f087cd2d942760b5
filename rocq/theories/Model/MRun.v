(** Model of a whole reconstruction: LT/utils/tomo_run.py [run] (without
    tomoscope output and plot) and LT/shortcuts.py.  The parts are the models
    of the other files.  The values at each turn, the fit of the synchronous
    bin and the limits of the reconstruction area are function parameters
    (MMachine, MFit and MLimits model them over the real numbers); so are
    Python's int() and float() on a string, the sine and the square root.
    Numbers are exact. *)
From Coq Require Import List ZArith Bool QArith Qcanon String.
From Verif Require Import Base.Res Base.QcLib Model.MRecon Model.MTrack Model.MParticles Model.MImage Model.MPreproc Model.MInput.
Import ListNotations.
Local Open Scope Qc_scope.

(** The attributes set by machine.values_at_turns() that are used here. *)
Record tvals := TVals {
  tv_vrf1 : list Qc; tv_vrf2 : list Qc; tv_phi0 : list Qc; tv_deltaE0 : list Qc; tv_drift : list Qc; tv_omega : list Qc }.

(** The attributes of PhaseSpaceInfo used by particles.py 142-181. *)
Record qlimits := QLimits {
  ql_xorigin : Qc; ql_dEbin : Qc; ql_imin : Z; ql_imax : Z; ql_jmin : list Z; ql_jmax : list Z }.

(** A finite number; infinities and not-a-number are outside the model. *)
Definition finite (x : pyfloat) : res Qc := match x with Fin q => Ok q | _ => Fail NotFinite end.

(** The machine object: the settings read, the values at each turn, and the
    attributes that are changed after construction. *)
Record rmachine := RMachine { rm_set : imachine; rm_turns : tvals; rm_cur : pmachine }.

Section Run.
Variable to_int : string -> res Z.
Variable to_float : string -> res pyfloat.
Variable turn_values : imachine -> res tvals.
Variable fit : imachine -> tvals -> pmachine -> list (list Qc) -> res (Qc * Qc * Qc).
Variable find_limits : imachine -> tvals -> pmachine -> res qlimits.
Variable sin sqrt : Qc -> Qc.
(** libtomo.cpp 194-226 expands phi12 to an array of nturns elements and the
    tracking reads one more (MTrack, C07): the number found there. *)
Variable past : Qc.

(** tomo_run.py 79-96 and shortcuts.py 29-42 [read_input_file], given the
    parameter lines and the raw data.  tomo_run.py 90 [calc_profilecharge] does
    not raise and its result is not used.  load_fitted_synch_part_x_ftn is
    machine.py 234-238. *)
Definition set_synch_x (m : pmachine) (x : Qc) : pmachine :=
  PMachine (p_nprofiles m) (p_nbins m) (p_synch_y m) x (p_dtbin m) (p_beam_ref m).
Definition read_machine (raw_params : list string) (raw_data : list Qc) : res (rmachine * list (list Qc)) :=
  ' (im, tf) <- txt_input_to_machine to_int to_float (fun m => _ <- turn_values m ;; Ok tt) raw_params ;;
  tv <- turn_values im ;;
  waterfall <- to_waterfall (tf_frames tf) raw_data ;;
  sampling_time <- finite (tf_dtbin tf) ;;
  synch_x <- finite (im_synch_part_x im) ;;
  beam_ref <- not_none (im_beam_ref_frame im) TypeError ;;
  let pm := PMachine (im_nprofiles im) (im_nbins im) (qz (im_nbins im) / qz 2) synch_x sampling_time beam_ref in
  pf <- raw_data_to_profiles waterfall (match waterfall with [] => 0%nat | r :: _ => List.length r end) pm
          (Z.to_nat (f_rebin (tf_frames tf))) sampling_time ;;
  ' (_, wf) <- not_none (pf_waterfall pf) AttributeError ;;
  let pm := pf_machine pf in
  pm <- (if qltb (p_synch_x pm) 0
         then ' (x, _, _) <- fit im tv pm wf ;; Ok (set_synch_x pm x)
         else Ok pm) ;;
  Ok (RMachine im tv pm, wf).

(** __tracking.py 58-69, 152-163 [Tracking.__init__]: all fields are there. *)
Definition new_tracking (m : rmachine) : res unit :=
  if qltb (p_synch_x (rm_cur m)) 0 then Fail (Raised MachineParameterError) else Ok tt.

(** The machine parameters used by particles.py. *)
Definition coord_machine (m : rmachine) : res cmachine :=
  h_num <- not_none (im_h_num (rm_set m)) TypeError ;;
  h_num <- finite h_num ;;
  dturns <- not_none (im_dturns (rm_set m)) TypeError ;;
  Ok (CMachine h_num (tv_omega (rm_turns m)) (p_dtbin (rm_cur m)) (tv_phi0 (rm_turns m)) dturns (p_synch_y (rm_cur m))).

(** tracking.py 186-190, 207-211: the arrays handed to the C++ routine. *)
Definition track_machine (m : rmachine) (nturns : Z) : res (machine Qc) :=
  q <- finite (im_charge (rm_set m)) ;;
  p12 <- finite (im_phi12 (rm_set m)) ;;
  hr <- not_none (im_h_ratio (rm_set m)) TypeError ;;
  hr <- finite hr ;;
  let tv := rm_turns m in
  Ok (Machine (map (fun v => v * q) (tv_vrf1 tv)) (map (fun v => v * q) (tv_vrf2 tv)) (tv_phi0 tv) (tv_deltaE0 tv)
        (tv_drift tv) (repeat p12 (Z.to_nat nturns) ++ [past]) hr).

(** Tracking.track without self-fields and with the automatic distribution
    (tracking.py 141-173, 186-214): the limits found and the tracked phases
    and energies. *)
Definition track_auto (m : rmachine) (recprof : Z) : res (qlimits * list (list Qc) * list (list Qc)) :=
  dturns <- not_none (im_dturns (rm_set m)) TypeError ;;
  p <- track_checks (p_nprofiles (rm_cur m)) dturns recprof 0 ;;
  lim <- find_limits (rm_set m) (rm_turns m) (rm_cur m) ;;
  snpt <- not_none (im_snpt (rm_set m)) TypeError ;;
  cm <- coord_machine m ;;
  ' (dphi, denergy) <- homogeneous_distribution cm (ql_xorigin lim) (ql_dEbin lim) (Z.to_nat snpt)
                         (ql_imin lim) (ql_imax lim) (ql_jmin lim) (ql_jmax lim) p 0 ;;
  let nprofiles := Z.to_nat (p_nprofiles (rm_cur m)) in
  let nturns := (dturns * (p_nprofiles (rm_cur m) - 1))%Z in
  tm <- track_machine m nturns ;;
  let nparts := List.length dphi in
  let zeros := repeat (repeat 0 nparts) nprofiles in
  s <- kick_and_drift Qcplus Qcminus Qcmult sin tm zeros zeros denergy dphi dturns p 0 nturns nparts false ;;
  Ok (lim, xp s, yp s).

(** The conversion and the removal of lost particles, tomo_run.py 116-125 and
    shortcuts.py 52-56. *)
Definition prepared (m : rmachine) (lim : qlimits) (dphi denergy : list (list Qc)) : res (list (list Z) * list (list Z)) :=
  cm <- coord_machine m ;;
  ' (x, y) <- physical_to_coords cm (ql_xorigin lim) (ql_dEbin lim) dphi denergy ;;
  let cols t := match t with [] => 0%nat | r :: _ => List.length r end in
  ready_for_tomography (map (map Num) x) (map (map Num) y) (cols x) (cols y) (p_nbins (rm_cur m)).

(** Tomography(waterfall, xp, yp) for integer tables. *)
Definition new_tomography (wf : list (list Qc)) (x y : list (list Z)) : res tomo :=
  let cols {A} (t : list (list A)) := match t with [] => 0%nat | r :: _ => List.length r end in
  tomography (List.length wf) (cols wf) wf (CArr2 (cols x) (map (map qz) x)) (CArr2 (cols y) (map (map qz) y)).

(** data_treatment.py 151-159 [phase_space], then tomo_run.py 139-145; dEbin
    has been set by the automatic distribution. *)
Definition final_image (m : rmachine) (dEbin : Qc) (x y : list (list Z)) (weight : list Qc) (idx : Z)
  : res (list Qc * list Qc * list (list Qc)) :=
  xc <- mapM (fun row => np_get row idx) x ;;
  yc <- mapM (fun row => np_get row idx) y ;;
  let pm := rm_cur m in
  ' (t_range, e_range, density) <- phase_space_from_coordinates xc yc weight (Z.to_nat (p_nbins pm))
                                     (p_synch_x pm) (p_synch_y pm) (p_dtbin pm) dEbin ;;
  let density := clip_rows density in
  density <- mapM (mapM (fun v => qdiv v (qsum (map qsum density)))) density ;;
  Ok (t_range, e_range, density).

(** The objects of a run, for statements about it. *)
Record parts := Parts {
  pt_machine : rmachine; pt_waterfall : list (list Qc); pt_idx : Z; pt_limits : qlimits;
  pt_tomo : tomo; pt_weight : list Qc; pt_discr : list Qc }.

(** tomo_run.py 74-152 [run].  Line 110: the flag tested is False after the
    construction of the Tracking object (__tracking.py 68), so the self-fields
    are never used. *)
Definition run_parts (raw_params : list string) (raw_data : list Qc) (reconstruct_profile : option Z)
  : res (parts * (list Qc * list Qc * list (list Qc))) :=
  ' (m, wf) <- read_machine raw_params raw_data ;;
  reconstr_idx <- match reconstruct_profile with
                  | None => not_none (im_filmstart (rm_set m)) TypeError
                  | Some i => Ok i
                  end ;;
  _ <- new_tracking m ;;
  ' (lim, dphi, denergy) <- track_auto m reconstr_idx ;;
  ' (x, y) <- prepared m lim dphi denergy ;;
  tomo <- new_tomography wf x y ;;
  niter <- not_none (im_niter (rm_set m)) TypeError ;;
  ' (weight, diff, _, _) <- MRecon.run sqrt tomo niter ;;
  image <- final_image m (ql_dEbin lim) x y weight reconstr_idx ;;
  Ok (Parts m wf reconstr_idx lim tomo weight diff, image).
Definition run (raw_params : list string) (raw_data : list Qc) (reconstruct_profile : option Z)
  : res (list Qc * list Qc * list (list Qc)) :=
  ' (_, image) <- run_parts raw_params raw_data reconstruct_profile ;; Ok image.

(** shortcuts.py 46-57 [track]: int(None) is a TypeError. *)
Definition shortcut_track (m : rmachine) (reconstruction_idx : option Z) : res (qlimits * list (list Z) * list (list Z)) :=
  _ <- new_tracking m ;;
  idx <- match reconstruction_idx with Some i => Ok i | None => Fail (Raised TypeError) end ;;
  ' (lim, dphi, denergy) <- track_auto m idx ;;
  ' (x, y) <- prepared m lim dphi denergy ;;
  Ok (lim, x, y).

(** shortcuts.py 60-66 [tomogram]: the object and its weights. *)
Definition shortcut_tomogram (wf : list (list Qc)) (x y : list (list Z)) (niter : Z) : res (tomo * list Qc) :=
  tomo <- new_tomography wf x y ;;
  ' (weight, _, _, _) <- MRecon.run sqrt tomo niter ;;
  Ok (tomo, weight).
End Run.
