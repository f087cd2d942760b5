(** Model of how the Machine, Profiles and Tracking objects are set up and
    changed: LT/tracking/machine_base.py, LT/tracking/machine.py,
    LT/tracking/programs_machine.py [calc_phi12], LT/data/profiles.py
    [calc_self_fields], LT/tracking/__tracking.py. *)
From Coq Require Import Reals String List ZArith Bool.
From Verif Require Import Base.Res Base.RLib Model.MRecon Model.MTrack Model.MMachine Model.MPrograms.
Import ListNotations.
Local Open Scope R_scope.

(** ** Keyword arguments *)

Section Keywords.
Variable V : Type.
(** A Python dict: names and values. *)
Definition dict := list (string * V).
(** d[key]. *)
Fixpoint dict_get (d : dict) (key : string) : option V :=
  match d with
  | [] => None
  | (k, v) :: rest => if String.eqb k key then Some v else dict_get rest key
  end.
(** d[key] = v. *)
Fixpoint dict_set (d : dict) (key : string) (v : V) : dict :=
  match d with
  | [] => [(key, v)]
  | (k, w) :: rest => if String.eqb k key then (k, v) :: rest else (k, w) :: dict_set rest key v
  end.
(** key in d. *)
Definition dict_in (d : dict) (key : string) : bool := existsb (fun kv => String.eqb (fst kv) key) d.

(** machine_base.py 292-305 [_process_kwargs]; the elements taken out of
    [kwargs] are not used afterwards (the callers' dict is another one). *)
Definition process_kwargs (defaults kwargs : dict) : dict :=
  let use_params := fold_left (fun u kv => dict_set u (fst kv) (snd kv)) defaults [] in
  fold_left (fun u kv => if dict_in defaults (fst kv) then dict_set u (fst kv) (snd kv) else u) kwargs use_params.
End Keywords.

(** The values used: None, a truth value, a number; anything else [Other]. *)
Inductive pyval := PyNone | PyBool (b : bool) | PyNum (x : R) | Other (n : nat).

Local Open Scope string_scope.
(** machine_base.py 13-35. *)
Definition machine_base_defaults : dict pyval :=
  [("demax", PyNum (-1000000)); ("phi12", PyNum 0); ("h_ratio", PyNum 1); ("synch_part_x", PyNum (-1));
   ("charge", PyNum 1); ("h_num", PyNum 1); ("g_coupling", PyNone); ("zwall_over_n", PyNone);
   ("min_dt", PyNone); ("max_dt", PyNone); ("self_field_flag", PyBool false); ("full_pp_flag", PyBool false);
   ("pickup_sensitivity", PyNone); ("machine_ref_frame", PyNum 0); ("beam_ref_frame", PyNum 0);
   ("snpt", PyNum 4); ("niter", PyNum 20); ("filmstart", PyNum 0); ("filmstop", PyNum 1); ("filmstep", PyNum 1);
   ("output_dir", PyNone)].
(** machine.py 19-24. *)
Definition machine_opts_def : dict pyval :=
  [("vrf1dot", PyNum 0); ("vrf2", PyNum 0); ("vrf2dot", PyNum 0); ("bdot", PyNum 0)].

(** The positional arguments of machine.py 95-98. *)
Record positional := Positional {
  po_dturns : R; po_vrf1 : R; po_mean_orbit_rad : R; po_bending_rad : R; po_b0 : R; po_trans_gamma : R;
  po_rest_energy : R; po_nprofiles : R; po_nbins : R; po_dtbin : R }.

(** kwargs[name] where the name is in the defaults. *)
Definition param (d : dict pyval) (name : string) : pyval :=
  match dict_get pyval d name with Some v => v | None => PyNone end.
Definition or_else (v d : pyval) : pyval := match v with PyNone => d | _ => v end.

(** machine_base.py 200-250 and machine.py 99-117, with vat_now False: the
    attributes of the new object, without those set to None for later use.
    nbins is a property (266-290) that also sets synch_part_y. *)
Definition new_machine (p : positional) (kwargs : dict pyval) : dict pyval :=
  let k := process_kwargs pyval machine_base_defaults kwargs in
  let o := process_kwargs pyval machine_opts_def kwargs in
  [("dturns", PyNum (po_dturns p)); ("mean_orbit_rad", PyNum (po_mean_orbit_rad p));
   ("bending_rad", PyNum (po_bending_rad p)); ("trans_gamma", PyNum (po_trans_gamma p));
   ("e_rest", PyNum (po_rest_energy p)); ("nprofiles", PyNum (po_nprofiles p));
   ("nbins", PyNum (po_nbins p)); ("synch_part_y", PyNum (po_nbins p / 2)); ("dtbin", PyNum (po_dtbin p));
   ("min_dt", or_else (param k "min_dt") (PyNum 0));
   ("max_dt", or_else (param k "max_dt") (PyNum (po_nbins p * po_dtbin p)));
   ("demax", param k "demax"); ("phi12", param k "phi12"); ("h_ratio", param k "h_ratio"); ("h_num", param k "h_num");
   ("q", param k "charge"); ("g_coupling", param k "g_coupling"); ("zwall_over_n", param k "zwall_over_n");
   ("synch_part_x", param k "synch_part_x"); ("self_field_flag", param k "self_field_flag");
   ("full_pp_flag", param k "full_pp_flag"); ("machine_ref_frame", param k "machine_ref_frame");
   ("beam_ref_frame", param k "beam_ref_frame"); ("pickup_sensitivity", param k "pickup_sensitivity");
   ("snpt", param k "snpt"); ("niter", param k "niter"); ("filmstart", param k "filmstart");
   ("filmstop", param k "filmstop"); ("filmstep", param k "filmstep"); ("output_dir", param k "output_dir");
   ("vrf1", PyNum (po_vrf1 p)); ("vrf1dot", param o "vrf1dot"); ("vrf2", param o "vrf2");
   ("vrf2dot", param o "vrf2dot"); ("b0", PyNum (po_b0 p)); ("bdot", param o "bdot")].
Local Close Scope string_scope.

(** ** The phase between two RF systems *)

(** numpy.arcsin. *)
Definition rasin (x : R) : res R := if Rle_dec (Rabs x) 1 then Ok (asin x) else Fail NotFinite.

(** programs_machine.py 227-233 [calc_phi12], for one turn. *)
Definition phi12_of (m : programmed) (h_ratio : R) (c04mode : Z) (bdot vrf1 : R) : res R :=
  x <- rdiv (2 * PI * pg_bending m * pg_radius m * bdot) vrf1 ;;
  s <- rasin x ;;
  a <- rdiv PI h_ratio ;;
  Ok (if (c04mode =? 2)%Z then s + a - PI else s + a).

Definition set_phi12 (v : pvalues) (a : option phi12_arg) : pvalues :=
  PValues (pv_n_turns v) (pv_vrf1 v) (pv_vrf2 v) (pv_h_ratio v) a (pv_momentum v) (pv_bdot v) (pv_beta0 v)
    (pv_deltaE0 v) (pv_drift_coef v) (pv_e0 v) (pv_eta0 v) (pv_omega_rev0 v) (pv_phi0 v) (pv_time v).

(** 208-233 [calc_phi12], after values_at_turns.  Arrays of different lengths:
    numpy's exception. *)
Definition calc_phi12 (m : programmed) (v : pvalues) (c04mode : Z) : res pvalues :=
  if (length (pv_bdot v) =? length (pv_vrf1 v))%nat then
    l <- mapM (fun x => phi12_of m (pv_h_ratio v) c04mode (fst x) (snd x)) (combine (pv_bdot v) (pv_vrf1 v)) ;;
    Ok (set_phi12 v (Some (PhiArray l)))
  else Fail (Raised ValueError).

(** The user's sequence: constructor without phases, calc_phi12,
    find_synchronous_phase. *)
Definition machine_with_mode (newton : (R -> R) -> R -> (R -> R) -> res R) (fuel : nat) (m : programmed) (c04mode : Z)
  : res pvalues :=
  v <- programs_machine newton fuel m ;;
  v <- calc_phi12 m v c04mode ;;
  phi0 <- find_synchronous_phase newton m v ;;
  Ok (set_phi0 v phi0).

(** ** A Machine object and its values at turns *)

(** The arrays of the object: None before the first calculation. *)
Record arrays := Arrays {
  ar_turns : option turns; ar_eta0 : option (list R); ar_drift : option (list R); ar_omega : option (list R);
  ar_vrf1 : option (list R); ar_vrf2 : option (list R) }.
(** machine_base.py 253-264. *)
Definition no_arrays : arrays := Arrays None None None None None None.

Record mobject := MObject { mo_set : rmachine; mo_synch_x : R; mo_arr : arrays }.

Section History.
Variable newton : (R -> R) -> R -> (R -> R) -> res R.
(** assertions.py [assert_machine_input] (modelled in MInput.v). *)
Variable check : rmachine -> res unit.
(** What is left in the arrays if the calculation stops in the middle: the
    elements written so far (simplified to any arrays).  The program stops at
    an exception; it goes on with nan where the model says [NotFinite] (not
    modelled). *)
Variable left : rmachine -> turns.

(** machine.py 122-195 [values_at_turns]: the object afterwards, and the
    exception if there is one. *)
Definition calc_values (o : mobject) : mobject * res unit :=
  let m := mo_set o in
  match check m with
  | Fail e => (o, Fail e)
  | Ok _ =>
    let all_turns := ((rm_nprofiles m - 1) * rm_dturns m)%Z in
    if (all_turns + 1 <? 0)%Z then (o, Fail (Raised ValueError))
    else match values_at_turns newton m with
    | Ok v => (MObject m (mo_synch_x o) (Arrays (Some (tv_turns v)) (Some (tv_eta0 v)) (Some (tv_drift_coef v))
                 (Some (tv_omega_rev0 v)) (Some (tv_vrf1 v)) (Some (tv_vrf2 v))), Ok tt)
    | Fail e =>
      let z := repeat 0 (Z.to_nat (all_turns + 1)) in
      (MObject m (mo_synch_x o) (Arrays (Some (left m)) (Some z) (Some z) (Some z)
         (ar_vrf1 (mo_arr o)) (ar_vrf2 (mo_arr o))), Fail e)
    end
  end.

(** What a user does with a machine: assign attributes (any), or calculate the
    values. *)
Inductive action := Assign (m : rmachine) (synch_x : R) | Calculate.
Definition act (o : mobject) (a : action) : mobject :=
  match a with
  | Assign m x => MObject m x (mo_arr o)
  | Calculate => fst (calc_values o)
  end.
Definition history (m : rmachine) (x : R) (l : list action) : mobject :=
  fold_left act l (MObject m x no_arrays).
End History.

(** assertions.py 477-499 [assert_fields] for one field. *)
Definition need {A} (f : option A) : res A :=
  match f with Some v => Ok v | None => Fail (Raised MachineParameterError) end.

(** __tracking.py 58-70 and 171-181: the constructor of Tracking. *)
Definition new_tracker (o : mobject) : res unit :=
  _ <- need (ar_vrf1 (mo_arr o)) ;; _ <- need (ar_vrf2 (mo_arr o)) ;;
  _ <- need (ar_drift (mo_arr o)) ;; _ <- need (ar_turns (mo_arr o)) ;;
  if Rle_dec 0 (mo_synch_x o) then Ok tt else Fail (Raised MachineParameterError).

(** tracking.py 186-190 and 207-213: the arrays handed to the routine, with
    phi12 as the array [p12] (given as one number: see [scalar_machine] in
    MTrack.v). *)
Definition handed (o : mobject) (p12 : list R) : res (machine R) :=
  v1 <- need (ar_vrf1 (mo_arr o)) ;; v2 <- need (ar_vrf2 (mo_arr o)) ;;
  d <- need (ar_drift (mo_arr o)) ;; s <- need (ar_turns (mo_arr o)) ;;
  let m := mo_set o in
  Ok (Machine (map (fun x => x * rm_q m) v1) (map (fun x => x * rm_q m) v2) (tn_phi0 s) (tn_deltaE0 s) d p12 (rm_h_ratio m)).

(** ** Waterfall and self-fields of a Profiles object, and the flags of a
    Tracking object *)

Section Fields.
(** The machine, its number of profiles, and machine.nbins = n. *)
Variable M : Type.
Variable nprofiles : M -> nat.
Variable set_nbins : M -> nat -> M.
(** phiwrap with wrap_length, and vself. *)
Variables P F : Type.
(** profiles.py 211-213: savgol_filter of the normalised waterfall (a function
    parameter). *)
Variable standard : list (list R) -> list (list R).
(** profiles.py 238-258 [_find_wrap_length] (modelled in MSelf.v). *)
Variable wrap : M -> res P.
(** profiles.py 261-275 [_calculate_self] (modelled in MSelf.v), for the
    machine, the filtered profiles, wrap_length and the profile charge. *)
Variable field : M -> list (list R) -> P -> R -> res F.

(** profiles.py 77-90. *)
Record fprofiles := FProfiles {
  fp_m : M; fp_waterfall : list (list R); fp_charge : option R; fp_ds : option (list (list R));
  fp_wrap : option P; fp_vself : option F }.

(** .shape of a rectangular array. *)
Definition shape (w : list (list R)) : nat * nat := (length w, match w with [] => O | r :: _ => length r end).
(** .clip(0.0). *)
Definition clip0 (w : list (list R)) : list (list R) := map (map (fun x => if Rlt_dec x 0 then 0 else x)) w.
(** np.sum(np.abs(w)). *)
Definition sum_abs (w : list (list R)) : R := fold_right (fun r s => fold_right (fun x s => Rabs x + s) s r) 0 w.

(** 124-145: assigning the waterfall; the object afterwards and the outcome. *)
Definition set_waterfall (p : fprofiles) (w : list (list R)) : fprofiles * res unit :=
  if (fst (shape w) =? nprofiles (fp_m p))%nat then
    let c := clip0 w in
    let p := FProfiles (fp_m p) c (fp_charge p) (fp_ds p) (fp_wrap p) (fp_vself p) in
    if Req_EM_T (sum_abs c) 0 then (p, Fail (Raised WaterfallReducedToZero))
    else (FProfiles (set_nbins (fp_m p) (snd (shape c))) c (fp_charge p) (fp_ds p) (fp_wrap p) (fp_vself p), Ok tt)
  else (p, Fail (Raised WaterfallError)).

(** 77-90: the constructor. *)
Definition new_profiles (m : M) (w : list (list R)) (charge : option R) : res fprofiles :=
  let (p, r) := set_waterfall (FProfiles m [] charge None None None) w in
  _ <- r ;; Ok p.

(** Arguments of calc_self_fields. *)
Inductive filter_arg := Manual (w : list (list R)) | Filter (f : list (list R) -> list (list R)) | Standard.

(** 222-234 [_check_manual_filtered_profs], for arrays. *)
Definition check_filtered (p : fprofiles) (w : list (list R)) : res (list (list R)) :=
  if ((fst (shape w) =? fst (shape (fp_waterfall p)))%nat && (snd (shape w) =? snd (shape (fp_waterfall p)))%nat)%bool
  then Ok w else Fail (Raised FilteredProfilesError).

Definition set_ds (p : fprofiles) (w : list (list R)) : fprofiles :=
  FProfiles (fp_m p) (fp_waterfall p) (fp_charge p) (Some w) (fp_wrap p) (fp_vself p).

(** 159-219 [calc_self_fields]: the object afterwards and the outcome. *)
Definition calc_self_fields (p : fprofiles) (a : filter_arg) : fprofiles * res unit :=
  match fp_charge p with
  | None => (p, Fail (Raised ProfileChargeNotCalculated))
  | Some c =>
    let finish (w : list (list R)) :=
      let p := set_ds p w in
      match wrap (fp_m p) with
      | Fail e => (p, Fail e)
      | Ok ph =>
        let p := FProfiles (fp_m p) (fp_waterfall p) (fp_charge p) (fp_ds p) (Some ph) (fp_vself p) in
        match field (fp_m p) w ph c with
        | Fail e => (p, Fail e)
        | Ok f => (FProfiles (fp_m p) (fp_waterfall p) (fp_charge p) (fp_ds p) (Some ph) (Some f), Ok tt)
        end
      end in
    match a with
    | Manual w => match check_filtered p w with Ok w => finish w | Fail e => (p, Fail e) end
    | Filter f =>
      let w := f (fp_waterfall p) in
      match check_filtered p w with Ok w => finish w | Fail e => (set_ds p w, Fail e) end
    | Standard => finish (standard (fp_waterfall p))
    end
  end.

(** __tracking.py 68-75: self_field_flag, phiwrap, vself, and the charge for
    the Fortran output if that is enabled. *)
Record tracker := Tracker { tk_flag : bool; tk_wrap : option P; tk_vself : option F; tk_ftn : option R }.
Definition new_flags : tracker := Tracker false None None None.
(** 138-166 [enable_self_fields]. *)
Definition enable_self_fields (t : tracker) (p : fprofiles) : tracker * res unit :=
  match fp_wrap p, fp_vself p with
  | Some w, Some f => (Tracker true (Some w) (Some f) (tk_ftn t), Ok tt)
  | _, _ => (t, Fail (Raised SelfFieldTrackingError))
  end.
(** 103-136 [enable_fortran_output]. *)
Definition enable_fortran_output (t : tracker) (charge : option R) : tracker * res unit :=
  match charge with
  | Some c => (Tracker (tk_flag t) (tk_wrap t) (tk_vself t) (Some c), Ok tt)
  | None => (t, Fail (Raised ProfileChargeNotCalculated))
  end.

(** What a user does with the objects; an exception is caught. *)
Inductive step := SetWaterfall (w : list (list R)) | SetCharge (c : option R) | SetMachine (m : M)
  | CalcFields (a : filter_arg) | EnableFields | EnableOutput (c : option R).
Definition do_step (s : fprofiles * tracker) (a : step) : fprofiles * tracker :=
  let (p, t) := s in
  match a with
  | SetWaterfall w => (fst (set_waterfall p w), t)
  | SetCharge c => (FProfiles (fp_m p) (fp_waterfall p) c (fp_ds p) (fp_wrap p) (fp_vself p), t)
  | SetMachine m => (FProfiles m (fp_waterfall p) (fp_charge p) (fp_ds p) (fp_wrap p) (fp_vself p), t)
  | CalcFields a => (fst (calc_self_fields p a), t)
  | EnableFields => (p, fst (enable_self_fields t p))
  | EnableOutput c => (p, fst (enable_fortran_output t c))
  end.
Definition steps (p : fprofiles) (l : list step) : fprofiles * tracker := fold_left do_step l (p, new_flags).
End Fields.
Arguments FProfiles {M P F}. Arguments fp_m {M P F}. Arguments fp_waterfall {M P F}. Arguments fp_charge {M P F}.
Arguments fp_ds {M P F}. Arguments fp_wrap {M P F}. Arguments fp_vself {M P F}.
Arguments Tracker {P F}. Arguments tk_flag {P F}. Arguments tk_wrap {P F}. Arguments tk_vself {P F}. Arguments tk_ftn {P F}.
Arguments new_flags {P F}. Arguments new_profiles {M} nprofiles set_nbins {P F}. Arguments set_waterfall {M} nprofiles set_nbins {P F}.
Arguments calc_self_fields {M P F}. Arguments enable_self_fields {M P F}. Arguments enable_fortran_output {P F}.
Arguments SetWaterfall {M}. Arguments SetCharge {M}. Arguments SetMachine {M}. Arguments CalcFields {M}.
Arguments EnableFields {M}. Arguments EnableOutput {M}.
Arguments do_step {M} nprofiles set_nbins {P F}. Arguments steps {M} nprofiles set_nbins {P F}.
