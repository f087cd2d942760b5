(** Theorems on the output files and on the plot information (C55, C58, C59).
    Statements only: each theorem is closed by the lemma of the same name in
    Proof/COutput.v.  Written by tools/mkprops.py. *)
From Coq Require Import List ZArith QArith Qcanon String Ascii Lia.
From Verif Require Import Base.Res Base.QcLib Model.MImage Model.MOutput Spec.OutputSpec.
Import ListNotations.
Local Open Scope Qc_scope.
From Verif Require Import Proof.COutput.

(** Two files have one path only if they are of one kind and for one index,
    whatever the index. *)
Theorem C55_paths : forall dir i j img img' d d' profs profs' f f' volts,
  save_profile profs i dir = Ok f -> save_profile profs' j dir = Ok f' ->
  (fst f = fst f' <-> i = j) /\
  (fst (save_phase_space img i dir) = fst (save_phase_space img' j dir) <-> i = j) /\
  (fst (save_difference d dir i) = fst (save_difference d' dir j) <-> i = j) /\
  fst f <> fst (save_phase_space img j dir) /\ fst f <> fst (save_difference d dir j) /\
  fst f <> fst (save_self_volt_profile volts dir) /\
  fst (save_phase_space img i dir) <> fst (save_difference d dir j) /\
  fst (save_phase_space img i dir) <> fst (save_self_volt_profile volts dir) /\
  fst (save_difference d dir i) <> fst (save_self_volt_profile volts dir).
Proof. exact C55_paths_lem. Qed.
Print Assumptions C55_paths.

(** The two programs write the same files, apart from the discrepancy. *)
Theorem C55_same_paths : forall dir i d prof profs xp yp w n film img,
  fst (tomoscope_save_difference d dir i) = fst (save_difference d dir i) /\
  (nth_error profs film = Some prof -> save_profile profs (Z.of_nat film) dir = Ok (tomoscope_save_profile prof (Z.of_nat film) dir)) /\
  (create_phase_space_image xp yp w n film = Ok img ->
   tomoscope_save_image xp yp w n film dir = Ok (save_phase_space img (Z.of_nat film) dir)).
Proof. exact C55_same_paths_lem. Qed.
Print Assumptions C55_same_paths.

Theorem C55_kept : forall dir (s : store) (films : list (Z * list (list Qc))) (diffs : list (Z * list Qc)),
  NoDup (map fst films) -> NoDup (map fst diffs) ->
  let files := map (fun f => save_phase_space (snd f) (fst f) dir) films ++ map (fun f => save_difference (snd f) dir (fst f)) diffs in
  (forall i img, In (i, img) films ->
    write_all files s (fst (save_phase_space img i dir)) = Some (snd (save_phase_space img i dir))) /\
  (forall i d, In (i, d) diffs ->
    write_all files s (fst (save_difference d dir i)) = Some (snd (save_difference d dir i))) /\
  (forall p, ~ In p (map fst files) -> write_all files s p = s p).
Proof. exact C55_kept_lem. Qed.
Print Assumptions C55_kept.

Theorem C55_difference_partial : forall diff dir film, (List.length diff <= 100)%nat ->
  tomoscope_save_difference diff dir film = save_difference diff dir film.
Proof. exact C55_difference_partial_lem. Qed.
Print Assumptions C55_difference_partial.

Theorem C55_difference_refuted : forall diff dir film, (100 < List.length diff)%nat ->
  snd (tomoscope_save_difference diff dir film) <> snd (save_difference diff dir film).
Proof. exact C55_difference_refuted_lem. Qed.
Print Assumptions C55_difference_refuted.

(** A saved profile, read back: one number in every line, in the order of the
    bins, to eight digits. *)
Theorem C58_profile : forall profs k dir row, nth_error profs k = Some row ->
  exists path txt, save_profile profs (Z.of_nat k) dir = Ok (path, txt) /\
  List.length (table txt) = List.length row /\
  forall i x, nth_error row i = Some x -> exists v, nth_error (table txt) i = Some (Some v :: nil) /\ near 7 x v.
Proof. exact C58_profile_lem. Qed.
Print Assumptions C58_profile.

(** An index with no profile is refused. *)
Theorem C58_no_profile : forall profs i dir, (Z.of_nat (List.length profs) <= i \/ i < - Z.of_nat (List.length profs))%Z ->
  save_profile profs i dir = Fail (Raised IndexError).
Proof. exact C58_no_profile_lem. Qed.
Print Assumptions C58_no_profile.

(** A saved image with rows of m pixels: pixel (i, j) is in line i*m + j. *)
Theorem C58_image : forall img recprof dir m, Forall (fun r => List.length r = m) img ->
  let txt := snd (save_phase_space img recprof dir) in
  List.length (table txt) = (List.length img * m)%nat /\
  forall i j row x, nth_error img i = Some row -> nth_error row j = Some x ->
    exists v, nth_error (table txt) (i * m + j) = Some (Some v :: nil) /\ near 7 x v.
Proof. exact C58_image_lem. Qed.
Print Assumptions C58_image.

Theorem C58_self_fields : forall fields dir m, Forall (fun r => List.length r = m) fields ->
  let txt := snd (save_self_volt_profile fields dir) in
  List.length (table txt) = (List.length fields * m)%nat /\
  forall i j row x, nth_error fields i = Some row -> nth_error row j = Some x ->
    exists v, nth_error (table txt) (i * m + j) = Some (Some v :: nil) /\ near 7 x v.
Proof. exact C58_self_fields_lem. Qed.
Print Assumptions C58_self_fields.

(** The discrepancy, by either writer: the number of the iteration and the value,
    for any number of iterations. *)
Theorem C58_difference : forall diff dir film txt,
  txt = snd (save_difference diff dir film) \/ txt = snd (tomoscope_save_difference diff dir film) ->
  List.length (table txt) = List.length diff /\
  forall i d, nth_error diff i = Some d ->
    exists v, nth_error (table txt) i = Some [Some (qn i); Some v] /\ near 7 d v.
Proof. exact C58_difference_lem. Qed.
Print Assumptions C58_difference.

(** An image saved by the tomoscope's program is the image of the particles. *)
Theorem C58_tomoscope_image : forall xp yp w n film dir f,
  tomoscope_save_image xp yp w n film dir = Ok f ->
  exists img, create_phase_space_image xp yp w n film = Ok img /\ f = save_phase_space img (Z.of_nat film) dir.
Proof. exact C58_tomoscope_image_lem. Qed.
Print Assumptions C58_tomoscope_image.

(** Refused if there is no energy bin width; else, if the limits are missing;
    else, if the reference turn has no phase. *)
Theorem C59_refused : forall m p q,
  (pp_dEbin p = None -> write_plotinfo m p q = Fail (Raised EnergyBinningError)) /\
  (pp_dEbin p <> None -> pp_imin p = None \/ pp_imax p = None -> write_plotinfo m p q = Fail (Raised PhaseLimitsError)) /\
  (pp_dEbin p <> None -> pp_imin p <> None -> pp_imax p <> None ->
   (Z.of_nat (List.length (pm_phi0 m)) <= pm_filmstart m * pm_dturns m)%Z -> write_plotinfo m p q = Fail (Raised IndexError)) /\
  (pp_dEbin p <> None -> pp_imin p <> None -> pp_imax p <> None ->
   (0 <= pm_filmstart m * pm_dturns m < Z.of_nat (List.length (pm_phi0 m)))%Z -> exists t, write_plotinfo m p q = Ok t).
Proof. exact C59_refused_lem. Qed.
Print Assumptions C59_refused.

(** What the text says: every number, with the digits of its format.  The feet
    and the fitted position are those of the machine if it has all three, and
    zero otherwise.  The phase is that of the turn of the reference profile. *)
Theorem C59_says : forall m p q t dE imin imax phi,
  write_plotinfo m p q = Ok t -> pp_dEbin p = Some dE -> pp_imin p = Some imin -> pp_imax p = Some imax ->
  (0 <= pm_filmstart m * pm_dturns m)%Z ->
  nth_error (pm_phi0 m) (Z.to_nat (pm_filmstart m * pm_dturns m)) = Some phi ->
  says t " profilecount = " (fun v => v = qz (pm_nprofiles m)) /\
  says t " profilelength = " (fun v => v = qz (pm_nbins m)) /\
  says t " dtbin = " (near 4 (pm_dtbin m)) /\
  says t " dEbin = " (near 4 dE) /\
  says t " eperimage = " (near 3 q) /\
  says t " xat0 =  " (near_point 3 (pm_synch_x m)) /\
  says t " yat0 =  " (near_point 3 (pm_synch_y m)) /\
  (forall low up fit, (pm_low m = Some low /\ pm_up m = Some up /\ pm_fit_x m = Some fit) \/
    ((pm_low m = None \/ pm_up m = None \/ pm_fit_x m = None) /\ low = 0 /\ up = 0 /\ fit = 0) ->
    says t " tangentfootl =    " (near_point 3 low) /\ says t " tangentfootu =    " (near_point 3 up) /\
    says t " fit xat0 =   " (near_point 3 fit)) /\
  (exists n, read_number n = Some (qz (pm_filmstart m + 1)) /\
    says t (" phi0( " ++ n ++ ") = ")%string (near_point 4 phi) /\
    exists a b, In (" imin( " ++ n ++ ") =   " ++ a ++ " and imax( " ++ n ++ ") =  " ++ b)%string (lines t) /\
      read_number a = Some (qz imin) /\ read_number b = Some (qz imax)).
Proof. exact C59_says_lem. Qed.
Print Assumptions C59_says.

(** The line printed while tracking: the two profiles, counted from one. *)
Theorem C59_status : forall i j, exists a b,
  print_tracking_status i j = (" Tracking from time slice  " ++ a ++ " to  " ++ b ++ ",   0.000% went outside the image width." ++ String "010" "")%string /\
  read_number a = Some (qz (i + 1)) /\ read_number b = Some (qz (j + 1)).
Proof. exact C59_status_lem. Qed.
Print Assumptions C59_status.

(** A profile, an image, a machine. *)
Example ex_saved : snd (save_phase_space [[qq 1 3; 0]; [qz (-2); qz 123456789]] 4 "out") =
  ("  3.3333333E-01" ++ String "010" ("  0.0000000E+00" ++ String "010" ("  -2.0000000E+00" ++ String "010" ("  1.2345679E+08" ++ String "010" ""))))%string.
Proof. vm_compute. reflexivity. Qed.
Example ex_paths : fst (save_phase_space [] 4 "out") = "out/image005.data"%string /\
  fst (save_difference [] "out/" 1233) = "out/d1234.data"%string /\
  exists t, save_profile [[qq 1 2]] 0 "" = Ok ("profile001.data"%string, t).
Proof. split; [vm_compute; reflexivity|]. split; [vm_compute; reflexivity|]. eexists. vm_compute. reflexivity. Qed.
(** The last profile can also be saved with the index -1; its file is then
    called profile000. *)
Example ex_last : exists t, save_profile [[qq 1 2]; [qq 1 3]] (-1) "" = Ok ("profile000.data"%string, t).
Proof. eexists. vm_compute. reflexivity. Qed.
Example ex_image_rows : Forall (fun r => List.length r = 2%nat) [[qq 1 3; 0]; [qz (-2); qz 5]].
Proof. repeat constructor. Qed.
Definition ex_plot : plot_machine := {| pm_filmstart := 1; pm_dturns := 2; pm_nprofiles := 3; pm_nbins := 10; pm_dtbin := qq 1 1000;
  pm_synch_x := qq 9 2; pm_synch_y := qz 5; pm_phi0 := [qz 0; qq 1 10; qq 2 10]; pm_fit_x := None; pm_low := Some 1; pm_up := Some (qz 8) |}.
Example ex_plotinfo : exists t, write_plotinfo ex_plot {| pp_dEbin := Some (qz 1000); pp_imin := Some 0%Z; pp_imax := Some 9%Z |} (qz 10) = Ok t /\
  nth_error (lines t) 15 = Some " tangentfootl =    0.000"%string /\ nth_error (lines t) 19 = Some " phi0( 2) = 0.2000"%string.
Proof. eexists. split; [vm_compute; reflexivity|]. split; vm_compute; reflexivity. Qed.
