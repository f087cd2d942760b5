(** Theorems on a whole reconstruction (C74-C80).
    Statements only: each theorem is closed by the lemma of the same name in
    Proof/CRun.v.  Written by tools/mkprops.py. *)
From Coq Require Import List Arith ZArith QArith Qcanon Bool String.
From Verif Require Import Base.Res Base.QcLib Model.MRecon Model.MTrack Model.MParticles Model.MPreproc Model.MInput Model.MRun
  Spec.TomoSpec Spec.ParticleSpec Spec.InputSpec Spec.PreprocSpec Spec.RunSpec.
Import ListNotations.
Local Open Scope Qc_scope.
From Verif Require Import Proof.CRun.

(** C74.  The image returned by a run is a density: n x n cells for profiles of
    n bins, no negative cell, total one, nothing outside the reconstruction
    area; the axes have their zero at the synchronous particle and the widths
    of a time bin and an energy bin as steps. *)
Theorem C74_image : forall to_int to_float turn_values fit find_limits sin sqrt past lines raw rp pt ts es img,
  run_parts to_int to_float turn_values fit find_limits sin sqrt past lines raw rp = Ok (pt, (ts, es, img)) ->
  let cur := rm_cur (pt_machine pt) in let n := Z.to_nat (p_nbins cur) in
  every_turn (rm_set (pt_machine pt)) (rm_turns (pt_machine pt)) -> near_image n (pt_limits pt) ->
  ts = tab n (fun i => (qn i - p_synch_x cur) * p_dtbin cur) /\
  es = tab n (fun i => (qn i - qn n / qz 2) * ql_dEbin (pt_limits pt)) /\
  rectangular n n img /\ Forall (Forall (fun v => 0 <= v)) img /\ qsum (map qsum img) = 1 /\
  forall a b, (a < n)%nat -> (b < n)%nat -> ~ in_area (pt_limits pt) (Z.of_nat a) (Z.of_nat b) -> cell img a b = 0.
Proof. exact C74_image_lem. Qed.
Print Assumptions C74_image.

(** C74.  The synchronous particle and the bin width used.  With the bin width,
    the rebinning factor and the position of the synchronous particle of the
    file: the bins are wider by the factor; a position that is not negative is
    used, in the new bins; a negative one is replaced by the result of the fit
    to the profiles. *)
Theorem C74_synchronous : forall to_int to_float turn_values fit find_limits sin sqrt past lines raw rp pt image,
  run_parts to_int to_float turn_values fit find_limits sin sqrt past lines raw rp = Ok (pt, image) ->
  let m := pt_machine pt in let cur := rm_cur m in
  exists f x dt, documented to_int to_float lines (rm_set m) f /\
    im_synch_part_x (rm_set m) = Fin x /\ tf_dtbin f = Fin dt /\
    let factor := qz (f_rebin (tf_frames f)) in
    0 < factor /\ p_dtbin cur = dt * factor /\
    (0 <= x -> p_synch_x cur = x / factor) /\
    (x < 0 -> exists before low up, fit (rm_set m) (rm_turns m) before (pt_waterfall pt) = Ok (p_synch_x cur, low, up) /\
       p_synch_x before = x / factor /\ p_nprofiles before = p_nprofiles cur /\ p_nbins before = p_nbins cur /\
       p_dtbin before = p_dtbin cur /\ p_synch_y before = p_synch_y cur /\ p_beam_ref before = p_beam_ref cur).
Proof. exact C74_synchronous_lem. Qed.
Print Assumptions C74_synchronous.

(** C74.  What the image is made of.  The particles start at the points of the
    grid of the area at the profile to be reconstructed.  Those that stay
    inside the profiles at every profile are used, with the truncated
    positions of the tracking as coordinates.  The cells of the image are the
    shares in the total weight of the particles that started there, with the
    weights found by Tomography.run. *)
Theorem C74_particles : forall to_int to_float turn_values fit find_limits sin sqrt past lines raw rp pt ts es img,
  run_parts to_int to_float turn_values fit find_limits sin sqrt past lines raw rp = Ok (pt, (ts, es, img)) ->
  let m := pt_machine pt in let cur := rm_cur m in let L := pt_limits pt in let w := pt_weight pt in
  let n := Z.to_nat (p_nbins cur) in let nprofs := Z.to_nat (im_nprofiles (rm_set m)) in
  every_turn (rm_set m) (rm_turns m) -> near_image n L ->
  exists s p c keep,
    let at_profile := position sin past s (rm_turns m) cur L nprofs p in
    settings (rm_set m) s /\ profile_number nprofs (pt_idx pt) p /\
    (rp = Some (pt_idx pt) \/ rp = None /\ im_filmstart (rm_set m) = Some (pt_idx pt)) /\
    starting_points L (n_snpt s) c /\ stay_inside nprofs n at_profile c keep /\ keep <> [] /\
    t_xp (pt_tomo pt) = Some (map (fun k => tab nprofs (fun q => qtrunc (fst (at_profile q (nth k c (0, 0)))))) keep) /\
    t_yp (pt_tomo pt) = Some (map (fun k => tab nprofs (fun q => qtrunc (snd (at_profile q (nth k c (0, 0)))))) keep) /\
    (exists niter rec calls, im_niter (rm_set m) = Some niter /\ MRecon.run sqrt (pt_tomo pt) niter = Ok (w, pt_discr pt, rec, calls)) /\
    List.length w = List.length keep /\ Forall (fun v => 0 <= v) w /\ 0 < qsum w /\
    forall a b, (a < n)%nat -> (b < n)%nat -> cell img a b =
      sumn (List.length keep) (fun i => if in_cell (Z.of_nat a) (Z.of_nat b) (nth (nth i keep 0%nat) c (0, 0)) then nth i w 0 else 0) / qsum w.
Proof. exact C74_particles_lem. Qed.
Print Assumptions C74_particles.

(** A small run: three profiles of twenty bins, two turns between them. *)
Definition C74_digit (s : string) : res Z :=
  match String.index 0 s "0123456789ABCDEFGHIJKLMN" with
  | Some k => if Nat.eqb (String.length s) 1 then Ok (Z.of_nat k) else Fail (Raised ValueError)
  | None => Fail (Raised ValueError) end.
Definition C74_float (s : string) : res pyfloat := z <- C74_digit s ;; Ok (Fin (qz z)).
Definition C74_file : list string :=
  map (fun k => match k with 16 => "3" | 18 => "0" | 20 => "K" | 26 => "0" | 28 => "0" | 39 => "A" | 24 => "2" | 49 => "2" | 45 => "2" | 73 => "0" | 91 => "0"
                        | _ => "1" end)%nat%string (seq 0 98).
Definition C74_turns (m : imachine) : res tvals :=
  match im_dturns m with
  | Some d => let n := Z.to_nat (d * (im_nprofiles m - 1) + 1) in
      if (d * (im_nprofiles m - 1) + 1 <? 0)%Z then Fail (Raised ValueError)
      else Ok (TVals (repeat (Q2Qc (1#8)) n) (repeat 0 n) (repeat 0 n) (repeat 0 n) (repeat (Q2Qc (1#8)) n) (repeat 1 n))
  | None => Fail (Raised TypeError) end.
Definition C74_limits (m : imachine) (tv : tvals) (cur : pmachine) : res qlimits :=
  if (p_nbins cur =? 20)%Z then Ok (QLimits (qz (-10)) 1 9 11 (repeat 8%Z 20) (repeat 12%Z 20)) else Fail (Raised ValueError).
Definition C74_raw : list Qc :=
  map qz (repeat 1 8 ++ [2;5;4;2] ++ repeat 1 8 ++ repeat 1 8 ++ [3;5;4;1] ++ repeat 1 8 ++ repeat 1 8 ++ [2;6;3;2] ++ repeat 1 8)%Z.
Definition C74_fit (m : imachine) (tv : tvals) (cur : pmachine) (wf : list (list Qc)) : res (Qc * Qc * Qc) := Ok (qz 10, 0, 0).
Notation C74_run rp := (run_parts C74_digit C74_float C74_turns C74_fit C74_limits (fun x => x) (fun x => x) 0 C74_file C74_raw rp).
Lemma C74_every_turn : forall m tv, C74_turns m = Ok tv -> every_turn m tv.
Proof.
  intros m tv E d l D I. unfold C74_turns in E. rewrite D in E. cbv zeta in E. destruct (Z.ltb_spec (d * (im_nprofiles m - 1) + 1) 0); [discriminate|].
  injection E as <-. cbn in I.
  repeat (destruct I as [<-|I]; [rewrite repeat_length, Z2Nat.id by assumption; reflexivity|]). contradiction.
Qed.
Lemma C74_near : forall m tv cur L, C74_limits m tv cur = Ok L -> near_image (Z.to_nat (p_nbins cur)) L.
Proof.
  intros m tv cur L E. unfold C74_limits in E. destruct (Z.eqb_spec (p_nbins cur) 20) as [->|]; [|discriminate]. injection E as <-.
  change (Z.to_nat 20) with 20%nat. split; [reflexivity|]. split; [reflexivity|]. split; [repeat constructor|]. split; [split; discriminate|]. split; [discriminate|].
  split; [|exists 0%nat; split; [repeat constructor|reflexivity]]. intros i Hi. cbn [ql_jmin ql_jmax].
  do 20 (destruct i as [|i]; [split; discriminate|]). exfalso. apply (Nat.nlt_0_r i). do 20 apply Nat.succ_lt_mono. exact Hi.
Qed.
Lemma C74_run_of : forall ti tf tv ft fl sin sqrt past lines raw rp r, run_parts ti tf tv ft fl sin sqrt past lines raw rp = Ok r ->
  run ti tf tv ft fl sin sqrt past lines raw rp = Ok (snd r).
Proof. intros ti tf tv ft fl sin sqrt past lines raw rp [a b] E. unfold run. rewrite E. reflexivity. Qed.
Example C74_image_ex : exists pt ts es img, C74_run None = Ok (pt, (ts, es, img)) /\
  every_turn (rm_set (pt_machine pt)) (rm_turns (pt_machine pt)) /\
  near_image (Z.to_nat (p_nbins (rm_cur (pt_machine pt)))) (pt_limits pt) /\
  List.length (pt_weight pt) = 12%nat /\ qltb 0 (cell img 9 9) = true /\ qltb (cell img 9 8) (cell img 9 9) = true.
Proof.
  assert (Q : match C74_run None with
    | Ok (pt, (ts, es, img)) => (Nat.eqb (List.length (pt_weight pt)) 12 && qltb 0 (cell img 9 9) && qltb (cell img 9 8) (cell img 9 9) &&
        match C74_turns (rm_set (pt_machine pt)) with Ok tv => true | _ => false end)%bool
    | _ => false end = true) by (vm_compute; reflexivity).
  assert (Q2 : match C74_run None with Ok (pt, (ts, es, img)) => C74_turns (rm_set (pt_machine pt)) = Ok (rm_turns (pt_machine pt)) /\
      C74_limits (rm_set (pt_machine pt)) (rm_turns (pt_machine pt)) (rm_cur (pt_machine pt)) = Ok (pt_limits pt) | _ => False end)
    by (vm_compute; split; reflexivity).
  destruct (C74_run None) as [[pt [[ts es] img]]|e]; [|discriminate Q].
  exists pt, ts, es, img. split; [reflexivity|]. apply andb_prop in Q. destruct Q as [Q _]. apply andb_prop in Q. destruct Q as [Q Q3]. apply andb_prop in Q. destruct Q as [Q4 Q5].
  apply Nat.eqb_eq in Q4. destruct Q2 as [T L]. split; [exact (C74_every_turn _ _ T)|]. split; [exact (C74_near _ _ _ _ L)|]. auto.
Qed.

(** C75.  A constant offset of the raw data has no effect on a run. *)
Theorem C75_offset : forall to_int to_float turn_values fit find_limits sin sqrt past lines raw rp c,
  run to_int to_float turn_values fit find_limits sin sqrt past lines (map (fun v => v + c) raw) rp =
  run to_int to_float turn_values fit find_limits sin sqrt past lines raw rp.
Proof. exact C75_offset_lem. Qed.
Print Assumptions C75_offset.

(** Other raw data, the same image. *)
Example C75_offset_ex : map (fun v => v + qz 7) C74_raw <> C74_raw /\
  exists img, run C74_digit C74_float C74_turns C74_fit C74_limits (fun x => x) (fun x => x) 0 C74_file (map (fun v => v + qz 7) C74_raw) None = Ok img.
Proof.
  split; [intros H; apply (f_equal (fun l => qeqb (hd 0 l) 1)) in H; vm_compute in H; discriminate H|].
  destruct C74_image_ex as (pt & ts & es & img & E & _). exists (ts, es, img).
  rewrite C75_offset_lem. exact (C74_run_of _ _ _ _ _ _ _ _ _ _ _ _ E).
Qed.

(** C76.  Multiplying all raw data by a positive number has no effect on a
    run, if it has none on the fit of the synchronous particle (C72_scale). *)
Theorem C76_scale : forall to_int to_float turn_values fit find_limits sin sqrt past lines raw rp a, 0 < a ->
  (forall m tv cur wf, fit m tv cur (map (map (Qcmult a)) wf) = fit m tv cur wf) ->
  run to_int to_float turn_values fit find_limits sin sqrt past lines (map (Qcmult a) raw) rp =
  run to_int to_float turn_values fit find_limits sin sqrt past lines raw rp.
Proof. exact C76_scale_lem. Qed.
Print Assumptions C76_scale.

Example C76_scale_ex : exists img,
  run C74_digit C74_float C74_turns C74_fit C74_limits (fun x => x) (fun x => x) 0 C74_file (map (Qcmult (qz 3)) C74_raw) None = Ok img.
Proof.
  destruct C74_image_ex as (pt & ts & es & img & E & _). exists (ts, es, img).
  rewrite C76_scale_lem by reflexivity. exact (C74_run_of _ _ _ _ _ _ _ _ _ _ _ _ E).
Qed.

(** C77.  Refuted: the self-field flag of the input does not switch on the
    self-fields.  Line 92 of the parameters, as long as it is a number, has no
    effect on a run. *)
Theorem C77_self_field_refuted : forall to_int to_float turn_values fit find_limits sin sqrt past lines raw rp line line',
  nth_error lines 91 = Some line -> (exists z, to_int (strip line) = Ok z) -> (exists z, to_int (strip line') = Ok z) ->
  (forall m b, turn_values (with_self_field m b) = turn_values m) ->
  (forall m b tv cur wf, fit (with_self_field m b) tv cur wf = fit m tv cur wf) ->
  (forall m b tv cur, find_limits (with_self_field m b) tv cur = find_limits m tv cur) ->
  run to_int to_float turn_values fit find_limits sin sqrt past (replace_flag lines line') raw rp =
  run to_int to_float turn_values fit find_limits sin sqrt past lines raw rp.
Proof. exact C77_self_field_refuted_lem. Qed.
Print Assumptions C77_self_field_refuted.

Example C77_self_field_ex : exists img, nth_error C74_file 91 = Some "0"%string /\
  run C74_digit C74_float C74_turns C74_fit C74_limits (fun x => x) (fun x => x) 0 (replace_flag C74_file "1") C74_raw None = Ok img.
Proof.
  destruct C74_image_ex as (pt & ts & es & img & E & _). exists (ts, es, img). split; [reflexivity|].
  apply C74_run_of in E.
  assert (H := C77_self_field_refuted_lem C74_digit C74_float C74_turns C74_fit C74_limits (fun x => x) (fun x => x) 0 C74_file C74_raw None "0" "1").
  etransitivity; [apply H|exact E]; try reflexivity; eexists; reflexivity.
Qed.

(** C78.  No input makes a run read or write outside an array or loop for
    ever, if its functions on one value do not and the values at each turn and
    the limits of the area have their shapes. *)
Theorem C78_no_bad_access : forall to_int to_float turn_values fit find_limits sin sqrt past,
  (forall s, no_bad_access (to_int s : res Z)) -> (forall s, no_bad_access (to_float s : res pyfloat)) ->
  (forall m, no_bad_access (turn_values m)) -> (forall m tv cur wf, no_bad_access (fit m tv cur wf)) ->
  (forall m tv cur, no_bad_access (find_limits m tv cur)) ->
  (forall m tv, turn_values m = Ok tv -> every_turn m tv) ->
  (forall m tv cur L, find_limits m tv cur = Ok L -> near_image (Z.to_nat (p_nbins cur)) L) ->
  forall lines raw rp, no_bad_access (run to_int to_float turn_values fit find_limits sin sqrt past lines raw rp).
Proof. exact C78_no_bad_access_lem. Qed.
Print Assumptions C78_no_bad_access.

(** The hypotheses hold for the small run. *)
Example C78_no_bad_access_ex : forall lines raw rp,
  no_bad_access (run C74_digit C74_float C74_turns C74_fit C74_limits (fun x => x) (fun x => x) 0 lines raw rp).
Proof.
  assert (D : forall s, no_bad_access (C74_digit s)).
  { intros s. unfold C74_digit, no_bad_access. destruct (index _ _ _); [destruct (Nat.eqb _ _)|]; split; discriminate. }
  apply C78_no_bad_access_lem; eauto using C74_every_turn, C74_near.
  - intros s. specialize (D s). unfold C74_float. destruct (C74_digit s); cbn [bind]; [split; discriminate|]. destruct D. split; congruence.
  - intros m. unfold C74_turns. destruct (im_dturns m); [|split; discriminate]. cbv zeta. destruct (_ <? 0)%Z; split; discriminate.
  - intros. split; discriminate.
  - intros. unfold C74_limits. destruct (_ =? _)%Z; split; discriminate.
Qed.

(** C79.  The functions of the module of shortcuts, called one after the
    other, do the same as a run. *)
Theorem C79_shortcuts : forall to_int to_float turn_values fit find_limits sin sqrt past lines raw rp,
  run to_int to_float turn_values fit find_limits sin sqrt past lines raw rp =
  (' (m, wf) <- read_machine to_int to_float turn_values fit lines raw ;;
   idx <- match rp with None => not_none (im_filmstart (rm_set m)) TypeError | Some i => Ok i end ;;
   ' (lim, x, y) <- shortcut_track find_limits sin past m (Some idx) ;;
   niter <- (_ <- new_tomography wf x y ;; not_none (im_niter (rm_set m)) TypeError) ;;
   ' (_, weight) <- shortcut_tomogram sqrt wf x y niter ;;
   final_image m (ql_dEbin lim) x y weight idx).
Proof. exact C79_shortcuts_lem. Qed.
Print Assumptions C79_shortcuts.

Example C79_shortcuts_ex :
  match read_machine C74_digit C74_float C74_turns C74_fit C74_file C74_raw with
  | Ok (m, wf) => match shortcut_track C74_limits (fun x => x) 0 m (Some 0%Z) with
      | Ok (lim, x, y) => match shortcut_tomogram (fun x => x) wf x y 2 with Ok (t, w) => List.length w = 12%nat | _ => False end
      | _ => False end
  | _ => False end.
Proof. vm_compute. reflexivity. Qed.

(** C79.  Refuted: the default argument of the shortcut for tracking.  It is
    never accepted. *)
Theorem C79_default_refuted : forall find_limits sin past m r, shortcut_track find_limits sin past m None <> Ok r.
Proof. exact C79_default_refuted_lem. Qed.
Print Assumptions C79_default_refuted.

(** C80.  Without a number of a profile a run reconstructs the first profile
    of the film. *)
Theorem C80_default : forall to_int to_float turn_values fit find_limits sin sqrt past lines raw m wf f,
  read_machine to_int to_float turn_values fit lines raw = Ok (m, wf) -> im_filmstart (rm_set m) = Some f ->
  run to_int to_float turn_values fit find_limits sin sqrt past lines raw None =
  run to_int to_float turn_values fit find_limits sin sqrt past lines raw (Some f).
Proof. exact C80_default_lem. Qed.
Print Assumptions C80_default.

Example C80_default_ex :
  match read_machine C74_digit C74_float C74_turns C74_fit C74_file C74_raw with
  | Ok (m, wf) => im_filmstart (rm_set m) = Some 0%Z
  | _ => False end.
Proof. vm_compute. reflexivity. Qed.

(** C80.  A profile may be counted from the end: with n profiles, p - n is the
    same as p. *)
Theorem C80_from_the_end : forall to_int to_float turn_values fit find_limits sin sqrt past lines raw p pt image,
  run_parts to_int to_float turn_values fit find_limits sin sqrt past lines raw (Some (Z.of_nat p)) = Ok (pt, image) ->
  let m := pt_machine pt in
  every_turn (rm_set m) (rm_turns m) -> near_image (Z.to_nat (p_nbins (rm_cur m))) (pt_limits pt) ->
  run to_int to_float turn_values fit find_limits sin sqrt past lines raw (Some (Z.of_nat p - im_nprofiles (rm_set m))%Z) = Ok image.
Proof. exact C80_from_the_end_lem. Qed.
Print Assumptions C80_from_the_end.

Example C80_from_the_end_ex :
  match C74_run (Some 1%Z) with
  | Ok (pt, image) => im_nprofiles (rm_set (pt_machine pt)) = 3%Z /\ qltb 0 (cell (snd image) 10 9) = true
  | _ => False end.
Proof. vm_compute. split; reflexivity. Qed.

(** C80.  Refuted: every profile can be reconstructed.  The last one cannot. *)
Theorem C80_last_refuted : forall to_int to_float turn_values fit find_limits sin sqrt past lines raw r,
  run to_int to_float turn_values fit find_limits sin sqrt past lines raw (Some (-1)%Z) <> Ok r.
Proof. exact C80_last_refuted_lem. Qed.
Print Assumptions C80_last_refuted.

(** C80.  The reconstruction area does not depend on the profile to be
    reconstructed (it is computed for the first profile of the film). *)
Theorem C80_area : forall to_int to_float turn_values fit find_limits sin sqrt past lines raw p q r r',
  run_parts to_int to_float turn_values fit find_limits sin sqrt past lines raw p = Ok r ->
  run_parts to_int to_float turn_values fit find_limits sin sqrt past lines raw q = Ok r' ->
  pt_limits (fst r) = pt_limits (fst r').
Proof. exact C80_area_lem. Qed.
Print Assumptions C80_area.

Example C80_area_ex : exists r r', C74_run (Some 0%Z) = Ok r /\ C74_run (Some 1%Z) = Ok r'.
Proof.
  assert (Q : match C74_run (Some 0%Z) with Ok _ => true | _ => false end = true) by (vm_compute; reflexivity).
  assert (Q' : match C74_run (Some 1%Z) with Ok _ => true | _ => false end = true) by (vm_compute; reflexivity).
  destruct (C74_run (Some 0%Z)) as [r|]; [|discriminate Q]. destruct (C74_run (Some 1%Z)) as [r'|]; [|discriminate Q'].
  exists r, r'. split; reflexivity.
Qed.
