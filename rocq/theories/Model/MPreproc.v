(** Model of the treatment of raw data: LT/data/pre_process.py,
    LT/utils/tomo_input.py (Frames, raw_data_to_profiles),
    LT/compat/fortran.py (calc_baseline), LT/data/profiles.py (the waterfall
    setter), LT/assertions.py (scalar assertions).  Numbers are exact. *)
From Coq Require Import List ZArith Bool QArith Qcanon.
From Verif Require Import Base.Res Base.QcLib Model.MRecon Model.MParticles.
Import ListNotations.
Local Open Scope Qc_scope.

(** Python slices l[a:b], l[a:]: negative bounds count from the end, bounds
    outside the list are clamped. *)
Definition pyidx (len : nat) (z : Z) : nat :=
  Z.to_nat (if z <? 0 then Z.max 0 (z + Z.of_nat len) else Z.min z (Z.of_nat len))%Z.
Definition slice {A} (l : list A) (a b : Z) : list A :=
  let lo := pyidx (length l) a in firstn (pyidx (length l) b - lo) (skipn lo l).
Definition slice_from {A} (l : list A) (a : Z) : list A := skipn (pyidx (length l) a) l.

(** ** Assertions on scalars, assertions.py 22-190 *)
Definition assert_greater (v limit : Z) (e : exn) : res unit :=
  if (v <=? limit)%Z then Fail (Raised e) else Ok tt.
Definition assert_less (v limit : Z) (e : exn) : res unit :=
  if (limit <=? v)%Z then Fail (Raised e) else Ok tt.
Definition assert_greater_or_equal (v limit : Z) (e : exn) : res unit :=
  if (v <? limit)%Z then Fail (Raised e) else Ok tt.
Definition assert_inrange (v low up : Z) (e : exn) : res unit :=
  if ((v <? low) || (up <? v))%Z then Fail (Raised e) else Ok tt.

(** ** Rebinning *)

(** pre_process.py 375-391 [_rebin_dividable], for rows of [nbins] elements:
    reshape to rows of rbn, sum, reshape.  int(nbins / rbn) is the exact
    integer quotient. *)
Definition rebin_dividable (data : list (list Qc)) (nbins rbn : nat) : res (list (list Qc)) :=
  if negb (Nat.eqb (nbins mod rbn) 0) then Fail (Raised AssertionError)
  else
    let nprofs := length data in
    let new_nbins := (nbins / rbn)%nat in
    let ans := chunk (new_nbins * nprofs) rbn (concat data) in
    Ok (chunk nprofs new_nbins (map qsum ans)).

(** pre_process.py 410-419 [_rebin_last]. *)
Definition rebin_last (data : list (list Qc)) (nbins rbn : nat) : res (list Qc) :=
  let i0 := ((Z.of_nat (nbins / rbn) - 1) * Z.of_nat rbn)%Z in
  f <- qdiv (qn rbn) (qz (Z.of_nat nbins - i0)) ;;
  Ok (map (fun row => qsum (slice_from row i0) * f) data).

(** pre_process.py 396-405 [_rebin_individable]. *)
Definition rebin_individable (data : list (list Qc)) (nbins rbn : nat) : res (list (list Qc)) :=
  let last_data_idx := (nbins / rbn * rbn)%nat in
  first <- rebin_dividable (map (fun row => slice row 0 (Z.of_nat last_data_idx)) data) last_data_idx rbn ;;
  last <- rebin_last data nbins rbn ;;
  Ok (map (fun p => fst p ++ [snd p]) (combine first last)).

(** pre_process.py 73-87 [rebin]. *)
Definition rebin (waterfall : list (list Qc)) (nbins rbn : nat) (dtbin synch_part_x : option Qc)
  : res (list (list Qc) * option Qc * option Qc) :=
  if Nat.eqb rbn 0 then Fail (Raised ZeroDivisionError)
  else
    rebinned <- (if Nat.eqb (nbins mod rbn) 0 then rebin_dividable waterfall nbins rbn
                 else rebin_individable waterfall nbins rbn) ;;
    let dtbin := option_map (fun d => d * qn rbn) dtbin in
    match synch_part_x with
    | Some x => x <- qdiv x (qn rbn) ;; Ok (rebinned, dtbin, Some x)
    | None => Ok (rebinned, dtbin, None)
    end.

(** ** Cuts *)

Definition qabs (x : Qc) : Qc := if qltb x 0 then - x else x.
Definition qminimum (l : list Qc) : res Qc :=
  match l with
  | [] => Fail (Raised ValueError)
  | x :: r => Ok (fold_left (fun a b => if qltb b a then b else a) r x)
  end.
Definition qmaximum (l : list Qc) : res Qc :=
  match l with
  | [] => Fail (Raised ValueError)
  | x :: r => Ok (fold_left (fun a b => if qltb a b then b else a) r x)
  end.

(** np.argmax of booleans: the first true, 0 if there is none; ValueError for
    an empty array. *)
Fixpoint first_true (l : list bool) (k : nat) : option nat :=
  match l with [] => None | b :: r => if b then Some k else first_true r (S k) end.
Definition bool_argmax (l : list bool) : nat :=
  match first_true l 0 with Some k => k | None => 0%nat end.

(** pre_process.py 185-220 [get_cuts]; nbins = len(waterfall[0]). *)
Definition steps_of (waterfall : list (list Qc)) (nbins : nat) : list Qc :=
  map (fun b => qsum (map (fun row => qabs (nth (S b) row 0 - nth b row 0)) waterfall))
      (seq 0 (nbins - 1)).
Definition get_cuts (waterfall : list (list Qc)) (nbins : nat) (threshold : option Qc) (margin : Z)
  : res (Z * Z) :=
  let diff := steps_of waterfall nbins in
  mn <- qminimum diff ;;
  let diff := map (fun d => d - mn) diff in
  thr <- match threshold with
         | Some th => Ok th
         | None => mx <- qmaximum diff ;; Ok (mx * qq 3 10)
         end ;;
  let actual := map (fun d => qltb thr d) diff in
  let n_bins := Z.of_nat nbins in
  let cut_left := Z.of_nat (bool_argmax actual) in
  let cut_right := (n_bins - Z.of_nat (bool_argmax (rev actual)) + 1)%Z in
  let cut_left := (if margin <? cut_left then cut_left - margin else 0)%Z in
  let cut_right := (if margin <? n_bins - cut_right then cut_right + margin else n_bins)%Z in
  Ok (cut_left, cut_right).

(** pre_process.py 223-265 [cut_waterfall]. *)
Definition cut_waterfall {A} (waterfall : list (list A)) (nbins : nat) (cut_left cut_right : Z)
  : res (list (list A)) :=
  let n_bins := Z.of_nat nbins in
  _ <- assert_greater_or_equal cut_left 0 ValueError ;;
  _ <- (if (cut_right <? 0)%Z then
          _ <- assert_inrange cut_right (- n_bins) (-1) ValueError ;;
          assert_greater (n_bins + cut_right) cut_left ValueError
        else
          _ <- assert_inrange cut_right 0 n_bins ValueError ;;
          assert_greater cut_right cut_left ValueError) ;;
  Ok (map (fun row => slice row cut_left cut_right) waterfall).

(** ** Empty profiles *)

(** Rows, or columns, whose flag is set. *)
Definition keep_flagged {A} (flags : list bool) (l : list A) : list A :=
  map snd (filter (fun p => fst p) (combine flags l)).

(** waterfall[good_frames, :] and xp[:, good_frames]: a flag array of another
    length is an IndexError. *)
Definition mask_columns {A} (flags : list bool) (ncols : nat) (t : list (list A)) : res (list (list A)) :=
  if Nat.eqb (length flags) ncols then Ok (map (keep_flagged flags) t) else Fail (Raised IndexError).

(** pre_process.py 269-332 [filter_profiles].  xp and yp come with their
    number of columns.  A waterfall of sum zero is a division by zero (the
    code goes on with not-a-number). *)
Definition good_frames (waterfall : list (list Qc)) : res (list bool) :=
  let s := qsum (map qsum waterfall) in
  wf <- mapM (mapM (fun v => qdiv v s)) waterfall ;;
  let bin_sum := map qsum wf in
  mx <- qmaximum bin_sum ;;
  mn <- qminimum bin_sum ;;
  mean <- qdiv (qsum bin_sum) (qn (length bin_sum)) ;;
  let threshold := mx - mn - mean in
  Ok (map (fun v => qltb threshold v) bin_sum).

Definition filter_profiles {A} (waterfall : list (list Qc)) (xp yp : option (nat * list (list A)))
    (rec_prof : option Z)
  : res (list (list Qc) * option (list (list A)) * option (list (list A)) * option Z) :=
  match xp, yp with
  | None, Some _ | Some _, None => Fail (Raised ValueError)
  | _, _ =>
    good <- good_frames waterfall ;;
    let s := qsum (map qsum waterfall) in
    wf <- mapM (mapM (fun v => qdiv v s)) waterfall ;;
    let good_waterfall := keep_flagged good wf in
    gx <- match xp with None => Ok None | Some (c, t) => g <- mask_columns good c t ;; Ok (Some g) end ;;
    gy <- match yp with None => Ok None | Some (c, t) => g <- mask_columns good c t ;; Ok (Some g) end ;;
    match rec_prof with
    | None => Ok (good_waterfall, gx, gy, None)
    | Some p =>
      let shift := (Z.of_nat (length wf) - Z.of_nat (length good_waterfall))%Z in
      if (p - shift <? 0)%Z then Fail (Raised ValueError)
      else Ok (good_waterfall, gx, gy, Some (p - shift)%Z)
    end
  end.

(** ** Raw data *)

(** Frames, tomo_input.py 75-90. *)
Record frames := Frames {
  f_nframes : Z; f_nbins_frame : Z; f_skip_frames : Z; f_skip_start : Z; f_skip_end : Z; f_rebin : Z }.

(** tomo_input.py 131-155. *)
Definition f_nprofs (f : frames) : Z := f_nframes f - f_skip_frames f.
Definition f_nbins (f : frames) : Z := f_nbins_frame f - f_skip_start f - f_skip_end f.

(** assertions.py 606-637 [assert_frame_inputs]. *)
Definition assert_frame_inputs (f : frames) : res unit :=
  _ <- assert_greater (f_nframes f) 0 InputError ;;
  _ <- assert_inrange (f_skip_frames f) 0 (f_nframes f - 1) InputError ;;
  _ <- assert_greater (f_nbins_frame f) 0 InputError ;;
  _ <- assert_inrange (f_skip_start f) 0 (f_nbins_frame f - 1) InputError ;;
  _ <- assert_inrange (f_skip_end f) 0 (f_nbins_frame f - 1) InputError ;;
  _ <- assert_less (f_skip_start f + f_skip_end f) (f_nbins_frame f) InputError ;;
  assert_greater_or_equal (f_rebin f) 1 InputError.

(** tomo_input.py 157-203 [to_waterfall], for an iterable argument. *)
Definition to_waterfall {A} (f : frames) (raw : list A) : res (list (list A)) :=
  if negb (Z.eqb (Z.of_nat (length raw)) (f_nframes f * f_nbins_frame f)) then Fail (Raised RawDataImportError)
  else
    _ <- assert_frame_inputs f ;;
    let wf := chunk (Z.to_nat (f_nframes f)) (Z.to_nat (f_nbins_frame f)) raw in
    let wf := slice_from wf (f_skip_frames f) in
    Ok (if (0 <? f_skip_end f)%Z
        then map (fun row => slice row (f_skip_start f) (- f_skip_end f)) wf
        else map (fun row => slice_from row (f_skip_start f)) wf).

(** compat/fortran.py 237-273 [calc_baseline]. *)
Definition calc_baseline (waterfall : list (list Qc)) (ref_prof : Z) (percent : Qc) : res Qc :=
  if (qltb percent 0 || qltb 1 percent)%bool then Fail (Raised InputError)
  else
    row <- np_get waterfall ref_prof ;;
    let nbins := qn (length row) in
    let iend := qtrunc (percent * nbins) in
    qdiv (qsum (slice row 0 iend)) (qz (qfloor (percent * nbins))).

(** The attributes of the machine used by [Profiles]. *)
Record pmachine := PMachine {
  p_nprofiles : Z; p_nbins : Z; p_synch_y : Qc; p_synch_x : Qc; p_dtbin : Qc; p_beam_ref : Z }.

(** machine_base.py 283-289, 343-344: assigning nbins also sets synch_part_y. *)
Definition set_nbins (m : pmachine) (n : Z) : pmachine :=
  PMachine (p_nprofiles m) n (qz n / qz 2) (p_synch_x m) (p_dtbin m) (p_beam_ref m).

(** A [Profiles] object: its waterfall (None before the first assignment) and
    the machine it refers to. *)
Record profiles := Profiles { pf_machine : pmachine; pf_waterfall : option (nat * list (list Qc)) }.

(** profiles.py 125-143, the waterfall setter, for an array of [nbins]
    columns; the object afterwards and the exception raised. *)
Definition set_waterfall (p : profiles) (nbins : nat) (wf : list (list Qc)) : profiles * option exn :=
  if negb (Z.eqb (Z.of_nat (length wf)) (p_nprofiles (pf_machine p))) then (p, Some WaterfallError)
  else
    let clipped := clip_rows wf in
    let p := Profiles (pf_machine p) (Some (nbins, clipped)) in
    if qeqb (qsum (map qsum (map (map qabs) clipped))) 0 then (p, Some WaterfallReducedToZero)
    else (Profiles (set_nbins (pf_machine p) (Z.of_nat nbins)) (pf_waterfall p), None).

(** tomo_input.py 441-494 [raw_data_to_profiles], synch_part_x taken from the
    machine; a waterfall of [nbins] columns. *)
Definition raw_data_to_profiles (waterfall : list (list Qc)) (nbins : nat) (m : pmachine) (rbn : nat)
    (sampling_time : Qc) : res profiles :=
  base <- calc_baseline waterfall (p_beam_ref m) (qq 1 20) ;;
  let wf := map (map (fun v => v - base)) waterfall in
  ' (wf, dt, sx) <- rebin wf nbins rbn (Some sampling_time) (Some (p_synch_x m)) ;;
  match dt, sx with
  | Some dt, Some sx =>
    let m := PMachine (p_nprofiles m) (p_nbins m) (p_synch_y m) sx dt (p_beam_ref m) in
    lift_exn (set_waterfall (Profiles m None) (match wf with [] => 0%nat | r :: _ => length r end) wf)
  | _, _ => Fail (Raised TypeError)
  end.

(** ** Tangent bins *)

(** np.argmax: the first largest element. *)
Fixpoint argmax_from (l : list Qc) (k best : nat) (mx : Qc) : nat :=
  match l with
  | [] => best
  | v :: r => if qltb mx v then argmax_from r (S k) k v else argmax_from r (S k) best mx
  end.
Definition qargmax (l : list Qc) : res nat :=
  match l with [] => Fail (Raised ValueError) | x :: r => Ok (argmax_from r 1 0 x) end.

(** pre_process.py 357-370 [_calc_tangentbins], threshold_coeff 0.15: the two
    loops stop at the first bin below the threshold; a variable that no loop
    has assigned is an UnboundLocalError.  Returns (up, low). *)
Definition calc_tangentbins (prof : list Qc) : res (Z * Z) :=
  mx <- qmaximum prof ;;
  maxbin <- qargmax prof ;;
  let threshold := qq 3 20 * mx in
  let below i := qltb (nth i prof 0) threshold in
  let low := find below (rev (seq 1 maxbin)) in
  let up := find below (seq maxbin (length prof - maxbin)) in
  match up, low with
  | Some u, Some l => Ok (Z.of_nat u - 1, Z.of_nat l + 1)%Z
  | _, _ => Fail (Raised UnboundLocalError)
  end.
