(** Model of reading an input file: LT/utils/tomo_input.py (lines 204-426),
    LT/assertions.py [assert_machine_input], and of the frames used by
    LT/utils/tomo_run.py [run].
    Text is a Coq string, a file or stdin is the list of its lines.  Python's
    int() and float() on a string, numpy.genfromtxt and the computation of the
    values at each turn are function parameters. *)
From Coq Require Import List ZArith Bool QArith Qcanon String Ascii.
From Verif Require Import Base.Res Base.QcLib Model.MRecon Model.MParticles Model.MPreproc.
Import ListNotations.
Local Open Scope Z_scope.

(** A Python float: not-a-number, an infinity or a finite (exact) number. *)
Inductive pyfloat := NaN | PInf | NInf | Fin (q : Qc).

(** [a <= b] and [a < b] for a float [a] and a finite [b]; false for
    not-a-number. *)
Definition fle (a : pyfloat) (b : Qc) : bool :=
  match a with NaN => false | PInf => false | NInf => true | Fin q => qleb q b end.
Definition flt (a : pyfloat) (b : Qc) : bool :=
  match a with NaN => false | PInf => false | NInf => true | Fin q => qltb q b end.

(** int * float. *)
Definition fmulz (z : Z) (a : pyfloat) : pyfloat :=
  match a with
  | NaN => NaN
  | Fin q => Fin (qz z * q)%Qc
  | PInf => if z =? 0 then NaN else if z <? 0 then NInf else PInf
  | NInf => if z =? 0 then NaN else if z <? 0 then PInf else NInf
  end.

(** str.strip('\r\n'): remove carriage returns and line feeds at both ends. *)
Definition is_eol (c : ascii) : bool := (Ascii.eqb c "013" || Ascii.eqb c "010")%char%bool.
Fixpoint drop_eol (l : list ascii) : list ascii :=
  match l with c :: r => if is_eol c then drop_eol r else l | [] => [] end.
Definition strip (s : string) : string :=
  string_of_list_ascii (rev (drop_eol (rev (drop_eol (list_ascii_of_string s))))).

(** ['pipe' in s]. *)
Definition contains (sub s : string) : bool :=
  match String.index 0 sub s with Some _ => true | None => false end.

(** tomo_input.py 22-24. *)
Definition PARAMETER_LENGTH : Z := 98.
Definition RAW_DATA_FILE_IDX : Z := 12.

(** The attributes of a Machine set by its constructor, machine.py 96-121 and
    machine_base.py 197-247; the ones that assert_machine_input compares with
    None are options. *)
Record imachine := IMachine {
  im_dtbin : option pyfloat; im_dturns : option Z;
  im_filmstart : option Z; im_filmstop : option Z; im_filmstep : option Z;
  im_niter : option Z; im_snpt : option Z;
  im_machine_ref_frame : option Z; im_beam_ref_frame : option Z;
  im_h_num : option pyfloat; im_h_ratio : option pyfloat; im_b0 : option pyfloat;
  im_mean_orbit_rad : option pyfloat; im_bending_rad : option pyfloat; im_e_rest : option pyfloat;
  im_pickup : option pyfloat; im_g_coupling : option pyfloat;
  im_output_dir : string; im_synch_part_x : pyfloat; im_demax : pyfloat;
  im_full_pp : bool; im_self_field : bool;
  im_vrf1 : pyfloat; im_vrf1dot : pyfloat; im_vrf2 : pyfloat; im_vrf2dot : pyfloat;
  im_phi12 : pyfloat; im_bdot : pyfloat; im_trans_gamma : pyfloat; im_charge : pyfloat;
  im_zwall_over_n : pyfloat;
  im_nprofiles : Z; im_nbins : Z; im_min_dt : pyfloat; im_max_dt : pyfloat }.

(** The Frames object with the data path and the sampling time,
    tomo_input.py 75-90. *)
Record tframes := TFrames { tf_frames : frames; tf_path : string; tf_dtbin : pyfloat }.

(** ** assertions.py 502-603 *)

(** assert_var_not_none followed by an assertion on the value. *)
Definition not_none {A} (v : option A) (e : exn) : res A :=
  match v with Some a => Ok a | None => Fail (Raised e) end.
Definition fassert_greater (v : pyfloat) (limit : Qc) (e : exn) : res unit :=
  if fle v limit then Fail (Raised e) else Ok tt.
Definition fassert_greater_or_equal (v : pyfloat) (limit : Qc) (e : exn) : res unit :=
  if flt v limit then Fail (Raised e) else Ok tt.

Definition assert_machine_input (m : imachine) : res unit :=
  let E := MachineParameterError in
  dtbin <- not_none (im_dtbin m) E ;;
  _ <- fassert_greater dtbin 0%Qc E ;;
  dturns <- not_none (im_dturns m) E ;;
  _ <- assert_greater dturns 0 E ;;
  ' (start, stop, step) <- match im_filmstart m, im_filmstop m, im_filmstep m with
                          | Some a, Some b, Some c => Ok (a, b, c)
                          | _, _, _ => Fail (Raised E)
                          end ;;
  _ <- assert_greater_or_equal start 0 E ;;
  _ <- assert_greater_or_equal stop start E ;;
  _ <- guard (Z.abs step <=? Z.abs (stop - start + 1)) (Raised E) ;;
  _ <- guard (negb (step =? 0)) (Raised E) ;;
  niter <- not_none (im_niter m) E ;;
  _ <- assert_greater niter 0 E ;;
  snpt <- not_none (im_snpt m) E ;;
  _ <- assert_greater snpt 0 E ;;
  mref <- not_none (im_machine_ref_frame m) E ;;
  _ <- assert_greater_or_equal mref 0 E ;;
  bref <- not_none (im_beam_ref_frame m) E ;;
  _ <- assert_greater_or_equal bref 0 E ;;
  h_num <- not_none (im_h_num m) E ;;
  _ <- fassert_greater h_num 0%Qc E ;;
  h_ratio <- not_none (im_h_ratio m) E ;;
  _ <- fassert_greater_or_equal h_ratio 0%Qc E ;;
  b0 <- not_none (im_b0 m) E ;;
  _ <- fassert_greater b0 0%Qc E ;;
  r <- not_none (im_mean_orbit_rad m) E ;;
  _ <- fassert_greater r 0%Qc E ;;
  rho <- not_none (im_bending_rad m) E ;;
  _ <- fassert_greater rho 0%Qc E ;;
  e <- not_none (im_e_rest m) E ;;
  _ <- fassert_greater e 0%Qc E ;;
  _ <- match im_pickup m with
       | Some p => fassert_greater_or_equal p 0%Qc SpaceChargeParameterError
       | None => Ok tt end ;;
  match im_g_coupling m with
  | Some g => fassert_greater_or_equal g 0%Qc SpaceChargeParameterError
  | None => Ok tt end.

(** ** Frames used by tomo_run.run *)

(** Python's range(start, stop, step), step <> 0. *)
Definition py_range (start stop step : Z) : list Z :=
  let count := if 0 <? step then (stop - start + step - 1) / step
               else (start - stop - step - 1) / (- step) in
  map (fun k => start + Z.of_nat k * step) (seq 0 (Z.to_nat count)).

(** tomo_run.py 123-129: the profiles shown by the film loop, and the variable
    [film] after it.  Reading xp[:, film] and waterfall[film] of [nprofiles]
    profiles; a film variable that the loop has not assigned. *)
Definition film_loop (nprofiles start stop step : Z) : res (list Z * Z) :=
  ' (shown, last) <- forl (py_range start (stop + 1) step)
    (fun film s => if ((film <? - nprofiles) || (nprofiles <=? film))%bool then Fail (Raised IndexError)
                   else Ok (fst s ++ [film], Some film)) ([], None) ;;
  match last with Some film => Ok (shown, film) | None => Fail (Raised UnboundLocalError) end.

(** The frames a run with tomoscope output reads: machine.py 256-258 (element
    machine_ref_frame * dturns of arrays of (nprofiles - 1) * dturns + 1
    elements), fortran.py 262 (waterfall[beam_ref_frame]), tracking.py 102
    (assert_index_ok: filmstart as an index that may not be negative), then the
    film loop.  The result is the list of profiles shown. *)
Definition run_frames (m : imachine) : res (list Z) :=
  _ <- assert_machine_input m ;;
  dturns <- not_none (im_dturns m) TypeError ;;
  mref <- not_none (im_machine_ref_frame m) TypeError ;;
  bref <- not_none (im_beam_ref_frame m) TypeError ;;
  start <- not_none (im_filmstart m) TypeError ;;
  stop <- not_none (im_filmstop m) TypeError ;;
  step <- not_none (im_filmstep m) TypeError ;;
  let n := im_nprofiles m in
  _ <- guard (mref * dturns <=? (n - 1) * dturns) (Raised IndexError) ;;
  _ <- guard (bref <? n) (Raised IndexError) ;;
  _ <- guard (start <? n) (Raised IndexError) ;;
  ' (shown, _) <- film_loop n start stop step ;;
  Ok shown.

Section Text.
Variable to_int : string -> res Z.
Variable to_float : string -> res pyfloat.

(** ** tomo_input.py 245-272 [_get_input_stdin] *)

(** One call of sys.stdin.readline(): empty at the end of the file. *)
Definition readline (stdin : list string) : string * list string :=
  match stdin with [] => (EmptyString, []) | l :: r => (l, r) end.

(** The variables of the while loop. *)
Record rstate := RState {
  r_read : list string; r_stdin : list string; r_num : Z; r_ndata : Z;
  r_piped : bool; r_nframes : option Z }.

(** Lines 256-270, one pass. *)
Definition read_step (s : rstate) : res rstate :=
  let '(line, rest) := readline (r_stdin s) in
  let piped := ((r_num s =? RAW_DATA_FILE_IDX) && contains "pipe" line || r_piped s)%bool in
  nframes <- (if (piped && (r_num s =? 16))%bool then v <- to_int line ;; Ok (Some v) else Ok (r_nframes s)) ;;
  ndata <- (if (piped && (r_num s =? 20))%bool
            then nbins <- to_int line ;;
                 nf <- not_none nframes UnboundLocalError ;;
                 Ok (r_ndata s + nf * nbins)
            else Ok (r_ndata s)) ;;
  Ok (RState (r_read s ++ [line]) rest (r_num s + 1) ndata piped nframes).

(** The loop; [fuel] bounds the number of passes. *)
Fixpoint read_loop (fuel : nat) (s : rstate) : res rstate :=
  if r_num s <? r_ndata s then
    match fuel with O => Fail OutOfFuel | S k => s' <- read_step s ;; read_loop k s' end
  else Ok s.

(** The lines read and what is left of stdin. *)
Definition get_input_stdin (fuel : nat) (stdin : list string) : res (list string * list string) :=
  s <- read_loop fuel (RState [] stdin 0 PARAMETER_LENGTH false None) ;;
  Ok (r_read s, r_stdin s).

(** ** tomo_input.py 278-319 [_split_input] *)

Variable genfromtxt : string -> res (list pyfloat).

Definition split_input (read_input : list string) : res (list string * list pyfloat) :=
  let params := slice read_input 0 PARAMETER_LENGTH in
  l20 <- np_get params 20 ;; nbins <- to_int l20 ;;
  l16 <- np_get params 16 ;; nframes <- to_int l16 ;;
  let ndata := nbins * nframes in
  params <- mapM (fun i => l <- np_get params i ;; Ok (strip l)) (py_range 0 PARAMETER_LENGTH 1) ;;
  file <- np_get params RAW_DATA_FILE_IDX ;;
  data <- (if String.eqb file "pipe" then mapM to_float (slice_from read_input PARAMETER_LENGTH)
           else genfromtxt file) ;;
  if Z.of_nat (List.length data) =? ndata then Ok (params, data) else Fail (Raised InputError).

(** ** tomo_input.py 322-426 *)

(** machine.py 119-121, 123: the constructor computes the values at each
    turn, after assert_machine_input. *)
Variable values_at_turns : imachine -> res unit.

Definition to_bool (z : Z) : bool := negb (z =? 0).

(** 418-426 [_min_max_dt]. *)
Definition min_max_dt (nbins : Z) (a : list string) : res (pyfloat * pyfloat) :=
  let int_at k := l <- np_get a k ;; to_int l in
  let float_at k := l <- np_get a k ;; to_float l in
  dtbin <- float_at 22 ;;
  min_dt_bin <- int_at 31 ;;
  max_dt_bin <- int_at 34 ;;
  Ok (fmulz min_dt_bin dtbin, fmulz (nbins - max_dt_bin) dtbin).

(** 322-413 [txt_input_to_machine], for a list. *)
Definition txt_input_to_machine (input_array : list string) : res (imachine * tframes) :=
  if negb (Z.of_nat (List.length input_array) =? PARAMETER_LENGTH) then Fail (Raised InputError)
  else
    let a := map strip input_array in
    let int_at k := l <- np_get a k ;; to_int l in
    let float_at k := l <- np_get a k ;; to_float l in
    raw_data_path <- np_get a 12 ;;
    framecount <- int_at 16 ;;
    skip_frames <- int_at 18 ;;
    framelength <- int_at 20 ;;
    dtbin <- float_at 22 ;;
    skip_bins_start <- int_at 26 ;;
    skip_bins_end <- int_at 28 ;;
    rebin <- int_at 36 ;;
    let frame := Frames framecount framelength skip_frames skip_bins_start skip_bins_end rebin in
    let nprofiles := f_nprofs frame in
    let nbins := f_nbins frame in
    ' (min_dt, max_dt) <- min_max_dt nbins a ;;
    output_dir <- np_get a 14 ;;
    dturns <- int_at 24 ;;
    synch_part_x <- float_at 39 ;;
    demax <- float_at 41 ;;
    filmstart <- int_at 43 ;;
    filmstop <- int_at 45 ;;
    filmstep <- int_at 47 ;;
    niter <- int_at 49 ;;
    snpt <- int_at 51 ;;
    full_pp_flag <- int_at 53 ;;
    beam_ref_frame <- int_at 55 ;;
    machine_ref_frame <- int_at 57 ;;
    vrf1 <- float_at 61 ;;
    vrf1dot <- float_at 63 ;;
    vrf2 <- float_at 65 ;;
    vrf2dot <- float_at 67 ;;
    h_num <- float_at 69 ;;
    h_ratio <- float_at 71 ;;
    phi12 <- float_at 73 ;;
    b0 <- float_at 75 ;;
    bdot <- float_at 77 ;;
    mean_orbit_rad <- float_at 79 ;;
    bending_rad <- float_at 81 ;;
    trans_gamma <- float_at 83 ;;
    rest_energy <- float_at 85 ;;
    charge <- float_at 87 ;;
    self_field_flag <- int_at 91 ;;
    g_coupling <- float_at 93 ;;
    zwall_over_n <- float_at 95 ;;
    pickup_sensitivity <- float_at 97 ;;
    let m := IMachine (Some dtbin) (Some dturns)
      (Some (filmstart - 1)) (Some (filmstop - 1)) (Some filmstep) (Some niter) (Some snpt)
      (Some (machine_ref_frame - 1)) (Some (beam_ref_frame - 1))
      (Some h_num) (Some h_ratio) (Some b0) (Some mean_orbit_rad) (Some bending_rad) (Some rest_energy)
      (Some pickup_sensitivity) (Some g_coupling)
      output_dir synch_part_x demax (to_bool full_pp_flag) (to_bool self_field_flag)
      vrf1 vrf1dot vrf2 vrf2dot phi12 bdot trans_gamma charge zwall_over_n
      nprofiles nbins min_dt max_dt in
    _ <- assert_machine_input m ;;
    _ <- values_at_turns m ;;
    Ok (m, TFrames frame raw_data_path dtbin).
End Text.
