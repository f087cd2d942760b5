(** Model of the phase-space image: LT/cpp_routines/data_treatment.cpp,
    LT/cpp_routines/libtomo.cpp (wrapper_make_phase_space),
    LT/python_routines/data_treatment.py, LT/utils/tomo_output.py,
    LT/data/data_treatment.py. *)
From Coq Require Import List ZArith Bool QArith Qcanon.
From Verif Require Import Base.Res Base.QcLib Model.MRecon.
Import ListNotations.
Local Open Scope Qc_scope.

(** data_treatment.cpp 21-35: only indices that are too large are reported.
    [npart] is the length of xp (libtomo.cpp 524); the lengths of yp and
    weights are not compared with it. *)
Definition make_phase_space (xp yp : list Z) (weight : list Qc) (npart nbins : nat) : res (list Qc) :=
  for_ 0 npart (fun i ps =>
    y <- get yp (zi i) ;;
    x <- get xp (zi i) ;;
    let index := (y + x * zi nbins)%Z in
    if (zi (nbins * nbins) <=? index)%Z then Fail (Raised OutOfRange)
    else
      w <- get weight (zi i) ;;
      v <- get ps index ;;
      set ps index (v + w)) (repeat 0 (nbins * nbins)).

(** libtomo.cpp 513-533: reshaped to (nbins, nbins). *)
Definition wrapper_make_phase_space (xp yp : list Z) (weight : list Qc) (nbins : nat)
  : res (list (list Qc)) :=
  ps <- make_phase_space xp yp weight (length xp) nbins ;;
  Ok (chunk nbins nbins ps).

(** python_routines/data_treatment.py 8-21, the GPU version: indices out of
    range wrap around in CuPy's scatter-add. *)
Definition gpu_make_phase_space (xp yp : list Z) (weight : list Qc) (nbins : nat)
  : res (list (list Qc)) :=
  let n2 := zi (nbins * nbins) in
  ps <- for_ 0 (length xp) (fun i ps =>
    y <- get yp (zi i) ;;
    x <- get xp (zi i) ;;
    w <- get weight (zi i) ;;
    let index := Z.modulo (y + x * zi nbins) n2 in
    v <- get ps index ;;
    set ps index (v + w)) (repeat 0 (nbins * nbins)) ;;
  Ok (chunk nbins nbins ps).

(** Column [recprof] of a table. *)
Definition column (t : list (list Z)) (recprof : nat) : res (list Z) :=
  mapM (fun row => get row (zi recprof)) t.

(** tomo_output.py 67-111 [create_phase_space_image]. *)
Definition create_phase_space_image (xp yp : list (list Z)) (weight : list Qc) (nbins recprof : nat)
  : res (list (list Qc)) :=
  x <- column xp recprof ;;
  y <- column yp recprof ;;
  ps <- wrapper_make_phase_space x y weight nbins ;;
  let ps := clip_rows ps in
  let s := qsum (map qsum ps) in
  mapM (mapM (fun v => qdiv v s)) ps.

(** data_treatment.py 203-208 [phase_space_from_coordinates]: the two axes and
    the density. *)
Definition phase_space_from_coordinates (xp yp : list Z) (weight : list Qc) (nbins : nat)
    (synch_x synch_y dtbin dEbin : Qc) : res (list Qc * list Qc * list (list Qc)) :=
  density <- wrapper_make_phase_space xp yp weight nbins ;;
  Ok (tab nbins (fun i => (qn i - synch_x) * dtbin),
      tab nbins (fun i => (qn i - synch_y) * dEbin), density).

(** data_treatment.py 260-268, first part of [density_to_macro]: the density
    array itself is changed (it is the caller's array).  Returns the changed
    array and the probabilities. *)
Definition density_to_macro_prob (density : list (list Qc)) (threshold : Qc)
  : res (list (list Qc) * list Qc) :=
  let s := qsum (map qsum density) in
  density <- mapM (mapM (fun v => r <- qdiv v s ;; Ok (if qltb r threshold then 0 else v))) density ;;
  let p := concat density in
  prob <- mapM (fun v => qdiv v (qsum p)) p ;;
  Ok (density, prob).
