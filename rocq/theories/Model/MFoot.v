(** Model of LT/utils/tomographics.py 33-155 and 254-302: the foot tangent fits
    and the emittance for a fraction of the density.  Numbers are exact; 0.15 is
    3/20. *)
From Coq Require Import List ZArith Bool QArith Qcanon.
From Verif Require Import Base.Res Base.QcLib Model.MParticles Model.MPreproc.
Import ListNotations.
Local Open Scope Qc_scope.

(** numpy.max, numpy.min: refused for an empty array. *)
Definition qmax (a b : Qc) : Qc := if qleb a b then b else a.
Definition qmin (a b : Qc) : Qc := if qleb a b then a else b.
Definition np_max (l : list Qc) : res Qc :=
  match l with [] => Fail (Raised ValueError) | x :: r => Ok (fold_left qmax r x) end.
Definition np_min (l : list Qc) : res Qc :=
  match l with [] => Fail (Raised ValueError) | x :: r => Ok (fold_left qmin r x) end.
(** numpy.where(...)[0]: the indices, counted from i, of the elements with the
    property. *)
Fixpoint where_ (i : nat) (p : Qc -> bool) (l : list Qc) : list nat :=
  match l with [] => [] | x :: r => if p x then i :: where_ (S i) p r else where_ (S i) p r end.
(** l[0] and l[-1] of an array of indices. *)
Definition first_ (l : list nat) : res nat := match l with [] => Fail (Raised IndexError) | x :: _ => Ok x end.
Definition last_ (l : list nat) : res nat := match l with [] => Fail (Raised IndexError) | x :: r => Ok (last l x) end.

(** numpy.polyfit(x, y, 1): the line of least squares, slope and offset.  Where
    the points have one abscissa the model stops. *)
Definition polyfit1 (x y : list Qc) : res (Qc * Qc) :=
  if negb (length x =? length y)%nat then Fail (Raised TypeError)
  else
    let n := qn (length x) in
    let sx := qsum x in let sy := qsum y in
    let sxx := qsum (map (fun a => a * a) x) in
    let sxy := qsum (map (fun p => fst p * snd p) (combine x y)) in
    a <- qdiv (n * sxy - sx * sy) (n * sxx - sx * sx) ;;
    b <- qdiv (sy - a * sx) n ;;
    Ok (a, b).

(** 33-94 [foot_tangent_fit_dq]; savgol: the filter of scipy.signal. *)
Definition foot_tangent_fit_dq (savgol : list Qc -> list Qc) (x y : list Qc) (t_rf : Qc) (apply_filter : bool) : res (Qc * Qc) :=
  let y := if apply_filter then savgol y else y in
  m <- np_max y ;;
  let threshold := qq 3 20 * m in
  let above := where_ 0 (fun v => qleb threshold v) y in
  left_index <- first_ above ;; right_index <- last_ above ;;
  let l := Z.of_nat left_index in let r := Z.of_nat right_index in
  if ((l - 3 <? 0) || (Z.of_nat (length x) <=? r + 3))%Z then Fail (Raised InvalidProfileError)
  else
    c1 <- polyfit1 (slice x (l - 3) (l + 3)) (slice y (l - 3) (l + 3)) ;;
    c2 <- polyfit1 (slice x (r - 2) (r + 4)) (slice y (r - 2) (r + 4)) ;;
    x_min <- qdiv (- snd c1) (fst c1) ;;
    x_max <- qdiv (- snd c2) (fst c2) ;;
    if qleb 0 (x_max - x_min) && qltb (x_max - x_min) t_rf then Ok (x_min, x_max)
    else Fail (Raised InvalidProfileError).

(** 5*sum(v)/(-6*v[0] - 2*v[1] + 2*v[2] + 6*v[3]), 125-128 and 150-151, with the
    factor k for 5 or 6. *)
Definition foot_shift (k : Qc) (v : list Qc) : res Qc :=
  v0 <- np_get v 0 ;; v1 <- np_get v 1 ;; v2 <- np_get v 2 ;; v3 <- np_get v 3 ;;
  qdiv (k * qsum v) (- qz 6 * v0 - qz 2 * v1 + qz 2 * v2 + qz 6 * v3).

(** 97-130 [foot_tangent_fit]. *)
Definition foot_tangent_fit (y : list Qc) (dx : Qc) : res (Qc * Qc) :=
  m <- np_max y ;;
  let threshold := qq 3 20 * m in
  max_index <- first_ (where_ 0 (fun v => qeqb v m) y) ;;
  let below := where_ 0 (fun v => qltb v threshold) y in
  left_index <- last_ (filter (fun i => i <? max_index)%nat below) ;;
  right_index <- first_ (filter (fun i => max_index <? i)%nat below) ;;
  let l := Z.of_nat left_index in let r := Z.of_nat right_index in
  let y_left := slice y (l - 1) (l + 3) in
  let y_right := slice y (r - 2) (r + 2) in
  sl <- foot_shift (qz 5) y_left ;;
  sr <- foot_shift (qz 6) y_right ;;
  Ok ((qn left_index - sl) * dx, (qn right_index - sr) * dx).

(** numpy.interp(x, xp, fp) for xp in increasing order: the last point not
    after x, and the one behind it. *)
Fixpoint interp_from (x x0 f0 : Qc) (rest : list (Qc * Qc)) : res Qc :=
  match rest with
  | [] => Ok f0
  | (x1, f1) :: r =>
    if qleb x1 x then interp_from x x1 f1 r
    else if qeqb x0 x then Ok f0
    else s <- qdiv (f1 - f0) (x1 - x0) ;; Ok (s * (x - x0) + f0)
  end.
Definition interp (x : Qc) (xp fp : list Qc) : res Qc :=
  if negb (length xp =? length fp)%nat then Fail (Raised ValueError)
  else match combine xp fp with
  | [] => Fail (Raised ValueError)
  | (x0, f0) :: r => if qltb x x0 then Ok f0 else interp_from x x0 f0 r
  end.

(** 134-155 [foot_tangent_fit_density]. *)
Definition foot_tangent_fit_density (y x : list Qc) (level : Qc) : res Qc :=
  if negb (qltb 0 level && qltb level 1) then Fail (Raised ValueError)
  else
    mn <- np_min y ;;
    let y_zero := map (fun v => v - mn) y in
    m <- np_max y_zero ;;
    let threshold := level * m in
    max_index <- first_ (where_ 0 (fun v => qeqb v m) y_zero) ;;
    let below := where_ 0 (fun v => qltb v threshold) y_zero in
    right_index <- first_ (filter (fun i => max_index <? i)%nat below) ;;
    let r := Z.of_nat right_index in
    s <- foot_shift (qz 6) (slice y_zero (r - 2) (r + 2)) ;;
    interp (qn right_index - s) (map qn (seq 0 (length x))) x.

(** -numpy.sort(-l): in decreasing order. *)
Fixpoint qinsert (x : Qc) (l : list Qc) : list Qc :=
  match l with [] => [x] | y :: r => if qleb y x then x :: l else y :: qinsert x r end.
Fixpoint qsort (l : list Qc) : list Qc := match l with [] => [] | x :: r => qinsert x (qsort r) end.
(** numpy.cumsum, started with acc. *)
Fixpoint qcumsum (acc : Qc) (l : list Qc) : list Qc :=
  match l with [] => [] | x :: r => (acc + x) :: qcumsum (acc + x) r end.

(** 254-260 [_cumulative_density_calc] and 263-302 [emittance_density_calc]. *)
Definition cumulative_density (img : list (list Qc)) (dt dE : Qc) : list Qc * list Qc :=
  let cd := qcumsum 0 (qsort (concat img)) in
  (cd, map (fun i => qn i * dt * dE) (seq 0 (length cd))).
Definition emittance_density_calc (img : list (list Qc)) (dt dE density_target : Qc) : res Qc :=
  if negb (qltb 0 density_target && qltb density_target 1) then Fail (Raised ValueError)
  else
    let '(cd, cx) := cumulative_density img dt dE in
    interp density_target cd cx.
