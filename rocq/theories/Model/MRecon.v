(** Model of the reconstruction: LT/cpp_routines/reconstruct.cpp (single
    bunch), LT/cpp_routines/libtomo.cpp wrapper_reconstruct,
    LT/tomography/__tomography.py, LT/tomography/tomography.py.

    Numbers are exact rationals, arrays are flat lists with checked bounds.
    OpenMP loops are run in index order here (schedules: Model/MOmp.v). *)
From Coq Require Import List ZArith Bool QArith Qcanon.
From Verif Require Import Base.Res Base.QcLib.
Import ListNotations.
Local Open Scope Qc_scope.
Local Open Scope nat_scope.

Notation zi i := (Z.of_nat i).

(** reconstruct.cpp 20-29 [back_project]. *)
Definition back_project (weights : list Qc) (fp : list Z) (prof : list Qc) (npart nprof : nat)
  : res (list Qc) :=
  for_ 0 npart (fun i weights =>
    for_ 0 nprof (fun j weights =>
      k <- get fp (zi (i * nprof + j)) ;;
      v <- get prof k ;;
      x <- get weights (zi i) ;;
      set weights (zi i) (x + v)%Qc) weights) weights.

(** reconstruct.cpp 54-62 [project]. *)
Definition project (rec : list Qc) (fp : list Z) (weights : list Qc) (npart nprof : nat)
  : res (list Qc) :=
  for_ 0 npart (fun i rec =>
    for_ 0 nprof (fun j rec =>
      k <- get fp (zi (i * nprof + j)) ;;
      w <- get weights (zi i) ;;
      x <- get rec k ;;
      set rec k (x + w)%Qc) rec) rec.

(** reconstruct.cpp 88-105 [normalize].  The division by a row sum of 0 yields
    not-a-number silently in C++; here the row is left alone and a flag set.
    The exception, checked last, takes precedence; with the flag set and no
    exception the result is [NotFinite]. *)
Definition normalize (rec : list Qc) (nprof nbins : nat) : res (list Qc) :=
  ' (rec, total, fin) <- for_ 0 nprof (fun i st =>
    let '(rec, total, fin) := st in
    s <- for_ 0 nbins (fun j s => x <- get rec (zi (i * nbins + j)) ;; Ok (s + x)%Qc) 0%Qc ;;
    if qeqb s 0 then Ok (rec, (total + s)%Qc, false)
    else
      rec <- for_ 0 nbins (fun j rec =>
        x <- get rec (zi (i * nbins + j)) ;; set rec (zi (i * nbins + j)) (x / s)%Qc) rec ;;
      Ok (rec, (total + s)%Qc, fin)) (rec, 0%Qc, true) ;;
  if qleb total 0 then Fail (Raised RuntimeError)
  else if fin : bool then Ok rec else Fail NotFinite.

(** reconstruct.cpp 107-115 [clip]. *)
Definition clip (a : list Qc) (n : nat) (c : Qc) : res (list Qc) :=
  for_ 0 n (fun i a =>
    x <- get a (zi i) ;;
    if qltb x c then set a (zi i) c else Ok a) a.

(** reconstruct.cpp 118-134 [find_difference_profile]. *)
Definition find_difference_profile (diff rec prof : list Qc) (all_bins : nat) : res (list Qc) :=
  for_ 0 all_bins (fun i diff =>
    p <- get prof (zi i) ;; r <- get rec (zi i) ;;
    set diff (zi i) (p - r)%Qc) diff.

(** reconstruct.cpp 136-148 [discrepancy]; [sqrt] is std::sqrt. *)
Definition discrepancy (sqrt : Qc -> Qc) (diff : list Qc) (nprof nbins : nat) : res Qc :=
  s <- for_ 0 (nprof * nbins) (fun i s => x <- get diff (zi i) ;; Ok (s + x * x)%Qc) 0%Qc ;;
  q <- qdiv s (qn (nprof * nbins)) ;;
  Ok (sqrt q).

(** reconstruct.cpp 176-187 [compensate_particle_amount]. *)
Definition compensate_particle_amount (diff rparts : list Qc) (nprof nbins : nat) : res (list Qc) :=
  for_ 0 nprof (fun i diff =>
    for_ 0 nbins (fun j diff =>
      let idx := zi (i * nbins + j) in
      x <- get diff idx ;; r <- get rparts idx ;;
      set diff idx (x * r)%Qc) diff) diff.

(** reconstruct.cpp 201-208 [max_1d]. *)
Definition max_1d (a : list Qc) (n : nat) : res Qc :=
  for_ 0 n (fun i m => x <- get a (zi i) ;; Ok (if qltb m x then x else m)) 0%Qc.

(** reconstruct.cpp 211-217 [sum]. *)
Definition sum (a : list Qc) (n : nat) : res Qc :=
  for_ 0 n (fun i s => x <- get a (zi i) ;; Ok (s + x)%Qc) 0%Qc.

(** reconstruct.cpp 219-232 [count_particles_in_bin]. *)
Definition count_particles_in_bin (rparts : list Qc) (xp : list Z) (nprof npart nbins : nat)
  : res (list Qc) :=
  for_ 0 npart (fun i rparts =>
    for_ 0 nprof (fun j rparts =>
      bin <- get xp (zi (i * nprof + j)) ;;
      let k := (zi j * zi nbins + bin)%Z in
      x <- get rparts k ;;
      set rparts k (x + 1)%Qc) rparts) rparts.

(** reconstruct.cpp 257-283 [reciprocal_particles].  [int max_bin_val]
    truncates the (whole) maximum. *)
Definition reciprocal_particles (rparts : list Qc) (xp : list Z) (nbins nprof npart : nat)
  : res (list Qc) :=
  let all_bins := nprof * nbins in
  rparts <- count_particles_in_bin rparts xp nprof npart nbins ;;
  mx <- max_1d rparts all_bins ;;
  let max_bin_val := qz (qtrunc mx) in
  rparts <- for_ 0 all_bins (fun i rparts =>
    x <- get rparts (zi i) ;;
    if qeqb x 0 then set rparts (zi i) 1%Qc else Ok rparts) rparts ;;
  for_ 0 nprof (fun i rparts =>
    for_ 0 nbins (fun j rparts =>
      let idx := zi (i * nbins + j) in
      x <- get rparts idx ;;
      q <- qdiv max_bin_val x ;;
      set rparts idx q) rparts) rparts.

(** reconstruct.cpp 317-328 [create_flat_points]. *)
Definition create_flat_points (xp : list Z) (npart nprof nbins : nat) : res (list Z) :=
  for_ 0 npart (fun i fp =>
    for_ 0 nprof (fun j fp =>
      let k := zi (i * nprof + j) in
      x <- get fp k ;;
      set fp k (x + zi nbins * zi j)%Z) fp) xp.

(** Local variables of [reconstruct] that change; [r_calls] is the trace of
    callback calls, oldest first. *)
Record rstate := RState {
  r_weights : list Qc; r_rec : list Qc; r_discr : list Qc; r_diff : list Qc;
  r_calls : list (Z * Z) }.

(** if (sum(weights, npart) <= 0) throw. *)
Definition check_sum (weights : list Qc) (npart : nat) : res unit :=
  s <- sum weights npart ;;
  if qleb s 0 then Fail (Raised RuntimeError) else Ok tt.

(** reconstruct.cpp 400-422: one iteration. *)
Definition iteration (sqrt : Qc -> Qc) (fp : list Z) (prof rparts : list Qc) (niter : Z)
    (nbins npart nprof : nat) (it : nat) (s : rstate) : res rstate :=
  rec <- project (r_rec s) fp (r_weights s) npart nprof ;;
  rec <- normalize rec nprof nbins ;;
  diff <- find_difference_profile (r_diff s) rec prof (nprof * nbins) ;;
  d <- discrepancy sqrt diff nprof nbins ;;
  discr <- set (r_discr s) (zi it) d ;;
  diff <- compensate_particle_amount diff rparts nprof nbins ;;
  w <- back_project (r_weights s) fp diff npart nprof ;;
  w <- clip w npart 0%Qc ;;
  _ <- check_sum w npart ;;
  Ok (RState w rec discr diff (r_calls s ++ [(zi it + 1, niter)%Z])).

(** reconstruct.cpp 358-441 [reconstruct], with the output arrays allocated
    by wrapper_reconstruct (libtomo.cpp 410-413): weights, recreated and discr
    start at zero; discr has niter+1 elements.  [rec0] is the recreated array
    at entry (all zeros in the wrapper). *)
Definition reconstruct (sqrt : Qc -> Qc) (rec0 : list Qc) (xp : list Z) (prof : list Qc) (niter : Z)
    (nbins npart nprof : nat) : res rstate :=
  let all_bins := nprof * nbins in
  let zeros n := repeat 0%Qc n in
  rparts <- reciprocal_particles (zeros all_bins) xp nbins nprof npart ;;
  fp <- create_flat_points xp npart nprof nbins ;;
  w <- back_project (zeros npart) fp prof npart nprof ;;
  w <- clip w npart 0%Qc ;;
  _ <- check_sum w npart ;;
  s <- for_ 0 (Z.to_nat niter)
         (iteration sqrt fp prof rparts niter nbins npart nprof)
         (RState w rec0 (zeros (Z.to_nat (niter + 1))) (zeros all_bins) []) ;;
  rec <- project (r_rec s) fp (r_weights s) npart nprof ;;
  rec <- normalize rec nprof nbins ;;
  diff <- find_difference_profile (r_diff s) rec prof all_bins ;;
  d <- discrepancy sqrt diff nprof nbins ;;
  discr <- set (r_discr s) niter d ;;
  Ok (RState (r_weights s) rec discr diff (r_calls s ++ [(niter, niter)])).

(** libtomo.cpp 396-443: the flat result reshaped to (nprof, nbins). *)
Definition chunk {A} (nprof nbins : nat) (l : list A) : list (list A) :=
  tab nprof (fun i => firstn nbins (skipn (i * nbins) l)).

(** ** The Tomography object (__tomography.py 54-69, 199-232) *)

(** waterfall.clip(0.0). *)
Definition clip_rows (wf : list (list Qc)) : list (list Qc) :=
  map (map (fun x => if qltb x 0 then 0%Qc else x)) wf.

(** __tomography.py 228-232 [_normalize_profiles]. *)
Definition normalize_profiles (wf : list (list Qc)) : res (list (list Qc)) :=
  if negb (existsb (existsb (fun x => negb (qeqb x 0))) wf)
  then Fail (Raised WaterfallReducedToZero)
  else mapM (fun row => mapM (fun x => qdiv x (qsum row)) row) wf.

(** The stored object: waterfall with its shape, x and y coordinates. *)
Record tomo := Tomo {
  t_waterfall : list (list Qc); t_nprofs : nat; t_nbins : nat;
  t_xp : option (list (list Z)); t_yp : option (list (list Z)); t_nparts : option nat }.

(** What a caller may assign to xp or yp: nothing, something that is not
    iterable, an array of one dimension, or a rectangular table of rational
    numbers with [cols] columns. *)
Inductive coords :=
| CNone
| CScalar
| CArr1 (l : list Qc)
| CArr2 (cols : nat) (rows : list (list Qc)).

(** astype(int32) / ascontiguousarray(dtype=int32): truncation. *)
Definition to_int (rows : list (list Qc)) : list (list Z) := map (map qtrunc) rows.

(** Assignments to single attributes. *)
Definition put_xp (t : tomo) v := Tomo (t_waterfall t) (t_nprofs t) (t_nbins t) v (t_yp t) (t_nparts t).
Definition put_nparts (t : tomo) v := Tomo (t_waterfall t) (t_nprofs t) (t_nbins t) (t_xp t) (t_yp t) v.
Definition put_yp (t : tomo) v := Tomo (t_waterfall t) (t_nprofs t) (t_nbins t) (t_xp t) v (t_nparts t).

(** xp setter, __tomography.py 162-195: the object afterwards, and the
    exception raised if any. *)
Definition set_xp (t : tomo) (v : coords) : tomo * option exn :=
  match v with
  | CNone => (put_nparts (put_xp t None) None, None)
  | CScalar => (t, Some CoordinateImportError)
  | CArr1 _ => (t, Some CoordinateImportError)
  | CArr2 cols rows =>
    if negb (Nat.eqb cols (t_nprofs t)) then (t, Some CoordinateImportError)
    else if existsb (existsb (fun x => qltb x 0)) rows
            || existsb (existsb (fun x => qleb (qn (t_nbins t)) x)) rows
    then (t, Some XPOutOfImageWidthError)
    else
      let t := put_xp t (Some (to_int rows)) in
      (put_nparts t (Some (length rows)), None)
  end.

(** value.shape == self.xp.shape.  The stored table has nprofs columns. *)
Definition same_shape (xp : list (list Z)) (cols_xp cols : nat) (rows : list (list Qc)) : bool :=
  Nat.eqb (length xp) (length rows) && Nat.eqb cols_xp cols.

(** yp setter, __tomography.py 111-128.  The shape test of a one-dimensional
    array always fails. *)
Definition set_yp (t : tomo) (v : coords) : tomo * option exn :=
  match v with
  | CNone => (put_yp t None, None)
  | CScalar => (t, Some CoordinateImportError)
  | CArr1 _ => (t, Some CoordinateImportError)
  | CArr2 cols rows =>
    match t_xp t with
    | None => (t, Some CoordinateImportError)
    | Some xp =>
      if same_shape xp (t_nprofs t) cols rows
      then (put_yp t (Some (to_int rows)), None)
      else (t, Some CoordinateImportError)
    end
  end.

Definition lift_exn {A} (p : A * option exn) : res A :=
  match snd p with None => Ok (fst p) | Some e => Fail (Raised e) end.

(** __init__, __tomography.py 54-69, for a waterfall of [nprofs] rows of
    [nbins] elements. *)
Definition tomography (nprofs nbins : nat) (wf : list (list Qc)) (x y : coords) : res tomo :=
  wf <- normalize_profiles (clip_rows wf) ;;
  t <- lift_exn (set_xp (Tomo wf nprofs nbins None None None) x) ;;
  lift_exn (set_yp t y).

(** Tomography.run, tomography.py 359-404 (CPU): returns weight, diff,
    recreated, callback calls. *)
Definition run (sqrt : Qc -> Qc) (t : tomo) (niter : Z)
  : res (list Qc * list Qc * list (list Qc) * list (Z * Z)) :=
  match t_xp t with
  | None => Fail (Raised CoordinateError)
  | Some xp =>
    s <- reconstruct sqrt (repeat 0%Qc (t_nprofs t * t_nbins t)) (concat xp) (concat (t_waterfall t))
           niter (t_nbins t) (length xp) (t_nprofs t) ;;
    Ok (r_weights s, r_discr s, chunk (t_nprofs t) (t_nbins t) (r_rec s), r_calls s)
  end.

(** ** run_hybrid, tomography.py 70-150 *)

(** __tomography.py 235-237 [_discrepancy]. *)
Definition py_discrepancy (sqrt : Qc -> Qc) (diff : list (list Qc)) (nprofs nbins : nat) : res Qc :=
  q <- qdiv (qsum (map (fun row => qsum (map (fun x => x * x)%Qc row)) diff)) (qn (nbins * nprofs)) ;;
  Ok (sqrt q).

(** __tomography.py 240-244: flat_points[:, i] += nbins * i. *)
Definition py_flat_points (xp : list (list Z)) (nprofs nbins : nat) : list (list Z) :=
  map (fun row => map (fun p => (fst p + zi nbins * zi (snd p))%Z) (combine row (seq 0 nprofs))) xp.

(** ppb[x, i] += 1 on the (nbins, nprofs) array; NumPy indexing wraps
    negative indices and raises IndexError out of range. *)
Definition py_inc (nbins : nat) (ppb : list (list Qc)) (x : Z) (i : nat) : res (list (list Qc)) :=
  let x := (if x <? 0 then x + zi nbins else x)%Z in
  if ((x <? 0) || (zi nbins <=? x))%Z then Fail (Raised IndexError)
  else
    row <- get ppb x ;;
    v <- get row (zi i) ;;
    row <- set row (zi i) (v + 1)%Qc ;;
    set ppb x row.

(** __tomography.py 276-287 [_count_particles_in_bins]. *)
Definition py_count (nbins nprofs : nat) (xp : list (list Z)) : res (list (list Qc)) :=
  for_ 0 nprofs (fun i ppb =>
    forl xp (fun row ppb =>
      x <- get row (zi i) ;;
      py_inc nbins ppb x i) ppb) (repeat (repeat 0%Qc nprofs) nbins).

(** np.max of a table. *)
Definition qmax (a b : Qc) : Qc := if qltb a b then b else a.
Definition py_max (l : list (list Qc)) : res Qc :=
  match concat l with
  | [] => Fail (Raised ValueError)
  | x :: r => Ok (fold_left qmax r x)
  end.

(** __tomography.py 251-258 [_reciprocal_particles]: shape (nbins, nprofs). *)
Definition py_reciprocal (nbins nprofs : nat) (xp : list (list Z)) : res (list (list Qc)) :=
  ppb <- py_count nbins nprofs xp ;;
  let ppb := map (map (fun x => if qeqb x 0 then 1%Qc else x)) ppb in
  mx <- py_max ppb ;;
  mapM (mapM (fun x => qdiv mx x)) ppb.

(** .T of an (m, n) table. *)
Definition transpose {A} (m n : nat) (l : list (list A)) : res (list (list A)) :=
  mapM (fun j => mapM (fun i => row <- get l (zi i) ;; get row (zi j)) (seq 0 m)) (seq 0 n).

(** Elementwise operations on tables of the same shape. *)
Definition zip_rows (f : Qc -> Qc -> Qc) (a b : list (list Qc)) : list (list Qc) :=
  map (fun p => map (fun q => f (fst q) (snd q)) (combine (fst p) (snd p))) (combine a b).

(** [_project], tomography.py 291-298: libtomo.project into a fresh zero
    array of shape (nprofs, nbins). *)
Definition py_project (t : tomo) (fp : list Z) (w : list Qc) : res (list (list Qc)) :=
  rec <- project (repeat 0%Qc (t_nprofs t * t_nbins t)) fp w (length w) (t_nprofs t) ;;
  normalize_profiles (chunk (t_nprofs t) (t_nbins t) rec).

Definition py_clip (w : list Qc) : list Qc := map (fun x => if qltb x 0 then 0%Qc else x) w.

Definition hybrid_iteration (sqrt : Qc -> Qc) (t : tomo) (fp : list Z) (recip_T : list (list Qc))
    (it : nat) (s : list Qc * list Qc) : res (list Qc * list Qc) :=
  let '(w, diff) := s in
  rec <- py_project t fp w ;;
  let dw := zip_rows Qcminus (t_waterfall t) rec in
  d <- py_discrepancy sqrt dw (t_nprofs t) (t_nbins t) ;;
  diff <- set diff (zi it) d ;;
  let dw := zip_rows Qcmult dw recip_T in
  w <- back_project w fp (concat dw) (length w) (t_nprofs t) ;;
  Ok (py_clip w, diff).

(** run_hybrid for niter >= 0: returns weight, diff, recreated. *)
Definition run_hybrid (sqrt : Qc -> Qc) (t : tomo) (niter : nat)
  : res (list Qc * list Qc * list (list Qc)) :=
  match t_xp t with
  | None => Fail (Raised CoordinateError)
  | Some xp =>
    recip <- py_reciprocal (t_nbins t) (t_nprofs t) xp ;;
    recip_T <- transpose (t_nbins t) (t_nprofs t) recip ;;
    let fp := concat (py_flat_points xp (t_nprofs t) (t_nbins t)) in
    w <- back_project (repeat 0%Qc (length xp)) fp (concat (t_waterfall t)) (length xp) (t_nprofs t) ;;
    ' (w, diff) <- for_ 0 niter (hybrid_iteration sqrt t fp recip_T)
                     (py_clip w, repeat 0%Qc (niter + 1)) ;;
    rec <- py_project t fp w ;;
    let dw := zip_rows Qcminus (t_waterfall t) rec in
    d <- py_discrepancy sqrt dw (t_nprofs t) (t_nbins t) ;;
    diff <- set diff (zi niter) d ;;
    Ok (w, diff, rec)
  end.
