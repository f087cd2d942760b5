(** The C++ routines with 32-bit int: LT/cpp_routines/reconstruct.cpp (single
    bunch), kick_and_drift.cpp, data_treatment.cpp and their wrappers in
    libtomo.cpp, as in Model/MRecon.v, MTrack.v and MImage.v, but every int
    product, sum and conversion is checked.  A result outside the range of int
    is undefined behaviour: [IntOverflow].  Loop counters run up to an int and
    are not checked.  Products with sizeof are computed in size_t, 64 bits. *)
From Coq Require Import List ZArith Bool QArith Qcanon.
From Verif Require Import Base.Res Base.QcLib Model.MRecon Model.MTrack Model.MImage.
Import ListNotations.
Local Open Scope Qc_scope.
Local Open Scope nat_scope.

(** The range of int on the platforms the package is built for. *)
Definition int_min : Z := (-2147483648)%Z.
Definition int_max : Z := 2147483647%Z.
Definition in_int (z : Z) : bool := ((int_min <=? z) && (z <=? int_max))%Z.
Definition c_int (z : Z) : res Z := if in_int z then Ok z else Fail IntOverflow.
Definition imul (a b : Z) : res Z := c_int (a * b).
Definition iadd (a b : Z) : res Z := c_int (a + b).
Definition isub (a b : Z) : res Z := c_int (a - b).

(** An argument of type int: pybind11 refuses a Python integer that does not
    fit (TypeError, incompatible function arguments). *)
Definition int_arg (z : Z) : res unit := if in_int z then Ok tt else Fail (Raised TypeError).

(** const int n = shape[0]: a 64-bit length becomes an int, modulo 2^32. *)
Definition narrow (z : Z) : Z := ((z + 2147483648) mod 4294967296 - 2147483648)%Z.

(** i * n + j, e.g. reconstruct.cpp 29. *)
Definition index2 (i n j : nat) : res Z := p <- imul (zi i) (zi n) ;; iadd p (zi j).

(** reconstruct.cpp 20-29. *)
Definition back_project_int (weights : list Qc) (fp : list Z) (prof : list Qc) (npart nprof : nat)
  : res (list Qc) :=
  for_ 0 npart (fun i weights =>
    for_ 0 nprof (fun j weights =>
      a <- index2 i nprof j ;;
      k <- get fp a ;;
      v <- get prof k ;;
      x <- get weights (zi i) ;;
      set weights (zi i) (x + v)%Qc) weights) weights.

(** reconstruct.cpp 54-62. *)
Definition project_int (rec : list Qc) (fp : list Z) (weights : list Qc) (npart nprof : nat)
  : res (list Qc) :=
  for_ 0 npart (fun i rec =>
    for_ 0 nprof (fun j rec =>
      a <- index2 i nprof j ;;
      k <- get fp a ;;
      w <- get weights (zi i) ;;
      x <- get rec k ;;
      set rec k (x + w)%Qc) rec) rec.

(** reconstruct.cpp 88-105; see MRecon.v for the division by 0. *)
Definition normalize_int (rec : list Qc) (nprof nbins : nat) : res (list Qc) :=
  ' (rec, total, fin) <- for_ 0 nprof (fun i st =>
    let '(rec, total, fin) := st in
    s <- for_ 0 nbins (fun j s => a <- index2 i nbins j ;; x <- get rec a ;; Ok (s + x)%Qc) 0%Qc ;;
    if qeqb s 0 then Ok (rec, (total + s)%Qc, false)
    else
      rec <- for_ 0 nbins (fun j rec =>
        a <- index2 i nbins j ;;
        x <- get rec a ;; set rec a (x / s)%Qc) rec ;;
      Ok (rec, (total + s)%Qc, fin)) (rec, 0%Qc, true) ;;
  if qleb total 0 then Fail (Raised RuntimeError)
  else if fin : bool then Ok rec else Fail NotFinite.

(** reconstruct.cpp 136-148: nprof * nbins twice. *)
Definition discrepancy_int (sqrt : Qc -> Qc) (diff : list Qc) (nprof nbins : nat) : res Qc :=
  all_bins <- imul (zi nprof) (zi nbins) ;;
  s <- for_ 0 (Z.to_nat all_bins) (fun i s => x <- get diff (zi i) ;; Ok (s + x * x)%Qc) 0%Qc ;;
  n <- imul (zi nprof) (zi nbins) ;;
  q <- qdiv s (qz n) ;;
  Ok (sqrt q).

(** reconstruct.cpp 176-187. *)
Definition compensate_int (diff rparts : list Qc) (nprof nbins : nat) : res (list Qc) :=
  for_ 0 nprof (fun i diff =>
    for_ 0 nbins (fun j diff =>
      idx <- index2 i nbins j ;;
      x <- get diff idx ;; r <- get rparts idx ;;
      set diff idx (x * r)%Qc) diff) diff.

(** reconstruct.cpp 219-232. *)
Definition count_int (rparts : list Qc) (xp : list Z) (nprof npart nbins : nat) : res (list Qc) :=
  for_ 0 npart (fun i rparts =>
    for_ 0 nprof (fun j rparts =>
      a <- index2 i nprof j ;;
      bin <- get xp a ;;
      p <- imul (zi j) (zi nbins) ;;
      k <- iadd p bin ;;
      x <- get rparts k ;;
      set rparts k (x + 1)%Qc) rparts) rparts.

(** reconstruct.cpp 257-283: the maximum is converted to int. *)
Definition reciprocal_int (rparts : list Qc) (xp : list Z) (nbins nprof npart : nat) : res (list Qc) :=
  all_bins <- imul (zi nprof) (zi nbins) ;;
  rparts <- count_int rparts xp nprof npart nbins ;;
  mx <- max_1d rparts (Z.to_nat all_bins) ;;
  max_bin_val <- c_int (qtrunc mx) ;;
  rparts <- for_ 0 (Z.to_nat all_bins) (fun i rparts =>
    x <- get rparts (zi i) ;;
    if qeqb x 0 then set rparts (zi i) 1%Qc else Ok rparts) rparts ;;
  for_ 0 nprof (fun i rparts =>
    for_ 0 nbins (fun j rparts =>
      idx <- index2 i nbins j ;;
      x <- get rparts idx ;;
      q <- qdiv (qz max_bin_val) x ;;
      set rparts idx q) rparts) rparts.

(** reconstruct.cpp 317-328. *)
Definition create_flat_points_int (xp : list Z) (npart nprof nbins : nat) : res (list Z) :=
  _ <- imul (zi npart) (zi nprof) ;;
  for_ 0 npart (fun i fp =>
    for_ 0 nprof (fun j fp =>
      k <- index2 i nprof j ;;
      x <- get fp k ;;
      p <- imul (zi nbins) (zi j) ;;
      y <- iadd x p ;;
      set fp k y) fp) xp.

(** reconstruct.cpp 400-422. *)
Definition iteration_int (sqrt : Qc -> Qc) (fp : list Z) (prof rparts : list Qc) (niter : Z)
    (all_bins : Z) (nbins npart nprof : nat) (it : nat) (s : rstate) : res rstate :=
  rec <- project_int (r_rec s) fp (r_weights s) npart nprof ;;
  rec <- normalize_int rec nprof nbins ;;
  diff <- find_difference_profile (r_diff s) rec prof (Z.to_nat all_bins) ;;
  d <- discrepancy_int sqrt diff nprof nbins ;;
  discr <- set (r_discr s) (zi it) d ;;
  diff <- compensate_int diff rparts nprof nbins ;;
  w <- back_project_int (r_weights s) fp diff npart nprof ;;
  w <- clip w npart 0%Qc ;;
  _ <- check_sum w npart ;;
  n <- iadd (zi it) 1 ;;
  Ok (RState w rec discr diff (r_calls s ++ [(n, niter)])).

(** reconstruct.cpp 358-441, with the arrays [rec0] and [discr0] of the
    wrapper. *)
Definition reconstruct_int (sqrt : Qc -> Qc) (rec0 discr0 : list Qc) (xp : list Z) (prof : list Qc) (niter : Z)
    (nbins npart nprof : nat) : res rstate :=
  all_bins <- imul (zi nprof) (zi nbins) ;;
  let zeros n := repeat 0%Qc n in
  _ <- imul (zi npart) (zi nprof) ;;
  rparts <- reciprocal_int (zeros (Z.to_nat all_bins)) xp nbins nprof npart ;;
  fp <- create_flat_points_int xp npart nprof nbins ;;
  w <- back_project_int (zeros npart) fp prof npart nprof ;;
  w <- clip w npart 0%Qc ;;
  _ <- check_sum w npart ;;
  s <- for_ 0 (Z.to_nat niter)
         (iteration_int sqrt fp prof rparts niter all_bins nbins npart nprof)
         (RState w rec0 discr0 (zeros (Z.to_nat all_bins)) []) ;;
  rec <- project_int (r_rec s) fp (r_weights s) npart nprof ;;
  rec <- normalize_int rec nprof nbins ;;
  diff <- find_difference_profile (r_diff s) rec prof (Z.to_nat all_bins) ;;
  d <- discrepancy_int sqrt diff nprof nbins ;;
  discr <- set (r_discr s) niter d ;;
  Ok (RState (r_weights s) rec discr diff (r_calls s ++ [(niter, niter)])).

(** libtomo.cpp 396-443 [wrapper_reconstruct]: the arguments n_iter, n_bins,
    n_particles, n_profiles and the arrays of n_iter + 1 and
    n_profiles * n_bins elements. *)
Definition wrapper_reconstruct_int (sqrt : Qc -> Qc) (xp : list Z) (prof : list Qc) (niter : Z)
    (nbins npart nprof : nat) : res rstate :=
  _ <- int_arg niter ;;
  _ <- int_arg (zi nbins) ;;
  _ <- int_arg (zi npart) ;;
  _ <- int_arg (zi nprof) ;;
  n1 <- iadd niter 1 ;;
  n2 <- imul (zi nprof) (zi nbins) ;;
  reconstruct_int sqrt (repeat 0%Qc (Z.to_nat n2)) (repeat 0%Qc (Z.to_nat n1)) xp prof niter nbins npart nprof.

(** Tomography.run, tomography.py 359-404. *)
Definition run_int (sqrt : Qc -> Qc) (t : tomo) (niter : Z)
  : res (list Qc * list Qc * list (list Qc) * list (Z * Z)) :=
  match t_xp t with
  | None => Fail (Raised CoordinateError)
  | Some xp =>
    s <- wrapper_reconstruct_int sqrt (concat xp) (concat (t_waterfall t))
           niter (t_nbins t) (length xp) (t_nprofs t) ;;
    Ok (r_weights s, r_discr s, chunk (t_nprofs t) (t_nbins t) (r_rec s), r_calls s)
  end.

(** ** The image: data_treatment.cpp 21-35 *)
Definition make_phase_space_int (xp yp : list Z) (weight : list Qc) (npart : Z) (nbins : nat) : res (list Qc) :=
  n <- imul (zi nbins) (zi nbins) ;;
  nbins2 <- imul (zi nbins) (zi nbins) ;;
  for_ 0 (Z.to_nat npart) (fun i ps =>
    y <- get yp (zi i) ;;
    x <- get xp (zi i) ;;
    p <- imul x (zi nbins) ;;
    index <- iadd y p ;;
    if (nbins2 <=? index)%Z then Fail (Raised OutOfRange)
    else
      w <- get weight (zi i) ;;
      v <- get ps index ;;
      set ps index (v + w)%Qc) (repeat 0%Qc (Z.to_nat n)).

(** libtomo.cpp 513-533: the number of particles is the length of xp as an
    int. *)
Definition wrapper_make_phase_space_int (xp yp : list Z) (weight : list Qc) (nbins : nat) : res (list (list Qc)) :=
  _ <- int_arg (zi nbins) ;;
  ps <- make_phase_space_int xp yp weight (narrow (zi (length xp))) nbins ;;
  Ok (chunk nbins nbins ps).

(** ** Tracking: kick_and_drift.cpp 115-211 *)
Section Track.
Context {T : Type} (add sub mul : T -> T -> T) (sin : T -> T).
Local Open Scope Z_scope.

(** kick_and_drift.cpp 149-170; the profile numbers are printed plus one. *)
Definition up_step_int (m : machine T) (dturns rec_prof total : Z) (nparts : nat) (ftn : bool)
    (s : tstate T) : res (tstate T) :=
  coef <- get (drift_coef m) (turn s) ;;
  ph <- drift_up sub mul (dphi s) (denergy s) coef nparts ;;
  t <- iadd (turn s) 1 ;;
  v1 <- get (rf1v m) t ;; v2 <- get (rf2v m) t ;; p0 <- get (phi0 m) t ;;
  p12 <- get (phi12 m) t ;; acc <- get (deltaE0 m) t ;;
  de <- kick_up add sub mul sin ph (denergy s) v1 v2 p0 p12 (hratio m) nparts acc ;;
  hit <- on_profile t dturns ;;
  pg <- iadd (progress s) 1 ;;
  let cb := calls s ++ [(pg, total)] in
  if hit : bool then
    p <- iadd (profile s) 1 ;;
    xp' <- store_row (xp s) p ph nparts ;;
    yp' <- store_row (yp s) p de nparts ;;
    pr <- (if ftn then a <- iadd rec_prof 1 ;; b <- iadd p 1 ;; Ok (prints s ++ [(a, b)]) else Ok (prints s)) ;;
    Ok (TState ph de xp' yp' p t pg cb pr)
  else Ok (TState ph de (xp s) (yp s) (profile s) t pg cb (prints s)).

(** kick_and_drift.cpp 148-171. *)
Fixpoint up_loop_int (fuel : nat) (m : machine T) (dturns rec_prof nturns : Z) (nparts : nat)
    (ftn : bool) (s : tstate T) : res (tstate T) :=
  if turn s <? nturns then
    match fuel with
    | O => Fail OutOfFuel
    | S f => s' <- up_step_int m dturns rec_prof nturns nparts ftn s ;;
             up_loop_int f m dturns rec_prof nturns nparts ftn s'
    end
  else Ok s.

(** kick_and_drift.cpp 187-208. *)
Definition down_step_int (m : machine T) (dturns rec_prof total : Z) (nparts : nat) (ftn : bool)
    (s : tstate T) : res (tstate T) :=
  v1 <- get (rf1v m) (turn s) ;; v2 <- get (rf2v m) (turn s) ;; p0 <- get (phi0 m) (turn s) ;;
  p12 <- get (phi12 m) (turn s) ;; acc <- get (deltaE0 m) (turn s) ;;
  de <- kick_down add sub mul sin (dphi s) (denergy s) v1 v2 p0 p12 (hratio m) nparts acc ;;
  t <- isub (turn s) 1 ;;
  coef <- get (drift_coef m) t ;;
  ph <- drift_down add mul (dphi s) de coef nparts ;;
  hit <- on_profile t dturns ;;
  pg <- iadd (progress s) 1 ;;
  let cb := calls s ++ [(pg, total)] in
  if hit : bool then
    p <- isub (profile s) 1 ;;
    xp' <- store_row (xp s) p ph nparts ;;
    yp' <- store_row (yp s) p de nparts ;;
    pr <- (if ftn then a <- iadd rec_prof 1 ;; b <- iadd p 1 ;; Ok (prints s ++ [(a, b)]) else Ok (prints s)) ;;
    Ok (TState ph de xp' yp' p t pg cb pr)
  else Ok (TState ph de (xp s) (yp s) (profile s) t pg cb (prints s)).

(** kick_and_drift.cpp 186-209. *)
Fixpoint down_loop_int (fuel : nat) (m : machine T) (dturns rec_prof total : Z) (nparts : nat)
    (ftn : bool) (s : tstate T) : res (tstate T) :=
  if 0 <? turn s then
    match fuel with
    | O => Fail OutOfFuel
    | S f => s' <- down_step_int m dturns rec_prof total nparts ftn s ;;
             down_loop_int f m dturns rec_prof total nparts ftn s'
    end
  else Ok s.

(** kick_and_drift.cpp 115-211. *)
Definition kick_and_drift_int (m : machine T) (xp0 yp0 : list (list T)) (de ph : list T)
    (dturns rec_prof deltaturn nturns : Z) (nparts : nat) (ftn : bool) : res (tstate T) :=
  t0 <- imul rec_prof dturns ;;
  t <- iadd t0 deltaturn ;;
  prof <- (if deltaturn <? 0 then isub rec_prof 1 else Ok rec_prof) ;;
  x0 <- store_row xp0 prof ph nparts ;;
  y0 <- store_row yp0 prof de nparts ;;
  s1 <- up_loop_int (Z.to_nat (nturns - t)) m dturns rec_prof nturns nparts ftn
          (TState ph de x0 y0 prof t 0 [] []) ;;
  t1 <- imul rec_prof dturns ;;
  if 0 <? rec_prof then
    rx <- get (xp s1) rec_prof ;;
    ry <- get (yp s1) rec_prof ;;
    ph' <- copy_loop rx (dphi s1) nparts ;;
    de' <- copy_loop ry (denergy s1) nparts ;;
    down_loop_int (Z.to_nat t1) m dturns rec_prof nturns nparts ftn
      (TState ph' de' (xp s1) (yp s1) rec_prof t1 (progress s1) (calls s1) (prints s1))
  else Ok (TState (dphi s1) (denergy s1) (xp s1) (yp s1) rec_prof t1
             (progress s1) (calls s1) (prints s1)).

(** libtomo.cpp 264-271 [wrapper_kick_and_drift_array]: the pointers to the
    rows, &xp[i * nparts].  Rows are lists here; only the products are
    checked. *)
Definition row_pointers (nprofiles : Z) (nparts : nat) : res unit :=
  for_ 0 (Z.to_nat nprofiles) (fun i _ => _ <- imul (Z.of_nat i) (Z.of_nat nparts) ;; Ok tt) tt.

(** libtomo.cpp 228-305, CPU back end.  The two tables of pointers have
    n_profiles entries, n_profiles = shape[0] as an int; rows beyond are not
    reached by the pointers. *)
Definition wrapper_kick_and_drift_int (m : machine T) (xp0 yp0 : list (list T)) (de ph : list T)
    (dturns rec_prof deltaturn nturns : Z) (nparts : nat) (ftn : bool) : res (tstate T) :=
  _ <- int_arg dturns ;; _ <- int_arg rec_prof ;; _ <- int_arg deltaturn ;; _ <- int_arg nturns ;;
  _ <- int_arg (Z.of_nat nparts) ;;
  let n := narrow (Z.of_nat (length xp0)) in
  _ <- row_pointers n nparts ;;
  _ <- row_pointers n nparts ;;
  kick_and_drift_int m (firstn (Z.to_nat n) xp0) (firstn (Z.to_nat n) yp0) de ph
    dturns rec_prof deltaturn nturns nparts ftn.

(** Tracking.track (tracking.py 141-160, 175-184, 200-214), as in MTrack.v;
    Python integers do not overflow. *)
Definition track_int (zero : T) (m : machine T) (nprofiles : nat) (dturns recprof deltaturn : Z)
    (ph de : list T) (ftn : bool) : res (tstate T) :=
  p <- track_checks (Z.of_nat nprofiles) dturns recprof deltaturn ;;
  let nparts := length ph in
  let z := repeat (repeat zero nparts) nprofiles in
  wrapper_kick_and_drift_int m z z de ph dturns p deltaturn
    (dturns * (Z.of_nat nprofiles - 1)) nparts ftn.

End Track.
