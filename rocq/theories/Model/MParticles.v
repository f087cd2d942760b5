(** Model of LT/tracking/particles.py: lost particles, conversion between bin
    and physical coordinates, the homogeneous distribution. *)
From Coq Require Import List ZArith Bool QArith Qcanon.
From Verif Require Import Base.Res Base.QcLib Model.MRecon.
Import ListNotations.
Local Open Scope Qc_scope.

(** A floating-point number: a finite value, an infinity or not-a-number. *)
Inductive num := Num (q : Qc) | NInf (negative : bool) | NNaN.

(** x >= w and x < 0; every comparison with not-a-number is false. *)
Definition num_ge (x : num) (w : Qc) : bool :=
  match x with Num q => qleb w q | NInf s => negb s | NNaN => false end.
Definition num_lt0 (x : num) : bool :=
  match x with Num q => qltb q 0 | NInf s => s | NNaN => false end.

(** astype(int32): truncation; not-a-number and the infinities become the
    smallest int (x86). *)
Definition int_min : Z := -2147483648.
Definition num_to_int (x : num) : Z :=
  match x with Num q => qtrunc q | _ => int_min end.

(** particles.py 266: conf.logical_or(xp >= img_width, xp < 0). *)
Definition is_lost (w : Qc) (x : num) : bool := num_ge x w || num_lt0 x.

(** Row and column numbers of the elements with property p, row by row
    (np.argwhere). *)
Definition argwhere {A} (p : A -> bool) (t : list (list A)) : list (nat * nat) :=
  concat (map (fun ir =>
    map (fun jx => (fst ir, fst jx))
        (filter (fun jx => p (snd jx)) (combine (seq 0 (length (snd ir))) (snd ir))))
    (combine (seq 0 (length t)) t)).

(** a[:, mask]. *)
Definition select_cols {A} (mask : nat -> bool) (t : list (list A)) : list (list A) :=
  map (fun row => map snd (filter (fun jx => mask (fst jx)) (combine (seq 0 (length row)) row))) t.

(** particles.py 233-284 [filter_lost]; xp has shape (nprof, ncols), yp has
    [ycols] columns.  np.unique is modelled by [nodup] (order irrelevant: only
    membership and length are used); a mask of the wrong length is an
    IndexError. *)
Definition filter_lost {B} (xp : list (list num)) (yp : list (list B)) (ncols ycols : nat) (img_width : Z)
  : res (list (list num) * list (list B) * nat) :=
  let invalid := argwhere (is_lost (qz img_width)) xp in
  ' (xp, yp, nr) <-
    (if Nat.ltb 0 (length invalid) then
       let cols := nodup Nat.eq_dec (map snd invalid) in
       let mask := fun j => negb (existsb (Nat.eqb j) cols) in
       if negb (Nat.eqb ycols ncols) then Fail (Raised IndexError)
       else Ok (select_cols mask xp, select_cols mask yp, length cols)
     else Ok (xp, yp, 0%nat)) ;;
  if Nat.eqb (length (concat xp)) 0 then Fail (Raised InvalidParticleError)
  else Ok (xp, yp, nr).

(** .T of a table with n columns. *)
Definition transpose_l {A} (n : nat) (t : list (list A)) : res (list (list A)) :=
  mapM (fun j => mapM (fun row => get row (Z.of_nat j)) t) (seq 0 n).

(** particles.py 352-403 [ready_for_tomography]. *)
Definition ready_for_tomography (xp yp : list (list num)) (ncols ycols : nat) (nbins : Z)
  : res (list (list Z) * list (list Z)) :=
  ' (xp, yp, lost) <- filter_lost xp yp ncols ycols nbins ;;
  let cols t := match t with [] => 0%nat | r :: _ => length r end in
  x <- transpose_l (cols xp) (map (map num_to_int) xp) ;;
  y <- transpose_l (cols yp) (map (map num_to_int) yp) ;;
  Ok (x, y).

(** assertions.py 447-469 [assert_only_valid_particles]. *)
Definition assert_only_valid_particles (xp : list (list num)) (n_bins : Z) : res unit :=
  if existsb (existsb (is_lost (qz n_bins))) xp then Fail (Raised InvalidParticleError) else Ok tt.

(** The machine parameters used by the coordinate conversions. *)
Record cmachine := CMachine {
  c_hnum : Qc; c_omega : list Qc; c_dtbin : Qc; c_phi0 : list Qc; c_dturns : Z; c_synch_y : Qc }.

(** particles.py 187-219 [_bin_nr_to_physical_coords]; machine arrays are
    indexed by turn (negative turns wrap in Python; rejected here). *)
Definition bin_nr_to_physical (m : cmachine) (xorigin dEbin : Qc) (recprof deltaturn : Z)
    (c : list Qc * list Qc) : res (list Qc * list Qc) :=
  let turn := (recprof * c_dturns m + deltaturn)%Z in
  om <- get (c_omega m) turn ;;
  p0 <- get (c_phi0 m) turn ;;
  Ok (map (fun x => (x + xorigin) * c_hnum m * om * c_dtbin m - p0) (fst c),
      map (fun y => (y - c_synch_y m) * dEbin) (snd c)).

(** particles.py 287-349 [physical_to_coords]: row i of the tables is profile
    i.  The shape comparison is done on numbers of rows and row lengths. *)
Definition shape_eq {A B} (a : list (list A)) (b : list (list B)) : bool :=
  Nat.eqb (length a) (length b) &&
  forallb (fun p => Nat.eqb (length (fst p)) (length (snd p))) (combine a b).
Definition physical_to_coords (m : cmachine) (xorigin dEbin : Qc) (dphi de : list (list Qc))
  : res (list (list Qc) * list (list Qc)) :=
  if negb (shape_eq dphi de) then Fail (Raised InvalidParticleError)
  else
    xp <- mapM (fun ir =>
      let turn := (Z.of_nat (fst ir) * c_dturns m)%Z in
      p0 <- get (c_phi0 m) turn ;;
      om <- get (c_omega m) turn ;;
      mapM (fun f => q <- qdiv (f + p0) (c_hnum m * om * c_dtbin m) ;; Ok (q - xorigin)) (snd ir))
      (combine (seq 0 (length dphi)) dphi) ;;
    yp <- mapM (mapM (fun e => q <- qdiv e dEbin ;; Ok (q + c_synch_y m))) de ;;
    Ok (xp, yp).

(** ** The homogeneous distribution, particles.py 137-177 *)

(** (2k-1)/(2*snpt), k = 1..snpt. *)
Definition bin_pts (snpt : nat) : list Qc :=
  map (fun k => (qz 2 * qn k - 1) / (qz 2 * qn snpt)) (seq 1 snpt).

(** np.arange(a, b) for integers. *)
Definition arange (a b : Z) : list Z := map (fun k => (a + Z.of_nat k)%Z) (seq 0 (Z.to_nat (b - a))).

(** np.repeat(arange, snpt) + np.tile(bin_pts, len(arange)). *)
Definition grid (snpt : nat) (a b : Z) : list Qc :=
  map (fun p => fst p + snd p)
    (combine (flat_map (fun i => repeat (qz i) snpt) (arange a b))
             (concat (repeat (bin_pts snpt) (length (arange a b))))).

(** np.max, np.min of an integer array. *)
Definition zmax (l : list Z) : res Z :=
  match l with [] => Fail (Raised ValueError) | x :: r => Ok (fold_left Z.max r x) end.
Definition zmin (l : list Z) : res Z :=
  match l with [] => Fail (Raised ValueError) | x :: r => Ok (fold_left Z.min r x) end.

(** NumPy indexing with an integer array: negative indices wrap, others out of
    range raise IndexError. *)
Definition np_get {A} (l : list A) (i : Z) : res A :=
  let n := Z.of_nat (length l) in
  let j := (if i <? 0 then i + n else i)%Z in
  if ((j <? 0) || (n <=? j))%Z then Fail (Raised IndexError) else get l j.

(** coords[:, keep]: keep the pairs for which the test holds; the test is
    evaluated for all of them. *)
Definition filterM {A} (p : A -> res bool) (l : list A) : res (list A) :=
  bs <- mapM p l ;;
  Ok (map snd (filter (fun x => fst x) (combine bs l))).

(** The particles, in bin coordinates: meshgrid of x and y, flattened (x runs
    fastest), minus those outside the limits. *)
Definition homogeneous_coords (snpt : nat) (imin imax : Z) (jmin jmax : list Z)
  : res (list (Qc * Qc)) :=
  let x := grid snpt imin (imax + 1) in
  top <- zmax jmax ;;
  bot <- zmin jmin ;;
  let y := grid snpt bot top in
  let c := flat_map (fun b => map (fun a => (a, b)) x) y in
  c <- filterM (fun p => j <- np_get jmax (qtrunc (fst p)) ;; Ok (qltb (snd p) (qz j))) c ;;
  filterM (fun p => j <- np_get jmin (qtrunc (fst p)) ;; Ok (qltb (qz j) (snd p))) c.

(** particles.py 113-185 [homogeneous_distribution], after the limits have
    been found: positions and energies in physical units. *)
Definition homogeneous_distribution (m : cmachine) (xorigin dEbin : Qc) (snpt : nat)
    (imin imax : Z) (jmin jmax : list Z) (recprof deltaturn : Z) : res (list Qc * list Qc) :=
  c <- homogeneous_coords snpt imin imax jmin jmax ;;
  bin_nr_to_physical m xorigin dEbin recprof deltaturn (map fst c, map snd c).
