(** Model of the multi-bunch reconstruction: LT/cpp_routines/reconstruct.cpp
    (the functions ending in _multi and create_mask), LT/cpp_routines/libtomo.cpp
    wrapper_reconstruct_multi, LT/tomography/tomography_multibunch.py.

    Loops run in index order, as in a build without OpenMP. *)
From Coq Require Import List ZArith Bool QArith Qcanon.
From Verif Require Import Base.Res Base.QcLib Model.MRecon.
Import ListNotations.
Local Open Scope Qc_scope.
Local Open Scope nat_scope.

(** reconstruct.cpp 330-354 [create_mask].  [mask] is all true at entry. *)
Definition create_mask (xp centers cutleft cutright : list Z) (mask : list bool)
    (npart nprof ncenter : nat) : res (list bool) :=
  for_ 0 ncenter (fun c mask =>
    for_ 0 npart (fun i mask =>
      for_ 0 nprof (fun j mask =>
        x <- get xp (zi (i * nprof + j)) ;;
        ce <- get centers (zi c) ;;
        l <- get cutleft (zi c) ;;
        r <- get cutright (zi c) ;;
        let bin := (x + ce)%Z in
        if ((bin <? l) || (r <? bin))%Z then set mask (zi (i + c * npart)) false else Ok mask)
      mask) mask) mask.

(** reconstruct.cpp 31-52 [back_project_multi]. *)
Definition back_project_multi (weights : list Qc) (fp : list Z) (prof : list Qc) (mask : list bool)
    (centers : list Z) (npart nprof ncenter : nat) : res (list Qc) :=
  for_ 0 ncenter (fun c weights =>
    for_ 0 npart (fun i weights =>
      for_ 0 nprof (fun j weights =>
        m <- get mask (zi (i + c * npart)) ;;
        if m : bool then
          k <- get fp (zi (i * nprof + j)) ;;
          ce <- get centers (zi c) ;;
          v <- get prof (k + ce)%Z ;;
          x <- get weights (zi (i + c * npart)) ;;
          set weights (zi (i + c * npart)) (x + v)%Qc
        else Ok weights) weights) weights) weights.

(** reconstruct.cpp 65-86 [project_multi]. *)
Definition project_multi (rec : list Qc) (fp : list Z) (weights : list Qc) (centers : list Z)
    (npart nprof ncenter : nat) : res (list Qc) :=
  for_ 0 ncenter (fun c rec =>
    for_ 0 npart (fun i rec =>
      for_ 0 nprof (fun j rec =>
        k <- get fp (zi (i * nprof + j)) ;;
        ce <- get centers (zi c) ;;
        w <- get weights (zi (i + c * npart)) ;;
        x <- get rec (k + ce)%Z ;;
        set rec (k + ce)%Z (x + w)%Qc) rec) rec) rec.

(** reconstruct.cpp 150-173 [discrepancy_multi].  squared_sum is declared
    outside the loop over the bunches. *)
Definition discrepancy_multi (sqrt : Qc -> Qc) (diff disc : list Qc) (cutleft cutright : list Z)
    (it nprof nbins ncenter : nat) : res (list Qc) :=
  ' (disc, _) <- for_ 0 ncenter (fun c st =>
    let '(disc, squared_sum) := st in
    l <- get cutleft (zi c) ;;
    r <- get cutright (zi c) ;;
    squared_sum <- for_ 0 (nprof * nbins) (fun i s =>
      if ((zi i <? r) && (l <? zi i))%Z then x <- get diff (zi i) ;; Ok (s + x * x)%Qc else Ok s)
      squared_sum ;;
    q <- qdiv squared_sum (qz (zi nprof * (r - l))) ;;
    disc <- set disc (zi (it * ncenter + c)) (sqrt q) ;;
    Ok (disc, squared_sum)) (disc, 0%Qc) ;;
  Ok disc.

(** reconstruct.cpp 234-254 [count_particles_in_bin_multi]. *)
Definition count_particles_in_bin_multi (rparts : list Qc) (xp centers : list Z)
    (nprof npart nbins ncenters : nat) : res (list Qc) :=
  for_ 0 ncenters (fun c rparts =>
    for_ 0 npart (fun j rparts =>
      for_ 0 nprof (fun i rparts =>
        x <- get xp (zi (j * nprof + i)) ;;
        ce <- get centers (zi c) ;;
        let k := (x + ce + zi i * zi nbins)%Z in
        v <- get rparts k ;;
        set rparts k (v + 1)%Qc) rparts) rparts) rparts.

(** reconstruct.cpp 285-314 [reciprocal_particles_multi]. *)
Definition reciprocal_particles_multi (rparts : list Qc) (xp centers : list Z)
    (nbins nprof npart ncenters : nat) : res (list Qc) :=
  let all_bins := nprof * nbins in
  rparts <- count_particles_in_bin_multi rparts xp centers nprof npart nbins ncenters ;;
  mx <- max_1d rparts all_bins ;;
  let max_bin_val := qz (qtrunc mx) in
  rparts <- for_ 0 all_bins (fun i rparts =>
    x <- get rparts (zi i) ;;
    if qeqb x 0 then set rparts (zi i) 1%Qc else Ok rparts) rparts ;;
  for_ 0 nprof (fun i rparts =>
    for_ 0 nbins (fun j rparts =>
      let idx := zi (i * nbins + j) in
      x <- get rparts idx ;;
      q <- qdiv max_bin_val x ;;
      set rparts idx q) rparts) rparts.

(** Local variables of [reconstruct_multi] that change. *)
Record mstate := MState {
  m_weights : list Qc; m_rec : list Qc; m_discr : list Qc; m_split : list Qc; m_diff : list Qc;
  m_calls : list (Z * Z) }.

(** reconstruct.cpp 497-519: one iteration.  The sum test covers the first
    npart weights only. *)
Definition iteration_multi (sqrt : Qc -> Qc) (fp centers cutleft cutright : list Z) (mask : list bool)
    (prof rparts : list Qc) (niter : Z) (nbins npart nprof ncenter : nat) (it : nat) (s : mstate)
  : res mstate :=
  rec <- project_multi (m_rec s) fp (m_weights s) centers npart nprof ncenter ;;
  rec <- normalize rec nprof nbins ;;
  diff <- find_difference_profile (m_diff s) rec prof (nprof * nbins) ;;
  d <- discrepancy sqrt diff nprof nbins ;;
  discr <- set (m_discr s) (zi it) d ;;
  split <- discrepancy_multi sqrt diff (m_split s) cutleft cutright it nprof nbins ncenter ;;
  diff <- compensate_particle_amount diff rparts nprof nbins ;;
  w <- back_project_multi (m_weights s) fp diff mask centers npart nprof ncenter ;;
  w <- clip w (npart * ncenter) 0%Qc ;;
  _ <- check_sum w npart ;;
  Ok (MState w rec discr split diff (m_calls s ++ [(zi it + 1, niter)%Z])).

(** reconstruct.cpp 445-543 [reconstruct_multi] with the arrays allocated by
    wrapper_reconstruct_multi (libtomo.cpp 472-475).  discr_split is not
    initialised: [split0] is its content at entry. *)
Definition reconstruct_multi (sqrt : Qc -> Qc) (split0 : list Qc) (xp centers cutleft cutright : list Z)
    (prof : list Qc) (niter : Z) (nbins npart nprof ncenter : nat) : res mstate :=
  let all_bins := nprof * nbins in
  let zeros n := repeat 0%Qc n in
  mask <- create_mask xp centers cutleft cutright (repeat true (npart * ncenter)) npart nprof ncenter ;;
  rparts <- reciprocal_particles_multi (zeros all_bins) xp centers nbins nprof npart ncenter ;;
  fp <- create_flat_points xp npart nprof nbins ;;
  w <- back_project_multi (zeros (npart * ncenter)) fp prof mask centers npart nprof ncenter ;;
  w <- clip w npart 0%Qc ;;
  _ <- check_sum w npart ;;
  s <- for_ 0 (Z.to_nat niter)
         (iteration_multi sqrt fp centers cutleft cutright mask prof rparts niter nbins npart nprof ncenter)
         (MState w (zeros all_bins) (zeros (Z.to_nat (niter + 1))) split0 (zeros all_bins) []) ;;
  rec <- project_multi (m_rec s) fp (m_weights s) centers npart nprof ncenter ;;
  rec <- normalize rec nprof nbins ;;
  diff <- find_difference_profile (m_diff s) rec prof all_bins ;;
  d <- discrepancy sqrt diff nprof nbins ;;
  discr <- set (m_discr s) niter d ;;
  split <- discrepancy_multi sqrt diff (m_split s) cutleft cutright (Z.to_nat niter) nprof nbins ncenter ;;
  Ok (MState (m_weights s) rec discr split diff (m_calls s ++ [(niter, niter)])).

(** What TomographyMultibunch.run stores: weight_combined, weight_split, diff,
    diff_split (one row per bunch), recreated; and the callback calls. *)
Record mresult := MResult {
  mr_weights : list Qc; mr_weight_split : list (list Qc); mr_diff : list Qc;
  mr_diff_split : list (list Qc); mr_recreated : list (list Qc); mr_calls : list (Z * Z) }.

(** tomography_multibunch.py 234-295 [run]; the object is a [tomo], the
    constructor is that of the base class (66-68). *)
Definition run_multi (sqrt : Qc -> Qc) (split0 : list Qc) (t : tomo) (centers cutleft cutright : list Z)
    (niter : Z) : res mresult :=
  match t_xp t with
  | None => Fail (Raised CoordinateError)
  | Some xp =>
    let nc := length centers in
    s <- reconstruct_multi sqrt split0 (concat xp) centers cutleft cutright (concat (t_waterfall t)) niter
           (t_nbins t) (length xp) (t_nprofs t) nc ;;
    split <- transpose (Z.to_nat (niter + 1)) nc (chunk (Z.to_nat (niter + 1)) nc (m_split s)) ;;
    Ok (MResult (m_weights s) (chunk nc (length xp) (m_weights s)) (m_discr s) split
          (chunk (t_nprofs t) (t_nbins t) (m_rec s)) (m_calls s))
  end.

(** ** run_hybrid, tomography_multibunch.py 71-206 *)

(** 117-121: the mask of one bunch. *)
Definition hybrid_mask (xp : list (list Z)) (center : Z) (cut : Z * Z) : list bool :=
  map (fun row => forallb (fun x => (fst cut <? x + center) && (x + center <? snd cut))%Z row) xp.

(** __tomography.py 260-274 [_reciprocal_particles_multi].  self.xp.T is
    passed to a parameter declared c_style with forcecast, so C++ receives a
    contiguous copy of the transposed table. *)
Definition hybrid_reciprocal (xp : list (list Z)) (centers : list Z) (nprofs nbins : nat)
  : res (list (list Qc)) :=
  xt <- transpose (length xp) nprofs xp ;;
  ppb <- count_particles_in_bin_multi (repeat 0%Qc (nprofs * nbins)) (concat xt) centers nprofs (length xp)
           nbins (length centers) ;;
  let ppb := map (fun x => if qeqb x 0 then 1%Qc else x) ppb in
  mx <- py_max [ppb] ;;
  ppb <- mapM (fun x => qdiv mx x) ppb ;;
  Ok (chunk nprofs nbins ppb).

(** The elements of a list where the mask is true; and writing them back. *)
Definition select {A} (mask : list bool) (l : list A) : list A :=
  map snd (filter fst (combine mask l)).
Fixpoint put_back {A} (mask : list bool) (l new : list A) : list A :=
  match mask, l, new with
  | true :: mask, _ :: l, y :: new => y :: put_back mask l new
  | false :: mask, x :: l, _ => x :: put_back mask l new
  | _, _, _ => l
  end.

(** 136-145, 176-184: back projection of the particles of one bunch that are
    inside its cuts.  numpy adds the centre to every flat point. *)
Definition hybrid_back (w : list Qc) (fp : list (list Z)) (prof : list Qc) (mask : list bool) (center : Z)
    (nprofs : nat) : res (list Qc) :=
  let sel := select mask w in
  let pts := map (map (fun k => (k + center)%Z)) (select mask fp) in
  new <- back_project sel (concat pts) prof (length sel) nprofs ;;
  Ok (put_back mask w new).

(** 155-166, 188-195: projection of every bunch, added up, then normalised. *)
Definition hybrid_project (t : tomo) (fp : list (list Z)) (ws : list (list Qc)) (centers : list Z)
  : res (list (list Qc)) :=
  full <- forl (combine ws centers) (fun wc acc =>
    rec <- project (repeat 0%Qc (t_nprofs t * t_nbins t))
             (concat (map (map (fun k => (k + snd wc)%Z)) fp)) (fst wc) (length (fst wc)) (t_nprofs t) ;;
    Ok (zip_rows Qcplus acc (chunk (t_nprofs t) (t_nbins t) rec)))
    (repeat (repeat 0%Qc (t_nbins t)) (t_nprofs t)) ;;
  normalize_profiles full.

(** a[l:r] with Python's rules for negative or large bounds. *)
Definition clamp (n : nat) (i : Z) : nat :=
  Z.to_nat (if i <? 0 then Z.max 0 (i + zi n) else Z.min i (zi n))%Z.
Definition columns {A} (row : list A) (cut : Z * Z) : list A :=
  let a := clamp (length row) (fst cut) in
  let b := clamp (length row) (snd cut) in
  firstn (b - a) (skipn a row).

(** 210-219 [_discrepancy_multi]. *)
Definition hybrid_discrepancy (sqrt : Qc -> Qc) (dw : list (list Qc)) (cuts : list (Z * Z)) (nprofs : nat)
  : res (list Qc) :=
  mapM (fun c =>
    let s := qsum (map (fun row => qsum (map (fun x => x * x)%Qc (columns row c))) dw) in
    q <- qdiv s (qz ((snd c - fst c) * zi nprofs)) ;;
    Ok (sqrt q)) cuts.

(** Loop state: the weights of each bunch, diff, and the columns of
    diff_split computed so far. *)
Definition hybrid_multi_iteration (sqrt : Qc -> Qc) (t : tomo) (fp : list (list Z)) (recip : list (list Qc))
    (masks : list (list bool)) (centers : list Z) (cuts : list (Z * Z)) (it : nat)
    (s : list (list Qc) * list Qc * list (list Qc))
  : res (list (list Qc) * list Qc * list (list Qc)) :=
  let '(ws, diff, split) := s in
  rec <- hybrid_project t fp ws centers ;;
  let dw := zip_rows Qcminus (t_waterfall t) rec in
  d <- py_discrepancy sqrt dw (t_nprofs t) (t_nbins t) ;;
  diff <- set diff (zi it) d ;;
  ds <- hybrid_discrepancy sqrt dw cuts (t_nprofs t) ;;
  let dw := zip_rows Qcmult dw recip in
  ws <- mapM (fun x => hybrid_back (fst x) fp (concat dw) (fst (snd x)) (snd (snd x)) (t_nprofs t))
          (combine ws (combine masks centers)) ;;
  Ok (map py_clip ws, diff, split ++ [ds]).

(** run_hybrid for niter >= 0. *)
Definition run_hybrid_multi (sqrt : Qc -> Qc) (t : tomo) (centers : list Z) (cuts : list (Z * Z)) (niter : nat)
  : res mresult :=
  match t_xp t with
  | None => Fail (Raised CoordinateError)
  | Some xp =>
    let masks := map (fun x => hybrid_mask xp (fst x) (snd x)) (combine centers cuts) in
    recip <- hybrid_reciprocal xp centers (t_nprofs t) (t_nbins t) ;;
    let fp := py_flat_points xp (t_nprofs t) (t_nbins t) in
    ws <- mapM (fun x => hybrid_back (repeat 0%Qc (length xp)) fp (concat (t_waterfall t)) (fst x) (snd x) (t_nprofs t))
            (combine masks centers) ;;
    ' (ws, diff, split) <- for_ 0 niter (hybrid_multi_iteration sqrt t fp recip masks centers cuts)
                             (map py_clip ws, repeat 0%Qc (niter + 1), []) ;;
    rec <- hybrid_project t fp ws centers ;;
    let dw := zip_rows Qcminus (t_waterfall t) rec in
    d <- py_discrepancy sqrt dw (t_nprofs t) (t_nbins t) ;;
    diff <- set diff (zi niter) d ;;
    ds <- hybrid_discrepancy sqrt dw cuts (t_nprofs t) ;;
    split <- transpose (S niter) (length cuts) (split ++ [ds]) ;;
    Ok (MResult (concat ws) ws diff split rec [])
  end.
