(** Model of the reference reconstruction on objects that hold numpy arrays, on
    the CPU: [Tomography.run_hybrid].
    LT/tomography/tomography.py 70-150, 289-298 and 309-312,
    LT/tomography/__tomography.py 228-258.

    Arrays live in the heap of Model/MCalls.v; the constructor is [new_tomo] of
    Model/MTomoCalls.v.  Arithmetic is exact; the indices of the flat waterfall
    fit 32 bits.  Tables that Python computes with and that no attribute and no
    compiled routine sees are values. *)
From Coq Require Import List ZArith Bool QArith Qcanon.
From Verif Require Import Base.Res Base.QcLib Model.MBind Model.MRecon Model.MCalls Model.MTomoCalls.
Import ListNotations.

Section Hybrid.
Variable single sqrt : Qc -> Qc.

(** np.zeros (lines 110, 115 and 295): a new array of doubles. *)
Definition zeros (shape : list nat) : narr :=
  NArr shape true (Floats F64 (repeat 0%Qc (fold_right Nat.mul 1%nat shape))).

(** tomography.py 291-298 [_project]: libtomo.project into np.zeros of the shape
    of recreated, normalised in place (__tomography.py 228-232). *)
Definition project_arrays (h : nheap) (o : tobj) (recreated fp w n : nat) : res (nheap * nat) :=
  match nth_error h recreated with
  | None => Fail OutOfBounds
  | Some a =>
      '(h, r) <- call_project single (h ++ [zeros (n_shape a)])
        [VArr (length h); VArr fp; VArr w; VInt (zi n); VInt (zi (o_nprofs o)); VInt (zi (o_nbins o))] [] ;;
      v <- floats_at h r ;;
      rec <- normalize_profiles (chunk (o_nprofs o) (o_nbins o) v) ;;
      Ok (write h r (concat rec), r)
  end.

(** tomography.py 130-131 and 144-145: the difference to the measured waterfall and its
    discrepancy, which is stored at [it] in diff. *)
Definition compare_arrays (h : nheap) (o : tobj) (diff r it : nat) : res (nheap * list (list Qc)) :=
  wf <- floats_at h (o_waterfall o) ;; v <- floats_at h r ;;
  let dw := zip_rows Qcminus (chunk (o_nprofs o) (o_nbins o) wf) (chunk (o_nprofs o) (o_nbins o) v) in
  d <- py_discrepancy sqrt dw (o_nprofs o) (o_nbins o) ;;
  dv <- floats_at h diff ;;
  dv <- set dv (zi it) d ;;
  Ok (write h diff dv, dw).

(** tomography.py 117-119 and 136-139: libtomo.back_project with a new flat array
    (flatten, line 114 and 137), and clip, which makes a new
    array. *)
Definition back_arrays (h : nheap) (o : tobj) (w fp n : nat) (flat : list Qc) : res (nheap * nat) :=
  '(h, w) <- call_back_project single (h ++ [NArr [length flat] true (Floats F64 flat)])
    [VArr w; VArr fp; VArr (length h); VInt (zi n); VInt (zi (o_nprofs o))] [] ;;
  v <- floats_at h w ;;
  Ok (h ++ [NArr [n] true (Floats F64 (py_clip v))], length h).

(** tomography.py 124-139, one turn of the loop: heap, recreated and weight. *)
Definition hybrid_turn (o : tobj) (diff fp n : nat) (recip_T : list (list Qc)) (it : nat)
    (s : nheap * nat * nat) : res (nheap * nat * nat) :=
  let '(h, r, w) := s in
  '(h, r) <- project_arrays h o r fp w n ;;
  '(h, dw) <- compare_arrays h o diff r it ;;
  '(h, w) <- back_arrays h o w fp n (concat (zip_rows Qcmult dw recip_T)) ;;
  Ok (h, r, w).

(** tomography.py 106-150, for niter >= 0: the object afterwards and the array
    returned. *)
Definition run_hybrid_tomo (h : nheap) (o : tobj) (niter : nat) : res (nheap * tobj * nat) :=
  match o_xp o, o_nparts o with
  | Some xp, Some n =>
      let diff := length h in
      let h := (h ++ [zeros [niter + 1]%nat])%list in
      x <- ints_at h xp ;;
      let x := chunk n (o_nprofs o) x in
      recip <- py_reciprocal (o_nbins o) (o_nprofs o) x ;;
      recip_T <- transpose (o_nbins o) (o_nprofs o) recip ;;
      let fp := length h in
      let h := (h ++ [NArr [n; o_nprofs o] true (Int32 (concat (py_flat_points x (o_nprofs o) (o_nbins o))))])%list in
      wf <- floats_at h (o_waterfall o) ;;
      let w := length h in
      let h := (h ++ [zeros [n]])%list in
      '(h, w) <- back_arrays h o w fp n wf ;;
      '(h, r, w) <- for_ 0 niter (hybrid_turn o diff fp n recip_T) (h, o_recreated o, w) ;;
      '(h, r) <- project_arrays h o r fp w n ;;
      '(h, _) <- compare_arrays h o diff r niter ;;
      Ok (h, TObj (o_waterfall o) (o_nprofs o) (o_nbins o) (o_xp o) (o_nparts o) r (Some diff) (o_weight o), w)
  | _, _ => Fail (Raised CoordinateError)
  end.
End Hybrid.
