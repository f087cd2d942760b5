(** Model of Tomography objects that hold numpy arrays: construction, assignment
    of positions and run, in both precisions, on the CPU.
    LT/tomography/__tomography.py 54-69, 162-195 and
    LT/tomography/tomography.py 359-404, with LT/utils/tomo_config.py 212-228.

    Arrays live in the heap of Model/MCalls.v.  Arithmetic is exact in both
    precisions; casting an array to single precision rounds its elements.  The
    y-coordinates are left out. *)
From Coq Require Import List ZArith Bool QArith Qcanon.
From Verif Require Import Base.Res Base.QcLib Model.MBind Model.MRecon Model.MCalls.
Import ListNotations.
Local Open Scope Z_scope.

(** The attributes that hold arrays, and the numbers. *)
Record tobj := TObj {
  o_waterfall : nat; o_nprofs : nat; o_nbins : nat; o_xp : option nat; o_nparts : option nat;
  o_recreated : nat; o_diff : option nat; o_weight : option nat }.

Section Objects.
Variable single sqrt : Qc -> Qc.

(** tomo_config.py 212-228 [cast_to_cpu] of an array of numbers: np.array makes
    a new array and keeps the order of the axes in memory ([rows]: the elements
    of a row are next to each other). *)
Definition cast_array (d : dtype) (rows : bool) (a : narr) : narr :=
  NArr (n_shape a) rows (Floats d (as_floats single d (n_cells a))).

(** __tomography.py 162-195: the setter of xp, for an array or None.  The cast
    array is in the order of the axes given by [rows]; the stored one is
    contiguous. *)
Definition assign_xp (d : dtype) (h : nheap) (o : tobj) (rows : bool) (x : option nat) : res (nheap * tobj) :=
  match x with
  | None =>
      Ok (h, TObj (o_waterfall o) (o_nprofs o) (o_nbins o) None None (o_recreated o) (o_diff o) (o_weight o))
  | Some l =>
      match nth_error h l with
      | None => Fail OutOfBounds
      | Some a =>
          let c := cast_array d rows a in
          let h := (h ++ [c])%list in
          match n_shape c with
          | [n; m] =>
              let v := as_floats single d (n_cells c) in
              if negb (Nat.eqb m (o_nprofs o)) then Fail (Raised CoordinateImportError)
              else if existsb (fun x => qltb x 0) v || existsb (fun x => qleb (qn (o_nbins o)) x) v
              then Fail (Raised XPOutOfImageWidthError)
              else
                Ok ((h ++ [NArr [n; m] true (Int32 (as_ints (n_cells c)))])%list,
                    TObj (o_waterfall o) (o_nprofs o) (o_nbins o) (Some (List.length h)) (Some n)
                      (o_recreated o) (o_diff o) (o_weight o))
          | _ => Fail (Raised CoordinateImportError)
          end
      end
  end.

(** __tomography.py 54-69.  [clip] makes a new array in the order of the cast
    one, which is then divided in place.  A waterfall that does not have two
    dimensions raises an AxisError, a ValueError. *)
Definition new_tomo (d : dtype) (h : nheap) (waterfall : nat) (rows : bool) (x : option nat) (xrows : bool)
  : res (nheap * tobj) :=
  match nth_error h waterfall with
  | None => Fail OutOfBounds
  | Some a =>
      let c := cast_array d rows a in
      match n_shape c with
      | [np; nb] =>
          wf <- normalize_profiles (clip_rows (chunk np nb (as_floats single d (n_cells c)))) ;;
          let h := (h ++ [c; NArr [np; nb] rows (Floats d (concat wf));
                          NArr [np; nb] true (Floats d (repeat 0%Qc (np * nb)))])%list in
          let k := (List.length h - 2)%nat in
          assign_xp d h (TObj k np nb None None (S k) None None) xrows x
      | _ => Fail (Raised ValueError)
      end
  end.

(** tomography.py 359-404 [run] on the CPU: the object afterwards and the array
    returned. *)
Definition run_tomo (h : nheap) (o : tobj) (niter : Z) (verbose : bool) (callback : nval)
  : res (nheap * tobj * nat) :=
  match o_xp o, o_nparts o with
  | Some xp, Some n =>
      '(h, (w, d, r)) <- call_reconstruct single sqrt h
        [VArr xp; VArr (o_waterfall o); VInt niter; VInt (Z.of_nat (o_nbins o)); VInt (Z.of_nat n);
         VInt (Z.of_nat (o_nprofs o)); VBool verbose; callback] [] ;;
      Ok (h, TObj (o_waterfall o) (o_nprofs o) (o_nbins o) (o_xp o) (o_nparts o) r (Some d) (Some w), w)
  | _, _ => Fail (Raised CoordinateError)
  end.
End Objects.
