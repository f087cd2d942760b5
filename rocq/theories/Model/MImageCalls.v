(** Model of phase-space images made from numpy arrays on the CPU:
    [libtomo.make_phase_space], data_treatment's [phase_space] and tomo_output's
    [create_phase_space_image].
    LT/cpp_routines/libtomo.cpp 512-533 and 635-639,
    LT/data/data_treatment.py 155-203 and LT/utils/tomo_output.py 67-111.

    Arrays live in the heap of Model/MCalls.v.  Arithmetic is exact in both
    precisions. *)
From Coq Require Import List ZArith Bool QArith Qcanon String.
From Verif Require Import Base.Res Base.QcLib Model.MBind Model.MRecon Model.MImage Model.MCalls.
Import ListNotations.
Local Open Scope string_scope.

Section Images.
Variable single : Qc -> Qc.

(** libtomo.cpp 635-639. *)
Definition image_names := ["xp"; "yp"; "weights"; "n_bins"].
Definition image_versions := [[NInts; NInts; NFloats F64; NInt]; [NInts; NInts; NFloats F32; NInt]].

(** libtomo.cpp 524: shape[0]. *)
Definition first_axis (h : nheap) (l : nat) : res nat :=
  match nth_error h l with
  | Some (NArr (n :: _) _ _) => Ok n
  | _ => Fail OutOfBounds
  end.

(** libtomo.cpp 512-533 [wrapper_make_phase_space]: a new array in the precision
    of the version.  A negative number of bins is taken as zero. *)
Definition call_make_phase_space (h : nheap) (pos : list nval) (kw : list (string * nval)) : res (nheap * nat) :=
  match arguments image_names [] pos kw with
  | None => Fail (Raised TypeError)
  | Some vs =>
      match choose single image_versions h vs with
      | Some (v, h, [VArr lx; VArr ly; VArr lw; VInt n_bins]) =>
          let d := match v with O => F64 | _ => F32 end in
          let nb := Z.to_nat n_bins in
          n <- first_axis h lx ;;
          x <- ints_at h lx ;; y <- ints_at h ly ;; w <- floats_at h lw ;;
          ps <- make_phase_space x y w n nb ;;
          Ok ((h ++ [NArr [nb; nb] true (Floats d ps)])%list, List.length h)
      | _ => Fail (Raised TypeError)
      end
  end.

(** Element [p] of each of [n] rows of [m] elements. *)
Definition pick {A} (n m p : nat) (v : list A) : list A :=
  flat_map (fun i => match nth_error v (i * m + p) with Some x => [x] | None => [] end) (seq 0 n).

(** numpy: [a[:, p]] of an array of two axes.  The elements are next to each
    other if there is one at most; if rows have one element; or, for an array
    that is not contiguous, if its columns are ([cols]).  In numpy the column
    shares the memory of the array; here it is a copy, as nothing writes to
    either.  [p] is not negative. *)
Definition column_of (h : nheap) (l p : nat) (cols : bool) : res (nheap * nat) :=
  match nth_error h l with
  | Some (NArr [n; m] c e) =>
      if Nat.ltb p m then
        let e := match e with
                 | Floats d v => Floats d (pick n m p v)
                 | Int32 v => Int32 (pick n m p v)
                 | Int64 v => Int64 (pick n m p v)
                 end in
        let next := Nat.leb n 1 || (if c then Nat.eqb m 1 else cols) in
        Ok ((h ++ [NArr [n] next e])%list, List.length h)
      else Fail (Raised IndexError)
  | Some _ => Fail (Raised IndexError)
  | None => Fail OutOfBounds
  end.

(** data_treatment.py 155-160 and 203: the density of [phase_space], from the
    attributes xp, yp and weight of an object. *)
Definition phase_space_density (h : nheap) (xp yp weight p nbins : nat) (xcols ycols : bool) : res (nheap * nat) :=
  '(h, x) <- column_of h xp p xcols ;;
  '(h, y) <- column_of h yp p ycols ;;
  call_make_phase_space h [VArr x; VArr y; VArr weight; VInt (Z.of_nat nbins)] [].

(** numpy: [a.astype(np.int32)] of an array of one axis. *)
Definition astype_int32 (h : nheap) (l : nat) : res (nheap * nat) :=
  match nth_error h l with
  | Some a => Ok ((h ++ [NArr (n_shape a) true (Int32 (as_ints (n_cells a)))])%list, List.length h)
  | None => Fail OutOfBounds
  end.

(** tomo_output.py 102-111: [clip] makes a new array, which is divided in
    place. *)
Definition normalised_image (h : nheap) (l : nat) : res (nheap * nat) :=
  match nth_error h l with
  | Some (NArr s c (Floats d v)) =>
      let v := map (fun x => if qltb x 0 then 0%Qc else x) v in
      let s0 := qsum v in
      v <- mapM (fun x => qdiv x s0) v ;;
      Ok ((h ++ [NArr s c (Floats d v)])%list, List.length h)
  | _ => Fail OutOfBounds
  end.

(** tomo_output.py 67-111 [create_phase_space_image]. *)
Definition image_of (h : nheap) (xp yp weight nbins p : nat) (xcols ycols : bool) : res (nheap * nat) :=
  '(h, x) <- column_of h xp p xcols ;;
  '(h, x) <- astype_int32 h x ;;
  '(h, y) <- column_of h yp p ycols ;;
  '(h, y) <- astype_int32 h y ;;
  '(h, l) <- call_make_phase_space h [VArr x; VArr y; VArr weight; VInt (Z.of_nat nbins)] [] ;;
  normalised_image h l.
End Images.
