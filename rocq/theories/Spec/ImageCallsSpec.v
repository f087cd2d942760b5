(** What a user of phase-space images made from arrays relies on.  Definitions
    only. *)
From Coq Require Import List ZArith Bool QArith Qcanon.
From Verif Require Import Base.Res Base.QcLib Model.MBind Model.MCalls Spec.CallsSpec Spec.TomoCallsSpec.
Import ListNotations.

(** An array of [n] integers (32 or 64 bits). *)
Definition line_of (a : narr) (n : nat) (f : nat -> nat) : Prop :=
  n_shape a = [n] /\
  exists v, (n_cells a = Int32 v \/ n_cells a = Int64 v) /\ vector n (fun i => Z.of_nat (f i)) v.

(** An array of integers with [n] rows of [m] elements. *)
Definition tracks_of (a : narr) (n m : nat) (f : nat -> nat -> nat) : Prop :=
  n_shape a = [n; m] /\ holds_ints a n m f.

(** Weight of the particles in the cell (a, b). *)
Definition weight_in (n : nat) (x y : nat -> nat) (w : nat -> Qc) (a b : nat) : Qc :=
  sumn n (fun i => if Nat.eqb (x i) a && Nat.eqb (y i) b then w i else 0%Qc).

(** The precision of an image: single only if all arrays are of the exact types
    and contiguous. *)
Definition image_precision (d : dtype) (weights xs ys : narr) : Prop :=
  (d = F32 /\ floats_of F32 weights /\ ints_of xs /\ ints_of ys) \/
  (d = F64 /\ ~ (floats_of F32 weights /\ ints_of xs /\ ints_of ys)).

(** The array at [l'] in [h'] is a new one of shape (nb, nb) with elements [f],
    and no array has changed. *)
Definition new_image (h h' : nheap) (l' : nat) (d : dtype) (nb : nat) (f : nat -> nat -> Qc) : Prop :=
  kept h h' /\ (List.length h <= l')%nat /\
  exists v, nth_error h' l' = Some (NArr [nb; nb] true (Floats d v)) /\ table nb nb f v.

(** An example: three particles in two profiles; their energies; weights in
    single precision; a column of each. *)
Definition i_heap : nheap :=
  [NArr [3; 2]%nat true (Int32 [0; 1; 1; 1; 0; 0]%Z); NArr [3; 2]%nat true (Int32 [1; 0; 0; 0; 1; 1]%Z);
   NArr [3]%nat true (Floats F32 [1; 1; qz 2]%Qc);
   NArr [3]%nat true (Int32 [0; 1; 0]%Z); NArr [3]%nat true (Int64 [1; 0; 1]%Z)].
