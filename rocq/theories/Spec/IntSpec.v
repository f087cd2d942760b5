(** Sizes and 32-bit integers. *)
From Coq Require Import List ZArith QArith Qcanon.
From Verif Require Import Base.Res.
Local Open Scope Z_scope.

(** A number that a C++ int holds. *)
Definition int32 (z : Z) : Prop := - 2 ^ 31 <= z < 2 ^ 31.

(** The arguments of the reconstruction are ints. *)
Definition arguments_fit (npart nprof nbins : nat) (niter : Z) : Prop :=
  int32 niter /\ int32 (Z.of_nat nbins) /\ int32 (Z.of_nat npart) /\ int32 (Z.of_nat nprof).

(** The numbers of array elements are ints, too: discrepancies, pixels of the
    waterfall, coordinates. *)
Definition arrays_fit (npart nprof nbins : nat) (niter : Z) : Prop :=
  int32 (niter + 1) /\ int32 (Z.of_nat nprof * Z.of_nat nbins) /\ int32 (Z.of_nat npart * Z.of_nat nprof).

(** A result that is undefined behaviour because of an int. *)
Definition overflows {A} (r : res A) : Prop := r = Fail IntOverflow.

(** Coordinates inside an image of [nbins] bins. *)
Definition inside (nbins : nat) (l : list Z) : Prop := Forall (fun x => 0 <= x < Z.of_nat nbins) l.
