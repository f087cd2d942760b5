(** Floating point numbers seen as real numbers. *)
From Coq Require Import Reals ZArith List Permutation.
From Verif Require Import Base.Res Model.MFloat Spec.TomoSpec.
Import ListNotations.
Local Open Scope R_scope.

(** A rounding function: it keeps the order, its values are not rounded again,
    and integers up to [M], also times a power of two, are exact.  Rounding to
    nearest, to single (M = 2^24) or double (M = 2^53) precision, is one (see
    the examples), with or without subnormal numbers; so is no rounding. *)
Record rounding (M : Z) (rnd : R -> R) : Prop := Rounding {
  rnd_mono : forall x y, x <= y -> rnd x <= rnd y;
  rnd_idem : forall x, rnd (rnd x) = rnd x;
  rnd_int : forall z k, (Z.abs z <= M)%Z -> rnd (IZR z * 2 ^ k) = IZR z * 2 ^ k }.
(** A number of the floating point type. *)
Definition representable (rnd : R -> R) (x : R) : Prop := rnd x = x.

(** A quotient of nonnegative numbers: nonnegative, at most 1 if the numerator
    is not larger than the denominator, not larger than the numerator if the
    denominator is at least 1.  The rounded quotient is one. *)
Record quotient (rnd : R -> R) (quot : R -> R -> R) : Prop := Quotient {
  q_number : forall x y, representable rnd (quot x y);
  q_nonneg : forall x y, 0 <= x -> 0 < y -> 0 <= quot x y;
  q_one : forall x y, representable rnd x -> representable rnd y -> 0 <= x <= y -> 0 < y -> quot x y <= 1;
  q_less : forall x y, representable rnd x -> representable rnd y -> 0 <= x -> 1 <= y -> quot x y <= x }.

(** Every order adds each of the n terms once. *)
Definition orders (order : nat -> tree) : Prop := forall n, (0 < n)%nat -> Permutation (leaves (order n)) (seq 0 n).
(** The sums over the threads: any order, another one at every call. *)
Definition thread_sums (rnd : R -> R) (huge : R) (reduce : nat -> list R -> res R) : Prop :=
  exists order : nat -> nat -> tree, (forall it, orders (order it)) /\
    forall it l, reduce it l = ordered_sum rnd huge (order it) l.

(** Profiles of numbers between 0 and 1. *)
Definition profiles_ok (rnd : R -> R) (nprofs nbins : nat) (wf : list (list R)) : Prop :=
  rectangular nprofs nbins wf /\ Forall (Forall (fun x => 0 <= x <= 1 /\ representable rnd x)) wf.

(** The sizes fit the precision: numbers of up to [e] binary digits are exact
    and 2^(5e) does not overflow. *)
Definition sizes_fit (M : Z) (huge : R) (e npart nprof nbins niter : nat) : Prop :=
  (0 < nprof)%nat /\ (0 < nbins)%nat /\
  (Z.of_nat (npart + 1) <= 2 ^ Z.of_nat e)%Z /\ (Z.of_nat (nprof * nbins) <= 2 ^ Z.of_nat e)%Z /\
  (Z.of_nat ((niter + 1) * nprof) <= 2 ^ Z.of_nat e)%Z /\
  (2 ^ Z.of_nat e <= M)%Z /\ 2 ^ (5 * e) <= huge.

(** Weights, recreated profiles and discrepancies of a reconstruction: all of
    them finite; the weights are not negative and not all zero, the others are
    between 0 and 1. *)
Record finite_result (rnd : R -> R) (e npart nprof nbins niter : nat) (w rec discr : list R) : Prop := FiniteResult {
  fr_weights : length w = npart /\ Forall (fun x => 0 <= x <= INR ((niter + 1) * nprof) * 2 ^ e /\ representable rnd x) w;
  fr_positive : Exists (fun x => 0 < x) w;
  fr_recreated : length rec = (nprof * nbins)%nat /\ Forall (fun x => 0 <= x <= 1 /\ representable rnd x) rec;
  fr_discr : length discr = (niter + 1)%nat /\ Forall (fun x => 0 <= x <= 1) discr }.

(** The charge of the bin that particle i visits at profile j. *)
Definition charge_seen (xp : list (list Z)) (wf : list (list R)) (i j : nat) : R := nth (bin_of xp i j) (nth j wf []) 0.

(** The relative error of sums of two nonnegative numbers and of quotients is at
    most u; quotients may lose [tiny] to underflow. *)
Record accurate (u tiny : R) (rnd : R -> R) (quot : R -> R -> R) : Prop := Accurate {
  acc_sum : forall x y, representable rnd x -> representable rnd y -> 0 <= x -> 0 <= y -> Rabs (rnd (x + y) - (x + y)) <= u * (x + y);
  acc_quot : forall x y, representable rnd x -> representable rnd y -> 0 <= x -> 0 < y -> Rabs (quot x y - x / y) <= u * (x / y) + tiny }.
Definition rsum (l : list R) : R := fold_right Rplus 0 l.
