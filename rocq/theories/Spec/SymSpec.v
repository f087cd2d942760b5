(** Two Tomography objects that differ in the order of the profiles, in the
    numbers of the bins or in the number of copies of each particle. *)
From Coq Require Import List ZArith QArith Qcanon.
From Verif Require Import Base.Res Base.QcLib Model.MRecon Spec.TomoSpec.
Import ListNotations.
Local Open Scope Qc_scope.

(** A renumbering of 0, ..., n-1. *)
Definition renumbering (n : nat) (s : nat -> nat) : Prop :=
  (forall i, (i < n)%nat -> (s i < n)%nat) /\
  (forall i j, (i < n)%nat -> (j < n)%nat -> s i = s j -> i = j).

(** The profile at place j of t' is the profile at place [p j] of t; the
    particles are the same. *)
Definition profiles_reordered (p : nat -> nat) (t t' : tomo) (xp xp' : list (list Z)) : Prop :=
  length (t_waterfall t') = length (t_waterfall t) /\
  (forall j, (j < length (t_waterfall t))%nat -> nth j (t_waterfall t') [] = nth (p j) (t_waterfall t) []) /\
  length xp' = length xp /\
  (forall i j, (i < length xp)%nat -> (j < length (t_waterfall t))%nat ->
     nth j (nth i xp' []) 0%Z = nth (p j) (nth i xp []) 0%Z).

(** Bin b of profile j of t has the number [q j b] in t'. *)
Definition bins_renumbered (q : nat -> nat -> nat) (t t' : tomo) (xp xp' : list (list Z)) : Prop :=
  t_nprofs t' = t_nprofs t /\ t_nbins t' = t_nbins t /\
  (forall j b, (j < t_nprofs t)%nat -> (b < t_nbins t)%nat ->
     cell (t_waterfall t') j (q j b) = cell (t_waterfall t) j b) /\
  length xp' = length xp /\
  (forall i j, (i < length xp)%nat -> (j < t_nprofs t)%nat ->
     nth j (nth i xp' []) 0%Z = Z.of_nat (q j (bin_of xp i j))).

(** Several copies of a list, one after the other. *)
Definition copies {A} (k : nat) (l : list A) : list A := concat (repeat l k).

(** A function that respects the order, such as the square root. *)
Definition increasing (f : Qc -> Qc) : Prop := forall x y, 0 <= x -> x < y -> f x < f y.

(** The object built from a waterfall and coordinates, for examples. *)
Definition built (nprofs nbins : nat) (wf : list (list Qc)) (x : list (list Qc)) : tomo :=
  match tomography nprofs nbins wf (CArr2 nprofs x) CNone with Ok t => t | Fail _ => Tomo [] 0 0 None None None end.
Definition builds (nprofs nbins : nat) (wf : list (list Qc)) (x : list (list Qc)) : bool :=
  match tomography nprofs nbins wf (CArr2 nprofs x) CNone with Ok _ => true | Fail _ => false end.
