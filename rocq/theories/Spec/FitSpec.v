(** Specification: straight lines through the ends of a bunch, and the
    potential of the bunch. *)
From Coq Require Import Reals List ZArith QArith Qcanon.
From Verif Require Import Base.QcLib.
Import ListNotations.

Section Lines.
Local Open Scope Qc_scope.

(** Bins a, ..., a+n-1 of a profile as points; bin k is at k + 1/2. *)
Definition points (prof : list Qc) (a n : nat) : list (Qc * Qc) :=
  map (fun k => (qn k + qq 1 2, nth k prof 0)) (seq a n).

(** Sum of the squared distances to the line slope * x + offset. *)
Definition squares (slope offset : Qc) (pts : list (Qc * Qc)) : Qc :=
  qsum (map (fun p => (snd p - (slope * fst p + offset)) * (snd p - (slope * fst p + offset))) pts).

Definition best_line (slope offset : Qc) (pts : list (Qc * Qc)) : Prop :=
  forall slope' offset', squares slope offset pts <= squares slope' offset' pts.

(** The points lie on the line with this slope that is zero at z. *)
Definition straight (slope z : Qc) (pts : list (Qc * Qc)) : Prop :=
  Forall (fun p => snd p = slope * (fst p - z)) pts.
End Lines.

Local Open Scope R_scope.

(** The voltage at a phase, and the potential in which a bunch with this
    synchronous phase moves. *)
Definition volts (v1 v2 h_ratio phi12 phi : R) : R := v1 * sin phi + v2 * sin (h_ratio * (phi - phi12)).
Definition potential (v1 v2 h_ratio phi12 phi0 phi : R) : R :=
  v1 * cos phi + v2 * cos (h_ratio * (phi - phi12)) / h_ratio + phi * volts v1 v2 h_ratio phi12 phi0.
