(** Exact rationals: boolean comparisons, checked division, arrays given by a
    function, finite sums.  Definitions only; lemmas in QcLemmas.v. *)
From Coq Require Import List ZArith QArith Qround Qcanon.
From Verif Require Import Base.Res.
Import ListNotations.
Local Open Scope Qc_scope.

Definition qltb (a b : Qc) : bool := match a ?= b with Lt => true | _ => false end.
Definition qleb (a b : Qc) : bool := match a ?= b with Gt => false | _ => true end.
Definition qeqb (a b : Qc) : bool := match a ?= b with Eq => true | _ => false end.

(** Numbers. *)
Definition qz (z : Z) : Qc := Q2Qc (inject_Z z).
Definition qn (n : nat) : Qc := qz (Z.of_nat n).
Definition qq (a : Z) (b : positive) : Qc := Q2Qc (a # b).

(** Division that notices a zero divisor. *)
Definition qdiv (a b : Qc) : res Qc := if qeqb b 0 then Fail NotFinite else Ok (a / b).

(** The integer part, towards minus infinity; and C/Python [int()]. *)
Definition qfloor (a : Qc) : Z := Qfloor (this a).
Definition qceil (a : Qc) : Z := Qceiling (this a).
Definition qtrunc (a : Qc) : Z := if qltb a 0 then qceil a else qfloor a.

(** The array [f 0; ...; f (n-1)]. *)
Definition tab {A} (n : nat) (f : nat -> A) : list A := map f (seq 0 n).

(** f 0 + ... + f (n-1), in the order of a C loop. *)
Fixpoint sumn (n : nat) (f : nat -> Qc) : Qc :=
  match n with O => 0 | S m => sumn m f + f m end.

(** Sum of a list. *)
Fixpoint qsum (l : list Qc) : Qc := match l with [] => 0 | x :: r => x + qsum r end.

Definition ind (b : bool) : Qc := if b then 1 else 0.
