(** What the sine of the compiled tracking should be. *)
From Coq Require Import Reals Arith.
From Verif Require Import Spec.TrackSpec.
Local Open Scope R_scope.

(** A rounding function of the given number of binary digits: the relative
    error is at most 2^-digits, below the normal range the absolute error is at
    most tiny.  IEEE rounding to nearest is one (see the examples), if nothing
    overflows; so is no rounding at all. *)
Definition rounds (digits : nat) (tiny : R) (rnd : R -> R) : Prop :=
  forall t, Rabs (rnd t - t) <= Rabs t / 2 ^ digits + tiny.
Definition rounds64 : (R -> R) -> Prop := rounds 53 (/ 2 ^ 1075).
Definition rounds32 : (R -> R) -> Prop := rounds 24 (/ 2 ^ 150).

(** Tracking in floating point: every sum, difference and product is rounded. *)
Definition fl (rnd : R -> R) (op : R -> R -> R) (a b : R) : R := rnd (op a b).

(** Bounds of the machine parameters (voltages of the two cavities, phases,
    energy step, drift coefficient, ratio of the harmonics) and of the phase
    and energy offsets of a particle. *)
Record bounds := Bounds { b_v1 : R; b_v2 : R; b_ph : R; b_dE : R; b_coef : R; b_hr : R; b_x : R; b_e : R }.
Definition bounded (B : bounds) (F : params R) (nturns : nat) : Prop :=
  Rabs (hr F) <= b_hr B /\
  forall t, (t <= nturns)%nat -> Rabs (v1 F t) <= b_v1 B /\ Rabs (v2 F t) <= b_v2 B /\ Rabs (ph0 F t) <= b_ph B /\
    Rabs (ph12 F t) <= b_ph B /\ Rabs (dE F t) <= b_dE B /\ Rabs (coef F t) <= b_coef B.
(** All phases given to the sine can be converted to an int. *)
Definition sine_range (B : bounds) : Prop :=
  b_x B + b_ph B <= 1.6E9 /\ b_hr B * (1 + b_x B + 2 * b_ph B) <= 1.6E9.

(** Rounding errors of the new phase and of the new energy in one turn. *)
Definition x_error (B : bounds) : R := 1.2E-16 * (b_x B + 3 * b_coef B * b_e B) + 3E-30.
Definition e_error (B : bounds) : R :=
  6.5E-16 * (b_v1 B * (3 + b_x B + b_ph B) + b_v2 B * (3 + b_hr B * (1 + b_x B + 2 * b_ph B)) + b_dE B + b_e B) + 1E-29.

(** [lam] converts phase into energy; in one turn the distance [lam] * phase
    difference + energy difference of two particles grows at most by the factor
    [G]. *)
Definition growth (B : bounds) (lam G : R) : Prop :=
  let L := b_v1 B + b_hr B * b_v2 B in
  0 < lam /\ lam * (1 + b_coef B * L) + L <= lam * G /\ 1 + b_coef B * L + lam * b_coef B <= G.
Definition turn_error (B : bounds) (lam : R) : R :=
  (lam + (b_v1 B + b_hr B * b_v2 B)) * x_error B + (1 + lam * b_coef B) * e_error B.
(** The errors of n turns, each magnified by the turns after it. *)
Fixpoint errors (G r : R) (n : nat) : R := match n with O => 0 | S n => G * errors G r n + r end.
Definition turns_between (a b : nat) : nat := if (a <=? b)%nat then b - a else a - b.
