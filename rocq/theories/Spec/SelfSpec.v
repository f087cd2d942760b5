(** Specification of tracking with self-fields: one turn, and the path of a
    particle. *)
From Coq Require Import Reals List ZArith.
Import ListNotations.
From Verif Require Import Base.Res Base.RLib Model.MTrack Model.MParticles Model.MMachine Model.MSelf Spec.TrackSpec Spec.MachineSpec.
Local Open Scope R_scope.

(** The window of the self-field table: its length in phase, the number of its
    cells, the length in phase of a bin at each turn, and the position of the
    image in bins. *)
Record window := Window { w_length : R; w_cells : nat; w_bin : nat -> R; w_origin : R }.

(** Position (in bins) of the phase x at turn t: the phase is reduced to the
    window. *)
Definition position (w : window) (t : nat) (x : R) : R :=
  let z := x - w_origin w * w_bin w t in
  (z - w_length w * IZR (rfloor (z / w_length w))) / w_bin w t.

(** All positions of turns 0..n fall into cells 0..w_cells. *)
Definition fits (w : window) (n : nat) : Prop :=
  0 < w_length w /\ forall t, (t <= n)%nat -> 0 < w_bin w t /\ w_length w <= w_bin w t * (INR (w_cells w) + 1).

(** Element c of a row; -1 is the last one. *)
Definition cell (row : list R) (c : Z) : R := if (c <? 0)%Z then last row 0 else nth (Z.to_nat c) row 0.

(** Self-field tracking of turn t between the profiles p and p+1. *)
Section Turns.
Variables (F : params R) (w : window) (table : list (list R)) (q : R) (d : nat).
Definition field (t : nat) (c : Z) : R := cell (nth (t / d) table nil) c.

(** Forward: drift, kick, and the voltage of the cell before the particle. *)
Definition self_forward (t : nat) (s : R * R) : R * R :=
  let s' := forward Rplus Rminus Rmult sin F t s in
  (fst s', snd s' + q * field t (rfloor (position w (S t) (fst s' + ph0 F (S t))) - 1)).
(** Backward: the kick is undone, the voltage of the cell of the particle is
    ADDED, the drift is undone. *)
Definition self_backward (t : nat) (s : R * R) : R * R :=
  let e := snd s - gain Rplus Rminus Rmult sin F (S t) (fst s)
           + q * field t (rfloor (position w (S t) (fst s + ph0 F (S t)))) in
  (fst s + coef F t * e, e).

Fixpoint self_ups (n t : nat) (s : R * R) : R * R :=
  match n with O => s | S n' => self_ups n' (S t) (self_forward t s) end.
Fixpoint self_downs (n t : nat) (s : R * R) : R * R :=
  match n with O => s | S n' => self_backward t (self_downs n' (S t) s) end.
(** State at turn b of a particle in state s at turn a. *)
Definition self_travel (a b : nat) (s : R * R) : R * R :=
  if (a <=? b)%nat then self_ups (b - a) a s else self_downs (a - b) b s.
End Turns.

(** The window that belongs to the arrays of the routine. *)
Definition window_of (f : sfield) (cells : nat) : window :=
  Window (sf_phiwrap f) cells (fun t => sf_h f * at_ (sf_omega f) t * sf_dtbin f) (sf_xorigin f).

(** The table has a row for each pair of profiles and cells + 1 columns. *)
Definition table_shape (f : sfield) (np cells : nat) : Prop :=
  length (sf_vself f) = (np - 1)%nat /\ Forall (fun r => length r = S cells) (sf_vself f).

(** The arrays hold the parameters F of all turns; phi12 is one number; the bin
    height is not zero. *)
Definition self_setting (m : machine R) (p12 : R) (f : sfield) (F : params R) (d np cells : nat) : Prop :=
  (0 < d)%nat /\ (0 < np)%nat /\ holds m F (d * (np - 1)) /\
  (forall t, (t <= d * (np - 1))%nat -> ph12 F t = p12) /\
  (d * (np - 1) < length (sf_omega f))%nat /\ sf_dEbin f <> 0 /\ table_shape f np cells.

(** Row q of the tables has the coordinates, in bins, at turn q*d of the
    particles that are in the states l at turn a. *)
Definition self_rows_are (F : params R) (f : sfield) (cells d np a : nat) (l : list (R * R)) (xs ys : list (list R)) : Prop :=
  let w := window_of f cells in
  length xs = np /\ length ys = np /\
  forall q, (q < np)%nat ->
    let l' := map (self_travel F w (sf_vself f) (sf_q f) d a (q * d)) l in
    nth_error xs q = Some (map (fun s => position w (q * d) (fst s + ph0 F (q * d))) l') /\
    nth_error ys q = Some (map (fun s => snd s / sf_dEbin f + sf_synch_y f) l').

(** The turn whose revolution frequency is used to make the window. *)
Definition window_turn (bdot : R) (np d : nat) : nat := if Rlt_dec 0 bdot then (np - 1) * d - 1 else 0.

(** Impedance of free space, 4 pi 10^-7 c. *)
Definition free_space : R := 4 * PI / 10 ^ 7 * c_light.

(** Example: no voltages, no drift (coefficient k), n+1 turns, revolution
    frequencies om, self-field table tab. *)
Definition still_machine (k : R) (n : nat) : machine R :=
  Machine (repeat 0 (S n)) (repeat 0 (S n)) (repeat 0 (S n)) (repeat 0 (S n)) (repeat k (S n)) (repeat 0 (S n)) 1.
Definition still_params (k : R) : params R := Params (fun _ => 0) (fun _ => 0) (fun _ => 0) (fun _ => 0) (fun _ => 0) (fun _ => k) 1.
Definition still_field (dt : R) (om : list R) (tab : list (list R)) : sfield :=
  SField (2 * PI) tab 0 1 0 1 om dt 1.
