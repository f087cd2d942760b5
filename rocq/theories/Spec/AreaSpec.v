(** Definitions used to state the properties of the matched area, the density
    inside contours and the clipping of weights. *)
From Coq Require Import Reals List ZArith Bool.
From Verif Require Import Base.Res Model.MParticles Model.MArea Model.MPost.
Import ListNotations.
Local Open Scope R_scope.

Definition increasing (l : list R) : Prop := forall i j, (i < j)%nat -> (j < length l)%nat -> nth i l 0 < nth j l 0.

(** What numpy documents of interp(x, xp, fp) for increasing xp: the piecewise
    linear function through the points, constant outside. *)
Record interpolates (interp : R -> list R -> list R -> R) : Prop := {
  int_left : forall x xp fp, increasing xp -> (0 < length xp)%nat -> length xp = length fp -> x <= nth 0 xp 0 ->
    interp x xp fp = nth 0 fp 0;
  int_right : forall x xp fp, increasing xp -> (0 < length xp)%nat -> length xp = length fp -> nth (length xp - 1) xp 0 <= x ->
    interp x xp fp = nth (length xp - 1) fp 0;
  int_cell : forall x xp fp i, increasing xp -> length xp = length fp -> (S i < length xp)%nat ->
    nth i xp 0 <= x <= nth (S i) xp 0 ->
    interp x xp fp = nth i fp 0 + (x - nth i xp 0) * (nth (S i) fp 0 - nth i fp 0) / (nth (S i) xp 0 - nth i xp 0) }.

(** An ideal minimiser: no other argument gives a smaller value of a function
    that is never negative. *)
Definition finds_minimum (minimize : (R -> res R) -> R -> res R) : Prop :=
  forall f x0 x a, (forall y b, f y = Ok b -> 0 <= b) -> minimize f x0 = Ok x -> f x = Ok a -> forall y b, f y = Ok b -> a <= b.

(** A function with this behaviour, as numpy computes it. *)
Fixpoint piecewise_in (x : R) (xp fp : list R) : R :=
  match xp, fp with
  | a :: ((b :: _) as xp'), u :: ((v :: _) as fp') =>
      if Rle_dec x a then u else if Rle_dec x b then u + (x - a) * (v - u) / (b - a) else piecewise_in x xp' fp'
  | _, u :: _ => u
  | _, [] => 0
  end.
Definition piecewise (x : R) (xp fp : list R) : R :=
  if Rlt_dec (nth (length xp - 1) xp 0) x then nth (length xp - 1) fp 0 else piecewise_in x xp fp.

(** A machine above transition without acceleration in the given turn. *)
Record stationary_above (m : amachine) (turn : Z) (energy eta0 omega : R) : Prop := {
  st_phi : np_get (am_phi0 m) turn = Ok PI;
  st_energy : np_get (am_e0 m) turn = Ok energy;
  st_eta : np_get (am_eta0 m) turn = Ok eta0;
  st_omega : np_get (am_omega m) turn = Ok omega;
  st_above : eta0 < 0;
  st_moving : 0 < am_e_rest m < energy;
  st_pos : 0 < am_q m /\ 0 < am_h m /\ 0 < am_vrf1 m /\ 0 < omega }.

(** beta^2 E. *)
Definition beta2E (m : amachine) (energy : R) : R := (energy * energy - am_e_rest m * am_e_rest m) / energy.

(** The trajectory through (phi_left, 0) in a stationary bucket above
    transition: a level of the Hamiltonian. *)
Definition hamiltonian (m : amachine) (energy eta0 phi dE : R) : R :=
  PI * am_h m * eta0 / (am_q m * beta2E m energy) * dE ^ 2 - am_vrf1 m * cos phi.
Definition trajectory (m : amachine) (energy eta0 phi_left phi : R) : R :=
  sqrt (am_q m * beta2E m energy / (PI * am_h m * - eta0) * am_vrf1 m * (cos phi_left - cos phi)).

(** A particle of the slot between the k-th and the next time that is not
    between the contour and its mirror image; x and y in bins. *)
Definition bins_of (axis : list R) (v : R) : R := (v - nth 0 axis 0) / (nth 1 axis 0 - nth 0 axis 0).
Definition in_slot (time_array : list R) (k : nat) (x : R) : Prop :=
  bins_of time_array (nth k time_array 0) <= x <= bins_of time_array (nth (S k) time_array 0).
Definition beyond (dE heights : list R) (k : nat) (y : R) : Prop :=
  bins_of dE (nth k heights 0) <= y \/ y <= bins_of dE (- nth k heights 0).
Definition clipped (time_array dE heights : list R) (x y : R) : Prop :=
  exists k, (S k < length time_array)%nat /\ in_slot time_array k x /\ beyond dE heights k y.

(** What numpy does outside the range of xp, also if xp is not increasing. *)
Definition clamps (interp : R -> list R -> list R -> R) : Prop :=
  forall x xp fp, (0 < length xp)%nat -> length xp = length fp -> nth (length xp - 1) xp 0 < x ->
    interp x xp fp = nth (length xp - 1) fp 0.

(** A machine below transition without acceleration in the given turn. *)
Record stationary_below (m : amachine) (turn : Z) (energy eta0 omega : R) : Prop := {
  sb_phi : np_get (am_phi0 m) turn = Ok 0;
  sb_energy : np_get (am_e0 m) turn = Ok energy;
  sb_eta : np_get (am_eta0 m) turn = Ok eta0;
  sb_omega : np_get (am_omega m) turn = Ok omega;
  sb_below : 0 < eta0;
  sb_moving : 0 < am_e_rest m < energy;
  sb_pos : 0 < am_q m /\ 0 < am_h m /\ 0 < am_vrf1 m /\ 0 < omega }.

(** An axis with equal steps. *)
Definition equidistant (axis : list R) (step : R) : Prop :=
  0 < step /\ forall i, (S i < length axis)%nat -> nth (S i) axis 0 - nth i axis 0 = step.

(** An image without negative densities. *)
Definition densities (img : list (list R)) : Prop := Forall (Forall (fun x => 0 <= x)) img.

(** A nonnegative height between two energies of the axis: below the last one
    above the height and above the first one below its negative. *)
Definition crosses_axis (dE : list R) (h : R) : Prop :=
  (exists i, (i < length dE)%nat /\ - h < nth i dE 0 < h) /\ nth 0 dE 0 <= - h.

(** A particle of the slot that is strictly between the contour and its mirror
    image. *)
Definition within (dE heights : list R) (k : nat) (y : R) : Prop :=
  bins_of dE (- nth k heights 0) < y < bins_of dE (nth k heights 0).

(** The phase of a time, if the synchronous particle is in the given bin of the
    time axis and has phase pi. *)
Definition phase_of (m : amachine) (time_array : list R) (omega t : R) : R :=
  PI + am_h m * omega * (t - am_synch_x m * (nth 1 time_array 0 - nth 0 time_array 0)).

(** The integral of f from a to b exists and is s. *)
Definition integral_is (f : R -> R) (a b s : R) : Prop := exists pr : Riemann_integrable f a b, RiemannInt pr = s.

(** The height of the trajectory through (phi_left, 0) at the k-th time. *)
Definition height_at (m : amachine) (time_array : list R) (energy eta0 omega phi_left : R) (k : nat) : R :=
  trajectory m energy eta0 phi_left (phase_of m time_array omega (nth k time_array 0)).
