(** Specification: the synchronous particle of an RF machine, turn by turn. *)
From Coq Require Import Reals List ZArith.
From Verif Require Import Base.Res Model.MMachine.
Local Open Scope R_scope.

(** Voltage of the two RF systems at time t and phase phi; each amplitude is
    linear in time. *)
Definition rf_at (m : rmachine) (t phi : R) : R :=
  (rm_vrf1 m + rm_vrf1dot m * t) * sin phi
  + (rm_vrf2 m + rm_vrf2dot m * t) * sin (rm_h_ratio m * (phi - rm_phi12 m)).

(** Energy per turn and charge given by the changing dipole field. *)
Definition field_gain (m : rmachine) : R := 2 * PI * rm_radius m * rm_bending m * rm_bdot m.

(** Element i of an array. *)
Definition at_ (l : list R) (i : nat) : R := nth i l 0.

(** From turn i to turn i+1 the particle gains the voltage it meets at turn
    i+1 and takes one revolution at the speed of turn i. *)
Definition turn_follows (m : rmachine) (s : turns) (i : nat) : Prop :=
  at_ (tn_e0 s) (S i) - at_ (tn_e0 s) i
    = rm_q m * rf_at m (at_ (tn_time s) (S i)) (at_ (tn_phi0 s) (S i)) /\
  at_ (tn_beta0 s) i <> 0 /\
  at_ (tn_time s) (S i) - at_ (tn_time s) i = 2 * PI * rm_radius m / (at_ (tn_beta0 s) i * c_light).

(** Speed from energy: (1 - beta^2) E^2 = m^2. *)
Definition speed_of_energy (m : rmachine) (s : turns) (i : nat) : Prop :=
  0 <= at_ (tn_beta0 s) i /\
  (1 - at_ (tn_beta0 s) i ^ 2) * at_ (tn_e0 s) i ^ 2 = rm_e_rest m ^ 2 /\ at_ (tn_e0 s) i <> 0.

(** A root finder that returns roots only. *)
Definition finds_roots (newton : (R -> R) -> R -> (R -> R) -> res R) : Prop :=
  forall f x0 f' x, newton f x0 f' = Ok x -> f x = 0.

(** All arrays have n elements. *)
Definition all_length (n : nat) (v : turn_values) : Prop :=
  let s := tv_turns v in
  Forall (fun l => length l = n)
    (tn_time s :: tn_phi0 s :: tn_e0 s :: tn_beta0 s :: tn_deltaE0 s :: tv_eta0 v :: tv_drift_coef v
     :: tv_omega_rev0 v :: tv_vrf1 v :: tv_vrf2 v :: nil).

(** ** Derivatives of maps of the plane *)

(** The map f has the tangent map with the matrix (a b; c d) at p: along every
    differentiable curve through p, the image moves with the image of the
    velocity. *)
Definition has_tangent (f : R * R -> R * R) (p : R * R) (a b c d : R) : Prop :=
  forall (x e : R -> R) s vx ve, (x s, e s) = p ->
    derivable_pt_lim x s vx -> derivable_pt_lim e s ve ->
    derivable_pt_lim (fun u => fst (f (x u, e u))) s (a * vx + b * ve) /\
    derivable_pt_lim (fun u => snd (f (x u, e u))) s (c * vx + d * ve).

(** The tangent map at every point has determinant 1: areas are preserved. *)
Definition area_preserving (f : R * R -> R * R) : Prop :=
  forall p, exists a b c d, has_tangent f p a b c d /\ a * d - b * c = 1.

(** ** A machine for the examples *)

(** A proton-like particle of energy 5 and mass 3, accelerated by 1 per turn;
    the settings belong to the second of two profiles. *)
Definition ramp_machine (ref : Z) : rmachine :=
  RMachine 1 2 ref 1 (4 / c_light) 1 1 (/ (2 * PI)) 1 3 1 2 0 2 0 0 0.
(** Returns the phase pi/6 if it is a root. *)
Definition ramp_newton (f : R -> R) (x0 : R) (f' : R -> R) : res R :=
  if Req_EM_T (f (PI / 6)) 0 then Ok (PI / 6) else Fail (Raised RuntimeError).
