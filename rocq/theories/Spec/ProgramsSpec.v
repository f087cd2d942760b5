(** Specification: a particle that follows a momentum program, turn by turn. *)
From Coq Require Import Reals List ZArith.
From Verif Require Import Base.Res Model.MMachine Model.MPrograms Spec.MachineSpec.
Import ListNotations.
Local Open Scope R_scope.

(** Speed in units of c and time of one revolution, for the momentum p. *)
Definition speed (e_rest p : R) : R := p / sqrt (p ^ 2 + e_rest ^ 2).
Definition revolution (m : programmed) (p : R) : R :=
  2 * PI * pg_radius m / (speed (pg_e_rest m) p * c_light).

(** The program consists of straight lines between its points; y is its value
    at time t, between two of the points. *)
Definition on_line (time val : list R) (t y : R) : Prop :=
  exists k, (S k < length time)%nat /\ at_ time k <= t <= at_ time (S k) /\
    (y - at_ val k) * (at_ time (S k) - at_ time k) = (at_ val (S k) - at_ val k) * (t - at_ time k).
(** Before its first and after its last point the program is constant. *)
Definition program_value (time val : list R) (t y : R) : Prop :=
  (t < at_ time 0 /\ y = at_ val 0) \/ on_line time val t y \/
  (at_ time (length time - 1) <= t /\ y = at_ val (length time - 1)).

Definition increasing (l : list R) : Prop := forall i, (S i < length l)%nat -> at_ l i < at_ l (S i).

(** A momentum program: increasing times, positive momenta. *)
Record good_program (m : programmed) (time mom : list R) : Prop := {
  gp_len : length mom = length time;
  gp_some : (0 < length time)%nat;
  gp_inc : increasing time;
  gp_pos : forall i, (i < length time)%nat -> 0 < at_ mom i;
  gp_radius : 0 < pg_radius m }.

(** From turn i to turn i+1 one revolution at the momentum of turn i passes,
    and the momentum at turn i+1 is that of the program. *)
Definition follows (m : programmed) (time mom ts ps : list R) (i : nat) : Prop :=
  at_ ts (S i) = at_ ts i + revolution m (at_ ps i) /\ on_line time mom (at_ ts (S i)) (at_ ps (S i)).

(** Turn i is the first that is not before t. *)
Definition first_at (ts : list R) (t : R) (i : nat) : Prop :=
  (i < length ts)%nat /\ t <= at_ ts i /\ forall j, (j < i)%nat -> at_ ts j < t.

(** What is stored for each turn (the energy differences are one fewer). *)
Definition stored_per_turn (n : nat) (v : pvalues) : Prop :=
  Forall (fun l => length l = n)
    [pv_vrf1 v; pv_vrf2 v; pv_momentum v; pv_bdot v; pv_beta0 v; pv_drift_coef v; pv_e0 v; pv_eta0 v; pv_omega_rev0 v;
     pv_phi0 v; pv_time v].

(** ** A machine for the examples *)

(** Rest energy 12; momentum 9 (speed 3/5, one revolution per unit of time) up
    to time 2, then up to 16 (speed 4/5) at time 3, constant until 4. *)
Definition ramp_time : list R := [0; 2; 3; 4].
Definition ramp_mom : list R := [9; 9; 16; 16].
Definition ramp (dturns nprofiles ref : Z) (t_ref : R) (time mom : list R) (harmonics : list R)
    (phase : option (list (list R))) (phi12 : option phi12_arg) : programmed :=
  Programmed dturns nprofiles ref 1 1 (3 / 5 * c_light / (2 * PI)) 2 12 1 t_ref
    [[0; 10]; [1; 1]; [0; 0]] [time; mom] harmonics phase phi12.
(** Three turns after time 3/2. *)
Definition ramp3 (harmonics : list R) : programmed := ramp 1 3 0 (3 / 2) ramp_time ramp_mom harmonics None None.
(** The same with a phase program and voltage in both systems. *)
Definition ramp3_phase : programmed :=
  Programmed 1 3 0 1 1 (3 / 5 * c_light / (2 * PI)) 2 12 1 (3 / 2)
    [[0; 10]; [1; 1]; [0; 0]] [[0; 4]; [9; 9]] [1; 2] (Some [[0; 10]; [PI; PI]; [0; 0]]) None.
(** Returns pi if that is a root. *)
Definition pi_newton (f : R -> R) (x0 : R) (f' : R -> R) : res R :=
  if Req_EM_T (f PI) 0 then Ok PI else Fail (Raised RuntimeError).
