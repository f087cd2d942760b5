(** Specification: the reconstruction area. *)
From Coq Require Import Reals List ZArith.
From Verif Require Import Base.Res Model.MParticles Model.MMachine Model.MLimits.
Local Open Scope R_scope.

(** The machine at a turn. *)
Record at_turn (m : lmachine) (turn : Z) := AtTurn {
  t_phi12 : R; t_drift : R; t_vrf1 : R; t_vrf2 : R; t_phi0 : R;
  t_is_phi12 : match l_phi12 m with OnePhi12 x => x = t_phi12 | EachPhi12 l => np_get l turn = Ok t_phi12 end;
  t_is_drift : np_get (l_drift m) turn = Ok t_drift;
  t_is_vrf1 : np_get (l_vrf1 m) turn = Ok t_vrf1;
  t_is_vrf2 : np_get (l_vrf2 m) turn = Ok t_vrf2;
  t_is_phi0 : np_get (l_phi0 m) turn = Ok t_phi0 }.
Arguments t_phi12 {m turn}. Arguments t_drift {m turn}. Arguments t_vrf1 {m turn}.
Arguments t_vrf2 {m turn}. Arguments t_phi0 {m turn}.

(** What a particle conserves, at fixed settings: the energy function of the
    phase phi and the energy offset e.  A particle with offset e slips by
    -drift * e in phase each turn and gains q times the voltage at its phase
    minus that at the synchronous phase. *)
Definition conserved {m turn} (t : at_turn m turn) (phi e : R) : R :=
  t_drift t * e ^ 2 / (2 * l_q m)
  - (t_vrf1 t * cos phi + t_vrf2 t * cos (l_h_ratio m * (phi - t_phi12 t)) / l_h_ratio m
     + phi * (t_vrf1 t * sin (t_phi0 t) + t_vrf2 t * sin (l_h_ratio m * (t_phi0 t - t_phi12 t)))).

(** Phase of the edge i of the bins. *)
Definition edge_phase (m : lmachine) (xorigin omega : R) (i : nat) : R :=
  (xorigin + INR i) * l_dtbin m * l_h_num m * omega.

(** Lower and upper row of bin i. *)
Definition low (L : limits) (i : nat) : Z := nth i (lim_jmin L) 0%Z.
Definition top (L : limits) (i : nat) : Z := nth i (lim_jmax L) 0%Z.

(** The synchronous energy is the middle of the image (machine_base.py 344). *)
Definition centred (m : lmachine) : Prop := l_synch_y m = INR (l_nbins m) / 2.

(** The same machine without limits in time given by the user: the defaults of
    machine_base.py 214-222. *)
Definition unlimited (m : lmachine) : lmachine :=
  LMachine (l_nbins m) (l_synch_x m) (l_synch_y m) (l_dtbin m) (l_h_num m) (l_demax m) (l_q m) (l_h_ratio m)
    0 (INR (l_nbins m) * l_dtbin m) (l_full m) (l_beam_ref m) (l_filmstart m) (l_dturns m) (l_phi12 m)
    (l_phi0 m) (l_omega m) (l_vrf1 m) (l_vrf2 m) (l_drift m) (l_beta0 m) (l_e0 m) (l_eta0 m).

(** ** A machine for the examples *)

(** A stationary bucket over three bins. *)
Definition bucket (full : bool) (max_dt : R) : lmachine :=
  LMachine 3 (3 / 2) (3 / 2) 1 1 (3 / 2) 1 1 0 max_dt full 0 0 1 (OnePhi12 0)
    (0 :: nil) (2 * PI / 3 :: nil) (3 / 2 :: nil) (0 :: nil) (2 :: nil) (1 :: nil) (1 :: nil) (1 :: nil).
