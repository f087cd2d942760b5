(** Theorems on the matched area of a bunch (C85).
    Statements only: each theorem is closed by the lemma of the same name in
    Proof/CArea.v.  Written by tools/mkprops.py. *)
From Coq Require Import Reals List ZArith Bool.
From Verif Require Import Base.Res Base.QcLib Base.RLib Model.MParticles Model.MPreproc Model.MPost Model.MArea Spec.AreaSpec.
Import ListNotations.
Local Open Scope R_scope.
From Verif Require Import Proof.CArea.

(** C85.  There is a function with the behaviour assumed of numpy.interp. *)
Theorem C85_interp : interpolates piecewise /\ clamps piecewise.
Proof. exact C85_interp_lem. Qed.
Print Assumptions C85_interp.

(** C85.  Above transition without acceleration, the matched area of a bunch is
    the area inside the trajectory of the same length, up to 2/999 and never
    too large.  The contour reaches at least one step of the grid of phases to
    either side; with an ideal minimiser it is as long as the bunch if the
    bunch is longer than that and fits in the bucket. *)
Theorem C85_area : forall interp minimize m idx_frame bunch_length energy eta0 omega area,
  interpolates interp -> stationary_above m (frame_of m idx_frame * am_dturns m) energy eta0 omega ->
  matched_area_calc interp minimize m bunch_length idx_frame = Ok area ->
  exists phi_left, 0 <= phi_left <= PI - PI / 999 /\
    (finds_minimum minimize -> 2 * PI / 999 <= bunch_length * omega * am_h m <= 2 * PI ->
     2 * PI - 2 * phi_left = bunch_length * omega * am_h m) /\
    forall pr : Riemann_integrable (trajectory m energy eta0 phi_left) phi_left (2 * PI - phi_left),
      let enclosed := 2 / (am_h m * omega) * RiemannInt pr in
      (1 - 2 / 999) * enclosed <= area <= enclosed.
Proof. exact C85_area_lem. Qed.
Print Assumptions C85_area.

(** C85.  The trajectory is a level of the Hamiltonian, has an area, and the
    computation succeeds whenever the minimiser does. *)
Theorem C85_trajectory : forall interp minimize m idx_frame bunch_length energy eta0 omega phi_left,
  interpolates interp -> stationary_above m (frame_of m idx_frame * am_dturns m) energy eta0 omega -> 0 <= phi_left < PI ->
  (forall phi, phi_left <= phi <= 2 * PI - phi_left ->
     hamiltonian m energy eta0 phi (trajectory m energy eta0 phi_left phi) = hamiltonian m energy eta0 phi_left 0) /\
  inhabited (Riemann_integrable (trajectory m energy eta0 phi_left) phi_left (2 * PI - phi_left)) /\
  ((forall f x0, exists x, minimize f x0 = Ok x) -> exists area, matched_area_calc interp minimize m bunch_length idx_frame = Ok area).
Proof. exact C85_trajectory_lem. Qed.
Print Assumptions C85_trajectory.

(** C85.  Below transition the matched area of every bunch is less than a
    fixed small number: the interpolation on the left looks for the level in a
    decreasing array. *)
Theorem C85_below_refuted : forall interp minimize m idx_frame bunch_length energy eta0 omega area,
  interpolates interp -> clamps interp -> stationary_below m (frame_of m idx_frame * am_dturns m) energy eta0 omega ->
  (forall f x0 x, minimize f x0 = Ok x -> am_vrf1 m * (1 - cos (PI / 999)) < x) ->
  matched_area_calc interp minimize m bunch_length idx_frame = Ok area ->
  area <= 2 / (am_h m * omega) * (PI + PI / 999) *
    sqrt (am_q m * beta2E m energy / (PI * am_h m * eta0) * am_vrf1 m * (1 - cos (PI / 999))).
Proof. exact C85_below_refuted_lem. Qed.
Print Assumptions C85_below_refuted.

(** A machine above transition, with a bunch for which a minimiser succeeds. *)
Example C85_nonvacuous : stationary_above mach (frame_of mach None * am_dturns mach) 2 (-1) PI /\ finds_minimum guess /\
  exists bunch_length area, 2 * PI / 999 <= bunch_length * PI * am_h mach <= 2 * PI /\
    matched_area_calc piecewise guess mach bunch_length None = Ok area.
Proof. split; [exact mach_above|split; [exact guess_finds|exact (area_instance piecewise (proj1 C85_interp_lem))]]. Qed.
(** And one below transition. *)
Example C85_below_nonvacuous : stationary_below mach_low (frame_of mach_low None * am_dturns mach_low) 2 1 PI /\
  exists minimize, (forall f x0 x, minimize f x0 = Ok x -> am_vrf1 mach_low * (1 - cos (PI / 999)) < x) /\
    forall bunch_length, exists area, matched_area_calc piecewise minimize mach_low bunch_length None = Ok area.
Proof. split; [exact mach_low_below|exact (below_instance piecewise (proj1 C85_interp_lem) (proj2 C85_interp_lem))]. Qed.
