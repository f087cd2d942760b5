(** Theorems on the density scan below transition and with acceleration (C86).
    Statements only: each theorem is closed by the lemma of the same name in
    Proof/CArea4.v.  Written by tools/mkprops.py. *)
From Coq Require Import Reals List ZArith Bool Lia Lra.
From Verif Require Import Base.Res Base.QcLib Base.RLib Model.MParticles Model.MPost Model.MArea Spec.AreaSpec Spec.ScanSpec.
Import ListNotations.
Local Open Scope R_scope.
From Verif Require Import Proof.CArea4.

(** C86.  Refuted below transition without acceleration: whatever the
    amplitude, the contour is the edge of the bucket. *)
Theorem C86_below_contour_refuted : forall interp m turn energy eta0 omega matched n amps a,
  clamps_left interp -> stationary_below m turn energy eta0 omega ->
  amplitudes m 0 n = Ok amps -> In a amps ->
  contour interp m 0 energy eta0 matched a = Ok (map (bucket_edge m energy eta0) matched).
Proof. exact C86_below_contour_refuted_lem. Qed.
Print Assumptions C86_below_contour_refuted.

(** C86.  So the scan returns the same emittance and the same densities for all
    amplitudes, also for the centre. *)
Theorem C86_below_refuted : forall interp m img time_array dE n_points idx_frame energy eta0 omega l,
  clamps_left interp -> stationary_below m (frame_of m idx_frame * am_dturns m) energy eta0 omega ->
  density_vs_emittance interp m img time_array dE n_points idx_frame = Ok l ->
  exists c, l = repeat c n_points.
Proof. exact C86_below_refuted_lem. Qed.
Print Assumptions C86_below_refuted.

(** C86.  And the contour used for clipping weights is the edge of the bucket,
    whatever emittance is wanted. *)
Theorem C86_below_clip_refuted : forall interp m time_array dE map_x map_y weights target n_points idx_frame energy eta0 omega w heights marks,
  clamps_left interp -> stationary_below m (frame_of m idx_frame * am_dturns m) energy eta0 omega ->
  tomo_weight_clipping interp m time_array dE map_x map_y weights target n_points idx_frame = Ok (w, heights, marks) ->
  heights = map (fun t => bucket_edge m energy eta0 (am_h m * omega * (t - am_synch_x m * (nth 1 time_array 0 - nth 0 time_array 0)))) time_array.
Proof. exact C86_below_clip_refuted_lem. Qed.
Print Assumptions C86_below_clip_refuted.

(** C86.  Refuted with acceleration above transition.  The lowest level in the
    bucket is that of the unstable phase pi - phi_0; the last amplitude of the
    scan is lower by 2 phi_0 V sin(phi_0), so that no phase on the left of
    phi_0 has it. *)
Theorem C86_accelerated_refuted : forall m phi_0 n amps, PI / 2 < phi_0 < PI -> 0 < am_vrf1 m -> (2 <= n)%nat ->
  amplitudes m phi_0 n = Ok amps ->
  let level := urf_at (am_vrf1 m) phi_0 in
  nth (n - 1) amps 0 <= level (PI - phi_0) - 2 * phi_0 * am_vrf1 m * sin phi_0 /\
  forall phi, phi_0 - PI <= phi <= phi_0 -> level (PI - phi_0) <= level phi /\ nth (n - 1) amps 0 < level phi.
Proof. exact C86_accelerated_refuted_lem. Qed.
Print Assumptions C86_accelerated_refuted.

(** A machine below transition: both amplitudes have the same emittance, which
    is not 0; and one with a phase of 3/4 pi above transition. *)
Example C86_below_ex : clamps_left piecewise /\ stationary_below mach_low (frame_of mach_low None * am_dturns mach_low) 2 1 PI /\
  exists amps c, amplitudes mach_low 0 2 = Ok amps /\ length amps = 2%nat /\
  density_vs_emittance piecewise mach_low [[1; 1; 1]; [0; 0; 0]] [0; 1] [- top_height; 0; top_height] 2 None = Ok [c; c] /\ 0 < cd_emittance c /\
  PI / 2 < 3 * PI / 4 < PI /\ 0 < am_vrf1 mach /\ exists amps, amplitudes mach (3 * PI / 4) 2 = Ok amps.
Proof. exact (conj piecewise_left (conj mach_low_below low_instance)). Qed.
