(** Theorems on contours, the density inside them and clipped weights (C86-C88).
    Statements only: each theorem is closed by the lemma of the same name in
    Proof/CArea2.v.  Written by tools/mkprops.py. *)
From Coq Require Import Reals List ZArith Bool.
From Verif Require Import Base.Res Base.QcLib Base.RLib Model.MParticles Model.MPreproc Model.MPost Model.MArea Spec.AreaSpec.
Import ListNotations.
Local Open Scope R_scope.
From Verif Require Import Proof.CArea2.

(** C86.  Above transition without acceleration the contour of an amplitude is
    a trajectory of the Hamiltonian over the time axis, and the contour of a
    lower amplitude lies outside of that of a higher one. *)
Theorem C86_nested : forall interp m turn energy eta0 omega matched a1 a2,
  interpolates interp -> stationary_above m turn energy eta0 omega -> a2 <= a1 ->
  exists phi_left1 phi_left2, 0 <= phi_left2 <= phi_left1 /\ phi_left1 < PI /\
    let hs1 := map (trajectory m energy eta0 phi_left1) matched in
    let hs2 := map (trajectory m energy eta0 phi_left2) matched in
    contour interp m PI energy eta0 matched a1 = Ok hs1 /\ contour interp m PI energy eta0 matched a2 = Ok hs2 /\
    forall i, 0 <= nth i hs1 0 <= nth i hs2 0.
Proof. exact C86_nested_lem. Qed.
Print Assumptions C86_nested.

(** C86.  Above transition without acceleration the emittances returned for
    the amplitudes grow from the centre to the edge of the bucket. *)
Theorem C86_emittance : forall interp m img time_array dE n_points idx_frame energy eta0 omega l,
  interpolates interp -> stationary_above m (frame_of m idx_frame * am_dturns m) energy eta0 omega ->
  nth 0 time_array 0 <= nth 1 time_array 0 ->
  density_vs_emittance interp m img time_array dE n_points idx_frame = Ok l ->
  length l = n_points /\
  forall i j d, (i <= j)%nat -> (j < n_points)%nat -> 0 <= cd_emittance (nth i l d) <= cd_emittance (nth j l d).
Proof. exact C86_emittance_lem. Qed.
Print Assumptions C86_emittance.

(** C87.  The local density on a contour lies between the smallest and the
    largest density found on it. *)
Theorem C87_spread : forall interp m img time_array dE n_points idx_frame l,
  density_vs_emittance interp m img time_array dE n_points idx_frame = Ok l ->
  Forall (fun c => cd_min c <= cd_local c <= cd_max c) l.
Proof. exact C87_spread_lem. Qed.
Print Assumptions C87_spread.

(** C87.  The density inside a contour is a fraction of the whole, if the
    energy axis has equal steps and reaches as far up as down. *)
Theorem C87_fraction : forall interp m img time_array dE step n_points idx_frame l,
  interpolates interp -> equidistant dE step -> - nth 0 dE 0 <= nth (length dE - 1) dE 0 ->
  densities img -> 0 < rsum (map rsum img) ->
  density_vs_emittance interp m img time_array dE n_points idx_frame = Ok l ->
  Forall (fun c => 0 <= cd_sum c <= 1) l.
Proof. exact C87_fraction_lem. Qed.
Print Assumptions C87_fraction.

(** C87.  And it grows from contour to contour, above transition without
    acceleration. *)
Theorem C87_growing : forall interp m img time_array dE step n_points idx_frame energy eta0 omega l,
  interpolates interp -> stationary_above m (frame_of m idx_frame * am_dturns m) energy eta0 omega ->
  equidistant dE step -> - nth 0 dE 0 <= nth (length dE - 1) dE 0 ->
  densities img -> 0 < rsum (map rsum img) ->
  density_vs_emittance interp m img time_array dE n_points idx_frame = Ok l ->
  forall i j d, (i <= j)%nat -> (j < n_points)%nat -> cd_sum (nth i l d) <= cd_sum (nth j l d).
Proof. exact C87_growing_lem. Qed.
Print Assumptions C87_growing.

(** C87.  Every contour must cross the energy axis: where it is not zero, an
    energy lies strictly inside and the axis reaches below it.  Otherwise
    there is no result. *)
Theorem C87_refused : forall interp m img time_array dE step n_points idx_frame phi_0 energy eta0 omega matched amps a hs i l,
  let turn := (frame_of m idx_frame * am_dturns m)%Z in
  interpolates interp -> equidistant dE step ->
  density_vs_emittance interp m img time_array dE n_points idx_frame = Ok l ->
  np_get (am_phi0 m) turn = Ok phi_0 -> np_get (am_e0 m) turn = Ok energy -> np_get (am_eta0 m) turn = Ok eta0 ->
  np_get (am_omega m) turn = Ok omega -> time_phases m time_array omega phi_0 = Ok matched ->
  amplitudes m phi_0 n_points = Ok amps -> In a amps -> contour interp m phi_0 energy eta0 matched a = Ok hs ->
  (i < length time_array)%nat -> nth i hs 0 <> 0 -> crosses_axis dE (nth i hs 0).
Proof. exact C87_refused_lem. Qed.
Print Assumptions C87_refused.

(** C88.  Clipping keeps the sum of the weights: the particles outside of the
    contour in one of the slots of time they belong to get weight 0, the
    others are multiplied by one factor, at least 1. *)
Theorem C88_clip : forall interp m time_array dE map_x map_y weights target n_points idx_frame w hs idx,
  tomo_weight_clipping interp m time_array dE map_x map_y weights target n_points idx_frame = Ok (w, hs, idx) ->
  length w = length weights /\ rsum w = rsum weights /\
  exists c, (Forall (fun x => 0 <= x) weights -> 0 < rsum weights -> 1 <= c) /\
    forall i x y, (i < length weights)%nat ->
      np_get (nth i map_x []) (frame_of m idx_frame) = Ok x -> np_get (nth i map_y []) (frame_of m idx_frame) = Ok y ->
      (clipped time_array dE hs x y -> nth i w 0 = 0) /\ (~ clipped time_array dE hs x y -> nth i w 0 = c * nth i weights 0).
Proof. exact C88_clip_lem. Qed.
Print Assumptions C88_clip.

(** C88.  The contour is the first one with the wanted emittance, or the last
    one. *)
Theorem C88_contour : forall interp m time_array dE map_x map_y weights target n_points idx_frame w hs idx phi_0 energy eta0 omega matched amps,
  let turn := (frame_of m idx_frame * am_dturns m)%Z in
  tomo_weight_clipping interp m time_array dE map_x map_y weights target n_points idx_frame = Ok (w, hs, idx) ->
  np_get (am_phi0 m) turn = Ok phi_0 -> np_get (am_e0 m) turn = Ok energy -> np_get (am_eta0 m) turn = Ok eta0 ->
  np_get (am_omega m) turn = Ok omega -> time_phases m time_array omega phi_0 = Ok matched -> amplitudes m phi_0 n_points = Ok amps ->
  exists before a after em, amps = before ++ a :: after /\
    contour interp m phi_0 energy eta0 matched a = Ok hs /\ contour_emittance m omega matched hs = Ok em /\
    (target <= em \/ after = []) /\
    forall b, In b before -> exists hb eb, contour interp m phi_0 energy eta0 matched b = Ok hb /\ contour_emittance m omega matched hb = Ok eb /\ eb < target.
Proof. exact C88_contour_lem. Qed.
Print Assumptions C88_contour.

(** C88.  The particles returned to mark the contour belong to a slot of time
    and lie strictly inside.  There is a result only if no slot has exactly one
    particle inside. *)
Theorem C88_marked : forall interp m time_array dE map_x map_y weights target n_points idx_frame w hs idx,
  let x_of i := np_get (nth i map_x []) (frame_of m idx_frame) in
  let y_of i := np_get (nth i map_y []) (frame_of m idx_frame) in
  tomo_weight_clipping interp m time_array dE map_x map_y weights target n_points idx_frame = Ok (w, hs, idx) ->
  Forall (fun i => (i < length weights)%nat /\ exists k x y, (S k < length time_array)%nat /\ x_of i = Ok x /\ y_of i = Ok y /\
            in_slot time_array k x /\ within dE hs k y) idx /\
  forall k i x y, (S k < length time_array)%nat -> (i < length weights)%nat -> x_of i = Ok x -> y_of i = Ok y ->
    in_slot time_array k x -> within dE hs k y ->
    exists j x' y', (j < length weights)%nat /\ j <> i /\ x_of j = Ok x' /\ y_of j = Ok y' /\ in_slot time_array k x' /\ within dE hs k y'.
Proof. exact C88_marked_lem. Qed.
Print Assumptions C88_marked.

(** C88.  A particle later than the last time, or earlier than the first, is
    not clipped whatever its energy. *)
Theorem C88_late : forall interp m time_array dE map_x map_y weights target n_points idx_frame w hs idx,
  tomo_weight_clipping interp m time_array dE map_x map_y weights target n_points idx_frame = Ok (w, hs, idx) ->
  exists c, (Forall (fun x => 0 <= x) weights -> 0 < rsum weights -> 1 <= c) /\
    forall i x y, (i < length weights)%nat ->
      np_get (nth i map_x []) (frame_of m idx_frame) = Ok x -> np_get (nth i map_y []) (frame_of m idx_frame) = Ok y ->
      (forall t, In t time_array -> bins_of time_array t < x) \/ (forall t, In t time_array -> x < bins_of time_array t) ->
      nth i w 0 = c * nth i weights 0.
Proof. exact C88_late_lem. Qed.
Print Assumptions C88_late.

(** C88.  If every particle is clipped there is no result. *)
Theorem C88_refused : forall interp m time_array dE map_x map_y weights target n_points idx_frame w hs idx,
  tomo_weight_clipping interp m time_array dE map_x map_y weights target n_points idx_frame = Ok (w, hs, idx) -> weights <> [] ->
  exists i x y, (i < length weights)%nat /\ np_get (nth i map_x []) (frame_of m idx_frame) = Ok x /\
    np_get (nth i map_y []) (frame_of m idx_frame) = Ok y /\ ~ clipped time_array dE hs x y.
Proof. exact C88_refused_lem. Qed.
Print Assumptions C88_refused.

(** C87.  On an axis that reaches further down than up the fraction can be
    larger than 1. *)
Theorem C87_fraction_refuted : forall interp, interpolates interp ->
  exists m img time_array dE step n_points l,
    stationary_above m (frame_of m None * am_dturns m) 2 (-1) PI /\ equidistant dE step /\ densities img /\ 0 < rsum (map rsum img) /\
    density_vs_emittance interp m img time_array dE n_points None = Ok l /\ Exists (fun c => 1 < cd_sum c) l.
Proof. exact C87_fraction_refuted_lem. Qed.
Print Assumptions C87_fraction_refuted.

(** A machine above transition and an image for which the hypotheses hold;
    the emittances and the densities inside grow strictly. *)
Example C86_C87_nonvacuous : stationary_above mach (frame_of mach None * am_dturns mach) 2 (-1) PI /\ interpolates piecewise /\
  exists img dE step l, equidistant dE step /\ Forall (fun row => length row = length dE) img /\ - nth 0 dE 0 <= nth (length dE - 1) dE 0 /\ densities img /\ 0 < rsum (map rsum img) /\
  density_vs_emittance piecewise mach img [0; 1] dE 2 None = Ok l /\ 0 < cd_sum (nth 0 l (CData 0 0 0 0 0)) < cd_sum (nth 1 l (CData 0 0 0 0 0)) /\
  0 < cd_emittance (nth 0 l (CData 0 0 0 0 0)) < cd_emittance (nth 1 l (CData 0 0 0 0 0)).
Proof. split; [exact mach_above|split; [exact (proj1 C85_interp_lem)|exact (density_instance piecewise (proj1 C85_interp_lem))]]. Qed.
(** Three particles, of which the last is clipped. *)
Example C88_nonvacuous : tomo_weight_clipping piecewise mach [0; 1] [- top_height; 0; top_height] [[1/2]; [1/2]; [1/2]] [[1]; [1]; [5]] [1; 2; 3] 0 2 None =
  Ok ([2; 4; 0], [low_height; 0], [0%nat; 0%nat]).
Proof. exact (small_clip piecewise (proj1 C85_interp_lem)). Qed.
