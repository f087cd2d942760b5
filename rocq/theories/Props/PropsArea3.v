(** Theorems on the values of the density scan and the marked particles (C87, C88).
    Statements only: each theorem is closed by the lemma of the same name in
    Proof/CArea3.v.  Written by tools/mkprops.py. *)
From Coq Require Import Reals List ZArith Bool.
From Verif Require Import Base.Res Base.QcLib Base.RLib Model.MParticles Model.MPreproc Model.MPost Model.MArea Spec.AreaSpec.
Import ListNotations.
Local Open Scope R_scope.
From Verif Require Import Proof.CArea3.

(** C87.  Above transition without acceleration every entry of the result
    belongs to one trajectory.  The density inside is the sum over the times of
    the integrals of the image, interpolated between the energies, from the
    lower to the upper side of the trajectory, as a fraction of the sum of the
    image.  The emittance is twice the area below the trajectory by the
    trapezoidal rule. *)
Theorem C87_value : forall interp m img time_array dE step n_points idx_frame energy eta0 omega l i d,
  interpolates interp -> stationary_above m (frame_of m idx_frame * am_dturns m) energy eta0 omega ->
  equidistant dE step -> - nth 0 dE 0 <= nth (length dE - 1) dE 0 ->
  Forall (fun row => length row = length dE) img -> rsum (map rsum img) <> 0 ->
  density_vs_emittance interp m img time_array dE n_points idx_frame = Ok l -> (i < n_points)%nat ->
  exists phi_left inside, 0 <= phi_left < PI /\
    let h := height_at m time_array energy eta0 omega phi_left in
    (forall k, (k < length time_array)%nat -> integral_is (fun x => interp x dE (nth k img [])) (- h k) (h k) (step * inside k)) /\
    cd_sum (nth i l d) = rsum (map inside (seq 0 (length time_array))) / rsum (map rsum img) /\
    cd_emittance (nth i l d) =
      2 / (am_h m * omega) * trapz (am_h m * omega * (nth 1 time_array 0 - nth 0 time_array 0)) (map h (seq 0 (length time_array))).
Proof. exact C87_value_lem. Qed.
Print Assumptions C87_value.

(** C87.  The local density of every entry but the first is the mean of the
    image on the trajectory, its minimum is the smallest and its maximum the
    largest value there.  The columns where the trajectory has no height do not
    count. *)
Theorem C87_local : forall interp m img time_array dE step n_points idx_frame energy eta0 omega l i d,
  interpolates interp -> stationary_above m (frame_of m idx_frame * am_dturns m) energy eta0 omega ->
  equidistant dE step -> - nth 0 dE 0 <= nth (length dE - 1) dE 0 ->
  Forall (fun row => length row = length dE) img ->
  density_vs_emittance interp m img time_array dE n_points idx_frame = Ok l -> (0 < i < n_points)%nat ->
  exists phi_left columns, 0 <= phi_left < PI /\ NoDup columns /\
    let h := height_at m time_array energy eta0 omega phi_left in
    let upper k := interp (h k) dE (nth k img []) in
    let lower k := interp (- h k) dE (nth k img []) in
    (forall k, In k columns <-> (k < length time_array)%nat /\ h k <> 0) /\
    (columns = [] -> nth i l d = CData 0 0 0 0 0) /\
    (columns <> [] ->
      cd_local (nth i l d) = rsum (map (fun k => (upper k + lower k) / 2) columns) / INR (length columns) /\
      (forall k, In k columns -> cd_min (nth i l d) <= upper k <= cd_max (nth i l d) /\ cd_min (nth i l d) <= lower k <= cd_max (nth i l d)) /\
      (exists k, In k columns /\ (cd_min (nth i l d) = upper k \/ cd_min (nth i l d) = lower k)) /\
      (cd_max (nth i l d) = 0 \/ exists k, In k columns /\ (cd_max (nth i l d) = upper k \/ cd_max (nth i l d) = lower k))).
Proof. exact C87_local_lem. Qed.
Print Assumptions C87_local.

(** C88.  In every slot of time with a particle inside of the contour, a
    particle with the lowest and one with the highest energy are marked. *)
Theorem C88_extremes : forall interp m time_array dE map_x map_y weights target n_points idx_frame w hs idx k,
  let inside i y := (i < length weights)%nat /\ np_get (nth i map_y []) (frame_of m idx_frame) = Ok y /\
    exists x, np_get (nth i map_x []) (frame_of m idx_frame) = Ok x /\ in_slot time_array k x /\ within dE hs k y in
  tomo_weight_clipping interp m time_array dE map_x map_y weights target n_points idx_frame = Ok (w, hs, idx) -> (S k < length time_array)%nat ->
  (exists i y, inside i y) ->
  exists a ya b yb, In a idx /\ In b idx /\ inside a ya /\ inside b yb /\ forall i y, inside i y -> ya <= y <= yb.
Proof. exact C88_extremes_lem. Qed.
Print Assumptions C88_extremes.

(** C88.  Above transition without acceleration the contour returned is a
    trajectory over the times. *)
Theorem C88_trajectory : forall interp m time_array dE map_x map_y weights target n_points idx_frame w hs idx energy eta0 omega,
  interpolates interp -> stationary_above m (frame_of m idx_frame * am_dturns m) energy eta0 omega ->
  tomo_weight_clipping interp m time_array dE map_x map_y weights target n_points idx_frame = Ok (w, hs, idx) ->
  exists phi_left, 0 <= phi_left < PI /\
    hs = map (height_at m time_array energy eta0 omega phi_left) (seq 0 (length time_array)).
Proof. exact C88_trajectory_lem. Qed.
Print Assumptions C88_trajectory.

(** An image with rows as long as the energy axis, and a result in which the
    second entry has a density inside. *)
Example C87_value_nonvacuous : exists img dE step l, stationary_above mach (frame_of mach None * am_dturns mach) 2 (-1) PI /\
  equidistant dE step /\ - nth 0 dE 0 <= nth (length dE - 1) dE 0 /\ Forall (fun row => length row = length dE) img /\
  rsum (map rsum img) <> 0 /\ density_vs_emittance piecewise mach img [0; 1] dE 2 None = Ok l /\ cd_sum (nth 1 l (CData 0 0 0 0 0)) <> 0.
Proof.
  destruct (density_instance piecewise (proj1 C85_interp_lem)) as (img & dE & step & l & H1 & H2 & H3 & _ & H5 & H6 & H7 & _).
  exists img, dE, step, l. split; [exact mach_above|]. split; [exact H1|]. split; [exact H3|]. split; [exact H2|]. split; [apply Rgt_not_eq; exact H5|].
  split; [exact H6|]. apply Rgt_not_eq. apply Rlt_trans with (cd_sum (nth 0 l (CData 0 0 0 0 0))); apply H7.
Qed.
(** A call with particles inside the contour in the only slot of time. *)
Example C88_extremes_nonvacuous : tomo_weight_clipping piecewise mach [0; 1] [- top_height; 0; top_height] [[1/2]; [1/2]; [1/2]] [[1]; [1]; [5]] [1; 2; 3] 0 2 None =
  Ok ([2; 4; 0], [low_height; 0], [0%nat; 0%nat]) /\ in_slot [0; 1] 0 (1 / 2) /\ within [- top_height; 0; top_height] [low_height; 0] 0 1.
Proof. split; [exact (small_clip piecewise (proj1 C85_interp_lem))|exact inside_instance]. Qed.
