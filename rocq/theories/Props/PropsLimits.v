(** Limits of the reconstruction area
    Statements only: each theorem is closed by the lemma of the same name in
    Proof/CLimits.v.  Written by tools/mkprops.py. *)
From Coq Require Import Reals List ZArith Bool Lia Lra.
From Verif Require Import Base.Res Base.RLib Model.MParticles Model.MMachine Model.MLimits Spec.LimitsSpec.
Import ListNotations.
Local Open Scope R_scope.
From Verif Require Import Proof.CLimits.

(** C48: the height of a trajectory through (known, de) at the phase phi is the
    energy offset, not negative, at which the conserved energy function has the
    same value; it is 0 when the trajectory does not reach phi. *)
Theorem C48_height : forall m phi known de turn h (t : at_turn m turn), l_q m <> 0 ->
  trajectory_height m phi known de turn = Ok h ->
  0 <= h /\ (conserved t phi h = conserved t known de \/ (h = 0 /\ forall e, conserved t phi e <> conserved t known de)).
Proof. exact C48_height_lem. Qed.
Print Assumptions C48_height.

(** C48: the origin: the synchronous bin is at the synchronous phase at the
    reference profile. *)
Theorem C48_origin : forall m L phi0 omega, find_limits m = Ok L ->
  np_get (l_phi0 m) (l_beam_ref m * l_dturns m) = Ok phi0 -> np_get (l_omega m) (l_beam_ref m * l_dturns m) = Ok omega ->
  (lim_xorigin L + l_synch_x m) * l_dtbin m * l_h_num m * omega = phi0.
Proof. exact C48_origin_lem. Qed.
Print Assumptions C48_origin.

(** C48: the energy bins: with a height given, the image reaches exactly that
    height above the synchronous energy; the bins have a positive height. *)
Theorem C48_energy_scale : forall m L, find_limits m = Ok L ->
  0 < lim_dEbin L /\ (0 < l_demax m -> lim_dEbin L * (INR (l_nbins m) - l_synch_y m) = l_demax m).
Proof. exact C48_energy_scale_lem. Qed.
Print Assumptions C48_energy_scale.

(** C48: the limits are usable, unless the full image is asked for with a last
    time beyond the image: the area lies within the image, is not empty, and
    building the distribution on it succeeds. *)
Theorem C48_usable_partial : forall m L, find_limits m = Ok L -> centred m ->
  (l_full m = false \/ (0 < l_dtbin m /\ l_max_dt m <= INR (l_nbins m) * l_dtbin m)) ->
  length (lim_jmin L) = l_nbins m /\ length (lim_jmax L) = l_nbins m /\
  (0 <= lim_imin L <= lim_imax L)%Z /\ (lim_imax L < Z.of_nat (l_nbins m))%Z /\
  (forall i, (i < l_nbins m)%nat -> (1 <= low L i)%Z /\ (0 <= top L i <= Z.of_nat (l_nbins m))%Z) /\
  (forall i, (lim_imin L <= Z.of_nat i < lim_imax L)%Z -> (low L i <= top L i)%Z) /\
  (exists i, (i < l_nbins m)%nat /\ (low L i < top L i)%Z) /\
  forall snpt, (0 < snpt)%nat -> exists c, homogeneous_coords snpt (lim_imin L) (lim_imax L) (lim_jmin L) (lim_jmax L) = Ok c.
Proof. exact C48_usable_partial_lem. Qed.
Print Assumptions C48_usable_partial.

(** C48: in every case the area lies within the image but for its last column,
    which may be the one behind the image; then building the distribution
    raises IndexError. *)
Theorem C48_inside_or_refused : forall m L, find_limits m = Ok L -> centred m ->
  length (lim_jmin L) = l_nbins m /\ length (lim_jmax L) = l_nbins m /\
  (0 <= lim_imin L <= lim_imax L)%Z /\ (lim_imax L <= Z.of_nat (l_nbins m))%Z /\
  (forall i, (i < l_nbins m)%nat -> (1 <= low L i)%Z /\ (0 <= top L i <= Z.of_nat (l_nbins m))%Z) /\
  (exists i, (i < l_nbins m)%nat /\ (low L i < top L i)%Z) /\
  forall snpt, (0 < snpt)%nat -> lim_imax L = Z.of_nat (l_nbins m) ->
    homogeneous_coords snpt (lim_imin L) (lim_imax L) (lim_jmin L) (lim_jmax L) = Fail (Raised IndexError).
Proof. exact C48_inside_or_refused_lem. Qed.
Print Assumptions C48_inside_or_refused.

(** C48: outside the full image the area lies below the trajectories through
    both ends of the image: at both edges of bin i, the upper row is not above
    either height. *)
Theorem C48_below_trajectories : forall m L, find_limits m = Ok L -> l_full m = false ->
  let turn := (l_filmstart m * l_dturns m)%Z in
  forall i e k, (i < l_nbins m)%nat -> e = i \/ e = S i -> k = 0%nat \/ k = l_nbins m -> exists omega h,
    np_get (l_omega m) turn = Ok omega /\
    trajectory_height m (edge_phase m (lim_xorigin L) omega e) (edge_phase m (lim_xorigin L) omega k) 0 turn = Ok h /\
    (IZR (top L i) - l_synch_y m) * lim_dEbin L <= h.
Proof. exact C48_below_trajectories_lem. Qed.
Print Assumptions C48_below_trajectories.

(** C48: and it is the largest such: on the used bins the next row is above one
    of those heights, or the area reaches the top of the image. *)
Theorem C48_largest : forall m L, find_limits m = Ok L -> l_full m = false -> 
  let turn := (l_filmstart m * l_dturns m)%Z in
  forall i, (lim_imin L <= Z.of_nat i <= lim_imax L)%Z -> (lim_imax L < Z.of_nat (l_nbins m))%Z /\
  (top L i = Z.of_nat (l_nbins m) \/ exists omega e k h, (e = i \/ e = S i) /\ (k = 0%nat \/ k = l_nbins m) /\
    np_get (l_omega m) turn = Ok omega /\
    trajectory_height m (edge_phase m (lim_xorigin L) omega e) (edge_phase m (lim_xorigin L) omega k) 0 turn = Ok h /\
    h < (IZR (top L i) + 1 - l_synch_y m) * lim_dEbin L).
Proof. exact C48_largest_lem. Qed.
Print Assumptions C48_largest.

(** C48: as long as the user's time limits do not shorten the area, it is
    symmetric about the synchronous energy, except where it reaches the top of
    the image: there the bottom row is left out. *)
Theorem C48_symmetric_partial : forall m L, find_limits m = Ok L -> centred m -> l_full m = false -> 0 < l_dtbin m ->
  0 <= l_min_dt m < l_dtbin m -> (INR (l_nbins m) - 1) * l_dtbin m < l_max_dt m ->
  forall i, (i < l_nbins m)%nat ->
    ((top L i < Z.of_nat (l_nbins m))%Z -> (low L i + top L i = Z.of_nat (l_nbins m))%Z) /\
    (top L i = Z.of_nat (l_nbins m) -> low L i = 1%Z).
Proof. exact C48_symmetric_partial_lem. Qed.
Print Assumptions C48_symmetric_partial.

(** C48: when the full image is asked for, or the user's limits in time change
    the first or the last bin, the lower rows of all bins are shifted up by
    one: the area is symmetric in no bin. *)
Theorem C48_shifted : forall m L, find_limits m = Ok L -> centred m -> 0 < l_dtbin m ->
  l_full m = true \/
  (exists L', find_limits (unlimited m) = Ok L' /\ (lim_imin L <> lim_imin L' \/ lim_imax L <> lim_imax L')) ->
  forall i, (i < l_nbins m)%nat -> (low L i + top L i = Z.of_nat (l_nbins m) + 1)%Z.
Proof. exact C48_shifted_lem. Qed.
Print Assumptions C48_shifted.

(** C48: the user's limits in time: the area starts no earlier than the bin of
    the first time, and extends at most one bin beyond the last. *)
Theorem C48_time_partial : forall m L, find_limits m = Ok L -> 0 < l_dtbin m -> 0 <= l_min_dt m ->
  l_min_dt m < (IZR (lim_imin L) + 1) * l_dtbin m /\ (IZR (lim_imax L) - 1) * l_dtbin m < l_max_dt m /\
  (l_full m = true -> IZR (lim_imax L) * l_dtbin m < l_max_dt m <= (IZR (lim_imax L) + 1) * l_dtbin m).
Proof. exact C48_time_partial_lem. Qed.
Print Assumptions C48_time_partial.

(** C48: the full image with the default limits in time: all rows but the
    bottom one are used in every bin. *)
Theorem C48_full_image : forall m L, find_limits m = Ok L -> centred m -> l_full m = true -> 0 < l_dtbin m ->
  l_min_dt m = 0 -> l_max_dt m = INR (l_nbins m) * l_dtbin m ->
  lim_imin L = 0%Z /\ lim_imax L = (Z.of_nat (l_nbins m) - 1)%Z /\
  forall i, (i < l_nbins m)%nat -> low L i = 1%Z /\ top L i = Z.of_nat (l_nbins m).
Proof. exact C48_full_image_lem. Qed.
Print Assumptions C48_full_image.

(** C48: a reconstruction area is always found, or an error of its own raised:
    the comparison with a missing limit (TypeError) never happens. *)
Theorem C48_found : forall m, centred m -> find_limits m <> Fail (Raised TypeError).
Proof. exact C48_found_lem. Qed.
Print Assumptions C48_found.

(** The limits are not always usable: with the full image and a last time one
    bin beyond the image the limits are accepted, and building the distribution
    raises IndexError. *)
Theorem C48_usable_refuted : exists m L, centred m /\ find_limits m = Ok L /\
  lim_imax L = Z.of_nat (l_nbins m) /\
  homogeneous_coords 1 (lim_imin L) (lim_imax L) (lim_jmin L) (lim_jmax L) = Fail (Raised IndexError).
Proof. exact C48_usable_refuted_lem. Qed.
Print Assumptions C48_usable_refuted.

(** The area is not always symmetric, even without limits given by the user. *)
Theorem C48_symmetric_refuted : exists m L i, centred m /\ l_full m = false /\ l_min_dt m = 0 /\ l_max_dt m = INR (l_nbins m) * l_dtbin m /\
  find_limits m = Ok L /\ (lim_imin L <= Z.of_nat i <= lim_imax L)%Z /\ (low L i + top L i <> Z.of_nat (l_nbins m))%Z.
Proof. exact C48_symmetric_refuted_lem. Qed.
Print Assumptions C48_symmetric_refuted.

(** The user's last time is not always respected: here the only bin used starts
    at the last time. *)
Theorem C48_time_refuted : exists m L, centred m /\ l_full m = false /\ 0 < l_dtbin m /\ find_limits m = Ok L /\
  lim_imin L = lim_imax L /\ (low L (Z.to_nat (lim_imax L)) < top L (Z.to_nat (lim_imax L)))%Z /\
  l_max_dt m <= IZR (lim_imax L) * l_dtbin m.
Proof. exact C48_time_refuted_lem. Qed.
Print Assumptions C48_time_refuted.

From Verif Require Import Proof.CSelf Proof.PLimits.
(** The example machine, with a stationary bucket over three bins: the area has
    the rows 1 and 2 of the bin in the middle. *)
Example C48_ex : centred (bucket false 3) /\ find_limits (bucket false 3) = Ok (Limits (- (3 / 2)) 1 [2; 1; 2]%Z [1; 3; 1]%Z 1 1) /\
  l_full (bucket false 3) = false /\ 0 <= l_min_dt (bucket false 3) < l_dtbin (bucket false 3) /\
  (INR (l_nbins (bucket false 3)) - 1) * l_dtbin (bucket false 3) < l_max_dt (bucket false 3) /\ 0 < l_demax (bucket false 3) /\
  l_q (bucket false 3) <> 0 /\ inhabited (at_turn (bucket false 3) 0).
Proof.
  split; [apply bucket_centred|]. split; [apply bucket_limits; replace (rceil 3) with 3%Z; [lia|symmetry; apply rceil_unique; lra]|].
  cbn. do 5 (split; [solve [auto with real | lra]|]). constructor. exact (AtTurn (bucket false 3) 0 0 2 (3 / 2) 0 0 eq_refl eq_refl eq_refl eq_refl eq_refl).
Qed.
(** The full image of the same machine, with the default limits and with a last
    time one bin beyond. *)
Example C48_full_ex : find_limits (bucket true 3) = Ok (Limits (- (3 / 2)) 1 [1; 1; 1]%Z [3; 3; 3]%Z 0 2) /\
  l_max_dt (bucket true 3) = INR (l_nbins (bucket true 3)) * l_dtbin (bucket true 3) /\
  find_limits (bucket true 4) = Ok (Limits (- (3 / 2)) 1 [1; 1; 1]%Z [3; 3; 3]%Z 0 3).
Proof. split; [apply (full_limits 3); lia|]. split; [cbn; ring|apply (full_limits 4); lia]. Qed.
(** A trajectory of the example machine. *)
Example C48_height_ex : exists h, trajectory_height (bucket false 3) (PI / 3) PI 0 0 = Ok h /\ h = 3 / 2.
Proof.
  eexists. split; [apply bucket_height|]. rewrite cos_PI3, cos_PI. apply real_sqrt_sq; lra.
Qed.
