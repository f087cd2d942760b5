(** Theorems on the numbers that describe a beam (C52, C53, C47).
    Statements only: each theorem is closed by the lemma of the same name in
    Proof/CPost.v.  Written by tools/mkprops.py. *)
From Coq Require Import List ZArith Reals Permutation Lia Lra.
From Verif Require Import Base.Res Base.RLib Model.MPost Spec.PostSpec.
Import ListNotations.
Local Open Scope R_scope.
From Verif Require Import Proof.CPost.

(** _std_from_histogram gives a number for every histogram with no negative bin
    and something in it; it is this number. *)
Theorem C52_std_value : forall h x0 w n,
  length h = n -> (2 <= n)%nat -> Forall (fun x => 0 <= x) h -> 0 < total h ->
  std_from_histogram h (edges x0 w n) =
  Ok (sqrt (total (map (fun p => fst p * (snd p * (1 - fst p / total h)) ^ 2) (combine h (centres x0 w n))) / total h)).
Proof. exact C52_std_value_lem. Qed.
Print Assumptions C52_std_value.

(** It is the standard deviation of a histogram with everything in one bin. *)
Theorem C52_std_partial : forall a b x x0 w,
  0 < x -> (1 <= a + b)%nat ->
  let h := repeat 0 a ++ x :: repeat 0 b in
  let n := (a + 1 + b)%nat in
  std_from_histogram h (edges x0 w n) = Ok (std h (centres x0 w n)) /\ std h (centres x0 w n) = 0.
Proof. exact C52_std_partial_lem. Qed.
Print Assumptions C52_std_partial.

(** It is not the standard deviation of two bins with equal contents. *)
Theorem C52_std_refuted : exists h x0 w n v,
  length h = n /\ Forall (fun x => 0 <= x) h /\ 0 < total h /\
  std_from_histogram h (edges x0 w n) = Ok v /\ v <> std h (centres x0 w n).
Proof. exact C52_std_refuted_lem. Qed.
Print Assumptions C52_std_refuted.

(** And it changes when the axis is shifted. *)
Theorem C52_shift_refuted : exists h x0 x1 w n v v',
  length h = n /\ Forall (fun x => 0 <= x) h /\ 0 < total h /\
  std_from_histogram h (edges x0 w n) = Ok v /\ std_from_histogram h (edges x1 w n) = Ok v' /\ v <> v'.
Proof. exact C52_shift_refuted_lem. Qed.
Print Assumptions C52_shift_refuted.

(** emittance_fractional is the area of one cell less than the fewest cells
    that hold the fraction. *)
Theorem C52_fractional_partial : forall ps t0 wt nt e0 we ne f,
  0 < f -> f <= 100 -> 0 < total (concat ps) -> (2 <= nt)%nat -> (2 <= ne)%nat ->
  exists n, fewest (S n) (f / 100) (concat ps) /\
    emittance_fractional ps (edges t0 wt nt) (edges e0 we ne) f = Ok (INR n * (wt * we)).
Proof. exact C52_fractional_partial_lem. Qed.
Print Assumptions C52_fractional_partial.

(** So it is never the area of the fewest cells that hold the fraction. *)
Theorem C52_fractional_refuted : forall ps t0 wt nt e0 we ne f v n,
  0 < f -> f <= 100 -> 0 < total (concat ps) -> (2 <= nt)%nat -> (2 <= ne)%nat -> 0 < wt -> 0 < we ->
  emittance_fractional ps (edges t0 wt nt) (edges e0 we ne) f = Ok v ->
  fewest n (f / 100) (concat ps) -> v <> INR n * (wt * we) /\ v = INR n * (wt * we) - wt * we.
Proof. exact C52_fractional_refuted_lem. Qed.
Print Assumptions C52_fractional_refuted.

(** A fraction outside 0 to 100 is refused. *)
Theorem C52_fraction_range : forall ps t e f,
  f < 0 \/ 100 < f -> emittance_fractional ps t e f = Fail (Raised ValueError).
Proof. exact C52_fraction_range_lem. Qed.
Print Assumptions C52_fraction_range.

(** It depends neither on the places of the cells nor on the origins of the axes. *)
Theorem C52_fractional_invariant : forall ps ps' t0 t0' wt nt e0 e0' we ne f,
  Permutation (concat ps) (concat ps') -> 0 < total (concat ps) -> 0 <= f -> f <= 100 -> (2 <= nt)%nat -> (2 <= ne)%nat ->
  emittance_fractional ps (edges t0 wt nt) (edges e0 we ne) f =
  emittance_fractional ps' (edges t0' wt nt) (edges e0' we ne) f.
Proof. exact C52_fractional_invariant_lem. Qed.
Print Assumptions C52_fractional_invariant.

(** It grows with the fraction. *)
Theorem C52_fractional_monotone : forall ps t0 wt nt e0 we ne f f' v v',
  0 <= f -> f <= f' -> f' <= 100 -> 0 < total (concat ps) -> (2 <= nt)%nat -> (2 <= ne)%nat -> 0 <= wt * we ->
  emittance_fractional ps (edges t0 wt nt) (edges e0 we ne) f = Ok v ->
  emittance_fractional ps (edges t0 wt nt) (edges e0 we ne) f' = Ok v' -> v <= v'.
Proof. exact C52_fractional_monotone_lem. Qed.
Print Assumptions C52_fractional_monotone.

(** post_process gives the numbers its parts give. *)
Theorem C52_post_process : forall ncols ps t e energy mass a b c,
  post_process ncols ps t e energy mass = Ok (a, b, c) <->
  emittance_rms_histogram ncols ps t e = Ok a /\ emittance_90 ps t e = Ok b /\
  rms_dpp_histogram (col_sums ncols ps) e energy mass = Ok c.
Proof. exact C52_post_process_lem. Qed.
Print Assumptions C52_post_process.

(** Every image with no negative pixel and something in it has its three numbers. *)
Theorem C52_defined : forall nt ne ps t0 wt e0 we energy mass,
  shape nt ne ps -> Forall (Forall (fun x => 0 <= x)) ps -> 0 < total (concat ps) ->
  (2 <= nt)%nat -> (2 <= ne)%nat -> 0 <= mass -> mass < energy ->
  exists a b c, post_process ne ps (edges t0 wt nt) (edges e0 we ne) energy mass = Ok (a, b, c) /\ 0 <= a /\ 0 <= c.
Proof. exact C52_defined_lem. Qed.
Print Assumptions C52_defined.

(** rms_dpp is the relative change of the momentum that goes with the change of
    the energy. *)
Theorem C47_dpp : forall s energy mass,
  0 <= s -> 0 <= mass -> mass < energy ->
  exists p d, 0 < p /\ p ^ 2 + mass ^ 2 = energy ^ 2 /\
    rms_dpp s energy mass = Ok d /\ 0 <= d /\ (p * (1 + d)) ^ 2 + mass ^ 2 = (energy + s) ^ 2.
Proof. exact C47_dpp_lem. Qed.
Print Assumptions C47_dpp.

(** For every normalised square image rms_params gives a result, the radicand
    being the determinant of the matrix of second moments; the numbers are the
    means and standard deviations over the image. *)
Theorem C53_defined : forall n img dt dE,
  shape n n img -> normalised img ->
  0 <= var_row n img * var_col n img - covariance n img ^ 2 /\
  exists r, rms_params n n img dt dE = Ok r /\
    emittance r = PI * dt * dE * sqrt (var_row n img * var_col n img - covariance n img ^ 2) /\
    mean_dt r = mean_row n img * dt /\ sigma_dt r = sqrt (var_row n img) * dt /\
    mean_dE r = (mean_col n img - INR n / 2) * dE /\ sigma_dE r = sqrt (var_col n img) * dE.
Proof. exact C53_defined_lem. Qed.
Print Assumptions C53_defined.

(** The emittance lies between 0 and pi times the two standard deviations. *)
Theorem C53_bounds : forall n img dt dE r,
  shape n n img -> normalised img -> 0 <= dt -> 0 <= dE -> rms_params n n img dt dE = Ok r ->
  0 <= emittance r /\ emittance r <= PI * sigma_dt r * sigma_dE r.
Proof. exact C53_bounds_lem. Qed.
Print Assumptions C53_bounds.

(** No image that is not square, with two rows and two columns at least, has a
    result. *)
Theorem C53_square_only_refuted : forall a b img dt dE,
  (2 <= a)%nat -> (2 <= b)%nat -> a <> b -> rms_params a b img dt dE = Fail (Raised ValueError).
Proof. exact C53_square_only_refuted_lem. Qed.
Print Assumptions C53_square_only_refuted.

(** Nor has every square image without negative pixels. *)
Theorem C53_unnormalised_refuted : exists img dt dE,
  shape 2 2 img /\ Forall (Forall (fun x => 0 <= x)) img /\ rms_params 2 2 img dt dE = Fail NotFinite.
Proof. exact C53_unnormalised_refuted_lem. Qed.
Print Assumptions C53_unnormalised_refuted.

(** A histogram of two bins, an image of four cells, and a normalised one. *)
Example two_bins : length [1; 1] = 2%nat /\ Forall (fun x => 0 <= x) [1; 1] /\ 0 < total [1; 1].
Proof. repeat split; [repeat constructor; lra|cbn; lra]. Qed.
Example four_cells : 0 < total (concat [[1; 2]; [3; 4]]) /\ shape 2 2 [[1; 2]; [3; 4]].
Proof. split; [cbn; lra|]. split; [reflexivity|repeat constructor]. Qed.
Example half_needs_two : fewest 2 (1 / 2) [1; 2; 3; 4].
Proof.
  split.
  - exists [3; 4]. split; [exists [1; 2]; apply (Permutation_app_comm [3; 4] [1; 2])|]. split; [reflexivity|cbn; lra].
  - intros a [r P] H. destruct a as [|x [|y a]]; cbn in *; try lia; [lra|].
    assert (In x [1; 2; 3; 4]) by (apply (Permutation_in _ P); left; reflexivity).
    cbn in *. intuition lra.
Qed.
Example normalised_image : shape 2 2 [[1 / 2; 0]; [1 / 4; 1 / 4]] /\ normalised [[1 / 2; 0]; [1 / 4; 1 / 4]].
Proof.
  split; [split; [reflexivity|repeat constructor]|].
  split; [repeat constructor; lra|cbn; lra].
Qed.
