(** Properties of phase-space images: C34, C35.
    Statements only: each theorem is closed by the lemma of the same name in
    Proof/CImage.v.  Written by tools/mkprops.py. *)
From Coq Require Import List ZArith QArith Qcanon Bool Lia.
From Verif Require Import Base.Res Base.QcLib Model.MRecon Model.MParticles Model.MImage Spec.TomoSpec Spec.ParticleSpec.
Import ListNotations.
Local Open Scope Qc_scope.
From Verif Require Import Proof.CImage.

(** C34.  For particles inside the image, cell (a,b) of the image is the total
    weight of the particles with x=a and y=b; the GPU version gives the same
    image. *)
Theorem C34_image_partial : forall n xp yp w, in_image n xp -> in_image n yp ->
  length yp = length xp -> length w = length xp ->
  exists img, wrapper_make_phase_space xp yp w n = Ok img /\ gpu_make_phase_space xp yp w n = Ok img /\
    rectangular n n img /\ forall a b, (a < n)%nat -> (b < n)%nat -> cell img a b = weight_at xp yp w a b.
Proof. exact C34_image_partial_lem. Qed.
Print Assumptions C34_image_partial.

(** C34.  The image contains the whole weight, and its rows add up to the
    profile of the weights over x. *)
Theorem C34_conserved_partial : forall n xp yp w, in_image n xp -> in_image n yp ->
  length yp = length xp -> length w = length xp ->
  exists img, wrapper_make_phase_space xp yp w n = Ok img /\ qsum (map qsum img) = qsum w /\
    map qsum img = tab n (profile_at xp w).
Proof. exact C34_conserved_partial_lem. Qed.
Print Assumptions C34_conserved_partial.

(** What is computed when only the combined index y + x*n is inside the
    array: the weight goes to the cell with that index. *)
Theorem C34_spill_partial : forall n xp yp w, length yp = length xp -> length w = length xp ->
  (forall i, (i < length xp)%nat -> (0 <= nth i yp 0 + nth i xp 0 * Z.of_nat n < Z.of_nat (n * n))%Z) ->
  exists img, wrapper_make_phase_space xp yp w n = Ok img /\ forall a b, (a < n)%nat -> (b < n)%nat ->
    cell img a b = sumn (length xp) (fun i =>
      if (nth i yp 0 + nth i xp 0 * Z.of_nat n =? Z.of_nat a * Z.of_nat n + Z.of_nat b)%Z then nth i w 0 else 0).
Proof. exact C34_spill_partial_lem. Qed.
Print Assumptions C34_spill_partial.

(** C34 is false for particles above the image: not reported but put into the
    next column. *)
Theorem C34_outside_refuted : ~ (forall n xp yp w, in_image n xp -> ~ in_image n yp ->
  length yp = length xp -> length w = length xp -> exists e, wrapper_make_phase_space xp yp w n = Fail (Raised e)).
Proof. exact C34_outside_refuted_lem. Qed.
Print Assumptions C34_outside_refuted.

(** C34: particles below the image make the C++ routine write before the
    array. *)
Theorem C34_negative_refuted : ~ (forall n xp yp w, in_image n xp ->
  length yp = length xp -> length w = length xp -> wrapper_make_phase_space xp yp w n <> Fail OutOfBounds).
Proof. exact C34_negative_refuted_lem. Qed.
Print Assumptions C34_negative_refuted.

Example ex_C34 : match wrapper_make_phase_space [0; 1; 0]%Z [1; 0; 1]%Z [qz 2; qz 3; qz 5] 2 with
  | Ok img => map (map this) img = [[0; 7]; [3; 0]]%Q | Fail _ => False end.
Proof. vm_compute. reflexivity. Qed.

(** C35.  From weights with positive sum and particles inside the image, the
    image has no negative value and sums to one; without negative weights its
    cells are the cell weights divided by the total weight. *)
Theorem C35_image : forall xp yp w npart nprofs nbins p,
  rectangular npart nprofs xp -> rectangular npart nprofs yp -> length w = npart -> (p < nprofs)%nat ->
  in_image nbins (map (fun r => nth p r 0%Z) xp) -> in_image nbins (map (fun r => nth p r 0%Z) yp) ->
  0 < qsum w ->
  exists img, create_phase_space_image xp yp w nbins p = Ok img /\ rectangular nbins nbins img /\
    Forall (Forall (fun v => 0 <= v)) img /\ qsum (map qsum img) = 1 /\
    (Forall (fun x => 0 <= x) w -> forall a b, (a < nbins)%nat -> (b < nbins)%nat ->
      cell img a b = weight_at (map (fun r => nth p r 0%Z) xp) (map (fun r => nth p r 0%Z) yp) w a b / qsum w).
Proof. exact C35_image_lem. Qed.
Print Assumptions C35_image.

(** C35.  In particular the image of a reconstruction, at any profile at which
    the energy coordinates are inside the image. *)
Theorem C35_after_run : forall sqrt t niter xp yp w d r c p, reachable t -> (0 <= niter)%Z ->
  run sqrt t niter = Ok (w, d, r, c) -> t_xp t = Some xp -> t_yp t = Some yp ->
  rectangular (length xp) (t_nprofs t) yp -> (p < t_nprofs t)%nat ->
  in_image (t_nbins t) (map (fun r => nth p r 0%Z) yp) ->
  exists img, create_phase_space_image xp yp w (t_nbins t) p = Ok img /\
    rectangular (t_nbins t) (t_nbins t) img /\ Forall (Forall (fun v => 0 <= v)) img /\ qsum (map qsum img) = 1.
Proof. exact C35_after_run_lem. Qed.
Print Assumptions C35_after_run.

(** C35.  Weights that are all zero make the image not-a-number (division by
    the zero sum). *)
Theorem C35_zero_refuted : ~ (forall xp yp w npart nprofs nbins p,
  rectangular npart nprofs xp -> rectangular npart nprofs yp -> length w = npart -> (p < nprofs)%nat ->
  in_image nbins (map (fun r => nth p r 0%Z) xp) -> in_image nbins (map (fun r => nth p r 0%Z) yp) ->
  Forall (fun x => 0 <= x) w -> create_phase_space_image xp yp w nbins p <> Fail NotFinite).
Proof. exact C35_zero_refuted_lem. Qed.
Print Assumptions C35_zero_refuted.

(** The caller's density array is changed by density_to_macro. *)
Theorem C35_density_to_macro_refuted : ~ (forall density threshold density' prob,
  density_to_macro_prob density threshold = Ok (density', prob) -> density' = density).
Proof. exact C35_density_to_macro_refuted_lem. Qed.
Print Assumptions C35_density_to_macro_refuted.

Example ex_C35 : match create_phase_space_image [[0; 1]; [1; 1]]%Z [[1; 0]; [0; 1]]%Z [1; qz 3] 2 0 with
  | Ok img => map (map this) img = [[0; 1 # 4]; [3 # 4; 0]]%Q | Fail _ => False end.
Proof. vm_compute. reflexivity. Qed.
