(** Properties of particle handling: C14-C17.
    Statements only: each theorem is closed by the lemma of the same name in
    Proof/CParticles.v.  Written by tools/mkprops.py. *)
From Coq Require Import List ZArith QArith Qcanon Bool Lia.
From Verif Require Import Base.Res Base.QcLib Model.MRecon Model.MParticles Spec.TomoSpec Spec.ParticleSpec.
Import ListNotations.
Local Open Scope Qc_scope.
From Verif Require Import Proof.CParticles.

(** C14.  Without not-a-number coordinates, filter_lost returns exactly the
    particles inside the image at every profile, in their order, with their
    own energies, and the number of the others; it raises
    InvalidParticleError exactly when no particle is left. *)
Theorem C14_filter_lost_partial : forall B n m w xp (yp : list (list B)),
  rectangular n m xp -> rectangular n m yp -> (0 < n)%nat -> Forall (Forall not_nan) xp ->
  exists keep, survivors w m xp keep /\
  match filter_lost xp yp m m w with
  | Ok (xp', yp', lost) => keep <> [] /\ Forall2 (picked keep) xp xp' /\ Forall2 (picked keep) yp yp' /\
                           (lost + length keep = m)%nat
  | Fail e => e = Raised InvalidParticleError /\ keep = []
  end.
Proof. exact C14_filter_lost_partial_lem. Qed.
Print Assumptions C14_filter_lost_partial.

(** C14 is false with not-a-number coordinates: the particle is kept. *)
Theorem C14_nan_refuted : ~ (forall n m w xp (yp : list (list num)) xp' yp' lost,
  rectangular n m xp -> rectangular n m yp -> (0 < n)%nat ->
  filter_lost xp yp m m w = Ok (xp', yp', lost) -> Forall (Forall (inside w)) xp').
Proof. exact C14_nan_refuted_lem. Qed.
Print Assumptions C14_nan_refuted.

(** Two profiles, three particles; the second leaves at the second profile. *)
Definition ex_xp : list (list num) := [[Num 1; Num (qq 5 2); Num 0]; [Num (qq 7 2); Num (qz 4); Num 0]].
Definition ex_yp : list (list num) := [[Num 1; Num (qz 2); Num (qz 3)]; [Num 1; Num 1; Num (qq 1 2)]].
Example ex_C14 : filter_lost ex_xp ex_yp 3 3 4 =
  Ok ([[Num 1; Num 0]; [Num (qq 7 2); Num 0]], [[Num 1; Num (qz 3)]; [Num 1; Num (qq 1 2)]], 1%nat).
Proof. vm_compute. reflexivity. Qed.
Example ex_C14_all_lost : filter_lost [[Num (qz 4)]] [[Num 0]] 1 1 4 = Fail (Raised InvalidParticleError).
Proof. reflexivity. Qed.

(** C15.  Without not-a-number positions, the arrays returned by
    ready_for_tomography, one row per surviving particle and one column per
    profile with the integer parts of the coordinates, are accepted by the
    Tomography constructor whatever the waterfall, and stored unchanged. *)
Theorem C15_ready_partial : forall n m nbins xp yp,
  rectangular n m xp -> rectangular n m yp -> (0 < n)%nat -> Forall (Forall not_nan) xp ->
  exists keep, survivors (Z.of_nat nbins) m xp keep /\
  match ready_for_tomography xp yp m m (Z.of_nat nbins) with
  | Ok (x, y) =>
    keep <> [] /\
    Forall2 (fun j r => map Some r = map (fun row => option_map num_to_int (nth_error row j)) xp) keep x /\
    Forall2 (fun j r => map Some r = map (fun row => option_map num_to_int (nth_error row j)) yp) keep y /\
    forall wf t0, tomography n nbins wf CNone CNone = Ok t0 ->
      tomography n nbins wf (CArr2 n (map (map qz) x)) (CArr2 n (map (map qz) y)) =
      Ok (Tomo (t_waterfall t0) n nbins (Some x) (Some y) (Some (length keep)))
  | Fail e => e = Raised InvalidParticleError /\ keep = []
  end.
Proof. exact C15_ready_partial_lem. Qed.
Print Assumptions C15_ready_partial.

(** C15 is false with not-a-number positions: the surviving particle gets the
    smallest integer as position, which the constructor rejects. *)
Theorem C15_nan_refuted : ~ (forall n m nbins xp yp x y wf t0,
  rectangular n m xp -> rectangular n m yp -> (0 < n)%nat ->
  ready_for_tomography xp yp m m (Z.of_nat nbins) = Ok (x, y) ->
  tomography n nbins wf CNone CNone = Ok t0 ->
  exists t, tomography n nbins wf (CArr2 n (map (map qz) x)) (CArr2 n (map (map qz) y)) = Ok t).
Proof. exact C15_nan_refuted_lem. Qed.
Print Assumptions C15_nan_refuted.

Example ex_C15 : ready_for_tomography ex_xp ex_yp 3 3 4 = Ok ([[1; 3]; [0; 0]]%Z, [[1; 1]; [3; 0]]%Z).
Proof. vm_compute. reflexivity. Qed.

(** C16.  Physical coordinates computed from bin coordinates at a profile are
    converted back to the same bin coordinates. *)
Theorem C16_bins_roundtrip : forall m xorigin dEbin p xs ys fs es dphi denergy xp yp,
  bin_nr_to_physical m xorigin dEbin (Z.of_nat p) 0 (xs, ys) = Ok (fs, es) ->
  nth_error dphi p = Some fs -> nth_error denergy p = Some es ->
  physical_to_coords m xorigin dEbin dphi denergy = Ok (xp, yp) ->
  nth_error xp p = Some xs /\ nth_error yp p = Some ys.
Proof. exact C16_bins_roundtrip_lem. Qed.
Print Assumptions C16_bins_roundtrip.

(** C16.  Bin coordinates computed from physical coordinates are converted
    back to the same physical coordinates. *)
Theorem C16_physical_roundtrip : forall m xorigin dEbin p fs es dphi denergy xp yp,
  nth_error dphi p = Some fs -> nth_error denergy p = Some es ->
  physical_to_coords m xorigin dEbin dphi denergy = Ok (xp, yp) ->
  exists xs ys, nth_error xp p = Some xs /\ nth_error yp p = Some ys /\
    bin_nr_to_physical m xorigin dEbin (Z.of_nat p) 0 (xs, ys) = Ok (fs, es).
Proof. exact C16_physical_roundtrip_lem. Qed.
Print Assumptions C16_physical_roundtrip.

(** C16.  The conversion succeeds for tables of one shape when the machine
    arrays are long enough and no divisor is zero; otherwise different shapes
    raise InvalidParticleError. *)
Theorem C16_accepted : forall m xorigin dEbin n k dphi denergy,
  rectangular n k dphi -> rectangular n k denergy -> (0 <= c_dturns m)%Z ->
  ((Z.of_nat n - 1) * c_dturns m < Z.of_nat (length (c_omega m)))%Z -> length (c_phi0 m) = length (c_omega m) ->
  c_hnum m <> 0 -> c_dtbin m <> 0 -> Forall (fun om => om <> 0) (c_omega m) -> dEbin <> 0 ->
  exists xp yp, physical_to_coords m xorigin dEbin dphi denergy = Ok (xp, yp) /\ rectangular n k xp /\ rectangular n k yp.
Proof. exact C16_accepted_lem. Qed.
Print Assumptions C16_accepted.

Definition ex_cm : cmachine := CMachine (qz 2) [qz 3; qz 4; qz 5] (qq 1 2) [1; qz 2; qz 3] 2 (qz 4).
Example ex_C16 : exists fs es, bin_nr_to_physical ex_cm (qq 1 3) (qz 7) 1 0 ([qq 3 2; 0], [qz 4; qz 6]) = Ok (fs, es) /\
  map this fs = [37 # 6; -4 # 3]%Q /\ map this es = [0; 14]%Q.
Proof. do 2 eexists. split; [reflexivity|]. split; vm_compute; reflexivity. Qed.

(** C17.  The start distribution contains, for each cell inside the limits,
    exactly the snpt x snpt regular grid of that cell, and no other particle. *)
Theorem C17_homogeneous_partial : forall snpt imin imax jmin jmax, (0 < snpt)%nat ->
  (0 <= imin)%Z -> (imax < Z.of_nat (length jmin))%Z -> length jmax = length jmin -> jmin <> [] ->
  exists c, homogeneous_coords snpt imin imax jmin jmax = Ok c /\
    forall i j, filter (in_cell i j) c =
      if ((imin <=? i) && (i <=? imax) && (nth (Z.to_nat i) jmin 0 <=? j) && (j <? nth (Z.to_nat i) jmax 0))%Z
      then cell_points snpt i j else [].
Proof. exact C17_homogeneous_partial_lem. Qed.
Print Assumptions C17_homogeneous_partial.

(** C17.  The grid of a cell has snpt^2 points, all strictly inside the cell. *)
Theorem C17_cell_points : forall snpt i j, (0 < snpt)%nat ->
  length (cell_points snpt i j) = (snpt * snpt)%nat /\
  Forall (fun p => qz i < fst p /\ fst p < qz (i + 1) /\ qz j < snd p /\ snd p < qz (j + 1)) (cell_points snpt i j).
Proof. exact C17_cell_points_lem. Qed.
Print Assumptions C17_cell_points.

(** C17 in physical units: particles of the reconstructed profile, converted
    back, are the points of the homogeneous distribution. *)
Theorem C17_physical : forall m xorigin dEbin snpt imin imax jmin jmax p fs es dphi denergy xp yp,
  homogeneous_distribution m xorigin dEbin snpt imin imax jmin jmax (Z.of_nat p) 0 = Ok (fs, es) ->
  nth_error dphi p = Some fs -> nth_error denergy p = Some es ->
  physical_to_coords m xorigin dEbin dphi denergy = Ok (xp, yp) ->
  exists c, homogeneous_coords snpt imin imax jmin jmax = Ok c /\
    nth_error xp p = Some (map fst c) /\ nth_error yp p = Some (map snd c).
Proof. exact C17_physical_lem. Qed.
Print Assumptions C17_physical.

(** A largest phase bin equal to the number of bins, accepted by the checks on
    the limits, makes the distribution fail with IndexError. *)
Theorem C17_imax_refuted : ~ (forall snpt imin imax jmin jmax, (0 < snpt)%nat ->
  (0 <= imin)%Z -> (imin <= imax)%Z -> (imax <= Z.of_nat (length jmax))%Z -> length jmax = length jmin -> jmin <> [] ->
  exists c, homogeneous_coords snpt imin imax jmin jmax = Ok c).
Proof. exact C17_imax_refuted_lem. Qed.
Print Assumptions C17_imax_refuted.

Example ex_C17 : match homogeneous_coords 2 0 1 [1; 0]%Z [2; 1]%Z with
  | Ok c => map (fun p => (this (fst p), this (snd p))) c =
     [(5 # 4, 1 # 4); (7 # 4, 1 # 4); (5 # 4, 3 # 4); (7 # 4, 3 # 4);
      (1 # 4, 5 # 4); (3 # 4, 5 # 4); (1 # 4, 7 # 4); (3 # 4, 7 # 4)]%Q
  | Fail _ => False end.
Proof. vm_compute. reflexivity. Qed.
