(** Specification of a whole reconstruction. *)
From Coq Require Import List ZArith Bool QArith Qcanon String.
From Verif Require Import Base.Res Base.QcLib Model.MTrack Model.MParticles Model.MPreproc Model.MInput Model.MRun
  Model.MRecon Spec.TomoSpec Spec.TrackSpec Spec.ParticleSpec Spec.PreprocSpec.
Import ListNotations.
Local Open Scope Qc_scope.

(** The values at each turn: one for each turn from the first to the last
    profile. *)
Definition every_turn (m : imachine) (tv : tvals) : Prop :=
  forall d l, im_dturns m = Some d ->
    In l [tv_vrf1 tv; tv_vrf2 tv; tv_phi0 tv; tv_deltaE0 tv; tv_drift tv; tv_omega tv] ->
    Z.of_nat (List.length l) = (d * (im_nprofiles m - 1) + 1)%Z.

(** The area lies in an image of n x n cells: columns imin..imax, rows
    jmin[i]..jmax[i]-1 of column i. *)
Definition inside_image (n : nat) (L : qlimits) : Prop :=
  List.length (ql_jmin L) = n /\ List.length (ql_jmax L) = n /\ (0 < n)%nat /\ (0 <= ql_imin L)%Z /\ (ql_imax L < Z.of_nat n)%Z /\
  forall i, (i < n)%nat -> (0 <= nth i (ql_jmin L) 0)%Z /\ (nth i (ql_jmax L) 0 <= Z.of_nat n)%Z.
(** The same, but the last column may be the one behind the image; some column
    is not empty. *)
Definition near_image (n : nat) (L : qlimits) : Prop :=
  List.length (ql_jmin L) = n /\ List.length (ql_jmax L) = n /\ (0 < n)%nat /\ (0 <= ql_imin L <= ql_imax L)%Z /\ (ql_imax L <= Z.of_nat n)%Z /\
  (forall i, (i < n)%nat -> (0 <= nth i (ql_jmin L) 0)%Z /\ (nth i (ql_jmax L) 0 <= Z.of_nat n)%Z) /\
  exists i, (i < n)%nat /\ (nth i (ql_jmin L) 0 < nth i (ql_jmax L) 0)%Z.
Definition in_area (L : qlimits) (i j : Z) : Prop :=
  (ql_imin L <= i <= ql_imax L)%Z /\ (nth (Z.to_nat i) (ql_jmin L) 0 <= j < nth (Z.to_nat i) (ql_jmax L) 0)%Z.

(** The settings of the machine, as numbers. *)
Record numbers := Numbers { n_h : Qc; n_q : Qc; n_p12 : Qc; n_hr : Qc; n_dturns : nat; n_snpt : nat }.
Definition settings (m : imachine) (s : numbers) : Prop :=
  im_h_num m = Some (Fin (n_h s)) /\ im_charge m = Fin (n_q s) /\ im_phi12 m = Fin (n_p12 s) /\
  im_h_ratio m = Some (Fin (n_hr s)) /\ im_dturns m = Some (Z.of_nat (n_dturns s)) /\ im_snpt m = Some (Z.of_nat (n_snpt s)).

(** Machine parameters at each turn.  [past] stands for the phase difference
    of the two harmonics at the last turn, which the program reads behind the
    end of an array. *)
Definition at_turns (s : numbers) (tv : tvals) (nturns : nat) (past : Qc) : params Qc :=
  Params (fun t => nth t (tv_vrf1 tv) 0 * n_q s) (fun t => nth t (tv_vrf2 tv) 0 * n_q s)
    (fun t => nth t (tv_phi0 tv) 0) (fun t => if Nat.ltb t nturns then n_p12 s else past)
    (fun t => nth t (tv_deltaE0 tv) 0) (fun t => nth t (tv_drift tv) 0) (n_hr s).

(** From a point of the image (in bins) to phase and energy at a turn, and
    back. *)
Definition from_bins (s : numbers) (tv : tvals) (cur : pmachine) (L : qlimits) (turn : nat) (p : Qc * Qc) : Qc * Qc :=
  ((fst p + ql_xorigin L) * n_h s * nth turn (tv_omega tv) 0 * p_dtbin cur - nth turn (tv_phi0 tv) 0,
   (snd p - p_synch_y cur) * ql_dEbin L).
Definition to_bins (s : numbers) (tv : tvals) (cur : pmachine) (L : qlimits) (turn : nat) (p : Qc * Qc) : Qc * Qc :=
  ((fst p + nth turn (tv_phi0 tv) 0) / (n_h s * nth turn (tv_omega tv) 0 * p_dtbin cur) - ql_xorigin L,
   snd p / ql_dEbin L + p_synch_y cur).

(** Where a particle that starts at point p of the image of profile a is at
    profile b. *)
Definition position (sin : Qc -> Qc) (past : Qc) (s : numbers) (tv : tvals) (cur : pmachine) (L : qlimits) (nprofs a b : nat)
  (p : Qc * Qc) : Qc * Qc :=
  to_bins s tv cur L (b * n_dturns s)
    (travel Qcplus Qcminus Qcmult sin (at_turns s tv (n_dturns s * (nprofs - 1)) past) (a * n_dturns s) (b * n_dturns s)
       (from_bins s tv cur L (a * n_dturns s) p)).

(** A profile number, counted from the end if negative. *)
Definition profile_number (n : nat) (z : Z) (p : nat) : Prop :=
  (p < n)%nat /\ (z = Z.of_nat p \/ z = Z.of_nat p - Z.of_nat n)%Z.

(** The starting points: snpt x snpt points in each cell of the area, and no
    others. *)
Definition starting_points (L : qlimits) (snpt : nat) (c : list (Qc * Qc)) : Prop :=
  forall i j, (in_area L i j -> filter (in_cell i j) c = cell_points snpt i j) /\
              (~ in_area L i j -> filter (in_cell i j) c = []).

(** The numbers of the particles that stay inside an image of [nbins] columns
    at all profiles, in increasing order. *)
Definition stay_inside (nprofs nbins : nat) (pos : nat -> Qc * Qc -> Qc * Qc) (c : list (Qc * Qc)) (keep : list nat) : Prop :=
  increasing keep /\
  forall k, In k keep <->
    ((k < List.length c)%nat /\ forall q, (q < nprofs)%nat -> 0 <= fst (pos q (nth k c (0, 0))) /\ fst (pos q (nth k c (0, 0))) < qn nbins).

(** The same settings with another self-field flag. *)
Definition with_self_field (m : imachine) (b : bool) : imachine :=
  IMachine (im_dtbin m) (im_dturns m) (im_filmstart m) (im_filmstop m) (im_filmstep m) (im_niter m) (im_snpt m)
    (im_machine_ref_frame m) (im_beam_ref_frame m) (im_h_num m) (im_h_ratio m) (im_b0 m) (im_mean_orbit_rad m)
    (im_bending_rad m) (im_e_rest m) (im_pickup m) (im_g_coupling m) (im_output_dir m) (im_synch_part_x m) (im_demax m)
    (im_full_pp m) b (im_vrf1 m) (im_vrf1dot m) (im_vrf2 m) (im_vrf2dot m) (im_phi12 m) (im_bdot m) (im_trans_gamma m)
    (im_charge m) (im_zwall_over_n m) (im_nprofiles m) (im_nbins m) (im_min_dt m) (im_max_dt m).

(** The parameter lines with line 92, the self-field flag, replaced. *)
Definition replace_flag (lines : list string) (s : string) : list string := firstn 91 lines ++ s :: skipn 92 lines.

(** A computation that ends with a value, an exception or a division by zero,
    not with an access outside an array or a loop that does not end. *)
Definition no_bad_access {A} (r : res A) : Prop := r <> Fail OutOfBounds /\ r <> Fail OutOfFuel.
