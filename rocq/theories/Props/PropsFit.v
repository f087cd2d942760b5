(** Theorems on the fitted synchronous bin and on the charge of a profile (C72, C73).
    Statements only: each theorem is closed by the lemma of the same name in
    Proof/CFit.v.  Written by tools/mkprops.py. *)
From Coq Require Import Reals Qreals List ZArith Bool QArith Qcanon Lia Lra Ranalysis.
From Verif Require Import Base.Res Base.QcLib Base.RLib Model.MRecon Model.MParticles Model.MPreproc Model.MFoot Model.MMachine Model.MFit
  Spec.TomoSpec Spec.PreprocSpec Spec.FitSpec.
Import ListNotations.
Local Open Scope Qc_scope.
From Verif Require Import Proof.CFit.

(** C72.  For every profile that is not negative everywhere and has tangent
    bins, the fits use four bins around the lower and three or four around the
    upper end, all inside the profile; the feet are the zeros of the lines of
    least squares through them.  There are none exactly if a line is
    horizontal. *)
Theorem C72_feet : forall prof up low, (exists i, (i < length prof)%nat /\ 0 <= nth i prof 0) ->
  calc_tangentbins prof = Ok (up, low) ->
  exists u l, up = Z.of_nat u /\ low = Z.of_nat l /\ (2 <= l)%nat /\ (l <= u)%nat /\ (u + 1 < length prof)%nat /\
  exists bl al bu au, best_line bl al (points prof (l - 2) 4) /\
    best_line bu au (points prof (u - 1) (Nat.min 4 (length prof + 1 - u))) /\
    match calc_tangentfeet prof with
    | Ok (foot_up, foot_low) => bl <> 0 /\ bl * foot_low + al = 0 /\ bu <> 0 /\ bu * foot_up + au = 0
    | Fail e => e = NotFinite /\ (bl = 0 \/ bu = 0)
    end.
Proof. exact C72_feet_lem. Qed.
Print Assumptions C72_feet.

From Verif Require Import Proof.PMachine.
Example C72_feet_ex : calc_tangentbins [0; 1; qz 2; qz 3; qz 10; qz 3; qz 2; 1; 0] = Ok (6, 2)%Z.
Proof. vm_compute. reflexivity. Qed.

(** C72.  Straight ends are prolonged to where they meet zero, with bin k at
    k + 1/2. *)
Theorem C72_straight : forall prof u l s z s' z', (exists i, (i < length prof)%nat /\ 0 <= nth i prof 0) ->
  calc_tangentbins prof = Ok (Z.of_nat u, Z.of_nat l) -> s <> 0 -> s' <> 0 ->
  straight s z (points prof (l - 2) 4) -> straight s' z' (points prof (u - 1) (Nat.min 4 (length prof + 1 - u))) ->
  calc_tangentfeet prof = Ok (z', z).
Proof. exact C72_straight_lem. Qed.
Print Assumptions C72_straight.

Example C72_straight_ex : match calc_tangentfeet [0; 1; qz 2; qz 3; qz 10; qz 3; qz 2; 1; 0] with
  | Ok (u, l) => (this u, this l) = (17 # 2, 1 # 2)%Q | Fail _ => False end.
Proof. vm_compute. reflexivity. Qed.

(** C72.  The gain of the pick-up does not matter: profiles multiplied by a
    positive number have the same synchronous bin and feet. *)
Theorem C72_scale : forall newton c wf m, 0 < c ->
  fit_synch_part_x newton (map (map (Qcmult c)) wf) m = fit_synch_part_x newton wf m.
Proof. exact C72_scale_lem. Qed.
Print Assumptions C72_scale.

(** C73.  The charge q of the beam reference profile: q times the elementary
    charge times the pick-up sensitivity is the integral of the profile over
    time.  It is defined exactly if the product of the constants is not 0. *)
Theorem C73_charge : forall e wf r sampling pickup q,
  calc_profilecharge e wf r sampling pickup = Ok q <->
  exists prof, np_get wf r = Ok prof /\ e * pickup <> 0 /\ q * e * pickup = qsum prof * sampling.
Proof. exact C73_charge_lem. Qed.
Print Assumptions C73_charge.

(** C73.  With the original sampling time the charge does not depend on a
    rebinning by a divisor of the number of bins. *)
Theorem C73_rebin_partial : forall e n k r wf ref sampling pickup dt sx out dt' sx', rectangular n (k * r) wf -> (0 < r)%nat ->
  rebin wf (k * r) r dt sx = Ok (out, dt', sx') ->
  calc_profilecharge e out ref sampling pickup = calc_profilecharge e wf ref sampling pickup.
Proof. exact C73_rebin_partial_lem. Qed.
Print Assumptions C73_rebin_partial.

(** C73, refuted: with left-over bins the charge changes. *)
Theorem C73_rebin_refuted : ~ (forall e n m r wf ref sampling pickup dt sx out dt' sx', rectangular n m wf -> (0 < r)%nat ->
  rebin wf m r dt sx = Ok (out, dt', sx') ->
  calc_profilecharge e out ref sampling pickup = calc_profilecharge e wf ref sampling pickup).
Proof. exact C73_rebin_refuted_lem. Qed.
Print Assumptions C73_rebin_refuted.

Example C73_ex :
  match calc_profilecharge (qz 2) [[1; 1; 1]; [qz 5; qz 3; qz 4]] 1 (qz 3) (qq 1 2) with
  | Ok q => this q = (36 # 1)%Q | Fail _ => False end.
Proof. vm_compute. reflexivity. Qed.
Local Open Scope R_scope.

(** C72.  What the potential is: its slope is the voltage of the synchronous
    particle minus that at the phase. *)
Theorem C72_potential : forall v1 v2 h_ratio phi12 phi0 phi, h_ratio <> 0 ->
  derivable_pt_lim (potential v1 v2 h_ratio phi12 phi0) phi (volts v1 v2 h_ratio phi12 phi0 - volts v1 v2 h_ratio phi12 phi).
Proof. exact C72_potential_lem. Qed.
Print Assumptions C72_potential.

(** C72.  If the root finder returns a root and the voltages at the reference
    turn are those the code looks up, then with the fitted bin x at the
    synchronous phase both feet of the bunch are at the same potential.
    Missing for the full property: the voltages are looked up at the number of
    the reference frame, see [C72_balance_refuted]. *)
Theorem C72_balance_partial : forall newton wf m x lo up phi0 omega v1 v2,
  (forall f x0 f' r, newton f x0 f' = Ok r -> f r = Ok 0) ->
  fit_synch_part_x newton wf m = Ok (x, lo, up) ->
  let turn := (fm_beam_ref m * fm_dturns m)%Z in
  np_get (fm_phi0 m) turn = Ok phi0 -> np_get (fm_omega m) turn = Ok omega ->
  np_get (fm_vrf1 m) turn = Ok v1 -> np_get (fm_vrf2 m) turn = Ok v2 ->
  np_get (fm_vrf1 m) (fm_machine_ref m) = Ok v1 -> np_get (fm_vrf2 m) (fm_machine_ref m) = Ok v2 ->
  let phase y := phi0 + (y - x) * fm_dtbin m * fm_h_num m * omega in
  potential v1 v2 (fm_h_ratio m) (fm_phi12 m) phi0 (phase lo) = potential v1 v2 (fm_h_ratio m) (fm_phi12 m) phi0 (phase up).
Proof. exact C72_balance_partial_lem. Qed.
Print Assumptions C72_balance_partial.

(** C72.  In a stationary bucket of one harmonic the fitted bin is half way
    between the feet, if the root finder stays within half a period of its
    starting point. *)
Theorem C72_symmetric : forall newton wf m x lo up omega v1,
  (forall f x0 f' r, newton f x0 f' = Ok r -> f r = Ok 0 /\ Rabs (r - x0) < PI) ->
  fit_synch_part_x newton wf m = Ok (x, lo, up) ->
  let turn := (fm_beam_ref m * fm_dturns m)%Z in
  np_get (fm_phi0 m) turn = Ok 0 -> np_get (fm_omega m) turn = Ok omega ->
  np_get (fm_vrf1 m) (fm_machine_ref m) = Ok v1 -> v1 <> 0 ->
  np_get (fm_vrf2 m) turn = Ok 0 -> np_get (fm_vrf2 m) (fm_machine_ref m) = Ok 0 ->
  0 < (up - lo) * fm_dtbin m * fm_h_num m * omega < 2 * PI ->
  x = (lo + up) / 2.
Proof. exact C72_symmetric_lem. Qed.
Print Assumptions C72_symmetric.

(** The hypotheses of [C72_balance_partial] and [C72_symmetric] hold for a
    stationary bucket and a symmetric profile, with a root finder that returns
    its starting point if that is a root. *)
Example C72_symmetric_ex :
  let newton (f : R -> res R) x0 (f' : R -> res R) :=
    match f x0 with Ok v => if Req_EM_T v 0 then Ok x0 else Fail (Raised RuntimeError) | Fail e => Fail e end in
  let m := FMachine 1 0 0 1 1 2 0 [0] [PI / 16] [3] [0] in
  (forall f x0 f' r, newton f x0 f' = Ok r -> f r = Ok 0 /\ Rabs (r - x0) < PI) /\
  fit_synch_part_x newton [[]; [0; 1; qz 2; qz 3; qz 10; qz 3; qz 2; 1; 0]%Qc] m = Ok (9 / 2, 1 / 2, 17 / 2) /\
  0 < (17 / 2 - 1 / 2) * fm_dtbin m * fm_h_num m * (PI / 16) < 2 * PI.
Proof.
  assert (PG := PI_RGT_0). split; [|split].
  - intros f x0 f' r E. destruct (f x0) as [v|] eqn:F; [|discriminate]. destruct (Req_EM_T v 0) as [->|]; [|discriminate].
    injection E as <-. split; [exact F|]. rewrite Rminus_diag_eq, Rabs_R0 by reflexivity. exact PG.
  - unfold fit_synch_part_x. cbn [fm_beam_ref fm_machine_ref fm_dturns fm_dtbin fm_h_num fm_h_ratio fm_phi12 fm_phi0 fm_omega fm_vrf1 fm_vrf2].
    set (prof := [0; 1; qz 2; qz 3; qz 10; qz 3; qz 2; 1; 0]%Qc).
    assert (F : match calc_tangentfeet prof with Ok (u, l) => (this u, this l) = (17 # 2, 1 # 2)%Q | Fail _ => False end)
      by (vm_compute; reflexivity).
    change (np_get [[]; prof] 1) with (Ok prof). cbn [bind].
    destruct (calc_tangentfeet prof) as [[fu fl]|]; [|destruct F]. injection F as A B. cbn [bind]. unfold real.
    rewrite A, B. unfold Q2R. cbn [Qnum Qden].
    change (np_get [PI / 16] (1 * 0)) with (Ok (PI / 16)). change (np_get [0] (1 * 0)) with (Ok 0). cbn [bind].
    replace (1 * ((17 * / 2 - 1 * / 2) * 1) * (PI / 16)) with (PI / 2) by field.
    unfold phase_low. change (np_get [0] (1 * 0)) with (Ok 0). change (np_get [0] 0) with (Ok 0).
    change (np_get [3] (1 * 0)) with (Ok 3). change (np_get [3] 0) with (Ok 3). cbn [bind]. rewrite rdiv_val by lra. cbn [bind].
    replace (0 - PI / 2 / 2 + PI / 2) with (PI / 4) by field. replace (0 - PI / 2 / 2) with (- (PI / 4)) by field.
    rewrite cos_neg. unfold rf_voltage_at_phase. rewrite sin_0.
    match goal with |- context [Req_EM_T ?v 0] => destruct (Req_EM_T v 0) as [_|N]; [|exfalso; apply N; field] end.
    cbn [bind]. rewrite rdiv_val by lra. cbn [bind]. do 3 f_equal; try field. lra.
  - cbn [fm_dtbin fm_h_num]. split; lra.
Qed.

(** C72, refuted: with two turns per frame and changing voltages the feet are
    not at the same potential. *)
Theorem C72_balance_refuted : ~ (forall newton wf m x lo up phi0 omega v1 v2,
  (forall f x0 f' r, newton f x0 f' = Ok r -> f r = Ok 0) ->
  fit_synch_part_x newton wf m = Ok (x, lo, up) ->
  let turn := (fm_beam_ref m * fm_dturns m)%Z in
  np_get (fm_phi0 m) turn = Ok phi0 -> np_get (fm_omega m) turn = Ok omega ->
  np_get (fm_vrf1 m) turn = Ok v1 -> np_get (fm_vrf2 m) turn = Ok v2 ->
  let phase y := phi0 + (y - x) * fm_dtbin m * fm_h_num m * omega in
  potential v1 v2 (fm_h_ratio m) (fm_phi12 m) phi0 (phase lo) = potential v1 v2 (fm_h_ratio m) (fm_phi12 m) phi0 (phase up)).
Proof. exact C72_balance_refuted_lem. Qed.
Print Assumptions C72_balance_refuted.
