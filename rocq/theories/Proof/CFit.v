(** Proofs of the properties of the fitted synchronous bin and of the charge. *)
(*HEAD*)
From Coq Require Import Reals Qreals List ZArith Bool QArith Qcanon Lia Lra Ranalysis.
From Verif Require Import Base.Res Base.QcLib Base.RLib Model.MRecon Model.MParticles Model.MPreproc Model.MFoot Model.MMachine Model.MFit
  Spec.TomoSpec Spec.PreprocSpec Spec.FitSpec.
Import ListNotations.
Local Open Scope Qc_scope.
(*DAEH*)
From Verif Require Import Base.ResLemmas Base.QcLemmas Base.Loops Proof.PPreproc Proof.PFoot Proof.CPreproc Proof.PMachine Proof.CMachine Proof.PFit.

(** * C72: the feet *)

Lemma tangentbins_shape prof up low : (exists i, (i < length prof)%nat /\ 0 <= nth i prof 0) -> calc_tangentbins prof = Ok (up, low) ->
  exists u l, up = Z.of_nat u /\ low = Z.of_nat l /\ (2 <= l)%nat /\ (l <= u)%nat /\ (u + 1 < length prof)%nat.
Proof.
  intros [i [Hi P]] E. destruct (C41_tangent_partial_lem prof ltac:(lia) (ex_intro _ i (conj Hi P))) as (mb & _ & _ & D).
  destruct D as [[_ (u & l & E' & A & B & C & F & _)]|[_ E']]; [|congruence].
  rewrite E in E'. injection E' as -> ->. exists u, l. repeat split; auto; lia.
Qed.

(** C72.  For every profile that is not negative everywhere and has tangent
    bins, the fits use four bins around the lower and three or four around the
    upper end, all inside the profile; the feet are the zeros of the lines of
    least squares through them.  There are none exactly if a line is
    horizontal. *)
Lemma C72_feet_lem : forall prof up low, (exists i, (i < length prof)%nat /\ 0 <= nth i prof 0) ->
  calc_tangentbins prof = Ok (up, low) ->
  exists u l, up = Z.of_nat u /\ low = Z.of_nat l /\ (2 <= l)%nat /\ (l <= u)%nat /\ (u + 1 < length prof)%nat /\
  exists bl al bu au, best_line bl al (points prof (l - 2) 4) /\
    best_line bu au (points prof (u - 1) (Nat.min 4 (length prof + 1 - u))) /\
    match calc_tangentfeet prof with
    | Ok (foot_up, foot_low) => bl <> 0 /\ bl * foot_low + al = 0 /\ bu <> 0 /\ bu * foot_up + au = 0
    | Fail e => e = NotFinite /\ (bl = 0 \/ bu = 0)
    end.
Proof.
  intros prof up low P E. destruct (tangentbins_shape prof up low P E) as (u & l & -> & -> & A & B & C).
  exists u, l. repeat (split; [auto; fail|]).
  destruct (feet_fit prof u l E A B C) as (S1 & S2 & L1 & L2 & bl & al & bu & au & _ & _ & [N1 N2] & [N3 N4] & EF).
  exists bl, al, bu, au. split; [apply normal_best; auto|]. split; [apply normal_best; auto|]. rewrite EF.
  destruct (Qc_eq_dec bl 0) as [->|Z1]; [rewrite qdiv_zero; cbn [bind]; auto|]. rewrite qdiv_ok by auto. cbn [bind].
  destruct (Qc_eq_dec bu 0) as [->|Z2]; [rewrite qdiv_zero; cbn [bind]; auto|]. rewrite qdiv_ok by auto. cbn [bind].
  replace (qz (-1)) with (- (1)) by (apply Qc_is_canon; reflexivity).
  repeat split; auto; field; auto.
Qed.
(*EX*)
From Verif Require Import Proof.PMachine.
Example C72_feet_ex : calc_tangentbins [0; 1; qz 2; qz 3; qz 10; qz 3; qz 2; 1; 0] = Ok (6, 2)%Z.
Proof. vm_compute. reflexivity. Qed.
(*XE*)

(** C72.  Straight ends are prolonged to where they meet zero, with bin k at
    k + 1/2. *)
Lemma C72_straight_lem : forall prof u l s z s' z', (exists i, (i < length prof)%nat /\ 0 <= nth i prof 0) ->
  calc_tangentbins prof = Ok (Z.of_nat u, Z.of_nat l) -> s <> 0 -> s' <> 0 ->
  straight s z (points prof (l - 2) 4) -> straight s' z' (points prof (u - 1) (Nat.min 4 (length prof + 1 - u))) ->
  calc_tangentfeet prof = Ok (z', z).
Proof.
  intros prof u l s z s' z' P E NS NS' H H'. destruct (tangentbins_shape prof _ _ P E) as (u' & l' & E1 & E2 & A & B & C).
  apply Nat2Z.inj in E1, E2. subst u' l'.
  destruct (feet_fit prof u l E A B C) as (S1 & S2 & L1 & L2 & bl & al & bu & au & _ & _ & [N1 N2] & [N3 N4] & ->).
  destruct (polyfit_straight _ _ _ _ _ L1 S1 H N1 N2) as [-> ->]. destruct (polyfit_straight _ _ _ _ _ L2 S2 H' N3 N4) as [-> ->].
  rewrite !qdiv_ok by auto. cbn [bind].
  replace (qz (-1)) with (- (1)) by (apply Qc_is_canon; reflexivity). f_equal. f_equal; field; auto.
Qed.
(*EX*)
Example C72_straight_ex : match calc_tangentfeet [0; 1; qz 2; qz 3; qz 10; qz 3; qz 2; 1; 0] with
  | Ok (u, l) => (this u, this l) = (17 # 2, 1 # 2)%Q | Fail _ => False end.
Proof. vm_compute. reflexivity. Qed.
(*XE*)

(** C72.  The gain of the pick-up does not matter: profiles multiplied by a
    positive number have the same synchronous bin and feet. *)
Lemma C72_scale_lem : forall newton c wf m, 0 < c ->
  fit_synch_part_x newton (map (map (Qcmult c)) wf) m = fit_synch_part_x newton wf m.
Proof.
  intros newton c wf m H. unfold fit_synch_part_x. rewrite np_get_map.
  destruct (np_get wf (fm_beam_ref m)) as [prof|e]; [|reflexivity]. cbn [bind]. rewrite feet_scale by exact H. reflexivity.
Qed.

(** * C73: the charge *)

Lemma fact_ne (a b : Qc) : a * b <> 0 -> a <> 0 /\ b <> 0.
Proof. intros H. split; intros ->; apply H; ring. Qed.

(** C73.  The charge q of the beam reference profile: q times the elementary
    charge times the pick-up sensitivity is the integral of the profile over
    time.  It is defined exactly if the product of the constants is not 0. *)
Lemma C73_charge_lem : forall e wf r sampling pickup q,
  calc_profilecharge e wf r sampling pickup = Ok q <->
  exists prof, np_get wf r = Ok prof /\ e * pickup <> 0 /\ q * e * pickup = qsum prof * sampling.
Proof.
  intros e wf r st p q. unfold calc_profilecharge. split.
  - intros H. apply bind_ok in H. destruct H as [prof [E D]]. apply qdiv_inv in D. destruct D as [N ->].
    exists prof. split; [exact E|]. split; [exact N|]. apply fact_ne in N. field. tauto.
  - intros (prof & -> & N & H). cbn [bind]. rewrite qdiv_ok by exact N. f_equal. apply fact_ne in N. rewrite <- H. field. tauto.
Qed.

(** C73.  With the original sampling time the charge does not depend on a
    rebinning by a divisor of the number of bins. *)
Lemma C73_rebin_partial_lem : forall e n k r wf ref sampling pickup dt sx out dt' sx', rectangular n (k * r) wf -> (0 < r)%nat ->
  rebin wf (k * r) r dt sx = Ok (out, dt', sx') ->
  calc_profilecharge e out ref sampling pickup = calc_profilecharge e wf ref sampling pickup.
Proof.
  intros e n k r wf ref st p dt sx out dt' sx' R Hr E.
  destruct (C36_divisible_lem n k r wf dt sx R Hr) as (o & E' & _ & _ & S). rewrite E in E'. injection E' as -> _ _.
  assert (C : forall l, calc_profilecharge e l ref st p = (s <- np_get (map qsum l) ref ;; qdiv (s * st) (e * p))).
  { intros l. unfold calc_profilecharge. rewrite np_get_map. destruct (np_get l ref); reflexivity. }
  rewrite !C, S. reflexivity.
Qed.

(** C73, refuted: with left-over bins the charge changes. *)
Lemma C73_rebin_refuted_lem : ~ (forall e n m r wf ref sampling pickup dt sx out dt' sx', rectangular n m wf -> (0 < r)%nat ->
  rebin wf m r dt sx = Ok (out, dt', sx') ->
  calc_profilecharge e out ref sampling pickup = calc_profilecharge e wf ref sampling pickup).
Proof.
  intros H. destruct (rebin [[1; 1; 1]] 3 2 None None) as [[[out dt] sx]|e] eqn:E; [|vm_compute in E; discriminate].
  assert (H1 := H 1 1%nat 3%nat 2%nat [[1; 1; 1]] 0%Z 1 1 None None out dt sx ltac:(split; auto) ltac:(lia) E).
  vm_compute in E. injection E as <- _ _.
  assert (X : match calc_profilecharge 1 [[1; 1; 1]] 0 1 1 with Ok q => this q = 3%Q | Fail _ => False end) by (vm_compute; reflexivity).
  rewrite <- H1 in X. vm_compute in X. discriminate.
Qed.
(*EX*)
Example C73_ex :
  match calc_profilecharge (qz 2) [[1; 1; 1]; [qz 5; qz 3; qz 4]] 1 (qz 3) (qq 1 2) with
  | Ok q => this q = (36 # 1)%Q | Fail _ => False end.
Proof. vm_compute. reflexivity. Qed.
Local Open Scope R_scope.
(*XE*)

(** * C72: the synchronous bin *)

(** C72.  What the potential is: its slope is the voltage of the synchronous
    particle minus that at the phase. *)
Lemma C72_potential_lem : forall v1 v2 h_ratio phi12 phi0 phi, h_ratio <> 0 ->
  derivable_pt_lim (potential v1 v2 h_ratio phi12 phi0) phi (volts v1 v2 h_ratio phi12 phi0 - volts v1 v2 h_ratio phi12 phi).
Proof.
  intros v1 v2 h p12 p0 phi H. unfold potential, volts.
  apply (derivable_pt_lim_ext (fun u => v1 * cos u + (v2 / h) * cos (h * (u - p12)) + (v1 * sin p0 + v2 * sin (h * (p0 - p12))) * u)).
  - intros u. field. exact H.
  - eapply d_eq; [|diff]. cbv beta. field. exact H.
Qed.

Lemma fit_inv newton wf m x lo up : fit_synch_part_x newton wf m = Ok (x, lo, up) ->
  let turn := (fm_beam_ref m * fm_dturns m)%Z in
  exists prof fu fl omega phi0 phil, np_get wf (fm_beam_ref m) = Ok prof /\ calc_tangentfeet prof = Ok (fu, fl) /\
    lo = real fl /\ up = real fu /\ np_get (fm_omega m) turn = Ok omega /\ np_get (fm_phi0 m) turn = Ok phi0 /\
    let k := fm_h_num m * omega * fm_dtbin m in let len := fm_h_num m * ((up - lo) * fm_dtbin m) * omega in
    newton (fun phase => phase_low phase len (fm_vrf1 m) (fm_vrf2 m) (fm_phi0 m) (fm_h_ratio m) (fm_phi12 m) turn (fm_machine_ref m))
      (phi0 - len / 2) (fun phase => dphase_low phase len (fm_vrf1 m) (fm_vrf2 m) (fm_h_ratio m) (fm_phi12 m) turn) = Ok phil /\
    k <> 0 /\ x = lo + (phi0 - phil) / k.
Proof.
  intros H turn. unfold fit_synch_part_x in H.
  apply bind_ok in H. destruct H as [prof [E1 H]]. apply bind_ok in H. destruct H as [[fu fl] [E2 H]].
  apply bind_ok in H. destruct H as [omega [E3 H]]. apply bind_ok in H. destruct H as [phi0 [E4 H]].
  apply bind_ok in H. destruct H as [phil [E5 H]]. apply bind_ok in H. destruct H as [d [E6 H]].
  apply rdiv_ok in E6. destruct E6 as [N ->]. injection H as <- <- <-.
  exists prof, fu, fl, omega, phi0, phil. split; [exact E1|]. split; [exact E2|]. split; [reflexivity|]. split; [reflexivity|].
  split; [exact E3|]. split; [exact E4|]. cbv zeta. split; [exact E5|]. split; [exact N|reflexivity].
Qed.

Lemma three_ne a b c : a * b * c <> 0 -> a <> 0 /\ b <> 0 /\ c <> 0.
Proof. intros H. repeat split; intros ->; apply H; ring. Qed.

(** C72.  If the root finder returns a root and the voltages at the reference
    turn are those the code looks up, then with the fitted bin x at the
    synchronous phase both feet of the bunch are at the same potential.
    Missing for the full property: the voltages are looked up at the number of
    the reference frame, see [C72_balance_refuted]. *)
Lemma C72_balance_partial_lem : forall newton wf m x lo up phi0 omega v1 v2,
  (forall f x0 f' r, newton f x0 f' = Ok r -> f r = Ok 0) ->
  fit_synch_part_x newton wf m = Ok (x, lo, up) ->
  let turn := (fm_beam_ref m * fm_dturns m)%Z in
  np_get (fm_phi0 m) turn = Ok phi0 -> np_get (fm_omega m) turn = Ok omega ->
  np_get (fm_vrf1 m) turn = Ok v1 -> np_get (fm_vrf2 m) turn = Ok v2 ->
  np_get (fm_vrf1 m) (fm_machine_ref m) = Ok v1 -> np_get (fm_vrf2 m) (fm_machine_ref m) = Ok v2 ->
  let phase y := phi0 + (y - x) * fm_dtbin m * fm_h_num m * omega in
  potential v1 v2 (fm_h_ratio m) (fm_phi12 m) phi0 (phase lo) = potential v1 v2 (fm_h_ratio m) (fm_phi12 m) phi0 (phase up).
Proof.
  intros newton wf m x lo up phi0 omega v1 v2 HN H turn P O V1 V2 R1 R2 phase.
  destruct (fit_inv _ _ _ _ _ _ H) as (prof & fu & fl & om & ph & phil & _ & _ & _ & _ & EO & EP & EN & K & X).
  fold turn in EO, EP, EN. rewrite O in EO. rewrite P in EP. injection EO as <-. injection EP as <-.
  apply HN in EN. unfold phase_low in EN. rewrite R1, R2 in EN. cbn [bind] in EN.
  apply bind_ok in EN. destruct EN as [w [D EN]]. apply rdiv_ok in D. destruct D as [HR ->].
  rewrite P, V1, V2 in EN. cbn [bind] in EN. injection EN as EN.
  destruct (three_ne _ _ _ K) as (K1 & K2 & K3).
  assert (A : phase lo = phil) by (unfold phase; rewrite X; field; auto).
  assert (B : phase up = phil + fm_h_num m * ((up - lo) * fm_dtbin m) * omega).
  { unfold phase. rewrite X. field. auto. }
  rewrite A, B. unfold potential, volts. unfold rf_voltage_at_phase in EN.
  match goal with |- ?u = ?v => enough (v - u = 0) by lra; rewrite <- EN; field; exact HR end.
Qed.

(** C72.  In a stationary bucket of one harmonic the fitted bin is half way
    between the feet, if the root finder stays within half a period of its
    starting point. *)
Lemma C72_symmetric_lem : forall newton wf m x lo up omega v1,
  (forall f x0 f' r, newton f x0 f' = Ok r -> f r = Ok 0 /\ Rabs (r - x0) < PI) ->
  fit_synch_part_x newton wf m = Ok (x, lo, up) ->
  let turn := (fm_beam_ref m * fm_dturns m)%Z in
  np_get (fm_phi0 m) turn = Ok 0 -> np_get (fm_omega m) turn = Ok omega ->
  np_get (fm_vrf1 m) (fm_machine_ref m) = Ok v1 -> v1 <> 0 ->
  np_get (fm_vrf2 m) turn = Ok 0 -> np_get (fm_vrf2 m) (fm_machine_ref m) = Ok 0 ->
  0 < (up - lo) * fm_dtbin m * fm_h_num m * omega < 2 * PI ->
  x = (lo + up) / 2.
Proof.
  intros newton wf m x lo up omega v1 HN H turn P O R1 NV V2 R2 LL.
  destruct (fit_inv _ _ _ _ _ _ H) as (prof & fu & fl & om & ph & phil & _ & _ & _ & _ & EO & EP & EN & K & X).
  fold turn in EO, EP, EN. rewrite O in EO. rewrite P in EP. injection EO as <-. injection EP as <-.
  apply HN in EN. destruct EN as [EN C]. unfold phase_low in EN. rewrite R1, R2 in EN. cbn [bind] in EN.
  apply bind_ok in EN. destruct EN as [w [D EN]]. apply rdiv_ok in D. destruct D as [HR ->].
  rewrite P, V2 in EN. cbn [bind] in EN. apply bind_ok in EN. destruct EN as [v1t [_ EN]]. injection EN as EN.
  set (len := fm_h_num m * ((up - lo) * fm_dtbin m) * omega) in *.
  assert (LE : len = (up - lo) * fm_dtbin m * fm_h_num m * omega) by (unfold len; ring). rewrite <- LE in LL.
  unfold rf_voltage_at_phase in EN. rewrite sin_0 in EN.
  assert (Z1 : v1 * (cos (phil + len) - cos phil) = 0) by (rewrite <- EN; field; exact HR).
  apply Rmult_integral in Z1. destruct Z1 as [|Z1]; [contradiction|].
  rewrite form2 in Z1. replace ((phil + len - phil) / 2) with (len / 2) in Z1 by field.
  replace ((phil + len + phil) / 2) with (phil - (0 - len / 2)) in Z1 by field.
  set (d := phil - (0 - len / 2)) in *.
  assert (SL : 0 < sin (len / 2)) by (apply sin_gt_0; lra).
  assert (SD : sin d = 0) by nra.
  assert (D0 : d = 0).
  { apply Rabs_def2 in C. destruct (Rtotal_order d 0) as [L|[E|G]]; [|exact E|].
    - assert (0 < sin (- d)) by (apply sin_gt_0; lra). rewrite sin_neg in *. lra.
    - assert (0 < sin d) by (apply sin_gt_0; lra). lra. }
  assert (PL : phil = - (len / 2)) by (unfold d in D0; lra).
  destruct (three_ne _ _ _ K) as (K1 & K2 & K3). rewrite X, PL. unfold len. field. auto.
Qed.

(*EX*)
(** The hypotheses of [C72_balance_partial] and [C72_symmetric] hold for a
    stationary bucket and a symmetric profile, with a root finder that returns
    its starting point if that is a root. *)
Example C72_symmetric_ex :
  let newton (f : R -> res R) x0 (f' : R -> res R) :=
    match f x0 with Ok v => if Req_EM_T v 0 then Ok x0 else Fail (Raised RuntimeError) | Fail e => Fail e end in
  let m := FMachine 1 0 0 1 1 2 0 [0] [PI / 16] [3] [0] in
  (forall f x0 f' r, newton f x0 f' = Ok r -> f r = Ok 0 /\ Rabs (r - x0) < PI) /\
  fit_synch_part_x newton [[]; [0; 1; qz 2; qz 3; qz 10; qz 3; qz 2; 1; 0]%Qc] m = Ok (9 / 2, 1 / 2, 17 / 2) /\
  0 < (17 / 2 - 1 / 2) * fm_dtbin m * fm_h_num m * (PI / 16) < 2 * PI.
Proof.
  assert (PG := PI_RGT_0). split; [|split].
  - intros f x0 f' r E. destruct (f x0) as [v|] eqn:F; [|discriminate]. destruct (Req_EM_T v 0) as [->|]; [|discriminate].
    injection E as <-. split; [exact F|]. rewrite Rminus_diag_eq, Rabs_R0 by reflexivity. exact PG.
  - unfold fit_synch_part_x. cbn [fm_beam_ref fm_machine_ref fm_dturns fm_dtbin fm_h_num fm_h_ratio fm_phi12 fm_phi0 fm_omega fm_vrf1 fm_vrf2].
    set (prof := [0; 1; qz 2; qz 3; qz 10; qz 3; qz 2; 1; 0]%Qc).
    assert (F : match calc_tangentfeet prof with Ok (u, l) => (this u, this l) = (17 # 2, 1 # 2)%Q | Fail _ => False end)
      by (vm_compute; reflexivity).
    change (np_get [[]; prof] 1) with (Ok prof). cbn [bind].
    destruct (calc_tangentfeet prof) as [[fu fl]|]; [|destruct F]. injection F as A B. cbn [bind]. unfold real.
    rewrite A, B. unfold Q2R. cbn [Qnum Qden].
    change (np_get [PI / 16] (1 * 0)) with (Ok (PI / 16)). change (np_get [0] (1 * 0)) with (Ok 0). cbn [bind].
    replace (1 * ((17 * / 2 - 1 * / 2) * 1) * (PI / 16)) with (PI / 2) by field.
    unfold phase_low. change (np_get [0] (1 * 0)) with (Ok 0). change (np_get [0] 0) with (Ok 0).
    change (np_get [3] (1 * 0)) with (Ok 3). change (np_get [3] 0) with (Ok 3). cbn [bind]. rewrite rdiv_val by lra. cbn [bind].
    replace (0 - PI / 2 / 2 + PI / 2) with (PI / 4) by field. replace (0 - PI / 2 / 2) with (- (PI / 4)) by field.
    rewrite cos_neg. unfold rf_voltage_at_phase. rewrite sin_0.
    match goal with |- context [Req_EM_T ?v 0] => destruct (Req_EM_T v 0) as [_|N]; [|exfalso; apply N; field] end.
    cbn [bind]. rewrite rdiv_val by lra. cbn [bind]. do 3 f_equal; try field. lra.
  - cbn [fm_dtbin fm_h_num]. split; lra.
Qed.
(*XE*)

(** C72, refuted: with two turns per frame and changing voltages the feet are
    not at the same potential. *)
Lemma C72_balance_refuted_lem : ~ (forall newton wf m x lo up phi0 omega v1 v2,
  (forall f x0 f' r, newton f x0 f' = Ok r -> f r = Ok 0) ->
  fit_synch_part_x newton wf m = Ok (x, lo, up) ->
  let turn := (fm_beam_ref m * fm_dturns m)%Z in
  np_get (fm_phi0 m) turn = Ok phi0 -> np_get (fm_omega m) turn = Ok omega ->
  np_get (fm_vrf1 m) turn = Ok v1 -> np_get (fm_vrf2 m) turn = Ok v2 ->
  let phase y := phi0 + (y - x) * fm_dtbin m * fm_h_num m * omega in
  potential v1 v2 (fm_h_ratio m) (fm_phi12 m) phi0 (phase lo) = potential v1 v2 (fm_h_ratio m) (fm_phi12 m) phi0 (phase up)).
Proof.
  intros H.
  set (newton := fun (f : R -> res R) (x0 : R) (f' : R -> res R) => match f (- (PI / 3)) with
                 | Ok v => if Req_EM_T v 0 then Ok (- (PI / 3)) else Fail (Raised RuntimeError) | Fail e => Fail e end).
  set (m := FMachine 1 1 2 1 1 1 0 [0; 0; PI / 6] [1; 1; PI / 8] [1; PI / 2; 1] [0; 0; 0]).
  set (prof := [0; 1; qz 2; qz 3; qz 10; qz 3; qz 2; 1; 0]%Qc).
  assert (FL : exists fu fl, calc_tangentfeet prof = Ok (fu, fl) /\ real fu = 17 / 2 /\ real fl = 1 / 2).
  { assert (F : match calc_tangentfeet prof with Ok (u, l) => (this u, this l) = (17 # 2, 1 # 2)%Q | Fail _ => False end)
      by (vm_compute; reflexivity).
    destruct (calc_tangentfeet prof) as [[fu fl]|]; [|destruct F]. injection F as A B. exists fu, fl.
    unfold real. rewrite A, B. unfold Q2R. cbn [Qnum Qden]. split; [reflexivity|]. split; lra. }
  destruct FL as (fu & fl & F & RU & RL).
  assert (C1 : cos (- (PI / 3)) = 1 / 2) by (rewrite cos_neg; exact cos_PI3).
  assert (C2 : cos (- (PI / 3) + PI) = - (1 / 2)) by (rewrite neg_cos, C1; reflexivity).
  assert (PG := PI_RGT_0). assert (PG3 : 3 < PI) by (assert (Q := PI2_3_2); lra).
  assert (NR : forall f x0 f' r, newton f x0 f' = Ok r -> f r = Ok 0).
  { intros f x0 f' r E. unfold newton in E. destruct (f (- (PI / 3))) as [v|] eqn:Ef; [|discriminate].
    destruct (Req_EM_T v 0) as [->|]; [|discriminate]. injection E as <-. exact Ef. }
  assert (FIT : fit_synch_part_x newton [prof; prof] m = Ok (1 / 2 + (PI / 6 + PI / 3) / (PI / 8), 1 / 2, 17 / 2)).
  { unfold fit_synch_part_x, m. cbn [fm_beam_ref fm_machine_ref fm_dturns fm_dtbin fm_h_num fm_h_ratio fm_phi12 fm_phi0 fm_omega fm_vrf1 fm_vrf2].
    change (np_get [prof; prof] 1) with (Ok prof). cbn [bind]. rewrite F. cbn [bind]. rewrite RU, RL.
    change (1 * 2)%Z with 2%Z. change (np_get [1; 1; PI / 8] 2) with (Ok (PI / 8)). change (np_get [0; 0; PI / 6] 2) with (Ok (PI / 6)). cbn [bind].
    unfold newton at 1. unfold phase_low.
    change (np_get [0; 0; PI / 6] 2) with (Ok (PI / 6)). change (np_get [1; PI / 2; 1] 1) with (Ok (PI / 2)).
    change (np_get [1; PI / 2; 1] 2) with (Ok 1). change (np_get [0; 0; 0] 1) with (Ok 0). change (np_get [0; 0; 0] 2) with (Ok 0).
    cbn [bind]. rewrite rdiv_val by lra. cbn [bind].
    replace (1 * ((17 / 2 - 1 / 2) * 1) * (PI / 8)) with PI by field.
    unfold rf_voltage_at_phase. rewrite C1, C2, sin_PI6.
    match goal with |- context [Req_EM_T ?v 0] => destruct (Req_EM_T v 0) as [_|N]; [|exfalso; apply N; field] end.
    cbn [bind]. rewrite rdiv_val by lra. cbn [bind]. f_equal. f_equal. f_equal. field. lra. }
  specialize (H newton [prof; prof] m _ _ _ (PI / 6) (PI / 8) 1 0 NR FIT eq_refl eq_refl eq_refl eq_refl). cbv zeta in H.
  unfold m in H. cbn [fm_dtbin fm_h_num fm_h_ratio fm_phi12] in H. unfold potential, volts in H.
  replace (PI / 6 + (1 / 2 - (1 / 2 + (PI / 6 + PI / 3) / (PI / 8))) * 1 * 1 * (PI / 8)) with (- (PI / 3)) in H by (field; lra).
  replace (PI / 6 + (17 / 2 - (1 / 2 + (PI / 6 + PI / 3) / (PI / 8))) * 1 * 1 * (PI / 8)) with (- (PI / 3) + PI) in H by (field; lra).
  rewrite C1, C2, sin_PI6 in H. nra.
Qed.
