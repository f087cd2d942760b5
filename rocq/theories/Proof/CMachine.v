(*HEAD*)
From Coq Require Import Reals List ZArith Bool Lia Lra.
From Verif Require Import Base.Res Base.RLib Model.MRecon Model.MParticles Model.MTrack Model.MMachine Spec.TrackSpec Spec.MachineSpec.
Import ListNotations.
Local Open Scope R_scope.
(*DAEH*)
From Verif Require Import Base.ResLemmas Base.QcLib Base.QcLemmas Proof.PInput Proof.PTrack Proof.PMachine Proof.CTrack.

(** * C45: energies, times and phases turn by turn *)

(** C45: the arrays have one entry per turn, and every entry follows from its
    neighbour, whatever the reference frame p and the root finder. *)
Lemma C45_turns_lem : forall newton m v d np p, (0 < d)%nat -> (0 < np)%nat ->
  rm_dturns m = Z.of_nat d -> rm_nprofiles m = Z.of_nat np -> rm_ref_frame m = Z.of_nat p ->
  values_at_turns newton m = Ok v ->
  all_length (d * (np - 1) + 1) v /\
  (forall i, (i < d * (np - 1))%nat -> turn_follows m (tv_turns v) i) /\
  (forall i, (i <= d * (np - 1))%nat -> speed_of_energy m (tv_turns v) i) /\
  at_ (tn_time (tv_turns v)) (p * d) = 0 /\
  at_ (tn_e0 (tv_turns v)) (p * d) ^ 2 = (rm_q m * rm_b0 m * rm_bending m * c_light) ^ 2 + rm_e_rest m ^ 2 /\
  0 <= at_ (tn_e0 (tv_turns v)) (p * d).
Proof.
  intros newton m v d np p Hd Hn E1 E2 E3 H.
  destruct (values_spec newton m d np p v Hd Hn E1 E2 E3 H) as (L & C & _).
  destruct C. split; auto. split; [intros; apply ch_follows; lia|]. split; [intros; apply ch_speed; lia|].
  split; auto. unfold b_to_e in ch_e. apply rsqrt_ok in ch_e. destruct ch_e as [G ->].
  split; [apply pow2_sqrt; auto|apply sqrt_pos].
Qed.

(** C45: with a root finder that returns roots only, the RF voltage at the
    synchronous phase is the one the magnetic field asks for, at every turn. *)
Lemma C45_synchronous_phase_lem : forall newton m v d np p, (0 < d)%nat -> (0 < np)%nat -> finds_roots newton ->
  rm_dturns m = Z.of_nat d -> rm_nprofiles m = Z.of_nat np -> rm_ref_frame m = Z.of_nat p ->
  values_at_turns newton m = Ok v ->
  forall i, (i <= d * (np - 1))%nat ->
  rf_at m (at_ (tn_time (tv_turns v)) i) (at_ (tn_phi0 (tv_turns v)) i) = field_gain m * rsign (rm_q m).
Proof.
  intros newton m v d np p Hd Hn HN E1 E2 E3 H i Hi.
  destruct (values_spec newton m d np p v Hd Hn E1 E2 E3 H) as (L & C & _).
  destruct (ch_root _ _ _ _ _ C i ltac:(lia)) as [x0 R]. apply HN in R.
  unfold rf_voltage_mch, rf_voltage, vrft in R. unfold rf_at, field_gain. lra.
Qed.

(** C45: slip factor, drift coefficient, revolution frequency and voltages of
    every turn belong to the energy and time of that turn. *)
Lemma C45_derived_lem : forall newton m v d np p, (0 < d)%nat -> (0 < np)%nat ->
  rm_dturns m = Z.of_nat d -> rm_nprofiles m = Z.of_nat np -> rm_ref_frame m = Z.of_nat p ->
  values_at_turns newton m = Ok v ->
  forall i, (i <= d * (np - 1))%nat ->
  let s := tv_turns v in
  at_ (tv_eta0 v) i = rm_e_rest m ^ 2 / at_ (tn_e0 s) i ^ 2 - 1 / rm_trans_gamma m ^ 2 /\
  at_ (tv_drift_coef v) i * (at_ (tn_e0 s) i * at_ (tn_beta0 s) i ^ 2) = 2 * PI * rm_h_num m * at_ (tv_eta0 v) i /\
  at_ (tv_omega_rev0 v) i * rm_radius m = at_ (tn_beta0 s) i * c_light /\
  at_ (tv_vrf1 v) i = rm_vrf1 m + rm_vrf1dot m * at_ (tn_time s) i /\
  at_ (tv_vrf2 v) i = rm_vrf2 m + rm_vrf2dot m * at_ (tn_time s) i /\
  0 < at_ (tn_beta0 s) i.
Proof.
  intros newton m v d np p Hd Hn E1 E2 E3 H i Hi s.
  destruct (values_spec newton m d np p v Hd Hn E1 E2 E3 H) as (L & C & He & Hd' & Ho & V1 & V2).
  fold s in C, He, Hd', Ho, V1, V2. unfold all_length in L. fold s in L.
  repeat match goal with L : Forall _ (_ :: _) |- _ => let K := fresh "K" in apply Forall_cons_iff in L; destruct L as [K L] end.
  set (n := (d * (np - 1) + 1)%nat) in *. assert (Hi' : (i < n)%nat) by lia.
  assert (G : forall A B (f : A -> res B) l r k x, mapM f l = Ok r -> nth_error l k = Some x ->
    exists y, nth_error r k = Some y /\ f x = Ok y).
  { clear. intros A B f l r k x HM Hx. apply mapM_forall2 in HM. revert k Hx. induction HM; intros [|k] Hx; try discriminate.
    - cbn in Hx. injection Hx as <-. cbn. eauto.
    - cbn in *. eauto. }
  assert (N : forall l, length l = n -> nth_error l i = Some (at_ l i)).
  { intros l Hl. apply nth_error_nth'. lia. }
  destruct (G _ _ _ _ _ _ _ He (N _ K2)) as (y1 & Y1 & F1).
  rewrite (N _ K4) in Y1. injection Y1 as <-.
  unfold phase_slip_factor in F1. apply bind_ok in F1. destruct F1 as [g [F1 F1']]. apply rdiv_ok in F1. destruct F1 as [Tg ->].
  injection F1' as F1.
  assert (CB : nth_error (combine (tv_eta0 v) (combine (tn_e0 s) (tn_beta0 s))) i
     = Some (at_ (tv_eta0 v) i, (at_ (tn_e0 s) i, at_ (tn_beta0 s) i))).
  { clear - N K1 K2 K4. assert (Q : forall A B (a : list A) (b : list B) k x y, nth_error a k = Some x -> nth_error b k = Some y ->
       nth_error (combine a b) k = Some (x, y)).
    { clear. induction a; intros b [|k] x y A1 B1; destruct b; try discriminate; cbn in *; auto; congruence. }
    apply Q; auto. }
  destruct (G _ _ _ _ _ _ _ Hd' CB) as (y2 & Y2 & F2). cbn [fst snd] in F2.
  rewrite (N _ K5) in Y2. injection Y2 as <-.
  unfold find_dphase in F2. apply rdiv_ok in F2. destruct F2 as [Nz F2].
  destruct (G _ _ _ _ _ _ _ Ho (N _ K2)) as (y3 & Y3 & F3). rewrite (N _ K6) in Y3. injection Y3 as <-.
  unfold revolution_freq in F3. apply rdiv_ok in F3. destruct F3 as [Rz F3].
  destruct (ch_speed _ _ _ _ _ C i Hi') as (S1 & S2 & S3).
  assert (Bz : at_ (tn_beta0 s) i <> 0).
  { intros B0. apply Nz. rewrite B0. ring. }
  split.
  { rewrite <- F1. f_equal. rewrite <- S2. field. auto. }
  split. { rewrite F2. field. split; intros Q; apply Nz; rewrite Q; ring. }
  split. { rewrite F3. field. auto. }
  split. { rewrite V1. unfold at_. rewrite (nth_indep _ 0 (rm_vrf1 m + rm_vrf1dot m * 0)) by (rewrite map_length; lia).
    rewrite (map_nth (fun t => rm_vrf1 m + rm_vrf1dot m * t)). auto. }
  split. { rewrite V2. unfold at_. rewrite (nth_indep _ 0 (rm_vrf2 m + rm_vrf2dot m * 0)) by (rewrite map_length; lia).
    rewrite (map_nth (fun t => rm_vrf2 m + rm_vrf2dot m * t)). auto. }
  lra.
Qed.

(** C45, energy gain: deltaE0[i] = e0[i] - e0[i-1] holds for the turns after
    the reference turn only. *)
Lemma C45_energy_gain_partial_lem : forall newton m v d np p, (0 < d)%nat -> (0 < np)%nat ->
  rm_dturns m = Z.of_nat d -> rm_nprofiles m = Z.of_nat np -> rm_ref_frame m = Z.of_nat p ->
  values_at_turns newton m = Ok v ->
  let s := tv_turns v in
  (forall i, (p * d < i <= d * (np - 1))%nat -> at_ (tn_deltaE0 s) i = at_ (tn_e0 s) i - at_ (tn_e0 s) (i - 1)) /\
  (forall i, (i < p * d)%nat -> at_ (tn_deltaE0 s) i = at_ (tn_e0 s) (i + 1) - at_ (tn_e0 s) i) /\
  at_ (tn_deltaE0 s) (p * d) = 0.
Proof.
  intros newton m v d np p Hd Hn E1 E2 E3 H s.
  destruct (values_spec newton m d np p v Hd Hn E1 E2 E3 H) as (L & C & _). destruct C.
  fold s in ch_up, ch_down, ch_ref.
  split; [|split; auto].
  - intros i Hi. replace i with (S (i - 1)) by lia. replace (S (i - 1) - 1)%nat with (i - 1)%nat by lia.
    apply ch_up; lia.
  - intros i Hi. replace (i + 1)%nat with (S i) by lia. apply ch_down; lia.
Qed.


Lemma at_map_lin : forall a b l i, (i < length l)%nat -> at_ (map (fun t => a + b * t) l) i = a + b * at_ l i.
Proof.
  intros. unfold at_. rewrite (nth_indep _ 0 (a + b * 0)) by (rewrite map_length; lia).
  rewrite (map_nth (fun t => a + b * t)). auto.
Qed.

Lemma c_light_pos : 0 < c_light.
Proof. unfold c_light. apply IZR_lt. lia. Qed.

Lemma rsign_1 : rsign 1 = 1.
Proof. unfold rsign. destruct (Rlt_dec 1 0); [lra|]. destruct (Rlt_dec 0 1); auto. lra. Qed.

Lemma ramp_newton_at : forall ref t x, ramp_newton (rf_voltage_mch (ramp_machine ref) t) x (drf_voltage_mch (ramp_machine ref) t) = Ok (PI / 6).
Proof.
  intros. unfold ramp_newton. destruct (Req_EM_T _ 0) as [|N]; auto. exfalso. apply N.
  unfold rf_voltage_mch, rf_voltage, vrft, ramp_machine. cbn [rm_vrf1 rm_vrf1dot rm_vrf2 rm_vrf2dot rm_h_ratio rm_phi12 rm_bdot rm_radius rm_bending rm_q].
  rewrite sin_PI6, rsign_1. assert (P := PI_neq0). field. auto.
Qed.
Lemma ramp_newton_rf1 : forall ref t x, ramp_newton (rfvolt_rf1_mch (ramp_machine ref) t) x (drfvolt_rf1_mch (ramp_machine ref) t) = Ok (PI / 6).
Proof.
  intros. unfold ramp_newton. destruct (Req_EM_T _ 0) as [|N]; auto. exfalso. apply N.
  unfold rfvolt_rf1_mch, rfvolt_rf1, vrft, ramp_machine. cbn [rm_vrf1 rm_vrf1dot rm_vrf2 rm_vrf2dot rm_h_ratio rm_phi12 rm_bdot rm_radius rm_bending rm_q].
  rewrite sin_PI6, rsign_1. assert (P := PI_neq0). field. auto.
Qed.
Lemma ex_e : forall ref, b_to_e (ramp_machine ref) = Ok 5.
Proof.
  intros. unfold b_to_e, ramp_machine. cbn [rm_q rm_b0 rm_bending rm_e_rest]. assert (C := c_light_pos).
  replace ((1 * (4 / c_light) * 1 * c_light) ^ 2 + 3 ^ 2) with (5 * 5) by (field; lra).
  rewrite rsqrt_val by lra. rewrite sqrt_square by lra. auto.
Qed.
Lemma ex_beta : forall ref e, 3 < e -> lorentz_beta (ramp_machine ref) e = Ok (sqrt (1 - (3 / e) ^ 2)) /\
  0 < sqrt (1 - (3 / e) ^ 2).
Proof.
  intros. unfold lorentz_beta, ramp_machine. cbn [rm_e_rest]. rewrite rdiv_val by lra. cbn [bind].
  assert (A : 0 < 3 / e < 1).
  { split; [apply Rdiv_lt_0_compat; lra|]. apply (Rmult_lt_reg_r e); [lra|]. unfold Rdiv. rewrite Rmult_assoc, Rinv_l by lra. lra. }
  assert (B : 0 < 1 - (3 / e) ^ 2) by nra.
  split; [apply rsqrt_val; lra|apply sqrt_lt_R0; auto].
Qed.
Lemma ex_phi : forall ref e, find_phi_lower_upper (ramp_machine ref) e = Ok (if Rlt_dec 0 (1 * (1 - e / 3)) then (- PI, PI) else (0, 2 * PI)).
Proof. intros. unfold find_phi_lower_upper, ramp_machine. cbn [rm_e_rest rm_q rm_trans_gamma]. rewrite rdiv_val by lra. auto. Qed.
Lemma ex_volt : forall ref t, rf_voltage_at_turn (ramp_machine ref) (PI / 6) t = 1.
Proof.
  intros. unfold rf_voltage_at_turn, rf_voltage_at_phase, vrft, ramp_machine. cbn [rm_vrf1 rm_vrf1dot rm_vrf2 rm_vrf2dot rm_h_ratio rm_phi12].
  rewrite sin_PI6. lra.
Qed.
Lemma ex_eta : forall ref b, phase_slip_factor (ramp_machine ref) b = Ok (1 - b ^ 2 - 1 / 1 ^ 2).
Proof. intros. unfold phase_slip_factor, ramp_machine. cbn [rm_trans_gamma]. rewrite rdiv_val by lra. auto. Qed.
Lemma ex_drift : forall ref a e b, 0 < e -> 0 < b -> exists x, find_dphase (ramp_machine ref) a e b = Ok x.
Proof.
  intros. unfold find_dphase. rewrite rdiv_val; eauto. assert (0 < e * b ^ 2) by (apply Rmult_lt_0_compat; nra). lra.
Qed.
Lemma ex_omega : forall ref b, exists x, revolution_freq (ramp_machine ref) b = Ok x.
Proof.
  intros. unfold revolution_freq, ramp_machine. cbn [rm_radius]. rewrite rdiv_val; eauto.
  apply Rinv_neq_0_compat. assert (P := PI_RGT_0). lra.
Qed.

Lemma ex_values : exists v, values_at_turns ramp_newton (ramp_machine 1) = Ok v /\
  tn_e0 (tv_turns v) = [4; 5] /\ tn_deltaE0 (tv_turns v) = [1; 0] /\ tn_phi0 (tv_turns v) = [PI / 6; PI / 6] /\
  tv_vrf1 v = [2; 2] /\ tv_vrf2 v = [0; 0].
Proof.
  destruct (ex_beta 1 5 ltac:(lra)) as [B5 P5]. destruct (ex_beta 1 4 ltac:(lra)) as [B4 P4].
  set (b5 := sqrt (1 - (3 / 5) ^ 2)) in *. set (b4 := sqrt (1 - (3 / 4) ^ 2)) in *.
  destruct (ex_omega 1 b5) as [o5 O5]. destruct (ex_omega 1 b4) as [o4 O4].
  set (e5 := 1 - b5 ^ 2 - 1 / 1 ^ 2). set (e4 := 1 - b4 ^ 2 - 1 / 1 ^ 2).
  destruct (ex_drift 1 e5 5 b5 ltac:(lra) P5) as [d5 D5]. destruct (ex_drift 1 e4 4 b4 ltac:(lra) P4) as [d4 D4].
  set (t0 := 0 - 2 * PI * / (2 * PI) / (b4 * c_light)).
  exists (TurnValues (Turns [t0; 0] [PI / 6; PI / 6] [4; 5] [b4; b5] [1; 0]) [e4; e5] [d4; d5] [o4; o5] [2; 2] [0; 0]).
  split; [|repeat split].
  unfold values_at_turns. cbv zeta.
  replace ((rm_nprofiles (ramp_machine 1) - 1) * rm_dturns (ramp_machine 1))%Z with 1%Z by reflexivity.
  change (1 + 1 <? 0)%Z with false. cbn iota. change (Z.to_nat (1 + 1)) with 2%nat. cbn [repeat].
  unfold array_initial_values at 1. cbv zeta.
  replace (rm_ref_frame (ramp_machine 1) * rm_dturns (ramp_machine 1))%Z with 1%Z by reflexivity.
  cbn [tn_time tn_e0 tn_beta0 tn_phi0 tn_deltaE0].
  change (pyset [0; 0] 1 0) with (@Ok (list R) [0; 0]). cbn [bind].
  rewrite ex_e. cbn [bind].
  change (pyset [0; 0] 1 5) with (@Ok (list R) [0; 5]). cbn [bind].
  rewrite B5. cbn [bind].
  change (pyset [0; 0] 1 b5) with (@Ok (list R) [0; b5]). cbn [bind].
  rewrite ex_phi. cbn [bind].
  destruct (if Rlt_dec 0 (1 * (1 - 5 / 3)) then (- PI, PI) else (0, 2 * PI)) as [lo up].
  unfold find_synch_phase_mch. rewrite ramp_newton_rf1. cbn [bind]. rewrite ramp_newton_at. cbn [as_value_error bind].
  change (pyset [0; 0] 1 (PI / 6)) with (@Ok (list R) [0; PI / 6]). cbn [bind].
  change (range_up (1 + 1) (1 + 1)) with (@nil Z). cbn [forl bind].
  change (range_down (1 - 1)) with [0%Z]. cbn [forl bind].
  unfold turn_down at 1. cbn [tn_time tn_e0 tn_beta0 tn_phi0 tn_deltaE0].
  change (np_get [0; 5] (0 + 1)) with (@Ok R 5). cbn [bind].
  change (np_get [0; PI / 6] (0 + 1)) with (@Ok R (PI / 6)). cbn [bind].
  change (np_get [0; 0] (0 + 1)) with (@Ok R 0). cbn [bind]. rewrite ex_volt.
  replace (5 - rm_q (ramp_machine 1) * 1) with 4 by (cbn; lra).
  change (pyset [0; 5] 0 4) with (@Ok (list R) [4; 5]). cbn [bind].
  rewrite B4. cbn [bind]. change (pyset [0; b5] 0 b4) with (@Ok (list R) [b4; b5]). cbn [bind].
  change (pyset [0; 0] 0 (5 - 4)) with (@Ok (list R) [5 - 4; 0]). cbn [bind].
  rewrite rdiv_val; [|assert (C := c_light_pos); assert (0 < b4 * c_light) by (apply Rmult_lt_0_compat; auto); lra].
  cbn [bind]. change (2 * PI * rm_radius (ramp_machine 1)) with (2 * PI * / (2 * PI)). fold t0.
  change (pyset [0; 0] 0 t0) with (@Ok (list R) [t0; 0]). cbn [bind]. rewrite ramp_newton_at. cbn [as_value_error bind].
  change (pyset [0; PI / 6] 0 (PI / 6)) with (@Ok (list R) [PI / 6; PI / 6]). cbn [bind tn_time tn_e0 tn_beta0 tn_phi0 tn_deltaE0].
  assert (M : forall A B (f : A -> res B) a b x y, f a = Ok x -> f b = Ok y -> mapM f [a; b] = Ok [x; y]).
  { intros A B f a b x y F1 F2. cbn. rewrite F1. cbn. rewrite F2. auto. }
  rewrite (M _ _ (phase_slip_factor (ramp_machine 1)) b4 b5 e4 e5) by (rewrite ex_eta; auto). cbn [bind combine].
  rewrite (M _ _ _ (e4, (4, b4)) (e5, (5, b5)) d4 d5) by auto. cbn [bind].
  rewrite (M _ _ _ b4 b5 o4 o5) by auto. cbn [bind map]. cbn [rm_vrf1 rm_vrf1dot rm_vrf2 rm_vrf2dot ramp_machine].
  replace (5 - 4) with 1 by lra. replace (2 + 0 * t0) with 2 by lra. replace (2 + 0 * 0) with 2 by lra.
  replace (0 + 0 * t0) with 0 by lra. replace (0 + 0 * 0) with 0 by lra. auto.
Qed.

Lemma ex_values_0 : exists v, values_at_turns ramp_newton (ramp_machine 0) = Ok v.
Proof.
  destruct (ex_beta 0 5 ltac:(lra)) as [B5 P5]. destruct (ex_beta 0 6 ltac:(lra)) as [B6 P6].
  set (b5 := sqrt (1 - (3 / 5) ^ 2)) in *. set (b6 := sqrt (1 - (3 / 6) ^ 2)) in *.
  destruct (ex_omega 0 b5) as [o5 O5]. destruct (ex_omega 0 b6) as [o6 O6].
  set (e5 := 1 - b5 ^ 2 - 1 / 1 ^ 2). set (e6 := 1 - b6 ^ 2 - 1 / 1 ^ 2).
  destruct (ex_drift 0 e5 5 b5 ltac:(lra) P5) as [d5 D5]. destruct (ex_drift 0 e6 6 b6 ltac:(lra) P6) as [d6 D6].
  unfold values_at_turns. cbv zeta.
  replace ((rm_nprofiles (ramp_machine 0) - 1) * rm_dturns (ramp_machine 0))%Z with 1%Z by reflexivity.
  change (1 + 1 <? 0)%Z with false. cbn iota. change (Z.to_nat (1 + 1)) with 2%nat. cbn [repeat].
  unfold array_initial_values at 1. cbv zeta.
  replace (rm_ref_frame (ramp_machine 0) * rm_dturns (ramp_machine 0))%Z with 0%Z by reflexivity.
  cbn [tn_time tn_e0 tn_beta0 tn_phi0 tn_deltaE0].
  change (pyset [0; 0] 0 0) with (@Ok (list R) [0; 0]). cbn [bind].
  rewrite ex_e. cbn [bind]. change (pyset [0; 0] 0 5) with (@Ok (list R) [5; 0]). cbn [bind].
  rewrite B5. cbn [bind]. change (pyset [0; 0] 0 b5) with (@Ok (list R) [b5; 0]). cbn [bind].
  rewrite ex_phi. cbn [bind].
  destruct (if Rlt_dec 0 (1 * (1 - 5 / 3)) then (- PI, PI) else (0, 2 * PI)) as [lo up].
  unfold find_synch_phase_mch. rewrite ramp_newton_rf1. cbn [bind]. rewrite ramp_newton_at. cbn [as_value_error bind].
  change (pyset [0; 0] 0 (PI / 6)) with (@Ok (list R) [PI / 6; 0]). cbn [bind].
  change (range_up (0 + 1) (1 + 1)) with [1%Z]. cbn [forl bind].
  unfold turn_up at 1. cbn [tn_time tn_e0 tn_beta0 tn_phi0 tn_deltaE0].
  change (np_get [0; 0] (1 - 1)) with (@Ok R 0). cbn [bind].
  change (np_get [b5; 0] (1 - 1)) with (@Ok R b5). cbn [bind].
  rewrite rdiv_val; [|assert (C := c_light_pos); assert (0 < b5 * c_light) by (apply Rmult_lt_0_compat; auto); lra].
  cbn [bind]. set (t1 := 0 + _ / _).
  change (pyset [0; 0] 1 t1) with (@Ok (list R) [0; t1]). cbn [bind].
  change (np_get [PI / 6; 0] (1 - 1)) with (@Ok R (PI / 6)). cbn [bind].
  rewrite ramp_newton_at. cbn [as_value_error bind].
  change (pyset [PI / 6; 0] 1 (PI / 6)) with (@Ok (list R) [PI / 6; PI / 6]). cbn [bind].
  change (np_get [5; 0] (1 - 1)) with (@Ok R 5). cbn [bind]. rewrite ex_volt.
  replace (5 + rm_q (ramp_machine 0) * 1) with 6 by (cbn; lra).
  change (pyset [5; 0] 1 6) with (@Ok (list R) [5; 6]). cbn [bind].
  rewrite B6. cbn [bind]. change (pyset [b5; 0] 1 b6) with (@Ok (list R) [b5; b6]). cbn [bind].
  change (pyset [0; 0] 1 (6 - 5)) with (@Ok (list R) [0; 6 - 5]). cbn [bind].
  change (range_down (0 - 1)) with (@nil Z). cbn [forl bind tn_time tn_e0 tn_beta0 tn_phi0 tn_deltaE0].
  assert (M : forall A B (f : A -> res B) a b x y, f a = Ok x -> f b = Ok y -> mapM f [a; b] = Ok [x; y]).
  { intros A B f a b x y F1 F2. cbn. rewrite F1. cbn. rewrite F2. auto. }
  rewrite (M _ _ (phase_slip_factor (ramp_machine 0)) b5 b6 e5 e6) by (rewrite ex_eta; auto). cbn [bind combine].
  rewrite (M _ _ _ (e5, (5, b5)) (e6, (6, b6)) d5 d6) by auto. cbn [bind].
  rewrite (M _ _ _ b5 b6 o5 o6) by auto. cbn [bind map]. eauto.
Qed.

(** C45, energy gain, refuted: with the reference frame after the first
    profile the gain at the reference turn is 0 although the energy differs
    from the one at the turn before. *)
Lemma C45_energy_gain_refuted_lem : exists newton m v, finds_roots newton /\ values_at_turns newton m = Ok v /\
  rm_dturns m = 1%Z /\ rm_nprofiles m = 2%Z /\ rm_ref_frame m = 1%Z /\
  at_ (tn_deltaE0 (tv_turns v)) 1 <> at_ (tn_e0 (tv_turns v)) 1 - at_ (tn_e0 (tv_turns v)) 0.
Proof.
  destruct ex_values as (v & H & E & D & _). exists ramp_newton, (ramp_machine 1), v.
  split. { intros f x0 f' x Hx. unfold ramp_newton in Hx. destruct (Req_EM_T (f (PI / 6)) 0); [|discriminate]. injection Hx as <-. auto. }
  split; auto. do 3 (split; [reflexivity|]). rewrite D, E. unfold at_. cbn. lra.
Qed.

(*EX*)
Example C45_ex : finds_roots ramp_newton /\ exists v, values_at_turns ramp_newton (ramp_machine 1) = Ok v /\
  tn_e0 (tv_turns v) = [4; 5] /\ tn_deltaE0 (tv_turns v) = [1; 0].
Proof.
  split.
  - intros f x0 f' x Hx. unfold ramp_newton in Hx. destruct (Req_EM_T (f (PI / 6)) 0); [|discriminate]. injection Hx as <-. auto.
  - destruct ex_values as (v & H & E & D & _). exists v. auto.
Qed.
(*XE*)

(** * C12: the synchronous particle *)

(** The parameters in the arrays handed to the tracking. *)
Definition params_of (m : rmachine) (v : turn_values) : params R :=
  Params (fun t => at_ (tv_vrf1 v) t * rm_q m) (fun t => at_ (tv_vrf2 v) t * rm_q m)
    (at_ (tn_phi0 (tv_turns v))) (fun _ => rm_phi12 m) (at_ (tn_deltaE0 (tv_turns v))) (at_ (tv_drift_coef v)) (rm_h_ratio m).

Lemma params_hold : forall m v n, all_length (n + 1) v -> holds (tracking_machine m v) (params_of m v) n.
Proof.
  intros m v n L. unfold all_length in L.
  repeat match goal with L : Forall _ (_ :: _) |- _ => let K := fresh "K" in apply Forall_cons_iff in L; destruct L as [K L] end.
  split; [reflexivity|]. intros t Ht.
  assert (N : forall l, length l = (n + 1)%nat -> nth_error l t = Some (at_ l t)) by (intros l Hl; apply nth_error_nth'; lia).
  unfold tracking_machine, params_of. cbn [rf1v rf2v MTrack.phi0 MTrack.phi12 deltaE0 drift_coef v1 v2 ph0 ph12 dE coef].
  repeat split; try (rewrite nth_error_map, N by auto; reflexivity); apply N; auto.
Qed.

Section Synchronous.
Variables (F : params R) (i0 : nat).
Let fwd := forward Rplus Rminus Rmult sin F.
Let bwd := backward Rplus Rminus Rmult sin F.
Hypothesis G : forall t, (i0 <= t)%nat -> gain Rplus Rminus Rmult sin F (S t) 0 = 0.
Lemma fwd_0 : forall t, (i0 <= t)%nat -> fwd t (0, 0) = (0, 0).
Proof. intros. unfold fwd, forward. cbn [fst snd]. replace (0 - coef F t * 0) with 0 by ring. rewrite G by auto. f_equal; ring. Qed.
Lemma bwd_0 : forall t, (i0 <= t)%nat -> bwd t (0, 0) = (0, 0).
Proof. intros. unfold bwd, backward. cbn [fst snd]. rewrite G by auto. f_equal; ring. Qed.
Lemma ups_0 : forall n t, (i0 <= t)%nat -> ups Rplus Rminus Rmult sin F n t (0, 0) = (0, 0).
Proof. induction n; intros; cbn [ups]; auto. fold fwd. rewrite fwd_0 by auto. apply IHn. lia. Qed.
Lemma downs_0 : forall n t, (i0 <= t)%nat -> downs Rplus Rminus Rmult sin F n t (0, 0) = (0, 0).
Proof. induction n; intros; cbn [downs]; auto. rewrite IHn by lia. apply bwd_0. auto. Qed.
Lemma travel_0 : forall a b, (i0 <= a)%nat -> (i0 <= b)%nat -> travel Rplus Rminus Rmult sin F a b (0, 0) = (0, 0).
Proof. intros. unfold travel. destruct (a <=? b)%nat; [apply ups_0|apply downs_0]; auto. Qed.
End Synchronous.

(** C12, proved for profiles not before the machine reference frame (so for
    all profiles if the machine reference frame is the first one): a particle
    with zero offsets keeps them. *)
Lemma C12_synchronous_partial_lem : forall newton m v d np ref p r ph de ftn,
  (0 < d)%nat -> (S p < np)%nat -> (ref <= p)%nat -> (r = Z.of_nat p \/ r = Z.of_nat p - Z.of_nat np)%Z ->
  rm_dturns m = Z.of_nat d -> rm_nprofiles m = Z.of_nat np -> rm_ref_frame m = Z.of_nat ref ->
  values_at_turns newton m = Ok v -> length ph = length de ->
  exists s, track Rplus Rminus Rmult sin 0 (tracking_machine m v) np (Z.of_nat d) r 0 ph de ftn = Ok s /\
  forall q k, (ref <= q < np)%nat -> nth_error ph k = Some 0 -> nth_error de k = Some 0 ->
    exists x y, nth_error (xp s) q = Some x /\ nth_error (yp s) q = Some y /\
      nth_error x k = Some 0 /\ nth_error y k = Some 0.
Proof.
  intros newton m v d np ref p r ph de ftn Hd Hp Href Hr E1 E2 E3 H Hl.
  destruct (values_spec newton m d np ref v Hd ltac:(lia) E1 E2 E3 H) as (L & C & _ & _ & _ & V1 & V2).
  set (F := params_of m v). set (n := (d * (np - 1))%nat) in *.
  assert (HF := params_hold m v n L).
  destruct (C01_track_rows_lem R Rplus Rminus Rmult sin 0 F (tracking_machine m v) np d p r ph de ftn Hd Hp Hr HF Hl)
    as (s & T & X & Y & Rw).
  exists s. split; auto. intros q k Hq Kx Ky. destruct (Rw q ltac:(lia)) as [Rx Ry].
  eexists. eexists. split; [exact Rx|]. split; [exact Ry|].
  assert (CB : nth_error (combine ph de) k = Some (0, 0)).
  { clear - Kx Ky. revert de k Kx Ky. induction ph; intros [|e de] [|k] Kx Ky; try discriminate; cbn in *; auto; congruence. }
  rewrite !map_map, !nth_error_map, CB. cbn [option_map].
  set (F' := Params (v1 F) (v2 F) (ph0 F) (ph12 F)
     (fun t => if Nat.leb t n then dE F t else v1 F t * sin (0 + ph0 F t) + v2 F t * sin (hr F * (0 + ph0 F t - ph12 F t))) (coef F) (hr F)).
  assert (GE : forall t x, (t <= n)%nat -> gain Rplus Rminus Rmult sin F t x = gain Rplus Rminus Rmult sin F' t x).
  { intros t x Ht. unfold gain, F'. cbn [v1 v2 ph0 ph12 dE hr]. destruct (Nat.leb_spec t n); [auto|lia]. }
  assert (TE : forall a b st, (a <= n)%nat -> (b <= n)%nat -> travel Rplus Rminus Rmult sin F a b st = travel Rplus Rminus Rmult sin F' a b st).
  { intros a b st Ha Hb. unfold travel. destruct (Nat.leb_spec a b).
    - assert (forall c a st, (a + c <= n)%nat -> ups Rplus Rminus Rmult sin F c a st = ups Rplus Rminus Rmult sin F' c a st).
      { clear - GE. induction c; intros a st Ha; cbn [ups]; auto. rewrite <- IHc by lia. f_equal.
        unfold forward. rewrite GE by lia. reflexivity. }
      apply H1. lia.
    - assert (forall c a st, (a + c <= n)%nat -> downs Rplus Rminus Rmult sin F c a st = downs Rplus Rminus Rmult sin F' c a st).
      { clear - GE. induction c; intros a st Ha; cbn [downs]; auto. rewrite <- IHc by lia. 
        unfold backward. rewrite GE by lia. reflexivity. }
      apply H1. lia. }
  assert (G0 : forall t, (ref * d <= t)%nat -> gain Rplus Rminus Rmult sin F' (S t) 0 = 0).
  { intros t Ht. destruct (Nat.le_gt_cases (S t) n) as [Hn|Hn].
    - rewrite <- GE by auto. destruct C.
      assert (FU := ch_up t Ht ltac:(lia)). assert (FF := ch_follows t ltac:(lia)).
      destruct FF as [FF _]. unfold gain_is in FU. rewrite FF in FU.
      destruct ch_lens as (A1 & A2 & A3 & A4 & A5).
      unfold gain, F, params_of. cbn [v1 v2 ph0 ph12 dE hr]. rewrite FU. unfold rf_at.
      rewrite V1, V2, !at_map_lin by lia. rewrite !Rplus_0_l. ring.
    - unfold gain, F'. cbn [v1 v2 ph0 ph12 dE hr]. destruct (Nat.leb_spec (S t) n); [lia|]. ring. }
  rewrite TE by (unfold n; nia).
  rewrite (travel_0 F' (ref * d) G0) by nia. auto.
Qed.

(** C12, refuted for a machine reference frame after the first profile: the
    particle with zero offsets at the first profile has energy offset 1 at the
    second. *)
Lemma C12_synchronous_refuted_lem : exists newton m v s y,
  finds_roots newton /\ rm_ref_frame m = 1%Z /\ values_at_turns newton m = Ok v /\
  track Rplus Rminus Rmult sin 0 (tracking_machine m v) 2 1 0 0 [0] [0] false = Ok s /\
  nth_error (yp s) 1 = Some [y] /\ y <> 0.
Proof.
  destruct ex_values as (v & H & E & D & P & V1 & V2).
  assert (HN : finds_roots ramp_newton).
  { intros f x0 f' x Hx. unfold ramp_newton in Hx. destruct (Req_EM_T (f (PI / 6)) 0); [|discriminate]. injection Hx as <-. auto. }
  destruct (values_spec ramp_newton (ramp_machine 1) 1 2 1 v ltac:(lia) ltac:(lia) eq_refl eq_refl eq_refl H) as (L & _).
  assert (HF := params_hold (ramp_machine 1) v (1 * (2 - 1)) L).
  destruct (C01_track_rows_lem R Rplus Rminus Rmult sin 0 (params_of (ramp_machine 1) v) (tracking_machine (ramp_machine 1) v) 2 1 0 0%Z [0] [0] false
    ltac:(lia) ltac:(lia) ltac:(lia) HF eq_refl) as (s & T & X & Y & Rw).
  destruct (Rw 1%nat ltac:(lia)) as [_ Ry].
  exists ramp_newton, (ramp_machine 1), v, s. eexists. split; auto. split; [reflexivity|]. split; auto.
  split; [exact T|]. split; [exact Ry|].
  change (snd (forward Rplus Rminus Rmult sin (params_of (ramp_machine 1) v) 0 (0, 0)) <> 0).
  unfold forward, gain. cbn [fst snd params_of v1 v2 ph0 ph12 dE hr coef].
  rewrite D, P, V1, V2. unfold at_. cbn [nth rm_q rm_phi12 rm_h_ratio ramp_machine].
  replace (0 - nth 0 (tv_drift_coef v) 0 * 0 + PI / 6) with (PI / 6) by ring. rewrite sin_PI6. lra.
Qed.

(*EX*)
(** The hypotheses are met with the reference frame 0 as well. *)
Example C12_ex : exists m, rm_ref_frame m = 0%Z /\ rm_dturns m = 1%Z /\ rm_nprofiles m = 2%Z /\
  exists v, values_at_turns ramp_newton m = Ok v.
Proof. exists (ramp_machine 0). repeat split. exact ex_values_0. Qed.
(*XE*)

(** * C11: areas *)

Lemma tangent_comp : forall f g p a b c d a' b' c' d',
  has_tangent f p a b c d -> has_tangent g (f p) a' b' c' d' ->
  has_tangent (fun x => g (f x)) p (a' * a + b' * c) (a' * b + b' * d) (c' * a + d' * c) (c' * b + d' * d).
Proof.
  intros f g p a b c d a' b' c' d' Hf Hg x e s vx ve E Dx De.
  destruct (Hf x e s vx ve E Dx De) as [F1 F2].
  destruct (Hg (fun u => fst (f (x u, e u))) (fun u => snd (f (x u, e u))) s (a * vx + b * ve) (c * vx + d * ve)) as [G1 G2]; auto.
  { rewrite E. destruct (f p); auto. }
  split.
  - replace ((a' * a + b' * c) * vx + (a' * b + b' * d) * ve) with (a' * (a * vx + b * ve) + b' * (c * vx + d * ve)) by ring.
    revert G1. apply derivable_pt_lim_ext. intros u. destruct (f (x u, e u)); auto.
  - replace ((c' * a + d' * c) * vx + (c' * b + d' * d) * ve) with (c' * (a * vx + b * ve) + d' * (c * vx + d * ve)) by ring.
    revert G2. apply derivable_pt_lim_ext. intros u. destruct (f (x u, e u)); auto.
Qed.

Lemma area_comp : forall f g, area_preserving f -> area_preserving g -> area_preserving (fun x => g (f x)).
Proof.
  intros f g Hf Hg p. destruct (Hf p) as (a & b & c & d & Tf & Df). destruct (Hg (f p)) as (a' & b' & c' & d' & Tg & Dg).
  exists (a' * a + b' * c), (a' * b + b' * d), (c' * a + d' * c), (c' * b + d' * d).
  split; [apply tangent_comp; auto|]. transitivity ((a' * d' - b' * c') * (a * d - b * c)); [ring|]. rewrite Df, Dg. ring.
Qed.
Lemma area_id : area_preserving (fun x => x).
Proof.
  intros p. exists 1, 0, 0, 1. split; [|ring]. intros x e s vx ve E Dx De. cbn [fst snd].
  replace (1 * vx + 0 * ve) with vx by ring. replace (0 * vx + 1 * ve) with ve by ring. auto.
Qed.

Lemma d_plus : forall f g s a b, derivable_pt_lim f s a -> derivable_pt_lim g s b -> derivable_pt_lim (fun u => f u + g u) s (a + b).
Proof. intros. exact (derivable_pt_lim_plus f g s a b H H0). Qed.
Lemma d_minus : forall f g s a b, derivable_pt_lim f s a -> derivable_pt_lim g s b -> derivable_pt_lim (fun u => f u - g u) s (a - b).
Proof. intros. exact (derivable_pt_lim_minus f g s a b H H0). Qed.
Lemma d_scal : forall k f s a, derivable_pt_lim f s a -> derivable_pt_lim (fun u => k * f u) s (k * a).
Proof. intros. exact (derivable_pt_lim_scal f k s a H). Qed.
Lemma d_const : forall k s, derivable_pt_lim (fun _ => k) s 0.
Proof. intros. exact (derivable_pt_lim_const k s). Qed.
Lemma d_id : forall s, derivable_pt_lim (fun u => u) s 1.
Proof. intros. exact (derivable_pt_lim_id s). Qed.
Lemma d_sin : forall f s a, derivable_pt_lim f s a -> derivable_pt_lim (fun u => sin (f u)) s (cos (f s) * a).
Proof. intros. apply (derivable_pt_lim_comp f sin s a (cos (f s)) H). apply derivable_pt_lim_sin. Qed.
Lemma d_cos : forall f s a, derivable_pt_lim f s a -> derivable_pt_lim (fun u => cos (f u)) s (- sin (f s) * a).
Proof. intros. apply (derivable_pt_lim_comp f cos s a (- sin (f s)) H). apply derivable_pt_lim_cos. Qed.
Lemma d_eq : forall f s a b, a = b -> derivable_pt_lim f s a -> derivable_pt_lim f s b.
Proof. intros. subst. auto. Qed.

Definition dgain (F : params R) t x :=
  v1 F t * cos (x + ph0 F t) + v2 F t * (hr F * cos (hr F * (x + ph0 F t - ph12 F t))).
Lemma d_gain : forall F t f s a, derivable_pt_lim f s a ->
  derivable_pt_lim (fun u => gain Rplus Rminus Rmult sin F t (f u)) s (dgain F t (f s) * a).
Proof.
  intros F t f s a H. unfold gain, dgain.
  eapply d_eq; [|apply d_minus; [apply d_plus; apply d_scal; apply d_sin; [|apply d_scal, d_minus; [|apply d_const]]; (apply d_plus; [exact H|apply d_const])|apply d_const]].
  cbv beta. ring.
Qed.

Lemma area_forward : forall F t, area_preserving (forward Rplus Rminus Rmult sin F t).
Proof.
  intros F t [x0 e0]. set (g := dgain F (S t) (x0 - coef F t * e0)).
  exists 1, (- coef F t), g, (1 - g * coef F t). split; [|ring].
  intros x e s vx ve E Dx De. injection E as Ex Ee. unfold forward. cbn [fst snd].
  assert (D1 : derivable_pt_lim (fun u => x u - coef F t * e u) s (vx - coef F t * ve)) by (apply d_minus; auto; apply d_scal; auto).
  split; [eapply d_eq; [|exact D1]; ring|].
  eapply d_eq; [|apply d_plus; [exact De|apply d_gain; exact D1]]. cbv beta. rewrite Ex, Ee. fold g. ring.
Qed.
Lemma area_backward : forall F t, area_preserving (backward Rplus Rminus Rmult sin F t).
Proof.
  intros F t [x0 e0]. set (g := dgain F (S t) x0).
  exists (1 - coef F t * g), (coef F t), (- g), 1. split; [|ring].
  intros x e s vx ve E Dx De. injection E as Ex Ee. unfold backward. cbn [fst snd].
  assert (D1 : derivable_pt_lim (fun u => e u - gain Rplus Rminus Rmult sin F (S t) (x u)) s (ve - g * vx)).
  { apply d_minus; auto. unfold g. rewrite <- Ex. apply d_gain. auto. }
  split.
  - eapply d_eq; [|apply d_plus; [exact Dx|apply d_scal; exact D1]]. ring.
  - eapply d_eq; [|exact D1]. ring.
Qed.
Lemma area_travel : forall F a b, area_preserving (travel Rplus Rminus Rmult sin F a b).
Proof.
  intros F a b. unfold travel. destruct (a <=? b)%nat.
  - generalize (b - a)%nat. intros n. revert a. induction n; intros a; cbn [ups]; [apply area_id|].
    apply (area_comp (forward Rplus Rminus Rmult sin F a) (ups Rplus Rminus Rmult sin F n (S a))); [apply area_forward|apply IHn].
  - generalize (a - b)%nat. intros n. revert b. induction n; intros b; cbn [downs]; [apply area_id|].
    apply (area_comp (downs Rplus Rminus Rmult sin F n (S b)) (backward Rplus Rminus Rmult sin F b)); [apply IHn|apply area_backward].
Qed.

Lemma pow2_gt_0 : forall x, x <> 0 -> 0 < x ^ 2.
Proof. intros. destruct (Rtotal_order x 0) as [|[|]]; [nra|contradiction|nra]. Qed.

Lemma not_area : ~ area_preserving (fun p => (fst p, 2 * snd p)).
Proof.
  intros H. destruct (H (0, 0)) as (a & b & c & d & T & D).
  destruct (T (fun u => u) (fun _ => 0) 0 1 0 eq_refl (d_id 0) (d_const 0 0)) as [A1 A2]. cbn [fst snd] in A1, A2.
  destruct (T (fun _ => 0) (fun u => u) 0 0 1 eq_refl (d_const 0 0) (d_id 0)) as [B1 B2]. cbn [fst snd] in B1, B2.
  assert (a * 1 + b * 0 = 1) by (eapply uniqueness_limite; [exact A1|apply d_id]).
  assert (c * 1 + d * 0 = 2 * 0) by (eapply uniqueness_limite; [exact A2|apply d_scal, d_const]).
  assert (a * 0 + b * 1 = 0) by (eapply uniqueness_limite; [exact B1|apply d_const]).
  assert (c * 0 + d * 1 = 2 * 1) by (eapply uniqueness_limite; [exact B2|apply d_scal, d_id]).
  nra.
Qed.

(** C11: the coordinates at profile q of any distribution are the image of
    the initial ones under one map, which preserves areas; for every machine,
    every start profile and every profile q. *)
Lemma C11_area_lem : forall m F np d p q, (0 < d)%nat -> (S p < np)%nat -> (q < np)%nat ->
  holds m F (d * (np - 1)) ->
  exists f, area_preserving f /\
    forall ph de ftn s, length ph = length de ->
      track Rplus Rminus Rmult sin 0 m np (Z.of_nat d) (Z.of_nat p) 0 ph de ftn = Ok s ->
      row_is (xp s) (yp s) q (map f (combine ph de)).
Proof.
  intros m F np d p q Hd Hp Hq Hm. exists (travel Rplus Rminus Rmult sin F (p * d) (q * d)). split; [apply area_travel|].
  intros ph de ftn s Hl E.
  destruct (C01_track_rows_lem R Rplus Rminus Rmult sin 0 F m np d p (Z.of_nat p) ph de ftn Hd Hp ltac:(auto) Hm Hl)
    as (s1 & E1 & X1 & Y1 & R1).
  rewrite E in E1. injection E1 as <-. apply R1. auto.
Qed.

(** C11, negative offsets: the same for a start before the profile, when the
    distribution is given at turn a = p * dturns + deltaturn. *)
Lemma C11_area_deltaturn_lem : forall m F np d p q delta a, (0 < d)%nat -> (q < np)%nat -> (delta <= 0)%Z ->
  Z.of_nat a = (p * Z.of_nat d + delta)%Z -> (0 <= p < Z.of_nat np)%Z ->
  holds m F (d * (np - 1)) ->
  exists f, area_preserving f /\
    forall ph de ftn s, length ph = length de ->
      track Rplus Rminus Rmult sin 0 m np (Z.of_nat d) p delta ph de ftn = Ok s ->
      row_is (xp s) (yp s) q (map f (combine ph de)).
Proof.
  intros m F np d p q delta a Hd Hq Hdl Ha Hp Hm. exists (travel Rplus Rminus Rmult sin F a (q * d)). split; [apply area_travel|].
  intros ph de ftn s Hl E.
  destruct (C04_deltaturn_partial_lem R Rplus Rminus Rmult sin 0 F m np d p delta a ph de ftn s
     ltac:(intros; ring) ltac:(intros; ring) Hd ltac:(lia) Hdl Ha Hm Hl E) as (X1 & Y1 & R1). apply R1. auto.
Qed.

(*EX*)
(** A constant machine with two RF systems meets the hypotheses; the map that
    doubles the energy is rejected. *)
Example C11_ex : exists m F, holds m F (2 * (3 - 1)) /\ rf1v m = repeat 1 5 /\ hratio m = 2.
Proof.
  exists (Machine (repeat 1 5) (repeat 1 5) (repeat 1 5) (repeat 1 5) (repeat 1 5) (repeat 1 5) 2),
    (Params (fun _ => 1) (fun _ => 1) (fun _ => 1) (fun _ => 1) (fun _ => 1) (fun _ => 1) 2).
  split; [|split; reflexivity]. split; [reflexivity|].
  intros t Ht. do 5 (destruct t as [|t]; [repeat split; reflexivity|]). lia.
Qed.
Example C11_ex_not : ~ area_preserving (fun p => (fst p, 2 * snd p)).
Proof. exact not_area. Qed.
(*XE*)

(** * C46: derivatives for the root finders *)

Ltac diff :=
  cbv beta; match goal with
  | |- derivable_pt_lim (fun u => @?f u + @?g u) _ _ => apply (d_plus f g); diff
  | |- derivable_pt_lim (fun u => @?f u - @?g u) _ _ => apply (d_minus f g); diff
  | |- derivable_pt_lim (fun u => ?c) _ _ => apply (d_const c)
  | |- derivable_pt_lim (fun u => ?c * @?f u) _ _ => apply (d_scal c f); diff
  | |- derivable_pt_lim (fun u => sin (@?f u)) _ _ => apply (d_sin f); diff
  | |- derivable_pt_lim (fun u => cos (@?f u)) _ _ => apply (d_cos f); diff
  | |- derivable_pt_lim (fun u => u) _ _ => apply d_id
  end.

(** C46: the derivatives given to the root finder for the synchronous phase,
    for all voltages, phases and machines. *)
Lemma C46_rf_voltage_lem : forall v1 v2 bdot h_ratio phi12 radius bending_rad charge phi,
  derivable_pt_lim (fun x => rf_voltage x v1 v2 bdot h_ratio phi12 radius bending_rad charge) phi
    (drf_voltage phi v1 v2 h_ratio phi12) /\
  derivable_pt_lim (fun x => rfvolt_rf1 x v1 bdot radius bending_rad charge) phi (drfvolt_rf1 phi v1).
Proof.
  intros. unfold rf_voltage, drf_voltage, rfvolt_rf1, drfvolt_rf1. split.
  - eapply d_eq; [|diff]. cbv beta. ring.
  - eapply d_eq; [|diff]. cbv beta. ring.
Qed.
Lemma C46_machine_lem : forall m time phi,
  derivable_pt_lim (rf_voltage_mch m time) phi (drf_voltage_mch m time phi) /\
  derivable_pt_lim (rfvolt_rf1_mch m time) phi (drfvolt_rf1_mch m time phi).
Proof.
  intros. split.
  - exact (proj1 (C46_rf_voltage_lem _ _ _ _ _ _ _ _ phi)).
  - exact (proj2 (C46_rf_voltage_lem _ 0 _ 0 0 _ _ _ phi)).
Qed.

(** C46, potential energy: the derivative is right if the voltages at the
    turn and at the index of the reference frame are the same. *)
Lemma C46_phase_low_partial_lem : forall len vrf1 vrf2 phi0 h_ratio phi12 rf_turn ref_frame f phase df,
  (forall x, phase_low x len vrf1 vrf2 phi0 h_ratio phi12 rf_turn ref_frame = Ok (f x)) ->
  dphase_low phase len vrf1 vrf2 h_ratio phi12 rf_turn = Ok df ->
  np_get vrf1 ref_frame = np_get vrf1 rf_turn -> np_get vrf2 ref_frame = np_get vrf2 rf_turn ->
  derivable_pt_lim f phase df.
Proof.
  intros len vrf1 vrf2 p0 h p12 rt rf f phase df Hf Hd E1 E2.
  unfold dphase_low in Hd. apply bind_ok in Hd. destruct Hd as [b [B Hd]]. apply bind_ok in Hd. destruct Hd as [a [A Hd]].
  injection Hd as <-.
  assert (exists p, np_get p0 rt = Ok p /\ h <> 0 /\ forall x, f x = a * (cos (x + len) - cos x)
     + b * (cos (h * (x + len - p12)) - cos (h * (x - p12))) / h + len * rf_voltage_at_phase p a b h p12).
  { assert (H0 := Hf 0). unfold phase_low in H0. rewrite E1, E2, A, B in H0. cbn [bind] in H0.
    apply bind_ok in H0. destruct H0 as [v2 [D H0]]. apply rdiv_ok in D. destruct D as [Hh _].
    apply bind_ok in H0. destruct H0 as [p [P H0]]. exists p. split; auto. split; auto. intros x.
    specialize (Hf x). unfold phase_low in Hf. rewrite E1, E2, A, B in Hf. cbn [bind] in Hf.
    rewrite rdiv_val in Hf by auto. cbn [bind] in Hf. rewrite P in Hf. cbn [bind] in Hf. injection Hf as Hf. rewrite <- Hf. ring. }
  destruct H as (p & P & Hh & Hx).
  apply (derivable_pt_lim_ext (fun x => a * (cos (x + len) - cos x)
     + (b / h) * (cos (h * (x + len - p12)) - cos (h * (x - p12))) + len * rf_voltage_at_phase p a b h p12)).
  { intros. rewrite Hx. field. auto. }
  eapply d_eq; [|diff]. cbv beta. field. auto.
Qed.

(** C46, potential energy, refuted: [ref_frame] is a frame number but used as
    a turn number; with 2 turns per frame, reference frame 1 and a rising
    voltage, the derivative belongs to another function. *)
Lemma C46_phase_low_refuted_lem : exists len vrf1 vrf2 phi0 h_ratio phi12 dturns ref_frame f phase df,
  (forall x, phase_low x len vrf1 vrf2 phi0 h_ratio phi12 (ref_frame * dturns) ref_frame = Ok (f x)) /\
  dphase_low phase len vrf1 vrf2 h_ratio phi12 (ref_frame * dturns) = Ok df /\
  ~ derivable_pt_lim f phase df.
Proof.
  exists (PI / 2), [1; 2; 3], [0; 0; 0], [0; 0; 0], 1, 0, 2%Z, 1%Z,
    (fun x => 2 * (cos (x + PI / 2) - cos x) + 0 * (cos (1 * (x + PI / 2 - 0)) - cos (1 * (x - 0))) / 1
              + PI / 2 * rf_voltage_at_phase 0 3 0 1 0), 0,
    (-1 * 0 * (sin (1 * (0 + PI / 2 - 0)) - sin (1 * (0 - 0))) - 3 * (sin (0 + PI / 2) - sin 0)).
  split. { intros x. unfold phase_low.
    change (np_get [1; 2; 3] 1) with (@Ok R 2). change (np_get [0; 0; 0] 1) with (@Ok R 0). cbn [bind].
    rewrite rdiv_val by lra. reflexivity. }
  split; [reflexivity|]. intros D.
  assert (D' : derivable_pt_lim (fun x => 2 * (cos (x + PI / 2) - cos x) + 0 * (cos (1 * (x + PI / 2 - 0)) - cos (1 * (x - 0))) / 1
              + PI / 2 * rf_voltage_at_phase 0 3 0 1 0) 0 (2 * (- sin (0 + PI / 2) * 1 - - sin 0 * 1))).
  { apply (derivable_pt_lim_ext (fun x => 2 * (cos (x + PI / 2) - cos x) + PI / 2 * rf_voltage_at_phase 0 3 0 1 0)).
    - intros. field.
    - eapply d_eq; [|diff]. cbv beta. ring. }
  assert (E := uniqueness_limite _ _ _ _ D D'). rewrite Rplus_0_l in E. rewrite sin_PI2, sin_0 in E. lra.
Qed.

(*EX*)
Example C46_ex : exists f, (forall x, phase_low x 1 [1; 1] [3; 3] [0; 0] 2 0 1 0 = Ok (f x)) /\
  exists df, dphase_low 5 1 [1; 1] [3; 3] 2 0 1 = Ok df.
Proof.
  eexists. split; [|eexists; reflexivity]. intros x. unfold phase_low.
  change (np_get [1; 1] 0) with (@Ok R 1). change (np_get [3; 3] 0) with (@Ok R 3). cbn [bind].
  unfold rdiv. destruct (Req_EM_T 2 0); [lra|]. cbn. reflexivity.
Qed.
(*XE*)

Lemma ex_bounds : 0 < rm_e_rest (ramp_machine 1) /\ 0 < rm_radius (ramp_machine 1) /\ 0 < rm_trans_gamma (ramp_machine 1) /\
  rm_q (ramp_machine 1) * rm_b0 (ramp_machine 1) * rm_bending (ramp_machine 1) <> 0 /\
  exists v, values_at_turns ramp_newton (ramp_machine 1) = Ok v.
Proof.
  cbn. assert (P := PI_RGT_0). assert (C := c_light_pos).
  split; [lra|]. split; [apply Rinv_0_lt_compat; lra|]. split; [lra|].
  split; [assert (0 < 4 / c_light) by (apply Rdiv_lt_0_compat; lra); lra|].
  destruct ex_values as (v & H & _). exists v. exact H.
Qed.

(** * C47: relativistic bounds *)

(** C47: energy, momentum and mass at the reference turn. *)
Lemma C47_energy_lem : forall m, exists e, b_to_e m = Ok e /\ Rabs (rm_e_rest m) <= e /\
  e ^ 2 = (rm_q m * rm_b0 m * rm_bending m * c_light) ^ 2 + rm_e_rest m ^ 2.
Proof.
  intros. unfold b_to_e. set (p := rm_q m * rm_b0 m * rm_bending m * c_light).
  assert (P : 0 <= p ^ 2) by apply pow2_ge_0. assert (Q : 0 <= rm_e_rest m ^ 2) by apply pow2_ge_0.
  rewrite rsqrt_val by lra. eexists. split; [reflexivity|]. split; [|apply pow2_sqrt; lra].
  rewrite <- sqrt_Rsqr_abs. apply sqrt_le_1_alt. unfold Rsqr. nra.
Qed.

(** C47: a charged particle in a field moves, slower than light; its speed is
    momentum over energy. *)
Lemma C47_beta_lem : forall m, 0 < rm_e_rest m -> rm_q m * rm_b0 m * rm_bending m <> 0 ->
  exists e b, b_to_e m = Ok e /\ lorentz_beta m e = Ok b /\ rm_e_rest m < e /\ 0 < b < 1 /\
    b * e = Rabs (rm_q m * rm_b0 m * rm_bending m * c_light).
Proof.
  intros m He Hp. destruct (C47_energy_lem m) as (e & E & L & Sq). exists e.
  rewrite Rabs_pos_eq in L by lra. set (p := rm_q m * rm_b0 m * rm_bending m * c_light) in *.
  assert (Pz : p <> 0). { unfold p. intros Z. apply Rmult_integral in Z. destruct Z as [Z|Z]; auto. assert (C := c_light_pos). lra. }
  assert (P2 : 0 < p ^ 2) by (apply pow2_gt_0; auto).
  assert (Le : rm_e_rest m < e) by nra.
  unfold lorentz_beta. rewrite rdiv_val by lra. cbn [bind].
  assert (A : 1 - (rm_e_rest m / e) ^ 2 = (Rabs p / e) ^ 2).
  { assert ((Rabs p) ^ 2 = p ^ 2) by (apply pow2_abs). unfold Rdiv. rewrite !Rpow_mult_distr, H, pow_inv. 
    assert (e ^ 2 <> 0) by (apply pow_nonzero; lra). apply (Rmult_eq_reg_r (e ^ 2)); auto. field_simplify; auto; try lra. }
  assert (Pa : 0 < Rabs p) by (apply Rabs_pos_lt; auto).
  rewrite A, rsqrt_val by apply pow2_ge_0. eexists. split; [exact E|]. split; [reflexivity|]. split; auto.
  assert (Pd : 0 < Rabs p / e) by (apply Rdiv_lt_0_compat; lra).
  rewrite sqrt_pow2 by lra. split.
  - split; auto. apply (Rmult_lt_reg_r e); [lra|]. unfold Rdiv. rewrite Rmult_assoc, Rinv_l by lra.
    assert (Rabs p ^ 2 = p ^ 2) by apply pow2_abs. nra.
  - field. lra.
Qed.

(** C47: at every turn the energy exceeds the rest energy, the speed is
    between 0 and that of light, the revolution frequency between 0 and c/R,
    and the slip factor is positive exactly below transition. *)
Lemma C47_turns_lem : forall newton m v d np p, (0 < d)%nat -> (0 < np)%nat ->
  rm_dturns m = Z.of_nat d -> rm_nprofiles m = Z.of_nat np -> rm_ref_frame m = Z.of_nat p ->
  0 < rm_e_rest m -> 0 < rm_radius m -> 0 < rm_trans_gamma m ->
  values_at_turns newton m = Ok v ->
  forall i, (i <= d * (np - 1))%nat ->
  let s := tv_turns v in
  rm_e_rest m < Rabs (at_ (tn_e0 s) i) /\
  0 < at_ (tn_beta0 s) i < 1 /\
  0 < at_ (tv_omega_rev0 v) i < c_light / rm_radius m /\
  (0 < at_ (tv_eta0 v) i <-> Rabs (at_ (tn_e0 s) i) < rm_trans_gamma m * rm_e_rest m).
Proof.
  intros newton m v d np p Hd Hn E1 E2 E3 He HR Hg H i Hi s.
  destruct (C45_derived_lem newton m v d np p Hd Hn E1 E2 E3 H i Hi) as (D1 & _ & D3 & _ & _ & D6). fold s in D1, D3, D6.
  destruct (C45_turns_lem newton m v d np p Hd Hn E1 E2 E3 H) as (_ & _ & Sp & _).
  destruct (Sp i Hi) as (S1 & S2 & S3). fold s in S1, S2, S3.
  set (b := at_ (tn_beta0 s) i) in *. set (e := at_ (tn_e0 s) i) in *.
  assert (A2 : Rabs e ^ 2 = e ^ 2) by apply pow2_abs. assert (Ap : 0 < Rabs e) by (apply Rabs_pos_lt; auto).
  set (a := Rabs e) in *. rewrite <- A2 in S2, D1. assert (C := c_light_pos).
  assert (B1 : b < 1). { apply Rnot_le_lt. intros Q. assert (0 < rm_e_rest m ^ 2) by nra.
    assert (1 - b ^ 2 <= 0) by nra. assert (0 < a ^ 2) by nra. nra. }
  assert (M : rm_e_rest m < a).
  { apply Rnot_le_lt. intros Q. assert (0 < b ^ 2 * a ^ 2) by (apply Rmult_lt_0_compat; nra). nra. }
  split; auto. split; auto. split.
  - assert (O : at_ (tv_omega_rev0 v) i = b * c_light / rm_radius m).
    { rewrite <- D3. field. lra. }
    rewrite O. split; [apply Rdiv_lt_0_compat; auto; nra|].
    unfold Rdiv. apply Rmult_lt_compat_r; [apply Rinv_0_lt_compat; auto|nra].
  - rewrite D1. set (g := rm_trans_gamma m) in *. set (E := rm_e_rest m) in *.
    assert (Q : E ^ 2 / a ^ 2 - 1 / g ^ 2 = (g * E - a) * ((g * E + a) / (a ^ 2 * g ^ 2))).
    { field. split; nra. }
    rewrite Q. assert (0 < (g * E + a) / (a ^ 2 * g ^ 2)).
    { apply Rdiv_lt_0_compat; [nra|]. apply Rmult_lt_0_compat; nra. }
    split; intros.
    + apply Rnot_le_lt. intros W. nra.
    + apply Rmult_lt_0_compat; auto. lra.
Qed.

(** C47, charge 0 (which the input checks accept): the speed is 0, and no
    machine with finite values results. *)
Lemma C47_charge_zero_refuted_lem : forall newton m v d np p, (0 < d)%nat -> (0 < np)%nat ->
  rm_dturns m = Z.of_nat d -> rm_nprofiles m = Z.of_nat np -> rm_ref_frame m = Z.of_nat p ->
  (p < np)%nat -> rm_e_rest m <> 0 -> rm_q m = 0 ->
  values_at_turns newton m <> Ok v.
Proof.
  intros newton m v d np p Hd Hn E1 E2 E3 Hp He Hq H.
  destruct (C45_turns_lem newton m v d np p Hd Hn E1 E2 E3 H) as (_ & _ & Sp & _ & Ee & _).
  assert (Hi : (p * d <= d * (np - 1))%nat) by nia.
  destruct (C45_derived_lem newton m v d np p Hd Hn E1 E2 E3 H _ Hi) as (_ & _ & _ & _ & _ & D6).
  destruct (Sp _ Hi) as (S1 & S2 & S3). rewrite Hq in Ee.
  set (b := at_ (tn_beta0 (tv_turns v)) (p * d)) in *. set (e := at_ (tn_e0 (tv_turns v)) (p * d)) in *.
  assert (Q : e ^ 2 = rm_e_rest m ^ 2) by (rewrite Ee; ring).
  assert (0 < rm_e_rest m ^ 2) by (apply pow2_gt_0; auto). rewrite Q in S2.
  assert (0 < b ^ 2 * rm_e_rest m ^ 2) by (apply Rmult_lt_0_compat; [apply pow2_gt_0; lra|auto]). lra.
Qed.

(*EX*)
Example C47_ex : 0 < rm_e_rest (ramp_machine 1) /\ 0 < rm_radius (ramp_machine 1) /\ 0 < rm_trans_gamma (ramp_machine 1) /\
  rm_q (ramp_machine 1) * rm_b0 (ramp_machine 1) * rm_bending (ramp_machine 1) <> 0 /\
  exists v, values_at_turns ramp_newton (ramp_machine 1) = Ok v.
Proof. exact ex_bounds. Qed.
(*XE*)
