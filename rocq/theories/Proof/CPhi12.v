(** Proofs on the phase between two RF systems calculated by the program
    machine. *)
(*HEAD*)
From Coq Require Import Reals List ZArith Bool Lia Lra Psatz.
From Verif Require Import Base.Res Base.RLib Model.MParticles Model.MTrack Model.MMachine Model.MPrograms Model.MObjects Spec.MachineSpec Spec.ProgramsSpec Spec.ObjectSpec.
Import ListNotations.
Local Open Scope R_scope.
(*DAEH*)
From Verif Require Import Base.ResLemmas Base.QcLib Base.QcLemmas Proof.PInput Proof.PParticles Proof.PMachine Proof.PSelf Proof.PPrograms Proof.PPrograms2 Proof.CPrograms.

Lemma combine_at : forall (a b : list R) i, length a = length b -> (i < length a)%nat -> nth i (combine a b) (0, 0) = (at_ a i, at_ b i).
Proof. intros a b i L H. apply combine_nth. auto. Qed.

Lemma mapM_at2 : forall (f : R * R -> res R) (l : list (R * R)) (r : list R), mapM f l = Ok r ->
  length r = length l /\ forall i, (i < length l)%nat -> f (nth i l (0, 0)) = Ok (at_ r i).
Proof.
  intros f. induction l as [|x l IH]; intros r H; cbn in H.
  - injection H as <-. split; auto. cbn. intros; lia.
  - apply bind_ok in H. destruct H as [y [E H]]. apply bind_ok in H. destruct H as [r' [E' H]]. injection H as <-.
    destruct (IH r' E') as [L P]. split; [cbn; auto|]. intros [|i] Hi; [exact E|]. apply P. cbn in Hi. lia.
Qed.

Lemma mapM_cons : forall {A B} (f : A -> res B) x l, mapM f (x :: l) = (y <- f x ;; ys <- mapM f l ;; Ok (y :: ys)).
Proof. reflexivity. Qed.

Lemma calc_inv : forall m v mode v', calc_phi12 m v mode = Ok v' ->
  length (pv_bdot v) = length (pv_vrf1 v) /\
  exists l, v' = set_phi12 v (Some (PhiArray l)) /\ length l = length (pv_vrf1 v) /\
    forall i, (i < length l)%nat -> phi12_of m (pv_h_ratio v) mode (at_ (pv_bdot v) i) (at_ (pv_vrf1 v) i) = Ok (at_ l i).
Proof.
  intros m v mode v' H. unfold calc_phi12 in H. destruct (Nat.eqb_spec (length (pv_bdot v)) (length (pv_vrf1 v))) as [E|]; [|discriminate].
  split; auto. apply bind_ok in H. destruct H as [l [F H]]. injection H as <-. exists l. split; auto.
  apply mapM_at2 in F. destruct F as [L P]. rewrite combine_length, <- E, Nat.min_id in L. split; [congruence|].
  intros i Hi. specialize (P i). rewrite combine_length, <- E, Nat.min_id in P. rewrite combine_at in P by (auto; lia). apply P. lia.
Qed.

Lemma phi12_inv : forall m h mode bdot v1 p, phi12_of m h mode bdot v1 = Ok p ->
  v1 <> 0 /\ h <> 0 /\ exists s, - (PI / 2) <= s <= PI / 2 /\ v1 * sin s = 2 * PI * pg_radius m * pg_bending m * bdot /\
    p = if (mode =? 2)%Z then s + PI / h - PI else s + PI / h.
Proof.
  intros m h mode bdot v1 p H. unfold phi12_of in H. apply bind_ok in H. destruct H as [x [E1 H]]. apply bind_ok in H. destruct H as [s [E2 H]].
  apply bind_ok in H. destruct H as [a [E3 H]]. unfold rdiv in E1, E3. destruct (Req_EM_T v1 0); [discriminate|]. destruct (Req_EM_T h 0); [discriminate|].
  injection E1 as <-. injection E3 as <-. unfold rasin in E2. destruct (Rle_dec _ 1) as [A|]; [|discriminate]. injection E2 as <-. injection H as <-.
  split; auto. split; auto. eexists. split; [apply asin_bound|]. split; [|reflexivity].
  rewrite sin_asin; [field; auto|]. revert A; unfold Rabs; destruct (Rcase_abs _); intros; split; lra.
Qed.

Lemma sin_PI_eq : forall x, sin (- PI + x) = - sin x. Proof. intros. replace (- PI + x) with (- (PI - x)) by ring. rewrite sin_neg, sin_PI_x. reflexivity. Qed.
Lemma cos_PI_eq : forall x, cos (- PI + x) = - cos x.
Proof. intros. replace (- PI + x) with (- (PI - x)) by ring. rewrite cos_neg. replace (PI - x) with (- x + PI) by ring. rewrite neg_cos, cos_neg. reflexivity. Qed.

(** C93.  The modes 0 and 1, for particles of positive charge: the second RF
    system is at a zero at the synchronous phase phi of the first one, so that
    phi is a synchronous phase of both together; and the second system lowers
    the slope of the voltage there. *)
Lemma C93_synchronous_partial_lem : forall m v mode v', calc_phi12 m v mode = Ok v' -> 0 < pg_q m -> mode <> 2%Z ->
  exists l, pv_phi12 v' = Some (PhiArray l) /\ length l = length (pv_vrf1 v) /\
  forall i, (i < length l)%nat -> exists phi, - (PI / 2) <= phi <= PI / 2 /\
    let gain := 2 * PI * pg_radius m * pg_bending m * at_ (pv_bdot v) i * rsign (pg_q m) in
    let h := pv_h_ratio v in let v1 := at_ (pv_vrf1 v) i in let v2 := at_ (pv_vrf2 v) i in
    v1 * sin phi = gain /\
    v1 * sin phi + v2 * sin (h * (phi - at_ l i)) = gain /\
    v1 * cos phi + h * v2 * cos (h * (phi - at_ l i)) = v1 * cos phi - h * v2.
Proof.
  intros m v mode v' H Q M. apply calc_inv in H. destruct H as [E (l & -> & L & P)]. exists l. split; auto. split; auto.
  intros i Hi. specialize (P i Hi). apply phi12_inv in P. destruct P as [N1 [N2 (s & B & S & ->)]].
  destruct (Z.eqb_spec mode 2) as [|_]; [contradiction|]. exists s. split; auto. cbv zeta.
  assert (G : rsign (pg_q m) = 1). { unfold rsign. destruct (Rlt_dec (pg_q m) 0); [lra|]. destruct (Rlt_dec 0 (pg_q m)); lra. }
  rewrite G, Rmult_1_r. replace (pv_h_ratio v * (s - (s + PI / pv_h_ratio v))) with (- PI) by (field; auto).
  rewrite sin_neg, cos_neg, sin_PI, cos_PI. split; [auto|]. split; [rewrite S; ring|ring].
Qed.

(** C93.  Mode 2 with an integer ratio k of the harmonics: again the phase is
    kept; the slope is lowered for even k and raised for odd k. *)
Lemma C93_second_partial_lem : forall m v v' k, calc_phi12 m v 2 = Ok v' -> 0 < pg_q m -> pv_h_ratio v = INR k ->
  exists l, pv_phi12 v' = Some (PhiArray l) /\ length l = length (pv_vrf1 v) /\
  forall i, (i < length l)%nat -> exists phi, - (PI / 2) <= phi <= PI / 2 /\
    let gain := 2 * PI * pg_radius m * pg_bending m * at_ (pv_bdot v) i * rsign (pg_q m) in
    let h := pv_h_ratio v in let v1 := at_ (pv_vrf1 v) i in let v2 := at_ (pv_vrf2 v) i in
    v1 * sin phi = gain /\
    v1 * sin phi + v2 * sin (h * (phi - at_ l i)) = gain /\
    v1 * cos phi + h * v2 * cos (h * (phi - at_ l i)) = if Nat.even k then v1 * cos phi - h * v2 else v1 * cos phi + h * v2.
Proof.
  assert (K : forall k, sin (INR k * PI) = 0 /\ cos (INR k * PI) = if Nat.even k then 1 else -1).
  { induction k as [|k [IH1 IH2]].
    - replace (INR 0 * PI) with 0 by (simpl; ring). rewrite sin_0, cos_0. auto.
    - rewrite S_INR, Rmult_plus_distr_r, Rmult_1_l, neg_sin, neg_cos, IH1, IH2. rewrite Nat.even_succ, <- Nat.negb_even. destruct (Nat.even k); simpl; lra. }
  intros m v v' k H Q Ek. apply calc_inv in H. destruct H as [E (l & -> & L & P)]. exists l. split; auto. split; auto.
  intros i Hi. specialize (P i Hi). apply phi12_inv in P. destruct P as [N1 [N2 (s & B & S & ->)]].
  exists s. split; auto. cbv zeta.
  assert (G : rsign (pg_q m) = 1). { unfold rsign. destruct (Rlt_dec (pg_q m) 0); [lra|]. destruct (Rlt_dec 0 (pg_q m)); lra. }
  rewrite G, Rmult_1_r. change (2 =? 2)%Z with true. cbv iota. rewrite Ek in *.
  replace (INR k * (s - (s + PI / INR k - PI))) with (- PI + INR k * PI) by (field; auto).
  rewrite sin_PI_eq, cos_PI_eq. destruct (K k) as [-> ->]. split; [auto|]. split; [rewrite S; ring|destruct (Nat.even k); ring].
Qed.

(** C93.  When it is defined: the first system must give the energy gain. *)
Lemma C93_defined_lem : forall m v mode, length (pv_bdot v) = length (pv_vrf1 v) -> pv_h_ratio v <> 0 ->
  ((exists v', calc_phi12 m v mode = Ok v') <->
   forall i, (i < length (pv_vrf1 v))%nat -> at_ (pv_vrf1 v) i <> 0 /\
     Rabs (2 * PI * pg_radius m * pg_bending m * at_ (pv_bdot v) i) <= Rabs (at_ (pv_vrf1 v) i)).
Proof.
  intros m v mode L Nh. split.
  - intros [v' H] i Hi. apply calc_inv in H. destruct H as [_ (l & _ & Ll & P)]. specialize (P i ltac:(lia)).
    apply phi12_inv in P. destruct P as [N1 [_ (s & _ & S & _)]]. split; auto. rewrite <- S, Rabs_mult.
    assert (Rabs (sin s) <= 1) by (apply Rabs_le; apply SIN_bound). assert (0 <= Rabs (at_ (pv_vrf1 v) i)) by apply Rabs_pos. nra.
  - intros A. unfold calc_phi12. destruct (Nat.eqb_spec (length (pv_bdot v)) (length (pv_vrf1 v))) as [_|]; [|contradiction].
    cut (exists l, mapM (fun x => phi12_of m (pv_h_ratio v) mode (fst x) (snd x)) (combine (pv_bdot v) (pv_vrf1 v)) = Ok l).
    { intros [l ->]. cbn [bind]. eauto. }
    revert L A. generalize (pv_bdot v) (pv_vrf1 v). induction l as [|b l IH]; intros [|x xs] L A; try discriminate; [exists []; reflexivity|]; cbn [combine].
    rewrite mapM_cons. cbn [fst snd].
    destruct (A O (Nat.lt_0_succ _)) as [N1 B1]. cbn in N1, B1.
    destruct (IH xs) as [r Hr]; [injection L as L; exact L|intros i Hi; apply (A (S i)); cbn [length]; lia|]. rewrite Hr.
    unfold phi12_of, rdiv, rasin. destruct (Req_EM_T x 0); [contradiction|]. cbn [bind].
    destruct (Rle_dec _ 1) as [_|N].
    + cbn [bind]. destruct (Req_EM_T (pv_h_ratio v) 0); [contradiction|]. cbn [bind]. eauto.
    + exfalso. apply N. unfold Rdiv. rewrite Rabs_mult, Rabs_inv.
      replace (2 * PI * pg_bending m * pg_radius m * b) with (2 * PI * pg_radius m * pg_bending m * b) by ring.
      assert (0 < Rabs x) by (apply Rabs_pos_lt; auto). apply (Rmult_le_reg_r (Rabs x)); auto. rewrite Rmult_assoc, Rinv_l by lra. lra.
Qed.

(** C93.  Refuted: bunch shortening (0) and bunch lengthening (1) are the same,
    for every machine. *)
Lemma C93_modes_refuted_lem : forall m v, calc_phi12 m v 0 = calc_phi12 m v 1.
Proof. reflexivity. Qed.

(** C93.  Refuted for particles of negative charge: the phase taken for the
    synchronous one is not one whenever the field changes. *)
Lemma C93_charge_refuted_lem : forall m v mode v', calc_phi12 m v mode = Ok v' -> pg_q m < 0 -> mode <> 2%Z ->
  exists l, pv_phi12 v' = Some (PhiArray l) /\ length l = length (pv_vrf1 v) /\
  forall i, (i < length l)%nat -> at_ (pv_bdot v) i <> 0 -> pg_radius m <> 0 -> pg_bending m <> 0 ->
    let gain := 2 * PI * pg_radius m * pg_bending m * at_ (pv_bdot v) i * rsign (pg_q m) in
    let h := pv_h_ratio v in let v1 := at_ (pv_vrf1 v) i in
    let phi := at_ l i - PI / h in
    v1 * sin phi = - gain /\ v1 * sin phi <> gain /\
    v1 * sin phi + at_ (pv_vrf2 v) i * sin (h * (phi - at_ l i)) <> gain.
Proof.
  intros m v mode v' H Q M. apply calc_inv in H. destruct H as [E (l & -> & L & P)]. exists l. split; auto. split; auto.
  intros i Hi Nb Nr Nd. specialize (P i Hi). apply phi12_inv in P. destruct P as [N1 [N2 (s & B & S & ->)]].
  destruct (Z.eqb_spec mode 2) as [|_]; [contradiction|]. cbv zeta.
  assert (G : rsign (pg_q m) = -1). { unfold rsign. destruct (Rlt_dec (pg_q m) 0); lra. }
  rewrite G. replace (s + PI / pv_h_ratio v - PI / pv_h_ratio v) with s by ring.
  replace (pv_h_ratio v * (s - (s + PI / pv_h_ratio v))) with (- PI) by (field; auto). rewrite sin_neg, sin_PI, S.
  assert (X : 2 * PI * pg_radius m * pg_bending m * at_ (pv_bdot v) i <> 0).
  { assert (2 * PI <> 0) by (generalize PI_RGT_0; lra). do 3 (apply Rmult_integral_contrapositive_currified; [|auto]). auto. }
  split; [lra|]. split; lra.
Qed.

(** C93.  Refuted above transition, where the synchronous phase lies on the
    falling side: with a second system of twice the frequency that phase is
    kept only if v2 * sin (4 * phi) is 0. *)
Lemma C93_above_refuted_lem : forall m v mode v', calc_phi12 m v mode = Ok v' -> 0 < pg_q m -> pv_h_ratio v = 2 ->
  exists l, pv_phi12 v' = Some (PhiArray l) /\ length l = length (pv_vrf1 v) /\
  forall i phi, (i < length l)%nat ->
    let gain := 2 * PI * pg_radius m * pg_bending m * at_ (pv_bdot v) i * rsign (pg_q m) in
    let v1 := at_ (pv_vrf1 v) i in let v2 := at_ (pv_vrf2 v) i in
    v1 * sin phi = gain -> cos phi < 0 ->
    v1 * sin phi + v2 * sin (pv_h_ratio v * (phi - at_ l i)) = gain - v2 * sin (4 * phi).
Proof.
  intros m v mode v' H Q Eh. apply calc_inv in H. destruct H as [E (l & -> & L & P)]. exists l. split; auto. split; auto.
  intros i phi Hi. specialize (P i Hi). apply phi12_inv in P. destruct P as [N1 [N2 (s & B & S & El)]]. cbv zeta. intros Hg Hc.
  assert (G : rsign (pg_q m) = 1). { unfold rsign. destruct (Rlt_dec (pg_q m) 0); [lra|]. destruct (Rlt_dec 0 (pg_q m)); lra. }
  rewrite G, Rmult_1_r in *. rewrite Eh in *.
  assert (Ss : sin s = sin phi). { apply (Rmult_eq_reg_l (at_ (pv_vrf1 v) i)); auto. lra. }
  assert (Cs : cos s = - cos phi).
  { assert (0 <= cos s) by (apply cos_ge_0; lra). assert (X := sin2_cos2 s). assert (Y := sin2_cos2 phi). unfold Rsqr in *. rewrite Ss in X.
    assert (Z : cos s * cos s = cos phi * cos phi) by lra. nra. }
  rewrite Hg. cut (sin (2 * (phi - at_ l i)) = - sin (4 * phi)); [intros ->; ring|].
  assert (A : sin (2 * (phi - at_ l i)) = - sin (2 * (phi - s))).
  { rewrite El. destruct (mode =? 2)%Z.
    - replace (2 * (phi - (s + PI / 2 - PI))) with (2 * (phi - s) + PI) by field. apply neg_sin.
    - replace (2 * (phi - (s + PI / 2))) with (- PI + 2 * (phi - s)) by field. apply sin_PI_eq. }
  rewrite A. f_equal. rewrite sin_2a. rewrite sin_minus, cos_minus, Ss, Cs.
  replace (4 * phi) with (2 * (2 * phi)) by ring. rewrite sin_2a, sin_2a, cos_2a. ring.
Qed.

(** C93.  Without calc_phi12 no phases are found; after it the phases found are
    synchronous for both systems at every turn. *)
Lemma C93_found_lem : forall newton fuel m mode v i0, finds_roots newton -> pg_i0 m = Z.of_nat i0 ->
  pg_phi12 m = None -> pg_phase m = None ->
  (forall w, programs_machine newton fuel m = Ok w -> find_synchronous_phase newton m w = Fail (Raised ValueError)) /\
  (machine_with_mode newton fuel m mode = Ok v ->
   exists l, pv_phi12 v = Some (PhiArray l) /\
   forall i, (Z.of_nat i < pv_n_turns v)%Z -> let phi := at_ (pv_phi0 v) i in
    at_ (pv_vrf1 v) i * sin phi + at_ (pv_vrf2 v) i * sin (pv_h_ratio v * (phi - at_ l i)) =
    2 * PI * pg_radius m * pg_bending m * at_ (pv_bdot v) i * rsign (pg_q m)).
Proof.
  intros newton fuel m mode v i0 HN Ei E1 E2. split.
  - intros w Hw. destruct (C67_open_lem newton fuel m w E1 E2 Hw) as [N _]. unfold find_synchronous_phase. rewrite N. reflexivity.
  - intros H. unfold machine_with_mode in H. apply bind_ok in H. destruct H as [w [Hw H]]. apply bind_ok in H. destruct H as [w' [Hc H]].
    apply bind_ok in H. destruct H as [ph [Hph H]]. injection H as <-. apply calc_inv in Hc. destruct Hc as [Lb (l & -> & Ll & _)].
    exists l. split; auto. intros i Hi. cbv zeta. cbn [set_phi0 set_phi12 pv_n_turns pv_vrf1 pv_vrf2 pv_h_ratio pv_phi12 pv_bdot pv_phi0] in *.
    destruct (built _ _ _ _ Hw) as (u & q & Hu & Ew & _). destruct (values_facts fuel m u Hu) as (ts & ps & FC). destruct FC.
    assert (Lv1 := interp_rows_length _ _ _ _ fc_v1).
    assert (En : pv_n_turns w = Z.of_nat (length ts)) by (rewrite Ew; exact fc_n).
    assert (L1 : length (pv_vrf1 w) = length ts) by (rewrite Ew; exact Lv1).
    apply (synchronous_spec newton m _ (PhiArray l) i0 (length ts)) in Hph; auto.
    destruct Hph as (Lph & _ & (lo & up & st & _ & _ & P0) & P1 & P2).
    assert (P : exists x, newton_rf newton m (set_phi12 w (Some (PhiArray l))) (PhiArray l) (Z.of_nat i) x = Ok (at_ ph i)).
    { destruct (lt_eq_lt_dec i i0) as [[K| ->]|K]; eauto. eexists. apply P2. lia. }
    destruct P as [x X]. unfold newton_rf in X.
    apply bind_ok in X. destruct X as [v1 [X1 X]]. apply bind_ok in X. destruct X as [v2 [X2 X]].
    apply bind_ok in X. destruct X as [bd [X3 X]]. apply bind_ok in X. destruct X as [p12 [X4 X]].
    apply HN in X. cbn [phi12_at set_phi12 pv_vrf1 pv_vrf2 pv_bdot pv_h_ratio] in *.
    apply at_get in X1, X2, X3, X4. destruct X1 as [<- _], X2 as [<- _], X3 as [<- _], X4 as [<- _].
    unfold rf_voltage in X. lra.
Qed.

Lemma flat2_interp : interpolate_momentum 3 flat2 [0; 4] [9; 9] = Ok ([2; 3; 4], [9; 9; 9]).
Proof.
  destruct (flat_grow flat2 0 3%Z 0%Z eq_refl eq_refl ltac:(cbn; lra) eq_refl ltac:(lia)) as [b E].
  eapply (cut_eval _ _ _ _ _ [1; 2; 3; 4] _ 1%Z); [destruct (flat_good 1 3 0 (3 / 2) [1; 2] None None); constructor; auto|exact E|reflexivity|reflexivity|firsts|cbn; lia|reflexivity|reflexivity].
Qed.
Lemma flat2_built : exists v, programs_machine pi_newton 3 flat2 = Ok v /\ pv_n_turns v = 3%Z /\ pv_h_ratio v = 2 /\
  length (pv_vrf1 v) = 3%nat /\ length (pv_vrf2 v) = 3%nat /\ length (pv_bdot v) = 3%nat /\ length (pv_e0 v) = 3%nat /\
  (forall i, (i < 3)%nat -> at_ (pv_vrf1 v) i = 1 /\ at_ (pv_vrf2 v) i = 1 /\ at_ (pv_bdot v) i = 0).
Proof.
  set (m := flat2). assert (G : good_program m [0; 4] [9; 9]).
  { destruct (flat_good 1 3 0 (3 / 2) [1; 2] None None). constructor; auto. }
  destruct (values_built 3 m [0; 4] [9; 9] [0; 10] [1; 1] [1; 1] [2; 3; 4] [9; 9; 9] 0 eq_refl G eq_refl flat2_interp
    ltac:(cbn; lia) ltac:(cbn; lia) eq_refl flat_increasing ltac:(cbn; lia) eq_refl eq_refl) as (w & CK & Hw & NP).
  - right. exists 1, 2. split; [reflexivity|lra].
  - reflexivity.
  - left. reflexivity.
  - cbn; lra.
  - cbn; lra.
  - exists w. split. { unfold programs_machine. rewrite CK. cbn [bind]. rewrite Hw. cbn [bind]. rewrite NP by reflexivity. reflexivity. }
    destruct (values_facts 3 m w Hw) as (ts & ps & FC).
    destruct FC. destruct fc_int as (mt & mm & A1 & A2 & A3). injection A1 as <-. injection A2 as <-. unfold m in A3. rewrite flat2_interp in A3.
    injection A3 as <- <-.
    destruct (fc_h2 1 2 [] eq_refl) as (C1 & _ & C2).
    assert (M1 := interp_rows_length _ _ _ _ fc_v1). assert (M2 := interp_rows_length _ _ _ _ C1).
    assert (V : forall l r, (0 < r)%Z -> nth_error [[0; 10]; [1; 1]; [1; 1]] (Z.to_nat r) = Some [1; 1] -> interp_rows [[0; 10]; [1; 1]; [1; 1]] r [2; 3; 4] = Ok l ->
       forall i, (i < 3)%nat -> at_ l i = 1).
    { intros l r Hr Hr' Hl i Hi. assert (X := interp_rows_at [0; 10] [1; 1] [[1; 1]; [1; 1]] r [2; 3; 4] l flat_increasing ltac:(lia) Hr' Hl i Hi).
      destruct X as [[_ ->]|[(k & K1 & K2 & K3)|[_ ->]]]; auto.
      destruct k as [|k]; [|cbn in K1; lia]. unfold at_ in *. cbn [nth] in *. lra. }
    destruct fc_time as (tr & t0 & T1 & T2 & T3 & _). destruct fc_bdot as (bf & F1 & F2).
    assert (BD : forall i, (i < 3)%nat -> at_ (pv_bdot w) i = 0).
    { apply mapM_at in fc_b. destruct fc_b as [Lb Vb]. apply mapM_at in T1. destruct T1 as [Lt Vt]. destruct (rcumsum_spec tr 0) as (Lc & Sc & _).
      apply mapM_at in F1. destruct F1 as [Lf Vf]. cbn in Lb, Lf.
      assert (P9 : forall i, (i < 3)%nat -> at_ [9; 9; 9] i = 9) by (intros [|[|[|i]]] Hi; [reflexivity|reflexivity|reflexivity|lia]).
      assert (TR : forall i, (i < 3)%nat -> 0 < at_ tr i).
      { intros i Hi. specialize (Vt i ltac:(lia)). specialize (Vb i Hi). rewrite P9, beta_val in Vb by (try rewrite P9; auto; lra).
        injection Vb as Vb. rewrite <- Vb, period_val in Vt by (try apply G; lra). injection Vt as <-. apply revolution_pos; [apply G|lra]. }
      destruct (C68_derivative_lem bf (pv_time w) (pv_bdot w) (at_ bf 0) 0 0 F2) as (_ & _ & Q).
      - rewrite T3. intros j Hj. rewrite map_length in Hj. rewrite !at_map by lia. rewrite Sc by lia. specialize (TR (S j) ltac:(lia)). lra.
      - rewrite T3, map_length. intros j Hj. assert (X := Vf j ltac:(cbn; lia)). assert (Y := Vf 0%nat ltac:(cbn; lia)). rewrite P9 in X, Y by lia.
        assert (at_ bf j = at_ bf 0) by congruence. lra.
      - intros i Hi. apply Q; auto. rewrite T3, map_length. lia. }
    assert (BL : length (pv_bdot w) = 3%nat).
    { destruct (gradient_spec _ _ _ F2) as (_ & X & _). rewrite X. apply mapM_at in F1. apply F1. }
    split; [exact fc_n|]. split; [rewrite C2; lra|].
    split; [exact M1|]. split; [exact M2|]. split; [exact BL|]. split. { apply mapM_at in fc_e. apply fc_e. }
    intros i Hi. split; [apply (V _ 1%Z ltac:(lia) eq_refl fc_v1 i Hi)|]. split; [apply (V _ 2%Z ltac:(lia) eq_refl C1 i Hi)|auto].
Qed.
Lemma flat2_mode : exists v, machine_with_mode pi_newton 3 flat2 0 = Ok v.
Proof.
  destruct flat2_built as (v & H & N & Eh & L1 & L2 & L3 & L4 & V). unfold machine_with_mode. rewrite H. cbn [bind].
  destruct (proj2 (C93_defined_lem flat2 v 0 ltac:(congruence) ltac:(rewrite Eh; lra))) as [w Hw].
  { rewrite L1. intros i Hi. destruct (V i Hi) as (-> & _ & ->). split; [lra|]. rewrite Rmult_0_r, Rabs_R0, Rabs_R1. lra. }
  rewrite Hw. cbn [bind]. apply calc_inv in Hw. destruct Hw as [_ (l & -> & Ll & P)].
  assert (PN : forall f x f', f PI = 0 -> pi_newton f x f' = Ok PI). { intros f x f' E. unfold pi_newton. destruct (Req_EM_T (f PI) 0); [auto|contradiction]. }
  assert (PL : forall i, (i < 3)%nat -> at_ l i = PI / 2).
  { intros i Hi. specialize (P i ltac:(lia)). destruct (V i Hi) as (E1 & _ & E3). rewrite Eh, E1, E3 in P.
    unfold phi12_of, rdiv, rasin in P. destruct (Req_EM_T 1 0); [lra|]. cbn [bind] in P. rewrite Rmult_0_r in P. unfold Rdiv in P. rewrite Rmult_0_l, Rabs_R0, asin_0 in P.
    destruct (Rle_dec 0 1); [|lra]. cbn [bind] in P. destruct (Req_EM_T 2 0); [lra|]. cbn [bind] in P. cbn in P. injection P as <-. lra. }
  destruct (synchronous_found pi_newton flat2 (set_phi12 v (Some (PhiArray l))) (PhiArray l) 0 3 eq_refl eq_refl) as [ph Hph]; auto.
  - cbn; lra.
  - intros x. unfold newton_rf1. cbn [set_phi12 pv_vrf1 pv_bdot]. change 0%Z with (Z.of_nat 0). rewrite !at_np by lia. cbn [bind].
    destruct (V 0%nat ltac:(lia)) as (-> & _ & ->). exists PI. apply PN. unfold rfvolt_rf1. rewrite sin_PI. ring.
  - intros i x Hi. unfold newton_rf. cbn [set_phi12 pv_vrf1 pv_vrf2 pv_bdot pv_h_ratio]. rewrite !at_np by lia. cbn [bind phi12_at].
    rewrite at_np by lia. cbn [bind]. destruct (V i Hi) as (-> & -> & ->). rewrite Eh, PL by auto. exists PI. apply PN. unfold rf_voltage. rewrite sin_PI.
    replace (2 * (PI - PI / 2)) with PI by field. rewrite sin_PI. ring.
  - rewrite Hph. cbn [bind]. eauto.
Qed.

(*EX*)
(** A machine with voltage in both systems, without phases: the whole sequence
    of calls succeeds. *)
Example C93_ex : finds_roots pi_newton /\ pg_i0 flat2 = Z.of_nat 0 /\ pg_phi12 flat2 = None /\ pg_phase flat2 = None /\ 0 < pg_q flat2 /\
  (exists v, programs_machine pi_newton 3 flat2 = Ok v /\ pv_h_ratio v = 2 /\ pv_h_ratio v = INR 2 /\
    (forall i, (i < 3)%nat -> at_ (pv_vrf2 v) i = 1)) /\
  exists v, machine_with_mode pi_newton 3 flat2 0 = Ok v.
Proof.
  split. { intros f x0 f' x H. unfold pi_newton in H. destruct (Req_EM_T (f PI) 0); [|discriminate]. injection H as <-. auto. }
  split; [reflexivity|]. split; [reflexivity|]. split; [reflexivity|]. split; [cbn; lra|]. split; [|apply flat2_mode].
  destruct flat2_built as (v & H & _ & E & _ & _ & _ & _ & V). exists v. split; auto. split; auto. split; [rewrite E; simpl; lra|].
  intros i Hi. apply V; auto.
Qed.
(*XE*)
