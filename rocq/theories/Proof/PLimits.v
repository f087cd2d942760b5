(** Lemmas on the limits of the reconstruction area. *)
From Coq Require Import Reals List ZArith Bool Lia Lra.
From Verif Require Import Base.Res Base.RLib Base.ResLemmas Model.MRecon Model.MParticles Model.MMachine Model.MLimits Spec.LimitsSpec
  Proof.PInput Proof.PMachine Proof.PSelf Proof.CSelf.
Import ListNotations.
Local Open Scope R_scope.

Ltac inv1 H := let x := fresh "x" in let E := fresh "E" in apply bind_ok in H; destruct H as (x & E & H).

Lemma rdiv_inv : forall a b x, rdiv a b = Ok x -> b <> 0 /\ x = a / b.
Proof. intros a b x H. unfold rdiv in H. destruct (Req_EM_T b 0); [discriminate|]. injection H as <-. auto. Qed.

Lemma real_sqrt_pos : forall x, 0 <= real_sqrt x.
Proof. intros. unfold real_sqrt. destruct (Rlt_dec x 0); [lra|apply sqrt_pos]. Qed.

Lemma height_pos : forall m phi k de turn h, trajectory_height m phi k de turn = Ok h -> 0 <= h.
Proof. intros m phi k de turn h H. unfold trajectory_height in H. do 7 inv1 H. injection H as <-. apply real_sqrt_pos. Qed.

Lemma height_conserved : forall m phi k de turn h (t : at_turn m turn), l_q m <> 0 ->
  trajectory_height m phi k de turn = Ok h ->
  conserved t phi h = conserved t k de \/ (h = 0 /\ forall e, conserved t phi e <> conserved t k de).
Proof.
  intros m phi k de turn h t Hq H. unfold trajectory_height in H. do 7 inv1 H. injection H as <-.
  destruct t as [p12 d v1 v2 p0 I1 I2 I3 I4 I5]. unfold conserved. cbn [t_phi12 t_drift t_vrf1 t_vrf2 t_phi0].
  assert (P : x = p12). { unfold phi12_at in E. destruct (l_phi12 m); congruence. }
  assert (x0 = d) by congruence. assert (x1 = v1) by congruence. assert (x2 = v2) by congruence. assert (x3 = p0) by congruence.
  subst. apply rdiv_inv in E4, E5. destruct E4 as [Hd ->]. destruct E5 as [Hh ->].
  set (D := v1 * (cos phi - cos k) + v2 * (cos (l_h_ratio m * (phi - p12)) - cos (l_h_ratio m * (k - p12))) / l_h_ratio m
     + (phi - k) * rf_voltage_at_phase p0 v1 v2 (l_h_ratio m) p12).
  set (SS := 2 * l_q m / d * D + de ^ 2).
  assert (K : forall e, d * e ^ 2 / (2 * l_q m) - (v1 * cos phi + v2 * cos (l_h_ratio m * (phi - p12)) / l_h_ratio m
       + phi * (v1 * sin p0 + v2 * sin (l_h_ratio m * (p0 - p12)))) =
     d * de ^ 2 / (2 * l_q m) - (v1 * cos k + v2 * cos (l_h_ratio m * (k - p12)) / l_h_ratio m
       + k * (v1 * sin p0 + v2 * sin (l_h_ratio m * (p0 - p12)))) <-> e ^ 2 = SS).
  { intros e. unfold SS, D, rf_voltage_at_phase. split; intros H.
    - apply Rmult_eq_reg_l with (d / (2 * l_q m)); [|apply Rmult_integral_contrapositive; split; [auto|apply Rinv_neq_0_compat; lra]].
      transitivity (d * e ^ 2 / (2 * l_q m)); [field; auto|].
      match type of H with ?a - ?b = ?c => assert (H' : a = c + b) by lra end. rewrite H'. field. auto.
    - rewrite H. field. auto. }
  change (de * (de * 1)) with (de ^ 2). fold SS. unfold real_sqrt. destruct (Rlt_dec SS 0) as [N|N].
  - right. split; [reflexivity|]. intros e C. apply K in C. assert (0 <= e ^ 2) by (apply pow2_ge_0). lra.
  - left. apply K. rewrite <- Rsqr_pow2. apply Rsqr_sqrt. lra.
Qed.

Lemma fill_length : forall l a b v, length (fill l a b v) = length l.
Proof. intros. unfold fill. rewrite map_length, combine_length, seq_length. lia. Qed.
Lemma fill_nth : forall l a b v i, (i < length l)%nat ->
  nth i (fill l a b v) 0%Z = if ((a <=? Z.of_nat i) && (Z.of_nat i <? b))%Z then v else nth i l 0%Z.
Proof.
  intros l a b v i H. apply nth_error_nth. unfold fill. rewrite nth_error_map.
  assert (G : forall (l : list Z) s i, (i < length l)%nat -> nth_error (combine (seq s (length l)) l) i = Some (s + i, nth i l 0%Z)%nat).
  { clear. induction l as [|x l IH]; intros s i H; cbn in *; [lia|]. destruct i; cbn; [rewrite Nat.add_0_r; auto|].
    rewrite IH by lia. do 2 f_equal. lia. }
  rewrite G by auto. cbn [option_map fst snd Nat.add]. reflexivity.
Qed.

Lemma nth_map_Z : forall A (f : A -> Z) l i d, (i < length l)%nat -> nth i (map f l) 0%Z = f (nth i l d).
Proof. intros. rewrite (nth_indep _ 0%Z (f d)) by (rewrite map_length; auto). apply map_nth. Qed.

Lemma mapM_seq_nth : forall A (f : nat -> res A) n r i x, mapM f (seq 0 n) = Ok r -> nth_error r i = Some x -> (i < n)%nat /\ f i = Ok x.
Proof.
  intros A f n r i x H E. apply mapM_forall2 in H. destruct (Forall2_nth_error_r _ _ _ _ _ H i x E) as (k & Ek & Fk).
  assert (Hi : (i < n)%nat). { apply nth_error_lt in Ek. rewrite seq_length in Ek. auto. }
  split; auto. rewrite (nth_error_nth' _ 0%nat) in Ek by (rewrite seq_length; auto). rewrite seq_nth in Ek by auto.
  injection Ek as <-. auto.
Qed.
Lemma mapM_seq_length : forall A (f : nat -> res A) n r, mapM f (seq 0 n) = Ok r -> length r = n.
Proof. intros A f n r H. apply mapM_length in H. rewrite seq_length in H. auto. Qed.

(** The largest energy of a bin. *)
Lemma max_energy_spec : forall m xo dE turn jmax, find_max_binned_energy m xo dE turn = Ok jmax -> 0 < dE ->
  length jmax = l_nbins m /\
  forall i, (i < l_nbins m)%nat -> (nth i jmax 0 <= Z.of_nat (l_nbins m))%Z /\
    ((rfloor (l_synch_y m) <= nth i jmax 0)%Z \/ nth i jmax 0%Z = Z.of_nat (l_nbins m)) /\
    forall e, e = i \/ e = S i -> exists om h h', np_get (l_omega m) turn = Ok om /\
      trajectory_height m (edge_phase m xo om e) (edge_phase m xo om 0) 0 turn = Ok h /\
      trajectory_height m (edge_phase m xo om e) (edge_phase m xo om (l_nbins m)) 0 turn = Ok h' /\
      (IZR (nth i jmax 0%Z) - l_synch_y m) * dE <= h /\ (IZR (nth i jmax 0%Z) - l_synch_y m) * dE <= h'.
Proof.
  intros m xo dE turn jmax H Hd. unfold find_max_binned_energy in H. apply bind_ok in H. destruct H as (edges & E & H).
  assert (Ll := mapM_seq_length _ _ _ _ H). split; auto. intros i Hi.
  assert (N : nth_error jmax i = Some (nth i jmax 0%Z)) by (apply nth_error_nth'; lia).
  destruct (mapM_seq_nth _ _ _ _ _ _ H N) as [_ M]. unfold max_energy in M. inv1 M. inv1 M. injection M as M.
  apply np_get_nth in E0; [|lia]. apply np_get_nth in E1; [|lia]. rewrite Nat2Z.id in E0.
  replace (Z.to_nat (Z.of_nat i + 1)) with (S i) in E1 by lia.
  assert (G : forall k p, nth_error edges k = Some p -> exists om h h', np_get (l_omega m) turn = Ok om /\
      trajectory_height m (edge_phase m xo om k) (edge_phase m xo om 0) 0 turn = Ok h /\
      trajectory_height m (edge_phase m xo om k) (edge_phase m xo om (l_nbins m)) 0 turn = Ok h' /\
      fst p = rfloor (l_synch_y m + h / dE) /\ snd p = rfloor (l_synch_y m + h' / dE)).
  { intros k p Ek. destruct (mapM_seq_nth _ _ _ _ _ _ E Ek) as [_ Q]. unfold edge_limits, phase_at in Q.
    do 7 inv1 Q. injection Q as <-. apply bind_ok in E2, E3, E4.
    destruct E2 as (om & O & E2). destruct E3 as (om1 & O1 & E3). destruct E4 as (om2 & O2 & E4).
    assert (om1 = om) by congruence. assert (om2 = om) by congruence. subst om1 om2.
    injection E2 as <-. injection E3 as <-. injection E4 as <-.
    apply rdiv_inv in E6, E8. destruct E6 as [_ ->]. destruct E8 as [_ ->]. exists om, x4, x6. repeat split; auto. }
  destruct (G i x E0) as (om & h & h' & O1 & T1 & T2 & F1 & F2). destruct (G (S i) x0 E1) as (om' & g & g' & O2 & T3 & T4 & F3 & F4).
  set (j := nth i jmax 0%Z) in *.
  assert (J : forall y f, f = rfloor (l_synch_y m + y / dE) -> (j <= f)%Z -> (IZR j - l_synch_y m) * dE <= y).
  { intros y f -> C. apply IZR_le in C. destruct (rfloor_spec (l_synch_y m + y / dE)) as [C2 _].
    assert (D : IZR j - l_synch_y m <= y / dE) by lra. apply (Rmult_le_compat_r dE) in D; [|lra].
    replace (y / dE * dE) with y in D by (field; lra). lra. }
  assert (K : forall y f, f = rfloor (l_synch_y m + y / dE) -> 0 <= y -> (rfloor (l_synch_y m) <= f)%Z).
  { intros y f -> P. assert (0 <= y / dE) by (apply Rmult_le_pos; [auto|left; apply Rinv_0_lt_compat; auto]).
    assert (C := rfloor_spec (l_synch_y m)). assert (D := rfloor_spec (l_synch_y m + y / dE)).
    apply Z.lt_succ_r. apply lt_IZR. rewrite succ_IZR. lra. }
  assert (K1 := K _ _ F1 (height_pos _ _ _ _ _ _ T1)). assert (K2 := K _ _ F2 (height_pos _ _ _ _ _ _ T2)).
  assert (K3 := K _ _ F3 (height_pos _ _ _ _ _ _ T3)). assert (K4 := K _ _ F4 (height_pos _ _ _ _ _ _ T4)).
  split; [lia|]. split; [lia|]. intros e [->| ->].
  - exists om, h, h'. do 3 (split; [auto|]). split; eapply J; eauto; lia.
  - exists om', g, g'. do 3 (split; [auto|]). split; eapply J; eauto; lia.
Qed.

Lemma max_energy_largest : forall m xo dE turn jmax, find_max_binned_energy m xo dE turn = Ok jmax -> 0 < dE ->
  forall i, (i < l_nbins m)%nat -> nth i jmax 0%Z = Z.of_nat (l_nbins m) \/
    exists e k om h, (e = i \/ e = S i) /\ (k = 0%nat \/ k = l_nbins m) /\ np_get (l_omega m) turn = Ok om /\
      trajectory_height m (edge_phase m xo om e) (edge_phase m xo om k) 0 turn = Ok h /\
      h < (IZR (nth i jmax 0%Z) + 1 - l_synch_y m) * dE.
Proof.
  intros m xo dE turn jmax H Hd i Hi. unfold find_max_binned_energy in H. apply bind_ok in H. destruct H as (edges & E & H).
  assert (Ll := mapM_seq_length _ _ _ _ H).
  assert (N : nth_error jmax i = Some (nth i jmax 0%Z)) by (apply nth_error_nth'; lia).
  destruct (mapM_seq_nth _ _ _ _ _ _ H N) as [_ M]. unfold max_energy in M. inv1 M. inv1 M. injection M as M.
  apply np_get_nth in E0; [|lia]. apply np_get_nth in E1; [|lia]. rewrite Nat2Z.id in E0.
  replace (Z.to_nat (Z.of_nat i + 1)) with (S i) in E1 by lia.
  assert (G : forall k p, nth_error edges k = Some p -> exists om h h', np_get (l_omega m) turn = Ok om /\
      trajectory_height m (edge_phase m xo om k) (edge_phase m xo om 0) 0 turn = Ok h /\
      trajectory_height m (edge_phase m xo om k) (edge_phase m xo om (l_nbins m)) 0 turn = Ok h' /\
      fst p = rfloor (l_synch_y m + h / dE) /\ snd p = rfloor (l_synch_y m + h' / dE)).
  { intros k p Ek. destruct (mapM_seq_nth _ _ _ _ _ _ E Ek) as [_ Q]. unfold edge_limits, phase_at in Q.
    do 7 inv1 Q. injection Q as <-. apply bind_ok in E2, E3, E4.
    destruct E2 as (om & O & E2). destruct E3 as (om1 & O1 & E3). destruct E4 as (om2 & O2 & E4).
    assert (om1 = om) by congruence. assert (om2 = om) by congruence. subst om1 om2.
    injection E2 as <-. injection E3 as <-. injection E4 as <-.
    apply rdiv_inv in E6, E8. destruct E6 as [_ ->]. destruct E8 as [_ ->]. exists om, x4, x6. repeat split; auto. }
  destruct (G i x E0) as (om & h & h' & O1 & T1 & T2 & F1 & F2). destruct (G (S i) x0 E1) as (om' & g & g' & O2 & T3 & T4 & F3 & F4).
  set (j := nth i jmax 0%Z) in *.
  assert (J : forall y f, f = rfloor (l_synch_y m + y / dE) -> j = f -> y < (IZR j + 1 - l_synch_y m) * dE).
  { intros y f -> C. destruct (rfloor_spec (l_synch_y m + y / dE)) as [_ C2]. rewrite <- C in C2.
    assert (D : y / dE < IZR j + 1 - l_synch_y m) by lra. apply (Rmult_lt_compat_r dE) in D; [|lra].
    replace (y / dE * dE) with y in D by (field; lra). lra. }
  assert (C : j = Z.of_nat (l_nbins m) \/ j = fst x \/ j = snd x \/ j = fst x0 \/ j = snd x0) by lia.
  destruct C as [C|[C|[C|[C|C]]]]; [auto|right..].
  - exists i, 0%nat, om, h. do 4 (split; [solve [auto]|]). eapply J; eauto.
  - exists i, (l_nbins m), om, h'. do 4 (split; [solve [auto]|]). eapply J; eauto.
  - exists (S i), 0%nat, om', g. do 4 (split; [solve [auto]|]). eapply J; eauto.
  - exists (S i), (l_nbins m), om', g'. do 4 (split; [solve [auto]|]). eapply J; eauto.
Qed.

Lemma centred_floor : forall m, centred m -> (2 * rfloor (l_synch_y m) <= Z.of_nat (l_nbins m) <= 2 * rfloor (l_synch_y m) + 1)%Z.
Proof.
  intros m H. unfold centred in H. assert (S := rfloor_spec (l_synch_y m)). rewrite H in S at 2 3. rewrite INR_IZR_INZ in S.
  split.
  - apply le_IZR. rewrite mult_IZR. lra.
  - apply Z.lt_succ_r. apply lt_IZR. rewrite succ_IZR, plus_IZR, mult_IZR. lra.
Qed.
Lemma centred_up : forall m j, centred m -> rceil (2 * l_synch_y m - IZR j + 1 / 2) = (Z.of_nat (l_nbins m) - j + 1)%Z.
Proof. intros m j H. unfold centred in H. apply rceil_unique. rewrite H, INR_IZR_INZ, plus_IZR, minus_IZR. lra. Qed.
Lemma centred_down : forall m j, centred m -> rceil (2 * l_synch_y m - IZR j - 1 / 2) = (Z.of_nat (l_nbins m) - j)%Z.
Proof. intros m j H. unfold centred in H. apply rceil_unique. rewrite H, INR_IZR_INZ, minus_IZR. lra. Qed.
Lemma centred_min : forall m j, centred m -> min_energy m j = Z.max 1 (Z.of_nat (l_nbins m) - j).
Proof. intros m j H. unfold min_energy. rewrite centred_down by auto. cbv zeta. destruct (Z.leb_spec 1 (Z.of_nat (l_nbins m) - j)); lia. Qed.

(** The steps of find_limits. *)
Lemma find_inv : forall m L, find_limits m = Ok L -> exists j0min j0max i0 i1,
  calc_xorigin m = Ok (lim_xorigin L) /\ find_dEbin m (lim_xorigin L) = Ok (lim_dEbin L) /\ 0 < lim_dEbin L /\
  (if l_full m then Ok (limits_full_image m) else limits_rec_area m (lim_xorigin L) (lim_dEbin L)) = Ok (j0min, j0max, i0, i1) /\
  adjust_limits m j0max j0min i0 i1 = Ok (lim_jmin L, lim_jmax L, lim_imin L, lim_imax L) /\
  assert_correct_ijlimits m (lim_jmin L) (lim_jmax L) (lim_imin L) (lim_imax L) = Ok tt.
Proof.
  intros m L H. unfold find_limits in H. apply bind_ok in H. destruct H as (xo & E1 & H). apply bind_ok in H. destruct H as (dE & E2 & H).
  destruct (Rle_dec dE 0); [discriminate|]. apply bind_ok in H. destruct H as ([[[j0min j0max] i0] i1] & E3 & H).
  apply bind_ok in H. destruct H as ([[[jmin jmax] imin] imax] & E4 & H). apply bind_ok in H. destruct H as ([] & E5 & H).
  injection H as <-. cbn [lim_xorigin lim_dEbin lim_jmin lim_jmax lim_imin lim_imax]. exists j0min, j0max, i0, i1.
  repeat split; auto. lra.
Qed.

Lemma adjust_inv : forall m jmax jmin oi oa jmin' jmax' imin' imax',
  adjust_limits m jmax jmin oi oa = Ok (jmin', jmax', imin', imax') ->
  exists i0 i1, oi = Some i0 /\ oa = Some i1 /\ l_dtbin m <> 0 /\
  let hi := rceil (l_max_dt m / l_dtbin m) in let lo := rtrunc (l_min_dt m / l_dtbin m) in
  let c0 := ((i0 <? lo)%Z || l_full m)%bool in let c1 := ((hi <? i1)%Z || l_full m)%bool in
  imin' = (if c0 then lo else i0) /\ imax' = (if c1 then (hi - 1)%Z else i1) /\
  length jmax' = length jmax /\
  (forall i, (i < length jmax)%nat -> nth i jmax' 0%Z =
     if (c0 && (Z.of_nat i <? slice_bound (length jmax) lo)%Z) || (c1 && ((slice_bound (length jmax) hi <=? Z.of_nat i)
          && (Z.of_nat i <? slice_bound (length jmax) (Z.of_nat (l_nbins m))))%Z)
     then rfloor (l_synch_y m) else nth i jmax 0%Z) /\
  jmin' = if c0 || c1 then mirrored m jmax' else jmin.
Proof.
  intros m jmax jmin oi oa jmin' jmax' imin' imax' H. unfold adjust_limits in H.
  apply bind_ok in H. destruct H as (q & E1 & H). apply bind_ok in H. destruct H as (q' & E2 & H).
  apply rdiv_inv in E1, E2. destruct E1 as [Hd ->]. destruct E2 as [_ ->]. cbv zeta in H.
  set (hi := rceil (l_max_dt m / l_dtbin m)) in *. set (lo := rtrunc (l_min_dt m / l_dtbin m)) in *.
  apply bind_ok in H. destruct H as (i0 & E3 & H). destruct oi as [z|]; [|discriminate]. injection E3 as ->. exists i0.
  set (c0 := ((i0 <? lo)%Z || l_full m)%bool) in *.
  destruct c0 eqn:C0; (apply bind_ok in H; destruct H as (i1 & E4 & H); (destruct oa as [z|]; [|discriminate]); injection E4 as ->; exists i1;
    set (c1 := ((hi <? i1)%Z || l_full m)%bool) in *; destruct c1 eqn:C1; injection H as <- <- <- <-);
    do 3 (split; [solve [auto]|]); cbv zeta; fold hi; fold lo; fold c0; fold c1; rewrite ?C0, ?C1; cbn [orb andb];
    do 2 (split; [reflexivity|]); rewrite ?fill_length; (split; [reflexivity|]); (split; [|reflexivity]);
    intros i Hi; rewrite ?fill_nth by (rewrite ?fill_length; auto); rewrite ?fill_length;
    replace (0 <=? Z.of_nat i)%Z with true by (symmetry; apply Z.leb_le; lia); cbn [andb orb]; auto;
    repeat match goal with |- context [if ?b then _ else _] => destruct b eqn:? end; auto; try discriminate;
    rewrite ?orb_true_r, ?orb_false_r in *; try discriminate; try congruence.
Qed.

Lemma rec_area_inv : forall m xo dE jmin jmax oi oa, limits_rec_area m xo dE = Ok (jmin, jmax, oi, oa) ->
  find_max_binned_energy m xo dE (l_filmstart m * l_dturns m) = Ok jmax /\ jmin = map (min_energy m) jmax /\
  assert_jlimits jmin jmax = Ok tt /\ oi = find_min_binned_phase m jmin jmax /\ oa = find_max_binned_phase m jmin jmax.
Proof.
  intros m xo dE jmin jmax oi oa H. unfold limits_rec_area in H. apply bind_ok in H. destruct H as (j & E1 & H). cbv zeta in H.
  apply bind_ok in H. destruct H as ([] & E2 & H). injection H as <- <- <- <-. auto.
Qed.
Lemma min_phase_inv : forall m jmin jmax i, find_min_binned_phase m jmin jmax = Some i -> (0 <= i < Z.of_nat (l_nbins m))%Z.
Proof.
  intros m jmin jmax i H. unfold find_min_binned_phase in H. destruct (find _ _) as [k|] eqn:E; [|discriminate]. injection H as <-.
  apply find_some in E. destruct E as [E _]. apply in_seq in E. lia.
Qed.
Lemma max_phase_inv : forall m jmin jmax i, find_max_binned_phase m jmin jmax = Some i -> (1 <= i < Z.of_nat (l_nbins m))%Z.
Proof.
  intros m jmin jmax i H. unfold find_max_binned_phase in H. destruct (find _ _) as [k|] eqn:E; [|discriminate]. injection H as <-.
  apply find_some in E. destruct E as [E _]. apply in_rev in E. apply in_seq in E. lia.
Qed.
Lemma in_combine_nth : forall (l l' : list Z) p, In p (combine l l') -> exists i, (i < length l)%nat /\ (i < length l')%nat /\ p = (nth i l 0%Z, nth i l' 0%Z).
Proof.
  induction l as [|a l IH]; intros [|b l'] p H; cbn in H; try contradiction. destruct H as [<-|H].
  - exists 0%nat. cbn. repeat split; lia.
  - destruct (IH _ _ H) as (i & A & B & ->). exists (S i). cbn. repeat split; lia.
Qed.
Lemma nth_in_combine : forall (l l' : list Z) i, (i < length l)%nat -> (i < length l')%nat -> In (nth i l 0%Z, nth i l' 0%Z) (combine l l').
Proof. induction l as [|a l IH]; intros [|b l'] [|i] H H'; cbn in *; try lia; auto. right. apply IH; lia. Qed.
Lemma assert_j_inv : forall jmin jmax, assert_jlimits jmin jmax = Ok tt -> exists i, (i < length jmin)%nat /\ (i < length jmax)%nat /\ (nth i jmin 0 < nth i jmax 0)%Z.
Proof.
  intros jmin jmax H. unfold assert_jlimits in H.
  set (f := fun p : Z * Z => (snd p <=? fst p)%Z) in *.
  destruct (forallb f (combine jmin jmax)) eqn:E; [discriminate|].
  assert (X : existsb (fun p => negb (f p)) (combine jmin jmax) = true).
  { clear H. induction (combine jmin jmax); cbn in *; [discriminate|]. destruct (f a); cbn in *; auto. }
  apply existsb_exists in X. destruct X as (p & I & N). apply in_combine_nth in I. destruct I as (i & A & B & ->).
  exists i. repeat split; auto. unfold f in N. cbn [fst snd] in N. destruct (Z.leb_spec (nth i jmax 0) (nth i jmin 0))%Z; [discriminate|lia].
Qed.

Lemma nth_error_skip : forall A (l : list A) k i, nth_error (skipn k l) i = nth_error l (k + i).
Proof. intros A. induction l as [|a l IH]; intros [|k] i; cbn; auto. destruct i; auto. Qed.
Lemma nth_zslice : forall (l : list Z) a b i, (0 <= a)%Z -> (a <= Z.of_nat i < b)%Z -> (i < length l)%nat ->
  (i - Z.to_nat a < length (zslice l a b))%nat /\ nth (i - Z.to_nat a) (zslice l a b) 0%Z = nth i l 0%Z.
Proof.
  intros l a b i Ha Hi Hl. unfold zslice. split.
  - rewrite firstn_length, skipn_length. lia.
  - assert (E : nth_error l i = Some (nth i l 0%Z)) by (apply nth_error_nth'; auto).
    assert (F : nth_error (firstn (Z.to_nat (b - a)) (skipn (Z.to_nat a) l)) (i - Z.to_nat a) = nth_error l i).
    { rewrite nth_error_firstn_lt by lia. rewrite nth_error_skip. f_equal. lia. }
    rewrite E in F. apply (nth_error_nth _ _ 0%Z) in F. auto.
Qed.

Lemma existsb_false_in : forall A (f : A -> bool) l x, existsb f l = false -> In x l -> f x = false.
Proof. intros A f l x H I. destruct (f x) eqn:E; auto. assert (existsb f l = true) by (apply existsb_exists; eauto). congruence. Qed.
Lemma assert_ij_inv : forall m jmin jmax imin imax, assert_correct_ijlimits m jmin jmax imin imax = Ok tt ->
  (0 <= imin <= imax)%Z /\ (imax <= Z.of_nat (length jmax))%Z /\ length jmin = length jmax /\ assert_jlimits jmin jmax = Ok tt /\
  forall i, (imin <= Z.of_nat i < imax)%Z -> (0 <= nth i jmin 0 <= nth i jmax 0)%Z /\ (nth i jmax 0 <= Z.of_nat (l_nbins m))%Z.
Proof.
  intros m jmin jmax imin imax H. unfold assert_correct_ijlimits in H.
  destruct (Z.ltb_spec imin 0); [discriminate|]. destruct (Z.ltb_spec imax imin); [discriminate|]. cbn [orb] in H.
  destruct (Z.ltb_spec (Z.of_nat (length jmax)) imax); [discriminate|].
  destruct (existsb _ _) eqn:E1 in H; [discriminate|]. destruct (existsb _ _) eqn:E2 in H; [discriminate|].
  destruct (Nat.eqb_spec (length jmin) (length jmax)) as [LL|]; [|discriminate]. cbn [negb] in H.
  do 4 (split; [solve [auto with zarith]|]). intros i Hi.
  destruct (nth_zslice jmin imin imax i) as [A1 A2]; [lia..|]. destruct (nth_zslice jmax imin imax i) as [B1 B2]; [lia..|].
  assert (I := nth_in_combine _ _ _ A1 B1). apply (existsb_false_in _ _ _ _ E1) in I. rewrite A2, B2 in I. cbn [fst snd] in I.
  assert (J : In (nth i jmax 0%Z) (zslice jmax imin imax)) by (rewrite <- B2; apply nth_In; auto).
  apply (existsb_false_in _ _ _ _ E2) in J. apply orb_false_iff in I. destruct I as [I1 I2]. apply Z.ltb_ge in I1, I2, J. lia.
Qed.

Lemma full_inv : forall m jmin jmax oi oa, Ok (limits_full_image m) = Ok (jmin, jmax, oi, oa) ->
  length jmax = l_nbins m /\ length jmin = l_nbins m /\ oi = Some 0%Z /\ oa = Some (Z.of_nat (l_nbins m)) /\
  forall i, (i < l_nbins m)%nat -> nth i jmax 0%Z = Z.of_nat (l_nbins m).
Proof.
  intros m jmin jmax oi oa H. unfold limits_full_image in H. cbv zeta in H. injection H as <- <- <- <-.
  rewrite !repeat_length. do 4 (split; [reflexivity|]). intros i Hi. apply nth_error_nth. apply nth_error_repeat. auto.
Qed.

(** The limits, in terms of the unadjusted upper rows. *)
Lemma shape : forall m L, find_limits m = Ok L -> exists j0 i0 i1,
  let n := Z.of_nat (l_nbins m) in
  let hi := rceil (l_max_dt m / l_dtbin m) in let lo := rtrunc (l_min_dt m / l_dtbin m) in
  let c0 := ((i0 <? lo)%Z || l_full m)%bool in let c1 := ((hi <? i1)%Z || l_full m)%bool in
  l_dtbin m <> 0 /\ length (lim_jmax L) = l_nbins m /\ length (lim_jmin L) = l_nbins m /\ length j0 = l_nbins m /\
  (0 <= lim_imin L <= lim_imax L)%Z /\ (lim_imax L <= n)%Z /\
  (0 <= i0)%Z /\ (if l_full m then i1 = n else (i0 < n)%Z /\ (1 <= i1 < n)%Z) /\
  lim_imin L = (if c0 then lo else i0) /\ lim_imax L = (if c1 then (hi - 1)%Z else i1) /\
  (forall i, (i < l_nbins m)%nat -> top L i =
     if (c0 && (Z.of_nat i <? slice_bound (l_nbins m) lo)%Z) || (c1 && (slice_bound (l_nbins m) hi <=? Z.of_nat i)%Z)
     then rfloor (l_synch_y m) else nth i j0 0%Z) /\
  (forall i, (i < l_nbins m)%nat -> low L i =
     if c0 || c1 then rceil (2 * l_synch_y m - IZR (top L i) + 1 / 2) else min_energy m (top L i)) /\
  (if l_full m then forall i, (i < l_nbins m)%nat -> nth i j0 0%Z = n
   else find_max_binned_energy m (lim_xorigin L) (lim_dEbin L) (l_filmstart m * l_dturns m) = Ok j0) /\
  (l_full m = false -> i0 = match find_min_binned_phase m (map (min_energy m) j0) j0 with Some z => z | None => 0%Z end /\
                       i1 = match find_max_binned_phase m (map (min_energy m) j0) j0 with Some z => z | None => 0%Z end).
Proof.
  intros m L H. destruct (find_inv m L H) as (jm & j0 & oi & oa & E1 & E2 & Pd & E3 & E4 & E5).
  apply assert_ij_inv in E5. destruct E5 as (A1 & A2 & A3 & A4 & A5).
  apply adjust_inv in E4. destruct E4 as (i0 & i1 & -> & -> & Hd & B). cbv zeta in B. destruct B as (B1 & B2 & B3 & B4 & B5).
  assert (Lj : length j0 = l_nbins m).
  { destruct (l_full m). - apply full_inv in E3. tauto. - apply rec_area_inv in E3. destruct E3 as (E3 & _). apply max_energy_spec in E3; tauto. }
  assert (SB : slice_bound (l_nbins m) (Z.of_nat (l_nbins m)) = Z.of_nat (l_nbins m)).
  { unfold slice_bound. destruct (Z.ltb_spec (Z.of_nat (l_nbins m)) 0); lia. }
  exists j0, i0, i1. cbv zeta. split; [auto|]. rewrite B3 in A2, A3. rewrite Lj in A2, A3, B3, B4.
  do 3 (split; [solve [auto]|]). split; [auto|]. split; [auto|].
  assert (I : (0 <= i0)%Z /\ if l_full m then i1 = Z.of_nat (l_nbins m) else (i0 < Z.of_nat (l_nbins m))%Z /\ (1 <= i1 < Z.of_nat (l_nbins m))%Z).
  { destruct (l_full m). - apply full_inv in E3. destruct E3 as (_ & _ & X & Y & _). injection X as ->. injection Y as ->. split; [lia|auto].
    - apply rec_area_inv in E3. destruct E3 as (_ & _ & _ & X & Y). symmetry in X, Y. apply min_phase_inv in X. apply max_phase_inv in Y. lia. }
  destruct I as [I1 I2]. split; [auto|]. split; [auto|]. split; [auto|]. split; [auto|]. split; [|split; [|split]].
  - intros i Hi. unfold top. rewrite B4 by auto. rewrite SB. replace (Z.of_nat i <? Z.of_nat (l_nbins m))%Z with true by (symmetry; apply Z.ltb_lt; lia).
    rewrite andb_true_r. auto.
  - intros i Hi. unfold low, top. rewrite B5. destruct (((i0 <? _)%Z || l_full m) || ((_ <? i1)%Z || l_full m))%bool eqn:CC.
    + unfold mirrored. rewrite (nth_map_Z _ _ _ _ 0%Z) by lia. auto.
    + assert (EF : l_full m = false) by (destruct (l_full m); rewrite ?orb_true_r in CC; auto; discriminate).
      rewrite EF in *. apply rec_area_inv in E3. destruct E3 as (_ & -> & _).
      rewrite (nth_map_Z _ _ _ _ 0%Z) by lia. f_equal. rewrite B4 by auto. apply orb_false_iff in CC. destruct CC as [C0 C1].
      rewrite C0, C1. reflexivity.
  - destruct (l_full m). + apply full_inv in E3. tauto. + apply rec_area_inv in E3. tauto.
  - intros F. rewrite F in E3. apply rec_area_inv in E3. destruct E3 as (_ & -> & _ & <- & <-). auto.
Qed.

(** ** No step but the comparison with None raises TypeError *)
Definition nt {A} (r : res A) : Prop := r <> Fail (Raised TypeError).
Lemma nt_ok : forall A (a : A), nt (Ok a).
Proof. intros A a H. discriminate. Qed.
Lemma nt_bind : forall A B (a : res A) (f : A -> res B), nt a -> (forall x, a = Ok x -> nt (f x)) -> nt (bind a f).
Proof. intros A B a f H1 H2. destruct a as [x|e]; cbn; [auto|]. intros E. apply H1. injection E as ->. reflexivity. Qed.
Lemma nt_rdiv : forall a b, nt (rdiv a b).
Proof. intros a b. unfold rdiv, nt. destruct (Req_EM_T b 0); discriminate. Qed.
Lemma nt_rsqrt : forall a, nt (rsqrt a).
Proof. intros a. unfold rsqrt, nt. destruct (Rlt_dec a 0); discriminate. Qed.
Lemma nt_np_get : forall A (l : list A) i, nt (np_get l i).
Proof.
  intros A l i. unfold np_get, nt, get. cbv zeta. destruct (_ || _)%bool; [discriminate|].
  repeat match goal with |- context [if ?b then _ else _] => destruct b | |- context [match ?b with Some _ => _ | None => _ end] => destruct b end; discriminate.
Qed.
Lemma nt_mapM : forall A B (f : A -> res B) l, (forall a, nt (f a)) -> nt (mapM f l).
Proof. intros A B f l H. induction l as [|a l IH]; cbn; [apply nt_ok|]. apply nt_bind; [auto|]. intros x _. apply nt_bind; [auto|]. intros; apply nt_ok. Qed.
Lemma nt_rmax : forall l, nt (rmax l).
Proof. intros [|x l]; unfold rmax, nt; discriminate. Qed.
Ltac nts := repeat (first [apply nt_ok | apply nt_rdiv | apply nt_rsqrt | apply nt_np_get | apply nt_rmax | apply nt_bind; [|intros] | apply nt_mapM; intros]).
Lemma nt_phase_at : forall m xo turn i, nt (phase_at m xo turn i).
Proof. intros. unfold phase_at. nts. Qed.
Lemma nt_height : forall m phi k de turn, nt (trajectory_height m phi k de turn).
Proof. intros. unfold trajectory_height, phi12_at. destruct (l_phi12 m); nts. Qed.
Ltac nts2 := repeat (first [apply nt_phase_at | apply nt_height | apply nt_ok | apply nt_rdiv | apply nt_rsqrt | apply nt_np_get | apply nt_rmax | apply nt_bind; [|intros] | apply nt_mapM; intros]).
Lemma nt_xorigin : forall m, nt (calc_xorigin m).
Proof. intros. unfold calc_xorigin. nts2. Qed.
Lemma nt_dEbin : forall m xo, nt (find_dEbin m xo).
Proof.
  intros. unfold find_dEbin. nts2. destruct (Req_EM_T (l_demax m) 0); [discriminate|]. destruct (Rlt_dec (l_demax m) 0); [|nts2].
  nts2. destruct (Req_EM_T _ 0); nts2.
Qed.
Lemma nt_max_energy : forall m xo dE turn, nt (find_max_binned_energy m xo dE turn).
Proof. intros. unfold find_max_binned_energy, edge_limits, max_energy. nts2. Qed.
Lemma nt_assert_j : forall a b, nt (assert_jlimits a b).
Proof. intros. unfold assert_jlimits. destruct (forallb _ _); [discriminate|nts]. Qed.
Lemma nt_assert_ij : forall m a b i j, nt (assert_correct_ijlimits m a b i j).
Proof.
  intros. unfold assert_correct_ijlimits.
  repeat match goal with |- nt (if ?b then _ else _) => destruct b; try discriminate end. apply nt_assert_j.
Qed.
Lemma nt_rec_area : forall m xo dE, nt (limits_rec_area m xo dE).
Proof. intros. unfold limits_rec_area. cbv zeta. apply nt_bind; [apply nt_max_energy|intros]. apply nt_bind; [apply nt_assert_j|intros; nts]. Qed.
Lemma nt_adjust : forall m jmax jmin i0 i1, nt (adjust_limits m jmax jmin (Some i0) (Some i1)).
Proof.
  intros. unfold adjust_limits. apply nt_bind; [nts|intros]. cbv zeta. apply nt_bind; [nts|intros].
  cbn [need bind]. destruct (_ || _)%bool; cbn [bind]; destruct (_ || _)%bool; nts.
Qed.

Lemma height_zero : forall m phi turn h, trajectory_height m phi phi 0 turn = Ok h -> h = 0.
Proof.
  intros m phi turn h H. unfold trajectory_height in H. do 7 inv1 H. injection H as <-. apply rdiv_inv in E5. destruct E5 as [N ->].
  match goal with |- real_sqrt ?a = 0 => replace a with 0 by (field; auto) end.
  unfold real_sqrt. destruct (Rlt_dec 0 0); [lra|apply sqrt_0].
Qed.

(** The first bin of an image with an odd number of bins has no area. *)
Lemma first_bin : forall m xo dE turn jmax, find_max_binned_energy m xo dE turn = Ok jmax -> 0 < dE -> (0 < l_nbins m)%nat ->
  (nth 0 jmax 0 <= rfloor (l_synch_y m))%Z.
Proof.
  intros m xo dE turn jmax H Hd Hn. apply max_energy_spec in H; [|auto]. destruct H as [_ H]. destruct (H 0%nat Hn) as (_ & _ & Q).
  destruct (Q 0%nat) as (om & h & h' & O & T & _ & B & _); [auto|]. apply height_zero in T. subst h.
  assert (IZR (nth 0 jmax 0%Z) <= l_synch_y m).
  { destruct (Rle_dec (IZR (nth 0 jmax 0%Z)) (l_synch_y m)); [auto|]. exfalso.
    assert (0 < (IZR (nth 0 jmax 0%Z) - l_synch_y m) * dE) by (apply Rmult_lt_0_compat; lra). lra. }
  assert (S := rfloor_spec (l_synch_y m)). apply Z.lt_succ_r. apply lt_IZR. rewrite succ_IZR. lra.
Qed.

Lemma find_in : forall A (f : A -> bool) l x, In x l -> f x = true -> exists y, find f l = Some y.
Proof. intros A f l x I E. destruct (find f l) eqn:F; eauto. assert (N := find_none _ _ F _ I). congruence. Qed.

Lemma found : forall m xo dE jmin jmax oi oa, centred m -> 0 < dE -> limits_rec_area m xo dE = Ok (jmin, jmax, oi, oa) ->
  exists i0 i1, oi = Some i0 /\ oa = Some i1.
Proof.
  intros m xo dE jmin jmax oi oa C D H. apply rec_area_inv in H. destruct H as (E & -> & A & -> & ->).
  assert (SP := max_energy_spec _ _ _ _ _ E D). destruct SP as [Ll SP].
  apply assert_j_inv in A. destruct A as (i & A1 & A2 & A3). rewrite map_length, Ll in A1.
  assert (V : forall k, (k < l_nbins m)%nat -> (nth k (map (min_energy m) jmax) 0 <= nth k jmax 0)%Z -> valid_bin (map (min_energy m) jmax) jmax k = true).
  { intros k Hk Q. unfold valid_bin. apply Z.leb_le. lia. }
  assert (X : exists k, (1 <= k < l_nbins m)%nat /\ valid_bin (map (min_energy m) jmax) jmax k = true).
  { rewrite (nth_map_Z _ _ _ _ 0%Z) in A3 by lia. rewrite centred_min in A3 by auto. assert (CF := centred_floor m C).
    destruct (Nat.eq_dec i 0) as [->|]; [|exists i; split; [lia|]; apply V; [auto|]; rewrite (nth_map_Z _ _ _ _ 0%Z) by lia; rewrite centred_min by auto; lia].
    assert (FB := first_bin _ _ _ _ _ E D A1). assert (W : (2 * rfloor (l_synch_y m) = Z.of_nat (l_nbins m))%Z) by lia.
    exists (l_nbins m - 1)%nat. split; [lia|]. apply V; [lia|]. rewrite (nth_map_Z _ _ _ _ 0%Z) by lia. rewrite centred_min by auto.
    destruct (SP (l_nbins m - 1)%nat) as (S1 & S2 & _); lia. }
  destruct X as (k & Hk & Vk). unfold find_min_binned_phase, find_max_binned_phase.
  destruct (find_in _ (valid_bin (map (min_energy m) jmax) jmax) (seq 0 (l_nbins m)) k) as (a & Ea); [apply in_seq; lia|auto|].
  destruct (find_in _ (valid_bin (map (min_energy m) jmax) jmax) (rev (seq 1 (l_nbins m - 1))) k) as (b & Eb); [apply -> in_rev; apply in_seq; lia|auto|].
  rewrite Ea, Eb. cbn [option_map]. eauto.
Qed.

Lemma nt_limits : forall m, centred m -> nt (find_limits m).
Proof.
  intros m C. unfold find_limits. apply nt_bind; [apply nt_xorigin|intros xo _]. apply nt_bind; [apply nt_dEbin|intros dE _].
  destruct (Rle_dec dE 0); [discriminate|]. apply nt_bind.
  - destruct (l_full m); [nts|apply nt_rec_area].
  - intros [[[jmin jmax] oi] oa] E. apply nt_bind.
    + assert (X : exists i0 i1, oi = Some i0 /\ oa = Some i1).
      { destruct (l_full m). - unfold limits_full_image in E. injection E as <- <- <- <-. eauto.
        - eapply found; eauto. lra. }
      destruct X as (i0 & i1 & -> & ->). apply nt_adjust.
    + intros [[[a b] i] j] _. apply nt_bind; [apply nt_assert_ij|intros; nts].
Qed.

(** ** The example machine *)
Lemma bucket_centred : forall full mx, centred (bucket full mx).
Proof. intros. unfold centred. cbn. field. Qed.
Lemma bucket_omega : forall full mx, np_get (l_omega (bucket full mx)) 0 = Ok (2 * PI / 3).
Proof. reflexivity. Qed.
Lemma bucket_phase : forall full mx i, phase_at (bucket full mx) (- (3 / 2)) 0 i = Ok ((INR i - 3 / 2) * (2 * PI / 3)).
Proof.
  intros. unfold phase_at. rewrite bucket_omega. cbn [bind]. f_equal. cbn [bucket l_dtbin l_h_num]. ring.
Qed.
Lemma bucket_height : forall full mx phi k, trajectory_height (bucket full mx) phi k 0 0 = Ok (real_sqrt (3 / 2 * (cos phi - cos k))).
Proof.
  intros. unfold trajectory_height. cbn [phi12_at bucket l_phi12 bind l_drift l_vrf1 l_vrf2 l_phi0 l_q l_h_ratio].
  change (np_get [2] 0) with (Ok 2). change (np_get [3 / 2] 0) with (Ok (3 / 2)). change (np_get [0] 0) with (Ok 0). cbn [bind].
  rewrite !rdiv_val by lra. cbn [bind]. do 2 f_equal. unfold rf_voltage_at_phase. rewrite sin_0. field.
Qed.
Lemma cos_low : cos ((0 - 3 / 2) * (2 * PI / 3)) = -1.
Proof. replace ((0 - 3 / 2) * (2 * PI / 3)) with (- PI) by field. rewrite cos_neg. apply cos_PI. Qed.
Lemma cos_up : cos ((3 - 3 / 2) * (2 * PI / 3)) = -1.
Proof. replace ((3 - 3 / 2) * (2 * PI / 3)) with PI by field. apply cos_PI. Qed.
Lemma cos_low1 : cos ((1 - 3 / 2) * (2 * PI / 3)) = 1 / 2.
Proof. replace ((1 - 3 / 2) * (2 * PI / 3)) with (- (PI / 3)) by field. rewrite cos_neg. apply cos_PI3. Qed.
Lemma cos_up1 : cos ((2 - 3 / 2) * (2 * PI / 3)) = 1 / 2.
Proof. replace ((2 - 3 / 2) * (2 * PI / 3)) with (PI / 3) by field. apply cos_PI3. Qed.
Lemma real_sqrt_0 : forall x, x = 0 -> real_sqrt x = 0.
Proof. intros x ->. unfold real_sqrt. destruct (Rlt_dec 0 0); [lra|apply sqrt_0]. Qed.
Lemma real_sqrt_sq : forall x y, 0 <= y -> x = y * y -> real_sqrt x = y.
Proof. intros x y P ->. unfold real_sqrt. destruct (Rlt_dec (y * y) 0) as [L|]; [exfalso; assert (0 <= y * y) by (apply Rmult_le_pos; auto); lra|]. apply sqrt_square. auto. Qed.

Lemma bucket_xorigin : forall full mx, calc_xorigin (bucket full mx) = Ok (- (3 / 2)).
Proof.
  intros. unfold calc_xorigin. cbv zeta. cbn [bucket l_beam_ref l_dturns l_phi0 l_omega l_h_num l_dtbin l_synch_x].
  change (np_get [0] (0 * 1)) with (Ok 0). change (np_get [2 * PI / 3] (0 * 1)) with (Ok (2 * PI / 3)). cbn [bind].
  assert (P := PI_RGT_0). rewrite rdiv_val by lra. cbn [bind]. f_equal. field. lra.
Qed.
Lemma bucket_dE : forall full mx, find_dEbin (bucket full mx) (- (3 / 2)) = Ok 1.
Proof.
  intros. unfold find_dEbin. cbv zeta. change (l_beam_ref (bucket full mx) * l_dturns (bucket full mx))%Z with 0%Z.
  change (l_nbins (bucket full mx)) with 3%nat. change (l_demax (bucket full mx)) with (3 / 2). change (l_synch_y (bucket full mx)) with (3 / 2).
  assert (E : mapM (phase_at (bucket full mx) (- (3 / 2)) 0) (seq 0 (3 + 1)) = Ok (map (fun i => (INR i - 3 / 2) * (2 * PI / 3)) (seq 0 4))).
  { change (seq 0 (3 + 1)) with [0; 1; 2; 3]%nat. apply mapM_forall2. repeat constructor; apply bucket_phase. }
  rewrite E.
  cbn [bind]. destruct (Req_EM_T (3 / 2) 0); [lra|]. destruct (Rlt_dec (3 / 2) 0); [lra|]. cbn [INR]. rewrite rdiv_val by lra. f_equal. field.
Qed.
Lemma bucket_edge : forall mx i j, real_sqrt (3 / 2 * (cos ((INR i - 3 / 2) * (2 * PI / 3)) - -1)) = j ->
  edge_limits (bucket false mx) (- (3 / 2)) 1 0 i = Ok (rfloor (3 / 2 + j), rfloor (3 / 2 + j)).
Proof.
  intros mx i j H. unfold edge_limits. rewrite !bucket_phase. cbn [bind]. rewrite !bucket_height. change (l_nbins (bucket false mx)) with 3%nat.
  replace (INR 0) with 0 by reflexivity. replace (INR 3) with 3 by (cbn; ring). rewrite cos_low, cos_up.
  rewrite H. cbn [bind]. rewrite !rdiv_val by lra. cbn [bind]. change (l_synch_y (bucket false mx)) with (3 / 2).
  replace (j / 1) with j by field. reflexivity.
Qed.
Lemma bucket_jmax : forall mx, find_max_binned_energy (bucket false mx) (- (3 / 2)) 1 0 = Ok [1; 3; 1]%Z.
Proof.
  intros mx. unfold find_max_binned_energy. change (l_nbins (bucket false mx) + 1)%nat with 4%nat.
  assert (F1 : rfloor (3 / 2 + 0) = 1%Z) by (apply rfloor_unique; lra). assert (F3 : rfloor (3 / 2 + 3 / 2) = 3%Z) by (apply rfloor_unique; lra).
  assert (E : mapM (edge_limits (bucket false mx) (- (3 / 2)) 1 0) (seq 0 4) = Ok [(1, 1); (3, 3); (3, 3); (1, 1)]%Z).
  { apply mapM_forall2. change (seq 0 4) with [0; 1; 2; 3]%nat. repeat constructor.
    - rewrite (bucket_edge mx 0 0), F1; [reflexivity|]. cbn [INR]. rewrite cos_low. apply real_sqrt_0. lra.
    - rewrite (bucket_edge mx 1 (3 / 2)), F3; [reflexivity|]. cbn [INR]. rewrite cos_low1. apply real_sqrt_sq; lra.
    - rewrite (bucket_edge mx 2 (3 / 2)), F3; [reflexivity|]. replace (INR 2) with 2 by (cbn; ring). rewrite cos_up1. apply real_sqrt_sq; lra.
    - rewrite (bucket_edge mx 3 0), F1; [reflexivity|]. replace (INR 3) with 3 by (cbn; ring). rewrite cos_up. apply real_sqrt_0. lra. }
  rewrite E. reflexivity.
Qed.
Lemma bucket_area : forall mx, limits_rec_area (bucket false mx) (- (3 / 2)) 1 = Ok ([2; 1; 2]%Z, [1; 3; 1]%Z, Some 1%Z, Some 1%Z).
Proof.
  intros. unfold limits_rec_area. cbv zeta. change (l_filmstart (bucket false mx) * l_dturns (bucket false mx))%Z with 0%Z.
  rewrite bucket_jmax. cbn [bind map]. rewrite !centred_min by apply bucket_centred. reflexivity.
Qed.
Lemma bucket_limits : forall mx, (1 <= rceil mx)%Z -> find_limits (bucket false mx) = Ok (Limits (- (3 / 2)) 1 [2; 1; 2]%Z [1; 3; 1]%Z 1 1).
Proof.
  intros mx H. unfold find_limits. rewrite bucket_xorigin. cbn [bind]. rewrite bucket_dE. cbn [bind]. destruct (Rle_dec 1 0); [lra|].
  change (l_full (bucket false mx)) with false. cbv iota. rewrite bucket_area. cbn [bind]. unfold adjust_limits.
  change (l_max_dt (bucket false mx)) with mx. change (l_min_dt (bucket false mx)) with 0. change (l_dtbin (bucket false mx)) with 1.
  rewrite !rdiv_val by lra. cbn [bind]. cbv zeta. cbn [need bind]. change (l_full (bucket false mx)) with false.
  assert (E : rtrunc (0 / 1) = 0%Z). { rewrite rtrunc_floor by lra. apply rfloor_unique. lra. } rewrite E.
  replace (mx / 1) with mx by field. cbn [orb Z.ltb Z.compare]. rewrite orb_false_r. destruct (Z.ltb_spec (rceil mx) 1); [lia|].
  cbn [bind]. reflexivity.
Qed.
Lemma full_limits : forall k, (3 <= k <= 4)%Z -> find_limits (bucket true (IZR k)) = Ok (Limits (- (3 / 2)) 1 [1; 1; 1]%Z [3; 3; 3]%Z 0 (k - 1)).
Proof.
  intros k H. unfold find_limits. rewrite bucket_xorigin. cbn [bind]. rewrite bucket_dE. cbn [bind]. destruct (Rle_dec 1 0); [lra|].
  change (l_full (bucket true (IZR k))) with true. cbv iota. unfold limits_full_image. cbv zeta. cbn [bind].
  rewrite centred_up by apply bucket_centred. change (l_nbins (bucket true (IZR k))) with 3%nat. cbn [repeat]. unfold adjust_limits.
  change (l_max_dt (bucket true (IZR k))) with (IZR k). change (l_min_dt (bucket true (IZR k))) with 0. change (l_dtbin (bucket true (IZR k))) with 1.
  rewrite !rdiv_val by lra. cbn [bind]. cbv zeta. cbn [need bind]. change (l_full (bucket true (IZR k))) with true. rewrite !orb_true_r.
  assert (E : rtrunc (0 / 1) = 0%Z). { rewrite rtrunc_floor by lra. apply rfloor_unique. lra. } rewrite E.
  assert (E' : rceil (IZR k / 1) = k). { apply rceil_unique. lra. } rewrite E'.
  assert (K : k = 3%Z \/ k = 4%Z) by lia. 
  destruct K as [-> | ->]; cbn -[mirrored assert_correct_ijlimits bucket]; unfold mirrored; cbn [map];
   rewrite !centred_up by apply bucket_centred; reflexivity.
Qed.
