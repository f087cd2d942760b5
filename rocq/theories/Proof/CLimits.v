(*HEAD*)
From Coq Require Import Reals List ZArith Bool Lia Lra.
From Verif Require Import Base.Res Base.RLib Model.MParticles Model.MMachine Model.MLimits Spec.LimitsSpec.
Import ListNotations.
Local Open Scope R_scope.
(*DAEH*)
From Verif Require Import Base.ResLemmas Base.QcLib Model.MRecon Spec.ParticleSpec Proof.CParticles Proof.PWide Proof.PInput Proof.PMachine Proof.PSelf Proof.CSelf Proof.PLimits.

(** C48: the height of a trajectory through (known, de) at the phase phi is the
    energy offset, not negative, at which the conserved energy function has the
    same value; it is 0 when the trajectory does not reach phi. *)
Lemma C48_height_lem : forall m phi known de turn h (t : at_turn m turn), l_q m <> 0 ->
  trajectory_height m phi known de turn = Ok h ->
  0 <= h /\ (conserved t phi h = conserved t known de \/ (h = 0 /\ forall e, conserved t phi e <> conserved t known de)).
Proof. intros. split; [eapply height_pos; eauto|eapply height_conserved; eauto]. Qed.

(** C48: the origin: the synchronous bin is at the synchronous phase at the
    reference profile. *)
Lemma C48_origin_lem : forall m L phi0 omega, find_limits m = Ok L ->
  np_get (l_phi0 m) (l_beam_ref m * l_dturns m) = Ok phi0 -> np_get (l_omega m) (l_beam_ref m * l_dturns m) = Ok omega ->
  (lim_xorigin L + l_synch_x m) * l_dtbin m * l_h_num m * omega = phi0.
Proof.
  intros m L phi0 omega H E1 E2. destruct (find_inv m L H) as (_ & _ & _ & _ & E & _). unfold calc_xorigin in E. cbv zeta in E.
  rewrite E1, E2 in E. cbn [bind] in E. inv1 E. injection E as E. apply rdiv_inv in E0. destruct E0 as [N ->]. rewrite <- E. field.
  repeat split; intros Z; apply N; rewrite Z; ring.
Qed.

(** C48: the energy bins: with a height given, the image reaches exactly that
    height above the synchronous energy; the bins have a positive height. *)
Lemma C48_energy_scale_lem : forall m L, find_limits m = Ok L ->
  0 < lim_dEbin L /\ (0 < l_demax m -> lim_dEbin L * (INR (l_nbins m) - l_synch_y m) = l_demax m).
Proof.
  intros m L H. destruct (find_inv m L H) as (_ & _ & _ & _ & _ & E & P & _). split; auto. intros D.
  unfold find_dEbin in E. cbv zeta in E. inv1 E. destruct (Req_EM_T (l_demax m) 0); [lra|]. destruct (Rlt_dec (l_demax m) 0); [lra|].
  apply rdiv_inv in E. destruct E as [N ->]. field. auto.
Qed.

Lemma frac_le : forall a b z, 0 < b -> a <= IZR z * b -> (rceil (a / b) <= z)%Z.
Proof.
  intros a b z P H. assert (S := rceil_spec (a / b)). assert (a / b <= IZR z). { apply (Rmult_le_reg_r b); [auto|]. replace (a / b * b) with a by (field; lra). auto. }
  apply Z.lt_succ_r. apply lt_IZR. rewrite succ_IZR. lra.
Qed.

(** C48: the limits are usable, unless the full image is asked for with a last
    time beyond the image: the area lies within the image, is not empty, and
    building the distribution on it succeeds. *)
Lemma C48_usable_partial_lem : forall m L, find_limits m = Ok L -> centred m ->
  (l_full m = false \/ (0 < l_dtbin m /\ l_max_dt m <= INR (l_nbins m) * l_dtbin m)) ->
  length (lim_jmin L) = l_nbins m /\ length (lim_jmax L) = l_nbins m /\
  (0 <= lim_imin L <= lim_imax L)%Z /\ (lim_imax L < Z.of_nat (l_nbins m))%Z /\
  (forall i, (i < l_nbins m)%nat -> (1 <= low L i)%Z /\ (0 <= top L i <= Z.of_nat (l_nbins m))%Z) /\
  (forall i, (lim_imin L <= Z.of_nat i < lim_imax L)%Z -> (low L i <= top L i)%Z) /\
  (exists i, (i < l_nbins m)%nat /\ (low L i < top L i)%Z) /\
  forall snpt, (0 < snpt)%nat -> exists c, homogeneous_coords snpt (lim_imin L) (lim_imax L) (lim_jmin L) (lim_jmax L) = Ok c.
Proof.
  intros m L H C HF. destruct (shape m L H) as (j0 & i0 & i1 & S). cbv zeta in S.
  destruct S as (Hd & L1 & L2 & L3 & I & I' & P0 & P1 & S1 & S2 & S3 & S4 & S5 & S6).
  assert (X : (lim_imax L < Z.of_nat (l_nbins m))%Z).
  { rewrite S2. destruct (l_full m) eqn:F.
    - rewrite orb_true_r. destruct HF as [HF|[D M]]; [discriminate|]. rewrite INR_IZR_INZ in M. assert (Q := frac_le _ _ _ D M). lia.
    - rewrite orb_false_r. destruct (Z.ltb_spec (rceil (l_max_dt m / l_dtbin m)) i1); lia. }
  destruct (find_inv m L H) as (jm & j0' & oi & oa & E1 & E2 & Pd & E3 & E4 & E5).
  apply assert_ij_inv in E5. destruct E5 as (A1 & A2 & A3 & A4 & A5).
  assert (CF := centred_floor m C).
  assert (T : forall i, (i < l_nbins m)%nat -> (0 <= top L i <= Z.of_nat (l_nbins m))%Z).
  { intros i Hi. rewrite S3 by auto. match goal with |- context [if ?b then _ else _] => destruct b end; [lia|].
    destruct (l_full m). - rewrite S5 by auto. lia.
    - apply max_energy_spec in S5; [|auto]. destruct S5 as [_ S5]. destruct (S5 i Hi) as (Q1 & Q2 & _). lia. }
  do 4 (split; [solve [auto]|]). split; [|split; [|split]].
  - intros i Hi. split; [|auto]. rewrite S4 by auto. assert (Ti := T i Hi). match goal with |- context [if ?b then _ else _] => destruct b end.
    + rewrite centred_up by auto. lia.
    + rewrite centred_min by auto. lia.
  - intros i Hi. apply A5 in Hi. unfold low, top. lia.
  - apply assert_j_inv in A4. destruct A4 as (i & B1 & B2 & B3). exists i. split; [lia|auto].
  - intros snpt Hs. destruct (C17_homogeneous_partial_lem snpt (lim_imin L) (lim_imax L) (lim_jmin L) (lim_jmax L)) as (c & Ec & _); try lia; eauto.
    intros N. rewrite N in L2. cbn in L2. lia.
Qed.

(** C48: in every case the area lies within the image but for its last column,
    which may be the one behind the image; then building the distribution
    raises IndexError. *)
Lemma C48_inside_or_refused_lem : forall m L, find_limits m = Ok L -> centred m ->
  length (lim_jmin L) = l_nbins m /\ length (lim_jmax L) = l_nbins m /\
  (0 <= lim_imin L <= lim_imax L)%Z /\ (lim_imax L <= Z.of_nat (l_nbins m))%Z /\
  (forall i, (i < l_nbins m)%nat -> (1 <= low L i)%Z /\ (0 <= top L i <= Z.of_nat (l_nbins m))%Z) /\
  (exists i, (i < l_nbins m)%nat /\ (low L i < top L i)%Z) /\
  forall snpt, (0 < snpt)%nat -> lim_imax L = Z.of_nat (l_nbins m) ->
    homogeneous_coords snpt (lim_imin L) (lim_imax L) (lim_jmin L) (lim_jmax L) = Fail (Raised IndexError).
Proof.
  intros m L H C. destruct (shape m L H) as (j0 & i0 & i1 & S). cbv zeta in S.
  destruct S as (Hd & L1 & L2 & L3 & I & I' & P0 & P1 & S1 & S2 & S3 & S4 & S5 & S6).
  destruct (find_inv m L H) as (jm & j0' & oi & oa & E1 & E2 & Pd & E3 & E4 & E5).
  apply assert_ij_inv in E5. destruct E5 as (A1 & A2 & A3 & A4 & A5).
  assert (CF := centred_floor m C).
  assert (T : forall i, (i < l_nbins m)%nat -> (0 <= top L i <= Z.of_nat (l_nbins m))%Z).
  { intros i Hi. rewrite S3 by auto. match goal with |- context [if ?b then _ else _] => destruct b end; [lia|].
    destruct (l_full m). - rewrite S5 by auto. lia.
    - apply max_energy_spec in S5; [|auto]. destruct S5 as [_ S5]. destruct (S5 i Hi) as (Q1 & Q2 & _). lia. }
  assert (N : exists i, (i < l_nbins m)%nat /\ (low L i < top L i)%Z).
  { apply assert_j_inv in A4. destruct A4 as (i & B1 & B2 & B3). exists i. split; [lia|auto]. }
  do 3 (split; [solve [auto]|]). split; [lia|]. split; [|split; [exact N|]].
  - intros i Hi. split; [|auto]. rewrite S4 by auto. assert (Ti := T i Hi). match goal with |- context [if ?b then _ else _] => destruct b end.
    + rewrite centred_up by auto. lia.
    + rewrite centred_min by auto. lia.
  - intros snpt Hs Hw. apply wide_fails; auto; [lia|]. destruct N as (i & N1 & N2). exists i. unfold low, top in N2. split; [lia|]. split; [lia|auto].
Qed.

(** C48: outside the full image the area lies below the trajectories through
    both ends of the image: at both edges of bin i, the upper row is not above
    either height. *)
Lemma C48_below_trajectories_lem : forall m L, find_limits m = Ok L -> l_full m = false ->
  let turn := (l_filmstart m * l_dturns m)%Z in
  forall i e k, (i < l_nbins m)%nat -> e = i \/ e = S i -> k = 0%nat \/ k = l_nbins m -> exists omega h,
    np_get (l_omega m) turn = Ok omega /\
    trajectory_height m (edge_phase m (lim_xorigin L) omega e) (edge_phase m (lim_xorigin L) omega k) 0 turn = Ok h /\
    (IZR (top L i) - l_synch_y m) * lim_dEbin L <= h.
Proof.
  intros m L H F turn i e k Hi He Hk. destruct (shape m L H) as (j0 & i0 & i1 & S). cbv zeta in S.
  destruct S as (Hd & L1 & L2 & L3 & I & I' & P0 & P1 & S1 & S2 & S3 & S4 & S5 & S6). rewrite F in S5.
  destruct (find_inv m L H) as (_ & _ & _ & _ & _ & _ & Pd & _).
  apply max_energy_spec in S5; [|auto]. destruct S5 as [_ S5]. destruct (S5 i Hi) as (_ & _ & Q).
  destruct (Q e He) as (om & h & h' & O & T1 & T2 & B1 & B2).
  assert (R := rfloor_spec (l_synch_y m)).
  assert (W : forall y, 0 <= y -> (IZR (nth i j0 0%Z) - l_synch_y m) * lim_dEbin L <= y -> (IZR (top L i) - l_synch_y m) * lim_dEbin L <= y).
  { intros y Py Hy. rewrite S3 by auto. match goal with |- context [if ?b then _ else _] => destruct b end; [|auto].
    apply Rle_trans with 0; [|auto]. rewrite <- (Rmult_0_l (lim_dEbin L)). apply Rmult_le_compat_r; lra. }
  destruct Hk as [-> | ->].
  - exists om, h. split; [auto|]. split; [auto|]. apply W; [eapply height_pos; eauto|auto].
  - exists om, h'. split; [auto|]. split; [auto|]. apply W; [eapply height_pos; eauto|auto].
Qed.

(** C48: and it is the largest such: on the used bins the next row is above one
    of those heights, or the area reaches the top of the image. *)
Lemma C48_largest_lem : forall m L, find_limits m = Ok L -> l_full m = false -> 
  let turn := (l_filmstart m * l_dturns m)%Z in
  forall i, (lim_imin L <= Z.of_nat i <= lim_imax L)%Z -> (lim_imax L < Z.of_nat (l_nbins m))%Z /\
  (top L i = Z.of_nat (l_nbins m) \/ exists omega e k h, (e = i \/ e = S i) /\ (k = 0%nat \/ k = l_nbins m) /\
    np_get (l_omega m) turn = Ok omega /\
    trajectory_height m (edge_phase m (lim_xorigin L) omega e) (edge_phase m (lim_xorigin L) omega k) 0 turn = Ok h /\
    h < (IZR (top L i) + 1 - l_synch_y m) * lim_dEbin L).
Proof.
  intros m L H F turn i Hi. destruct (shape m L H) as (j0 & i0 & i1 & S). cbv zeta in S.
  destruct S as (Hd & L1 & L2 & L3 & I & I' & P0 & P1 & S1 & S2 & S3 & S4 & S5 & S6). rewrite F in *.
  rewrite !orb_false_r in *.
  destruct (find_inv m L H) as (_ & _ & _ & _ & _ & _ & Pd & _).
  assert (X : (lim_imax L < Z.of_nat (l_nbins m))%Z).
  { rewrite S2. destruct (Z.ltb_spec (rceil (l_max_dt m / l_dtbin m)) i1); lia. }
  split; [auto|]. assert (Hn : (i < l_nbins m)%nat) by lia.
  assert (E : top L i = nth i j0 0%Z).
  { rewrite S3 by auto. unfold slice_bound. revert S1 S2.
    destruct (Z.ltb_spec i0 (rtrunc (l_min_dt m / l_dtbin m))); destruct (Z.ltb_spec (rceil (l_max_dt m / l_dtbin m)) i1); intros S1 S2; clear S3 S4; cbn [andb orb];
      repeat match goal with |- context [(?a <? ?b)%Z] => destruct (Z.ltb_spec a b) | |- context [(?a <=? ?b)%Z] => destruct (Z.leb_spec a b) end;
      cbn [orb andb]; auto; exfalso;
      repeat match goal with X : context [(?a <? ?b)%Z] |- _ => destruct (Z.ltb_spec a b) end; lia. }
  rewrite E. destruct (max_energy_largest _ _ _ _ _ S5 Pd i Hn) as [Q|(e & k & om & h & Q)]; [auto|right].
  exists om, e, k, h. auto.
Qed.

(** C48: as long as the user's time limits do not shorten the area, it is
    symmetric about the synchronous energy, except where it reaches the top of
    the image: there the bottom row is left out. *)
Lemma C48_symmetric_partial_lem : forall m L, find_limits m = Ok L -> centred m -> l_full m = false -> 0 < l_dtbin m ->
  0 <= l_min_dt m < l_dtbin m -> (INR (l_nbins m) - 1) * l_dtbin m < l_max_dt m ->
  forall i, (i < l_nbins m)%nat ->
    ((top L i < Z.of_nat (l_nbins m))%Z -> (low L i + top L i = Z.of_nat (l_nbins m))%Z) /\
    (top L i = Z.of_nat (l_nbins m) -> low L i = 1%Z).
Proof.
  intros m L H C F D M1 M2 i Hi. destruct (shape m L H) as (j0 & i0 & i1 & S). cbv zeta in S.
  destruct S as (Hd & L1 & L2 & L3 & I & I' & P0 & P1 & S1 & S2 & S3 & S4 & S5 & S6). rewrite F in *.
  rewrite !orb_false_r in *.
  assert (LO : rtrunc (l_min_dt m / l_dtbin m) = 0%Z).
  { assert (0 <= l_min_dt m / l_dtbin m < 1).
    { split; [apply Rmult_le_pos; [lra|left; apply Rinv_0_lt_compat; auto]|]. apply (Rmult_lt_reg_r (l_dtbin m)); [auto|]. replace (l_min_dt m / l_dtbin m * l_dtbin m) with (l_min_dt m) by (field; lra). lra. }
    rewrite rtrunc_floor by lra. apply rfloor_unique. lra. }
  assert (HI : (Z.of_nat (l_nbins m) <= rceil (l_max_dt m / l_dtbin m))%Z).
  { assert (Q := rceil_spec (l_max_dt m / l_dtbin m)). rewrite INR_IZR_INZ in M2.
    assert (IZR (Z.of_nat (l_nbins m)) - 1 < l_max_dt m / l_dtbin m).
    { apply (Rmult_lt_reg_r (l_dtbin m)); [auto|]. replace (l_max_dt m / l_dtbin m * l_dtbin m) with (l_max_dt m) by (field; lra). auto. }
    apply Z.lt_pred_le. apply lt_IZR. rewrite <- Z.sub_1_r, minus_IZR. lra. }
  rewrite LO in *. assert (C0 : (i0 <? 0)%Z = false) by (apply Z.ltb_ge; lia).
  assert (C1 : (rceil (l_max_dt m / l_dtbin m) <? i1)%Z = false) by (apply Z.ltb_ge; lia).
  rewrite C0, C1 in *. cbn [orb andb] in *. rewrite S4 by auto. rewrite centred_min by auto. lia.
Qed.

Lemma same_area : forall m L L', find_limits m = Ok L -> find_limits (unlimited m) = Ok L' ->
  lim_xorigin L = lim_xorigin L' /\ lim_dEbin L = lim_dEbin L'.
Proof.
  intros m L L' H H'. destruct (find_inv m L H) as (_ & _ & _ & _ & E1 & E2 & _). destruct (find_inv _ L' H') as (_ & _ & _ & _ & E3 & E4 & _).
  assert (X1 : calc_xorigin (unlimited m) = calc_xorigin m) by reflexivity. rewrite X1, E1 in E3. injection E3 as E3.
  assert (X2 : find_dEbin (unlimited m) (lim_xorigin L') = find_dEbin m (lim_xorigin L')) by reflexivity.
  rewrite X2, <- E3, E2 in E4. injection E4 as E4. auto.
Qed.

(** C48: when the full image is asked for, or the user's limits in time change
    the first or the last bin, the lower rows of all bins are shifted up by
    one: the area is symmetric in no bin. *)
Lemma C48_shifted_lem : forall m L, find_limits m = Ok L -> centred m -> 0 < l_dtbin m ->
  l_full m = true \/
  (exists L', find_limits (unlimited m) = Ok L' /\ (lim_imin L <> lim_imin L' \/ lim_imax L <> lim_imax L')) ->
  forall i, (i < l_nbins m)%nat -> (low L i + top L i = Z.of_nat (l_nbins m) + 1)%Z.
Proof.
  intros m L H C D HH i Hi. destruct (shape m L H) as (j0 & i0 & i1 & S). cbv zeta in S.
  destruct S as (Hd & L1 & L2 & L3 & I & I' & P0 & P1 & S1 & S2 & S3 & S4 & S5 & S6).
  destruct (l_full m) eqn:F.
  { rewrite S4, orb_true_r by auto. cbn [orb]. rewrite centred_up by auto. lia. }
  destruct HH as [HH|(L' & H' & N)]; [discriminate|].
  destruct (shape _ L' H') as (j0' & i0' & i1' & S'). cbv zeta in S'.
  destruct S' as (_ & _ & _ & _ & _ & _ & P0' & P1' & S1' & S2' & _ & _ & S5' & S6').
  cbn [l_nbins l_dtbin l_full l_min_dt l_max_dt unlimited] in P1', S1', S2', S5', S6'. rewrite F in *. rewrite !orb_false_r in *.
  destruct (same_area m L L' H H') as [X1 X2].
  assert (EJ : j0' = j0).
  { assert (Q : Ok j0' = Ok j0); [|injection Q as Q; auto]. rewrite <- S5, <- S5', X1, X2. reflexivity. }
  subst j0'. destruct (S6 eq_refl) as [Q0 Q1]. destruct (S6' eq_refl) as [Q0' Q1'].
  assert (i0' = i0) by (rewrite Q0, Q0'; reflexivity). assert (i1' = i1) by (rewrite Q1, Q1'; reflexivity). clear Q0 Q1 Q0' Q1' S6 S6'. subst i0' i1'.
  assert (LO : rtrunc (0 / l_dtbin m) = 0%Z).
  { rewrite rtrunc_floor by (unfold Rdiv; lra). apply rfloor_unique. unfold Rdiv. lra. }
  assert (HI : rceil (INR (l_nbins m) * l_dtbin m / l_dtbin m) = Z.of_nat (l_nbins m)).
  { apply rceil_unique. replace (INR (l_nbins m) * l_dtbin m / l_dtbin m) with (INR (l_nbins m)) by (field; lra). rewrite INR_IZR_INZ. lra. }
  rewrite LO, HI in *. replace (i0 <? 0)%Z with false in S1' by (symmetry; apply Z.ltb_ge; lia).
  replace (Z.of_nat (l_nbins m) <? i1)%Z with false in S2' by (symmetry; apply Z.ltb_ge; lia).
  destruct ((i0 <? rtrunc (l_min_dt m / l_dtbin m)) || (rceil (l_max_dt m / l_dtbin m) <? i1))%Z%bool eqn:CC.
  - rewrite S4 by auto. rewrite centred_up by auto. lia.
  - exfalso. apply orb_false_iff in CC. destruct CC as [C0 C1]. rewrite C0 in S1. rewrite C1 in S2. cbv iota in S1, S2, S1', S2'. lia.
Qed.

(** C48: the user's limits in time: the area starts no earlier than the bin of
    the first time, and extends at most one bin beyond the last. *)
Lemma C48_time_partial_lem : forall m L, find_limits m = Ok L -> 0 < l_dtbin m -> 0 <= l_min_dt m ->
  l_min_dt m < (IZR (lim_imin L) + 1) * l_dtbin m /\ (IZR (lim_imax L) - 1) * l_dtbin m < l_max_dt m /\
  (l_full m = true -> IZR (lim_imax L) * l_dtbin m < l_max_dt m <= (IZR (lim_imax L) + 1) * l_dtbin m).
Proof.
  intros m L H D M. destruct (shape m L H) as (j0 & i0 & i1 & S). cbv zeta in S.
  destruct S as (Hd & L1 & L2 & L3 & I & I' & P0 & P1 & S1 & S2 & _).
  assert (PQ : 0 <= l_min_dt m / l_dtbin m) by (apply Rmult_le_pos; [auto|left; apply Rinv_0_lt_compat; auto]).
  assert (Q0 := rfloor_spec (l_min_dt m / l_dtbin m)). rewrite <- rtrunc_floor in Q0 by auto.
  assert (Q1 := rceil_spec (l_max_dt m / l_dtbin m)).
  set (a := l_min_dt m / l_dtbin m) in *. set (b := l_max_dt m / l_dtbin m) in *.
  replace (l_min_dt m) with (a * l_dtbin m) by (unfold a; field; lra). replace (l_max_dt m) with (b * l_dtbin m) by (unfold b; field; lra).
  assert (W0 : (rtrunc a <= lim_imin L)%Z).
  { rewrite S1. destruct (Z.ltb_spec i0 (rtrunc a)); destruct (l_full m); cbn [orb]; lia. }
  assert (W1 : (lim_imax L <= rceil b)%Z).
  { rewrite S2. destruct (Z.ltb_spec (rceil b) i1); destruct (l_full m); cbn [orb]; lia. }
  apply IZR_le in W0, W1. split; [apply Rmult_lt_compat_r; lra|]. split; [apply Rmult_lt_compat_r; lra|].
  intros F. rewrite F, orb_true_r in S2. rewrite S2, minus_IZR. split; [apply Rmult_lt_compat_r|apply Rmult_le_compat_r]; lra.
Qed.

(** C48: the full image with the default limits in time: all rows but the
    bottom one are used in every bin. *)
Lemma C48_full_image_lem : forall m L, find_limits m = Ok L -> centred m -> l_full m = true -> 0 < l_dtbin m ->
  l_min_dt m = 0 -> l_max_dt m = INR (l_nbins m) * l_dtbin m ->
  lim_imin L = 0%Z /\ lim_imax L = (Z.of_nat (l_nbins m) - 1)%Z /\
  forall i, (i < l_nbins m)%nat -> low L i = 1%Z /\ top L i = Z.of_nat (l_nbins m).
Proof.
  intros m L H C F D M0 M1. destruct (shape m L H) as (j0 & i0 & i1 & S). cbv zeta in S.
  destruct S as (Hd & L1 & L2 & L3 & I & I' & P0 & P1 & S1 & S2 & S3 & S4 & S5 & S6). rewrite F, M0, M1 in *. rewrite !orb_true_r in *.
  assert (LO : rtrunc (0 / l_dtbin m) = 0%Z).
  { rewrite rtrunc_floor by (unfold Rdiv; lra). apply rfloor_unique. unfold Rdiv. lra. }
  assert (HI : rceil (INR (l_nbins m) * l_dtbin m / l_dtbin m) = Z.of_nat (l_nbins m)).
  { apply rceil_unique. replace (INR (l_nbins m) * l_dtbin m / l_dtbin m) with (INR (l_nbins m)) by (field; lra). rewrite INR_IZR_INZ. lra. }
  rewrite LO, HI in *. split; [auto|]. split; [auto|]. intros i Hi.
  assert (T : top L i = Z.of_nat (l_nbins m)).
  { rewrite S3 by auto. cbn [andb].
    assert (B1 : slice_bound (l_nbins m) 0 = 0%Z) by (unfold slice_bound; cbn; lia).
    assert (B2 : slice_bound (l_nbins m) (Z.of_nat (l_nbins m)) = Z.of_nat (l_nbins m)).
    { unfold slice_bound. destruct (Z.ltb_spec (Z.of_nat (l_nbins m)) 0); lia. }
    rewrite B1, B2. destruct (Z.ltb_spec (Z.of_nat i) 0); [lia|]. destruct (Z.leb_spec (Z.of_nat (l_nbins m)) (Z.of_nat i)); [lia|].
    cbn [orb]. auto. }
  split; [|auto]. rewrite S4 by auto. cbn [orb]. rewrite centred_up by auto. lia.
Qed.

(** C48: a reconstruction area is always found, or an error of its own raised:
    the comparison with a missing limit (TypeError) never happens. *)
Lemma C48_found_lem : forall m, centred m -> find_limits m <> Fail (Raised TypeError).
Proof. exact nt_limits. Qed.

Lemma ceil1 : rceil 1 = 1%Z.
Proof. apply rceil_unique. lra. Qed.
Lemma ceil3 : rceil 3 = 3%Z.
Proof. apply rceil_unique. lra. Qed.

(** The limits are not always usable: with the full image and a last time one
    bin beyond the image the limits are accepted, and building the distribution
    raises IndexError. *)
Lemma C48_usable_refuted_lem : exists m L, centred m /\ find_limits m = Ok L /\
  lim_imax L = Z.of_nat (l_nbins m) /\
  homogeneous_coords 1 (lim_imin L) (lim_imax L) (lim_jmin L) (lim_jmax L) = Fail (Raised IndexError).
Proof.
  exists (bucket true 4). eexists. split; [apply bucket_centred|]. split; [apply (full_limits 4); lia|].
  split; [reflexivity|]. vm_compute. reflexivity.
Qed.

(** The area is not always symmetric, even without limits given by the user. *)
Lemma C48_symmetric_refuted_lem : exists m L i, centred m /\ l_full m = false /\ l_min_dt m = 0 /\ l_max_dt m = INR (l_nbins m) * l_dtbin m /\
  find_limits m = Ok L /\ (lim_imin L <= Z.of_nat i <= lim_imax L)%Z /\ (low L i + top L i <> Z.of_nat (l_nbins m))%Z.
Proof.
  exists (bucket false 3). eexists. exists 1%nat. split; [apply bucket_centred|]. do 2 (split; [reflexivity|]).
  split; [cbn; ring|]. split; [apply bucket_limits; rewrite ceil3; lia|]. split; cbn; lia.
Qed.

(** The user's last time is not always respected: here the only bin used starts
    at the last time. *)
Lemma C48_time_refuted_lem : exists m L, centred m /\ l_full m = false /\ 0 < l_dtbin m /\ find_limits m = Ok L /\
  lim_imin L = lim_imax L /\ (low L (Z.to_nat (lim_imax L)) < top L (Z.to_nat (lim_imax L)))%Z /\
  l_max_dt m <= IZR (lim_imax L) * l_dtbin m.
Proof.
  exists (bucket false 1). eexists. split; [apply bucket_centred|]. split; [reflexivity|]. split; [cbn; lra|].
  split; [apply bucket_limits; rewrite ceil1; lia|]. split; [reflexivity|]. split; [reflexivity|cbn; lra].
Qed.

(*EX*)
From Verif Require Import Proof.CSelf Proof.PLimits.
(** The example machine, with a stationary bucket over three bins: the area has
    the rows 1 and 2 of the bin in the middle. *)
Example C48_ex : centred (bucket false 3) /\ find_limits (bucket false 3) = Ok (Limits (- (3 / 2)) 1 [2; 1; 2]%Z [1; 3; 1]%Z 1 1) /\
  l_full (bucket false 3) = false /\ 0 <= l_min_dt (bucket false 3) < l_dtbin (bucket false 3) /\
  (INR (l_nbins (bucket false 3)) - 1) * l_dtbin (bucket false 3) < l_max_dt (bucket false 3) /\ 0 < l_demax (bucket false 3) /\
  l_q (bucket false 3) <> 0 /\ inhabited (at_turn (bucket false 3) 0).
Proof.
  split; [apply bucket_centred|]. split; [apply bucket_limits; replace (rceil 3) with 3%Z; [lia|symmetry; apply rceil_unique; lra]|].
  cbn. do 5 (split; [solve [auto with real | lra]|]). constructor. exact (AtTurn (bucket false 3) 0 0 2 (3 / 2) 0 0 eq_refl eq_refl eq_refl eq_refl eq_refl).
Qed.
(** The full image of the same machine, with the default limits and with a last
    time one bin beyond. *)
Example C48_full_ex : find_limits (bucket true 3) = Ok (Limits (- (3 / 2)) 1 [1; 1; 1]%Z [3; 3; 3]%Z 0 2) /\
  l_max_dt (bucket true 3) = INR (l_nbins (bucket true 3)) * l_dtbin (bucket true 3) /\
  find_limits (bucket true 4) = Ok (Limits (- (3 / 2)) 1 [1; 1; 1]%Z [3; 3; 3]%Z 0 3).
Proof. split; [apply (full_limits 3); lia|]. split; [cbn; ring|apply (full_limits 4); lia]. Qed.
(** A trajectory of the example machine. *)
Example C48_height_ex : exists h, trajectory_height (bucket false 3) (PI / 3) PI 0 0 = Ok h /\ h = 3 / 2.
Proof.
  eexists. split; [apply bucket_height|]. rewrite cos_PI3, cos_PI. apply real_sqrt_sq; lra.
Qed.
(*XE*)
