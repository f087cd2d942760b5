(** Proofs of the properties of the contours of an image, of the density
    inside them and of the clipping of weights. *)
(*HEAD*)
From Coq Require Import Reals List ZArith Bool.
From Verif Require Import Base.Res Base.QcLib Base.RLib Model.MParticles Model.MPreproc Model.MPost Model.MArea Spec.AreaSpec.
Import ListNotations.
Local Open Scope R_scope.
(*DAEH*)
From Coq Require Import Lia Lra Psatz.
From Verif Require Import Base.ResLemmas Base.QcLemmas Base.Loops Proof.PArea Proof.PArea2 Proof.PArea3.
From Verif Require Export Proof.CArea.

(** ** Contours *)
Lemma height_nonneg k v p l x : 0 <= height k v p l x.
Proof. unfold height. destruct (Rlt_dec _ 0); [lra|apply Rabs_pos]. Qed.
Lemma contour_inv interp m p0 en et matched a hs : contour interp m p0 en et matched a = Ok hs ->
  length hs = length matched /\ forall i, 0 <= nth i hs 0.
Proof.
  unfold contour. cbv zeta. intros E. binv E r1 E1. destruct r1 as [[t u] pl]. binv E k E2. apply ok_inj in E. subst hs. split; [apply map_length|].
  intros i. destruct (nth_in_or_default i (map (height k (am_vrf1 m) p0 pl) matched) 0) as [H|H]; [|lra]. apply in_map_iff in H. destruct H as (x & <- & _). apply height_nonneg.
Qed.
Section Stat.
Variable interp : R -> list R -> list R -> R.
Hypothesis Hint : interpolates interp.
Variables (m : amachine) (turn : Z) (energy eta0 omega : R).
Hypothesis Hst : stationary_above m turn energy eta0 omega.
Lemma contour_ok matched a : contour interp m PI energy eta0 matched a = Ok (map (arc (stiff m energy eta0) (left_end interp (am_vrf1 m) a)) matched).
Proof.
  destruct Hst as [_ _ _ _ Ha Hm Hp]. unfold contour. cbv zeta. assert (V : 0 < am_vrf1 m) by apply Hp.
  eapply bind_to; [apply (lengths interp Hint _ V a)|]. cbv beta iota. eapply bind_to; [apply (factor_ok m energy eta0 omega Ha Hm Hp)|].
  f_equal. apply map_ext. intros p. apply (height_arc m energy eta0 omega Hp).
Qed.
Lemma arc_mono l1 l2 x : 0 <= l2 -> l2 <= l1 -> l1 <= PI -> arc (stiff m energy eta0) l1 x <= arc (stiff m energy eta0) l2 x.
Proof.
  intros A B C. destruct Hst as [_ _ _ _ Ha Hm Hp]. assert (K := stiff_pos m energy eta0 omega Ha Hm Hp). unfold arc. apply sqrt_le_1_alt.
  apply Rmult_le_compat_l; [lra|]. assert (cos l1 <= cos l2); [|lra]. destruct (Req_dec l1 l2) as [->|]; [lra|]. left. apply cos_decreasing_1; lra.
Qed.
End Stat.

(** C86.  Above transition without acceleration the contour of an amplitude is
    a trajectory of the Hamiltonian over the time axis, and the contour of a
    lower amplitude lies outside of that of a higher one. *)
Lemma C86_nested_lem : forall interp m turn energy eta0 omega matched a1 a2,
  interpolates interp -> stationary_above m turn energy eta0 omega -> a2 <= a1 ->
  exists phi_left1 phi_left2, 0 <= phi_left2 <= phi_left1 /\ phi_left1 < PI /\
    let hs1 := map (trajectory m energy eta0 phi_left1) matched in
    let hs2 := map (trajectory m energy eta0 phi_left2) matched in
    contour interp m PI energy eta0 matched a1 = Ok hs1 /\ contour interp m PI energy eta0 matched a2 = Ok hs2 /\
    forall i, 0 <= nth i hs1 0 <= nth i hs2 0.
Proof.
  intros interp m turn energy eta0 omega matched a1 a2 Hint Hst Ha.
  assert (V : 0 < am_vrf1 m) by apply Hst. assert (P := PI_RGT_0).
  assert (R1 := left_range interp Hint _ V a1). assert (R2 := left_range interp Hint _ V a2). assert (M := left_mono interp Hint _ V a2 a1 Ha).
  exists (left_end interp (am_vrf1 m) a1), (left_end interp (am_vrf1 m) a2). split; [lra|]. split; [lra|]. cbv zeta.
  split; [apply (contour_ok interp Hint m turn energy eta0 omega Hst)|]. split; [apply (contour_ok interp Hint m turn energy eta0 omega Hst)|].
  induction matched as [|x l IH]; intros i; [destruct i; simpl; lra|]. destruct i; simpl; [|apply IH].
  split; [apply sqrt_pos|]. change (trajectory m energy eta0) with (arc (stiff m energy eta0)). apply (arc_mono m turn energy eta0 omega Hst); lra.
Qed.

(** ** The loop over the time axis *)
Fixpoint acc (c : nat -> R) (n : nat) : R := match n with O => 0 | S n => acc c n + c n end.
Lemma acc_ext c d n : (forall k, (k < n)%nat -> c k = d k) -> acc c n = acc d n.
Proof. induction n; intros H; simpl; auto. rewrite IHn, H by auto. reflexivity. Qed.
Lemma acc_le c d n : (forall k, (k < n)%nat -> c k <= d k) -> acc c n <= acc d n.
Proof. induction n; intros H; simpl; [lra|]. assert (A := H n ltac:(lia)). assert (B : acc c n <= acc d n) by (apply IHn; intros; apply H; lia). lra. Qed.
Lemma acc_seq c n : acc c n = rsum (map c (seq 0 n)).
Proof.
  induction n; [reflexivity|]. rewrite seq_S, map_app. simpl. rewrite IHn. generalize (map c (seq 0 n)). intros l. induction l; simpl; lra.
Qed.
Definition col_spec interp (img : list (list R)) dE hs k c : Prop :=
  (nth k hs 0 = 0 /\ c = 0) \/
  (nth k hs 0 <> 0 /\ exists row top bot, np_get img (Z.of_nat k) = Ok row /\ column_density interp row dE (nth k hs 0) = Ok (c, top, bot)).
Lemma density_loop interp img dE hs n s' : for_ 0 n (density_step interp img dE hs) (DState 0 0 0 None 0) = Ok s' ->
  exists c, ds_sum s' = acc c n /\ (forall k, (k < n)%nat -> col_spec interp img dE hs k (c k)) /\
    (ds_n s' = 0%nat -> forall k, (k < n)%nat -> nth k hs 0 = 0) /\
    (match ds_min s' with None => ds_n s' = 0%nat /\ ds_local s' = 0 | Some mn => (0 < ds_n s')%nat /\ INR (ds_n s') * mn <= ds_local s' end) /\
    ds_local s' <= INR (ds_n s') * ds_max s'.
Proof.
  intros E. pattern n, s'. change n with (0 + n)%nat at 1.
  refine (for_ok_ind _ (fun n s' => exists c, ds_sum s' = acc c n /\ (forall k, (k < n)%nat -> col_spec interp img dE hs k (c k)) /\
    (ds_n s' = 0%nat -> forall k, (k < n)%nat -> nth k hs 0 = 0) /\
    (match ds_min s' with None => ds_n s' = 0%nat /\ ds_local s' = 0 | Some mn => (0 < ds_n s')%nat /\ INR (ds_n s') * mn <= ds_local s' end) /\
    ds_local s' <= INR (ds_n s') * ds_max s') _ n 0%nat _ s' E _ _).
  - exists (fun _ => 0). simpl. repeat split; intros; try lia; lra.
  - clear E s'. intros k s s' Hk (c & A & B & C & D & F) E. unfold density_step in E. binv E h E1. apply (np_get_nat _ hs k _ 0) in E1. destruct E1 as (L & E1).
    destruct (Req_EM_T h 0) as [Z|Z].
    + apply ok_inj in E. subst s'. exists (fun j => if (j =? k)%nat then 0 else c j). split; [|split; [|split; [|split; auto]]].
      * simpl. rewrite Nat.eqb_refl. rewrite (acc_ext _ c). { lra. } intros j Hj. destruct (Nat.eqb_spec j k); [lia|auto].
      * intros j Hj. destruct (Nat.eqb_spec j k) as [->|]; [left; split; congruence|apply B; lia].
      * intros Hn j Hj. destruct (Nat.eq_dec j k) as [->|]; [congruence|apply C; auto; lia].
    + binv E row E2. binv E r1 E3. destruct r1 as [[d top] bot]. apply ok_inj in E. subst s'. cbn [ds_sum ds_n ds_local ds_min ds_max].
      exists (fun j => if (j =? k)%nat then d else c j). split; [|split; [|split; [|split]]].
      * simpl. rewrite Nat.eqb_refl. rewrite (acc_ext _ c). { lra. } intros j Hj. destruct (Nat.eqb_spec j k); [lia|auto].
      * intros j Hj. destruct (Nat.eqb_spec j k) as [->|]; [right; split; [congruence|]|apply B; lia]. exists row, top, bot. rewrite <- E1. auto.
      * intros Hn. discriminate.
      * split; [lia|]. rewrite S_INR. assert (P := pos_INR (ds_n s)). destruct (ds_min s) as [mn|]; cbn [min_inf].
        -- assert (X := Rmin_l (Rmin mn top) bot). assert (Y := Rmin_r (Rmin mn top) bot). assert (W := Rmin_l mn top). assert (W' := Rmin_r mn top).
           assert (INR (ds_n s) * Rmin (Rmin mn top) bot <= INR (ds_n s) * mn) by (apply Rmult_le_compat_l; lra). lra.
        -- destruct D as (D & D'). rewrite D, D' in *. simpl in *. assert (X := Rmin_l top bot). assert (Y := Rmin_r top bot). lra.
      * rewrite S_INR. assert (P := pos_INR (ds_n s)). assert (X := Rmax_l (Rmax (ds_max s) top) bot). assert (Y := Rmax_r (Rmax (ds_max s) top) bot).
        assert (W := Rmax_l (ds_max s) top). assert (W' := Rmax_r (ds_max s) top).
        assert (INR (ds_n s) * ds_max s <= INR (ds_n s) * Rmax (Rmax (ds_max s) top) bot) by (apply Rmult_le_compat_l; lra). lra.
Qed.

(** ** What is stored for an amplitude *)
Opaque contour phases.
Lemma amplitude_inv interp m p0 en et om img tm dE matched a c : amplitude_data interp m p0 en et om img tm dE matched a = Ok c ->
  exists hs s, contour interp m p0 en et matched a = Ok hs /\ for_ 0 (length tm) (density_step interp img dE hs) (DState 0 0 0 None 0) = Ok s /\
    (rsum (map rsum img) <> 0 -> cd_sum c = ds_sum s / rsum (map rsum img)) /\ cd_min c <= cd_local c <= cd_max c /\
    ((cd_emittance c = 0 /\ forall k, (k < length tm)%nat -> nth k hs 0 = 0) \/ contour_emittance m om matched hs = Ok (cd_emittance c)).
Proof.
  intros E. unfold amplitude_data in E. binv E hs E1. binv E s E2. exists hs, s. split; [auto|]. split; [auto|].
  destruct (density_loop _ _ _ _ _ _ E2) as (cs & A & B & C & D & F).
  destruct (ds_n s) as [|n] eqn:En.
  - apply ok_inj in E. subst c. cbn [cd_sum cd_min cd_max cd_local cd_emittance]. split; [|split; [lra|left; auto]]. intros N.
    assert (Z : acc cs (length tm) = 0). { rewrite (acc_ext _ (fun _ => 0)). { clear. induction (length tm); simpl; lra. } intros k Hk. destruct (B k Hk) as [(_ & X)|(X & _)]; [auto|]. rewrite C in X by auto. tauto. }
    rewrite A, Z. unfold Rdiv. ring.
  - destruct (ds_min s) as [mn|]; [|destruct D; discriminate]. destruct D as (_ & D). binv E fr E3. binv E em E4. apply ok_inj in E. subst c. cbn [cd_sum cd_min cd_max cd_local cd_emittance].
    split. { intros N. rewrite rdiv_ok in E3 by auto. apply ok_inj in E3. auto. }
    split; [|right; auto]. assert (P : 0 < INR (S n)) by (apply lt_0_INR; lia). split.
    + apply Rmult_le_reg_l with (INR (S n)); auto. replace (INR (S n) * (ds_local s / INR (S n))) with (ds_local s) by (field; lra). auto.
    + apply Rmult_le_reg_l with (INR (S n)); auto. replace (INR (S n) * (ds_local s / INR (S n))) with (ds_local s) by (field; lra). auto.
Qed.
Lemma extrapolated_inv l l' : extrapolated l = Ok l' -> length l' = length l /\ forall i d, cd_emittance (nth i l' d) = cd_emittance (nth i l d) /\
  cd_sum (nth i l' d) = cd_sum (nth i l d) /\ (nth i l' d = nth i l d \/ (cd_min (nth i l' d) = cd_local (nth i l' d) /\ cd_max (nth i l' d) = cd_local (nth i l' d))).
Proof.
  unfold extrapolated. intros E. binv E c0 E0. destruct l as [|c l]; [discriminate|]. apply (np_get_nat _ (c :: l) 0 _ c) in E0. destruct E0 as (_ & E0). simpl in E0. subst c0.
  destruct (Req_EM_T (cd_local c) 0).
  - binv E c2 E2. binv E c1 E1. binv E sl E3. cbv zeta in E. apply ok_inj in E. subst l'. split; [reflexivity|]. intros i d. destruct i; simpl; auto.
  - apply ok_inj in E. subst l'. auto.
Qed.
Lemma density_inv interp m img tm dE n idx l : density_vs_emittance interp m img tm dE n idx = Ok l ->
  let turn := (frame_of m idx * am_dturns m)%Z in
  exists p0 en et om matched mn l0, np_get (am_phi0 m) turn = Ok p0 /\ np_get (am_e0 m) turn = Ok en /\ np_get (am_eta0 m) turn = Ok et /\
    np_get (am_omega m) turn = Ok om /\ time_phases m tm om p0 = Ok matched /\ rmin_list (map (urf_at (am_vrf1 m) p0) (phases p0)) = Ok mn /\
    length l = n /\ length l0 = n /\
    (forall i, (i < n)%nat -> amplitude_data interp m p0 en et om img tm dE matched (nth i (linspace 0 mn n) 0) = Ok (nth i l0 (CData 0 0 0 0 0))) /\
    forall i d, cd_emittance (nth i l d) = cd_emittance (nth i l0 d) /\ cd_sum (nth i l d) = cd_sum (nth i l0 d) /\
      (nth i l d = nth i l0 d \/ (cd_min (nth i l d) = cd_local (nth i l d) /\ cd_max (nth i l d) = cd_local (nth i l d))).
Proof.
  intros E turn. unfold density_vs_emittance in E. cbv zeta in E. fold turn in E.
  binv E p0 E1. binv E en E2. binv E et E3. binv E om E4. binv E matched E5. binv E amps E6. binv E l0 E7.
  unfold amplitudes in E6. binv E6 mn E8. apply ok_inj in E6. subst amps.
  assert (K := mapM_nth _ _ _ _ _ 0 (CData 0 0 0 0 0) E7). destruct K as (K1 & K2). unfold linspace in K1, K2 at 1. rewrite tab_length in K1, K2.
  apply extrapolated_inv in E. destruct E as (L & E). exists p0, en, et, om, matched, mn, l0. repeat split; auto; try apply E. congruence.
Qed.

Lemma trapz_mono dx : 0 <= dx -> forall l1 l2, length l1 = length l2 -> (forall i, nth i l1 0 <= nth i l2 0) -> trapz dx l1 <= trapz dx l2.
Proof.
  intros Hd. induction l1 as [|a l1 IH]; intros [|b l2] L H; try discriminate; [simpl; lra|]. destruct l1 as [|a' l1], l2 as [|b' l2]; try discriminate; [simpl; lra|].
  rewrite !trapz_cons. assert (X := H 0%nat). assert (Y := H 1%nat). simpl in X, Y. assert (Q : trapz dx (a' :: l1) <= trapz dx (b' :: l2)). { apply IH; [simpl in *; lia|]. intros i. apply (H (S i)). }
  assert (dx * (a + a') <= dx * (b + b')) by (apply Rmult_le_compat_l; lra). lra.
Qed.
Lemma trapz_nonneg dx l : 0 <= dx -> (forall i, 0 <= nth i l 0) -> 0 <= trapz dx l.
Proof.
  intros Hd. induction l as [|a l IH]; intros H; [simpl; lra|]. destruct l as [|b l]; [simpl; lra|]. rewrite trapz_cons. assert (Q := IH (fun i => H (S i))).
  assert (X := H 0%nat). assert (Y := H 1%nat). simpl in X, Y. assert (0 <= dx * (a + b)) by (apply Rmult_le_pos; lra). lra.
Qed.
Lemma trapz_nil dx l : (forall i, nth i l 0 = 0) -> trapz dx l = 0.
Proof.
  induction l as [|a l IH]; intros H; [reflexivity|]. destruct l as [|b l]; [reflexivity|]. rewrite trapz_cons. rewrite IH by (intros i; apply (H (S i))).
  assert (X := H 0%nat). assert (Y := H 1%nat). simpl in X, Y. rewrite X, Y. lra.
Qed.
Lemma min_below (x : R) l mn : rmin_list (x :: l) = Ok mn -> mn <= x.
Proof.
  intros E. apply ok_inj in E. subst mn. revert x. induction l as [|y l IH]; intros x; simpl; [lra|]. eapply Rle_trans; [apply IH|]. apply Rmin_l.
Qed.
Lemma amplitude_order mn n i j : mn <= 0 -> (i <= j)%nat -> (j < n)%nat -> nth j (linspace 0 mn n) 0 <= nth i (linspace 0 mn n) 0.
Proof.
  intros H Hij Hj. unfold linspace. rewrite !nth_tab by lia. destruct (Nat.eq_dec i j) as [->|N]; [lra|].
  assert (P : 0 < INR (n - 1)) by (apply lt_0_INR; lia). assert (Q : (mn - 0) / INR (n - 1) <= 0).
  { assert (0 <= - mn / INR (n - 1)). { apply Rmult_le_pos; [lra|]. left. apply Rinv_0_lt_compat. auto. } unfold Rdiv in *. lra. }
  apply le_INR in Hij. nra.
Qed.
Lemma lowest_level m mn : 0 < am_vrf1 m -> rmin_list (map (urf_at (am_vrf1 m) PI) (phases PI)) = Ok mn -> mn <= 0.
Proof.
  intros V E. rewrite phases_pi, map_tab in E. change 1000%nat with (S 999) in E. rewrite tab_cons in E. apply min_below in E. rewrite urf_pi in E.
  assert (C := COS_bound (ph 0)). nra.
Qed.

Lemma emittance_of interp m en et om matched a hs tm c dx f :
  time_phases m tm om PI = Ok matched -> contour interp m PI en et matched a = Ok hs ->
  (cd_emittance c = 0 /\ (forall k, (k < length tm)%nat -> nth k hs 0 = 0)) \/ contour_emittance m om matched hs = Ok (cd_emittance c) ->
  dx = nth 1 matched 0 - nth 0 matched 0 -> f = 2 / (am_h m * om) -> am_h m * om <> 0 -> cd_emittance c = f * trapz dx hs.
Proof.
  intros Et Ec H -> -> N. destruct H as [(H & Z)|H].
  - rewrite H, trapz_nil; [ring|]. intros i. destruct (Nat.lt_ge_cases i (length tm)) as [L|L]; [auto|]. apply nth_overflow.
    apply contour_inv in Ec. destruct Ec as (Ec & _). rewrite Ec. unfold time_phases in Et. binv Et t0 E0. binv Et t1 E1. cbv zeta in Et. apply ok_inj in Et. subst matched. rewrite map_length. auto.
  - unfold contour_emittance in H. binv H q0 E0. binv H q1 E1. binv H ff E2. rewrite rdiv_ok in E2 by auto. apply ok_inj in E2. apply ok_inj in H.
    apply (np_get_nat _ matched 0 _ 0) in E0. apply (np_get_nat _ matched 1 _ 0) in E1. destruct E0 as (_ & ->), E1 as (_ & ->). subst. auto.
Qed.

(** C86.  Above transition without acceleration the emittances returned for
    the amplitudes grow from the centre to the edge of the bucket. *)
Lemma C86_emittance_lem : forall interp m img time_array dE n_points idx_frame energy eta0 omega l,
  interpolates interp -> stationary_above m (frame_of m idx_frame * am_dturns m) energy eta0 omega ->
  nth 0 time_array 0 <= nth 1 time_array 0 ->
  density_vs_emittance interp m img time_array dE n_points idx_frame = Ok l ->
  length l = n_points /\
  forall i j d, (i <= j)%nat -> (j < n_points)%nat -> 0 <= cd_emittance (nth i l d) <= cd_emittance (nth j l d).
Proof.
  intros interp m img tm dE n idx energy eta0 omega l Hint Hst Ht E. apply density_inv in E. cbv zeta in E.
  destruct E as (p0 & en & et & om & matched & mn & l0 & E1 & E2 & E3 & E4 & Et & Em & L & L0 & HA & HB). split; [auto|].
  destruct Hst as [S1 S2 S3 S4 Ha Hm Hp] eqn:Hst'. clear Hst'. rewrite S1 in E1. apply ok_inj in E1. subst p0. rewrite S2 in E2. apply ok_inj in E2. subst en.
  rewrite S3 in E3. apply ok_inj in E3. subst et. rewrite S4 in E4. apply ok_inj in E4. subst om.
  assert (V : 0 < am_vrf1 m) by apply Hp. apply (lowest_level _ _ V) in Em.
  assert (HO : 0 < am_h m * omega) by (apply Rmult_lt_0_compat; apply Hp).
  assert (F : 0 < 2 / (am_h m * omega)). { apply Rmult_lt_0_compat; [lra|]. apply Rinv_0_lt_compat. auto. }
  assert (DX : 0 <= nth 1 matched 0 - nth 0 matched 0).
  { unfold time_phases in Et. binv Et t0 E0. binv Et t1 E1. cbv zeta in Et. apply ok_inj in Et. apply (np_get_nat _ tm 0 _ 0) in E0. apply (np_get_nat _ tm 1 _ 0) in E1.
    destruct E0 as (L0' & _), E1 as (L1' & _). subst matched. destruct tm as [|x [|y tm]]; simpl in L0', L1'; try lia. simpl in Ht |- *. nra. }
  assert (Q : forall i, (i < n)%nat -> exists hs, contour interp m PI energy eta0 matched (nth i (linspace 0 mn n) 0) = Ok hs /\
    cd_emittance (nth i l0 (CData 0 0 0 0 0)) = 2 / (am_h m * omega) * trapz (nth 1 matched 0 - nth 0 matched 0) hs).
  { intros i Hi. specialize (HA i Hi). apply amplitude_inv in HA. destruct HA as (hs & s & A & B & C & D & G). exists hs. split; [auto|].
    eapply (emittance_of interp m energy eta0 omega matched _ hs tm); eauto. lra. }
  intros i j d Hij Hj. destruct (HB i d) as (B1 & _). destruct (HB j d) as (B2 & _). rewrite B1, B2. rewrite !(nth_indep l0 d (CData 0 0 0 0 0)) by lia.
  destruct (Q i) as (h1 & A1 & B1'); [lia|]. destruct (Q j Hj) as (h2 & A2 & B2'). rewrite B1', B2'. 
  assert (O := amplitude_order mn n i j Em Hij Hj).
  destruct (C86_nested_lem interp m _ energy eta0 omega matched _ _ Hint Hst O) as (q1 & q2 & _ & _ & N1 & N2 & N3).
  rewrite N1 in A1. apply ok_inj in A1. rewrite N2 in A2. apply ok_inj in A2. rewrite A1, A2 in N3.
  assert (Le : length h1 = length h2) by (rewrite <- A1, <- A2, !map_length; auto). split.
  - apply Rmult_le_pos; [lra|]. apply trapz_nonneg; [auto|]. intros k. apply N3.
  - apply Rmult_le_compat_l; [lra|]. apply trapz_mono; auto. intros k. apply N3.
Qed.

(** C87.  The local density on a contour lies between the smallest and the
    largest density found on it. *)
Lemma C87_spread_lem : forall interp m img time_array dE n_points idx_frame l,
  density_vs_emittance interp m img time_array dE n_points idx_frame = Ok l ->
  Forall (fun c => cd_min c <= cd_local c <= cd_max c) l.
Proof.
  intros interp m img tm dE n idx l E. apply density_inv in E. cbv zeta in E.
  destruct E as (p0 & en & et & om & matched & mn & l0 & _ & _ & _ & _ & _ & _ & L & L0 & HA & HB).
  apply Forall_forall. intros c Hc. apply (In_nth _ _ (CData 0 0 0 0 0)) in Hc. destruct Hc as (i & Hi & <-).
  destruct (HB i (CData 0 0 0 0 0)) as (_ & _ & [H|(H1 & H2)]); [|rewrite H1, H2; lra]. rewrite H.
  specialize (HA i ltac:(lia)). apply amplitude_inv in HA. destruct HA as (hs & s & _ & _ & _ & A & _). exact A.
Qed.

Section Fraction.
Variable interp : R -> list R -> list R -> R.
Hypothesis Hint : interpolates interp.
Variables (dE : list R) (step : R).
Hypothesis He : equidistant dE step.
Hypothesis Hw : - nth 0 dE 0 <= nth (length dE - 1) dE 0.
(** The position of an energy on the axis. *)
Lemma cell_pos a x : (S a < length dE)%nat -> nth a dE 0 <= x <= nth (S a) dE 0 ->
  0 <= (x - nth a dE 0) / step <= 1 /\ INR a + (x - nth a dE 0) / step = (x - nth 0 dE 0) / step.
Proof.
  intros L H. assert (Hs : 0 < step) by apply He. assert (E := proj2 He a L). assert (N := equidistant_nth dE step a He ltac:(lia)). split.
  - split; [apply Rmult_le_pos; [lra|left; apply Rinv_0_lt_compat; auto]|]. apply Rmult_le_reg_r with step; auto. unfold Rdiv. rewrite Rmult_assoc, Rinv_l by lra. lra.
  - rewrite N. field. lra.
Qed.
Lemma column_parts row h d top bot : column_density interp row dE h = Ok (d, top, bot) -> exists a s b t,
  0 <= s <= 1 /\ 0 <= t <= 1 /\ INR a + s = (- h - nth 0 dE 0) / step /\ INR b + t = (h - nth 0 dE 0) / step /\ - h < h /\
  d = integral row b t - integral row a s.
Proof.
  intros E. apply (column_inv interp Hint dE step He) in E. destruct E as (a & b & Hab & Hb & Ha & Hh & _ & H).
  assert (L : (S b < length dE)%nat).
  { destruct (Nat.eq_dec (S b) (length dE)) as [X|]; [|lia]. exfalso. assert (Inc := equidistant_increasing dE step He).
    replace (length dE - 1)%nat with b in Hw by lia. assert (nth 0 dE 0 <= nth a dE 0). { destruct a; [lra|]. left. apply Inc; lia. } lra. }
  destruct (H L) as (H1 & -> & _ & _). assert (B := equidistant_increasing dE step He b (S b) ltac:(lia) L).
  destruct (cell_pos a (- h) ltac:(lia) ltac:(lra)) as (P1 & P2). destruct (cell_pos b h L ltac:(lra)) as (P3 & P4).
  exists a, ((- h - nth a dE 0) / step), b, ((h - nth b dE 0) / step). repeat split; auto; try lra.
  assert (Inc := equidistant_increasing dE step He). assert (nth (S a) dE 0 <= nth b dE 0). { destruct (Nat.eq_dec (S a) b) as [->|]; [lra|]. left. apply Inc; lia. } lra.
Qed.
Lemma pos_order x y : x <= y -> (x - nth 0 dE 0) / step <= (y - nth 0 dE 0) / step.
Proof. intros H. apply Rmult_le_compat_r; [|lra]. left. apply Rinv_0_lt_compat. apply He. Qed.
Lemma column_range row h d top bot : Forall (fun x => 0 <= x) row -> column_density interp row dE h = Ok (d, top, bot) -> 0 <= d <= rsum row.
Proof.
  intros Hr E. apply column_parts in E. destruct E as (a & s & b & t & Hs & Ht & E1 & E2 & Hh & ->).
  assert (A := integral_mono row Hr a s b t Hs Ht ltac:(rewrite E1, E2; apply pos_order; lra)). assert (B := integral_pos row Hr a s Hs). assert (C := integral_bound row Hr b t Ht). lra.
Qed.
Lemma column_grows row h1 h2 d1 d2 t1 t2 b1 b2 : Forall (fun x => 0 <= x) row -> h1 <= h2 ->
  column_density interp row dE h1 = Ok (d1, t1, b1) -> column_density interp row dE h2 = Ok (d2, t2, b2) -> d1 <= d2.
Proof.
  intros Hr Hh E E'. apply column_parts in E, E'. destruct E as (a & s & b & t & Hs & Ht & E1 & E2 & _ & ->). destruct E' as (a' & s' & b' & t' & Hs' & Ht' & E1' & E2' & _ & ->).
  assert (A := integral_mono row Hr a' s' a s Hs' Hs ltac:(rewrite E1, E1'; apply pos_order; lra)).
  assert (B := integral_mono row Hr b t b' t' Ht Ht' ltac:(rewrite E2, E2'; apply pos_order; lra)). lra.
Qed.
Lemma row_of img (k : nat) row : densities img -> np_get img (Z.of_nat k) = Ok row -> row = nth k img [] /\ Forall (fun x => 0 <= x) row.
Proof.
  intros Hd E. apply (np_get_nat _ img k _ []) in E. destruct E as (L & ->). split; [auto|]. unfold densities in Hd. rewrite Forall_forall in Hd. apply Hd. apply nth_In. auto.
Qed.
Lemma rsum_nonneg l : Forall (fun x => 0 <= x) l -> 0 <= rsum l.
Proof. induction 1; simpl; lra. Qed.
Lemma sums_nonneg img : densities img -> Forall (fun x => 0 <= x) (map rsum img).
Proof. intros H. unfold densities in H. induction H; simpl; constructor; auto. apply rsum_nonneg. auto. Qed.
Lemma columns_range img hs n c : densities img -> (forall k, (k < n)%nat -> col_spec interp img dE hs k (c k)) -> 0 <= acc c n <= rsum (map rsum img).
Proof.
  intros Hd H. assert (K : forall k, (k < n)%nat -> 0 <= c k <= nth k (map rsum img) 0).
  { intros k Hk. destruct (H k Hk) as [(_ & ->)|(_ & row & top & bot & E1 & E2)].
    - assert (S := sums_nonneg img Hd). destruct (nth_in_or_default k (map rsum img) 0) as [Q|Q]; [|lra]. rewrite Forall_forall in S. specialize (S _ Q). lra.
    - destruct (row_of _ _ _ Hd E1) as (Er & P). apply column_range in E2; auto. change 0 with (rsum []) at 2. rewrite map_nth. rewrite <- Er. auto. }
  split.
  - replace 0 with (acc (fun _ => 0) n) by (clear; induction n; simpl; lra). apply acc_le. intros k Hk. apply K. auto.
  - eapply Rle_trans; [|apply (rsum_first (map rsum img) n (sums_nonneg img Hd))]. rewrite <- acc_seq. apply acc_le. intros k Hk. apply K. auto.
Qed.
Lemma columns_grow img hs1 hs2 n c1 c2 : densities img -> (forall k, nth k hs1 0 <= nth k hs2 0) -> (forall k, 0 <= nth k hs1 0) ->
  (forall k, (k < n)%nat -> col_spec interp img dE hs1 k (c1 k)) -> (forall k, (k < n)%nat -> col_spec interp img dE hs2 k (c2 k)) -> acc c1 n <= acc c2 n.
Proof.
  intros Hd Hh Hz H1 H2. apply acc_le. intros k Hk. specialize (Hh k). specialize (Hz k).
  destruct (H1 k Hk) as [(A & ->)|(A & row & top & bot & E1 & E2)].
  - destruct (H2 k Hk) as [(_ & ->)|(_ & row & top & bot & E1 & E2)]; [lra|]. destruct (row_of _ _ _ Hd E1) as (Er & P). apply column_range in E2; auto. lra.
  - destruct (H2 k Hk) as [(B & _)|(_ & row' & top' & bot' & E1' & E2')]; [lra|]. destruct (row_of _ _ _ Hd E1) as (Er & P). destruct (row_of _ _ _ Hd E1') as (Er' & P').
    subst row'. rewrite <- Er in E2'. exact (column_grows row _ _ _ _ _ _ _ _ P Hh E2 E2').
Qed.
End Fraction.

(** C87.  The density inside a contour is a fraction of the whole, if the
    energy axis has equal steps and reaches as far up as down. *)
Lemma C87_fraction_lem : forall interp m img time_array dE step n_points idx_frame l,
  interpolates interp -> equidistant dE step -> - nth 0 dE 0 <= nth (length dE - 1) dE 0 ->
  densities img -> 0 < rsum (map rsum img) ->
  density_vs_emittance interp m img time_array dE n_points idx_frame = Ok l ->
  Forall (fun c => 0 <= cd_sum c <= 1) l.
Proof.
  intros interp m img tm dE step n idx l Hint He Hw Hd Hs E. apply density_inv in E. cbv zeta in E.
  destruct E as (p0 & en & et & om & matched & mn & l0 & _ & _ & _ & _ & _ & _ & L & L0 & HA & HB).
  apply Forall_forall. intros c Hc. apply (In_nth _ _ (CData 0 0 0 0 0)) in Hc. destruct Hc as (i & Hi & <-).
  destruct (HB i (CData 0 0 0 0 0)) as (_ & H & _). rewrite H. specialize (HA i ltac:(lia)). apply amplitude_inv in HA. destruct HA as (hs & s & _ & B & A & _).
  rewrite A by lra. apply density_loop in B. destruct B as (cs & B & C & _). assert (K := columns_range interp Hint dE step He Hw img hs (length tm) cs Hd C). rewrite B.
  split; [apply Rmult_le_pos; [lra|left; apply Rinv_0_lt_compat; auto]|]. apply Rmult_le_reg_r with (rsum (map rsum img)); auto. unfold Rdiv. rewrite Rmult_assoc, Rinv_l by lra. lra.
Qed.

(** C87.  And it grows from contour to contour, above transition without
    acceleration. *)
Lemma C87_growing_lem : forall interp m img time_array dE step n_points idx_frame energy eta0 omega l,
  interpolates interp -> stationary_above m (frame_of m idx_frame * am_dturns m) energy eta0 omega ->
  equidistant dE step -> - nth 0 dE 0 <= nth (length dE - 1) dE 0 ->
  densities img -> 0 < rsum (map rsum img) ->
  density_vs_emittance interp m img time_array dE n_points idx_frame = Ok l ->
  forall i j d, (i <= j)%nat -> (j < n_points)%nat -> cd_sum (nth i l d) <= cd_sum (nth j l d).
Proof.
  intros interp m img tm dE step n idx energy eta0 omega l Hint Hst He Hw Hd Hs E. apply density_inv in E. cbv zeta in E.
  destruct E as (p0 & en & et & om & matched & mn & l0 & E1 & E2 & E3 & E4 & Et & Em & L & L0 & HA & HB).
  rewrite (st_phi _ _ _ _ _ Hst) in E1. apply ok_inj in E1. subst p0. rewrite (st_energy _ _ _ _ _ Hst) in E2. apply ok_inj in E2. subst en.
  rewrite (st_eta _ _ _ _ _ Hst) in E3. apply ok_inj in E3. subst et.
  assert (V : 0 < am_vrf1 m) by apply Hst. apply (lowest_level _ _ V) in Em.
  intros i j d Hij Hj. destruct (HB i d) as (_ & B1 & _). destruct (HB j d) as (_ & B2 & _). rewrite B1, B2. rewrite !(nth_indep l0 d (CData 0 0 0 0 0)) by lia.
  assert (Q1 := HA i ltac:(lia)). apply amplitude_inv in Q1. destruct Q1 as (h1 & s1 & A1 & F1 & G1 & _).
  assert (Q2 := HA j Hj). apply amplitude_inv in Q2. destruct Q2 as (h2 & s2 & A2 & F2 & G2 & _). rewrite G1, G2 by lra.
  assert (O := amplitude_order mn n i j Em Hij Hj).
  destruct (C86_nested_lem interp m _ energy eta0 omega matched _ _ Hint Hst O) as (q1 & q2 & _ & _ & N1 & N2 & N3).
  rewrite N1 in A1. apply ok_inj in A1. rewrite N2 in A2. apply ok_inj in A2. rewrite A1, A2 in N3.
  apply density_loop in F1, F2. destruct F1 as (c1 & F1 & C1 & _), F2 as (c2 & F2 & C2 & _). rewrite F1, F2.
  apply Rmult_le_compat_r; [left; apply Rinv_0_lt_compat; auto|].
  apply (columns_grow interp Hint dE step He Hw img h1 h2); auto; intros k; apply N3.
Qed.

(** C87.  Every contour must cross the energy axis: where it is not zero, an
    energy lies strictly inside and the axis reaches below it.  Otherwise
    there is no result. *)
Lemma C87_refused_lem : forall interp m img time_array dE step n_points idx_frame phi_0 energy eta0 omega matched amps a hs i l,
  let turn := (frame_of m idx_frame * am_dturns m)%Z in
  interpolates interp -> equidistant dE step ->
  density_vs_emittance interp m img time_array dE n_points idx_frame = Ok l ->
  np_get (am_phi0 m) turn = Ok phi_0 -> np_get (am_e0 m) turn = Ok energy -> np_get (am_eta0 m) turn = Ok eta0 ->
  np_get (am_omega m) turn = Ok omega -> time_phases m time_array omega phi_0 = Ok matched ->
  amplitudes m phi_0 n_points = Ok amps -> In a amps -> contour interp m phi_0 energy eta0 matched a = Ok hs ->
  (i < length time_array)%nat -> nth i hs 0 <> 0 -> crosses_axis dE (nth i hs 0).
Proof.
  intros interp m img tm dE step n idx p0' en' et' om' matched' amps a hs i l turn Hint He E G1 G2 G3 G4 G5 G6 Ha G7 Hi N. apply density_inv in E. cbv zeta in E. fold turn in E.
  destruct E as (p0 & en & et & om & matched & mn & l0 & E1 & E2 & E3 & E4 & Et & Em & L & L0 & HA & HB).
  rewrite G1 in E1. apply ok_inj in E1. subst p0. rewrite G2 in E2. apply ok_inj in E2. subst en. rewrite G3 in E3. apply ok_inj in E3. subst et. rewrite G4 in E4. apply ok_inj in E4. subst om.
  rewrite G5 in Et. apply ok_inj in Et. subst matched'.
  unfold amplitudes in G6. rewrite Em in G6. apply ok_inj in G6. subst amps. apply (In_nth _ _ 0) in Ha. destruct Ha as (j & Hj & <-).
  unfold linspace in Hj. rewrite tab_length in Hj.
  assert (Q1 := HA j Hj). apply amplitude_inv in Q1. destruct Q1 as (h1 & s1 & A1 & F1 & _). rewrite G7 in A1. apply ok_inj in A1. subst h1.
  apply density_loop in F1. destruct F1 as (c1 & _ & C1 & _). destruct (C1 i Hi) as [(Z & _)|(_ & row & top & bot & _ & E2)]; [contradiction|].
  apply (column_inv interp Hint dE step He) in E2. destruct E2 as (x & b & Hab & Hb & Hx & Hh & Hin & _).
  assert (Inc := equidistant_increasing dE step He). split.
  - exists b. split; [auto|]. apply Hin; [auto|lia].
  - assert (nth 0 dE 0 <= nth x dE 0). { destruct x; [lra|]. left. apply Inc; lia. } lra.
Qed.

(** ** Clipped weights *)
Lemma leb_true a b : leb a b = true <-> a <= b.
Proof. unfold leb. destruct (Rle_dec a b); intuition discriminate. Qed.
Lemma ltb_true a b : ltb a b = true <-> a < b.
Proof. unfold ltb. destruct (Rlt_dec a b); intuition discriminate. Qed.
Lemma find_in A (f : A -> bool) l x : find f l = Some x -> In x l.
Proof. intros H. apply find_some in H. apply H. Qed.
Lemma filter_index (xs ys : list R) f i : length xs = length ys ->
  In i (map snd (filter (fun p : R * R * nat => f (fst p)) (combine (combine xs ys) (seq 0 (length (combine xs ys)))))) <->
  (i < length xs)%nat /\ f (nth i xs 0, nth i ys 0) = true.
Proof.
  intros L. assert (LC : length (combine xs ys) = length xs) by (rewrite combine_length; lia). rewrite LC.
  assert (G : forall pts k, In i (map snd (filter (fun p : R * R * nat => f (fst p)) (combine pts (seq k (length pts))))) <-> (k <= i < k + length pts)%nat /\ f (nth (i - k) pts (0, 0)) = true).
  { induction pts as [|p pts IH]; intros k; simpl. { split; [tauto|lia]. }
    destruct (f p) eqn:Ep; simpl; rewrite IH.
    - split.
      + intros [<-|(A & B)]; [split; [lia|rewrite Nat.sub_diag; auto]|]. split; [lia|]. replace (i - k)%nat with (S (i - S k)) by lia. auto.
      + intros (A & B). destruct (Nat.eq_dec k i) as [->|N]; [auto|]. right. split; [lia|]. replace (i - k)%nat with (S (i - S k)) in B by lia. auto.
    - split.
      + intros (A & B). split; [lia|]. replace (i - k)%nat with (S (i - S k)) by lia. auto.
      + intros (A & B). destruct (Nat.eq_dec k i) as [->|N]; [rewrite Nat.sub_diag in B; congruence|]. split; [lia|]. replace (i - k)%nat with (S (i - S k)) in B by lia. auto. }
  rewrite <- LC at 1. rewrite G. rewrite LC. rewrite combine_nth by auto. rewrite Nat.sub_0_r. simpl. intuition lia.
Qed.

Lemma fold_min_le l : forall x, fold_left Rmin l x <= x.
Proof. induction l as [|y l IH]; intros x; simpl; [lra|]. eapply Rle_trans; [apply IH|apply Rmin_l]. Qed.
Lemma fold_min_in l : forall x y, In y l -> fold_left Rmin l x <= y.
Proof. induction l as [|z l IH]; intros x y H; [contradiction|]. destruct H as [->|H]; simpl; [|auto]. eapply Rle_trans; [apply fold_min_le|apply Rmin_r]. Qed.
Lemma fold_max_le l : forall x, x <= fold_left Rmax l x.
Proof. induction l as [|y l IH]; intros x; simpl; [lra|]. eapply Rle_trans; [apply Rmax_l|apply IH]. Qed.
Lemma fold_max_in l : forall x y, In y l -> y <= fold_left Rmax l x.
Proof. induction l as [|z l IH]; intros x y H; [contradiction|]. destruct H as [->|H]; simpl; [|auto]. eapply Rle_trans; [apply Rmax_r|apply fold_max_le]. Qed.

Section Clip.
Variables (xs ys time_array dE heights : list R).
Definition out_slot k i : Prop := in_slot time_array k (nth i xs 0) /\ beyond dE heights k (nth i ys 0).
Definition in_cell k i : Prop := in_slot time_array k (nth i xs 0) /\ within dE heights k (nth i ys 0).
Lemma clip_slot_inv k w mm w' mm' : clip_slot xs ys time_array dE heights k (w, mm) = Ok (w', mm') ->
  length xs = length w /\ length ys = length w /\ length w' = length w /\
  (forall i, (i < length w)%nat -> (out_slot k i -> nth i w' 0 = 0) /\ (~ out_slot k i -> nth i w' 0 = nth i w 0)) /\
  (mm' = mm /\ (forall i, (i < length w)%nat -> ~ in_cell k i) \/
   exists a b, mm' = mm ++ [a; b] /\ (a < length w)%nat /\ (b < length w)%nat /\ in_cell k a /\ in_cell k b /\
     (forall i, (i < length w)%nat -> in_cell k i -> nth a ys 0 <= nth i ys 0 <= nth b ys 0) /\
     (forall i, (i < length w)%nat -> in_cell k i -> exists j, (j < length w)%nat /\ j <> i /\ in_cell k j)).
Proof.
  unfold clip_slot. cbv zeta. intros E. binv E t0 E1. binv E t1 E2. binv E e0 E3. binv E e1 E4. binv E tk E5. binv E tn E6. binv E h E7.
  apply (np_get_nat _ time_array 0 _ 0) in E1. apply (np_get_nat _ time_array 1 _ 0) in E2. apply (np_get_nat _ dE 0 _ 0) in E3. apply (np_get_nat _ dE 1 _ 0) in E4.
  apply (np_get_nat _ time_array k _ 0) in E5. replace (Z.of_nat k + 1)%Z with (Z.of_nat (S k)) in E6 by lia. apply (np_get_nat _ time_array (S k) _ 0) in E6. apply (np_get_nat _ heights k _ 0) in E7.
  destruct E1 as (_ & E1), E2 as (_ & E2), E3 as (_ & E3), E4 as (_ & E4), E5 as (_ & E5), E6 as (_ & E6), E7 as (_ & E7).
  binv E lo E8. binv E hi E9. binv E top E10. binv E bot E11.
  assert (D : forall a b c, rdiv a b = Ok c -> c = a / b). { clear. intros a b c H. unfold rdiv in H. destruct (Req_EM_T b 0); [discriminate|]. apply ok_inj in H. auto. }
  apply D in E8, E9, E10, E11. 
  assert (Lo : lo = bins_of time_array (nth k time_array 0)) by (subst; reflexivity). assert (Hi : hi = bins_of time_array (nth (S k) time_array 0)) by (subst; reflexivity).
  assert (To : top = bins_of dE (nth k heights 0)) by (subst; reflexivity). assert (Bo : bot = bins_of dE (- nth k heights 0)) by (subst; reflexivity).
  clear E1 E2 E3 E4 E5 E6 E7 E8 E9 E10 E11 D t0 t1 e0 e1 tk tn h.
  destruct (Nat.eqb_spec (length xs) (length ys)) as [L|L]; [|discriminate]. simpl negb in E. cbv iota in E.
  assert (LC : length (combine xs ys) = length xs) by (rewrite combine_length; lia).
  destruct (Nat.eqb_spec (length (combine xs ys)) (length w)) as [L'|L']; [|discriminate]. simpl negb in E. cbv iota in E. rewrite LC in L'.
  set (outside := fun p : R * R => leb lo (fst p) && leb (fst p) hi && (leb top (snd p) || leb (snd p) bot)) in E.
  set (inside := fun p : R * R => leb lo (fst p) && leb (fst p) hi && (ltb (snd p) top && ltb bot (snd p))) in E.
  assert (HO : forall i, outside (nth i xs 0, nth i ys 0) = true <-> out_slot k i).
  { intros i. unfold outside, out_slot, in_slot, beyond. cbn [fst snd]. rewrite !andb_true_iff, orb_true_iff, !leb_true, Lo, Hi, To, Bo. tauto. }
  assert (HI : forall i, inside (nth i xs 0, nth i ys 0) = true <-> in_cell k i).
  { intros i. unfold inside, in_cell, in_slot, within. cbn [fst snd]. rewrite !andb_true_iff, !leb_true, !ltb_true, Lo, Hi, To, Bo. tauto. }
  set (nw := map (fun pw : R * R * R => if outside (fst pw) then 0 else snd pw) (combine (combine xs ys) w)) in E.
  assert (LN : length nw = length w) by (unfold nw; rewrite map_length, combine_length; lia).
  assert (HN : forall i, (i < length w)%nat -> nth i nw 0 = if outside (nth i xs 0, nth i ys 0) then 0 else nth i w 0).
  { intros i Hi'. clearbody outside. pose (fw := fun pw : R * R * R => if outside (fst pw) then 0 else snd pw). change nw with (map fw (combine (combine xs ys) w)) in *.
    rewrite (nth_indep _ 0 (fw ((0, 0), 0))) by lia. rewrite map_nth. unfold fw. rewrite combine_nth by lia. cbn [fst snd]. rewrite combine_nth by auto. reflexivity. }
  set (idx := map snd (filter (fun pi : R * R * nat => inside (fst pi)) (combine (combine xs ys) (seq 0 (length (combine xs ys)))))) in E.
  assert (HX : forall i, In i idx <-> (i < length w)%nat /\ in_cell k i). { intros i. unfold idx. rewrite filter_index by auto. rewrite HI, L'. tauto. }
  assert (ND : NoDup idx).
  { unfold idx. rewrite LC. clear. generalize (combine xs ys) as pts. intros pts. generalize (length xs) as n. intros n. generalize 0%nat as k. revert n.
    assert (G : forall (pts : list (R * R)) n k, Forall (fun i => (k <= i)%nat) (map snd (filter (fun pi : R * R * nat => inside (fst pi)) (combine pts (seq k n))))).
    { induction pts0 as [|p pts0 IH]; intros n k; simpl; [constructor|]. destruct n; simpl; [constructor|]. assert (X : Forall (fun i => (k <= i)%nat) (map snd (filter (fun pi : R * R * nat => inside (fst pi)) (combine pts0 (seq (S k) n))))).
      { eapply Forall_impl; [|apply IH]. simpl. intros. lia. } destruct (inside p); simpl; auto. }
    induction pts as [|p pts IH]; intros n k; simpl; [constructor|]. destruct n; simpl; [constructor|]. destruct (inside p); simpl; [|apply IH]. constructor; [|apply IH].
    intros X. assert (Y := G pts n (S k)). rewrite Forall_forall in Y. apply Y in X. lia. }
  assert (W : w' = nw /\ (mm' = mm /\ idx = [] \/ exists a b, mm' = mm ++ [a; b] /\ In a idx /\ In b idx /\ (2 <= length idx)%nat /\ forall i, In i idx -> nth a ys 0 <= nth i ys 0 <= nth b ys 0)).
  { assert (E' : match idx with
                 | [] => Ok (nw, mm)
                 | [_] => Fail (Raised AttributeError)
                 | _ => vals <- mapM (fun i => np_get ys (Z.of_nat i)) idx ;; mx <- rmax_list vals ;; mn <- rmin_list vals ;;
                     match find (fun i => eqb (nth i ys 0) mn) idx, find (fun i => eqb (nth i ys 0) mx) idx with
                     | Some a, Some b => Ok (nw, mm ++ [a; b]) | _, _ => Fail (Raised IndexError) end
                 end = Ok (w', mm')) by exact E.
    clear - E'. rename E' into E. clearbody idx nw. destruct idx as [|i0 [|i1 rest]]; [| discriminate |].
    - apply ok_inj in E. injection E as <- <-. auto.
    - remember (i0 :: i1 :: rest) as ll eqn:Ell. binv E vals E1. binv E mx E2. binv E mn E3.
      destruct (find (fun i => eqb (nth i ys 0) mn) ll) as [a|] eqn:Fa; [|discriminate]. destruct (find (fun i => eqb (nth i ys 0) mx) ll) as [b|] eqn:Fb; [|discriminate].
      apply ok_inj in E. injection E as <- <-. split; [auto|]. right. exists a, b. split; [auto|]. split; [eapply find_in; eauto|]. split; [eapply find_in; eauto|]. split; [rewrite Ell; simpl; lia|].
      apply find_some in Fa, Fb. destruct Fa as (_ & Fa), Fb as (_ & Fb). unfold eqb in Fa, Fb. destruct (Req_EM_T (nth a ys 0) mn) as [Na|]; [|discriminate]. destruct (Req_EM_T (nth b ys 0) mx) as [Nb|]; [|discriminate].
      rewrite Na, Nb. intros i Hi. assert (Iv : In (nth i ys 0) vals).
      { apply mapM_ok_inv in E1. clear - E1 Hi. induction E1; [contradiction|]. destruct Hi as [->|Hi]; [|right; auto]. left. apply (np_get_nat _ ys _ _ 0) in H. destruct H as (_ & ->). reflexivity. }
      clear - E2 E3 Iv. destruct vals as [|v vals]; [contradiction|]. apply ok_inj in E2, E3. subst mx mn. clear - Iv. split.
      + destruct Iv as [<-|Iv]; [apply fold_min_le|apply fold_min_in; auto].
      + destruct Iv as [<-|Iv]; [apply fold_max_le|apply fold_max_in; auto]. }
  destruct W as (-> & W). split; [auto|]. split; [lia|]. split; [auto|]. split.
  - intros i Hi'. rewrite HN by auto. destruct (outside (nth i xs 0, nth i ys 0)) eqn:Eo.
    + split; [auto|]. intros N. apply HO in Eo. tauto.
    + split; [|auto]. intros N. apply HO in N. congruence.
  - destruct W as [(-> & W)|(a & b & -> & Wa & Wb & W & Wx)].
    + left. split; [auto|]. intros i Hi' Hc. assert (X : In i idx) by (apply HX; auto). rewrite W in X. contradiction.
    + right. exists a, b. apply HX in Wa, Wb. split; [auto|]. split; [apply Wa|]. split; [apply Wb|]. split; [apply Wa|]. split; [apply Wb|]. split. { intros i Hi' Hc. apply Wx. apply HX. auto. } intros i Hi' Hc.
      assert (X : In i idx) by (apply HX; auto). destruct idx as [|i0 [|i1 rest]]; simpl in W; try lia.
      destruct (Nat.eq_dec i i0) as [->|N].
      * exists i1. assert (Y : In i1 (i0 :: i1 :: rest)) by (simpl; auto). apply HX in Y. split; [apply Y|]. split; [|apply Y]. inversion ND as [|? ? N1 N2]. intros ->. apply N1. simpl. auto.
      * exists i0. assert (Y : In i0 (i0 :: i1 :: rest)) by (simpl; auto). apply HX in Y. split; [apply Y|]. split; [auto|apply Y].
Qed.
Lemma clip_loop weights n w mm : for_ 0 n (clip_slot xs ys time_array dE heights) (weights, []) = Ok (w, mm) -> (0 < n)%nat ->
  length xs = length weights /\ length ys = length weights /\ length w = length weights /\
  (forall i, (i < length weights)%nat -> ((exists k, (k < n)%nat /\ out_slot k i) -> nth i w 0 = 0) /\ ((forall k, (k < n)%nat -> ~ out_slot k i) -> nth i w 0 = nth i weights 0)) /\
  Forall (fun i => (i < length weights)%nat /\ exists k, (k < n)%nat /\ in_cell k i) mm /\
  (forall k i, (k < n)%nat -> (i < length weights)%nat -> in_cell k i -> exists j, (j < length weights)%nat /\ j <> i /\ in_cell k j) /\
  (forall k, (k < n)%nat -> (exists i, (i < length weights)%nat /\ in_cell k i) -> exists a b, In a mm /\ In b mm /\ in_cell k a /\ in_cell k b /\
     forall i, (i < length weights)%nat -> in_cell k i -> nth a ys 0 <= nth i ys 0 <= nth b ys 0).
Proof.
  intros E Hn. pose (P := fun n (s : list R * list nat) => let '(w, mm) := s in
    ((0 < n)%nat -> length xs = length weights /\ length ys = length weights) /\ length w = length weights /\
    (forall i, (i < length weights)%nat -> ((exists k, (k < n)%nat /\ out_slot k i) -> nth i w 0 = 0) /\ ((forall k, (k < n)%nat -> ~ out_slot k i) -> nth i w 0 = nth i weights 0)) /\
    Forall (fun i => (i < length weights)%nat /\ exists k, (k < n)%nat /\ in_cell k i) mm /\
    (forall k i, (k < n)%nat -> (i < length weights)%nat -> in_cell k i -> exists j, (j < length weights)%nat /\ j <> i /\ in_cell k j) /\
    (forall k, (k < n)%nat -> (exists i, (i < length weights)%nat /\ in_cell k i) -> exists a b, In a mm /\ In b mm /\ in_cell k a /\ in_cell k b /\
       forall i, (i < length weights)%nat -> in_cell k i -> nth a ys 0 <= nth i ys 0 <= nth b ys 0)).
  assert (K : P (0 + n)%nat (w, mm)).
  { refine (for_ok_ind _ P _ n 0%nat _ _ E _ _).
    - simpl. repeat split; try lia; auto; try (intros; lia). intros (k & Hk & _). lia.
    - clear E w mm. intros k [w mm] [w' mm'] Hk (A & B & C & D & F & G') E. apply clip_slot_inv in E. destruct E as (L1 & L2 & L3 & E1 & E2). rewrite B in *.
      split; [auto|]. split; [auto|]. split; [|split; [|split]].
      + intros i Hi. destruct (E1 i Hi) as (X & Y). destruct (C i Hi) as (C1 & C2).
        assert (Dec : out_slot k i \/ ~ out_slot k i). { unfold out_slot, in_slot, beyond. 
          destruct (Rle_dec (bins_of time_array (nth k time_array 0)) (nth i xs 0)), (Rle_dec (nth i xs 0) (bins_of time_array (nth (S k) time_array 0))),
            (Rle_dec (bins_of dE (nth k heights 0)) (nth i ys 0)), (Rle_dec (nth i ys 0) (bins_of dE (- nth k heights 0))); tauto. }
        split.
        * intros (j & Hj & O). destruct Dec as [Q|Q]; [auto|]. rewrite Y by auto. apply C1. exists j. split; [|auto]. destruct (Nat.eq_dec j k) as [->|]; [contradiction|lia].
        * intros H. rewrite Y by (apply H; lia). apply C2. intros j Hj. apply H. lia.
      + assert (D' : Forall (fun i => (i < length weights)%nat /\ exists k0, (k0 < S k)%nat /\ in_cell k0 i) mm).
        { eapply Forall_impl; [|exact D]. simpl. intros i (H1 & k0 & H2 & H3). split; [auto|]. exists k0. split; [lia|auto]. }
        destruct E2 as [(-> & _)|(a & b & -> & Ha & Hb & Ca & Cb & _ & _)]; [auto|]. apply Forall_app. split; [auto|]. repeat constructor; auto; exists k; split; auto.
      + intros j i Hj Hi Hc. destruct (Nat.eq_dec j k) as [->|]; [|apply (F j i); auto; lia]. destruct E2 as [(_ & N)|(a & b & _ & _ & _ & _ & _ & _ & G)]; [exfalso; apply (N i); auto|auto].
      + intros j Hj X. destruct (Nat.eq_dec j k) as [->|].
        * destruct X as (i & Hi & Hc). destruct E2 as [(_ & N)|(a & b & -> & _ & _ & Ca & Cb & G & _)]; [exfalso; apply (N i); auto|].
          exists a, b. split; [apply in_or_app; right; simpl; auto|]. split; [apply in_or_app; right; simpl; auto|]. auto.
        * destruct (G' j ltac:(lia) X) as (a & b & I1 & I2 & R). exists a, b. assert (Q : forall x, In x mm -> In x mm') by (destruct E2 as [(-> & _)|(u & v & -> & _)]; intros; [auto|apply in_or_app; auto]). auto. }
  simpl in K. destruct K as (A & B). destruct (A Hn). tauto.
Qed.
End Clip.

Lemma clip_inv interp m tm dE map_x map_y weights target n idx_frame w hs idx :
  tomo_weight_clipping interp m tm dE map_x map_y weights target n idx_frame = Ok (w, hs, idx) ->
  let frame := frame_of m idx_frame in let turn := (frame * am_dturns m)%Z in
  exists p0 en et om matched amps xs ys w0, np_get (am_phi0 m) turn = Ok p0 /\ np_get (am_e0 m) turn = Ok en /\ np_get (am_eta0 m) turn = Ok et /\
    np_get (am_omega m) turn = Ok om /\ time_phases m tm om p0 = Ok matched /\ amplitudes m p0 n = Ok amps /\
    search_contour interp m p0 en et om matched target amps = Ok hs /\ (2 <= length tm)%nat /\
    length xs = length map_x /\ (forall i, (i < length xs)%nat -> np_get (nth i map_x []) frame = Ok (nth i xs 0)) /\
    length ys = length map_y /\ (forall i, (i < length ys)%nat -> np_get (nth i map_y []) frame = Ok (nth i ys 0)) /\
    for_ 0 (length tm - 1) (clip_slot xs ys tm dE hs) (weights, []) = Ok (w0, idx) /\
    length w = length w0 /\ (forall i, (i < length w)%nat -> rsum w0 <> 0 /\ nth i w 0 = nth i w0 0 / rsum w0 * rsum weights) /\
    (rsum w0 <> 0 -> w = map (fun x => x / rsum w0 * rsum weights) w0).
Proof.
  intros E frame turn. unfold tomo_weight_clipping in E. cbv zeta in E. fold frame in E. fold turn in E.
  binv E p0 E1. binv E en E2. binv E et E3. binv E om E4. binv E matched E5. binv E amps E6. binv E hs' E7. binv E xs E8. binv E ys E9. binv E r1 E10. destruct r1 as [w0 mm].
  binv E w' E11. apply ok_inj in E. injection E as <- <- <-.
  destruct (mapM_nth _ _ _ _ _ [] 0 E8) as (X1 & X2). destruct (mapM_nth _ _ _ _ _ [] 0 E9) as (Y1 & Y2). destruct (mapM_nth _ _ _ _ _ 0 0 E11) as (W1 & W2).
  exists p0, en, et, om, matched, amps, xs, ys, w0. rewrite X1, Y1. repeat split; auto.
  - unfold time_phases in E5. binv E5 t0 G0. binv E5 t1 G1. apply (np_get_nat _ tm 1 _ 0) in G1. lia.
  - intros Z. specialize (W2 i ltac:(lia)). rewrite Z in W2. unfold rdiv in W2. destruct (Req_EM_T 0 0); [discriminate|tauto].
  - specialize (W2 i ltac:(lia)). binv W2 q G. apply ok_inj in W2. rewrite <- W2. unfold rdiv in G. destruct (Req_EM_T (rsum w0) 0); [discriminate|]. apply ok_inj in G. subst q. reflexivity.
  - intros N. assert (G := mapM_ok_map _ _ (fun x => q <- rdiv x (rsum w0) ;; Ok (q * rsum weights)) (fun x => x / rsum w0 * rsum weights) w0).
    rewrite E11 in G. assert (H : Ok w' = Ok (map (fun x => x / rsum w0 * rsum weights) w0)). { apply G. intros x _. rewrite rdiv_ok by auto. reflexivity. } apply ok_inj in H. auto.
Qed.

Lemma rsum_scaled c l : rsum (map (fun x => x * c) l) = rsum l * c.
Proof. induction l as [|x l IH]; simpl; [lra|]. rewrite IH. ring. Qed.
Lemma rsum_nth_le : forall l1 l2, length l1 = length l2 -> (forall i, (i < length l1)%nat -> nth i l1 0 <= nth i l2 0) -> rsum l1 <= rsum l2.
Proof.
  induction l1 as [|x l1 IH]; intros [|y l2] L H; try discriminate; simpl; [lra|]. assert (A := H 0%nat ltac:(simpl; lia)). simpl in A.
  assert (B : rsum l1 <= rsum l2) by (apply IH; [simpl in L; lia|]; intros i Hi; apply (H (S i)); simpl; lia). lra.
Qed.
Lemma rsum_zero l : (forall i, (i < length l)%nat -> nth i l 0 = 0) -> rsum l = 0.
Proof.
  induction l as [|x l IH]; intros H; simpl; [auto|]. assert (A := H 0%nat ltac:(simpl; lia)). simpl in A. rewrite A, IH; [lra|]. intros i Hi. apply (H (S i)). simpl. lia.
Qed.

(** C88.  Clipping keeps the sum of the weights: the particles outside of the
    contour in one of the slots of time they belong to get weight 0, the
    others are multiplied by one factor, at least 1. *)
Lemma C88_clip_lem : forall interp m time_array dE map_x map_y weights target n_points idx_frame w hs idx,
  tomo_weight_clipping interp m time_array dE map_x map_y weights target n_points idx_frame = Ok (w, hs, idx) ->
  length w = length weights /\ rsum w = rsum weights /\
  exists c, (Forall (fun x => 0 <= x) weights -> 0 < rsum weights -> 1 <= c) /\
    forall i x y, (i < length weights)%nat ->
      np_get (nth i map_x []) (frame_of m idx_frame) = Ok x -> np_get (nth i map_y []) (frame_of m idx_frame) = Ok y ->
      (clipped time_array dE hs x y -> nth i w 0 = 0) /\ (~ clipped time_array dE hs x y -> nth i w 0 = c * nth i weights 0).
Proof.
  intros interp m tm dE map_x map_y weights target n idx_frame w hs idx E. apply clip_inv in E. cbv zeta in E.
  destruct E as (p0 & en & et & om & matched & amps & xs & ys & w0 & _ & _ & _ & _ & _ & _ & _ & L2 & X1 & X2 & Y1 & Y2 & E & W1 & W2 & W3).
  apply clip_loop in E; [|lia]. destruct E as (A1 & A2 & A3 & A4 & _). split; [lia|].
  destruct (Nat.eq_dec (length weights) 0) as [Z|Z].
  { destruct weights; [|discriminate]. destruct w; [|simpl in *; lia]. split; [reflexivity|]. exists 1. split; [lra|]. intros i x y Hi. simpl in Hi. lia. }
  destruct (W2 0%nat ltac:(lia)) as (N & _). split.
  { rewrite W3 by auto. rewrite (map_ext _ (fun x => x * (rsum weights / rsum w0))) by (intros; field; auto). rewrite rsum_scaled. field. auto. }
  exists (rsum weights / rsum w0). split.
  - intros Hp Hs. assert (Le : rsum w0 <= rsum weights).
    { apply rsum_nth_le; [auto|]. intros i Hi. rewrite A3 in Hi. destruct (A4 i Hi) as (B1 & B2). rewrite Forall_forall in Hp. assert (P := Hp (nth i weights 0) ltac:(apply nth_In; auto)).
      destruct (Rtotal_order (nth i w0 0) (nth i weights 0)) as [Q|[Q|Q]]; try lra. exfalso.
      assert (D : ~ (forall k, (k < length tm - 1)%nat -> ~ out_slot xs ys tm dE hs k i)) by (intros F; rewrite B2 in Q by auto; lra).
      apply D. intros k Hk O. rewrite B1 in Q by (exists k; auto). lra. }
    assert (P0 : 0 <= rsum w0).
    { apply Rle_trans with (rsum (tab (length w0) (fun _ => 0))). { rewrite rsum_zero; [lra|]. intros i Hi. rewrite tab_length in Hi. rewrite nth_tab; auto. }
      apply rsum_nth_le; [apply tab_length|]. intros i Hi. rewrite tab_length in Hi. rewrite nth_tab by auto. rewrite A3 in Hi. destruct (A4 i Hi) as (B1 & B2). rewrite Forall_forall in Hp. assert (P := Hp (nth i weights 0) ltac:(apply nth_In; auto)).
      destruct (Rle_dec 0 (nth i w0 0)) as [Q|Q]; [auto|]. exfalso. assert (D : ~ (forall k, (k < length tm - 1)%nat -> ~ out_slot xs ys tm dE hs k i)) by (intros F; rewrite B2 in Q by auto; lra).
      apply D. intros k Hk O. rewrite B1 in Q by (exists k; auto). lra. }
    apply Rmult_le_reg_r with (rsum w0); [lra|]. replace (rsum weights / rsum w0 * rsum w0) with (rsum weights) by (field; auto). lra.
  - intros i x y Hi Hx Hy. rewrite X2 in Hx by lia. apply ok_inj in Hx. rewrite Y2 in Hy by lia. apply ok_inj in Hy. subst x y.
    destruct (W2 i ltac:(lia)) as (_ & ->). destruct (A4 i Hi) as (B1 & B2). split.
    + intros (k & Hk & O1 & O2). rewrite B1; [unfold Rdiv; ring|]. exists k. split; [lia|split; auto].
    + intros H. rewrite B2; [field; auto|]. intros k Hk (O1 & O2). apply H. exists k. split; [lia|auto].
Qed.

(** C88.  The contour is the first one with the wanted emittance, or the last
    one. *)
Lemma C88_contour_lem : forall interp m time_array dE map_x map_y weights target n_points idx_frame w hs idx phi_0 energy eta0 omega matched amps,
  let turn := (frame_of m idx_frame * am_dturns m)%Z in
  tomo_weight_clipping interp m time_array dE map_x map_y weights target n_points idx_frame = Ok (w, hs, idx) ->
  np_get (am_phi0 m) turn = Ok phi_0 -> np_get (am_e0 m) turn = Ok energy -> np_get (am_eta0 m) turn = Ok eta0 ->
  np_get (am_omega m) turn = Ok omega -> time_phases m time_array omega phi_0 = Ok matched -> amplitudes m phi_0 n_points = Ok amps ->
  exists before a after em, amps = before ++ a :: after /\
    contour interp m phi_0 energy eta0 matched a = Ok hs /\ contour_emittance m omega matched hs = Ok em /\
    (target <= em \/ after = []) /\
    forall b, In b before -> exists hb eb, contour interp m phi_0 energy eta0 matched b = Ok hb /\ contour_emittance m omega matched hb = Ok eb /\ eb < target.
Proof.
  intros interp m tm dE map_x map_y weights target n idx_frame w hs idx p0' en' et' om' matched' amps' turn E G1 G2 G3 G4 G5 G6. apply clip_inv in E. cbv zeta in E. fold turn in E.
  destruct E as (p0 & en & et & om & matched & amps & xs & ys & w0 & E1 & E2 & E3 & E4 & E5 & E6 & E & _).
  rewrite G1 in E1. apply ok_inj in E1. subst p0. rewrite G2 in E2. apply ok_inj in E2. subst en. rewrite G3 in E3. apply ok_inj in E3. subst et. rewrite G4 in E4. apply ok_inj in E4. subst om.
  rewrite G5 in E5. apply ok_inj in E5. subst matched'. rewrite G6 in E6. apply ok_inj in E6. subst amps'. clear - E.
  revert E. induction amps as [|a rest IH]; [discriminate|]. intros E. simpl in E. binv E h E1. binv E em E2. unfold leb in E. destruct (Rle_dec target em) as [L|L].
  - apply ok_inj in E. subst h. exists [], a, rest, em. repeat split; auto. intros b [].
  - destruct rest as [|b rest].
    + apply ok_inj in E. subst h. exists [], a, [], em. repeat split; auto. intros b [].
    + destruct (IH E) as (before & c & after & e & H1 & H2 & H3 & H4 & H5). exists (a :: before), c, after, e. rewrite H1. repeat split; auto.
      intros x [<-|Hx]; [|auto]. exists h, em. repeat split; auto. lra.
Qed.

(** C88.  The particles returned to mark the contour belong to a slot of time
    and lie strictly inside.  There is a result only if no slot has exactly one
    particle inside. *)
Lemma C88_marked_lem : forall interp m time_array dE map_x map_y weights target n_points idx_frame w hs idx,
  let x_of i := np_get (nth i map_x []) (frame_of m idx_frame) in
  let y_of i := np_get (nth i map_y []) (frame_of m idx_frame) in
  tomo_weight_clipping interp m time_array dE map_x map_y weights target n_points idx_frame = Ok (w, hs, idx) ->
  Forall (fun i => (i < length weights)%nat /\ exists k x y, (S k < length time_array)%nat /\ x_of i = Ok x /\ y_of i = Ok y /\
            in_slot time_array k x /\ within dE hs k y) idx /\
  forall k i x y, (S k < length time_array)%nat -> (i < length weights)%nat -> x_of i = Ok x -> y_of i = Ok y ->
    in_slot time_array k x -> within dE hs k y ->
    exists j x' y', (j < length weights)%nat /\ j <> i /\ x_of j = Ok x' /\ y_of j = Ok y' /\ in_slot time_array k x' /\ within dE hs k y'.
Proof.
  intros interp m tm dE map_x map_y weights target n idx_frame w hs idx x_of y_of E. apply clip_inv in E. cbv zeta in E.
  destruct E as (p0 & en & et & om & matched & amps & xs & ys & w0 & _ & _ & _ & _ & _ & _ & _ & L2 & X1 & X2 & Y1 & Y2 & E & W1 & W2 & W3).
  apply clip_loop in E; [|lia]. destruct E as (A1 & A2 & A3 & _ & A5 & A6 & _). split.
  - eapply Forall_impl; [|exact A5]. simpl. intros i (Hi & k & Hk & H1 & H2). split; [auto|]. exists k, (nth i xs 0), (nth i ys 0). repeat split; try apply H1; try apply H2; try lia; [apply X2; lia|apply Y2; lia].
  - intros k i x y Hk Hi Hx Hy H1 H2. unfold x_of in Hx. unfold y_of in Hy. rewrite X2 in Hx by lia. apply ok_inj in Hx. rewrite Y2 in Hy by lia. apply ok_inj in Hy. subst x y.
    destruct (A6 k i) as (j & Hj & Nj & J1 & J2); [lia|auto|split; auto|]. exists j, (nth j xs 0), (nth j ys 0). repeat split; auto; try apply J1; try apply J2; [apply X2; lia|apply Y2; lia].
Qed.

(** C88.  A particle later than the last time, or earlier than the first, is
    not clipped whatever its energy. *)
Lemma C88_late_lem : forall interp m time_array dE map_x map_y weights target n_points idx_frame w hs idx,
  tomo_weight_clipping interp m time_array dE map_x map_y weights target n_points idx_frame = Ok (w, hs, idx) ->
  exists c, (Forall (fun x => 0 <= x) weights -> 0 < rsum weights -> 1 <= c) /\
    forall i x y, (i < length weights)%nat ->
      np_get (nth i map_x []) (frame_of m idx_frame) = Ok x -> np_get (nth i map_y []) (frame_of m idx_frame) = Ok y ->
      (forall t, In t time_array -> bins_of time_array t < x) \/ (forall t, In t time_array -> x < bins_of time_array t) ->
      nth i w 0 = c * nth i weights 0.
Proof.
  intros interp m tm dE map_x map_y weights target n idx_frame w hs idx E. destruct (C88_clip_lem _ _ _ _ _ _ _ _ _ _ _ _ _ E) as (_ & _ & c & Hc & H).
  exists c. split; [auto|]. intros i x y Hi Hx Hy Ht. apply (H i x y Hi Hx Hy). intros (k & Hk & (S1 & S2) & _). destruct Ht as [Ht|Ht].
  - assert (K := Ht (nth (S k) tm 0) ltac:(apply nth_In; lia)). lra.
  - assert (K := Ht (nth k tm 0) ltac:(apply nth_In; lia)). lra.
Qed.

(** C88.  If every particle is clipped there is no result. *)
Lemma C88_refused_lem : forall interp m time_array dE map_x map_y weights target n_points idx_frame w hs idx,
  tomo_weight_clipping interp m time_array dE map_x map_y weights target n_points idx_frame = Ok (w, hs, idx) -> weights <> [] ->
  exists i x y, (i < length weights)%nat /\ np_get (nth i map_x []) (frame_of m idx_frame) = Ok x /\
    np_get (nth i map_y []) (frame_of m idx_frame) = Ok y /\ ~ clipped time_array dE hs x y.
Proof.
  intros interp m tm dE map_x map_y weights target n idx_frame w hs idx E Nw. apply clip_inv in E. cbv zeta in E.
  destruct E as (p0 & en & et & om & matched & amps & xs & ys & w0 & _ & _ & _ & _ & _ & _ & _ & L2 & X1 & X2 & Y1 & Y2 & E & W1 & W2 & W3).
  apply clip_loop in E; [|lia]. destruct E as (A1 & A2 & A3 & A4 & _).
  assert (Lw : (0 < length weights)%nat) by (destruct weights; [tauto|simpl; lia]). destruct (W2 0%nat ltac:(lia)) as (N & _).
  assert (Q : exists i, (i < length weights)%nat /\ nth i w0 0 <> 0).
  { destruct (some_or_none (length weights) (fun i => negb (eqb (nth i w0 0) 0))) as [(i & Hi & F)|F].
    - exists i. split; [auto|]. intros Z. rewrite Z in F. unfold eqb in F. destruct (Req_EM_T 0 0); [discriminate|tauto].
    - exfalso. apply N. apply rsum_zero. intros i Hi. rewrite A3 in Hi. specialize (F i Hi). unfold eqb in F. destruct (Req_EM_T (nth i w0 0) 0); [auto|discriminate]. }
  destruct Q as (i & Hi & Q). exists i, (nth i xs 0), (nth i ys 0). split; [auto|]. split; [apply X2; lia|]. split; [apply Y2; lia|].
  intros (k & Hk & O1 & O2). apply Q. apply (A4 i Hi). exists k. split; [lia|split; auto].
Qed.

(** ** Runs on a small image *)
Section Small.
Variable interp : R -> list R -> list R -> R.
Hypothesis Hint : interpolates interp.
Let K : R := stiff mach 2 (-1).
Definition top_height : R := sqrt (stiff mach 2 (-1) * 2).
Let H : R := top_height.
Definition low_height : R := sqrt (stiff mach 2 (-1) * (cos (PI - PI / 999) + 1)).
Let h1 : R := low_height.
Lemma K_pos : 0 < K.
Proof. destruct mach_above as [_ _ _ _ Ha Hm Hp]. apply (stiff_pos mach 2 (-1) PI Ha Hm Hp). Qed.
Lemma H_pos : 0 < H.
Proof. apply sqrt_lt_R0. assert (P := K_pos). unfold K in P. lra. Qed.
Lemma h1_range : 0 < h1 < H.
Proof.
  assert (P := PI_RGT_0). assert (Q := K_pos). unfold K in Q.
  assert (A : -1 < cos (PI - PI / 999)). { rewrite <- cos_PI. apply cos_decreasing_1; lra. }
  assert (B : cos (PI - PI / 999) < 1). { rewrite <- cos_0 at 1. apply cos_decreasing_1; lra. }
  split; [apply sqrt_lt_R0; apply Rmult_lt_0_compat; lra|]. apply sqrt_lt_1_alt. split; [apply Rmult_le_pos; lra|]. apply Rmult_lt_compat_l; lra.
Qed.
Lemma small_phases : time_phases mach [0; 1] PI PI = Ok [PI; 2 * PI].
Proof. unfold time_phases. change (np_get [0; 1] 0) with (Ok 0). change (np_get [0; 1] 1) with (Ok 1). cbn [bind map am_synch_x am_h mach]. f_equal. f_equal; [ring|]. f_equal. ring. Qed.
Lemma small_lowest mn : rmin_list (map (urf_at (am_vrf1 mach) PI) (phases PI)) = Ok mn -> mn <= -2.
Proof.
  intros E. rewrite phases_pi, map_tab in E. change 1000%nat with (S 999) in E. rewrite tab_cons in E. apply min_below in E. rewrite urf_pi, ph_0, cos_0 in E. cbn [am_vrf1 mach] in E. lra.
Qed.
Lemma small_amps : exists mn, mn <= -2 /\ amplitudes mach PI 2 = Ok [0; mn].
Proof.
  assert (N : map (urf_at (am_vrf1 mach) PI) (phases PI) <> []). { rewrite phases_pi, map_tab. apply tab_nonempty. lia. }
  destruct (min_exists _ N) as [mn E]. exists mn. split; [apply small_lowest; auto|]. unfold amplitudes. rewrite E. cbn [bind]. unfold linspace, tab. cbn [seq map Nat.sub INR]. f_equal. f_equal; [field|]. f_equal. field.
Qed.
Lemma small_low : contour interp mach PI 2 (-1) [PI; 2 * PI] 0 = Ok [h1; 0].
Proof.
  rewrite (contour_ok interp Hint mach _ 2 (-1) PI mach_above). assert (P := PI_RGT_0). assert (Q := K_pos). unfold K in Q.
  assert (E : left_end interp (am_vrf1 mach) 0 = PI - PI / 999).
  { unfold left_end. rewrite <- ph_500. apply (interp_high interp Hint 500 (pot (am_vrf1 mach)) ltac:(lia) (pot_rising (am_vrf1 mach) Rlt_0_1)).
    unfold pot. cbn [am_vrf1 mach]. assert (C := COS_bound (ph (500 - 1))). lra. }
  rewrite E. cbn [map]. f_equal. f_equal; [|f_equal].
  - unfold arc, h1, low_height. rewrite cos_PI. f_equal. ring.
  - unfold arc. rewrite cos_2PI. apply sqrt_neg_0. assert (C := COS_bound (PI - PI / 999)). nra.
Qed.
Lemma small_high mn : mn <= -2 -> contour interp mach PI 2 (-1) [PI; 2 * PI] mn = Ok [H; 0].
Proof.
  intros Hm. rewrite (contour_ok interp Hint mach _ 2 (-1) PI mach_above). 
  assert (E : left_end interp (am_vrf1 mach) mn = 0).
  { unfold left_end. rewrite <- ph_0. apply (interp_low interp Hint 500 (pot (am_vrf1 mach)) ltac:(lia) (pot_rising (am_vrf1 mach) Rlt_0_1)).
    unfold pot. cbn [am_vrf1 mach]. assert (C := COS_bound (ph 0)). lra. }
  rewrite E. cbn [map]. f_equal. f_equal; [|f_equal].
  - unfold arc, H, top_height. rewrite cos_PI, cos_0. f_equal. ring.
  - unfold arc. rewrite cos_2PI, cos_0. replace (stiff mach 2 (-1) * (1 - 1)) with 0 by ring. apply sqrt_0.
Qed.
Lemma small_where3 h : 0 < h -> h <= H -> rwhere 0 (fun e => ltb (- h) e && ltb e h) [- H; 0; H] = [1%nat].
Proof.
  intros A B. cbn [rwhere]. unfold ltb. destruct (Rlt_dec (- h) (- H)); [lra|]. cbn [andb]. destruct (Rlt_dec (- h) 0); [|lra]. destruct (Rlt_dec 0 h); [|lra]. cbn [andb].
  destruct (Rlt_dec H h); [lra|]. rewrite andb_false_r. reflexivity.
Qed.
Lemma small_where2 h : 0 < h -> h <= H -> rwhere 0 (fun e => ltb (- h) e && ltb e h) [- H; 0] = [1%nat].
Proof.
  intros A B. cbn [rwhere]. unfold ltb. destruct (Rlt_dec (- h) (- H)); [lra|]. cbn [andb]. destruct (Rlt_dec (- h) 0); [|lra]. destruct (Rlt_dec 0 h); [|lra]. reflexivity.
Qed.
Lemma small_column3 h : 0 < h -> h <= H -> column_density interp [1; 1; 1] [- H; 0; H] h = Ok (2 * (h / H), 1, 1).
Proof.
  intros A B. assert (P := H_pos). unfold column_density. change (np_get [- H; 0; H] 0) with (Ok (- H)). change (np_get [- H; 0; H] 1) with (Ok 0). cbn [bind]. cbv zeta. rewrite small_where3 by auto.
  change (mapM (fun i : nat => np_get [1; 1; 1] (Z.of_nat i)) [1%nat]) with (Ok [1]). cbn [bind]. change (np_get [1%nat] (-1)) with (Ok 1%nat). change (np_get [1%nat] 0) with (Ok 1%nat). cbn [bind].
  change (Z.of_nat 1) with 1%Z.
  change (slice [- H; 0; H] 1 (1 + 2)) with [0; H]. change (slice [1; 1; 1] 1 (1 + 2)) with [1; 1].
  change (slice [- H; 0; H] (1 - 1) (1 + 1)) with [- H; 0]. change (slice [1; 1; 1] (1 - 1) (1 + 1)) with [1; 1].
  change (np_get [1; 1; 1] 1) with (Ok 1). change (np_get [- H; 0; H] 1) with (Ok 0).
  change (np_interp interp h [0; H] [1; 1]) with (Ok (interp h [0; H] [1; 1])). change (np_interp interp (- h) [- H; 0] [1; 1]) with (Ok (interp (- h) [- H; 0] [1; 1])).
  rewrite !interp_pair by (auto; lra). cbn [bind]. rewrite !rdiv_ok by lra. cbn [bind trapz]. f_equal. f_equal; [f_equal|]; field; lra.
Qed.
Lemma small_column2 h : 0 < h -> h <= H -> column_density interp [0; 1] [- H; 0] h = Ok (h / H + h / H * ((H - h) / H + 1) / 2, 1, (H - h) / H).
Proof.
  intros A B. assert (P := H_pos). unfold column_density. change (np_get [- H; 0] 0) with (Ok (- H)). change (np_get [- H; 0] 1) with (Ok 0). cbn [bind]. cbv zeta. rewrite small_where2 by auto.
  change (mapM (fun i : nat => np_get [0; 1] (Z.of_nat i)) [1%nat]) with (Ok [1]). cbn [bind]. change (np_get [1%nat] (-1)) with (Ok 1%nat). change (np_get [1%nat] 0) with (Ok 1%nat). cbn [bind].
  change (Z.of_nat 1) with 1%Z.
  change (slice [- H; 0] 1 (1 + 2)) with [0]. change (slice [0; 1] 1 (1 + 2)) with [1].
  change (slice [- H; 0] (1 - 1) (1 + 1)) with [- H; 0]. change (slice [0; 1] (1 - 1) (1 + 1)) with [0; 1].
  change (np_get [0; 1] 1) with (Ok 1). change (np_get [- H; 0] 1) with (Ok 0).
  change (np_interp interp h [0] [1]) with (Ok (interp h [0] [1])). change (np_interp interp (- h) [- H; 0] [0; 1]) with (Ok (interp (- h) [- H; 0] [0; 1])).
  rewrite (int_right interp Hint h [0] [1]); [|intros i j Hij Hj; simpl in Hj; lia|simpl; lia|reflexivity|simpl; lra]. cbn [length Nat.sub nth].
  rewrite !interp_pair by (auto; lra). cbn [bind]. rewrite !rdiv_ok by lra. cbn [bind trapz]. f_equal. f_equal; [f_equal|]; field; lra.
Qed.
Lemma small_emittance h : exists e, contour_emittance mach PI [PI; 2 * PI] [h; 0] = Ok e /\ e = h.
Proof.
  assert (P := PI_RGT_0). eexists. split.
  - unfold contour_emittance. change (np_get [PI; 2 * PI] 0) with (Ok PI). change (np_get [PI; 2 * PI] 1) with (Ok (2 * PI)). cbn [bind am_h mach]. rewrite rdiv_ok by lra. reflexivity.
  - cbn [trapz]. field. lra.
Qed.
Lemma small_amplitude img dE a h row d top bot : contour interp mach PI 2 (-1) [PI; 2 * PI] a = Ok [h; 0] -> 0 < h -> np_get img 0 = Ok row -> column_density interp row dE h = Ok (d, top, bot) ->
  rsum (map rsum img) <> 0 -> exists c, amplitude_data interp mach PI 2 (-1) PI img [0; 1] dE [PI; 2 * PI] a = Ok c /\ cd_emittance c = h /\ cd_sum c = d / rsum (map rsum img) /\ cd_local c = (top + bot) / 2.
Proof.
  intros Ec Hh Er Ed Hs. destruct (small_emittance h) as (em & Ee & ->). eexists. split.
  - unfold amplitude_data. eapply bind_to; [exact Ec|]. eapply bind_to.
    + cbn [length for_]. unfold density_step at 1. change (np_get [h; 0] (Z.of_nat 0)) with (Ok h). cbn [bind]. destruct (Req_EM_T h 0); [exfalso; lra|]. change (Z.of_nat 0) with 0%Z. rewrite Er. cbn [bind]. rewrite Ed. cbn [bind].
      unfold density_step at 1. change (np_get [h; 0] (Z.of_nat 1)) with (Ok 0). cbn [bind]. destruct (Req_EM_T 0 0); [|exfalso; tauto]. reflexivity.
    + cbn [ds_n ds_min ds_sum ds_local ds_max]. rewrite rdiv_ok by auto. cbn [bind]. rewrite Ee. cbn [bind]. reflexivity.
  - cbn [cd_emittance cd_sum cd_local]. change (INR 1) with 1. repeat split; field; auto.
Qed.
Lemma small_density img dE row r1 r2 : np_get img 0 = Ok row -> rsum (map rsum img) <> 0 ->
  column_density interp row dE h1 = Ok r1 -> column_density interp row dE H = Ok r2 -> snd (fst r1) + snd r1 <> 0 ->
  exists c1 c2, density_vs_emittance interp mach img [0; 1] dE 2 None = Ok [c1; c2] /\ cd_emittance c1 = h1 /\ cd_emittance c2 = H /\
    cd_sum c1 = fst (fst r1) / rsum (map rsum img) /\ cd_sum c2 = fst (fst r2) / rsum (map rsum img).
Proof.
  intros Er Hs E1 E2 N. destruct r1 as [[d1 t1] b1], r2 as [[d2 t2] b2]. cbn [fst snd] in *. destruct small_amps as (mn & Hm & Ea).
  destruct (small_amplitude img dE 0 h1 row d1 t1 b1 small_low (proj1 h1_range) Er E1 Hs) as (c1 & A1 & B1 & C1 & D1).
  destruct (small_amplitude img dE mn H row d2 t2 b2 (small_high mn Hm) H_pos Er E2 Hs) as (c2 & A2 & B2 & C2 & D2).
  exists c1, c2. split; [|auto]. destruct mach_above as [S1 S2 S3 S4 _ _ _]. unfold density_vs_emittance. cbv zeta.
  eapply bind_to; [exact S1|]. eapply bind_to; [exact S2|]. eapply bind_to; [exact S3|]. eapply bind_to; [exact S4|]. eapply bind_to; [exact small_phases|]. eapply bind_to; [exact Ea|].
  eapply bind_to. { unfold mapM. cbn [map sequence]. rewrite A1. cbn [bind]. rewrite A2. reflexivity. }
  unfold extrapolated. change (np_get [c1; c2] 0) with (Ok c1). cbn [bind]. destruct (Req_EM_T (cd_local c1) 0) as [Z|Z]; [|reflexivity]. exfalso. rewrite D1 in Z. lra.
Qed.
Lemma small_clip : tomo_weight_clipping interp mach [0; 1] [- H; 0; H] [[1/2]; [1/2]; [1/2]] [[1]; [1]; [5]] [1; 2; 3] 0 2 None =
  Ok ([2; 4; 0], [h1; 0], [0%nat; 0%nat]).
Proof.
  assert (P := H_pos). assert (Q := h1_range). destruct small_amps as (mn & Hm & Ea). destruct mach_above as [S1 S2 S3 S4 _ _ _]. unfold tomo_weight_clipping. cbv zeta.
  eapply bind_to; [exact S1|]. eapply bind_to; [exact S2|]. eapply bind_to; [exact S3|]. eapply bind_to; [exact S4|]. eapply bind_to; [exact small_phases|]. eapply bind_to; [exact Ea|].
  eapply bind_to. { cbn [search_contour]. rewrite small_low. cbn [bind]. destruct (small_emittance h1) as (em & Ee & ->). rewrite Ee. cbn [bind]. unfold leb. destruct (Rle_dec 0 h1); [reflexivity|lra]. }
  eapply bind_to; [reflexivity|]. eapply bind_to; [reflexivity|]. eapply bind_to.
  { cbn [length Nat.sub for_]. unfold clip_slot. change (np_get [0; 1] 0) with (Ok 0). change (np_get [0; 1] 1) with (Ok 1). change (np_get [- H; 0; H] 0) with (Ok (- H)). change (np_get [- H; 0; H] 1) with (Ok 0).
    change (np_get [0; 1] (Z.of_nat 0)) with (Ok 0). change (np_get [0; 1] (Z.of_nat 0 + 1)) with (Ok 1). change (np_get [h1; 0] (Z.of_nat 0)) with (Ok h1). cbn [bind]. rewrite !rdiv_ok by lra. cbn [bind].
    assert (T : 1 < (h1 - - H) / (0 - - H) < 2). { replace ((h1 - - H) / (0 - - H)) with (1 + h1 * / H) by (field; lra). assert (0 < / H) by (apply Rinv_0_lt_compat; auto). assert (h1 * / H < 1). { replace 1 with (H * / H) by (field; lra). apply Rmult_lt_compat_r; lra. } assert (0 < h1 * / H) by (apply Rmult_lt_0_compat; lra). lra. }
    assert (B : (- h1 - - H) / (0 - - H) < 1). { replace ((- h1 - - H) / (0 - - H)) with (1 - h1 * / H) by (field; lra). assert (0 < / H) by (apply Rinv_0_lt_compat; auto). assert (0 < h1 * / H) by (apply Rmult_lt_0_compat; lra). lra. }
    cbn [length combine Nat.eqb negb map filter seq fst snd]. unfold leb, ltb, eqb.
    destruct (Rle_dec ((0 - 0) / (1 - 0)) (1 / 2)) as [_|X]; [|exfalso; apply X; lra]. destruct (Rle_dec (1 / 2) ((1 - 0) / (1 - 0))) as [_|X]; [|exfalso; apply X; lra]. cbn [andb].
    destruct (Rle_dec ((h1 - - H) / (0 - - H)) 1); [lra|]. destruct (Rle_dec 1 ((- h1 - - H) / (0 - - H))); [lra|]. destruct (Rle_dec ((h1 - - H) / (0 - - H)) 5); [|lra]. cbn [orb].
    destruct (Rlt_dec 1 ((h1 - - H) / (0 - - H))); [|lra]. destruct (Rlt_dec ((- h1 - - H) / (0 - - H)) 1); [|lra]. cbn [andb map snd].
    destruct (Rlt_dec 5 ((h1 - - H) / (0 - - H))); [lra|]. cbn [andb map snd].
    change (mapM (fun i : nat => np_get [1; 1; 5] (Z.of_nat i)) [0%nat; 1%nat]) with (Ok [1; 1]). cbn [bind rmax_list rmin_list fold_left]. rewrite (Rmax_left 1 1), (Rmin_left 1 1) by lra. cbn [find nth bind].
    destruct (Req_EM_T 1 1); [|tauto]. cbn [app]. reflexivity. }
  cbn [rsum]. unfold mapM. cbn [map sequence]. rewrite !rdiv_ok by lra. cbn [bind]. f_equal. f_equal. f_equal. f_equal; [lra|]. f_equal; [lra|]. f_equal. lra.
Qed.
End Small.

(** C87.  On an axis that reaches further down than up the fraction can be
    larger than 1. *)
Lemma C87_fraction_refuted_lem : forall interp, interpolates interp ->
  exists m img time_array dE step n_points l,
    stationary_above m (frame_of m None * am_dturns m) 2 (-1) PI /\ equidistant dE step /\ densities img /\ 0 < rsum (map rsum img) /\
    density_vs_emittance interp m img time_array dE n_points None = Ok l /\ Exists (fun c => 1 < cd_sum c) l.
Proof.
  intros interp Hint. assert (P := H_pos). assert (Q := h1_range). exists mach, [[0; 1]; [0; 0]], [0; 1], [- top_height; 0], top_height, 2%nat.
  assert (S : rsum (map rsum [[0; 1]; [0; 0]]) = 1) by (simpl; lra).
  assert (F : 0 < (top_height - low_height) / top_height). { apply Rmult_lt_0_compat; [lra|]. apply Rinv_0_lt_compat. auto. }
  destruct (small_density interp Hint [[0; 1]; [0; 0]] [- top_height; 0] [0; 1] _ _ eq_refl ltac:(rewrite S; lra) (small_column2 interp Hint low_height ltac:(lra) ltac:(lra)) (small_column2 interp Hint top_height ltac:(lra) ltac:(lra))) as (c1 & c2 & E & _ & _ & _ & Es).
  { cbn [fst snd]. lra. }
  exists [c1; c2]. split; [exact mach_above|]. split; [|split; [|split; [rewrite S; lra|split; [exact E|]]]].
  - split; [auto|]. intros i Hi. simpl in Hi. destruct i as [|i]; [simpl; lra|lia].
  - repeat constructor; lra.
  - apply Exists_cons_tl. apply Exists_cons_hd. rewrite Es, S. cbn [fst snd]. replace ((top_height / top_height + top_height / top_height * ((top_height - top_height) / top_height + 1) / 2) / 1) with (3 / 2) by (field; lra). lra.
Qed.
Lemma density_instance interp : interpolates interp -> exists img dE step l,
  equidistant dE step /\ Forall (fun row => length row = length dE) img /\ - nth 0 dE 0 <= nth (length dE - 1) dE 0 /\ densities img /\ 0 < rsum (map rsum img) /\
  density_vs_emittance interp mach img [0; 1] dE 2 None = Ok l /\ 0 < cd_sum (nth 0 l (CData 0 0 0 0 0)) < cd_sum (nth 1 l (CData 0 0 0 0 0)) /\
  0 < cd_emittance (nth 0 l (CData 0 0 0 0 0)) < cd_emittance (nth 1 l (CData 0 0 0 0 0)).
Proof.
  intros Hint. assert (P := H_pos). assert (Q := h1_range). exists [[1; 1; 1]; [0; 0; 0]], [- top_height; 0; top_height], top_height.
  assert (S : rsum (map rsum [[1; 1; 1]; [0; 0; 0]]) = 3) by (simpl; lra).
  destruct (small_density interp Hint [[1; 1; 1]; [0; 0; 0]] [- top_height; 0; top_height] [1; 1; 1] _ _ eq_refl ltac:(rewrite S; lra) (small_column3 interp Hint low_height ltac:(lra) ltac:(lra)) (small_column3 interp Hint top_height ltac:(lra) ltac:(lra))) as (c1 & c2 & E & E1 & E2 & Es1 & Es2).
  { cbn [fst snd]. lra. }
  exists [c1; c2]. split; [|split; [repeat constructor|split; [simpl; lra|split; [|split; [rewrite S; lra|split; [exact E|]]]]]].
  - split; [auto|]. intros i Hi. simpl in Hi. destruct i as [|[|i]]; [simpl; lra|simpl; lra|lia].
  - repeat constructor; lra.
  - cbn [nth]. rewrite E1, E2, Es1, Es2, S. cbn [fst]. split; [|auto].
    assert (0 < / top_height) by (apply Rinv_0_lt_compat; auto). assert (0 < low_height * / top_height) by (apply Rmult_lt_0_compat; lra). assert (low_height * / top_height < top_height * / top_height) by (apply Rmult_lt_compat_r; lra). unfold Rdiv. lra.
Qed.

(*EX*)
(** A machine above transition and an image for which the hypotheses hold;
    the emittances and the densities inside grow strictly. *)
Example C86_C87_nonvacuous : stationary_above mach (frame_of mach None * am_dturns mach) 2 (-1) PI /\ interpolates piecewise /\
  exists img dE step l, equidistant dE step /\ Forall (fun row => length row = length dE) img /\ - nth 0 dE 0 <= nth (length dE - 1) dE 0 /\ densities img /\ 0 < rsum (map rsum img) /\
  density_vs_emittance piecewise mach img [0; 1] dE 2 None = Ok l /\ 0 < cd_sum (nth 0 l (CData 0 0 0 0 0)) < cd_sum (nth 1 l (CData 0 0 0 0 0)) /\
  0 < cd_emittance (nth 0 l (CData 0 0 0 0 0)) < cd_emittance (nth 1 l (CData 0 0 0 0 0)).
Proof. split; [exact mach_above|split; [exact (proj1 C85_interp_lem)|exact (density_instance piecewise (proj1 C85_interp_lem))]]. Qed.
(** Three particles, of which the last is clipped. *)
Example C88_nonvacuous : tomo_weight_clipping piecewise mach [0; 1] [- top_height; 0; top_height] [[1/2]; [1/2]; [1/2]] [[1]; [1]; [5]] [1; 2; 3] 0 2 None =
  Ok ([2; 4; 0], [low_height; 0], [0%nat; 0%nat]).
Proof. exact (small_clip piecewise (proj1 C85_interp_lem)). Qed.
(*XE*)
