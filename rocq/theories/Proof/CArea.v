(** Proofs of the properties of the matched area, of the density inside
    contours and of the clipping of weights. *)
(*HEAD*)
From Coq Require Import Reals List ZArith Bool.
From Verif Require Import Base.Res Base.QcLib Base.RLib Model.MParticles Model.MPreproc Model.MPost Model.MArea Spec.AreaSpec.
Import ListNotations.
Local Open Scope R_scope.
(*DAEH*)
From Coq Require Import Lia Lra.
From Verif Require Import Base.ResLemmas Base.QcLemmas Base.Loops Proof.PArea Proof.PArea2.

Lemma beta2E_pos m energy : 0 < am_e_rest m < energy -> 0 < beta2E m energy.
Proof. intros H. unfold beta2E. apply Rmult_lt_0_compat; [nra|]. apply Rinv_0_lt_compat. lra. Qed.

Lemma np_tab A n (f : nat -> A) z : (0 <= z < Z.of_nat n)%Z -> np_get (tab n f) z = Ok (f (Z.to_nat z)).
Proof.
  intros H. unfold np_get. rewrite tab_length. destruct (Z.ltb_spec z 0); [lia|]. destruct (Z.ltb_spec z 0); [lia|].
  destruct (Z.leb_spec (Z.of_nat n) z); [lia|]. cbn [orb]. apply get_tab_Z. auto.
Qed.
Lemma tab_nonempty A n (f : nat -> A) : (0 < n)%nat -> tab n f <> [].
Proof. intros H E. apply (f_equal (@length A)) in E. rewrite tab_length in E. simpl in E. lia. Qed.
Lemma max_exists l : l <> [] -> exists x, rmax_list l = Ok x.
Proof. destruct l; [tauto|]. intros _. eexists. reflexivity. Qed.
Lemma min_exists l : l <> [] -> exists x, rmin_list l = Ok x.
Proof. destruct l; [tauto|]. intros _. eexists. reflexivity. Qed.
Lemma ok_inj A (a b : A) : Ok a = Ok b -> a = b.
Proof. intros H. injection H. auto. Qed.
Lemma bind_to A B (x : res A) a (f : A -> res B) r : x = Ok a -> f a = r -> bind x f = r.
Proof. intros -> <-. reflexivity. Qed.
Tactic Notation "binv" hyp(E) ident(a) ident(Ea) := apply bind_ok in E; destruct E as (a & Ea & E).
Lemma rdiv_ok a b : b <> 0 -> rdiv a b = Ok (a / b).
Proof. intros H. unfold rdiv. destruct (Req_EM_T b 0); tauto. Qed.

Lemma residue_at interp (Hint : interpolates interp) v (V : 0 < v) t L :
  residue_urf_length interp t (phases PI) (map (urf_at v PI) (phases PI)) PI L = Ok ((2 * PI - 2 * left_end interp v L - t) ^ 2).
Proof. unfold residue_urf_length. rewrite (lengths interp Hint v V L). reflexivity. Qed.

Section Stationary.
Variables (m : amachine) (energy eta0 omega : R).
Hypothesis Heta : eta0 < 0.
Hypothesis Hmov : 0 < am_e_rest m < energy.
Hypothesis Hpos : 0 < am_q m /\ 0 < am_h m /\ 0 < am_vrf1 m /\ 0 < omega.
Definition stiff : R := am_q m * beta2E m energy / (PI * am_h m * - eta0) * am_vrf1 m.
Lemma stiff_pos : 0 < stiff.
Proof.
  assert (B := beta2E_pos m energy Hmov). assert (P := PI_RGT_0). destruct Hpos as (Q & H & V & O). unfold stiff.
  apply Rmult_lt_0_compat; auto. apply Rmult_lt_0_compat; [apply Rmult_lt_0_compat; auto|]. apply Rinv_0_lt_compat.
  apply Rmult_lt_0_compat; [apply Rmult_lt_0_compat; auto|lra].
Qed.
Lemma factor_ok : height_factor m energy eta0 = Ok (- (stiff / am_vrf1 m)).
Proof.
  assert (P := PI_RGT_0). destruct Hpos as (Q & H & V & O). unfold height_factor. rewrite rdiv_ok by lra. cbn [bind].
  assert (G : energy / am_e_rest m <> 0). { apply Rgt_not_eq. apply Rmult_lt_0_compat; [lra|apply Rinv_0_lt_compat; lra]. }
  rewrite rdiv_ok by auto. cbn [bind]. rewrite rdiv_ok.
  - f_equal. unfold stiff, beta2E. field. repeat split; try lra. 
  - assert (0 < PI * am_h m) by (apply Rmult_lt_0_compat; lra). nra.
Qed.
Lemma height_arc l p : height (- (stiff / am_vrf1 m)) (am_vrf1 m) PI l p = arc stiff l p.
Proof.
  destruct Hpos as (Q & H & V & O). unfold height, arc. rewrite sin_PI.
  replace (- (stiff / am_vrf1 m) * (am_vrf1 m * (cos p - cos l) + (p - l) * am_vrf1 m * 0)) with (stiff * (cos l - cos p)) by (field; lra).
  destruct (Rlt_dec _ 0) as [L|L]; [rewrite sqrt_neg_0 by lra; reflexivity|]. apply Rabs_right, Rle_ge, sqrt_pos.
Qed.
Lemma trajectory_arc l p : trajectory m energy eta0 l p = arc stiff l p.
Proof. reflexivity. Qed.
Lemma rule_close l (Hl : 0 <= l < PI) (pr : Riemann_integrable (trajectory m energy eta0 l) l (2 * PI - l)) N k : N = (2 * k)%nat -> (0 < k)%nat ->
  (1 - 2 / INR (N - 1)) * RiemannInt pr <=
  trapz ((2 * PI - l - l) / INR (N - 1)) (map (height (- (stiff / am_vrf1 m)) (am_vrf1 m) PI l) (linspace l (2 * PI - l) N)) <= RiemannInt pr.
Proof.
  intros -> Hk. unfold linspace. rewrite map_tab. rewrite (tab_ext _ _ (fun i => arc stiff l (l + INR i * ((2 * PI - l - l) / INR (2 * k - 1))))).
  - apply (arc_area stiff l stiff_pos Hl pr k Hk).
  - intros i _. apply height_arc.
Qed.
End Stationary.
Lemma linspace_first a b n : (1 < n)%nat -> np_get (linspace a b n) 0 = Ok a /\ np_get (linspace a b n) 1 = Ok (a + (b - a) / INR (n - 1)).
Proof.
  intros H. unfold linspace. rewrite !np_tab by lia. change (Z.to_nat 0) with 0%nat. change (Z.to_nat 1) with 1%nat. split; f_equal; simpl; ring.
Qed.

(** C85.  There is a function with the behaviour assumed of numpy.interp. *)
Lemma C85_interp_lem : interpolates piecewise /\ clamps piecewise.
Proof.
  assert (In1 : forall xp x fp, increasing xp -> (0 < length xp)%nat -> length xp = length fp -> x <= nth 0 xp 0 -> piecewise_in x xp fp = nth 0 fp 0).
  { intros [|a [|b xp]] x [|u [|v fp]] Hi Hl E H; simpl in *; try lia; auto. destruct (Rle_dec x a); [auto|lra]. }
  assert (Tl : forall a xp, increasing (a :: xp) -> increasing xp).
  { intros a xp H i j Hij Hj. apply (H (S i) (S j)); simpl; lia. }
  assert (In2 : forall xp x fp i, increasing xp -> length xp = length fp -> (S i < length xp)%nat -> nth i xp 0 <= x <= nth (S i) xp 0 ->
    piecewise_in x xp fp = nth i fp 0 + (x - nth i xp 0) * (nth (S i) fp 0 - nth i fp 0) / (nth (S i) xp 0 - nth i xp 0)).
  { induction xp as [|a xp IH]; intros x fp i Hi E Hl H; [simpl in Hl; lia|]. destruct xp as [|b xp]; [simpl in Hl; lia|].
    destruct fp as [|u [|v fp]]; [discriminate|discriminate|]. assert (Hab := Hi 0%nat 1%nat ltac:(lia) ltac:(simpl; lia)). simpl in Hab.
    change (piecewise_in x (a :: b :: xp) (u :: v :: fp)) with
      (if Rle_dec x a then u else if Rle_dec x b then u + (x - a) * (v - u) / (b - a) else piecewise_in x (b :: xp) (v :: fp)). destruct i as [|i].
    - simpl in H |- *. destruct (Rle_dec x a). { replace x with a by lra. unfold Rdiv. ring. } destruct (Rle_dec x b); [auto|lra].
    - assert (Hbi : b <= nth i (b :: xp) 0). { destruct i; [simpl; lra|]. left. apply (Hi 1%nat (S (S i))); simpl in *; lia. }
      change (nth (S i) (a :: b :: xp) 0) with (nth i (b :: xp) 0) in *. change (nth (S (S i)) (a :: b :: xp) 0) with (nth (S i) (b :: xp) 0) in *.
      change (nth (S i) (u :: v :: fp) 0) with (nth i (v :: fp) 0). change (nth (S (S i)) (u :: v :: fp) 0) with (nth (S i) (v :: fp) 0).
      destruct (Rle_dec x a); [lra|]. destruct (Rle_dec x b) as [L|L].
      + assert (Eb : x = b) by lra. assert (i = 0)%nat. { destruct i; auto. assert (b < nth (S i) (b :: xp) 0) by (apply (Hi 1%nat (S (S i))); simpl in *; lia). lra. }
        assert (K := Hi 1%nat 2%nat ltac:(lia) ltac:(subst; simpl in *; lia)). simpl in K. subst. simpl in *. field. split; lra.
      + apply IH; [apply (Tl a); auto|simpl in *; lia|simpl in *; lia|auto]. }
  assert (In3 : forall xp x fp, increasing xp -> (0 < length xp)%nat -> length xp = length fp -> nth (length xp - 1) xp 0 = x -> piecewise_in x xp fp = nth (length xp - 1) fp 0).
  { intros xp x fp Hi Hl E H. destruct xp as [|a [|b xp]]; [simpl in Hl; lia| |].
    - destruct fp as [|u fp]; [discriminate|]. reflexivity.
    - rewrite (In2 (a :: b :: xp) x fp (length xp)); [|auto|auto|simpl; lia|].
      + replace (length (a :: b :: xp) - 1)%nat with (S (length xp)) in * by (simpl; lia). assert (K := Hi (length xp) (S (length xp)) ltac:(lia) ltac:(simpl; lia)).
        rewrite H in *. field. lra.
      + replace (length (a :: b :: xp) - 1)%nat with (S (length xp)) in * by (simpl; lia). assert (K := Hi (length xp) (S (length xp)) ltac:(lia) ltac:(simpl; lia)). lra. }
  split; [constructor|].
  - intros x xp fp Hi Hl E H. unfold piecewise. destruct (Rlt_dec _ x) as [L|L]; [|apply In1; auto].
    destruct (Nat.eq_dec (length xp) 1) as [E1|E1]; [rewrite E1; reflexivity|]. assert (K := Hi 0%nat (length xp - 1)%nat ltac:(lia) ltac:(lia)). lra.
  - intros x xp fp Hi Hl E H. unfold piecewise. destruct (Rlt_dec _ x) as [L|L]; [auto|]. apply In3; auto. lra.
  - intros x xp fp i Hi E Hl H. unfold piecewise. destruct (Rlt_dec _ x) as [L|L]; [|apply In2; auto].
    destruct (Nat.eq_dec (S i) (length xp - 1)) as [E1|E1]; [rewrite <- E1 in L; lra|]. assert (K := Hi (S i) (length xp - 1)%nat ltac:(lia) ltac:(lia)). lra.
  - intros x xp fp Hl E H. unfold piecewise. destruct (Rlt_dec _ x); [auto|contradiction].
Qed.

(** C85.  Above transition without acceleration, the matched area of a bunch is
    the area inside the trajectory of the same length, up to 2/999 and never
    too large.  The contour reaches at least one step of the grid of phases to
    either side; with an ideal minimiser it is as long as the bunch if the
    bunch is longer than that and fits in the bucket. *)
Lemma C85_area_lem : forall interp minimize m idx_frame bunch_length energy eta0 omega area,
  interpolates interp -> stationary_above m (frame_of m idx_frame * am_dturns m) energy eta0 omega ->
  matched_area_calc interp minimize m bunch_length idx_frame = Ok area ->
  exists phi_left, 0 <= phi_left <= PI - PI / 999 /\
    (finds_minimum minimize -> 2 * PI / 999 <= bunch_length * omega * am_h m <= 2 * PI ->
     2 * PI - 2 * phi_left = bunch_length * omega * am_h m) /\
    forall pr : Riemann_integrable (trajectory m energy eta0 phi_left) phi_left (2 * PI - phi_left),
      let enclosed := 2 / (am_h m * omega) * RiemannInt pr in
      (1 - 2 / 999) * enclosed <= area <= enclosed.
Proof.
  intros interp minimize m idx bl energy eta0 omega area Hint [S1 S2 S3 S4 Ha Hm Hp] E.
  unfold matched_area_calc in E. binv E phi_0 E1. binv E en E2. binv E et E3. binv E om E4. cbv zeta in E.
  rewrite S1 in E1. apply ok_inj in E1. subst phi_0. rewrite S2 in E2. apply ok_inj in E2. subst en.
  rewrite S3 in E3. apply ok_inj in E3. subst et. rewrite S4 in E4. apply ok_inj in E4. subst om.
  binv E mx E1. binv E mn E2. binv E L Emin. clear E1 E2. assert (V : 0 < am_vrf1 m) by apply Hp.
  binv E r E1. rewrite (lengths interp Hint _ V) in E1. apply ok_inj in E1. subst r. cbv beta iota in E.
  binv E k E1. rewrite (factor_ok m energy eta0 omega Ha Hm Hp) in E1. apply ok_inj in E1. subst k.
  assert (Q : 0 < am_h m /\ 0 < omega) by (split; apply Hp). destruct Q as (H & O).
  set (l := left_end interp (am_vrf1 m) L) in *. assert (Rl := left_range interp Hint _ V L). fold l in Rl.
  exists l. split; [auto|]. split.
  - intros Hmin Ht. set (t := bl * omega * am_h m) in *.
    destruct (left_onto interp Hint _ V (PI - t / 2)) as [L' EL']. { lra. }
    assert (NN : forall y b, residue_urf_length interp t (phases PI) (map (urf_at (am_vrf1 m) PI) (phases PI)) PI y = Ok b -> 0 <= b).
    { intros y b Eb. rewrite (residue_at interp Hint _ V t y) in Eb. apply ok_inj in Eb. rewrite <- Eb. apply pow2_ge_0. }
    assert (K := Hmin _ _ L _ NN Emin (residue_at interp Hint _ V t L) L' _ (residue_at interp Hint _ V t L')).
    rewrite EL' in K. fold l in K. replace ((2 * PI - 2 * (PI - t / 2) - t) ^ 2) with 0 in K by field.
    assert (Z : (2 * PI - 2 * l - t) ^ 2 = 0) by (assert (W := pow2_ge_0 (2 * PI - 2 * l - t)); lra).
    assert (2 * PI - 2 * l - t = 0) by (destruct (Req_dec (2 * PI - 2 * l - t) 0) as [|N]; auto; apply (pow_nonzero _ 2) in N; contradiction).
    lra.
  - intros pr. assert (P := PI_RGT_0).
    assert (A := rule_close m energy eta0 omega Ha Hm Hp l ltac:(lra) pr 1000 500 ltac:(lia) ltac:(lia)).
    destruct (linspace_first l (2 * PI - l) 1000 ltac:(lia)) as [G0 G1]. 
    binv E p0 E1. rewrite G0 in E1. apply ok_inj in E1. subst p0. binv E p1 E1. rewrite G1 in E1. apply ok_inj in E1. subst p1.
    binv E ff E1. rewrite rdiv_ok in E1 by nra. apply ok_inj in E1. subst ff. apply ok_inj in E.
    replace (l + (2 * PI - l - l) / INR (1000 - 1) - l) with ((2 * PI - l - l) / INR (1000 - 1)) in E by ring.
    revert A E. generalize (trapz ((2 * PI - l - l) / INR (1000 - 1)) (map (height (- (stiff m energy eta0 / am_vrf1 m)) (am_vrf1 m) PI l) (linspace l (2 * PI - l) 1000))).
    rewrite inr_999. intros z A <-. cbv zeta.
    assert (F : 0 < 2 / (am_h m * omega)). { apply Rmult_lt_0_compat; [lra|]. apply Rinv_0_lt_compat. nra. }
    split.
    + replace ((1 - 2 / 999) * (2 / (am_h m * omega) * RiemannInt pr)) with (2 / (am_h m * omega) * ((1 - 2 / 999) * RiemannInt pr)) by ring.
      apply Rmult_le_compat_l; [lra|apply A].
    + apply Rmult_le_compat_l; [lra|apply A].
Qed.

(** C85.  The trajectory is a level of the Hamiltonian, has an area, and the
    computation succeeds whenever the minimiser does. *)
Lemma C85_trajectory_lem : forall interp minimize m idx_frame bunch_length energy eta0 omega phi_left,
  interpolates interp -> stationary_above m (frame_of m idx_frame * am_dturns m) energy eta0 omega -> 0 <= phi_left < PI ->
  (forall phi, phi_left <= phi <= 2 * PI - phi_left ->
     hamiltonian m energy eta0 phi (trajectory m energy eta0 phi_left phi) = hamiltonian m energy eta0 phi_left 0) /\
  inhabited (Riemann_integrable (trajectory m energy eta0 phi_left) phi_left (2 * PI - phi_left)) /\
  ((forall f x0, exists x, minimize f x0 = Ok x) -> exists area, matched_area_calc interp minimize m bunch_length idx_frame = Ok area).
Proof.
  intros interp minimize m idx bl energy eta0 omega l Hint [S1 S2 S3 S4 Ha Hm Hp] Hl. split; [|split].
  - intros p Hpr. assert (C := cos_below_eq l ltac:(lra) p Hpr). assert (K := stiff_pos m energy eta0 omega Ha Hm Hp).
    unfold hamiltonian, trajectory. fold (stiff m energy eta0). rewrite pow2_sqrt by (apply Rmult_le_pos; lra). unfold stiff.
    assert (B := beta2E_pos m energy Hm). assert (P := PI_RGT_0). destruct Hp as (Q & H & V & O). field. repeat split; lra.
  - constructor. apply (arc_integrable (stiff m energy eta0)); auto. apply (stiff_pos m energy eta0 omega); auto.
  - intros Hmin. unfold matched_area_calc. set (u := map (urf_at (am_vrf1 m) PI) (phases PI)).
    assert (N : u <> []). { unfold u. rewrite phases_pi, map_tab. apply tab_nonempty. lia. }
    destruct (max_exists u N) as [mx E1]. destruct (min_exists u N) as [mn E2].
    destruct (Hmin (residue_urf_length interp (bl * omega * am_h m) (phases PI) u PI) ((mx - mn) / 2 + mn)) as [x Ex].
    assert (V : 0 < am_vrf1 m) by apply Hp. assert (NZ : am_h m * omega <> 0) by (destruct Hp as (Q & H & V' & O); nra).
    destruct (linspace_first (left_end interp (am_vrf1 m) x) (2 * PI - left_end interp (am_vrf1 m) x) 1000 ltac:(lia)) as [G0 G1].
    eexists. eapply bind_to; [exact S1|]. eapply bind_to; [exact S2|]. eapply bind_to; [exact S3|]. eapply bind_to; [exact S4|].
    cbv zeta. eapply bind_to; [exact E1|]. eapply bind_to; [exact E2|]. eapply bind_to; [exact Ex|].
    eapply bind_to; [apply (lengths interp Hint _ V)|]. cbv beta iota. eapply bind_to; [apply (factor_ok m energy eta0 omega); auto|].
    eapply bind_to; [exact G0|]. eapply bind_to; [exact G1|]. eapply bind_to; [apply (rdiv_ok _ _ NZ)|]. reflexivity.
Qed.

(** ** Below transition *)
Lemma insert_first p l : (forall q, In q l -> fst p < fst q) -> insert_key p l = p :: l.
Proof.
  intros H. destruct l as [|q l]; simpl; [reflexivity|]. destruct (Rle_dec (fst p) (fst q)) as [L|L]; auto.
  exfalso. apply L. left. apply H. left. auto.
Qed.
Lemma sort_up n : forall h : nat -> R * R, (forall i j, (i < j)%nat -> (j < n)%nat -> fst (h i) < fst (h j)) -> sort_key (tab n h) = tab n h.
Proof.
  induction n; intros h H; [reflexivity|]. rewrite tab_cons. simpl sort_key. rewrite IHn by (intros; apply H; lia).
  apply insert_first. intros q Hq. apply in_tab in Hq. destruct Hq as (i & Hi & <-). apply H; lia.
Qed.
Lemma trapz_bound dx B : 0 <= dx -> 0 <= B -> forall l, Forall (fun y => y <= B) l -> trapz dx l <= dx * INR (length l - 1) * B.
Proof.
  intros Hd HB. induction l as [|a l IH]; intros H. { simpl. nra. }
  destruct l as [|b l]. { simpl. nra. }
  rewrite trapz_cons. inversion H; subst. specialize (IH H3). inversion H3; subst. simpl length in *.
  replace (S (S (length l)) - 1)%nat with (S (length l)) by lia. replace (S (length l) - 1)%nat with (length l) in IH by lia. rewrite S_INR. nra.
Qed.
Lemma phases_0 : phases 0 = tab 1000 (fun i => ph i - PI).
Proof.
  unfold phases, linspace. rewrite map_tab. apply tab_ext. intros i _. rewrite inr_999. unfold ph, st. field.
Qed.
Lemma urf_0 v p : urf_at v 0 p = v * (1 - cos p).
Proof. unfold urf_at. rewrite sin_0, cos_0. ring. Qed.
Lemma phases_right_0 i : (i < 500)%nat -> ph (500 + i) - PI = PI / 999 + INR i * st.
Proof. intros H. unfold ph. rewrite plus_INR. rewrite (INR_IZR_INZ 500). simpl Z.of_nat. unfold st. field. Qed.

Lemma left_0 i : (i < 1000)%nat -> ltb (ph i - PI) 0 = (i <? 500)%nat.
Proof. intros H. rewrite <- ph_left by auto. unfold ltb. destruct (Rlt_dec (ph i - PI) 0), (Rlt_dec (ph i) PI); auto; lra. Qed.
Lemma right_0 i : (i < 1000)%nat -> ltb 0 (ph i - PI) = (500 <=? i)%nat.
Proof. intros H. rewrite <- ph_right by auto. unfold ltb. destruct (Rlt_dec 0 (ph i - PI)), (Rlt_dec PI (ph i)); auto; lra. Qed.

Section Below.
Variable interp : R -> list R -> list R -> R.
Hypothesis Hint : interpolates interp.
Hypothesis Hcl : clamps interp.
Variable v : R.
Hypothesis Hv : 0 < v.
Lemma lengths_0 L : v * (1 - cos (PI / 999)) < L ->
  exists r, urf_length_at_level interp (phases 0) (map (urf_at v 0) (phases 0)) 0 L = Ok (r - - (PI / 999), r, - (PI / 999)) /\ PI / 999 <= r <= PI.
Proof.
  intros HL. assert (P := PI_RGT_0). unfold urf_length_at_level. rewrite phases_0, map_tab.
  rewrite !(mask_prefix _ 1000 500) by (try lia; apply left_0). rewrite !(mask_suffix _ 1000 500) by apply right_0.
  change (1000 - 500)%nat with 500%nat. rewrite !map_tab. rewrite combine_tab.
  set (w := fun i : nat => v * (1 - cos (PI / 999 + INR i * st))). set (g := fun i : nat => PI / 999 + INR i * st).
  assert (Hg : rising 500 g). { intros i j Hij Hj. unfold g. assert (Q := st_pos). apply lt_INR in Hij. nra. }
  assert (G0 : g 0%nat = PI / 999) by (unfold g; simpl; ring).
  assert (G1 : g (500 - 1)%nat = PI). { unfold g, st. rewrite INR_IZR_INZ. simpl Z.of_nat. field. }
  assert (Hw : rising 500 w).
  { intros i j Hij Hj. assert (A := Hg i j Hij Hj). assert (B := rising_le 500 ltac:(lia) g 0 i Hg ltac:(lia) ltac:(lia)).
    assert (C := rising_le 500 ltac:(lia) g j (500 - 1) Hg ltac:(lia) ltac:(lia)). rewrite G0 in B. rewrite G1 in C. unfold g in A, B, C. unfold w. apply Rmult_lt_compat_l; auto.
    assert (cos (PI / 999 + INR j * st) < cos (PI / 999 + INR i * st)) by (apply cos_decreasing_1; lra). lra. }
  assert (Er : tab 500 (fun i => (urf_at v 0 (ph (500 + i) - PI) - L, ph (500 + i) - PI)) = tab 500 (fun i => (w i - L, g i))).
  { apply tab_ext. intros i Hi. rewrite urf_0, phases_right_0 by auto. reflexivity. }
  rewrite Er. rewrite sort_up by (intros i j Hij Hj; cbn [fst]; assert (K := Hw i j Hij Hj); lra).
  rewrite !map_tab. cbn [fst snd].
  exists (at_level interp 500 w g L). split.
  - rewrite !np_interp_tab by lia.
    rewrite (Hcl 0 (tab 500 (fun i => urf_at v 0 (ph i - PI) - L)) (tab 500 (fun i => ph i - PI))).
    + cbn [bind]. rewrite tab_length, nth_tab by lia. rewrite ph_500. unfold at_level. replace (PI - PI / 999 - PI) with (- (PI / 999)) by ring. reflexivity.
    + rewrite tab_length. lia.
    + rewrite !tab_length. reflexivity.
    + rewrite tab_length, nth_tab by lia. rewrite urf_0, ph_500. replace (PI - PI / 999 - PI) with (- (PI / 999)) by ring. rewrite cos_neg. lra.
  - assert (K := level_range interp Hint 500 w g ltac:(lia) Hw L Hg). rewrite G0, G1 in K. exact K.
Qed.
End Below.

(** C85.  Below transition the matched area of every bunch is less than a
    fixed small number: the interpolation on the left looks for the level in a
    decreasing array. *)
Lemma C85_below_refuted_lem : forall interp minimize m idx_frame bunch_length energy eta0 omega area,
  interpolates interp -> clamps interp -> stationary_below m (frame_of m idx_frame * am_dturns m) energy eta0 omega ->
  (forall f x0 x, minimize f x0 = Ok x -> am_vrf1 m * (1 - cos (PI / 999)) < x) ->
  matched_area_calc interp minimize m bunch_length idx_frame = Ok area ->
  area <= 2 / (am_h m * omega) * (PI + PI / 999) *
    sqrt (am_q m * beta2E m energy / (PI * am_h m * eta0) * am_vrf1 m * (1 - cos (PI / 999))).
Proof.
  intros interp minimize m idx bl energy eta0 omega area Hint Hcl [S1 S2 S3 S4 Ha Hm Hp] Hmin E.
  unfold matched_area_calc in E. binv E phi_0 E1. binv E en E2. binv E et E3. binv E om E4. cbv zeta in E.
  rewrite S1 in E1. apply ok_inj in E1. subst phi_0. rewrite S2 in E2. apply ok_inj in E2. subst en.
  rewrite S3 in E3. apply ok_inj in E3. subst et. rewrite S4 in E4. apply ok_inj in E4. subst om.
  binv E mx E1. binv E mn E2. binv E L Emin. clear E1 E2. assert (V : 0 < am_vrf1 m) by apply Hp.
  apply Hmin in Emin. destruct (lengths_0 interp Hint Hcl _ V L Emin) as (r & Er & Rr).
  binv E s E1. rewrite Er in E1. apply ok_inj in E1. subst s. cbv beta iota in E.
  assert (P := PI_RGT_0). assert (B := beta2E_pos m energy Hm). destruct Hp as (Q & H & V' & O).
  binv E k E1. unfold height_factor in E1. assert (G : energy / am_e_rest m <> 0). { apply Rgt_not_eq. apply Rmult_lt_0_compat; [lra|apply Rinv_0_lt_compat; lra]. }
  rewrite rdiv_ok in E1 by lra. cbn [bind] in E1. rewrite rdiv_ok in E1 by auto. cbn [bind] in E1. assert (0 < PI * am_h m) by (apply Rmult_lt_0_compat; lra).
  rewrite rdiv_ok in E1 by nra. apply ok_inj in E1.
  assert (Ek : k = am_q m * beta2E m energy / (PI * am_h m * eta0)). { rewrite <- E1. unfold beta2E. field. repeat split; lra. }
  assert (Pk : 0 < k). { rewrite Ek. apply Rmult_lt_0_compat; [apply Rmult_lt_0_compat; auto|]. apply Rinv_0_lt_compat. apply Rmult_lt_0_compat; auto. }
  rewrite <- Ek. clear E1 Ek.
  destruct (linspace_first (- (PI / 999)) r 1000 ltac:(lia)) as [G0 G1].
  binv E p0 E1. rewrite G0 in E1. apply ok_inj in E1. subst p0. binv E p1 E1. rewrite G1 in E1. apply ok_inj in E1. subst p1.
  binv E ff E1. rewrite rdiv_ok in E1 by nra. apply ok_inj in E1. subst ff. apply ok_inj in E.
  assert (F : 0 < 2 / (am_h m * omega)). { apply Rmult_lt_0_compat; [lra|]. apply Rinv_0_lt_compat. nra. }
  rewrite <- E. rewrite Rmult_assoc. apply Rmult_le_compat_l; [lra|].
  set (T := sqrt (k * am_vrf1 m * (1 - cos (PI / 999)))).
  assert (HT : 0 <= T) by apply sqrt_pos.
  assert (D0 : 0 <= (r - - (PI / 999)) / INR (1000 - 1)) by (rewrite inr_999; lra).
  eapply Rle_trans.
  - apply (trapz_bound _ T); [lra|auto|]. apply Forall_forall. intros y Hy. apply in_map_iff in Hy. destruct Hy as (p & <- & _).
    unfold height. rewrite sin_0, cos_neg. destruct (Rlt_dec _ 0); [auto|]. rewrite Rabs_right by (apply Rle_ge, sqrt_pos). apply sqrt_le_1_alt.
    assert (C := COS_bound p). assert (0 < k * am_vrf1 m) by (apply Rmult_lt_0_compat; auto).
    replace (k * (am_vrf1 m * (cos p - cos (PI / 999)) + (p - - (PI / 999)) * am_vrf1 m * 0)) with (k * am_vrf1 m * (cos p - cos (PI / 999))) by ring. nra.
  - rewrite map_length. unfold linspace. rewrite tab_length.
    replace (- (PI / 999) + (r - - (PI / 999)) / INR (1000 - 1) - - (PI / 999)) with ((r - - (PI / 999)) / INR (1000 - 1)) by ring.
    rewrite inr_999. apply Rmult_le_compat_r; auto. replace ((r - - (PI / 999)) / 999 * 999) with (r + PI / 999) by field. lra.
Qed.

(** ** A machine *)
Definition mach : amachine := AMachine 0 1 [PI] [2] [-1] [PI] 1 1 1 1 0.
Lemma mach_above : stationary_above mach (frame_of mach None * am_dturns mach) 2 (-1) PI.
Proof. constructor; try reflexivity; cbn; try lra. assert (P := PI_RGT_0). lra. Qed.
Definition mach_low : amachine := AMachine 0 1 [0] [2] [1] [PI] 1 1 1 1 0.
Lemma mach_low_below : stationary_below mach_low (frame_of mach_low None * am_dturns mach_low) 2 1 PI.
Proof. constructor; try reflexivity; cbn; try lra. assert (P := PI_RGT_0). lra. Qed.
(** A minimiser that only accepts its first guess. *)
Definition guess (f : R -> res R) (x0 : R) : res R :=
  match f x0 with Ok a => if Req_EM_T a 0 then Ok x0 else Fail (Raised ValueError) | Fail e => Fail e end.
Lemma guess_finds : finds_minimum guess.
Proof.
  intros f x0 x a Hf E Ea y b Eb. unfold guess in E. destruct (f x0) as [c|] eqn:Ec; [|discriminate]. destruct (Req_EM_T c 0); [|discriminate]. apply ok_inj in E. subst x.
  rewrite Ec in Ea. apply ok_inj in Ea. subst a c. eapply Hf; eauto.
Qed.
Lemma area_instance interp : interpolates interp -> exists bunch_length area,
  2 * PI / 999 <= bunch_length * PI * am_h mach <= 2 * PI /\ matched_area_calc interp guess mach bunch_length None = Ok area.
Proof.
  intros Hint. destruct mach_above as [S1 S2 S3 S4 Ha Hm Hp]. assert (P := PI_RGT_0).
  set (u := map (urf_at (am_vrf1 mach) PI) (phases PI)).
  assert (N : u <> []). { unfold u. rewrite phases_pi, map_tab. apply tab_nonempty. lia. }
  destruct (max_exists u N) as [mx E1]. destruct (min_exists u N) as [mn E2]. assert (V : 0 < am_vrf1 mach) by apply Hp.
  set (x := (mx - mn) / 2 + mn). assert (Rl := left_range interp Hint _ V x). set (l := left_end interp (am_vrf1 mach) x) in *.
  exists ((2 * PI - 2 * l) / PI). 
  assert (Eb : (2 * PI - 2 * l) / PI * PI * am_h mach = 2 * PI - 2 * l) by (cbn; field; lra).
  assert (NZ : am_h mach * PI <> 0) by (cbn; lra). destruct (linspace_first l (2 * PI - l) 1000 ltac:(lia)) as [G0 G1].
  eexists. split; [rewrite Eb; lra|].
  unfold matched_area_calc. eapply bind_to; [exact S1|]. eapply bind_to; [exact S2|]. eapply bind_to; [exact S3|]. eapply bind_to; [exact S4|].
  cbv zeta. eapply bind_to; [exact E1|]. eapply bind_to; [exact E2|]. eapply bind_to.
  { unfold guess. rewrite Eb. fold u. fold x. unfold u. rewrite (residue_at interp Hint _ V (2 * PI - 2 * l) x). fold l. destruct (Req_EM_T _ 0) as [Q|Q]; [reflexivity|]. exfalso. apply Q. ring. }
  eapply bind_to; [apply (lengths interp Hint _ V)|]. cbv beta iota. eapply bind_to; [apply (factor_ok mach 2 (-1) PI); auto|].
  eapply bind_to; [exact G0|]. eapply bind_to; [exact G1|]. eapply bind_to; [apply (rdiv_ok _ _ NZ)|]. reflexivity.
Qed.
Lemma below_instance interp : interpolates interp -> clamps interp -> exists minimize : (R -> res R) -> R -> res R,
  (forall f x0 x, minimize f x0 = Ok x -> am_vrf1 mach_low * (1 - cos (PI / 999)) < x) /\
  forall bunch_length, exists area, matched_area_calc interp minimize mach_low bunch_length None = Ok area.
Proof.
  intros Hint Hcl. destruct mach_low_below as [S1 S2 S3 S4 Ha Hm Hp]. assert (P := PI_RGT_0). exists (fun _ _ => Ok 1).
  assert (C : 0 < cos (PI / 999)) by (apply cos_gt_0; lra). assert (V : 0 < am_vrf1 mach_low) by apply Hp.
  assert (Hl : am_vrf1 mach_low * (1 - cos (PI / 999)) < 1) by (cbn; lra). split. { intros f x0 x E. apply ok_inj in E. subst. auto. }
  intros bl. destruct (lengths_0 interp Hint Hcl _ V 1 Hl) as (r & Er & Rr).
  set (u := map (urf_at (am_vrf1 mach_low) 0) (phases 0)) in *.
  assert (N : u <> []). { unfold u. rewrite phases_0, map_tab. apply tab_nonempty. lia. }
  destruct (max_exists u N) as [mx E1]. destruct (min_exists u N) as [mn E2].
  assert (NZ : am_h mach_low * PI <> 0) by (cbn; lra). destruct (linspace_first (- (PI / 999)) r 1000 ltac:(lia)) as [G0 G1].
  eexists. unfold matched_area_calc. eapply bind_to; [exact S1|]. eapply bind_to; [exact S2|]. eapply bind_to; [exact S3|]. eapply bind_to; [exact S4|].
  cbv zeta. eapply bind_to; [exact E1|]. eapply bind_to; [exact E2|]. eapply bind_to; [reflexivity|]. eapply bind_to; [exact Er|]. cbv beta iota.
  eapply bind_to. { unfold height_factor. cbn [am_e_rest mach_low am_q am_h]. rewrite rdiv_ok by lra. cbn [bind]. rewrite rdiv_ok by lra. cbn [bind]. apply rdiv_ok. lra. }
  eapply bind_to; [exact G0|]. eapply bind_to; [exact G1|]. eapply bind_to; [apply (rdiv_ok _ _ NZ)|]. reflexivity.
Qed.

(*EX*)
(** A machine above transition, with a bunch for which a minimiser succeeds. *)
Example C85_nonvacuous : stationary_above mach (frame_of mach None * am_dturns mach) 2 (-1) PI /\ finds_minimum guess /\
  exists bunch_length area, 2 * PI / 999 <= bunch_length * PI * am_h mach <= 2 * PI /\
    matched_area_calc piecewise guess mach bunch_length None = Ok area.
Proof. split; [exact mach_above|split; [exact guess_finds|exact (area_instance piecewise (proj1 C85_interp_lem))]]. Qed.
(** And one below transition. *)
Example C85_below_nonvacuous : stationary_below mach_low (frame_of mach_low None * am_dturns mach_low) 2 1 PI /\
  exists minimize, (forall f x0 x, minimize f x0 = Ok x -> am_vrf1 mach_low * (1 - cos (PI / 999)) < x) /\
    forall bunch_length, exists area, matched_area_calc piecewise minimize mach_low bunch_length None = Ok area.
Proof. split; [exact mach_low_below|exact (below_instance piecewise (proj1 C85_interp_lem) (proj2 C85_interp_lem))]. Qed.
(*XE*)
