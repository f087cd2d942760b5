(** Proofs of what the density scan does below transition and with
    acceleration (C86). *)
(*HEAD*)
From Coq Require Import Reals List ZArith Bool Lia Lra.
From Verif Require Import Base.Res Base.QcLib Base.RLib Model.MParticles Model.MPost Model.MArea Spec.AreaSpec Spec.ScanSpec.
Import ListNotations.
Local Open Scope R_scope.
(*DAEH*)
From Coq Require Import Psatz.
From Verif Require Import Base.ResLemmas Base.QcLemmas Base.Loops Proof.PArea Proof.PArea2 Proof.PArea3.
From Verif Require Export Proof.CArea2.

Lemma fold_min_le l : forall x, fold_left Rmin l x <= x /\ forall y, In y l -> fold_left Rmin l x <= y.
Proof.
  induction l as [|a l IH]; intros x; simpl; [split; [lra|tauto]|]. destruct (IH (Rmin x a)) as [A B].
  split; [eapply Rle_trans; [exact A|apply Rmin_l]|]. intros y [->|H]; [eapply Rle_trans; [exact A|apply Rmin_r]|auto].
Qed.
Lemma fold_min_ge c l : forall x, c <= x -> Forall (fun y => c <= y) l -> c <= fold_left Rmin l x.
Proof. induction l as [|a l IH]; intros x Hx H; simpl; auto. inversion H; subst. apply IH; auto. apply Rmin_glb; auto. Qed.
Lemma min_le l mn y : rmin_list l = Ok mn -> In y l -> mn <= y.
Proof.
  destruct l as [|x l]; [discriminate|]. intros E. apply ok_inj in E. subst mn. destruct (fold_min_le l x) as [A B].
  intros [->|H]; auto.
Qed.
Lemma min_ge c l mn : rmin_list l = Ok mn -> Forall (fun y => c <= y) l -> c <= mn.
Proof. destruct l as [|x l]; [discriminate|]. intros E H. apply ok_inj in E. subst mn. inversion H; subst. apply fold_min_ge; auto. Qed.

(** The levels of the scan. *)
Lemma linspace_le mn n a : 0 <= mn -> In a (linspace 0 mn n) -> 0 <= a <= mn.
Proof.
  intros H I. unfold linspace in I. apply in_tab in I. destruct I as (i & Hi & <-). destruct (Nat.eq_dec i 0) as [->|N]; [simpl; lra|].
  assert (P : 0 < INR (n - 1)) by (apply lt_0_INR; lia). assert (Q : INR i <= INR (n - 1)) by (apply le_INR; lia).
  assert (Z := pos_INR i). assert (S : 0 < / INR (n - 1)) by (apply Rinv_0_lt_compat; auto).
  assert (T : INR i * / INR (n - 1) <= 1). { apply (Rmult_le_reg_r (INR (n - 1))); auto. rewrite Rmult_assoc, Rinv_l by lra. lra. }
  assert (T0 : 0 <= INR i * / INR (n - 1)) by (apply Rmult_le_pos; lra).
  replace (0 + INR i * ((mn - 0) / INR (n - 1))) with (INR i * / INR (n - 1) * mn) by (unfold Rdiv; ring). split; [apply Rmult_le_pos; lra|].
  rewrite <- (Rmult_1_l mn) at 2. apply Rmult_le_compat_r; auto.
Qed.

Lemma insert_size p l : length (insert_key p l) = S (length l).
Proof. induction l as [|q l IH]; simpl; auto. destruct (Rle_dec _ _); simpl; auto. Qed.
Lemma sort_length l : length (sort_key l) = length l.
Proof. induction l as [|p l IH]; simpl; auto. rewrite insert_size, IH. reflexivity. Qed.

Section Low.
Variable interp : R -> list R -> list R -> R.
Hypothesis Hcl : clamps_left interp.
Lemma step_cos : -1 < cos (PI / 999).
Proof. assert (P := PI_RGT_0). rewrite <- cos_PI. apply cos_decreasing_1; lra. Qed.
Lemma lengths_low v L : 0 < v -> L <= v * (1 - cos (PI / 999)) ->
  exists r, urf_length_at_level interp (phases 0) (map (urf_at v 0) (phases 0)) 0 L = Ok (r - - PI, r, - PI).
Proof.
  intros V HL. assert (P := PI_RGT_0). unfold urf_length_at_level. rewrite phases_0, map_tab.
  rewrite !(mask_prefix _ 1000 500) by (try lia; apply left_0). rewrite !(mask_suffix _ 1000 500) by apply right_0.
  change (1000 - 500)%nat with 500%nat. rewrite !map_tab.
  rewrite np_interp_tab by lia. rewrite (Hcl 0 (tab 500 (fun i => urf_at v 0 (ph i - PI) - L)) (tab 500 (fun i => ph i - PI))).
  - rewrite nth_tab by lia. assert (E : ph 0 - PI = - PI) by (unfold ph; simpl; ring). rewrite E. cbn [bind].
    set (q := sort_key _). assert (Lq : length q = 500%nat). { unfold q. rewrite sort_length, combine_tab, tab_length. reflexivity. }
    unfold np_interp. rewrite !map_length, Lq. cbn [Nat.eqb negb bind]. eexists. reflexivity.
  - rewrite tab_length. lia.
  - rewrite !tab_length. reflexivity.
  - rewrite tab_length, nth_tab by lia. rewrite urf_0, ph_500. replace (PI - PI / 999 - PI) with (- (PI / 999)) by ring. rewrite cos_neg. lra.
  - rewrite nth_tab by lia. assert (E : ph 0 - PI = - PI) by (unfold ph; simpl; ring). rewrite E, urf_0, cos_neg, cos_PI.
    assert (C := step_cos). nra.
Qed.

Lemma amplitudes_low m n amps a : 0 < am_vrf1 m -> amplitudes m 0 n = Ok amps -> In a amps -> a <= am_vrf1 m * (1 - cos (PI / 999)).
Proof.
  intros V E I. unfold amplitudes in E. binv E mn E1. apply ok_inj in E. subst amps.
  rewrite phases_0, map_tab in E1. assert (Z : 0 <= mn).
  { eapply min_ge; [exact E1|]. apply Forall_forall. intros y Hy. apply in_tab in Hy. destruct Hy as (i & _ & <-). rewrite urf_0. assert (C := COS_bound (ph i - PI)). nra. }
  apply linspace_le in I; auto. destruct I as [_ I]. eapply Rle_trans; [exact I|].
  eapply min_le; [exact E1|]. apply in_tab. exists (500 - 1)%nat. split; [lia|]. rewrite urf_0, ph_500. replace (PI - PI / 999 - PI) with (- (PI / 999)) by ring. rewrite cos_neg. reflexivity.
Qed.

Variables (m : amachine) (turn : Z) (energy eta0 omega : R).
Hypothesis Hst : stationary_below m turn energy eta0 omega.
Lemma low_factor : height_factor m energy eta0 = Ok (am_q m * beta2E m energy / (PI * am_h m * eta0)).
Proof.
  destruct Hst as [_ _ _ _ Ha Hm (Q & H & V & O)]. assert (P := PI_RGT_0). unfold height_factor.
  assert (G : energy / am_e_rest m <> 0). { apply Rgt_not_eq. apply Rmult_lt_0_compat; [lra|apply Rinv_0_lt_compat; lra]. }
  rewrite rdiv_ok by lra. cbn [bind]. rewrite rdiv_ok by auto. cbn [bind]. assert (0 < PI * am_h m) by (apply Rmult_lt_0_compat; lra).
  rewrite rdiv_ok by nra. f_equal. unfold beta2E. field. repeat split; lra.
Qed.
Lemma low_contour matched n amps a : amplitudes m 0 n = Ok amps -> In a amps ->
  contour interp m 0 energy eta0 matched a = Ok (map (bucket_edge m energy eta0) matched).
Proof.
  intros E I. assert (Hp := sb_pos _ _ _ _ _ Hst). assert (V : 0 < am_vrf1 m) by apply Hp.
  apply (amplitudes_low _ _ _ _ V E) in I. destruct (lengths_low _ _ V I) as [r R].
  unfold contour. cbv zeta. eapply bind_to; [exact R|]. cbv beta iota. eapply bind_to; [apply low_factor|]. f_equal. apply map_ext. intros p.
  unfold height, bucket_edge. rewrite sin_0, cos_neg, cos_PI.
  replace (am_vrf1 m * (cos p - -1) + (p - - PI) * am_vrf1 m * 0) with (am_vrf1 m * (1 + cos p)) by ring. rewrite <- Rmult_assoc.
  assert (B := beta2E_pos m energy (sb_moving _ _ _ _ _ Hst)). assert (P := PI_RGT_0). assert (Ha := sb_below _ _ _ _ _ Hst). destruct Hp as (Q & H & V' & O).
  assert (K : 0 < am_q m * beta2E m energy / (PI * am_h m * eta0) * am_vrf1 m).
  { apply Rmult_lt_0_compat; auto. apply Rmult_lt_0_compat; [apply Rmult_lt_0_compat; auto|]. apply Rinv_0_lt_compat. apply Rmult_lt_0_compat; auto. apply Rmult_lt_0_compat; auto. }
  assert (C := COS_bound p). destruct (Rlt_dec _ 0) as [D|D]; [exfalso; nra|]. apply Rabs_right. apply Rle_ge, sqrt_pos.
Qed.
End Low.

(** C86.  Refuted below transition without acceleration: whatever the
    amplitude, the contour is the edge of the bucket. *)
Lemma C86_below_contour_refuted_lem : forall interp m turn energy eta0 omega matched n amps a,
  clamps_left interp -> stationary_below m turn energy eta0 omega ->
  amplitudes m 0 n = Ok amps -> In a amps ->
  contour interp m 0 energy eta0 matched a = Ok (map (bucket_edge m energy eta0) matched).
Proof. intros interp m turn energy eta0 omega matched n amps a Hcl Hst. apply (low_contour interp Hcl m turn energy eta0 omega Hst). Qed.

Lemma amplitude_same interp m p0 en et om img tm dE matched a b : contour interp m p0 en et matched a = contour interp m p0 en et matched b ->
  amplitude_data interp m p0 en et om img tm dE matched a = amplitude_data interp m p0 en et om img tm dE matched b.
Proof. intros H. unfold amplitude_data. rewrite H. reflexivity. Qed.

(** C86.  So the scan returns the same emittance and the same densities for all
    amplitudes, also for the centre. *)
Lemma C86_below_refuted_lem : forall interp m img time_array dE n_points idx_frame energy eta0 omega l,
  clamps_left interp -> stationary_below m (frame_of m idx_frame * am_dturns m) energy eta0 omega ->
  density_vs_emittance interp m img time_array dE n_points idx_frame = Ok l ->
  exists c, l = repeat c n_points.
Proof.
  intros interp m img tm dE n idx energy eta0 omega l Hcl Hst E. destruct Hst as [S1 S2 S3 S4 S5 S6 S7] eqn:X. clear X.
  unfold density_vs_emittance in E. cbv zeta in E. rewrite S1, S2, S3, S4 in E. cbn [bind] in E.
  binv E matched E1. binv E amps E2. binv E l0 E3.
  assert (LA : length amps = n). { unfold amplitudes in E2. binv E2 mn E4. apply ok_inj in E2. subst amps. unfold linspace. apply tab_length. }
  destruct (mapM_nth _ _ _ _ _ 0 (CData 0 0 0 0 0) E3) as [L0 N0]. rewrite LA in L0, N0.
  assert (C : forall i, (i < n)%nat -> nth i l0 (CData 0 0 0 0 0) = nth 0 l0 (CData 0 0 0 0 0)).
  { intros i Hi. assert (Hn : (0 < n)%nat) by lia. assert (A := N0 i Hi). assert (B := N0 0%nat Hn).
    rewrite (amplitude_same _ _ _ _ _ _ _ _ _ _ _ (nth 0 amps 0)) in A.
    - rewrite A in B. injection B. auto.
    - rewrite !(low_contour interp Hcl m _ energy eta0 omega Hst matched n amps) by (auto; apply nth_In; lia). reflexivity. }
  assert (R : l0 = repeat (nth 0 l0 (CData 0 0 0 0 0)) n).
  { apply (nth_ext _ _ (CData 0 0 0 0 0) (CData 0 0 0 0 0)); [rewrite repeat_length; auto|]. intros i Hi. rewrite L0 in Hi. rewrite C by auto.
    symmetry. apply (repeat_spec n). apply nth_In. rewrite repeat_length. auto. }
  exists (nth 0 l0 (CData 0 0 0 0 0)). set (c := nth 0 l0 _) in *. clearbody c. subst l0. unfold extrapolated in E. binv E c0 G0.
  destruct (Req_EM_T (cd_local c0) 0) as [Z|Z]; [|apply ok_inj in E; auto]. exfalso.
  binv E c2 G2. binv E c1 G1. binv E sl G3.
  apply (np_get_nat _ (repeat c n) 2 _ c) in G2. apply (np_get_nat _ (repeat c n) 1 _ c) in G1. destruct G2 as [G2 ->], G1 as [G1 ->].
  rewrite repeat_length in *. assert (Q : forall i, (i < n)%nat -> nth i (repeat c n) c = c).
  { intros i Hi. apply (repeat_spec n). apply nth_In. rewrite repeat_length. auto. }
  rewrite !Q in G3 by auto. unfold rdiv in G3. destruct (Req_EM_T (cd_emittance c - cd_emittance c) 0); [discriminate|lra].
Qed.

Lemma search_cons interp m p0 en et om matched target a l : search_contour interp m p0 en et om matched target (a :: l) =
  bind (contour interp m p0 en et matched a) (fun heights => bind (contour_emittance m om matched heights) (fun em =>
    if leb target em then Ok heights
    else match l with [] => Ok heights | _ => search_contour interp m p0 en et om matched target l end)).
Proof. reflexivity. Qed.
Lemma low_search interp m turn energy eta0 omega matched n amps target h : clamps_left interp -> stationary_below m turn energy eta0 omega ->
  amplitudes m 0 n = Ok amps -> forall l, incl l amps ->
  search_contour interp m 0 energy eta0 omega matched target l = Ok h -> h = map (bucket_edge m energy eta0) matched.
Proof.
  intros Hcl Hst EA. induction l as [|a l IH]; intros IN E; [discriminate|].
  rewrite search_cons in E. rewrite (low_contour interp Hcl m _ energy eta0 omega Hst matched n amps a EA (IN a (or_introl eq_refl))) in E. apply bind_ok in E. destruct E as (h0 & E0 & E).
  apply ok_inj in E0. subst h0. apply bind_ok in E. destruct E as (em & _ & E). destruct (leb target em); [apply ok_inj in E; auto|]. destruct l as [|b l]; [apply ok_inj in E; auto|].
  apply IH; auto. intros z Hz. apply IN. right. auto.
Qed.
Lemma phases_low m tm omega matched : time_phases m tm omega 0 = Ok matched ->
  matched = map (fun t => am_h m * omega * (t - am_synch_x m * (nth 1 tm 0 - nth 0 tm 0))) tm.
Proof.
  intros E1. unfold time_phases in E1. binv E1 t0 G0. binv E1 t1 G1. cbv zeta in E1. apply ok_inj in E1. subst matched.
  apply (np_get_nat _ tm 0 _ 0) in G0. apply (np_get_nat _ tm 1 _ 0) in G1. destruct G0 as [_ G0], G1 as [_ G1]. rewrite G0, G1. apply map_ext. intros t. ring.
Qed.
Lemma clipping_inv interp m tm dE mx my ws target n idx w hs marks : tomo_weight_clipping interp m tm dE mx my ws target n idx = Ok (w, hs, marks) ->
  let turn := (frame_of m idx * am_dturns m)%Z in
  exists p0 en et om matched amps, np_get (am_phi0 m) turn = Ok p0 /\ np_get (am_e0 m) turn = Ok en /\ np_get (am_eta0 m) turn = Ok et /\
    np_get (am_omega m) turn = Ok om /\ time_phases m tm om p0 = Ok matched /\ amplitudes m p0 n = Ok amps /\
    search_contour interp m p0 en et om matched target amps = Ok hs.
Proof.
  intros E turn. unfold tomo_weight_clipping in E. cbv zeta in E. fold turn in E.
  binv E p0 E1. binv E en E2. binv E et E3. binv E om E4. binv E matched E5. binv E amps E6. binv E h E7.
  exists p0, en, et, om, matched, amps. do 6 (split; [assumption|]). rewrite E7.
  binv E xs G4. binv E ys G5. binv E st G6. destruct st as [w0 mm]. binv E w1 G7. apply ok_inj in E. inversion E. reflexivity.
Qed.

(** C86.  And the contour used for clipping weights is the edge of the bucket,
    whatever emittance is wanted. *)
Lemma C86_below_clip_refuted_lem : forall interp m time_array dE map_x map_y weights target n_points idx_frame energy eta0 omega w heights marks,
  clamps_left interp -> stationary_below m (frame_of m idx_frame * am_dturns m) energy eta0 omega ->
  tomo_weight_clipping interp m time_array dE map_x map_y weights target n_points idx_frame = Ok (w, heights, marks) ->
  heights = map (fun t => bucket_edge m energy eta0 (am_h m * omega * (t - am_synch_x m * (nth 1 time_array 0 - nth 0 time_array 0)))) time_array.
Proof.
  intros interp m tm dE mx my ws target n idx energy eta0 omega w hs marks Hcl Hst E. apply clipping_inv in E. cbv zeta in E.
  destruct E as (p0 & en & et & om & matched & amps & E1 & E2 & E3 & E4 & E5 & E6 & E7).
  rewrite (sb_phi _ _ _ _ _ Hst) in E1. rewrite (sb_energy _ _ _ _ _ Hst) in E2. rewrite (sb_eta _ _ _ _ _ Hst) in E3. rewrite (sb_omega _ _ _ _ _ Hst) in E4.
  apply ok_inj in E1, E2, E3, E4. subst p0 en et om.
  rewrite (low_search interp m _ energy eta0 omega matched n amps target hs Hcl Hst E6 amps (incl_refl _) E7).
  rewrite (phases_low _ _ _ _ E5). apply map_map.
Qed.

(** ** With acceleration *)
Lemma tangent_cos psi phi : 0 < psi < PI / 2 -> - psi <= phi <= PI - psi -> cos phi <= cos psi - (phi - psi) * sin psi.
Proof.
  intros Hp Hf. assert (P := PI_RGT_0).
  destruct (Rtotal_order phi psi) as [L|[->|L]]; [| lra |].
  - destruct (MVT_cor2 cos (fun x => - sin x) phi psi L) as (c & E & Hc); [intros; apply derivable_pt_lim_cos|].
    assert (sin c <= sin psi) by (apply sin_incr_1; lra). nra.
  - destruct (MVT_cor2 cos (fun x => - sin x) psi phi L) as (c & E & Hc); [intros; apply derivable_pt_lim_cos|].
    assert (sin psi <= sin c). { destruct (Rle_lt_dec c (PI / 2)). { apply sin_incr_1; lra. } rewrite <- (sin_PI_x c). apply sin_incr_1; lra. } nra.
Qed.

(** C86.  Refuted with acceleration above transition.  The lowest level in the
    bucket is that of the unstable phase pi - phi_0; the last amplitude of the
    scan is lower by 2 phi_0 V sin(phi_0), so that no phase on the left of
    phi_0 has it. *)
Lemma C86_accelerated_refuted_lem : forall m phi_0 n amps, PI / 2 < phi_0 < PI -> 0 < am_vrf1 m -> (2 <= n)%nat ->
  amplitudes m phi_0 n = Ok amps ->
  let level := urf_at (am_vrf1 m) phi_0 in
  nth (n - 1) amps 0 <= level (PI - phi_0) - 2 * phi_0 * am_vrf1 m * sin phi_0 /\
  forall phi, phi_0 - PI <= phi <= phi_0 -> level (PI - phi_0) <= level phi /\ nth (n - 1) amps 0 < level phi.
Proof.
  intros m p0 n amps Hp V Hn E level. assert (P := PI_RGT_0). unfold amplitudes in E. binv E mn E1. apply ok_inj in E.
  assert (LA : nth (n - 1) amps 0 = mn). { subst amps. unfold linspace. rewrite nth_tab by lia. assert (0 < INR (n - 1)) by (apply lt_0_INR; lia). field. lra. }
  assert (ED : mn <= level (p0 + PI)).
  { eapply min_le; [exact E1|]. apply in_map. unfold phases. apply in_map_iff. exists PI. split; auto. unfold linspace. apply in_tab. exists 999%nat. split; [lia|].
    rewrite inr_999. rewrite (INR_IZR_INZ 999). simpl Z.of_nat. field. }
  assert (S : 0 < sin p0) by (apply sin_gt_0; lra).
  assert (LV : level (p0 + PI) = level (PI - p0) - 2 * p0 * am_vrf1 m * sin p0).
  { unfold level, urf_at. rewrite neg_cos. replace (PI - p0) with (- (p0 - PI)) by ring. rewrite cos_neg. replace (p0 - PI) with (- (PI - p0)) at 1 by ring.
    rewrite cos_neg, Rtrigo_facts.cos_pi_minus. ring. }
  assert (LO : forall phi, p0 - PI <= phi <= p0 -> level (PI - p0) <= level phi).
  { intros phi Hf. assert (T := tangent_cos (PI - p0) phi ltac:(lra) ltac:(lra)). rewrite Rtrigo_facts.cos_pi_minus in T. rewrite sin_PI_x in T.
    unfold level, urf_at. rewrite Rtrigo_facts.cos_pi_minus. nra. }
  rewrite LA. split; [lra|]. intros phi Hf. split; auto. specialize (LO phi Hf).
  assert (0 < 2 * p0 * am_vrf1 m * sin p0) by (repeat apply Rmult_lt_0_compat; lra). lra.
Qed.

(** ** A machine *)
Lemma piecewise_left : clamps_left piecewise.
Proof.
  intros x xp fp Hl E H1 H2. unfold piecewise. destruct (Rlt_dec _ x); [lra|].
  destruct xp as [|a [|b xp]], fp as [|u [|v fp]]; simpl in *; try lia; auto. destruct (Rle_dec x a); [auto|lra].
Qed.
Lemma low_instance : exists amps c,
  amplitudes mach_low 0 2 = Ok amps /\ length amps = 2%nat /\
  density_vs_emittance piecewise mach_low [[1; 1; 1]; [0; 0; 0]] [0; 1] [- top_height; 0; top_height] 2 None = Ok [c; c] /\ 0 < cd_emittance c /\
  PI / 2 < 3 * PI / 4 < PI /\ 0 < am_vrf1 mach /\ exists amps, amplitudes mach (3 * PI / 4) 2 = Ok amps.
Proof.
  assert (Hint := proj1 C85_interp_lem). assert (P := H_pos). assert (PP := PI_RGT_0). fold top_height in P.
  assert (N : map (urf_at (am_vrf1 mach_low) 0) (phases 0) <> []). { rewrite phases_0, map_tab. apply tab_nonempty. lia. }
  destruct (min_exists _ N) as [mn Em].
  assert (EA : amplitudes mach_low 0 2 = Ok (linspace 0 mn 2)). { unfold amplitudes. rewrite Em. reflexivity. }
  set (amps := linspace 0 mn 2) in *. assert (LA : length amps = 2%nat) by (unfold amps, linspace; apply tab_length).
  assert (T : time_phases mach_low [0; 1] PI 0 = Ok [0; PI]).
  { unfold time_phases. change (np_get [0; 1] 0) with (Ok 0). change (np_get [0; 1] 1) with (Ok 1). cbn. do 2 f_equal; [ring|f_equal; ring]. }
  assert (EH : map (bucket_edge mach_low 2 1) [0; PI] = [top_height; 0]).
  { cbn [map]. unfold bucket_edge, top_height, stiff. rewrite cos_0, cos_PI. f_equal.
    - f_equal. cbn. unfold beta2E. cbn. field. lra.
    - f_equal. rewrite <- sqrt_0. f_equal. ring. }
  set (img := [[1; 1; 1]; [0; 0; 0]]). set (dE := [- top_height; 0; top_height]).
  assert (S : rsum (map rsum img) = 3) by (simpl; lra).
  assert (AD : forall a, In a amps -> exists c, 0 < cd_emittance c /\ cd_local c = 1 /\ amplitude_data piecewise mach_low 0 2 1 PI img [0; 1] dE [0; PI] a = Ok c).
  { intros a I. unfold amplitude_data. rewrite (low_contour piecewise piecewise_left mach_low _ 2 1 PI mach_low_below [0; PI] 2 amps a EA I). rewrite EH. cbn [bind].
    assert (F : for_ 0 (length [0; 1]) (density_step piecewise img dE [top_height; 0]) (DState 0 0 0 None 0) = Ok (DState (0 + 2 * (top_height / top_height)) 1 (0 + (1 + 1) / 2) (Some (Rmin 1 1)) (Rmax (Rmax 0 1) 1))).
    { cbn [length for_]. unfold density_step at 1. change (np_get [top_height; 0] (Z.of_nat 0)) with (Ok top_height). cbn [bind].
      destruct (Req_EM_T top_height 0); [lra|]. change (np_get img (Z.of_nat 0)) with (Ok [1; 1; 1]). cbn [bind].
      unfold dE. rewrite (small_column3 piecewise Hint top_height P ltac:(lra)). cbn [bind ds_sum ds_n ds_local ds_min ds_max min_inf].
      unfold density_step. change (np_get [top_height; 0] (Z.of_nat (0 + 1))) with (Ok 0). change (np_get [top_height; 0] (Z.of_nat 1)) with (Ok 0). cbn [bind].
      destruct (Req_EM_T 0 0); [|lra]. reflexivity. }
    rewrite F. cbn [bind ds_n ds_min ds_sum ds_local ds_max]. rewrite S. rewrite rdiv_ok by lra. cbn [bind].
    unfold contour_emittance. change (np_get [0; PI] 0) with (Ok 0). change (np_get [0; PI] 1) with (Ok PI). cbn [bind]. rewrite rdiv_ok by (cbn; lra). cbn [bind trapz].
    eexists. split; [|split; [|reflexivity]]; cbn [cd_emittance cd_local].
    - cbn [am_h mach_low]. replace (2 / (1 * PI) * ((PI - 0) * (top_height + 0) / 2 + 0)) with top_height by (field; lra). auto.
    - simpl INR. lra. }
  assert (E0 : amps = [nth 0 amps 0; nth 1 amps 0]). { clearbody amps. destruct amps as [|x [|y [|z l]]]; try discriminate. reflexivity. }
  destruct (AD (nth 0 amps 0)) as (c & C1 & C2 & C3); [apply nth_In; lia|].
  destruct (AD (nth 1 amps 0)) as (d & D1 & D2 & D3); [apply nth_In; lia|].
  assert (CD : d = c).
  { rewrite (amplitude_same _ _ _ _ _ _ _ _ _ _ _ (nth 0 amps 0)) in D3.
    - rewrite C3 in D3. injection D3. auto.
    - rewrite !(low_contour piecewise piecewise_left mach_low _ 2 1 PI mach_low_below [0; PI] 2 amps) by (auto; apply nth_In; lia). reflexivity. }
  subst d. exists amps, c. split; [auto|]. split; [auto|]. split; [|split; [auto|split; [lra|split; [cbn; lra|]]]].
  2:{ assert (N' : map (urf_at (am_vrf1 mach) (3 * PI / 4)) (phases (3 * PI / 4)) <> []). { unfold phases, linspace. rewrite !map_tab. apply tab_nonempty. lia. }
      destruct (min_exists _ N') as [mn' Em']. unfold amplitudes. rewrite Em'. eexists. reflexivity. }
  unfold density_vs_emittance. cbv zeta.
  destruct mach_low_below as [S1 S2 S3 S4 _ _ _].
  eapply bind_to; [exact S1|]. eapply bind_to; [exact S2|]. eapply bind_to; [exact S3|]. eapply bind_to; [exact S4|]. eapply bind_to; [exact T|]. eapply bind_to; [exact EA|].
  eapply bind_to. { rewrite E0. unfold mapM. cbn [map sequence]. fold img dE. rewrite C3. cbn [bind]. rewrite D3. reflexivity. }
  unfold extrapolated. change (np_get [c; c] 0) with (Ok c). cbn [bind]. destruct (Req_EM_T (cd_local c) 0); [lra|reflexivity].
Qed.
(*EX*)
(** A machine below transition: both amplitudes have the same emittance, which
    is not 0; and one with a phase of 3/4 pi above transition. *)
Example C86_below_ex : clamps_left piecewise /\ stationary_below mach_low (frame_of mach_low None * am_dturns mach_low) 2 1 PI /\
  exists amps c, amplitudes mach_low 0 2 = Ok amps /\ length amps = 2%nat /\
  density_vs_emittance piecewise mach_low [[1; 1; 1]; [0; 0; 0]] [0; 1] [- top_height; 0; top_height] 2 None = Ok [c; c] /\ 0 < cd_emittance c /\
  PI / 2 < 3 * PI / 4 < PI /\ 0 < am_vrf1 mach /\ exists amps, amplitudes mach (3 * PI / 4) 2 = Ok amps.
Proof. exact (conj piecewise_left (conj mach_low_below low_instance)). Qed.
(*XE*)
