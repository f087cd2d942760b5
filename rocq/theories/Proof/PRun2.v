(** Lemmas on a whole reconstruction: invariance, and no access outside an
    array. *)
From Coq Require Import List ZArith QArith Qcanon Bool Lia Arith String.
From Verif Require Import Base.Res Base.QcLib Model.MRecon Model.MTrack Model.MParticles Model.MImage Model.MPreproc Model.MInput Model.MRun
  Spec.TomoSpec Spec.TrackSpec Spec.ParticleSpec Spec.InputSpec Spec.PreprocSpec Spec.RunSpec Spec.ReconSpec.
From Verif Require Import Base.ResLemmas Base.QcLemmas Base.Loops Proof.PRecon Proof.PHybrid Proof.PTomo Proof.PParticles
  Proof.CParticles Proof.CPreproc Proof.CInput Proof.PTrack Proof.PTrack2 Proof.CTrack Proof.CRecon Proof.CImage Proof.PWide Proof.PRun.
Import ListNotations.
Local Open Scope Qc_scope.

(** * Raw data changed element by element *)
Lemma chunk_map : forall A B (f : A -> B) n k l, chunk n k (map f l) = map (map f) (chunk n k l).
Proof. intros. unfold chunk. rewrite map_tab. apply tab_ext. intros. rewrite skipn_map, firstn_map. reflexivity. Qed.
Lemma slice_from_map : forall A B (f : A -> B) l a, slice_from (map f l) a = map f (slice_from l a).
Proof. intros. unfold slice_from. rewrite map_length, skipn_map. reflexivity. Qed.

Lemma to_waterfall_map : forall A B (f : A -> B) fr raw,
  to_waterfall fr (map f raw) = (wf <- to_waterfall fr raw ;; Ok (map (map f) wf)).
Proof.
  intros. unfold to_waterfall. rewrite map_length. destruct (negb _); auto. destruct (assert_frame_inputs fr); auto. cbn [bind].
  rewrite chunk_map, slice_from_map. destruct (0 <? f_skip_end fr)%Z; cbn [bind]; f_equal; rewrite !map_map; apply map_ext; intros.
  - apply slice_map.
  - apply slice_from_map.
Qed.

Lemma cols_map : forall A B (f : A -> B) (wf : list (list A)),
  match map (map f) wf with [] => 0%nat | r :: _ => List.length r end = match wf with [] => 0%nat | r :: _ => List.length r end.
Proof. intros. destruct wf; simpl; auto. apply map_length. Qed.

(** * Scaling *)
Section Scale.
Variable a : Qc.
Hypothesis Ha : 0 < a.
Let sc := map (map (Qcmult a)).

Lemma sc_ne : a <> 0. Proof. apply Qclt_ne. exact Ha. Qed.

Lemma qsum_sc : forall l, qsum (map (Qcmult a) l) = a * qsum l.
Proof. intros. rewrite (qsum_map_scale Qc a (fun x => x)). rewrite map_id. reflexivity. Qed.

Lemma baseline_sc : forall wf ref percent,
  calc_baseline (sc wf) ref percent = (b <- calc_baseline wf ref percent ;; Ok (a * b)).
Proof.
  intros. unfold calc_baseline. destruct (_ || _)%bool; auto. unfold sc. rewrite np_get_map. destruct (np_get wf ref) as [row|]; auto. cbn [bind].
  rewrite map_length, slice_map, qsum_sc. unfold qdiv. destruct (qeqb _ 0); auto. cbn [bind]. f_equal. unfold Qcdiv. ring.
Qed.

Lemma dividable_sc : forall wf nb r, rebin_dividable (sc wf) nb r = (x <- rebin_dividable wf nb r ;; Ok (sc x)).
Proof.
  intros. unfold rebin_dividable. destruct (negb _); auto. cbn [bind]. f_equal. unfold sc. rewrite map_length, <- concat_map.
  rewrite (chunk_map _ _ (Qcmult a) (nb / r * List.length wf)). rewrite <- (chunk_map _ _ (Qcmult a) (List.length wf) (nb / r)). rewrite !map_map.
  replace (map (fun x => qsum (map (Qcmult a) x)) (chunk (nb / r * List.length wf) r (List.concat wf)))
    with (map (fun x => a * qsum x) (chunk (nb / r * List.length wf) r (List.concat wf))) by (apply map_ext; intros; symmetry; apply qsum_sc). reflexivity.
Qed.

Lemma last_sc : forall wf nb r, rebin_last (sc wf) nb r = (x <- rebin_last wf nb r ;; Ok (map (Qcmult a) x)).
Proof.
  intros. unfold rebin_last. destruct (qdiv _ _) as [f|]; auto. cbn [bind]. f_equal. unfold sc. rewrite !map_map. apply map_ext. intros.
  rewrite slice_from_map, qsum_sc. ring.
Qed.

Lemma individable_sc : forall wf nb r, rebin_individable (sc wf) nb r = (x <- rebin_individable wf nb r ;; Ok (sc x)).
Proof.
  intros. unfold rebin_individable. cbv zeta.
  replace (map (fun row => slice row 0 (Z.of_nat (nb / r * r))) (sc wf)) with (sc (map (fun row => slice row 0 (Z.of_nat (nb / r * r))) wf)).
  2:{ unfold sc. rewrite !map_map. apply map_ext. intros. symmetry. apply slice_map. }
  rewrite dividable_sc. destruct (rebin_dividable _ _ _) as [first|]; auto. cbn [bind]. rewrite last_sc.
  destruct (rebin_last wf nb r) as [last|]; auto. cbn [bind]. f_equal. unfold sc. revert last. induction first; intros [|z last]; simpl; auto.
  rewrite IHfirst, map_app. reflexivity.
Qed.

Lemma rebin_sc : forall wf nb r dt sx, rebin (sc wf) nb r dt sx = (' (w, d, x) <- rebin wf nb r dt sx ;; Ok (sc w, d, x)).
Proof.
  intros. unfold rebin. destruct (Nat.eqb r 0); auto.
  assert (E : (if Nat.eqb (nb mod r) 0 then rebin_dividable (sc wf) nb r else rebin_individable (sc wf) nb r) =
     (x <- (if Nat.eqb (nb mod r) 0 then rebin_dividable wf nb r else rebin_individable wf nb r) ;; Ok (sc x))).
  { destruct (Nat.eqb (nb mod r) 0); [apply dividable_sc|apply individable_sc]. }
  rewrite E. clear E. destruct (if Nat.eqb (nb mod r) 0 then _ else _) as [w|]; [|reflexivity]. cbn [bind]. destruct sx as [x|]; [|reflexivity]. destruct (qdiv x (qn r)); reflexivity.
Qed.

Lemma clip_sc : forall wf, clip_rows (sc wf) = sc (clip_rows wf).
Proof.
  intros. unfold clip_rows, sc. rewrite !map_map. apply map_ext. intros. rewrite !map_map. apply map_ext. intros x.
  destruct (qltb_spec (a * x) 0) as [P|P]; destruct (qltb_spec x 0) as [Q|Q]; auto; try ring; exfalso.
  - assert (0 <= a * x) by (apply Qcmul_nonneg; auto using Qclt_le_weak). qclra.
  - assert (0 < a * - x) by qcnra. qclra.
Qed.

Lemma qabs_sc : forall x, qabs (a * x) = a * qabs x.
Proof.
  intros x. unfold qabs. destruct (qltb_spec (a * x) 0) as [P|P]; destruct (qltb_spec x 0) as [Q|Q]; auto; try ring; exfalso.
  - assert (0 <= a * x) by (apply Qcmul_nonneg; auto using Qclt_le_weak). qclra.
  - assert (0 < a * - x) by qcnra. qclra.
Qed.

Lemma set_waterfall_sc : forall m nb wf, set_waterfall (Profiles m None) nb (sc wf) =
  let '(p, e) := set_waterfall (Profiles m None) nb wf in
  (Profiles (pf_machine p) (option_map (fun w => (fst w, sc (snd w))) (pf_waterfall p)), e).
Proof.
  intros. unfold set_waterfall. cbn [pf_machine]. replace (List.length (sc wf)) with (List.length wf) by (unfold sc; rewrite map_length; auto).
  destruct (negb _); [reflexivity|]. cbv zeta. rewrite clip_sc. cbn [pf_machine pf_waterfall].
  replace (qsum (map qsum (map (map qabs) (sc (clip_rows wf))))) with (a * qsum (map qsum (map (map qabs) (clip_rows wf)))).
  2:{ rewrite <- qsum_sc. f_equal. unfold sc. rewrite !map_map. apply map_ext. intros r. rewrite <- qsum_sc, !map_map. f_equal. apply map_ext.
      intros. symmetry. apply qabs_sc. }
  destruct (qeqb_spec (a * qsum (map qsum (map (map qabs) (clip_rows wf)))) 0) as [P|P];
  destruct (qeqb_spec (qsum (map qsum (map (map qabs) (clip_rows wf)))) 0) as [Q|Q]; auto; exfalso.
  - apply Qcmul_eq_0 in P. destruct P as [P|P]; auto. exact (sc_ne P).
  - apply P. rewrite Q. ring.
Qed.

Lemma raw_profiles_sc : forall wf nb m rbn dt, raw_data_to_profiles (sc wf) nb m rbn dt =
  (p <- raw_data_to_profiles wf nb m rbn dt ;; Ok (Profiles (pf_machine p) (option_map (fun w => (fst w, sc (snd w))) (pf_waterfall p)))).
Proof.
  intros. unfold raw_data_to_profiles. rewrite baseline_sc. destruct (calc_baseline wf _ _) as [b|]; auto. cbn [bind].
  replace (map (map (fun v => v - a * b)) (sc wf)) with (sc (map (map (fun v => v - b)) wf)).
  2:{ unfold sc. rewrite !map_map. apply map_ext. intros. rewrite !map_map. apply map_ext. intros. ring. }
  rewrite rebin_sc. destruct (rebin _ nb rbn _ _) as [[[w d] x]|]; auto. cbn [bind]. destruct d as [d|]; auto. destruct x as [x|]; auto.
  replace (match sc w with [] => 0%nat | r :: _ => List.length r end) with (match w with [] => 0%nat | r :: _ => List.length r end)
    by (unfold sc; rewrite cols_map; auto).
  rewrite set_waterfall_sc. destruct (set_waterfall _ _ w) as [p [e|]]; reflexivity.
Qed.

Lemma same_profile_sc : forall wf, Forall2 same_profile wf (sc wf).
Proof.
  induction wf; constructor; auto. exists a. split; auto. clear - Ha. induction a0 as [|a0 l]; constructor; auto. unfold ReconSpec.pos.
  destruct (qltb_spec (a * a0) 0) as [P|P]; destruct (qltb_spec a0 0) as [Q|Q]; auto; try ring; exfalso.
  - assert (0 <= a * a0) by (apply Qcmul_nonneg; auto using Qclt_le_weak). qclra.
  - assert (0 < a * - a0) by qcnra. qclra.
Qed.
End Scale.

(** * No access outside an array *)
Definition safe {A} (r : res A) : Prop := match r with Fail OutOfBounds | Fail OutOfFuel => False | _ => True end.
Lemma safe_bind : forall A B (r : res A) (f : A -> res B), safe r -> (forall x, r = Ok x -> safe (f x)) -> safe (bind r f).
Proof. intros A B [x|e] f H1 H2; simpl; auto. Qed.
Lemma safe_ok : forall A (x : A), safe (Ok x). Proof. intros. exact I. Qed.
Lemma safe_raised : forall A e, safe (Fail (A := A) (Raised e)). Proof. intros. exact I. Qed.
Lemma safe_notfinite : forall A, safe (Fail (A := A) NotFinite). Proof. intros. exact I. Qed.
Lemma safe_mapM : forall A B (f : A -> res B) l, (forall x, In x l -> safe (f x)) -> safe (mapM f l).
Proof.
  intros A B f. unfold mapM. induction l; intros H; simpl; [exact I|]. apply safe_bind; [apply H; left; auto|]. intros y _.
  apply safe_bind; [apply IHl; intros; apply H; right; auto|]. intros; exact I.
Qed.
Lemma safe_qdiv : forall x y, safe (qdiv x y). Proof. intros. unfold qdiv. destruct (qeqb y 0); exact I. Qed.
Lemma safe_np_get : forall A (l : list A) i, safe (np_get l i).
Proof.
  intros. unfold np_get. cbv zeta. set (j := if (i <? 0)%Z then (i + Z.of_nat (List.length l))%Z else i).
  destruct (Z.ltb_spec j 0); [exact I|]. destruct (Z.leb_spec (Z.of_nat (List.length l)) j); [exact I|]. cbn [orb].
  unfold get. destruct (Z.ltb_spec j 0); [lia|]. destruct (nth_error l (Z.to_nat j)) eqn:E; [exact I|]. apply nth_error_None in E. lia.
Qed.
Lemma safe_get : forall A (l : list A) z, (0 <= z < Z.of_nat (List.length l))%Z -> safe (get l z).
Proof.
  intros. unfold get. destruct (Z.ltb_spec z 0); [lia|]. destruct (nth_error l (Z.to_nat z)) eqn:E; [exact I|]. apply nth_error_None in E. lia.
Qed.
Lemma safe_not_none : forall A (v : option A) e, safe (not_none v e). Proof. intros A [x|] e; exact I. Qed.
Lemma safe_finite : forall x, safe (finite x). Proof. intros x. destruct x; exact I. Qed.
Lemma safe_lift : forall A (p : A * option exn), safe (lift_exn p). Proof. intros A [x [e|]]; exact I. Qed.

Ltac safe_step :=
  match goal with
  | |- safe (bind _ _) => apply safe_bind; [|intros]
  | |- safe (Ok _) => exact I
  | |- safe (Fail (Raised _)) => exact I
  | |- safe (np_get _ _) => apply safe_np_get
  | |- safe (not_none _ _) => apply safe_not_none
  | |- safe (finite _) => apply safe_finite
  | |- safe (qdiv _ _) => apply safe_qdiv
  | |- safe (lift_exn _) => apply safe_lift
  | |- safe (mapM _ _) => apply safe_mapM; intros
  | |- safe (if ?b then _ else _) => destruct b
  | |- safe (let '(_, _) := ?p in _) => destruct p
  | |- safe (match ?o with Some _ => _ | None => _ end) => destruct o
  end.

Lemma near_cases : forall n L sn, near_image n L -> (0 < sn)%nat ->
  inside_image n L \/ homogeneous_coords sn (ql_imin L) (ql_imax L) (ql_jmin L) (ql_jmax L) = Fail (Raised IndexError).
Proof.
  intros n L sn (N1 & N2 & N3 & N4 & N5 & N6 & i & N7 & N8) Hs. destruct (Z.eq_dec (ql_imax L) (Z.of_nat n)) as [E|E].
  - right. apply wide_fails; auto; [lia|]. exists i. split; [lia|]. split; [lia|auto].
  - left. repeat split; auto; try lia; apply N6; auto.
Qed.
Lemma near_inside : forall n L sn c, near_image n L -> (0 < sn)%nat ->
  homogeneous_coords sn (ql_imin L) (ql_imax L) (ql_jmin L) (ql_jmax L) = Ok c -> inside_image n L.
Proof. intros n L sn c N Hs E. destruct (near_cases n L sn N Hs); auto. congruence. Qed.

Section Safe.
Variable to_int : string -> res Z.
Variable to_float : string -> res pyfloat.
Variable turn_values : imachine -> res tvals.
Variable fit : imachine -> tvals -> pmachine -> list (list Qc) -> res (Qc * Qc * Qc).
Variable find_limits : imachine -> tvals -> pmachine -> res qlimits.
Variable sin sqrt : Qc -> Qc.
Variable past : Qc.
Hypothesis Hint : forall s, safe (to_int s).
Hypothesis Hfloat : forall s, safe (to_float s).
Hypothesis Hturns : forall m, safe (turn_values m).
Hypothesis Hfit : forall m tv cur wf, safe (fit m tv cur wf).
Hypothesis Hlim : forall m tv cur, safe (find_limits m tv cur).
Hypothesis Eturns : forall m tv, turn_values m = Ok tv -> every_turn m tv.
Hypothesis Elim : forall m tv cur L, find_limits m tv cur = Ok L -> near_image (Z.to_nat (p_nbins cur)) L.

Lemma safe_assert_machine : forall m, safe (assert_machine_input m).
Proof.
  intros. unfold assert_machine_input, assert_greater, assert_greater_or_equal, fassert_greater, fassert_greater_or_equal, guard. cbv zeta.
  repeat safe_step.
Qed.

Lemma safe_txt : forall lines, safe (txt_input_to_machine to_int to_float (fun m => _ <- turn_values m ;; Ok tt) lines).
Proof.
  intros. unfold txt_input_to_machine, min_max_dt. cbv zeta. destruct (negb _); [exact I|].
  repeat (first [apply Hint | apply Hfloat | apply Hturns | apply safe_assert_machine | safe_step]).
Qed.

Lemma safe_read : forall lines raw, safe (read_machine to_int to_float turn_values fit lines raw).
Proof.
  intros. unfold read_machine. apply safe_bind; [apply safe_txt|]. intros [im tf] E1. apply safe_bind; [apply Hturns|]. intros tv _.
  apply safe_bind.
  { unfold to_waterfall. destruct (negb _); [exact I|]. destruct (assert_frame_inputs_iff (tf_frames tf)) as [[_ X]|[_ X]]; rewrite X; exact I. }
  intros wf0 E3. do 3 (apply safe_bind; [first [apply safe_finite|apply safe_not_none]|intros ? _]).
  assert (RB : (0 < Z.to_nat (f_rebin (tf_frames tf)))%nat).
  { unfold to_waterfall in E3. destruct (negb _); [discriminate|].
    destruct (assert_frame_inputs_iff (tf_frames tf)) as [[OK _]|[_ X]]; [|rewrite X in E3; discriminate].
    unfold frames_ok in OK. lia. }
  destruct (C39_cells_lem _ _ _ _ E3) as (R & P1 & P2 & _). clear E3.
  set (n := Z.to_nat (f_nprofs (tf_frames tf))) in *. set (m0 := Z.to_nat (f_nbins (tf_frames tf))) in *.
  assert (Hn : (0 < n)%nat) by lia. rewrite (cols_rect _ _ _ _ R Hn). cbv zeta. apply safe_bind.
  { unfold raw_data_to_profiles. apply safe_bind.
    { unfold calc_baseline. destruct (_ || _)%bool; [exact I|]. repeat safe_step. }
    intros b _. cbv zeta.
    destruct (rebin_rect n m0 (Z.to_nat (f_rebin (tf_frames tf))) (map (map (fun v => v - b)) wf0) (Some x)
      (Some (p_synch_x (PMachine (im_nprofiles im) (im_nbins im) (qz (im_nbins im) / qz 2) x0 x x1))) (map2_rect _ _ _ _ _ _ R) RB ltac:(lia))
      as (o & k & E1' & _). rewrite E1'. cbn [bind option_map]. apply safe_lift. }
  intros pf _. apply safe_bind; [apply safe_not_none|]. intros [w1 w2] _. apply safe_bind; [|intros; exact I].
  destruct (qltb _ 0); [|exact I]. apply safe_bind; [apply Hfit|]. intros [[u v] w] _. exact I.
Qed.

Lemma safe_coord : forall m, safe (coord_machine m). Proof. intros. unfold coord_machine. repeat safe_step. Qed.
Lemma safe_track_machine : forall m z, safe (track_machine past m z). Proof. intros. unfold track_machine. cbv zeta. repeat safe_step. Qed.
Lemma safe_checks : forall a b c d, safe (track_checks a b c d).
Proof.
  intros. unfold track_checks, assert_index_ok. apply safe_bind.
  - repeat (match goal with |- context [if ?b then _ else _] => destruct b end; try exact I).
  - intros. repeat safe_step.
Qed.

Lemma safe_track : forall m wf n k r, machine_ok m wf n k -> every_turn (rm_set m) (rm_turns m) -> safe (track_auto find_limits sin past m r).
Proof.
  intros m wf n k r M ET. unfold track_auto.
  apply safe_bind; [apply safe_not_none|]. intros d E1. apply not_none_some in E1.
  apply safe_bind; [apply safe_checks|]. intros pz E2.
  apply safe_bind; [apply Hlim|]. intros L E3.
  apply safe_bind; [apply safe_not_none|]. intros sn E4. apply not_none_some in E4.
  apply safe_bind; [apply safe_coord|]. intros cm E5. apply coord_machine_ok in E5. destruct E5 as (h & d' & E5a & E5b & ->).
  assert (d' = d) by congruence. subst d'. clear E5b.
  destruct (ac_dturns _ (mo_acc _ _ _ _ M)) as (d1 & D1 & Hd). assert (d1 = d) by congruence. subst d1.
  destruct (ac_snpt _ (mo_acc _ _ _ _ M)) as (s1 & S1 & Hs). assert (s1 = sn) by congruence. subst s1.
  set (dn := Z.to_nat d). assert (Hdn : d = Z.of_nat dn) by (unfold dn; lia).
  rewrite (mo_nprofs _ _ _ _ M) in *. cbv zeta. set (np := Z.to_nat (Z.of_nat n)). assert (np = n) by (unfold np; lia). clearbody np. subst np.
  assert (Hn := mo_n _ _ _ _ M).
  assert (CK := E2). apply track_checks_ok in CK.
  assert (PN : exists p, pz = Z.of_nat p /\ (S p < n)%nat /\ profile_number n r p).
  { exists (Z.to_nat pz). unfold profile_number. destruct (Z.ltb_spec r 0) in CK; nia. }
  destruct PN as (p & -> & Hp & PN).
  assert (LN : forall l, In l [tv_vrf1 (rm_turns m); tv_vrf2 (rm_turns m); tv_phi0 (rm_turns m); tv_deltaE0 (rm_turns m);
     tv_drift (rm_turns m); tv_omega (rm_turns m)] -> List.length l = (dn * (n - 1) + 1)%nat).
  { intros l Hl. assert (X := ET _ _ E1 Hl). rewrite (mo_set _ _ _ _ M) in X. nia. }
  apply safe_bind.
  { unfold homogeneous_distribution. destruct (near_cases _ _ (Z.to_nat sn) (Elim _ _ _ _ E3) ltac:(lia)) as [II| ->]; [|exact I].
    destruct (starting_ok sin sqrt past _ _ (Z.to_nat sn) II ltac:(lia)) as (c & -> & _). cbn [bind]. unfold bin_nr_to_physical. cbv zeta.
    cbn [c_dturns c_omega c_phi0 c_hnum c_dtbin c_synch_y fst snd].
    apply safe_bind; [apply safe_get; rewrite LN by (simpl; tauto); nia|]. intros.
    apply safe_bind; [apply safe_get; rewrite LN by (simpl; tauto); nia|]. intros. exact I. }
  intros [ph de] E6. apply safe_bind; [apply safe_track_machine|]. intros tm E7. apply safe_bind; [|intros; exact I].
  unfold track_machine in E7.
  apply bind_ok in E7. destruct E7 as [q [Eq E7]]. apply bind_ok in E7. destruct E7 as [p12 [Ep E7]].
  apply bind_ok in E7. destruct E7 as [h0 [Eh E7]]. apply bind_ok in E7. destruct E7 as [hr [Ehr E7]].
  assert (LL : List.length ph = List.length de).
  { unfold homogeneous_distribution in E6. apply bind_ok in E6. destruct E6 as [c [_ B]]. unfold bin_nr_to_physical in B. cbn [fst snd] in B.
    apply bind_ok in B. destruct B as [om [_ B]]. apply bind_ok in B. destruct B as [p0 [_ B]]. injection B as <- <-. rewrite !map_length. auto. }
  assert (HO : exists F, holds tm F (dn * (n - 1))).
  { injection E7 as <-.
    exists (TrackSpec.Params (fun t => nth t (tv_vrf1 (rm_turns m)) 0 * q) (fun t => nth t (tv_vrf2 (rm_turns m)) 0 * q)
      (fun t => nth t (tv_phi0 (rm_turns m)) 0) (fun t => if Nat.ltb t (dn * (n - 1)) then p12 else past)
      (fun t => nth t (tv_deltaE0 (rm_turns m)) 0) (fun t => nth t (tv_drift (rm_turns m)) 0) hr).
    split; [reflexivity|]. intros t Ht.
    assert (LT : forall l, In l [tv_vrf1 (rm_turns m); tv_vrf2 (rm_turns m); tv_phi0 (rm_turns m); tv_deltaE0 (rm_turns m);
     tv_drift (rm_turns m); tv_omega (rm_turns m)] -> (t < List.length l)%nat) by (intros l Hl; rewrite LN by auto; lia).
    cbn [rf1v rf2v MTrack.phi0 MTrack.phi12 deltaE0 drift_coef v1 v2 ph0 ph12 dE coef].
    rewrite !nth_error_map. rewrite !(at_nth _ _ _ 0) by (apply LT; simpl; tauto).
    cbn [option_map]. split; auto. split; auto. split; auto. split; [|split; apply at_nth, LT; simpl; tauto].
    replace (Z.to_nat (d * (Z.of_nat n - 1))) with (dn * (n - 1))%nat by nia.
    destruct (Nat.ltb_spec t (dn * (n - 1))).
    - rewrite nth_error_app1 by (rewrite repeat_length; auto). rewrite (nth_error_nth' _ p12) by (rewrite repeat_length; auto).
      rewrite nth_repeat. auto.
    - rewrite nth_error_app2 by (rewrite repeat_length; auto). rewrite repeat_length. replace (t - dn * (n - 1))%nat with 0%nat by lia. auto. }
  destruct HO as [F HO].
  destruct (C01_track_rows_lem _ Qcplus Qcminus Qcmult sin 0 F tm n dn p r ph de false ltac:(lia) Hp (proj2 PN) HO LL) as (st & E' & _).
  unfold track in E'. rewrite <- Hdn, E2 in E'. cbn [bind] in E'. cbv zeta in E'. rewrite E'. exact I.
Qed.

Lemma safe_prepared : forall m wf n k r L dphi den, machine_ok m wf n k -> every_turn (rm_set m) (rm_turns m) ->
  track_auto find_limits sin past m r = Ok (L, dphi, den) -> safe (prepared m L dphi den).
Proof.
  intros m wf n k r L dphi den M ET E.
  destruct (track_auto_ok find_limits sin sqrt past _ _ _ _ _ _ _ _ M ET E) as (s & p & c & S & Hd & Hs & Hp & PN & FL & HC & L1 & L2 & Rows).
  unfold prepared. apply safe_bind; [apply safe_coord|]. intros cm Ec. apply coord_machine_ok in Ec. destruct Ec as (h & d & Ec1 & Ec2 & Ecm).
  destruct S as (S1 & S2 & S3 & S4 & S5 & S6). assert (d = Z.of_nat (n_dturns s)) by congruence. subst d.
  assert (LN : forall l, In l [tv_vrf1 (rm_turns m); tv_vrf2 (rm_turns m); tv_phi0 (rm_turns m); tv_deltaE0 (rm_turns m);
     tv_drift (rm_turns m); tv_omega (rm_turns m)] -> List.length l = (n_dturns s * (n - 1) + 1)%nat).
  { intros l Hl. assert (X := ET _ _ S5 Hl). rewrite (mo_set _ _ _ _ M) in X. nia. }
  apply safe_bind.
  { unfold physical_to_coords. destruct (negb _); [exact I|]. apply safe_bind; [|intros; repeat safe_step].
    apply safe_mapM. intros [i row] Hi. apply in_combine_l in Hi. apply in_seq in Hi. cbn [fst snd]. rewrite Ecm. cbn [c_phi0 c_omega c_dturns]. cbv zeta.
    apply safe_bind; [apply safe_get; rewrite LN by (simpl; tauto); nia|]. intros.
    apply safe_bind; [apply safe_get; rewrite LN by (simpl; tauto); nia|]. intros. repeat safe_step. }
  intros [X Y] Ep. cbv zeta.
  assert (RR : exists K, rectangular n K X /\ rectangular n K Y).
  { exists (List.length c). unfold physical_to_coords in Ep. destruct (negb _); [discriminate|].
    apply bind_ok in Ep. destruct Ep as [X' [P1 Ep]]. apply bind_ok in Ep. destruct Ep as [Y' [P2 Ep]]. injection Ep as <- <-.
    assert (RD : forall q row, nth_error dphi q = Some row -> List.length row = List.length c).
    { intros q row H. assert (q < n)%nat by (rewrite <- L1; apply nth_error_Some; congruence). destruct (Rows q H0) as [R1 _]. rewrite H in R1. injection R1 as ->. rewrite !map_length. auto. }
    assert (RE : forall q row, nth_error den q = Some row -> List.length row = List.length c).
    { intros q row H. assert (q < n)%nat by (rewrite <- L2; apply nth_error_Some; congruence). destruct (Rows q H0) as [_ R1]. rewrite H in R1. injection R1 as ->. rewrite !map_length. auto. }
    apply mapM_Forall2 in P1, P2. assert (Q1 := Forall2_length _ _ _ _ _ P1). assert (Q2 := Forall2_length _ _ _ _ _ P2).
    rewrite combine_length_eq in Q1 by apply seq_length. rewrite seq_length in Q1. split; (split; [lia|]).
    - apply Forall_forall. intros row Hr. apply In_nth_error in Hr. destruct Hr as [i Hi].
      assert (exists a, nth_error (combine (seq 0 (List.length dphi)) dphi) i = Some a) as [[j b] Hb].
      { destruct (nth_error (combine (seq 0 (List.length dphi)) dphi) i) eqn:Z; eauto. apply nth_error_None in Z.
        assert (i < List.length X')%nat by (apply nth_error_Some; congruence). rewrite combine_length_eq, seq_length in Z by apply seq_length. lia. }
      assert (V := Forall2_nth_error_inv _ _ _ _ _ P1 _ _ _ Hb Hi). cbn [fst snd] in V.
      apply bind_ok in V. destruct V as [? [_ V]]. apply bind_ok in V. destruct V as [? [_ V]]. apply mapM_Forall2, Forall2_length in V.
      apply nth_error_In, in_combine_r, In_nth_error in Hb. destruct Hb as [q Hq]. rewrite <- V. eapply RD; eauto.
    - apply Forall_forall. intros row Hr. apply In_nth_error in Hr. destruct Hr as [i Hi].
      assert (exists a, nth_error den i = Some a) as [b Hb].
      { destruct (nth_error den i) eqn:Z; eauto. apply nth_error_None in Z.
        assert (i < List.length Y')%nat by (apply nth_error_Some; congruence). lia. }
      assert (V := Forall2_nth_error_inv _ _ _ _ _ P2 _ _ _ Hb Hi). apply mapM_Forall2, Forall2_length in V. rewrite <- V. eapply RE; eauto. }
  destruct RR as (K & RX & RY). assert (Hn := mo_n _ _ _ _ M).
  rewrite (cols_rect _ _ _ _ RX Hn), (cols_rect _ _ _ _ RY Hn), (mo_nbins _ _ _ _ M).
  assert (NN : Forall (Forall not_nan) (map (map Num) X)).
  { apply Forall_forall. intros r0 Hr. apply in_map_iff in Hr. destruct Hr as [r' [<- _]]. apply Forall_forall. intros v Hv.
    apply in_map_iff in Hv. destruct Hv as [v' [<- _]]. discriminate. }
  destruct (C15_ready_partial_lem n K k _ _ (map2_rect _ _ Num _ _ _ RX) (map2_rect _ _ Num _ _ _ RY) Hn NN) as (keep & SV & Q).
  destruct (ready_for_tomography _ _ K K _) as [[]|e]; [exact I|]. destruct Q as [-> _]. exact I.
Qed.

Lemma safe_run : forall lines raw rp, safe (run_parts to_int to_float turn_values fit find_limits sin sqrt past lines raw rp).
Proof.
  intros. unfold run_parts. apply safe_bind; [apply safe_read|]. intros [m wf] E1.
  destruct (read_machine_ok to_int to_float turn_values fit find_limits sin sqrt _ _ _ _ E1) as (_ & TV & n & k & M). assert (ET := Eturns _ _ TV).
  apply safe_bind; [destruct rp; [exact I|apply safe_not_none]|]. intros idx E2.
  apply safe_bind; [unfold new_tracking; destruct (qltb _ 0); exact I|]. intros u _.
  apply safe_bind; [eapply safe_track; eauto|]. intros [[L dphi] den] E4.
  apply safe_bind; [eapply safe_prepared; eauto|]. intros [x y] E5.
  assert (II : inside_image (Z.to_nat (p_nbins (rm_cur m))) L).
  { destruct (track_auto_ok find_limits sin sqrt past _ _ _ _ _ _ _ _ M ET E4) as (s & p & c & _ & _ & Hs & _ & _ & FL & HC & _).
    eapply near_inside; eauto. }
  rewrite (mo_nbins _ _ _ _ M), Nat2Z.id in II.
  destruct (coords_ok find_limits sin sqrt past _ _ _ _ _ _ _ _ _ _ M ET II E4 E5) as (s & p & c & keep & S & Hd & Hs & Hp & PN & FL & SP & AR & SI & K1 & FIX &
    Ex' & Ey' & KP & Rx & Ry & CX & CY & IX & IY).
  apply safe_bind.
  { unfold new_tomography, tomography. apply safe_bind.
    - unfold normalize_profiles. destruct (negb _); [exact I|]. repeat safe_step.
    - intros. repeat safe_step. }
  intros t E6. destruct (new_tomography_ok sin sqrt past _ _ _ _ _ _ _ _ M KP Rx Ry E6) as (RC & NP & TX & TY & _ & _ & IN).
  apply safe_bind; [apply safe_not_none|]. intros niter E7. apply not_none_some in E7.
  destruct (ac_niter _ (mo_acc _ _ _ _ M)) as (ni & N1 & N2). assert (ni = niter) by congruence. subst ni.
  assert (W := C20_weights_lem sqrt t niter RC ltac:(lia)).
  destruct (MRecon.run sqrt t niter) as [[[[w dis] rr] calls]|e]; [|destruct e; try contradiction; exact I]. cbn [bind].
  destruct W as (W1 & W2 & W3). assert (LW : List.length w = List.length keep) by congruence.
  destruct (final_image_ok sin sqrt past _ _ _ _ _ _ _ _ _ _ (ql_dEbin L) M Rx Ry PN LW W1 W2 IX IY) as (img' & F1 & _). rewrite F1. exact I.
Qed.
End Safe.

Lemma run_near : forall to_int to_float turn_values fit find_limits sin sqrt past lines raw rp pt im,
  run_parts to_int to_float turn_values fit find_limits sin sqrt past lines raw rp = Ok (pt, im) ->
  every_turn (rm_set (pt_machine pt)) (rm_turns (pt_machine pt)) ->
  near_image (Z.to_nat (p_nbins (rm_cur (pt_machine pt)))) (pt_limits pt) ->
  inside_image (Z.to_nat (p_nbins (rm_cur (pt_machine pt)))) (pt_limits pt).
Proof.
  intros ti tf tvs ft fl sin sqrt past lines raw rp pt im E ET NI. unfold run_parts in E.
  apply bind_ok in E. destruct E as [[m wf] [E1 E]].
  apply bind_ok in E. destruct E as [idx [E2 E]].
  apply bind_ok in E. destruct E as [[] [E3 E]].
  apply bind_ok in E. destruct E as [[[L dphi] den] [E4 E]].
  apply bind_ok in E. destruct E as [[x y] [E5 E]].
  apply bind_ok in E. destruct E as [t [E6 E]].
  apply bind_ok in E. destruct E as [niter [E7 E]].
  apply bind_ok in E. destruct E as [[[[w dis] rr] calls] [E8 E]].
  apply bind_ok in E. destruct E as [im' [E9 E]]. injection E as <- <-. cbn [pt_machine pt_limits] in *.
  destruct (read_machine_ok ti tf tvs ft fl sin sqrt _ _ _ _ E1) as (_ & _ & n & k & M).
  destruct (track_auto_ok fl sin sqrt past _ _ _ _ _ _ _ _ M ET E4) as (s & p & c & _ & _ & Hs & _ & _ & FL & HC & _).
  eapply near_inside; eauto.
Qed.
