(** Lemmas on a whole reconstruction: what each stage returns. *)
From Coq Require Import List ZArith QArith Qcanon Bool Lia Arith String.
From Verif Require Import Base.Res Base.QcLib Model.MRecon Model.MTrack Model.MParticles Model.MImage Model.MPreproc Model.MInput Model.MRun
  Spec.TomoSpec Spec.TrackSpec Spec.ParticleSpec Spec.InputSpec Spec.PreprocSpec Spec.RunSpec.
From Verif Require Import Base.ResLemmas Base.QcLemmas Base.Loops Proof.PRecon Proof.PHybrid Proof.PTomo Proof.PParticles
  Proof.CParticles Proof.CPreproc Proof.CInput Proof.PTrack Proof.PTrack2 Proof.CTrack Proof.CRecon Proof.CImage.
Import ListNotations.
Local Open Scope Qc_scope.

Lemma rebin_rect : forall n m r wf dt sx, rectangular n m wf -> (0 < r)%nat -> (0 < m)%nat ->
  exists out k, rebin wf m r dt sx = Ok (out, option_map (fun d => d * qn r) dt, option_map (fun x => x / qn r) sx) /\
    rectangular n k out /\ (0 < k)%nat /\ (m <= k * r < m + r)%nat.
Proof.
  intros n m r wf dt sx R Hr Hm. assert (D := Nat.div_mod m r ltac:(lia)). assert (U := Nat.mod_upper_bound m r ltac:(lia)).
  set (q := (m / r)%nat) in *. set (s := (m mod r)%nat) in *. assert (E : m = (q * r + s)%nat) by lia. clear D.
  destruct (Nat.eq_dec s 0) as [Z|N].
  - rewrite Z, Nat.add_0_r in E. rewrite E in R |- *. destruct (C36_divisible_lem n q r wf dt sx R Hr) as (o & E1 & R1 & _).
    exists o, q. split; auto. split; auto. nia.
  - rewrite E in R |- *. destruct (C36_remainder_partial_lem n q r s wf dt sx R ltac:(lia) U) as (o & E1 & R1 & _).
    exists o, (q + 1)%nat. split; auto. split; auto. nia.
Qed.

Lemma clip_nonneg : forall wf, Forall (Forall (fun v => 0 <= v)) (clip_rows wf).
Proof.
  intros. unfold clip_rows. apply Forall_forall. intros r Hr. apply in_map_iff in Hr. destruct Hr as [r' [<- _]].
  apply Forall_forall. intros v Hv. apply in_map_iff in Hv. destruct Hv as [v' [<- _]].
  destruct (qltb_spec v' 0); auto. apply Qcle_refl.
Qed.
Lemma clip_rect : forall n k wf, rectangular n k wf -> rectangular n k (clip_rows wf).
Proof.
  intros n k wf [L F]. unfold clip_rows. split; [rewrite map_length; auto|]. apply Forall_forall. intros r Hr.
  apply in_map_iff in Hr. destruct Hr as [r' [<- Hr]]. rewrite map_length. rewrite Forall_forall in F. auto.
Qed.
Lemma map2_rect : forall A B (f : A -> B) n k wf, rectangular n k wf -> rectangular n k (map (map f) wf).
Proof.
  intros A B f n k wf [L F]. split; [rewrite map_length; auto|]. apply Forall_forall. intros r Hr.
  apply in_map_iff in Hr. destruct Hr as [r' [<- Hr]]. rewrite map_length. rewrite Forall_forall in F. auto.
Qed.
Lemma cols_rect : forall A n k (wf : list (list A)), rectangular n k wf -> (0 < n)%nat ->
  match wf with [] => 0%nat | r :: _ => List.length r end = k.
Proof. intros A n k wf [L F] Hn. destruct wf; [simpl in L; lia|]. inversion F. auto. Qed.

(** The profiles made of a table of raw data. *)
Lemma raw_profiles : forall n m wf pm rbn dt pf, rectangular n m wf -> (0 < n)%nat -> (0 < m)%nat -> (0 < rbn)%nat ->
  raw_data_to_profiles wf m pm rbn dt = Ok pf ->
  exists base out k, calc_baseline wf (p_beam_ref pm) (qq 1 20) = Ok base /\
    rebin (map (map (fun v => v - base)) wf) m rbn (Some dt) (Some (p_synch_x pm)) =
      Ok (out, Some (dt * qn rbn), Some (p_synch_x pm / qn rbn)) /\
    rectangular n k out /\ (0 < k)%nat /\ p_nprofiles pm = Z.of_nat n /\
    pf = Profiles (PMachine (p_nprofiles pm) (Z.of_nat k) (qz (Z.of_nat k) / qz 2) (p_synch_x pm / qn rbn) (dt * qn rbn) (p_beam_ref pm))
           (Some (k, clip_rows out)).
Proof.
  intros n m wf pm rbn dt pf R Hn Hm Hr E. unfold raw_data_to_profiles in E.
  destruct (calc_baseline wf (p_beam_ref pm) (qq 1 20)) as [b|]; [|discriminate]. cbn [bind] in E.
  destruct (rebin_rect n m rbn (map (map (fun v => v - b)) wf) (Some dt) (Some (p_synch_x pm)) (map2_rect _ _ _ _ _ _ R) Hr Hm)
    as (o & k & E1 & R1 & Hk & _).
  rewrite E1 in E. cbn [bind option_map] in E. rewrite (cols_rect _ _ _ _ R1 Hn) in E.
  exists b, o, k. split; auto. split; [exact E1|]. split; auto. split; auto.
  unfold set_waterfall in E. cbn [pf_machine p_nprofiles] in E. rewrite (proj1 R1) in E.
  destruct (Z.eqb_spec (Z.of_nat n) (p_nprofiles pm)) as [N|]; [|discriminate]. cbn [negb] in E. split; auto.
  destruct (qeqb _ 0); [discriminate|]. cbn in E. inversion E; subst. reflexivity.
Qed.

(** What is known after the input has been read. *)
Record machine_ok (m : rmachine) (wf : list (list Qc)) (n k : nat) : Prop := {
  mo_nprofs : p_nprofiles (rm_cur m) = Z.of_nat n; mo_set : im_nprofiles (rm_set m) = Z.of_nat n; mo_n : (0 < n)%nat;
  mo_nbins : p_nbins (rm_cur m) = Z.of_nat k; mo_k : (0 < k)%nat;
  mo_synch_y : p_synch_y (rm_cur m) = qz (Z.of_nat k) / qz 2;
  mo_rect : rectangular n k wf; mo_nonneg : Forall (Forall (fun v => 0 <= v)) wf;
  mo_acc : acceptable (rm_set m) }.

Lemma combine_length_eq : forall A B (a : list A) (b : list B), List.length a = List.length b -> List.length (combine a b) = List.length a.
Proof. intros. rewrite combine_length. lia. Qed.

Section Stages.
Variable to_int : string -> res Z.
Variable to_float : string -> res pyfloat.
Variable turn_values : imachine -> res tvals.
Variable fit : imachine -> tvals -> pmachine -> list (list Qc) -> res (Qc * Qc * Qc).
Variable find_limits : imachine -> tvals -> pmachine -> res qlimits.
Variable sin sqrt : Qc -> Qc.
Variable past : Qc.

Lemma read_machine_ok : forall lines raw m wf, read_machine to_int to_float turn_values fit lines raw = Ok (m, wf) ->
  (exists f, documented to_int to_float lines (rm_set m) f) /\ turn_values (rm_set m) = Ok (rm_turns m) /\
  exists n k, machine_ok m wf n k.
Proof.
  intros lines raw m wf E. unfold read_machine in E.
  destruct (txt_input_to_machine _ _ _ lines) as [[im tf]|] eqn:E1; [|discriminate]. cbn [bind] in E.
  apply C42_lines_lem in E1. destruct E1 as (_ & D & A & _).
  destruct (turn_values im) as [tv|] eqn:E2; [|discriminate]. cbn [bind] in E.
  destruct (to_waterfall (tf_frames tf) raw) as [wf0|] eqn:E3; [|discriminate]. cbn [bind] in E.
  destruct (finite (tf_dtbin tf)) as [dt|]; [|discriminate]. cbn [bind] in E.
  destruct (finite (im_synch_part_x im)) as [sx|]; [|discriminate]. cbn [bind] in E.
  destruct (not_none (im_beam_ref_frame im) TypeError) as [br|]; [|discriminate]. cbn [bind] in E.
  assert (RB : (0 < Z.to_nat (f_rebin (tf_frames tf)))%nat).
  { unfold to_waterfall in E3. destruct (negb _); [discriminate|].
    destruct (assert_frame_inputs_iff (tf_frames tf)) as [[OK _]|[_ X]]; [|rewrite X in E3; discriminate].
    unfold frames_ok in OK. lia. }
  destruct (C39_cells_lem _ _ _ _ E3) as (R & P1 & P2 & _). clear E3.
  set (n := Z.to_nat (f_nprofs (tf_frames tf))) in *. set (m0 := Z.to_nat (f_nbins (tf_frames tf))) in *.
  assert (Hn : (0 < n)%nat) by lia. rewrite (cols_rect _ _ _ _ R Hn) in E.
  match type of E with bind ?a _ = _ => destruct a as [pf|] eqn:E4; [|discriminate] end. cbn [bind] in E.
  destruct (raw_profiles n m0 _ _ _ _ _ R Hn ltac:(lia) RB E4) as (b & o & k & _ & _ & Ro & Hk & Np & ->). clear E4.
  cbn [pf_waterfall pf_machine not_none bind p_synch_x p_nprofiles p_beam_ref] in E, Np.
  match type of E with bind ?a _ = _ => destruct a as [pm|] eqn:E5; [|discriminate] end. cbn [bind] in E.
  inversion E; subst m wf; clear E. cbn [rm_set rm_turns rm_cur].
  split; [eauto|]. split; [auto|]. exists n, k.
  assert (p_nprofiles pm = im_nprofiles im /\ p_nbins pm = Z.of_nat k /\ p_synch_y pm = qz (Z.of_nat k) / qz 2) as (Q1 & Q2 & Q3).
  { destruct (qltb _ 0) in E5.
    - destruct (fit _ _ _ _) as [[[x y] z]|] in E5; [|discriminate]. cbn [bind] in E5. inversion E5. cbn. auto.
    - inversion E5. cbn. auto. }
  constructor; cbn [rm_set rm_turns rm_cur]; auto; try congruence.
  - apply clip_rect. auto.
  - apply clip_nonneg.
Qed.

Lemma finite_fin : forall x q, finite x = Ok q -> x = Fin q.
Proof. intros x q H. destruct x; inversion H; auto. Qed.
Lemma not_none_some : forall A (v : option A) e x, not_none v e = Ok x -> v = Some x.
Proof. intros A [a|] e x H; inversion H; auto. Qed.

Lemma coord_machine_ok : forall m cm, coord_machine m = Ok cm -> exists h d,
  im_h_num (rm_set m) = Some (Fin h) /\ im_dturns (rm_set m) = Some d /\
  cm = CMachine h (tv_omega (rm_turns m)) (p_dtbin (rm_cur m)) (tv_phi0 (rm_turns m)) d (p_synch_y (rm_cur m)).
Proof.
  intros m cm E. unfold coord_machine in E.
  apply bind_ok in E. destruct E as [h0 [E1 E]]. apply not_none_some in E1.
  apply bind_ok in E. destruct E as [h [E2 E]]. apply finite_fin in E2. subst h0.
  apply bind_ok in E. destruct E as [d [E3 E]]. apply not_none_some in E3. inversion E. eauto.
Qed.

Lemma at_nth : forall A (l : list A) t d, (t < List.length l)%nat -> nth_error l t = Some (nth t l d).
Proof. intros. apply nth_error_nth'. auto. Qed.

Lemma track_auto_ok : forall m wf n k r L dphi denergy, machine_ok m wf n k -> every_turn (rm_set m) (rm_turns m) ->
  track_auto find_limits sin past m r = Ok (L, dphi, denergy) ->
  exists s p c, settings (rm_set m) s /\ (0 < n_dturns s)%nat /\ (0 < n_snpt s)%nat /\ (S p < n)%nat /\ profile_number n r p /\
    find_limits (rm_set m) (rm_turns m) (rm_cur m) = Ok L /\
    homogeneous_coords (n_snpt s) (ql_imin L) (ql_imax L) (ql_jmin L) (ql_jmax L) = Ok c /\
    List.length dphi = n /\ List.length denergy = n /\
    forall q, (q < n)%nat -> row_is dphi denergy q
      (map (fun pt => travel Qcplus Qcminus Qcmult sin (at_turns s (rm_turns m) (n_dturns s * (n - 1)) past)
                        (p * n_dturns s) (q * n_dturns s) (from_bins s (rm_turns m) (rm_cur m) L (p * n_dturns s) pt)) c).
Proof.
  intros m wf n k r L dphi den M ET E. unfold track_auto in E.
  apply bind_ok in E. destruct E as [d [E1 E]]. apply not_none_some in E1.
  apply bind_ok in E. destruct E as [pz [E2 E]].
  apply bind_ok in E. destruct E as [L' [E3 E]].
  apply bind_ok in E. destruct E as [sn [E4 E]]. apply not_none_some in E4.
  apply bind_ok in E. destruct E as [cm [E5 E]]. apply coord_machine_ok in E5. destruct E5 as (h & d' & E5a & E5b & ->).
  assert (d' = d) by congruence. subst d'. clear E5b.
  apply bind_ok in E. destruct E as [[ph de] [E6 E]].
  cbv zeta in E. apply bind_ok in E. destruct E as [tm [E7 E]].
  apply bind_ok in E. destruct E as [st [E8 E]]. assert (L' = L) by congruence. assert (dphi = xp st) by congruence.
  assert (den = yp st) by congruence. subst L' dphi den. clear E.
  unfold track_machine in E7.
  apply bind_ok in E7. destruct E7 as [q [Eq E7]]. apply finite_fin in Eq.
  apply bind_ok in E7. destruct E7 as [p12 [Ep E7]]. apply finite_fin in Ep.
  apply bind_ok in E7. destruct E7 as [h0 [Eh E7]]. apply not_none_some in Eh.
  apply bind_ok in E7. destruct E7 as [hr [Ehr E7]]. apply finite_fin in Ehr. subst h0.
  rewrite (mo_nprofs _ _ _ _ M) in *. set (np := Z.to_nat (Z.of_nat n)) in *. assert (np = n) by (unfold np; lia). clearbody np. subst np.
  destruct (ac_dturns _ (mo_acc _ _ _ _ M)) as (d1 & D1 & Hd). assert (d1 = d) by congruence. subst d1.
  destruct (ac_snpt _ (mo_acc _ _ _ _ M)) as (s1 & S1 & Hs). assert (s1 = sn) by congruence. subst s1.
  set (dn := Z.to_nat d). assert (Hdn : d = Z.of_nat dn) by (unfold dn; lia).
  set (s := Numbers h q p12 hr dn (Z.to_nat sn)).
  assert (Hn := mo_n _ _ _ _ M).
  assert (CK := E2). apply track_checks_ok in CK.
  assert (PN : exists p, pz = Z.of_nat p /\ (S p < n)%nat /\ profile_number n r p).
  { exists (Z.to_nat pz). unfold profile_number. destruct (Z.ltb_spec r 0) in CK; nia. }
  destruct PN as (p & -> & Hp & PN).
  unfold homogeneous_distribution in E6. apply bind_ok in E6. destruct E6 as [c [E6 B]].
  exists s, p, c. cbn [n_dturns n_snpt s].
  split. { unfold settings; cbn. rewrite <- Hdn, Z2Nat.id by lia. auto 10. }
  split; [lia|]. split; [lia|]. split; auto. split; auto. split; auto. split; auto.
  (* the distribution *)
  unfold bin_nr_to_physical in B. cbn [c_dturns c_omega c_phi0 c_hnum c_dtbin c_synch_y fst snd] in B.
  rewrite Z.add_0_r in B. apply bind_ok in B. destruct B as [om [B1 B]]. apply bind_ok in B. destruct B as [p0 [B2 B]].
  assert (GN : forall (l : list Qc) t x, get l (Z.of_nat p * d) = Ok x -> t = (p * dn)%nat -> x = nth t l 0).
  { intros l t x G ->. unfold get in G. destruct (Z.ltb_spec (Z.of_nat p * d) 0); [nia|].
    replace (Z.to_nat (Z.of_nat p * d)) with (p * dn)%nat in G by nia.
    destruct (nth_error l (p * dn)) eqn:X; [|discriminate]. injection G as <-. symmetry. apply nth_error_nth. auto. }
  rewrite (GN _ _ _ B1 eq_refl), (GN _ _ _ B2 eq_refl) in B. clear B1 B2 GN.
  set (fb := from_bins s (rm_turns m) (rm_cur m) L (p * dn)).
  assert (PH : ph = map fst (map fb c) /\ de = map snd (map fb c)).
  { rewrite !map_map in *. injection B as <- <-. split; apply map_ext; intros; reflexivity. }
  destruct PH as [-> ->]. clear B.
  (* the tracking *)
  assert (TR : track Qcplus Qcminus Qcmult sin 0 tm n (Z.of_nat dn) r 0 (map fst (map fb c)) (map snd (map fb c)) false = Ok st).
  { unfold track. rewrite <- Hdn, E2. cbn [bind]. cbv zeta. exact E8. }
  assert (HO : holds tm (at_turns s (rm_turns m) (dn * (n - 1)) past) (dn * (n - 1))).
  { inversion E7; subst tm; clear E7. split; [reflexivity|]. intros t Ht.
    assert (LN : forall l, In l [tv_vrf1 (rm_turns m); tv_vrf2 (rm_turns m); tv_phi0 (rm_turns m); tv_deltaE0 (rm_turns m);
       tv_drift (rm_turns m); tv_omega (rm_turns m)] -> (t < List.length l)%nat).
    { intros l Hl. assert (X := ET _ _ E1 Hl). rewrite (mo_set _ _ _ _ M) in X. nia. }
    cbn [rf1v rf2v MTrack.phi0 MTrack.phi12 deltaE0 drift_coef at_turns v1 v2 ph0 ph12 dE coef n_q n_p12 s].
    rewrite !nth_error_map. rewrite !(at_nth _ _ _ 0) by (apply LN; simpl; tauto).
    cbn [option_map]. split; auto. split; auto. split; auto. split; [|split; apply at_nth, LN; simpl; tauto].
    replace (Z.to_nat (d * (Z.of_nat n - 1))) with (dn * (n - 1))%nat by nia.
    destruct (Nat.ltb_spec t (dn * (n - 1))).
    - rewrite nth_error_app1 by (rewrite repeat_length; auto). rewrite (nth_error_nth' _ p12) by (rewrite repeat_length; auto).
      rewrite nth_repeat. auto.
    - rewrite nth_error_app2 by (rewrite repeat_length; auto). rewrite repeat_length. replace (t - dn * (n - 1))%nat with 0%nat by lia. auto. }
  destruct (C01_track_rows_lem _ Qcplus Qcminus Qcmult sin 0 _ tm n dn p r (map fst (map fb c)) (map snd (map fb c)) false
              ltac:(lia) Hp (proj2 PN) HO ltac:(rewrite !map_length; auto)) as (st' & E' & L1 & L2 & Rows).
  rewrite TR in E'. inversion E'; subst st'. split; auto. split; auto. intros q0 Hq. specialize (Rows q0 Hq).
  replace (combine (map fst (map fb c)) (map snd (map fb c))) with (map fb c) in Rows.
  2:{ clear. induction c; simpl; auto. f_equal; auto. }
  rewrite map_map in Rows. exact Rows.
Qed.

Lemma mapM_val : forall A B (f : A -> res B) (g : A -> B) l r, (forall a b, f a = Ok b -> b = g a) -> mapM f l = Ok r -> r = map g l.
Proof.
  intros A B f g l r H E. apply mapM_Forall2 in E. induction E; simpl; auto. f_equal; auto.
Qed.


(** The coordinates handed to the reconstruction. *)
Lemma prepared_ok : forall m wf n k s L c (F : nat -> Qc * Qc -> Qc * Qc) dphi denergy x y,
  machine_ok m wf n k -> settings (rm_set m) s -> every_turn (rm_set m) (rm_turns m) ->
  List.length dphi = n -> List.length denergy = n ->
  (forall q, (q < n)%nat -> row_is dphi denergy q (map (F q) c)) ->
  prepared m L dphi denergy = Ok (x, y) ->
  let at_ q j := to_bins s (rm_turns m) (rm_cur m) L (q * n_dturns s) (F q (nth j c (0, 0))) in
  exists keep, keep <> [] /\ increasing keep /\
    (forall j, In j keep <-> (j < List.length c)%nat /\ forall q, (q < n)%nat -> 0 <= fst (at_ q j) /\ fst (at_ q j) < qn k) /\
    x = map (fun j => tab n (fun q => qtrunc (fst (at_ q j)))) keep /\
    y = map (fun j => tab n (fun q => qtrunc (snd (at_ q j)))) keep /\
    exists cm X Y, coord_machine m = Ok cm /\ physical_to_coords cm (ql_xorigin L) (ql_dEbin L) dphi denergy = Ok (X, Y) /\
      forall q, (q < n)%nat -> nth_error X q = Some (map (fun pt => fst (to_bins s (rm_turns m) (rm_cur m) L (q * n_dturns s) (F q pt))) c) /\
        nth_error Y q = Some (map (fun pt => snd (to_bins s (rm_turns m) (rm_cur m) L (q * n_dturns s) (F q pt))) c).
Proof.
  intros m wf n k s L c F dphi den x y M S ET L1 L2 RI E. cbv zeta. unfold prepared in E.
  apply bind_ok in E. destruct E as [cm [Ec E]]. assert (Ec0 := Ec). apply coord_machine_ok in Ec. destruct Ec as (h & d & Ec1 & Ec2 & Ecm).
  destruct S as (S1 & S2 & S3 & S4 & S5 & S6).
  assert (h = n_h s) by congruence. assert (Hd : d = Z.of_nat (n_dturns s)) by congruence. clear Ec1 Ec2. rewrite H in Ecm. clear h H.
  apply bind_ok in E. destruct E as [[X Y] [Ep E]].
  assert (Hn := mo_n _ _ _ _ M). set (d0 := n_dturns s) in *.
  set (tb := fun q pt => to_bins s (rm_turns m) (rm_cur m) L (q * d0) (F q pt)).
  assert (ROW : forall q, (q < n)%nat -> nth_error X q = Some (map (fun pt => fst (tb q pt)) c) /\ nth_error Y q = Some (map (fun pt => snd (tb q pt)) c)).
  { intros q Hq. destruct (RI q Hq) as [R1 R2].
    destruct (physical_rows _ _ _ _ _ _ _ _ _ _ Ep R1 R2) as (p0 & om & xr & yr & G1 & G2 & Nx & Ny & Ex & Ey).
    rewrite Ecm in G1, G2, Ex, Ey. cbn [c_phi0 c_omega c_dturns c_hnum c_dtbin c_synch_y] in G1, G2, Ex, Ey.
    assert (GN : forall (l : list Qc) v, get l (Z.of_nat q * d) = Ok v -> v = nth (q * d0) l 0).
    { intros l v G. unfold get in G. destruct (Z.ltb_spec (Z.of_nat q * d) 0); [nia|].
      replace (Z.to_nat (Z.of_nat q * d)) with (q * d0)%nat in G by nia.
      destruct (nth_error l (q * d0)) eqn:Z; [|discriminate]. injection G as <-. symmetry. apply nth_error_nth. auto. }
    rewrite (GN _ _ G1), (GN _ _ G2) in *.
    rewrite Nx, Ny. split; f_equal.
    - apply (mapM_val _ _ _ (fun f => (f + nth (q * d0) (tv_phi0 (rm_turns m)) 0) / (n_h s * nth (q * d0) (tv_omega (rm_turns m)) 0 * p_dtbin (rm_cur m)) - ql_xorigin L)) in Ex.
      + rewrite Ex, !map_map. apply map_ext. intros. reflexivity.
      + intros a b H. apply bind_ok in H. destruct H as [v [H1 H2]]. apply qdiv_inv in H1. destruct H1 as [_ ->]. congruence.
    - apply (mapM_val _ _ _ (fun e => e / ql_dEbin L + p_synch_y (rm_cur m))) in Ey.
      + rewrite Ey, !map_map. apply map_ext. intros. reflexivity.
      + intros a b H. apply bind_ok in H. destruct H as [v [H1 H2]]. apply qdiv_inv in H1. destruct H1 as [_ ->]. congruence. }
  assert (LX : List.length X = n /\ List.length Y = n).
  { unfold physical_to_coords in Ep. destruct (negb _); [discriminate|].
    apply bind_ok in Ep. destruct Ep as [X' [P1 Ep]]. apply bind_ok in Ep. destruct Ep as [Y' [P2 Ep]]. injection Ep as <- <-.
    apply mapM_Forall2 in P1, P2. apply Forall2_length in P1, P2. rewrite combine_length_eq in P1 by apply seq_length. rewrite seq_length in P1. lia. }
  destruct LX as [LX LY].
  assert (EX : X = tab n (fun q => map (fun pt => fst (tb q pt)) c)).
  { apply nth_error_ext_len; [rewrite tab_length; auto|]. intros i Hi. rewrite (proj1 (ROW i ltac:(lia))), nth_error_tab by lia. auto. }
  assert (EY : Y = tab n (fun q => map (fun pt => snd (tb q pt)) c)).
  { apply nth_error_ext_len; [rewrite tab_length; auto|]. intros i Hi. rewrite (proj2 (ROW i ltac:(lia))), nth_error_tab by lia. auto. }
  set (K := List.length c) in *.
  assert (RX : rectangular n K X). { rewrite EX. split; [apply tab_length|]. apply Forall_forall. intros r Hr. apply in_tab in Hr. destruct Hr as [i [_ <-]]. apply map_length. }
  assert (RY : rectangular n K Y). { rewrite EY. split; [apply tab_length|]. apply Forall_forall. intros r Hr. apply in_tab in Hr. destruct Hr as [i [_ <-]]. apply map_length. }
  rewrite (cols_rect _ _ _ _ RX Hn), (cols_rect _ _ _ _ RY Hn), (mo_nbins _ _ _ _ M) in E.
  assert (NN : Forall (Forall not_nan) (map (map Num) X)).
  { apply Forall_forall. intros r Hr. apply in_map_iff in Hr. destruct Hr as [r' [<- _]]. apply Forall_forall. intros v Hv.
    apply in_map_iff in Hv. destruct Hv as [v' [<- _]]. discriminate. }
  destruct (C15_ready_partial_lem n K k _ _ (map2_rect _ _ Num _ _ _ RX) (map2_rect _ _ Num _ _ _ RY) Hn NN) as (keep & SV & Q).
  rewrite E in Q. destruct Q as (K1 & K2 & K3 & _). destruct SV as [INC SV].
  assert (SEL : forall (g : Qc * Qc -> Qc) tbl rows, tbl = tab n (fun q => map (fun pt => g (tb q pt)) c) ->
    Forall2 (fun j r => map Some r = map (fun row => option_map num_to_int (nth_error row j)) (map (map Num) tbl)) keep rows ->
    rows = map (fun j => tab n (fun q => qtrunc (g (tb q (nth j c (0, 0)))))) keep).
  { intros g tbl rows -> F2. assert (KB : Forall (fun j => (j < K)%nat) keep) by (apply Forall_forall; intros j Hj; apply SV in Hj; tauto).
    clear - F2 KB. induction F2; simpl; auto. inversion KB; subst. f_equal; auto. clear F2 IHF2 KB H3.
    rewrite map_tab in H. rewrite map_tab in H.
    assert (Q : map Some y = map Some (tab n (fun q => qtrunc (g (tb q (nth x c (0, 0))))))).
    { rewrite H, map_tab. apply tab_ext. intros q _. rewrite !nth_error_map. rewrite (nth_error_nth' c (0, 0)) by auto. reflexivity. }
    clear - Q. revert y Q. generalize (tab n (fun q => qtrunc (g (tb q (nth x c (0, 0)))))) as z. induction z; intros [|b y] Q; simpl in Q; try discriminate; auto.
    injection Q as -> Q. f_equal; auto. }
  exists keep. split; auto. split; [exact INC|]. split.
  { intros j. rewrite SV. split; intros [Hj H]; split; auto.
    - intros q Hq. assert (I := H (map Num (map (fun pt => fst (tb q pt)) c)) (Num (fst (tb q (nth j c (0, 0)))))).
      cbn [inside] in I. unfold qn. apply I.
      + apply in_map. rewrite EX. apply in_tab. eauto.
      + rewrite !nth_error_map, (nth_error_nth' c (0, 0)) by auto. reflexivity.
    - intros row v Hr Hv. apply in_map_iff in Hr. destruct Hr as [r' [<- Hr]]. rewrite EX in Hr. apply in_tab in Hr. destruct Hr as [q [Hq <-]].
      rewrite !nth_error_map, (nth_error_nth' c (0, 0)) in Hv by auto. injection Hv as <-. cbn [inside]. apply H. auto. }
  split; [exact (SEL fst _ _ EX K2)|]. split; [exact (SEL snd _ _ EY K3)|].
  exists cm, X, Y. split; auto.
Qed.

Lemma new_tomography_ok : forall m wf n k x y t K, machine_ok m wf n k -> (0 < K)%nat -> rectangular K n x -> rectangular K n y ->
  new_tomography wf x y = Ok t -> reachable t /\ t_nparts t = Some K /\ t_xp t = Some x /\ t_yp t = Some y /\
    t_nprofs t = n /\ t_nbins t = k /\ Forall (Forall (fun z => (0 <= z < Z.of_nat k)%Z)) x.
Proof.
  intros m wf n k x y t K M HK Rx Ry E. unfold new_tomography in E.
  assert (R := mo_rect _ _ _ _ M). rewrite (proj1 R) in E.
  rewrite (cols_rect _ _ _ _ R (mo_n _ _ _ _ M)), (cols_rect _ _ _ _ Rx HK), (cols_rect _ _ _ _ Ry HK) in E.
  assert (PX : proper (CArr2 n (map (map qz) x))) by (apply (map2_rect _ _ qz _ _ _ Rx)).
  assert (PY : proper (CArr2 n (map (map qz) y))) by (apply (map2_rect _ _ qz _ _ _ Ry)).
  split.
  { exists n, k, wf, (CArr2 n (map (map qz) x)), (CArr2 n (map (map qz) y)), t, []. split; auto. }
  unfold tomography in E. apply bind_ok in E. destruct E as [nw [_ E]]. apply bind_ok in E. destruct E as [t1 [E1 E2]].
  assert (TI : forall l, MRecon.to_int (map (map qz) l) = l).
  { intros l. unfold MRecon.to_int. rewrite map_map. rewrite <- (map_id l) at 2. apply map_ext. intros r.
    rewrite map_map. rewrite <- (map_id r) at 2. apply map_ext. intros. apply qtrunc_qz. }
  unfold set_xp in E1. cbn [t_nprofs t_nbins] in E1. rewrite Nat.eqb_refl in E1. cbn [negb] in E1.
  destruct (existsb (existsb (fun v => qltb v 0)) (map (map qz) x)) eqn:X1; [discriminate|].
  destruct (existsb (existsb (fun v => qleb (qn k) v)) (map (map qz) x)) eqn:X2; [discriminate|]. cbn [orb lift_exn snd fst] in E1.
  injection E1 as <-. unfold set_yp in E2. cbn [t_xp put_nparts put_xp] in E2. unfold same_shape in E2. cbn [t_nprofs] in E2.
  rewrite TI, map_length in E2. rewrite (proj1 Rx), (proj1 Ry), !Nat.eqb_refl in E2. cbn [andb] in E2. rewrite TI in E2.
  unfold put_yp, put_nparts, put_xp, lift_exn in E2. cbn in E2. rewrite map_length in E2. injection E2 as <-. cbn.
  rewrite (proj1 Rx). do 5 (split; auto). apply Forall_forall. intros r Hr. apply Forall_forall. intros z Hz.
  assert (N : forall p : Qc -> bool, existsb (existsb p) (map (map qz) x) = false -> p (qz z) = false).
  { intros p Hp. destruct (p (qz z)) eqn:Hz'; auto. rewrite <- not_true_iff_false in Hp. exfalso. apply Hp. apply existsb_exists.
    exists (map qz r). split; [apply in_map; auto|]. apply existsb_exists. exists (qz z). split; [apply in_map; auto|auto]. }
  apply N in X1, X2. apply qltb_false in X1. apply qleb_false in X2. rewrite <- qz_0 in X1. apply (proj1 (qz_le _ _)) in X1. unfold qn in X2. apply (proj1 (qz_lt _ _)) in X2. cbv beta. lia.
Qed.

Lemma np_col : forall K n (t : list (list Z)) idx p, rectangular K n t -> profile_number n idx p ->
  mapM (fun row => np_get row idx) t = column t p.
Proof.
  intros K n t idx p [_ R] [Hp PN]. unfold column, mapM. f_equal. apply map_ext_in. intros r Hr.
  rewrite Forall_forall in R. specialize (R r Hr). unfold np_get. cbv zeta. rewrite R.
  destruct (Z.ltb_spec idx 0).
  - destruct PN as [PN|PN]; [lia|]. replace (idx + Z.of_nat n)%Z with (Z.of_nat p) by lia.
    destruct (Z.ltb_spec (Z.of_nat p) 0); [lia|]. destruct (Z.leb_spec (Z.of_nat n) (Z.of_nat p)); [lia|]. reflexivity.
  - destruct PN as [PN|PN]; [|lia]. rewrite PN.
    destruct (Z.ltb_spec (Z.of_nat p) 0); [lia|]. destruct (Z.leb_spec (Z.of_nat n) (Z.of_nat p)); [lia|]. reflexivity.
Qed.

Lemma column_rect : forall K n (t : list (list Z)) p, rectangular K n t -> (p < n)%nat -> column t p = Ok (map (fun r => nth p r 0%Z) t).
Proof.
  intros K n t p [_ R] Hp. unfold column. apply mapM_ok_map. intros r Hr. rewrite Forall_forall in R. specialize (R r Hr).
  unfold get. destruct (Z.ltb_spec (Z.of_nat p) 0); [lia|]. rewrite Nat2Z.id. rewrite (nth_error_nth' r 0%Z) by lia. auto.
Qed.

(** The image made of the weights. *)
Lemma final_image_ok : forall m wf n k K x y w idx p dE, machine_ok m wf n k -> rectangular K n x -> rectangular K n y ->
  profile_number n idx p -> List.length w = K -> Forall (fun v => 0 <= v) w -> 0 < qsum w ->
  in_image k (map (fun r => nth p r 0%Z) x) -> in_image k (map (fun r => nth p r 0%Z) y) ->
  exists img, final_image m dE x y w idx =
      Ok (tab k (fun i => (qn i - p_synch_x (rm_cur m)) * p_dtbin (rm_cur m)), tab k (fun i => (qn i - qn k / qz 2) * dE), img) /\
    rectangular k k img /\ Forall (Forall (fun v => 0 <= v)) img /\ qsum (map qsum img) = 1 /\
    forall a b, (a < k)%nat -> (b < k)%nat ->
      cell img a b = weight_at (map (fun r => nth p r 0%Z) x) (map (fun r => nth p r 0%Z) y) w a b / qsum w.
Proof.
  intros m wf n k K x y w idx p dE M Rx Ry PN Lw Pw Sw Ix Iy.
  destruct (C35_image_lem x y w K n k p Rx Ry Lw (proj1 PN) Ix Iy Sw) as (img & E & R & P & S1 & C).
  exists img. split; [|auto 10].
  unfold create_phase_space_image in E. unfold final_image. rewrite !(np_col K n) with (p := p) by auto.
  rewrite (column_rect K n x), (column_rect K n y) in * by (auto; apply PN). cbn [bind] in *. cbv zeta.
  unfold phase_space_from_coordinates. rewrite (mo_nbins _ _ _ _ M), Nat2Z.id.
  destruct (wrapper_make_phase_space _ _ w k) as [ps|]; [|discriminate]. cbn [bind] in *. rewrite E. cbn [bind].
  rewrite (mo_synch_y _ _ _ _ M). reflexivity.
Qed.

Lemma in_area_dec : forall L i j, {in_area L i j} + {~ in_area L i j}.
Proof.
  intros. unfold in_area.
  destruct (Z_le_dec (ql_imin L) i); [|right; tauto]. destruct (Z_le_dec i (ql_imax L)); [|right; tauto].
  destruct (Z_le_dec (nth (Z.to_nat i) (ql_jmin L) 0%Z) j); [|right; tauto].
  destruct (Z_lt_dec j (nth (Z.to_nat i) (ql_jmax L) 0%Z)); [left; tauto|right; tauto].
Qed.

Lemma starting_ok : forall k L sn, inside_image k L -> (0 < sn)%nat -> exists c,
  homogeneous_coords sn (ql_imin L) (ql_imax L) (ql_jmin L) (ql_jmax L) = Ok c /\ starting_points L sn c /\
  forall pt, In pt c -> in_area L (qfloor (fst pt)) (qfloor (snd pt)).
Proof.
  intros k L sn (I1 & I2 & I3 & I4 & I5 & I6) Hs.
  destruct (C17_homogeneous_partial_lem sn (ql_imin L) (ql_imax L) (ql_jmin L) (ql_jmax L)) as (c & E & C); auto; try lia.
  { intros Z. rewrite Z in I1. simpl in I1. lia. }
  exists c. split; auto. assert (SP : starting_points L sn c).
  { intros i j. rewrite C. unfold in_area. destruct (Z.leb_spec (ql_imin L) i); cbn [andb].
    2:{ split; [lia|auto]. }
    destruct (Z.leb_spec i (ql_imax L)); cbn [andb]. 2:{ split; [lia|auto]. }
    destruct (Z.leb_spec (nth (Z.to_nat i) (ql_jmin L) 0%Z) j); cbn [andb]. 2:{ split; [lia|auto]. }
    destruct (Z.ltb_spec j (nth (Z.to_nat i) (ql_jmax L) 0%Z)); split; auto; try lia. }
  split; auto. intros pt Hpt. destruct (in_area_dec L (qfloor (fst pt)) (qfloor (snd pt))) as [|N]; auto.
  exfalso. apply (proj2 (SP _ _)) in N.
  assert (X : In pt (filter (in_cell (qfloor (fst pt)) (qfloor (snd pt))) c)).
  { apply filter_In. split; auto. unfold in_cell. rewrite !Z.eqb_refl. auto. }
  rewrite N in X. contradiction.
Qed.

Lemma qtrunc_floor : forall x, 0 <= x -> qtrunc x = qfloor x.
Proof. intros. unfold qtrunc. destruct (qltb_spec x 0) as [Q|Q]; auto. exfalso. exact (Qclt_not_le _ _ Q H). Qed.
Lemma qfloor_nonneg : forall x, (0 <= qfloor x)%Z -> 0 <= x.
Proof. intros x H. destruct (qfloor_spec x) as [A _]. eapply Qcle_trans; [|exact A]. rewrite <- qz_0. apply qz_le. auto. Qed.

(** The coordinates of a successful tracking. *)
Lemma coords_ok : forall m wf n k idx L dphi den x y, machine_ok m wf n k -> every_turn (rm_set m) (rm_turns m) -> inside_image k L ->
  track_auto find_limits sin past m idx = Ok (L, dphi, den) -> prepared m L dphi den = Ok (x, y) ->
  exists s p c keep, let pos := fun q => position sin past s (rm_turns m) (rm_cur m) L n p q in
    settings (rm_set m) s /\ (0 < n_dturns s)%nat /\ (0 < n_snpt s)%nat /\ (S p < n)%nat /\ profile_number n idx p /\
    find_limits (rm_set m) (rm_turns m) (rm_cur m) = Ok L /\ starting_points L (n_snpt s) c /\
    (forall pt, In pt c -> in_area L (qfloor (fst pt)) (qfloor (snd pt))) /\
    stay_inside n k pos c keep /\ keep <> [] /\ (forall pt0, In pt0 c -> pos p pt0 = pt0) /\
    x = map (fun j => tab n (fun q => qtrunc (fst (pos q (nth j c (0, 0)))))) keep /\
    y = map (fun j => tab n (fun q => qtrunc (snd (pos q (nth j c (0, 0)))))) keep /\
    (0 < List.length keep)%nat /\ rectangular (List.length keep) n x /\ rectangular (List.length keep) n y /\
    map (fun r => nth p r 0%Z) x = map (fun j => qfloor (fst (nth j c (0, 0)))) keep /\
    map (fun r => nth p r 0%Z) y = map (fun j => qfloor (snd (nth j c (0, 0)))) keep /\
    in_image k (map (fun r => nth p r 0%Z) x) /\ in_image k (map (fun r => nth p r 0%Z) y).
Proof.
  intros m wf n k idx L dphi den x y M ET II E4 E5.
  destruct (track_auto_ok _ _ _ _ _ _ _ _ M ET E4) as (s & p & c & S & Hd & Hs & Hp & PN & FL & HC & L1 & L2 & Rows).
  destruct (starting_ok _ _ _ II Hs) as (c' & HC' & SP & AR). rewrite HC in HC'. injection HC' as <-.
  destruct (prepared_ok _ _ _ _ _ _ _ _ _ _ _ _ M S ET L1 L2 Rows E5) as (keep & K1 & K2 & K3 & Ex & Ey & cm & X & Y & EC & EP & XY).
  set (pos := fun q => position sin past s (rm_turns m) (rm_cur m) L n p q) in *.
  assert (POS : forall q j, to_bins s (rm_turns m) (rm_cur m) L (q * n_dturns s)
     (travel Qcplus Qcminus Qcmult sin (at_turns s (rm_turns m) (n_dturns s * (n - 1)) past) (p * n_dturns s) (q * n_dturns s)
        (from_bins s (rm_turns m) (rm_cur m) L (p * n_dturns s) (nth j c (0, 0)))) = pos q (nth j c (0, 0))) by reflexivity.
  assert (Ex' : x = map (fun j => tab n (fun q => qtrunc (fst (pos q (nth j c (0, 0)))))) keep) by exact Ex.
  assert (Ey' : y = map (fun j => tab n (fun q => qtrunc (snd (pos q (nth j c (0, 0)))))) keep) by exact Ey.
  clear Ex Ey.
  assert (FIX : forall pt0, In pt0 c -> pos p pt0 = pt0).
  { assert (RP := Rows p ltac:(lia)). destruct RP as [RP1 RP2].
    destruct (coord_machine_ok _ _ EC) as (h & d & C1 & C2 & Ecm).
    assert (B : bin_nr_to_physical cm (ql_xorigin L) (ql_dEbin L) (Z.of_nat p) 0 (map fst c, map snd c) =
      Ok (map fst (map (fun pt => travel Qcplus Qcminus Qcmult sin (at_turns s (rm_turns m) (n_dturns s * (n - 1)) past)
                        (p * n_dturns s) (p * n_dturns s) (from_bins s (rm_turns m) (rm_cur m) L (p * n_dturns s) pt)) c),
          map snd (map (fun pt => travel Qcplus Qcminus Qcmult sin (at_turns s (rm_turns m) (n_dturns s * (n - 1)) past)
                        (p * n_dturns s) (p * n_dturns s) (from_bins s (rm_turns m) (rm_cur m) L (p * n_dturns s) pt)) c))).
    { destruct S as (S1 & S2 & S3 & S4 & S5 & S6). assert (h = n_h s) by congruence. assert (d = Z.of_nat (n_dturns s)) by congruence. subst h d.
      rewrite Ecm. unfold bin_nr_to_physical. cbn [c_dturns c_omega c_phi0 c_hnum c_dtbin c_synch_y fst snd].
      assert (LN : forall l, In l [tv_vrf1 (rm_turns m); tv_vrf2 (rm_turns m); tv_phi0 (rm_turns m); tv_deltaE0 (rm_turns m);
         tv_drift (rm_turns m); tv_omega (rm_turns m)] -> get l (Z.of_nat p * Z.of_nat (n_dturns s) + 0) = Ok (nth (p * n_dturns s) l 0)).
      { intros l Hl. assert (Q := ET _ _ S5 Hl). rewrite (mo_set _ _ _ _ M) in Q. unfold get.
        destruct (Z.ltb_spec (Z.of_nat p * Z.of_nat (n_dturns s) + 0) 0); [nia|].
        replace (Z.to_nat (Z.of_nat p * Z.of_nat (n_dturns s) + 0)) with (p * n_dturns s)%nat by nia.
        rewrite (nth_error_nth' l 0) by nia. auto. }
      rewrite !LN by (simpl; tauto). cbn [bind]. f_equal.
      assert (TT : forall pt, travel Qcplus Qcminus Qcmult sin (at_turns s (rm_turns m) (n_dturns s * (n - 1)) past) (p * n_dturns s) (p * n_dturns s) pt = pt).
      { intros. unfold travel. rewrite Nat.leb_refl, Nat.sub_diag. reflexivity. }
      rewrite !map_map. f_equal; apply map_ext; intros; rewrite TT; reflexivity. }
    destruct (C16_bins_roundtrip_lem _ _ _ _ _ _ _ _ _ _ _ _ B RP1 RP2 EP) as [Q1 Q2].
    destruct (XY p ltac:(lia)) as [X1 X2]. rewrite Q1 in X1. rewrite Q2 in X2. injection X1 as X1. injection X2 as X2.
    intros pt0 Hpt. apply In_nth_error in Hpt. destruct Hpt as [i Hi].
    apply (f_equal (fun l => nth_error l i)) in X1, X2. rewrite !nth_error_map, Hi in X1, X2. cbn [option_map] in X1, X2.
    injection X1 as X1. injection X2 as X2. unfold pos, position. destruct pt0 as [u v]. cbn [fst snd] in X1, X2.
    apply injective_projections; [symmetry; exact X1|symmetry; exact X2]. }
  assert (KP : (0 < List.length keep)%nat) by (destruct keep; [contradiction|simpl; lia]).
  assert (RT : forall g : nat -> nat -> Z, rectangular (List.length keep) n (map (fun j => tab n (g j)) keep)).
  { intros g. split; [apply map_length|]. apply Forall_forall. intros r Hr. apply in_map_iff in Hr. destruct Hr as [j [<- _]]. apply tab_length. }
  assert (Rx : rectangular (List.length keep) n x) by (rewrite Ex'; apply RT).
  assert (Ry : rectangular (List.length keep) n y) by (rewrite Ey'; apply RT).
  (* the columns at the profile reconstructed *)
  assert (IB : forall i, (i < List.length keep)%nat -> In (nth (nth i keep 0%nat) c (0, 0)) c).
  { intros i Hi. apply nth_In. assert (Q := nth_In keep 0%nat Hi). apply K3 in Q. tauto. }
  assert (CX : map (fun r => nth p r 0%Z) x = map (fun j => qfloor (fst (nth j c (0, 0)))) keep).
  { rewrite Ex', map_map. apply map_ext_in. intros j Hj. rewrite nth_tab by lia. apply K3 in Hj. destruct Hj as [Hj _].
    assert (Q : In (nth j c (0, 0)) c) by (apply nth_In; auto). rewrite FIX by auto. apply qtrunc_floor. apply qfloor_nonneg.
    destruct (AR _ Q) as [Q1 _]. destruct II as (_ & _ & _ & I4 & _). lia. }
  assert (AR2 : forall pt0, In pt0 c -> (0 <= qfloor (fst pt0) < Z.of_nat k /\ 0 <= qfloor (snd pt0) < Z.of_nat k)%Z).
  { intros pt0 Q. destruct (AR _ Q) as [Q1 Q2]. destruct II as (I1 & I2 & I3 & I4 & I5 & I6).
    assert (Q3 := I6 (Z.to_nat (qfloor (fst pt0))) ltac:(lia)). lia. }
  assert (CY : map (fun r => nth p r 0%Z) y = map (fun j => qfloor (snd (nth j c (0, 0)))) keep).
  { rewrite Ey', map_map. apply map_ext_in. intros j Hj. rewrite nth_tab by lia. apply K3 in Hj. destruct Hj as [Hj _].
    assert (Q : In (nth j c (0, 0)) c) by (apply nth_In; auto). rewrite FIX by auto. apply qtrunc_floor. apply qfloor_nonneg.
    apply AR2; auto. }
  assert (IX : in_image k (map (fun r => nth p r 0%Z) x) /\ in_image k (map (fun r => nth p r 0%Z) y)).
  { rewrite CX, CY. split; apply Forall_forall; intros z Hz; apply in_map_iff in Hz; destruct Hz as [j [<- Hj]];
      apply K3 in Hj; destruct Hj as [Hj _]; apply AR2; apply nth_In; auto. }
  exists s, p, c, keep. cbv zeta.
  assert (SI : stay_inside n k pos c keep) by (split; [exact K2|exact K3]). destruct IX as [IX IY].
  do 19 (split; [first [assumption | exact Ex' | exact Ey']|]). assumption.
Qed.

(** Everything a successful run does. *)
Lemma run_ok : forall lines raw rp pt ts es img,
  run_parts to_int to_float turn_values fit find_limits sin sqrt past lines raw rp = Ok (pt, (ts, es, img)) ->
  let m := pt_machine pt in let cur := rm_cur m in let L := pt_limits pt in
  every_turn (rm_set m) (rm_turns m) -> inside_image (Z.to_nat (p_nbins cur)) L ->
  exists n k s p c keep,
    let pos := fun q => position sin past s (rm_turns m) cur L n p q in
    read_machine to_int to_float turn_values fit lines raw = Ok (m, pt_waterfall pt) /\
    machine_ok m (pt_waterfall pt) n k /\ settings (rm_set m) s /\ profile_number n (pt_idx pt) p /\
    (rp = Some (pt_idx pt) \/ rp = None /\ im_filmstart (rm_set m) = Some (pt_idx pt)) /\ (S p < n)%nat /\
    find_limits (rm_set m) (rm_turns m) cur = Ok L /\
    starting_points L (n_snpt s) c /\ stay_inside n k pos c keep /\ keep <> [] /\
    (forall pt0, In pt0 c -> pos p pt0 = pt0) /\
    reachable (pt_tomo pt) /\
    new_tomography (pt_waterfall pt) (map (fun j => tab n (fun q => qtrunc (fst (pos q (nth j c (0, 0)))))) keep)
       (map (fun j => tab n (fun q => qtrunc (snd (pos q (nth j c (0, 0)))))) keep) = Ok (pt_tomo pt) /\
    t_xp (pt_tomo pt) = Some (map (fun j => tab n (fun q => qtrunc (fst (pos q (nth j c (0, 0)))))) keep) /\
    t_yp (pt_tomo pt) = Some (map (fun j => tab n (fun q => qtrunc (snd (pos q (nth j c (0, 0)))))) keep) /\
    (exists niter r calls, im_niter (rm_set m) = Some niter /\ MRecon.run sqrt (pt_tomo pt) niter = Ok (pt_weight pt, pt_discr pt, r, calls)) /\
    List.length (pt_weight pt) = List.length keep /\ Forall (fun v => 0 <= v) (pt_weight pt) /\ 0 < qsum (pt_weight pt) /\
    ts = tab k (fun i => (qn i - p_synch_x cur) * p_dtbin cur) /\ es = tab k (fun i => (qn i - qn k / qz 2) * ql_dEbin L) /\
    rectangular k k img /\ Forall (Forall (fun v => 0 <= v)) img /\ qsum (map qsum img) = 1 /\
    (forall a b, (a < k)%nat -> (b < k)%nat -> cell img a b =
       sumn (List.length keep) (fun i => if in_cell (Z.of_nat a) (Z.of_nat b) (nth (nth i keep 0%nat) c (0, 0))
                                         then nth i (pt_weight pt) 0 else 0) / qsum (pt_weight pt)) /\
    (forall a b, (a < k)%nat -> (b < k)%nat -> ~ in_area L (Z.of_nat a) (Z.of_nat b) -> cell img a b = 0).
Proof.
  intros lines raw rp pt ts es img E. cbv zeta. intros ET II. unfold run_parts in E.
  apply bind_ok in E. destruct E as [[m wf] [E1 E]].
  apply bind_ok in E. destruct E as [idx [E2 E]].
  apply bind_ok in E. destruct E as [[] [E3 E]].
  apply bind_ok in E. destruct E as [[[L dphi] den] [E4 E]].
  apply bind_ok in E. destruct E as [[x y] [E5 E]].
  apply bind_ok in E. destruct E as [t [E6 E]].
  apply bind_ok in E. destruct E as [niter [E7 E]]. apply not_none_some in E7.
  apply bind_ok in E. destruct E as [[[[w dis] rr] calls] [E8 E]].
  apply bind_ok in E. destruct E as [im [E9 E]]. injection E as <- ->.
  cbn [pt_machine pt_limits pt_idx pt_waterfall pt_tomo pt_weight pt_discr] in *.
  destruct (read_machine_ok _ _ _ _ E1) as (_ & _ & n & k & M).
  rewrite (mo_nbins _ _ _ _ M), Nat2Z.id in II.
  destruct (coords_ok _ _ _ _ _ _ _ _ _ _ M ET II E4 E5) as (s & p & c & keep & S & Hd & Hs & Hp & PN & FL & SP & AR & SI & K1 & FIX &
    Ex' & Ey' & KP & Rx & Ry & CX & CY & IX & IY).
  set (pos := fun q => position sin past s (rm_turns m) (rm_cur m) L n p q) in *. assert (K3 := proj2 SI).
  destruct (new_tomography_ok _ _ _ _ _ _ _ _ M KP Rx Ry E6) as (RC & NP & TX & TY & _ & _ & IN).
  destruct (ac_niter _ (mo_acc _ _ _ _ M)) as (ni & N1 & N2). assert (ni = niter) by congruence. subst ni.
  assert (W := C20_weights_lem sqrt t niter RC ltac:(lia)). rewrite E8 in W. destruct W as (W1 & W2 & W3).
  assert (LW : List.length w = List.length keep) by congruence.
  assert (IB : forall i, (i < List.length keep)%nat -> In (nth (nth i keep 0%nat) c (0, 0)) c).
  { intros i Hi. apply nth_In. assert (Q := nth_In keep 0%nat Hi). apply K3 in Q. tauto. }
  destruct (final_image_ok _ _ _ _ _ _ _ _ _ _ (ql_dEbin L) M Rx Ry PN LW W1 W2 IX IY) as (img' & F1 & F2 & F3 & F4 & F5).
  rewrite F1 in E9. injection E9 as <- <- <-.
  assert (CELL : forall a b, (a < k)%nat -> (b < k)%nat -> cell img' a b =
       sumn (List.length keep) (fun i => if in_cell (Z.of_nat a) (Z.of_nat b) (nth (nth i keep 0%nat) c (0, 0)) then nth i w 0 else 0) / qsum w).
  { intros a b Ha Hb. rewrite F5 by auto. rewrite CX, CY. unfold weight_at. rewrite map_length. f_equal. apply sumn_ext. intros i Hi.
    unfold in_cell.
    rewrite (nth_indep (map (fun j => qfloor (fst (nth j c (0, 0)))) keep) 0%Z (qfloor (fst (nth 0%nat c (0, 0))))) by (rewrite map_length; auto).
    rewrite (nth_indep (map (fun j => qfloor (snd (nth j c (0, 0)))) keep) 0%Z (qfloor (snd (nth 0%nat c (0, 0))))) by (rewrite map_length; auto).
    rewrite (map_nth (fun j => qfloor (fst (nth j c (0, 0))))), (map_nth (fun j => qfloor (snd (nth j c (0, 0))))). reflexivity. }
  exists n, k, s, p, c, keep. cbv zeta. fold pos.
  assert (RPI : rp = Some idx \/ rp = None /\ im_filmstart (rm_set m) = Some idx).
  { destruct rp as [i|]; [left; congruence|right]. split; auto. apply not_none_some in E2. auto. }
  repeat (match goal with |- _ /\ _ => split end); auto; try (rewrite Ex', Ey' in E6; exact E6); try (rewrite Ex' in TX; exact TX); try (rewrite Ey' in TY; exact TY).
  - do 3 eexists. split; [exact E7|exact E8].
  - intros a b Ha Hb NA. rewrite CELL by auto. rewrite sumn_zero; [unfold Qcdiv; ring|].
    intros i Hi. destruct (in_cell _ _ _) eqn:IC; auto. exfalso. apply NA. unfold in_cell in IC. apply andb_true_iff in IC.
    destruct IC as [I1 I2]. apply Z.eqb_eq in I1, I2. rewrite <- I1, <- I2. apply AR. auto.
Qed.
End Stages.
