(** Proofs of the properties of machines given by programs. *)
(*HEAD*)
From Coq Require Import Reals List ZArith Bool Lia Lra Psatz.
From Verif Require Import Base.Res Base.RLib Model.MParticles Model.MTrack Model.MMachine Model.MPrograms Spec.MachineSpec Spec.ProgramsSpec.
Import ListNotations.
Local Open Scope R_scope.
(*DAEH*)
From Verif Require Import Base.ResLemmas Base.QcLib Base.QcLemmas Model.MPreproc Proof.PInput Proof.PParticles Proof.PMachine Proof.PSelf Proof.PPrograms Proof.PPrograms2.

(** ** The window *)

Section Window.
Variables (m : programmed) (time mom : list R).
Variable G : good_program m time mom.
Variables (k n : nat) (s : growing).
Variable I : inv m time mom k n s.
Let ti := removelast (gr_time s).
Let mi := gr_mom s.

Lemma ti_length : length ti = S n.
Proof. unfold ti. rewrite removelast_length, (iv_time _ _ _ _ _ _ I). lia. Qed.
Lemma ti_at : forall j, (j <= n)%nat -> at_ ti j = at_ (gr_time s) j.
Proof. intros. apply removelast_at. rewrite (iv_time _ _ _ _ _ _ I). lia. Qed.
Lemma ti_follows : forall j, (j < n)%nat -> follows m time mom ti mi j.
Proof.
  intros j Hj. unfold follows. rewrite !ti_at by lia. split; [apply (iv_step _ _ _ _ _ _ I); lia|apply (iv_line _ _ _ _ _ _ I); lia].
Qed.
Lemma low : forall p, 0 < p -> (forall i, (i < length time)%nat -> p <= at_ mom i) -> forall j, (j <= n)%nat -> p <= at_ mi j.
Proof.
  intros p Hp0 Hp j Hj. destruct j as [|j].
  - unfold mi. rewrite (iv_p0 _ _ _ _ _ _ I). apply Hp. apply (gp_some _ _ _ G).
  - destruct (iv_line _ _ _ _ _ _ I j ltac:(lia)) as (q & K1 & K2 & K3). fold mi in K3.
    assert (Inc := gp_inc _ _ _ G q K1).
    apply (line_between _ _ _ _ _ _ Inc K2 K3); apply Hp; lia.
Qed.
Lemma late : forall p, 0 < p -> (forall i, (i < length time)%nat -> p <= at_ mom i) -> forall j d, (j + d <= S n)%nat ->
  at_ (gr_time s) (j + d) <= at_ (gr_time s) j + INR d * revolution m p.
Proof.
  intros p Hp0 Hp j d. induction d as [|d IH]; intros H.
  - rewrite Nat.add_0_r. cbn. lra.
  - replace (j + S d)%nat with (S (j + d)) by lia. rewrite (iv_step _ _ _ _ _ _ I) by lia. rewrite S_INR.
    specialize (IH ltac:(lia)). assert (L := low p Hp0 Hp (j + d)%nat ltac:(lia)).
    assert (R := revolution_mono m (gp_radius _ _ _ G) p _ Hp0 L). fold mi. lra.
Qed.
Lemma late0 : forall p, 0 < p -> (forall i, (i < length time)%nat -> p <= at_ mom i) -> forall d, (d <= S n)%nat ->
  at_ (gr_time s) d <= at_ time 0 + INR (S d) * revolution m p.
Proof.
  intros p Hp0 Hp d Hd. assert (L := late p Hp0 Hp 0 d ltac:(lia)). cbn [Nat.add] in L.
  rewrite (iv_t0 _ _ _ _ _ _ I) in L. rewrite S_INR.
  assert (L0 := revolution_mono m (gp_radius _ _ _ G) p _ Hp0 (Hp 0%nat (gp_some _ _ _ G))). lra.
Qed.
Lemma later : forall j d, (j + d <= S n)%nat -> at_ (gr_time s) j <= at_ (gr_time s) (j + d).
Proof.
  intros j d. induction d as [|d IH]; intros H; [rewrite Nat.add_0_r; lra|].
  replace (j + S d)%nat with (S (j + d)) by lia. rewrite (iv_step _ _ _ _ _ _ I) by lia. specialize (IH ltac:(lia)).
  assert (P := revolution_pos m (gp_radius _ _ _ G) _ (iv_pos _ _ _ _ _ _ I (j + d)%nat ltac:(lia))). lra.
Qed.
End Window.

Lemma window_spec : forall m time mom fuel ts ps, good_program m time mom -> interpolate_momentum fuel m time mom = Ok (ts, ps) ->
  exists k n s f, inv m time mom k n s /\ counted m n s /\ (pg_nturns m <= gr_turn s)%Z /\
    first_at (removelast (gr_time s)) (pg_t_ref m) f /\
    (Z.of_nat f - pg_i0 m + pg_nturns m <= Z.of_nat (S n) + 1)%Z /\
    ts = slice (removelast (gr_time s)) (Z.of_nat f - pg_i0 m) (Z.of_nat f - pg_i0 m + pg_nturns m) /\
    ps = slice (gr_mom s) (Z.of_nat f - pg_i0 m) (Z.of_nat f - pg_i0 m + pg_nturns m).
Proof.
  intros m time mom fuel ts ps G H. unfold interpolate_momentum in H.
  destruct (interpolated_cases m time mom G fuel) as [[E _]|[[E _]|(s & k & n & E & I & C & T)]]; rewrite E in H; try discriminate. cbn [bind] in H.
  apply bind_ok in H. destruct H as [z [F H]]. apply first_spec in F. destruct F as (f & -> & F). cbv zeta in H.
  replace (0 + Z.of_nat f)%Z with (Z.of_nat f) in H by lia.
  destruct (Z.ltb_spec (Z.of_nat (length (removelast (gr_time s))) + 1) (Z.of_nat f - pg_i0 m + pg_nturns m)) as [|L]; [discriminate|].
  injection H as <- <-. exists k, n, s, f. split; auto. split; auto. split; auto. split; auto. split; auto.
  rewrite (ti_length m time mom k n s I) in L. lia.
Qed.

(** C64: the turns follow the momentum program.  If at least i0 revolutions lie
    between the start of the program and t_ref, then turn i0 is the first that
    is not before t_ref, and from each turn to the next one revolution passes
    and the momentum is that of the program.  The number of turns is the one
    asked for, or one less. *)
Lemma C64_turns_partial_lem : forall m time mom p i0 n fuel ts ps,
  good_program m time mom -> 0 < p -> (forall i, (i < length time)%nat -> p <= at_ mom i) ->
  pg_i0 m = Z.of_nat i0 -> pg_nturns m = Z.of_nat n -> (i0 < n)%nat ->
  at_ time 0 + INR i0 * revolution m p < pg_t_ref m ->
  interpolate_momentum fuel m time mom = Ok (ts, ps) ->
  (length ts = n \/ S (length ts) = n) /\ length ps = length ts /\ first_at ts (pg_t_ref m) i0 /\
  (forall i, (S i < length ts)%nat -> follows m time mom ts ps i) /\
  ((at_ ts 0 = at_ time 0 + revolution m (at_ mom 0) /\ at_ ps 0 = at_ mom 0) \/ on_line time mom (at_ ts 0) (at_ ps 0)).
Proof.
  intros m time mom p i0 n fuel ts ps G Hp0 Hp Ei En Hi Lead H.
  destruct (window_spec m time mom fuel ts ps G H) as (k & N & s & f & I & C & T & F & L & -> & ->).
  assert (LT := ti_length m time mom k N s I). assert (AT := ti_at m time mom k N s I).
  set (ti := removelast (gr_time s)) in *. destruct F as (F1 & F2 & F3).
  assert (Hf : (i0 <= f)%nat).
  { destruct (Nat.le_gt_cases i0 f) as [|Lt]; auto. exfalso. rewrite AT in F2 by lia.
    assert (K := late0 m time mom G k N s I p Hp0 Hp f ltac:(lia)).
    assert (INR (S f) <= INR i0) by (apply le_INR; lia).
    assert (Rp := revolution_pos m (gp_radius _ _ _ G) p Hp0). nra. }
  rewrite Ei, En in *. replace (Z.of_nat f - Z.of_nat i0)%Z with (Z.of_nat (f - i0)) in * by lia.
  replace (Z.of_nat (f - i0) + Z.of_nat n)%Z with (Z.of_nat (f - i0 + n)) in * by lia.
  destruct (slice_at ti (f - i0) (f - i0 + n) ltac:(lia)) as [L1 A1].
  destruct (slice_at (gr_mom s) (f - i0) (f - i0 + n) ltac:(lia)) as [L2 A2].
  rewrite (iv_mom _ _ _ _ _ _ I) in L2, A2. rewrite LT in L1, A1.
  set (ts := slice ti (Z.of_nat (f - i0)) (Z.of_nat (f - i0 + n))) in *.
  set (ps := slice (gr_mom s) (Z.of_nat (f - i0)) (Z.of_nat (f - i0 + n))) in *.
  split; [lia|]. split; [lia|]. split; [|split].
  - split; [lia|]. split.
    + rewrite A1 by lia. replace (f - i0 + i0)%nat with f by lia. auto.
    + intros j Hj. rewrite A1 by lia. apply F3. lia.
  - intros i Hl. assert (Fo := ti_follows m time mom k N s I (f - i0 + i) ltac:(lia)). fold ti in Fo. unfold follows in *.
    rewrite !A1, !A2 by lia. replace (f - i0 + S i)%nat with (S (f - i0 + i)) by lia. auto.
  - rewrite A1, A2 by lia. rewrite Nat.add_0_r. rewrite AT by lia. destruct (f - i0)%nat as [|q] eqn:Q.
    + left. split; [apply (iv_t0 _ _ _ _ _ _ I)|apply (iv_p0 _ _ _ _ _ _ I)].
    + right. apply (iv_line _ _ _ _ _ _ I). lia.
Qed.

(** C65: the construction ends, with the turns or with an IndexError or
    ValueError; more steps would not change that. *)
Lemma C65_ends_lem : forall m time mom, good_program m time mom -> exists F, forall fuel, (F <= fuel)%nat ->
  interpolate_momentum fuel m time mom = interpolate_momentum F m time mom /\
  ((exists ts ps, interpolate_momentum fuel m time mom = Ok (ts, ps)) \/
   interpolate_momentum fuel m time mom = Fail (Raised IndexError) \/
   interpolate_momentum fuel m time mom = Fail (Raised ValueError)).
Proof.
  intros m time mom G. assert (D := delta_pos m (gp_radius _ _ _ G)). set (delta := circumference m / c_light) in *.
  set (span := at_ time (length time - 1) - at_ time 0).
  destruct (archimed (span / delta)) as [A _]. set (F := Z.to_nat (up (span / delta))).
  assert (HF : span < INR F * delta).
  { assert (span / delta < INR F).
    { destruct (Z.le_gt_cases 0 (up (span / delta))) as [P|Ng].
      - unfold F. rewrite INR_IZR_INZ, Z2Nat.id by auto. lra.
      - apply IZR_lt in Ng. assert (0 <= INR F) by apply pos_INR. lra. }
    apply (Rmult_lt_compat_r delta) in H; auto. unfold Rdiv in H. rewrite Rmult_assoc, Rinv_l, Rmult_1_r in H by lra. auto. }
  exists F. intros fuel Hf.
  assert (NE : forall fu, (F <= fu)%nat -> interpolated fu m time mom <> Fail OutOfFuel).
  { intros fu Hfu X. destruct (interpolated_cases m time mom G fu) as [[E B]|[[E _]|(s & k & n & E & _)]]; [|congruence|congruence].
    fold delta in B. fold span in B. assert (INR F <= INR fu) by (apply le_INR; auto). nra. }
  assert (SAME : interpolated fuel m time mom = interpolated F m time mom).
  { rewrite !(interpolated_eq m time mom G). assert (NF := NE F ltac:(lia)). rewrite (interpolated_eq m time mom G) in NF.
    destruct (grow_all F (S (length time)) m time mom (pg_nturns m) 0 (start m time mom)) as [s|e] eqn:E.
    - rewrite (grow_all_more _ _ _ _ _ _ _ _ _ E ltac:(discriminate) fuel Hf). auto.
    - cbn [bind] in NF. assert (NF' : @Fail growing e <> Fail OutOfFuel) by congruence.
      rewrite (grow_all_more _ _ _ _ _ _ _ _ _ E NF' fuel Hf). auto. }
  split; [unfold interpolate_momentum; rewrite SAME; auto|].
  specialize (NE fuel Hf). clear SAME. unfold interpolate_momentum.
  destruct (interpolated fuel m time mom) as [[ti mi]|e] eqn:E; cbn [bind].
  - destruct (first_not_before (pg_t_ref m) 0 ti) as [z|e] eqn:Ef; cbn [bind].
    + destruct (Z.of_nat (length ti) + 1 <? z - pg_i0 m + pg_nturns m)%Z; eauto.
    + apply first_fail in Ef. destruct Ef as [-> _]. auto.
  - destruct (interpolated_cases m time mom G fuel) as [[E' _]|[[E' _]|(s & k & n & E' & _)]]; congruence || rewrite E in E'; injection E' as ->; auto.
Qed.

(** C65: a program long enough gives the turns.  It has to reach from i0
    (slowest) revolutions before t_ref to n - i0 + 1 after it. *)
Lemma C65_enough_lem : forall m time mom p i0 n,
  good_program m time mom -> 0 < p -> (forall i, (i < length time)%nat -> p <= at_ mom i) ->
  pg_i0 m = Z.of_nat i0 -> pg_nturns m = Z.of_nat n -> (i0 + 2 <= n)%nat ->
  at_ time 0 + INR i0 * revolution m p < pg_t_ref m ->
  pg_t_ref m + INR (n - i0 + 1) * revolution m p <= at_ time (length time - 1) ->
  exists F ts ps, forall fuel, (F <= fuel)%nat -> interpolate_momentum fuel m time mom = Ok (ts, ps).
Proof.
  intros m time mom p i0 n G Hp0 Hp Ei En Hi Lead Tail.
  destruct (C65_ends_lem m time mom G) as [F HF].
  assert (Rp := revolution_pos m (gp_radius _ _ _ G) p Hp0).
  assert (T0 : at_ time 0 < pg_t_ref m). { assert (0 <= INR i0) by apply pos_INR. nra. }
  assert (OKF : exists ts ps, interpolate_momentum F m time mom = Ok (ts, ps)).
  { destruct (HF F ltac:(lia)) as [_ [K|K]]; auto. exfalso.
    unfold interpolate_momentum in K.
    destruct (interpolated_cases m time mom G F) as [[E _]|[[E (s & N & I & C & T)]|(s & k & N & E & I & C & T)]]; rewrite E in K; cbn [bind] in K.
    - destruct K; discriminate.
    - clear K E. destruct C as (f & F1 & F2 & F3 & F4). rewrite F4, Ei, En in T.
      assert (B := iv_behind _ _ _ _ _ _ I).
      destruct (Nat.le_gt_cases f 1) as [Lf|Lf].
      + assert (K := late0 m time mom G _ N s I p Hp0 Hp (S N) ltac:(lia)).
        assert (INR (S (S N)) <= INR (n - i0 + 1)) by (apply le_INR; lia). nra.
      + destruct f as [|g]; [lia|]. assert (Lg := F2 g ltac:(lia)).
        assert (K := late m time mom G _ N s I p Hp0 Hp g (S N - g) ltac:(lia)). replace (g + (S N - g))%nat with (S N) in K by lia.
        assert (INR (S N - g) <= INR (n - i0 + 1)) by (apply le_INR; lia). nra.
    - destruct C as (f & F1 & F2 & F3 & F4). rewrite F4, Ei, En in T.
      assert (LT := ti_length m time mom k N s I). assert (AT := ti_at m time mom k N s I).
      destruct (first_not_before (pg_t_ref m) 0 (removelast (gr_time s))) as [z|e] eqn:Ef; cbn [bind] in K.
      + apply first_spec in Ef. destruct Ef as (g & -> & G1 & G2 & G3). rewrite LT in *. cbv zeta in K. rewrite Ei, En in K.
        assert (Hg : (g <= f)%nat).
        { destruct (Nat.le_gt_cases g f) as [|Lt]; auto. exfalso. assert (X := G3 f Lt). rewrite AT in X by lia. assert (Y := F3 f ltac:(lia)). lra. }
        destruct (Z.ltb_spec (Z.of_nat (S N) + 1) (0 + Z.of_nat g - Z.of_nat i0 + Z.of_nat n)); [lia|destruct K; discriminate].
      + apply first_fail in Ef. destruct Ef as [_ X]. rewrite LT in X. assert (Y := X N ltac:(lia)). rewrite AT in Y by lia.
        assert (Z := F3 N). assert ((f <= N)%nat) by lia. specialize (Z ltac:(lia)). lra. }
  destruct OKF as (ts & ps & E). exists F, ts, ps. intros fuel Hf. destruct (HF fuel Hf) as [-> _]. auto.
Qed.

(** ** Values *)

Lemma slice_In : forall (l : list R) a b x, In x (slice l a b) -> In x l.
Proof.
  intros l a b x H. unfold slice in H. cbv zeta in H.
  assert (K1 : forall (q : list R) k, In x (firstn k q) -> In x q). { intros q. induction q as [|y q IH]; intros [|k]; cbn; auto; try tauto. intros [|]; auto. right. eauto. }
  assert (K2 : forall (q : list R) k, In x (skipn k q) -> In x q). { intros q. induction q as [|y q IH]; intros [|k]; cbn; auto. intros. right. eauto. }
  eauto.
Qed.
Lemma all_pos : forall m time mom fuel ts ps, good_program m time mom -> interpolate_momentum fuel m time mom = Ok (ts, ps) ->
  length ps = length ts /\ forall p, In p ps -> 0 < p.
Proof.
  intros m time mom fuel ts ps G H. destruct (window_spec m time mom fuel ts ps G H) as (k & n & s & f & I & C & T & F & L & -> & ->).
  split.
  - unfold slice. cbv zeta. rewrite !firstn_length, !skipn_length, (iv_mom _ _ _ _ _ _ I), (ti_length m time mom k n s I). auto.
  - intros p Hp. apply slice_In in Hp. apply (In_nth _ _ 0) in Hp. destruct Hp as (j & Hj & <-).
    rewrite (iv_mom _ _ _ _ _ _ I) in Hj. apply (iv_pos _ _ _ _ _ _ I). lia.
Qed.
Lemma at_In : forall l i, (i < length l)%nat -> In (at_ l i) l.
Proof. intros. apply nth_In. auto. Qed.

Lemma built : forall newton fuel m v, programs_machine newton fuel m = Ok v ->
  exists w phi0, pg_values fuel m = Ok w /\ v = set_phi0 w phi0 /\
    ((pv_phi12 w = None /\ phi0 = pv_phi0 w) \/ find_synchronous_phase newton m w = Ok phi0).
Proof.
  intros newton fuel m v H. unfold programs_machine in H. apply bind_ok in H. destruct H as [u [_ H]].
  apply bind_ok in H. destruct H as [w [E H]]. destruct (pv_phi12 w) eqn:P.
  - apply bind_ok in H. destruct H as [phi0 [F H]]. injection H as <-. exists w, phi0. auto.
  - injection H as <-. exists w, (pv_phi0 w). split; auto. split; auto. destruct w; auto.
Qed.

Lemma drift_length : forall m (a b c : list R) r,
  mapM (fun x => drift_of m (fst x) (fst (snd x)) (snd (snd x))) (combine a (combine b c)) = Ok r ->
  length b = length a -> length c = length a ->
  length r = length a /\ forall i, (i < length a)%nat -> drift_of m (at_ a i) (at_ b i) (at_ c i) = Ok (at_ r i).
Proof.
  intros m a. induction a as [|x a IH]; intros [|y b] [|z c] r H L1 L2; try discriminate; cbn in H.
  - injection H as <-. split; auto. cbn. intros; lia.
  - apply bind_ok in H. destruct H as [q [E H]]. apply bind_ok in H. destruct H as [r' [E' H]]. injection H as <-.
    cbn in L1, L2. destruct (IH b c r' E') as [L P]; [lia|lia|]. split; [cbn; auto|].
    intros [|i] Hi; [exact E|]. apply P. cbn in Hi. lia.
Qed.

(** C66: what is stored for each turn belongs together: energy, speed, slip
    factor, drift coefficient, revolution frequency; the reference turn is at
    time 0.  (Each time step is the revolution at the speed of the later
    turn, and the energy differences are those to the next turn.) *)
Lemma C66_values_partial_lem : forall newton fuel m v time mom i0,
  pg_momentum m = [time; mom] -> good_program m time mom -> pg_i0 m = Z.of_nat i0 ->
  programs_machine newton fuel m = Ok v ->
  exists n ts, pv_n_turns v = Z.of_nat n /\ stored_per_turn n v /\ length (pv_deltaE0 v) = (n - 1)%nat /\
    length ts = n /\ interpolate_momentum fuel m time mom = Ok (ts, pv_momentum v) /\
    at_ (pv_time v) i0 = 0 /\ (i0 < n)%nat /\
    (forall i, (i < n)%nat ->
      let p := at_ (pv_momentum v) i in let e := at_ (pv_e0 v) i in let b := at_ (pv_beta0 v) i in
      0 < p /\ 0 < e /\ e ^ 2 = p ^ 2 + pg_e_rest m ^ 2 /\ b * e = p /\
      at_ (pv_eta0 v) i = pg_e_rest m ^ 2 / e ^ 2 - 1 / pg_trans_gamma m ^ 2 /\
      at_ (pv_drift_coef v) i * (e * b ^ 2) = 2 * PI * pg_h_num m * at_ (pv_eta0 v) i /\
      at_ (pv_omega_rev0 v) i * revolution m p = 2 * PI) /\
    (forall i, (S i < n)%nat ->
      at_ (pv_time v) (S i) - at_ (pv_time v) i = revolution m (at_ (pv_momentum v) (S i)) /\
      at_ (pv_deltaE0 v) i = at_ (pv_e0 v) (S i) - at_ (pv_e0 v) i).
Proof.
  intros newton fuel m v time mom i0 Em G Ei H.
  destruct (built _ _ _ _ H) as (w & ph & Hw & -> & Hph). destruct (values_facts fuel m w Hw) as (ts & ps & FC). destruct FC.
  destruct fc_int as (mt & mm & A1 & A2 & A3). rewrite Em in A1, A2. injection A1 as <-. injection A2 as <-.
  destruct (all_pos m time mom fuel ts ps G A3) as [Lp Pp]. set (n := length ts) in *.
  destruct fc_time as (tr & t0 & B1 & B2 & B3 & B4). destruct fc_bdot as (bf & B5 & B6).
  subst ps. set (ps := pv_momentum w) in *.
  apply mapM_at in fc_e, fc_b, B1, fc_eta, B4, B5. destruct fc_e as [Le Ve], fc_b as [Lb Vb], B1 as [Lt Vt], fc_eta as [Lh Vh], B4 as [Lo Vo], B5 as [Lf Vf].
  assert (Lv1 := interp_rows_length _ _ _ _ fc_v1).
  destruct (drift_length m _ _ _ _ fc_drift ltac:(congruence) ltac:(congruence)) as [Ld Vd].
  destruct (rcumsum_spec tr 0) as (Lc & Sc & _). destruct (rdiffs_spec (pv_e0 w)) as [Lr Vr].
  apply gradient_spec in B6. destruct B6 as (G1 & G2 & G3 & _).
  assert (Lph : length ph = n).
  { destruct Hph as [[_ ->]|Hph]; [rewrite fc_phi0, map_length; auto|].
    destruct (pv_phi12 w) as [a|] eqn:Ea.
    - apply (synchronous_spec newton m w a i0 n) in Hph; auto. tauto.
    - unfold find_synchronous_phase in Hph. rewrite Ea in Hph. discriminate. }
  assert (Lv2 : length (pv_vrf2 w) = n).
  { destruct (pg_harmonics m) as [|h0 [|h1 r]] eqn:Eh.
    - destruct (fc_h1 ltac:(cbn; lia)) as [-> _]. rewrite map_length. auto.
    - destruct (fc_h1 ltac:(cbn; lia)) as [-> _]. rewrite map_length. auto.
    - destruct (fc_h2 h0 h1 r eq_refl) as [X _]. apply interp_rows_length in X. auto. }
  rewrite Ei in B2. apply at_get in B2. destruct B2 as [B2 I0].
  assert (Lti : length (pv_time w) = n) by (rewrite B3, map_length; congruence).
  exists n, ts. cbn [set_phi0 pv_n_turns pv_vrf1 pv_vrf2 pv_h_ratio pv_phi12 pv_momentum pv_bdot pv_beta0 pv_deltaE0 pv_drift_coef pv_e0 pv_eta0 pv_omega_rev0 pv_phi0 pv_time].
  split; auto. split. { unfold stored_per_turn. cbn. repeat constructor; auto; congruence. }
  split; [rewrite fc_de, Lr; congruence|]. split; auto. split; auto.
  split; [rewrite B3, at_map by auto; lra|]. split; [congruence|].
  assert (POS : forall i, (i < n)%nat -> 0 < at_ ps i) by (intros i Hi; apply Pp, at_In; lia).
  assert (BB : forall i, (i < n)%nat -> at_ (pv_beta0 w) i = speed (pg_e_rest m) (at_ ps i)).
  { intros i Hi. specialize (Vb i ltac:(lia)). rewrite beta_val in Vb by auto. congruence. }
  assert (TR : forall i, (i < n)%nat -> at_ tr i = revolution m (at_ ps i)).
  { intros i Hi. specialize (Vt i ltac:(lia)). rewrite BB in Vt by auto. rewrite period_val in Vt by auto. congruence. }
  split.
  - intros i Hi. fold ps. cbv zeta. assert (Pi := POS i Hi). set (p := at_ ps i) in *. set (E := pg_e_rest m) in *.
    assert (HP := hyp_pos p E Pi). assert (Ei' := Ve i ltac:(lia)). fold p in Ei'. unfold energy_of in Ei'. fold E in Ei'.
    rewrite rsqrt_val in Ei' by lra. assert (Ee : at_ (pv_e0 w) i = sqrt (p ^ 2 + E ^ 2)) by congruence. clear Ei'. rewrite Ee. assert (SP : 0 < sqrt (p ^ 2 + E ^ 2)) by (apply sqrt_lt_R0; auto).
    assert (SQ : sqrt (p ^ 2 + E ^ 2) ^ 2 = p ^ 2 + E ^ 2) by (apply pow2_sqrt; lra).
    split; auto. split; auto. split; auto. rewrite (BB i Hi). fold p E.
    assert (BE : speed E p * sqrt (p ^ 2 + E ^ 2) = p) by (unfold speed; field; lra). split; auto. split; [|split].
    + assert (X := Vh i ltac:(lia)). unfold eta_of in X. apply bind_ok in X. destruct X as [g [X1 X]]. apply rdiv_ok in X1. destruct X1 as [X1 ->].
      assert (X' : at_ (pv_eta0 w) i = (1 - at_ (pv_beta0 w) i ^ 2) - 1 / pg_trans_gamma m ^ 2) by congruence. rewrite X', (BB i Hi). fold p E. unfold speed. f_equal.
      set (q := sqrt (p ^ 2 + E ^ 2)) in *. replace (E ^ 2) with (q ^ 2 - p ^ 2) by lra. field. lra.
    + assert (X := Vd i ltac:(lia)). unfold drift_of in X. apply rdiv_ok in X. destruct X as [X1 ->].
      rewrite (BB i Hi) in X1 |- *. fold p E in X1 |- *. rewrite Ee in X1 |- *. field. split; intros Z; apply X1; rewrite Z; ring.
    + assert (X := Vo i ltac:(lia)). rewrite (TR i Hi) in X. fold p in X. unfold omega_of in X. apply bind_ok in X. destruct X as [g [X1 X]]. apply rdiv_ok in X1. destruct X1 as [X1 ->].
      injection X as <-. field. auto.
  - intros i Hi. split.
    + rewrite B3, !at_map by lia. rewrite Sc by lia. rewrite TR by lia. fold ps. lra.
    + rewrite fc_de. apply Vr. lia.
Qed.

(** C67: with an exact root finder, the phases stored are synchronous: the
    voltage of turn i at that phase equals the energy gain the field asks for. *)
Lemma C67_synchronous_lem : forall newton fuel m v a i0, finds_roots newton -> pg_i0 m = Z.of_nat i0 ->
  programs_machine newton fuel m = Ok v -> pv_phi12 v = Some a ->
  forall i, (Z.of_nat i < pv_n_turns v)%Z -> exists p12, phi12_at a (Z.of_nat i) = Ok p12 /\
    let phi := at_ (pv_phi0 v) i in
    at_ (pv_vrf1 v) i * sin phi + at_ (pv_vrf2 v) i * sin (pv_h_ratio v * (phi - p12)) =
    2 * PI * pg_radius m * pg_bending m * at_ (pv_bdot v) i * rsign (pg_q m).
Proof.
  intros newton fuel m v a i0 HN Ei H Ea i Hi.
  destruct (built _ _ _ _ H) as (w & ph & Hw & -> & Hph). destruct (values_facts fuel m w Hw) as (ts & ps & FC). destruct FC.
  cbn [set_phi0 pv_n_turns pv_vrf1 pv_vrf2 pv_h_ratio pv_phi12 pv_momentum pv_bdot pv_beta0 pv_deltaE0 pv_drift_coef pv_e0 pv_eta0 pv_omega_rev0 pv_phi0 pv_time] in *.
  destruct Hph as [[X _]|Hph]; [congruence|].
  assert (Lv1 := interp_rows_length _ _ _ _ fc_v1).
  apply (synchronous_spec newton m w a i0 (length ts)) in Hph; auto. destruct Hph as (Lph & _ & (lo & up & st & _ & _ & P0) & P1 & P2).
  assert (P : exists x, newton_rf newton m w a (Z.of_nat i) x = Ok (at_ ph i)).
  { destruct (lt_eq_lt_dec i i0) as [[K| ->]|K]; eauto. eexists. apply P2. lia. }
  destruct P as [x X]. unfold newton_rf in X.
  apply bind_ok in X. destruct X as [v1 [X1 X]]. apply bind_ok in X. destruct X as [v2 [X2 X]].
  apply bind_ok in X. destruct X as [bd [X3 X]]. apply bind_ok in X. destruct X as [p12 [X4 X]].
  exists p12. split; auto. apply HN in X. apply at_get in X1, X2, X3. destruct X1 as [<- _], X2 as [<- _], X3 as [<- _].
  cbv zeta. unfold rf_voltage in X. lra.
Qed.

(** C67: where the search starts.  At the reference turn it starts at 0 below
    transition and at pi above, first with the first system alone; every other
    turn starts with the phase of its neighbour. *)
Lemma C67_search_lem : forall newton fuel m v a i0, pg_i0 m = Z.of_nat i0 ->
  programs_machine newton fuel m = Ok v -> pv_phi12 v = Some a ->
  let gain i := 2 * PI * pg_radius m * pg_bending m * at_ (pv_bdot v) i * rsign (pg_q m) in
  let search i p12 x := newton
    (fun phi => at_ (pv_vrf1 v) i * sin phi + at_ (pv_vrf2 v) i * sin (pv_h_ratio v * (phi - p12)) - gain i) x
    (fun phi => at_ (pv_vrf1 v) i * cos phi + pv_h_ratio v * at_ (pv_vrf2 v) i * cos (pv_h_ratio v * (phi - p12))) in
  let centre := if Rlt_dec 0 (pg_q m * (pg_trans_gamma m - at_ (pv_e0 v) i0 / pg_e_rest m)) then 0 else PI in
  (exists s p12, phi12_at a (Z.of_nat i0) = Ok p12 /\
     newton (fun phi => at_ (pv_vrf1 v) i0 * sin phi - gain i0) centre (fun phi => at_ (pv_vrf1 v) i0 * cos phi) = Ok s /\
     search i0 p12 s = Ok (at_ (pv_phi0 v) i0)) /\
  (forall i, (i < i0)%nat -> exists p12, phi12_at a (Z.of_nat i) = Ok p12 /\
     search i p12 (at_ (pv_phi0 v) (i + 1)) = Ok (at_ (pv_phi0 v) i)) /\
  (forall i, (i0 < i)%nat -> (Z.of_nat i < pv_n_turns v)%Z -> exists p12, phi12_at a (Z.of_nat i) = Ok p12 /\
     search i p12 (at_ (pv_phi0 v) (i - 1)) = Ok (at_ (pv_phi0 v) i)).
Proof.
  intros newton fuel m v a i0 Ei H Ea.
  destruct (built _ _ _ _ H) as (w & ph & Hw & -> & Hph). destruct (values_facts fuel m w Hw) as (ts & ps & FC). destruct FC.
  cbn [set_phi0 pv_n_turns pv_vrf1 pv_vrf2 pv_h_ratio pv_phi12 pv_momentum pv_bdot pv_beta0 pv_deltaE0 pv_drift_coef pv_e0 pv_eta0 pv_omega_rev0 pv_phi0 pv_time] in *.
  destruct Hph as [[X _]|Hph]; [congruence|].
  assert (Lv1 := interp_rows_length _ _ _ _ fc_v1).
  apply (synchronous_spec newton m w a i0 (length ts)) in Hph; auto. destruct Hph as (Lph & I0 & (lo & up & st & P & PS & P0) & P1 & P2).
  cbv zeta.
  assert (N : forall i x y, newton_rf newton m w a (Z.of_nat i) x = Ok y -> exists p12, phi12_at a (Z.of_nat i) = Ok p12 /\ newton
    (fun phi => at_ (pv_vrf1 w) i * sin phi + at_ (pv_vrf2 w) i * sin (pv_h_ratio w * (phi - p12)) - 2 * PI * pg_radius m * pg_bending m * at_ (pv_bdot w) i * rsign (pg_q m)) x
    (fun phi => at_ (pv_vrf1 w) i * cos phi + pv_h_ratio w * at_ (pv_vrf2 w) i * cos (pv_h_ratio w * (phi - p12))) = Ok y).
  { intros i x y X. unfold newton_rf in X.
    apply bind_ok in X. destruct X as [v1 [X1 X]]. apply bind_ok in X. destruct X as [v2 [X2 X]].
    apply bind_ok in X. destruct X as [bd [X3 X]]. apply bind_ok in X. destruct X as [p12 [X4 X]].
    apply at_get in X1, X2, X3. destruct X1 as [<- _], X2 as [<- _], X3 as [<- _]. exists p12. split; [exact X4|]. rewrite <- X.
    f_equal. apply FunctionalExtensionality.functional_extensionality. intro phi. unfold rf_voltage. ring. }
  split; [|split].
  - destruct (N _ _ _ P0) as (p12 & A & B). exists st, p12. split; [exact A|]. split; [|exact B].
    unfold newton_rf1 in PS. apply bind_ok in PS. destruct PS as [v1 [X1 X]]. apply bind_ok in X. destruct X as [bd [X2 X]].
    apply at_get in X1, X2. destruct X1 as [<- _], X2 as [<- _]. rewrite <- X. unfold rfvolt_rf1, drfvolt_rf1. f_equal.
    unfold pg_phi_lower_upper in P. apply bind_ok in P. destruct P as [g [G P]]. unfold rdiv in G. destruct (Req_EM_T _ _); [discriminate|].
    injection G as <-. destruct (Rlt_dec _ _); injection P as <- <-; field.
  - intros i Hi. apply N. apply P1. exact Hi.
  - intros i Hi Hn. apply N. apply P2. lia.
Qed.

(** C67: without a phase program and phi12, no phase is searched; the phases
    are 0 and phi12 is left open. *)
Lemma C67_open_lem : forall newton fuel m v, pg_phi12 m = None -> pg_phase m = None ->
  programs_machine newton fuel m = Ok v -> pv_phi12 v = None /\ forall i, at_ (pv_phi0 v) i = 0.
Proof.
  intros newton fuel m v E1 E2 H.
  destruct (built _ _ _ _ H) as (w & ph & Hw & -> & Hph). destruct (values_facts fuel m w Hw) as (ts & ps & FC). destruct FC.
  cbn [set_phi0 pv_phi12 pv_phi0]. assert (N := fc_none E1 E2). split; auto. destruct Hph as [[_ ->]|Hph].
  - rewrite fc_phi0. intros i. unfold at_. change 0 with ((fun _ : R => 0) 0) at 2. rewrite map_nth. auto.
  - unfold find_synchronous_phase in Hph. rewrite N in Hph. discriminate.
Qed.

(** C67, passing phi12: a number or a numpy array never gives a machine. *)
Lemma C67_phi12_refuted_lem : forall newton fuel m a i0, pg_phi12 m = Some a -> pg_i0 m = Z.of_nat i0 ->
  match a with PhiList _ => False | _ => True end ->
  forall v, programs_machine newton fuel m <> Ok v.
Proof.
  intros newton fuel m a i0 Ea Ei Ha v H.
  destruct (built _ _ _ _ H) as (w & ph & Hw & -> & Hph). destruct (values_facts fuel m w Hw) as (ts & ps & FC). destruct FC.
  destruct (fc_given a Ea) as [P Q]. destruct a as [x|l|l]; try tauto.
  destruct Hph as [[X _]|Hph]; [congruence|]. unfold find_synchronous_phase in Hph. rewrite P in Hph. cbv zeta in Hph.
  apply bind_ok in Hph. destruct Hph as [e [_ Hph]]. apply bind_ok in Hph. destruct Hph as [[lo up] [_ Hph]].
  apply ave_ok in Hph. apply bind_ok in Hph. destruct Hph as [st [_ Hph]]. apply bind_ok in Hph. destruct Hph as [sy [K Hph]].
  unfold newton_rf in K. apply bind_ok in K. destruct K as [v1 [_ K]]. apply bind_ok in K. destruct K as [v2 [_ K]].
  apply bind_ok in K. destruct K as [bd [_ K]]. discriminate.
Qed.

Lemma interp_rows_at : forall time val rest r ts l, increasing time -> (0 <= r)%Z -> nth_error (time :: rest) (Z.to_nat r) = Some val ->
  interp_rows (time :: rest) r ts = Ok l ->
  forall i, (i < length ts)%nat -> program_value time val (at_ ts i) (at_ l i).
Proof.
  intros time val rest r ts l Inc R0 E H i Hi. apply np_get_nth in E; auto. unfold interp_rows in H. apply bind_ok in H. destruct H as [xp [E1 H]].
  injection E1 as <-. rewrite E in H. cbn [bind] in H. apply mapM_at in H. destruct H as [_ P].
  apply (rinterp_spec _ _ _ _ Inc (P i Hi)).
Qed.

(** C64: the voltages of a turn are those of the voltage program at its time;
    the second one is 0 if there is one harmonic only. *)
Lemma C64_voltages_lem : forall newton fuel m v time mom vt v1 rest,
  pg_momentum m = [time; mom] -> pg_voltage m = vt :: v1 :: rest -> increasing vt ->
  programs_machine newton fuel m = Ok v ->
  exists ts, interpolate_momentum fuel m time mom = Ok (ts, pv_momentum v) /\
    forall i, (i < length ts)%nat -> program_value vt v1 (at_ ts i) (at_ (pv_vrf1 v) i) /\
      (length (pg_harmonics m) = 1%nat -> at_ (pv_vrf2 v) i = 0 /\ pv_h_ratio v = 1) /\
      (forall h0 h1, pg_harmonics m = [h0; h1] -> exists v2 rest', rest = v2 :: rest' /\
         program_value vt v2 (at_ ts i) (at_ (pv_vrf2 v) i) /\ pv_h_ratio v * h0 = h1).
Proof.
  intros newton fuel m v time mom vt v1 rest Em Ev Inc H.
  destruct (built _ _ _ _ H) as (w & ph & Hw & -> & Hph). destruct (values_facts fuel m w Hw) as (ts & ps & FC). destruct FC.
  destruct fc_int as (mt & mm & A1 & A2 & A3). rewrite Em in A1, A2. injection A1 as <-. injection A2 as <-. subst ps.
  cbn [set_phi0 pv_vrf1 pv_vrf2 pv_h_ratio pv_momentum]. exists ts. split; auto. intros i Hi. rewrite Ev in *.
  assert (Lv1 := interp_rows_length _ _ _ _ fc_v1).
  split; [|split].
  - apply (interp_rows_at vt v1 (v1 :: rest) 1%Z ts _ Inc ltac:(lia) eq_refl fc_v1 i Hi).
  - intros Hh. destruct (fc_h1 ltac:(lia)) as [-> Hr]. rewrite at_map by lia. auto.
  - intros h0 h1 Eh. destruct (fc_h2 h0 h1 [] Eh) as (X & Y & Z). destruct rest as [|v2 r].
    + unfold interp_rows in X. apply bind_ok in X. destruct X as [xp [_ X]]. discriminate.
    + exists v2, r. split; auto. split; [apply (interp_rows_at vt v2 (v1 :: v2 :: r) 2%Z ts _ Inc ltac:(lia) eq_refl X i Hi)|].
      rewrite Z. field. auto.
Qed.

(** C67: with a phase program, phi12 of a turn is (phase1 - phase2 + pi) / h_ratio
    with the phases of the program at its time. *)
Lemma pair_at : forall h (a b : list R) l, length b = length a ->
  mapM (fun x => rdiv (fst x - snd x + PI) h) (combine a b) = Ok l ->
  length l = length a /\ forall i, (i < length a)%nat -> at_ l i * h = at_ a i - at_ b i + PI.
Proof.
  intros h a. induction a as [|x a IH]; intros [|y b] l L H; try discriminate; cbn in H.
  - injection H as <-. split; auto. cbn; intros; lia.
  - apply bind_ok in H. destruct H as [q [E H]]. apply bind_ok in H. destruct H as [r' [E' H]]. injection H as <-.
    cbn in L. destruct (IH b r' ltac:(lia) E') as [L' P]. split; [cbn; auto|].
    intros [|i] Hi; [|apply P; cbn in Hi; lia]. apply rdiv_ok in E. destruct E as [E ->]. unfold at_. cbn. field. auto.
Qed.
Lemma C67_phases_lem : forall newton fuel m v time mom pt p1 p2 h0 h1,
  pg_momentum m = [time; mom] -> pg_phase m = Some [pt; p1; p2] -> pg_phi12 m = None -> increasing pt ->
  pg_harmonics m = [h0; h1] -> programs_machine newton fuel m = Ok v ->
  exists ts l, interpolate_momentum fuel m time mom = Ok (ts, pv_momentum v) /\ pv_phi12 v = Some (PhiArray l) /\
    length l = length ts /\
    forall i, (i < length ts)%nat -> exists y1 y2, program_value pt p1 (at_ ts i) y1 /\ program_value pt p2 (at_ ts i) y2 /\
      at_ l i * pv_h_ratio v = y1 - y2 + PI.
Proof.
  intros newton fuel m v time mom pt p1 p2 h0 h1 Em Ep En Inc Eh H.
  destruct (built _ _ _ _ H) as (w & ph & Hw & -> & Hph). destruct (values_facts fuel m w Hw) as (ts & ps & FC). destruct FC.
  destruct fc_int as (mt & mm & A1 & A2 & A3). rewrite Em in A1, A2. injection A1 as <-. injection A2 as <-. subst ps.
  cbn [set_phi0 pv_h_ratio pv_momentum pv_phi12]. destruct (fc_phase _ En Ep) as (q1 & q2 & l & B1 & B2 & _ & B3 & B4).
  specialize (B2 h0 h1 [] Eh). exists ts, l. split; auto. split; auto.
  assert (L1 := interp_rows_length _ _ _ _ B1). assert (L2 := interp_rows_length _ _ _ _ B2).
  destruct (pair_at _ q1 q2 l ltac:(congruence) B3) as [L P]. split; [congruence|].
  intros i Hi. exists (at_ q1 i), (at_ q2 i).
  split; [apply (interp_rows_at pt p1 [p1; p2] 1%Z ts _ Inc ltac:(lia) eq_refl B1 i Hi)|].
  split; [apply (interp_rows_at pt p2 [p1; p2] 2%Z ts _ Inc ltac:(lia) eq_refl B2 i Hi)|]. apply P. lia.
Qed.

(** C68: the numerical derivative is exact for a linear function, and inside
    also for a quadratic one, however the points are spaced. *)
Lemma C68_derivative_lem : forall f x g a b c, gradient f x = Ok g -> increasing x ->
  (forall i, (i < length x)%nat -> at_ f i = a + b * at_ x i + c * at_ x i ^ 2) ->
  length g = length x /\
  (forall i, (0 < i)%nat -> (S i < length x)%nat -> at_ g i = b + 2 * c * at_ x i) /\
  (c = 0 -> forall i, (i < length x)%nat -> at_ g i = b).
Proof.
  intros f x g a b c H Inc Hf. destruct (gradient_spec f x g H) as (L1 & L2 & L3 & G0 & Gi & Gn). rewrite L1 in *.
  split; auto.
  assert (IN : forall i, (0 < i)%nat -> (S i < length x)%nat -> at_ g i = b + 2 * c * at_ x i).
  { intros i Hi Hl. destruct i as [|i]; [lia|]. assert (K := Gi i ltac:(lia)). unfold inner_slope in K. cbv zeta in K.
    rewrite !Hf in K by lia. assert (I1 := Inc i ltac:(lia)). assert (I2 := Inc (S i) ltac:(lia)).
    set (x0 := at_ x i) in *. set (x1 := at_ x (S i)) in *. set (x2 := at_ x (S (S i))) in *.
    apply (Rmult_eq_reg_r ((x1 - x0) * (x2 - x1) * (x1 - x0 + (x2 - x1)))).
    - rewrite K. ring.
    - apply Rgt_not_eq. assert (0 < (x1 - x0) * (x2 - x1)) by (apply Rmult_lt_0_compat; lra). apply Rmult_lt_0_compat; lra. }
  split; auto. intros -> i Hi. cbv zeta in Gn.
  destruct i as [|i].
  - rewrite !Hf in G0 by lia. assert (I1 := Inc 0%nat ltac:(lia)). nra.
  - destruct (Nat.eq_dec (S (S i)) (length x)) as [E|].
    + replace (length x - 2)%nat with i in Gn by lia. rewrite !Hf in Gn by lia. assert (I1 := Inc i ltac:(lia)). nra.
    + rewrite IN by lia. ring.
Qed.

(** C68: so if the momentum is linear in the stored time, the stored field
    derivative is its slope over charge, bending radius and c. *)
Lemma C68_field_lem : forall newton fuel m v time mom i0 a b,
  pg_momentum m = [time; mom] -> good_program m time mom -> pg_i0 m = Z.of_nat i0 ->
  programs_machine newton fuel m = Ok v ->
  (forall i, (Z.of_nat i < pv_n_turns v)%Z -> at_ (pv_momentum v) i = a + b * at_ (pv_time v) i) ->
  forall i, (Z.of_nat i < pv_n_turns v)%Z -> at_ (pv_bdot v) i = b / (pg_bending m * pg_q m) / c_light.
Proof.
  intros newton fuel m v time mom i0 a b Em G Ei H Hl i Hi.
  destruct (C66_values_partial_lem newton fuel m v time mom i0 Em G Ei H) as (n & ts & N & St & _ & _ & _ & _ & _ & V & T).
  destruct (built _ _ _ _ H) as (w & ph & Hw & -> & _). destruct (values_facts fuel m w Hw) as (ts' & ps & FC). destruct FC.
  cbn [set_phi0 pv_n_turns pv_momentum pv_bdot pv_time] in *. destruct fc_bdot as (bf & B5 & B6). subst ps.
  apply mapM_at in B5. destruct B5 as [Lf Vf]. unfold stored_per_turn in St. cbn in St. repeat match goal with X : Forall _ (_ :: _) |- _ => inversion X; clear X; subst end.
  assert (BF : forall j, (j < length (pv_time w))%nat -> bfield_of m (at_ (pv_momentum w) j) = Ok (at_ bf j)).
  { intros j Hj. apply Vf. congruence. }
  assert (NZ : pg_bending m * pg_q m <> 0 /\ c_light <> 0).
  { specialize (BF i ltac:(lia)). unfold bfield_of in BF. apply bind_ok in BF. destruct BF as [q [D1 D2]]. apply rdiv_ok in D1, D2. tauto. }
  destruct NZ as [Nz Nc].
  destruct (C68_derivative_lem bf (pv_time w) (pv_bdot w) (a / (pg_bending m * pg_q m) / c_light) (b / (pg_bending m * pg_q m) / c_light) 0 B6) as (_ & _ & Q).
  - intros j Hj. destruct (T j ltac:(lia)) as [E _]. cbn in E.
    assert (P := revolution_pos m (gp_radius _ _ _ G) (at_ (pv_momentum w) (S j))). 
    destruct (V (S j) ltac:(lia)) as [Vp _]. cbn in Vp. specialize (P Vp). lra.
  - intros j Hj. specialize (BF j Hj). unfold bfield_of in BF. rewrite rdiv_val in BF by auto. cbn [bind] in BF. rewrite rdiv_val in BF by auto.
    injection BF as <-. rewrite Hl by lia. unfold Rdiv. ring.
  - apply Q; auto. lia.
Qed.

Definition phases_ok (m : programmed) : Prop :=
  pg_phase m = None \/ exists pt p1 p2 h0 h1, pg_phase m = Some [pt; p1; p2] /\ increasing pt /\ (0 < length pt)%nat /\
    length p1 = length pt /\ length p2 = length pt /\ pg_harmonics m = [h0; h1] /\ h0 <> 0 /\ h1 <> 0.

Lemma values_built : forall fuel m time mom vt v1 v2 ts ps i0,
  pg_momentum m = [time; mom] -> good_program m time mom -> pg_i0 m = Z.of_nat i0 ->
  interpolate_momentum fuel m time mom = Ok (ts, ps) -> (2 <= length ts)%nat -> (i0 < length ts)%nat ->
  pg_voltage m = [vt; v1; v2] -> increasing vt -> (0 < length vt)%nat -> length v1 = length vt -> length v2 = length vt ->
  ((exists h, pg_harmonics m = [h]) \/ (exists h0 h1, pg_harmonics m = [h0; h1] /\ h0 <> 0)) ->
  pg_phi12 m = None -> phases_ok m ->
  pg_trans_gamma m <> 0 -> pg_bending m * pg_q m <> 0 ->
  exists w, pg_check m = Ok tt /\ pg_values fuel m = Ok w /\ (pg_phase m = None -> pv_phi12 w = None).
Proof.
  intros fuel m time mom vt v1 v2 ts ps i0 Em G Ei Ht L2 Li Ev Inc Lv L3 L4 Hh N1 N2 Ng Nb.
  assert (CK : pg_check m = Ok tt).
  { unfold pg_check. rewrite N1. destruct Hh as [[h ->]|(h0 & h1 & -> & _)]; reflexivity. }
  destruct (all_pos m time mom fuel ts ps G Ht) as [Lp Pp].
  assert (IR : forall xt a b r, (r = 1%Z \/ r = 2%Z) -> increasing xt -> (0 < length xt)%nat -> length a = length xt -> length b = length xt ->
      exists l, interp_rows [xt; a; b] r ts = Ok l /\ length l = length ts).
  { intros xt a b r Hr Ix Lx La Lb. unfold interp_rows.
    assert (exists val, np_get [xt; a; b] r = Ok val /\ length val = length xt).
    { destruct Hr as [-> | ->]; [exists a|exists b]; split; auto. }
    destruct H as (val' & -> & Lval). change (np_get [xt; a; b] 0) with (@Ok (list R) xt). cbn [bind].
    destruct (mapM_total _ _ (rinterp xt val') ts) as [l El]; [intros; apply rinterp_total; auto|].
    exists l. split; auto. eapply mapM_length; eauto. }
  unfold pg_values. rewrite Em. change (np_get [time; mom] 0) with (@Ok (list R) time). change (np_get [time; mom] 1) with (@Ok (list R) mom).
  cbn [bind]. rewrite Ht. cbn [bind]. rewrite Ev.
  destruct (IR vt v1 v2 1%Z ltac:(auto) Inc Lv L3 L4) as (l1 & -> & Ll1). cbn [bind]. rewrite N1.
  match goal with |- exists w, _ /\ bind ?X _ = Ok _ /\ _ => assert (H1 : exists r, X = Ok r) end.
  { destruct N2 as [->|(pt & p1 & p2 & h0 & h1 & -> & Ip & Lpt & Lp1 & Lp2 & _)]; [eauto|].
    destruct (IR pt p1 p2 1%Z ltac:(auto) Ip Lpt Lp1 Lp2) as (q & -> & _). eauto. }
  destruct H1 as [q1 H1]. rewrite H1. cbn [bind].
  match goal with |- exists w, _ /\ bind ?X _ = Ok _ /\ _ => assert (H2 : exists a b c, X = Ok (a, b, c) /\ (pg_phase m <> None -> b <> 0)) end.
  { destruct N2 as [N2|(pt & p1 & p2 & h0 & h1 & N2 & Ip & Lpt & Lp1 & Lp2 & Eh & Z0 & Z1)].
    - rewrite N2. destruct Hh as [[h ->]|(h0 & h1 & -> & Hn)]; [do 3 eexists; split; [reflexivity|intros Q; congruence]|].
      destruct (IR vt v1 v2 2%Z ltac:(auto) Inc Lv L3 L4) as (l2 & -> & _). cbn [bind]. rewrite rdiv_val by auto. cbn [bind].
      do 3 eexists; split; [reflexivity|intros Q; congruence].
    - rewrite N2, Eh. destruct (IR vt v1 v2 2%Z ltac:(auto) Inc Lv L3 L4) as (l2 & -> & _). cbn [bind]. rewrite rdiv_val by auto. cbn [bind].
      destruct (IR pt p1 p2 2%Z ltac:(auto) Ip Lpt Lp1 Lp2) as (q & -> & _). cbn [bind].
      do 3 eexists; split; [reflexivity|]. intros _ Q. apply Z1. apply (Rmult_eq_reg_r (/ h0)); [|apply Rinv_neq_0_compat; auto].
      unfold Rdiv in Q. rewrite Q. ring. }
  destruct H2 as (a & b & c & H2 & Nb'). rewrite H2. cbn [bind].
  destruct (mapM_total _ _ (energy_of m) ps) as [en Een].
  { intros x Hx. unfold energy_of. rewrite rsqrt_val; eauto. assert (P := hyp_pos x (pg_e_rest m) (Pp x Hx)). lra. }
  destruct (mapM_total _ _ (beta_of m) ps) as [be Ebe]. { intros x Hx. rewrite beta_val by auto. eauto. }
  rewrite Een, Ebe. cbn [bind].
  destruct (mapM_at _ _ _ Een) as [Len Ven]. destruct (mapM_at _ _ _ Ebe) as [Lbe Vbe].
  assert (BV : forall i, (i < length ps)%nat -> at_ be i = speed (pg_e_rest m) (at_ ps i) /\ 0 < at_ ps i).
  { intros i Hi. assert (P := Pp _ (at_In ps i Hi)). specialize (Vbe i Hi). rewrite beta_val in Vbe by auto. split; congruence. }
  destruct (mapM_total _ _ (period_of m) be) as [tr Etr].
  { intros x Hx. apply (In_nth _ _ 0) in Hx. destruct Hx as (j & Hj & <-). change (nth j be 0) with (at_ be j).
    destruct (BV j ltac:(lia)) as [-> P]. rewrite period_val by auto. eauto. }
  rewrite Etr. cbn [bind]. cbv zeta. destruct (mapM_at _ _ _ Etr) as [Ltr Vtr].
  assert (TV : forall i, (i < length ps)%nat -> 0 < at_ tr i).
  { intros i Hi. specialize (Vtr i ltac:(lia)). destruct (BV i Hi) as [B P]. rewrite B, period_val in Vtr by auto.
    injection Vtr as <-. apply revolution_pos; auto. apply (gp_radius _ _ _ G). }
  destruct (rcumsum_spec tr 0) as (Lc & Sc & _).
  rewrite Ei, at_np by lia. cbn [bind]. set (t0 := at_ (rcumsum 0 tr) i0).
  destruct (mapM_total _ _ omega_of tr) as [om Eom].
  { intros x Hx. apply (In_nth _ _ 0) in Hx. destruct Hx as (j & Hj & <-). change (nth j tr 0) with (at_ tr j).
    assert (P := TV j ltac:(lia)). unfold omega_of. rewrite rdiv_val by lra. cbn. eauto. }
  rewrite Eom. cbn [bind].
  match goal with |- exists w, _ /\ bind ?X _ = Ok _ /\ _ => assert (H3 : exists r, X = Ok r /\ (pg_phase m = None -> r = None)) end.
  { destruct (pg_phase m) as [ph|]; [|eauto].
    destruct (mapM_total _ _ (fun x : R * R => rdiv (fst x - snd x + PI) b) (combine q1 c)) as [l ->].
    - intros x _. rewrite rdiv_val; eauto. apply Nb'. discriminate.
    - cbn [bind]. eexists. split; [reflexivity|discriminate]. }
  destruct H3 as (p12 & H3 & H3'). rewrite H3. cbn [bind].
  destruct (mapM_total _ _ (eta_of m) be) as [eta Eeta].
  { intros x Hx. unfold eta_of. rewrite rdiv_val by (apply pow_nonzero; auto). cbn [bind]. eauto. }
  rewrite Eeta. cbn [bind].
  destruct (mapM_total _ _ (fun x => drift_of m (fst x) (fst (snd x)) (snd (snd x))) (combine eta (combine en be))) as [dr Edr].
  { intros [x [y z]] Hx. apply in_combine_r in Hx. cbn [fst snd]. assert (Hy := in_combine_l _ _ _ _ Hx). assert (Hz := in_combine_r _ _ _ _ Hx).
    unfold drift_of. rewrite rdiv_val; eauto.
    apply (In_nth _ _ 0) in Hy. destruct Hy as (j & Hj & <-). apply (In_nth _ _ 0) in Hz. destruct Hz as (j' & Hj' & <-).
    change (nth j en 0) with (at_ en j). change (nth j' be 0) with (at_ be j').
    destruct (BV j' ltac:(lia)) as [-> P]. assert (S := speed_pos (pg_e_rest m) _ P).
    assert (P' := proj2 (BV j ltac:(lia))). specialize (Ven j ltac:(lia)). unfold energy_of in Ven.
    assert (HP := hyp_pos _ (pg_e_rest m) P'). rewrite rsqrt_val in Ven by lra.
    assert (E' : at_ en j = sqrt (at_ ps j ^ 2 + pg_e_rest m ^ 2)) by congruence. rewrite E'.
    apply Rmult_integral_contrapositive. split; [apply Rgt_not_eq, sqrt_lt_R0; auto|apply pow_nonzero; lra]. }
  rewrite Edr. cbn [bind].
  destruct (mapM_total _ _ (bfield_of m) ps) as [bf Ebf].
  { intros x Hx. unfold bfield_of. rewrite rdiv_val by auto. cbn [bind]. rewrite rdiv_val; eauto. apply Rgt_not_eq, cl_pos. }
  rewrite Ebf. cbn [bind].
  destruct (gradient_total bf (map (fun t => t - t0) (rcumsum 0 tr))) as [g Eg].
  - rewrite map_length. assert (X := mapM_length _ _ _ _ _ Ebf). congruence.
  - rewrite map_length. lia.
  - intros i Hi. rewrite map_length in Hi. rewrite !at_map by lia. rewrite Sc by lia. assert (P := TV (S i) ltac:(lia)). lra.
  - rewrite Eg. cbn [bind]. eexists. split; [exact CK|]. split; [reflexivity|]. intros X. cbn [pv_phi12]. auto.
Qed.

(** C65: with the turns found, with voltage programs and with sensible
    constants, the machine is built (no phases are searched here). *)
Lemma C65_built_lem : forall newton fuel m time mom vt v1 v2 ts ps i0,
  pg_momentum m = [time; mom] -> good_program m time mom -> pg_i0 m = Z.of_nat i0 ->
  interpolate_momentum fuel m time mom = Ok (ts, ps) -> (2 <= length ts)%nat -> (i0 < length ts)%nat ->
  pg_voltage m = [vt; v1; v2] -> increasing vt -> (0 < length vt)%nat -> length v1 = length vt -> length v2 = length vt ->
  ((exists h, pg_harmonics m = [h]) \/ (exists h0 h1, pg_harmonics m = [h0; h1] /\ h0 <> 0)) ->
  pg_phi12 m = None -> pg_phase m = None ->
  pg_trans_gamma m <> 0 -> pg_bending m * pg_q m <> 0 ->
  exists v, programs_machine newton fuel m = Ok v.
Proof.
  intros newton fuel m time mom vt v1 v2 ts ps i0 Em G Ei Ht L2 Li Ev Inc Lv L3 L4 Hh N1 N2 Ng Nb.
  destruct (values_built fuel m time mom vt v1 v2 ts ps i0 Em G Ei Ht L2 Li Ev Inc Lv L3 L4 Hh N1 (or_introl N2) Ng Nb) as (w & CK & Ew & Pw).
  exists w. unfold programs_machine. rewrite CK. cbn [bind]. rewrite Ew. cbn [bind]. rewrite (Pw N2). auto.
Qed.

(** ** Examples *)

Lemma sqrt_sq : forall x y, 0 <= y -> x = y ^ 2 -> sqrt x = y.
Proof. intros. subst x. apply sqrt_pow2. auto. Qed.
Lemma rev_9 : forall m, pg_radius m = 3 / 5 * c_light / (2 * PI) -> pg_e_rest m = 12 -> revolution m 9 = 1.
Proof.
  intros m E1 E2. unfold revolution, speed. rewrite E1, E2, (sqrt_sq _ 15) by lra. assert (P := PI_RGT_0). assert (C := cl_pos). field. lra.
Qed.
Lemma rev_16 : forall m, pg_radius m = 3 / 5 * c_light / (2 * PI) -> pg_e_rest m = 12 -> revolution m 16 = 3 / 4.
Proof.
  intros m E1 E2. unfold revolution, speed. rewrite E1, E2, (sqrt_sq _ 20) by lra. assert (P := PI_RGT_0). assert (C := cl_pos). field. lra.
Qed.
Lemma ramp_radius : 0 < 3 / 5 * c_light / (2 * PI).
Proof. assert (P := PI_RGT_0). assert (C := cl_pos). apply Rdiv_lt_0_compat; lra. Qed.

Lemma grow_eval : forall m time mom k ti bi mi i turn p0 p1 t0 t1 p t',
  length mi = S i -> length ti = S (S i) -> (S k < length time)%nat -> (S k < length mom)%nat ->
  at_ mom k = p0 -> at_ mom (S k) = p1 -> at_ time k = t0 -> at_ time (S k) = t1 -> t1 - t0 <> 0 ->
  p0 + (p1 - p0) * (at_ ti (S i) - t0) / (t1 - t0) = p -> 0 < p -> 0 < pg_radius m ->
  at_ ti (S i) + revolution m p = t' ->
  grow m time mom (Z.of_nat (S k)) (Growing ti bi mi (Z.of_nat i) turn) =
  Ok (Growing (ti ++ [t']) (bi ++ [speed (pg_e_rest m) p]) (mi ++ [p]) (Z.of_nat (S i))
        (if Rlt_dec (pg_t_ref m) t' then (turn + 1)%Z else turn)).
Proof.
  intros m time mom k ti bi mi i turn p0 p1 t0 t1 p t' L1 L2 L3 L4 E1 E2 E3 E4 N Ep P Pr Et. unfold grow. cbn [gr_i gr_mom gr_time gr_beta gr_turn].
  replace (Z.of_nat (S k) - 1)%Z with (Z.of_nat k) by lia. replace (Z.of_nat i + 1)%Z with (Z.of_nat (S i)) by lia.
  rewrite (at_np mom k), (at_np mom (S k)), (at_np ti), (at_np time k), (at_np time (S k)) by lia. cbn [bind].
  rewrite E1, E2, E3, E4. rewrite rdiv_val by auto. cbn [bind]. rewrite Ep.
  assert (M1 : at_ (mi ++ [p]) (S i) = p) by (rewrite <- L1; apply at_last).
  rewrite (at_np (mi ++ [p])) by (rewrite app_length; cbn; lia). rewrite M1. cbn [bind].
  rewrite beta_val by auto. cbn [bind]. rewrite period_val by auto. cbn [bind]. rewrite Et.
  replace (Z.of_nat (S i) + 1)%Z with (Z.of_nat (length ti)) by lia.
  rewrite at_np by (rewrite app_length; cbn; lia). rewrite at_last. reflexivity.
Qed.
Lemma grow_to_go : forall f m time mom k ti bi mi i turn s t,
  length ti = S (S i) -> (k < length time)%nat -> at_ ti (S i) = t -> t <= at_ time k ->
  grow m time mom (Z.of_nat k) (Growing ti bi mi (Z.of_nat i) turn) = Ok s ->
  grow_to (S f) m time mom (Z.of_nat k) (Growing ti bi mi (Z.of_nat i) turn) = grow_to f m time mom (Z.of_nat k) s.
Proof.
  intros f m time mom k ti bi mi i turn s t L1 L2 E1 L E. cbn [grow_to gr_time gr_i].
  replace (Z.of_nat i + 1)%Z with (Z.of_nat (S i)) by lia. rewrite (at_np ti), (at_np time) by lia. cbn [bind]. rewrite E1.
  destruct (Rle_dec t (at_ time k)); [|lra]. rewrite E. reflexivity.
Qed.
Lemma grow_to_stop : forall f m time mom k ti bi mi i turn t,
  length ti = S (S i) -> (k < length time)%nat -> at_ ti (S i) = t -> at_ time k < t ->
  grow_to f m time mom (Z.of_nat k) (Growing ti bi mi (Z.of_nat i) turn) = Ok (Growing ti bi mi (Z.of_nat i) turn).
Proof.
  intros f m time mom k ti bi mi i turn t L1 L2 E1 L. destruct f; cbn [grow_to gr_time gr_i];
  replace (Z.of_nat i + 1)%Z with (Z.of_nat (S i)) by lia; rewrite (at_np ti), (at_np time) by lia; cbn [bind]; rewrite E1;
  destruct (Rle_dec t (at_ time k)); auto; lra.
Qed.


Ltac at_lra := unfold at_, ramp_time, ramp_mom; cbn [nth app]; lra.

(** One more turn, after t_ref. *)
Lemma step_up : forall m time mom f k i ti bi mi turn p0 p1 t0 t1 t p t',
  length mi = S i -> length ti = S (S i) -> (S k < length time)%nat -> (S k < length mom)%nat ->
  at_ mom k = p0 -> at_ mom (S k) = p1 -> at_ time k = t0 -> at_ time (S k) = t1 -> at_ ti (S i) = t ->
  t1 - t0 <> 0 -> t <= t1 -> p0 + (p1 - p0) * (t - t0) / (t1 - t0) = p -> 0 < p -> 0 < pg_radius m ->
  t + revolution m p = t' -> pg_t_ref m < t' ->
  grow_to (S f) m time mom (Z.of_nat (S k)) (Growing ti bi mi (Z.of_nat i) turn) =
  grow_to f m time mom (Z.of_nat (S k))
    (Growing (ti ++ [t']) (bi ++ [speed (pg_e_rest m) p]) (mi ++ [p]) (Z.of_nat (S i)) (turn + 1)).
Proof.
  intros. eapply grow_to_go; eauto; [congruence|]. 
  rewrite (grow_eval m time mom k ti bi mi i turn p0 p1 t0 t1 p t') by (auto; congruence).
  destruct (Rlt_dec (pg_t_ref m) t'); [auto|lra].
Qed.
Lemma all_step : forall f r m time mom nt k s s', (gr_turn s < nt)%Z -> grow_to f m time mom (Z.of_nat k) s = Ok s' ->
  grow_all f (S r) m time mom nt (Z.of_nat k) s = grow_all f r m time mom nt (Z.of_nat (S k)) s'.
Proof.
  intros. cbn [grow_all]. destruct (Z.ltb_spec (gr_turn s) nt); [|lia]. rewrite H0. cbn [bind]. f_equal. lia.
Qed.
Lemma all_stop : forall f r m time mom nt k s, (nt <= gr_turn s)%Z -> grow_all f r m time mom nt k s = Ok s.
Proof. intros. destruct r; cbn [grow_all]; destruct (Z.ltb_spec (gr_turn s) nt); auto; lia. Qed.

(** The cut, for lists given in full. *)
Lemma cut_eval : forall fuel m time mom s ti mi z ts ps, good_program m time mom ->
  grow_all fuel (S (length time)) m time mom (pg_nturns m) (Z.of_nat 0) (start m time mom) = Ok s ->
  removelast (gr_time s) = ti -> gr_mom s = mi -> first_not_before (pg_t_ref m) 0 ti = Ok z ->
  (z - pg_i0 m + pg_nturns m <= Z.of_nat (length ti) + 1)%Z ->
  slice ti (z - pg_i0 m) (z - pg_i0 m + pg_nturns m) = ts -> slice mi (z - pg_i0 m) (z - pg_i0 m + pg_nturns m) = ps ->
  interpolate_momentum fuel m time mom = Ok (ts, ps).
Proof.
  intros fuel m time mom s ti mi z ts ps G E E1 E2 E3 L E4 E5. unfold interpolate_momentum. rewrite (interpolated_eq _ _ _ G).
  change 0%Z with (Z.of_nat 0). rewrite E. cbn [bind]. rewrite E1, E2. change (Z.of_nat 0) with 0%Z. rewrite E3. cbn [bind]. cbv zeta.
  destruct (Z.ltb_spec (Z.of_nat (length ti) + 1) (z - pg_i0 m + pg_nturns m)); [lia|]. rewrite E4, E5. auto.
Qed.
Lemma start_eval : forall m time mom t0 p r, at_ time 0 = t0 -> at_ mom 0 = p -> revolution m p = r ->
  start m time mom = Growing [t0 + r; t0 + r + r] [speed (pg_e_rest m) p] [p] (Z.of_nat 0) (pg_i0 m).
Proof. intros. subst. reflexivity. Qed.

Ltac turn_of t p t' rv := erewrite (step_up _ _ _ _ _ _ _ _ _ _ _ _ _ _ t p t');
  [cbn [app]|reflexivity|reflexivity|cbn; lia|cbn; lia|reflexivity|reflexivity|reflexivity|reflexivity
  |at_lra|cbn; lra|cbn; lra|cbn; lra|lra|apply ramp_radius|rewrite rv by reflexivity; lra|cbn; lra].
Ltac stopped t := erewrite (grow_to_stop _ _ _ _ _ _ _ _ _ _ t) by (try reflexivity; try (cbn; lia); at_lra); reflexivity.
Ltac firsts := repeat (cbn [first_not_before]; match goal with |- context [Rle_dec ?a ?b] => destruct (Rle_dec a b) as [?|?]; [try (exfalso; cbn in *; lra); try reflexivity|try (exfalso; cbn in *; lra)] end).

Lemma ramp_good : forall d np ref tr h ph p12, good_program (ramp d np ref tr ramp_time ramp_mom h ph p12) ramp_time ramp_mom.
Proof.
  intros. constructor; auto; [cbn; lia| | |apply ramp_radius].
  - intros [|[|[|i]]] Hi; try at_lra. cbn in Hi. lia.
  - intros [|[|[|[|i]]]] Hi; try at_lra. cbn in Hi. lia.
Qed.
Lemma ramp_interp : forall h fuel, (1 <= fuel)%nat ->
  interpolate_momentum fuel (ramp3 h) ramp_time ramp_mom = Ok ([2; 3; 15 / 4], [9; 16; 16]).
Proof.
  intros h [|fuel] Hf; [lia|]. set (m := ramp3 h).
  assert (R9 : revolution m 9 = 1) by (apply rev_9; reflexivity).
  eapply (cut_eval _ _ _ _ (Growing [1; 2; 3; 15 / 4; 9 / 2] _ [9; 9; 16; 16] (Z.of_nat 3) 3) [1; 2; 3; 15 / 4] _ 1%Z); [apply ramp_good| |reflexivity|reflexivity|firsts|cbn; lia|reflexivity|reflexivity].
  rewrite (start_eval m _ _ 0 9 1) by (auto; reflexivity). replace (0 + 1) with 1 by lra. replace (1 + 1) with 2 by lra.
  change (length ramp_time) with 4%nat. change (pg_nturns m) with 3%Z. change (pg_i0 m) with 0%Z.
  erewrite (all_step _ _ _ _ _ _ 0); [|cbn; lia|stopped 2].
  erewrite (all_step _ _ _ _ _ _ 1); [|cbn; lia|turn_of 2 9 3 rev_9; stopped 3].
  erewrite (all_step _ _ _ _ _ _ 2); [|cbn; lia|turn_of 3 16 (15/4) rev_16; stopped (15 / 4)].
  erewrite (all_step _ _ _ _ _ _ 3); [|cbn; lia|turn_of (15/4) 16 (9/2) rev_16; stopped (9 / 2)].
  rewrite all_stop by (cbn; lia). reflexivity.
Qed.

Lemma flat_good : forall d np ref tr h ph p12, good_program (ramp d np ref tr [0; 4] [9; 9] h ph p12) [0; 4] [9; 9].
Proof.
  intros. constructor; auto; [cbn; lia| | |apply ramp_radius].
  - intros [|i] Hi; try at_lra. cbn in Hi. lia.
  - intros [|[|i]] Hi; try at_lra. cbn in Hi. lia.
Qed.
Lemma flat_grow : forall m fuel nt i0, pg_radius m = 3 / 5 * c_light / (2 * PI) -> pg_e_rest m = 12 -> pg_t_ref m < 3 ->
  pg_i0 m = i0 -> (i0 < nt <= i0 + 3)%Z -> exists b,
  grow_all (S (S (S fuel))) 3 m [0; 4] [9; 9] nt (Z.of_nat 0) (start m [0; 4] [9; 9]) =
  Ok (Growing [1; 2; 3; 4; 5] b [9; 9; 9; 9] (Z.of_nat 3) (i0 + 1 + 1 + 1)).
Proof.
  intros m fuel nt i0 Er Ee Ht Ei Hn. assert (R9 : revolution m 9 = 1) by (apply rev_9; auto).
  assert (RR : 0 < pg_radius m) by (rewrite Er; apply ramp_radius).
  assert (TO : forall t t' f i ti bi mi turn, t + 1 = t' -> 2 <= t <= 4 -> length mi = S i -> length ti = S (S i) -> at_ ti (S i) = t ->
    grow_to (S f) m [0; 4] [9; 9] (Z.of_nat 1) (Growing ti bi mi (Z.of_nat i) turn) =
    grow_to f m [0; 4] [9; 9] (Z.of_nat 1) (Growing (ti ++ [t']) (bi ++ [speed (pg_e_rest m) 9]) (mi ++ [9]) (Z.of_nat (S i)) (turn + 1))).
  { intros t t' f i ti bi mi turn E1 E2 E3 E4 E5.
    apply (step_up m [0; 4] [9; 9] f 0 i ti bi mi turn 9 9 0 4 t 9 t'); auto; try (cbn; lia); try lra. }
  rewrite (start_eval m _ _ 0 9 1) by auto. replace (0 + 1) with 1 by lra. replace (1 + 1) with 2 by lra. rewrite Ei. eexists.
  erewrite (all_step _ _ _ _ _ _ 0); [|cbn; lia|stopped 2].
  erewrite (all_step _ _ _ _ _ _ 1); [|cbn; lia|].
  2: { rewrite (TO 2 3) by (try reflexivity; lra). cbn [app]. rewrite (TO 3 4) by (try reflexivity; lra). cbn [app].
       rewrite (TO 4 5) by (try reflexivity; lra). cbn [app]. stopped 5. }
  rewrite all_stop by (cbn; lia). reflexivity.
Qed.

(** C64, number of turns: a program that is long enough may still give one
    turn less than asked for. *)
Lemma C64_length_refuted_lem : exists m time mom fuel ts ps,
  good_program m time mom /\ (forall i, (i < length time)%nat -> at_ mom i = 9) /\ pg_i0 m = 0%Z /\ pg_nturns m = 3%Z /\
  at_ time 0 < pg_t_ref m /\ interpolate_momentum fuel m time mom = Ok (ts, ps) /\ length ts = 2%nat.
Proof.
  set (m := ramp 1 3 0 (5 / 2) [0; 4] [9; 9] [1] None None).
  exists m, [0; 4], [9; 9], 3%nat, [3; 4], [9; 9]. split; [apply flat_good|].
  split. { intros [|[|i]] Hi; try reflexivity. cbn in Hi. lia. }
  split; [reflexivity|]. split; [reflexivity|]. split; [cbn; lra|]. split; [|reflexivity].
  destruct (flat_grow m 0 3%Z 0%Z eq_refl eq_refl ltac:(cbn; lra) eq_refl ltac:(lia)) as [b E].
  eapply (cut_eval _ _ _ _ _ [1; 2; 3; 4] _ 2%Z); [apply flat_good|exact E|reflexivity|reflexivity|firsts|cbn; lia|reflexivity|reflexivity].
Qed.

(** C64, first turn: at the first turn, one revolution after the start of the
    program, the momentum is still that of the start. *)
Lemma C64_first_refuted_lem : exists m time mom fuel ts ps,
  good_program m time mom /\ pg_i0 m = 0%Z /\ at_ time 0 < pg_t_ref m /\
  interpolate_momentum fuel m time mom = Ok (ts, ps) /\ ~ program_value time mom (at_ ts 0) (at_ ps 0).
Proof.
  set (m := ramp 1 2 0 (1 / 2) [0; 1; 3] [9; 16; 16] [1] None None).
  assert (G : good_program m [0; 1; 3] [9; 16; 16]).
  { constructor; auto; [cbn; lia| | |apply ramp_radius].
    - intros [|[|i]] Hi; try at_lra. cbn in Hi. lia.
    - intros [|[|[|i]]] Hi; try at_lra. cbn in Hi. lia. }
  exists m, [0; 1; 3], [9; 16; 16], 2%nat, [1; 2], [9; 16]. split; auto. split; [reflexivity|]. split; [cbn; lra|]. split.
  - eapply (cut_eval _ _ _ _ (Growing [1; 2; 11 / 4; 7 / 2] _ [9; 16; 16] (Z.of_nat 2) 2) [1; 2; 11 / 4] _ 0%Z); [exact G| |reflexivity|reflexivity|firsts|cbn; lia|reflexivity|reflexivity].
    rewrite (start_eval m _ _ 0 9 1) by (try apply rev_9; reflexivity). replace (0 + 1) with 1 by lra. replace (1 + 1) with 2 by lra.
    change (length [0; 1; 3]) with 3%nat. change (pg_nturns m) with 2%Z. change (pg_i0 m) with 0%Z.
    erewrite (all_step _ _ _ _ _ _ 0); [|cbn; lia|stopped 2].
    erewrite (all_step _ _ _ _ _ _ 1); [|cbn; lia|stopped 2].
    erewrite (all_step _ _ _ _ _ _ 2); [|cbn; lia|turn_of 2 16 (11/4) rev_16; turn_of (11/4) 16 (7/2) rev_16; stopped (7/2)].
    rewrite all_stop by (cbn; lia). reflexivity.
  - unfold at_ at 1 2. cbn [nth]. intros [[X _]|[(k & K1 & K2 & K3)|[X _]]].
    + unfold at_ in X. cbn in X. lra.
    + destruct k as [|[|k]]; [| |cbn in K1; lia]; unfold at_ in *; cbn in *; lra.
    + unfold at_ in X. cbn in X. lra.
Qed.

(** C64, reference turn: with less than i0 turns before t_ref, the cut is
    silently empty. *)
Lemma C64_lead_refuted_lem : exists m time mom fuel,
  good_program m time mom /\ at_ time 0 < pg_t_ref m /\ pg_i0 m = 2%Z /\ pg_nturns m = 4%Z /\
  interpolate_momentum fuel m time mom = Ok ([], []).
Proof.
  set (m := ramp 2 2 1 (3 / 2) [0; 4] [9; 9] [1] None None).
  exists m, [0; 4], [9; 9], 3%nat. split; [apply flat_good|]. split; [cbn; lra|]. split; [reflexivity|]. split; [reflexivity|].
  destruct (flat_grow m 0 4%Z 2%Z eq_refl eq_refl ltac:(cbn; lra) eq_refl ltac:(lia)) as [b E].
  eapply (cut_eval _ _ _ _ _ [1; 2; 3; 4] _ 1%Z); [apply flat_good|exact E|reflexivity|reflexivity|firsts|cbn; lia|reflexivity|reflexivity].
Qed.

Lemma ramp_machine_built : forall newton h, h <> 0 -> exists v, programs_machine newton 1 (ramp3 [h]) = Ok v /\
  pv_n_turns v = 3%Z /\ pv_momentum v = [9; 16; 16] /\
  at_ (pv_e0 v) 0 = 15 /\ at_ (pv_e0 v) 1 = 20 /\ at_ (pv_e0 v) 2 = 20 /\ length (pv_e0 v) = 3%nat /\
  length (pv_deltaE0 v) = 2%nat /\ at_ (pv_deltaE0 v) 1 = 0 /\
  at_ (pv_time v) 1 - at_ (pv_time v) 0 = 3 / 4 /\
  at_ (pv_eta0 v) 0 = 39 / 100 /\ at_ (pv_drift_coef v) 0 * (15 * (3 / 5) ^ 2) = 2 * PI * (39 / 100) /\ at_ (pv_beta0 v) 0 = 3 / 5.
Proof.
  intros newton h Hh. set (m := ramp3 [h]).
  assert (RI := ramp_interp [h] 1 ltac:(lia)). fold m in RI.
  assert (G : good_program m ramp_time ramp_mom) by apply ramp_good.
  assert (I2 : increasing [0; 10]) by (intros [|i] Hi; [at_lra|cbn in Hi; lia]).
  destruct (C65_built_lem newton 1 m ramp_time ramp_mom [0; 10] [1; 1] [0; 0] _ _ 0 eq_refl G eq_refl RI ltac:(cbn; lia) ltac:(cbn; lia)
    eq_refl I2 ltac:(cbn; lia) eq_refl eq_refl (or_introl (ex_intro _ h eq_refl)) eq_refl eq_refl ltac:(cbn; lra) ltac:(cbn; lra)) as [v Hv].
  exists v. destruct (C66_values_partial_lem newton 1 m v ramp_time ramp_mom 0 eq_refl G eq_refl Hv) as (n & ts & N & St & Ld & Lt & Hi & T0 & _ & V & T).
    rewrite RI in Hi. injection Hi as <- Hm. cbn in Lt. subst n.
    assert (RV := fun i H => V i H). rewrite <- Hm in V, T. unfold stored_per_turn in St.
    assert (Le : length (pv_e0 v) = 3%nat) by (repeat match goal with X : Forall _ (_ :: _) |- _ => inversion X; clear X; subst end; auto).
    assert (E9 : forall e, 0 < e -> e ^ 2 = 9 ^ 2 + pg_e_rest m ^ 2 -> e = 15) by (intros e P Q; cbn in Q; nra).
    assert (E16 : forall e, 0 < e -> e ^ 2 = 16 ^ 2 + pg_e_rest m ^ 2 -> e = 20) by (intros e P Q; cbn in Q; nra).
    destruct (V 0%nat ltac:(lia)) as (_ & P0 & Q0 & B0 & H0 & D0 & _). destruct (V 1%nat ltac:(lia)) as (_ & P1 & Q1 & _). destruct (V 2%nat ltac:(lia)) as (_ & P2 & Q2 & _).
    change (at_ [9; 16; 16] 0) with 9 in Q0, B0. change (at_ [9; 16; 16] 1) with 16 in Q1. change (at_ [9; 16; 16] 2) with 16 in Q2.
    apply E9 in Q0; auto. apply E16 in Q1; auto. apply E16 in Q2; auto. rewrite Q0 in *. rewrite Q1 in *. rewrite Q2 in *.
    assert (BB : at_ (pv_beta0 v) 0 = 3 / 5) by lra. rewrite BB in *.
    assert (HH : at_ (pv_eta0 v) 0 = 39 / 100). { rewrite H0. change (pg_e_rest m) with 12. change (pg_trans_gamma m) with 2. lra. }
    rewrite HH in *.
    destruct (T 0%nat ltac:(lia)) as [T1 _]. destruct (T 1%nat ltac:(lia)) as [_ D1]. change (at_ [9; 16; 16] 1) with 16 in T1.
    rewrite (rev_16 m eq_refl eq_refl) in T1.
    repeat split; auto. all: try lra. change (pg_h_num m) with 1 in D0. lra.
Qed.

(** C66, energy gain: the stored differences are not those to the turn before,
    and one is missing. *)
Lemma C66_gain_refuted_lem : exists m time mom fuel, pg_momentum m = [time; mom] /\ good_program m time mom /\
  forall newton, exists v, programs_machine newton fuel m = Ok v /\ pv_n_turns v = 3%Z /\ length (pv_deltaE0 v) = 2%nat /\
    at_ (pv_deltaE0 v) 1 <> at_ (pv_e0 v) 1 - at_ (pv_e0 v) 0.
Proof.
  exists (ramp3 [1]), ramp_time, ramp_mom, 1%nat. split; [reflexivity|]. split; [apply ramp_good|]. intros newton.
  destruct (ramp_machine_built newton 1 ltac:(lra)) as (v & Hv & N & M & E0 & E1 & E2 & Le & Ld & D1 & _). exists v.
  repeat split; auto. rewrite D1, E0, E1. lra.
Qed.

(** C66, time: the stored times do not take one revolution at the speed of a
    turn to the next. *)
Lemma C66_time_refuted_lem : exists m time mom fuel, pg_momentum m = [time; mom] /\ good_program m time mom /\
  forall newton, exists v, programs_machine newton fuel m = Ok v /\
    at_ (pv_time v) 1 - at_ (pv_time v) 0 <> revolution m (at_ (pv_momentum v) 0).
Proof.
  exists (ramp3 [1]), ramp_time, ramp_mom, 1%nat. split; [reflexivity|]. split; [apply ramp_good|]. intros newton.
  destruct (ramp_machine_built newton 1 ltac:(lra)) as (v & Hv & N & M & _ & _ & _ & _ & _ & _ & T & _). exists v.
  split; auto. rewrite M, T. change (at_ [9; 16; 16] 0) with 9. rewrite rev_9 by reflexivity. lra.
Qed.

(** C66, harmonic: the drift coefficients are those of harmonic h_num (1 unless
    given), not those of the first harmonic passed. *)
Lemma C66_harmonic_refuted_lem : exists m time mom fuel h, pg_momentum m = [time; mom] /\ good_program m time mom /\
  pg_harmonics m = [h] /\ pg_h_num m = 1 /\
  forall newton, exists v, programs_machine newton fuel m = Ok v /\
    at_ (pv_drift_coef v) 0 * (at_ (pv_e0 v) 0 * at_ (pv_beta0 v) 0 ^ 2) <> 2 * PI * h * at_ (pv_eta0 v) 0.
Proof.
  exists (ramp3 [2]), ramp_time, ramp_mom, 1%nat, 2. split; [reflexivity|]. split; [apply ramp_good|]. split; [reflexivity|]. split; [reflexivity|]. intros newton.
  destruct (ramp_machine_built newton 2 ltac:(lra)) as (v & Hv & N & M & E0 & _ & _ & _ & _ & _ & _ & Eh & D & B). exists v.
  split; auto. rewrite E0, B, Eh, D. assert (P := PI_RGT_0). lra.
Qed.

(** C66, tracking: with one turn per profile, tracking reads past the end of
    the energy differences. *)
Lemma up_loop_reads : forall f (mt : machine R) d rp nt np ftn s s',
  up_loop Rplus Rminus Rmult sin f mt d rp nt np ftn s = Ok s' -> (turn s < nt)%Z -> exists x, get (deltaE0 mt) nt = Ok x.
Proof.
  induction f as [|f IH]; intros mt d rp nt np ftn s s' H L; cbn [up_loop] in H; destruct (Z.ltb_spec (turn s) nt); try lia; [discriminate|].
  apply bind_ok in H. destruct H as [s1 [E H]]. unfold up_step in E.
  apply bind_ok in E. destruct E as [co [_ E]]. apply bind_ok in E. destruct E as [ph [_ E]]. cbv zeta in E.
  do 4 (apply bind_ok in E; destruct E as [? [_ E]]). apply bind_ok in E. destruct E as [acc [A E]].
  destruct (Z.eq_dec (turn s + 1) nt) as [<-|]; [eauto|].
  assert (T : turn s1 = (turn s + 1)%Z).
  { do 2 (apply bind_ok in E; destruct E as [? [_ E]]). destruct x4.
    - do 2 (apply bind_ok in E; destruct E as [? [_ E]]). injection E as <-. reflexivity.
    - injection E as <-. reflexivity. }
  apply (IH _ _ _ _ _ _ _ _ H). lia.
Qed.
Lemma C66_tracking_refuted_lem : forall newton fuel m v time mom i0 np recprof deltaturn phi12 ph de ftn,
  pg_momentum m = [time; mom] -> good_program m time mom -> pg_i0 m = Z.of_nat i0 ->
  programs_machine newton fuel m = Ok v -> pv_n_turns v = Z.of_nat np ->
  forall s, track Rplus Rminus Rmult sin 0 (pg_tracking m v phi12) np 1 recprof deltaturn ph de ftn <> Ok s.
Proof.
  intros newton fuel m v time mom i0 np rp dt phi12 ph de ftn Em G Ei Hv N s H.
  destruct (C66_values_partial_lem newton fuel m v time mom i0 Em G Ei Hv) as (n & ts & N' & _ & Ld & _ & _ & _ & Li & _).
  rewrite N in N'. apply Nat2Z.inj in N'. subst n.
  unfold track in H. apply bind_ok in H. destruct H as [p [C H]]. unfold track_checks in C. apply bind_ok in C. destruct C as [p' [C1 C]].
  destruct (Z.ltb_spec (Z.abs dt) 1); [|discriminate]. cbn [negb] in C.
  destruct (Z.ltb_spec (1 * p' + dt) (1 * (Z.of_nat np - 1))); [|discriminate]. cbn [negb] in C.
  destruct (0 <=? 1 * p' + dt)%Z; [|discriminate]. injection C as <-.
  unfold kick_and_drift in H. cbv zeta in H. apply bind_ok in H. destruct H as [x0 [_ H]]. apply bind_ok in H. destruct H as [y0 [_ H]].
  apply bind_ok in H. destruct H as [s1 [U _]]. apply up_loop_reads in U; [|cbn [turn]; lia]. destruct U as [x U].
  unfold pg_tracking in U. cbn [deltaE0] in U. replace (1 * (Z.of_nat np - 1))%Z with (Z.of_nat (length (pv_deltaE0 v))) in U by lia.
  unfold get in U. destruct (Z.ltb_spec (Z.of_nat (length (pv_deltaE0 v))) 0); [lia|]. rewrite Nat2Z.id in U.
  rewrite (proj2 (nth_error_None (pv_deltaE0 v) (length (pv_deltaE0 v)))) in U by lia. discriminate.
Qed.

Lemma tab_head : forall A n (f : nat -> A), tab (S n) f = f 0%nat :: tab n (fun i => f (S i)).
Proof. intros. unfold tab. cbn [seq map]. rewrite <- seq_shift, map_map. reflexivity. Qed.
Lemma pyset_ok_nat : forall A (l : list A) i x, (i < length l)%nat -> pyset l (Z.of_nat i) x = Ok (upd l i x).
Proof.
  intros A l i x H. unfold pyset. cbv zeta. destruct (Z.ltb_spec (Z.of_nat i) 0); [lia|].
  destruct (Z.ltb_spec (Z.of_nat i) 0); [lia|]. cbn [orb]. destruct (Z.leb_spec (Z.of_nat (length l)) (Z.of_nat i)); [lia|].
  rewrite Nat2Z.id. auto.
Qed.
Lemma range_down_S : forall k, range_down (Z.of_nat k) = Z.of_nat k :: range_down (Z.of_nat k - 1).
Proof.
  intros k. rewrite !range_down_tab. replace (Z.to_nat (Z.of_nat k + 1)) with (S k) by lia.
  replace (Z.to_nat (Z.of_nat k - 1 + 1)) with k by lia. rewrite tab_head. replace (Z.of_nat k - Z.of_nat 0)%Z with (Z.of_nat k) by lia. f_equal. apply tab_ext. intros. lia.
Qed.
Lemma range_up_tab' : forall a n, (a <= n)%nat -> range_up (Z.of_nat a) (Z.of_nat n) = tab (n - a) (fun i => Z.of_nat (a + i)).
Proof.
  intros a n H. rewrite range_up_tab. replace (Z.to_nat (Z.of_nat n - Z.of_nat a)) with (n - a)%nat by lia. apply tab_ext. intros. lia.
Qed.

Lemma synchronous_found : forall newton m v a i0 n,
  pv_phi12 v = Some a -> pg_i0 m = Z.of_nat i0 -> pv_n_turns v = Z.of_nat n -> length (pv_vrf1 v) = n -> length (pv_e0 v) = n ->
  (i0 < n)%nat -> pg_e_rest m <> 0 ->
  (forall x, exists p, newton_rf1 newton m v (Z.of_nat i0) x = Ok p) ->
  (forall i x, (i < n)%nat -> exists p, newton_rf newton m v a (Z.of_nat i) x = Ok p) ->
  exists ph, find_synchronous_phase newton m v = Ok ph.
Proof.
  intros newton m v a i0 n Ea Ei En L1 L2 Hi Ne F1 F. unfold find_synchronous_phase. rewrite Ea, Ei. cbv zeta.
  rewrite at_np by lia. cbn [bind]. unfold pg_phi_lower_upper. rewrite rdiv_val by auto. cbn [bind].
  match goal with |- context [if ?c then (?x, ?y) else (?z, ?t)] => destruct (if c then (x, y) else (z, t)) as [lo up] end.
  destruct (F1 ((lo + up) / 2)) as [st ->]. cbn [bind]. destruct (F i0 st Hi) as [sy ->]. cbn [bind].
  set (z := repeat 0 (length (pv_vrf1 v))). assert (Lz : length z = n) by (unfold z; rewrite repeat_length; auto).
  assert (PS : forall (l : list R) i x, (i < length l)%nat -> exists l', pyset l (Z.of_nat i) x = Ok l' /\ length l' = length l).
  { intros l i x H. exists (upd l i x). split; [|apply upd_length]. apply pyset_ok_nat; auto. }
  destruct (PS z i0 sy ltac:(lia)) as (z1 & -> & Lz1). cbn [bind].
  assert (UP : forall k j l, (1 <= j)%nat -> (j + k <= n)%nat -> length l = n -> exists l', length l' = n /\
    forl (tab k (fun i => Z.of_nat (j + i))) (fun i phi0 => x <- np_get phi0 (i - 1)%Z ;; p <- newton_rf newton m v a i x ;; pyset phi0 i p) l = Ok l').
  { induction k as [|k IH]; intros j l J1 J2 Ll; [exists l; auto|]. rewrite tab_head. cbn [forl]. rewrite Nat.add_0_r.
    replace (Z.of_nat j - 1)%Z with (Z.of_nat (j - 1)) by lia. rewrite at_np by lia. cbn [bind].
    destruct (F j (at_ l (j - 1)) ltac:(lia)) as [p ->]. cbn [bind]. destruct (PS l j p ltac:(lia)) as (l' & -> & L'). cbn [bind].
    destruct (IH (S j) l' ltac:(lia) ltac:(lia) ltac:(lia)) as (l'' & L'' & E). exists l''. split; auto. rewrite <- E. f_equal.
    apply tab_ext. intros. f_equal. lia. }
  assert (DN : forall k l, (k < n)%nat -> length l = n -> exists l', length l' = n /\
    forl (range_down (Z.of_nat k - 1)) (fun i phi0 => x <- np_get phi0 (i + 1)%Z ;; p <- newton_rf newton m v a i x ;; pyset phi0 i p) l = Ok l').
  { induction k as [|k IH]; intros l J1 Ll; [exists l; split; [auto|reflexivity]|].
    replace (Z.of_nat (S k) - 1)%Z with (Z.of_nat k) by lia. rewrite range_down_S. cbn [forl].
    replace (Z.of_nat k + 1)%Z with (Z.of_nat (S k)) by lia. rewrite at_np by lia. cbn [bind].
    destruct (F k (at_ l (S k)) ltac:(lia)) as [p ->]. cbn [bind]. destruct (PS l k p ltac:(lia)) as (l' & -> & L'). cbn [bind].
    apply IH; lia. }
  rewrite En.
  replace (Z.of_nat i0 + 1)%Z with (Z.of_nat (S i0)) by lia. rewrite (range_up_tab' (S i0) n) by lia.
  destruct (UP (n - S i0)%nat (S i0) z1 ltac:(lia) ltac:(lia) ltac:(lia)) as (l2 & L2' & ->). cbn [bind].
  destruct (DN i0 l2 Hi L2') as (l3 & _ & ->). exists l3. reflexivity.
Qed.

Lemma flat_increasing : increasing [0; 10].
Proof. intros [|i] Hi; [at_lra|cbn in Hi; lia]. Qed.
Lemma flat_interp : interpolate_momentum 3 ramp3_phase [0; 4] [9; 9] = Ok ([2; 3; 4], [9; 9; 9]).
Proof.
  destruct (flat_grow ramp3_phase 0 3%Z 0%Z eq_refl eq_refl ltac:(cbn; lra) eq_refl ltac:(lia)) as [b E].
  eapply (cut_eval _ _ _ _ _ [1; 2; 3; 4] _ 1%Z); [destruct (flat_good 1 3 0 (3 / 2) [1; 2] None None); constructor; auto|exact E|reflexivity|reflexivity|firsts|cbn; lia|reflexivity|reflexivity].
Qed.
Lemma phase_built : exists v a, programs_machine pi_newton 3 ramp3_phase = Ok v /\ pv_phi12 v = Some a /\ pv_n_turns v = 3%Z.
Proof.
  set (m := ramp3_phase). assert (G : good_program m [0; 4] [9; 9]).
  { destruct (flat_good 1 3 0 (3 / 2) [1; 2] None None). constructor; auto. }
  destruct (values_built 3 m [0; 4] [9; 9] [0; 10] [1; 1] [0; 0] [2; 3; 4] [9; 9; 9] 0 eq_refl G eq_refl flat_interp
    ltac:(cbn; lia) ltac:(cbn; lia) eq_refl flat_increasing ltac:(cbn; lia) eq_refl eq_refl) as (w & CK & Hw & _).
  - right. exists 1, 2. split; [reflexivity|lra].
  - reflexivity.
  - right. exists [0; 10], [PI; PI], [0; 0], 1, 2. repeat split; auto; try lra; try (cbn; lia). apply flat_increasing.
  - cbn; lra.
  - cbn; lra.
  - destruct (values_facts 3 m w Hw) as (ts & ps & FC).
    destruct FC. destruct fc_int as (mt & mm & A1 & A2 & A3). injection A1 as <-. injection A2 as <-. unfold m in A3. rewrite flat_interp in A3.
    injection A3 as <- <-.
    destruct (fc_phase _ eq_refl eq_refl) as (q1 & q2 & l & B1 & B2 & _ & B3 & B4).
    specialize (B2 1 2 [] eq_refl). destruct (fc_h2 1 2 [] eq_refl) as (C1 & _ & C2).
    assert (L1 := interp_rows_length _ _ _ _ B1). assert (L2 := interp_rows_length _ _ _ _ B2).
    assert (M1 := interp_rows_length _ _ _ _ fc_v1). assert (M2 := interp_rows_length _ _ _ _ C1).
    destruct (pair_at _ q1 q2 l ltac:(congruence) B3) as [L _].
    assert (V2 : forall i, (i < 3)%nat -> at_ (pv_vrf2 w) i = 0).
    { intros i Hi. assert (X := interp_rows_at [0; 10] [0; 0] [[1; 1]; [0; 0]] 2%Z [2; 3; 4] _ flat_increasing ltac:(lia) eq_refl C1 i Hi).
      destruct X as [[_ ->]|[(k & K1 & K2 & K3)|[_ ->]]]; auto.
      destruct k as [|k]; [|cbn in K1; lia]. unfold at_ in K3 at 2 3 4 5 6. cbn [nth] in K3.  unfold at_ in *. cbn [nth] in *. lra. }
    destruct fc_time as (tr & t0 & T1 & T2 & T3 & _). destruct fc_bdot as (bf & F1 & F2).
    assert (BD : forall i, (i < 3)%nat -> at_ (pv_bdot w) i = 0).
    { apply mapM_at in fc_b. destruct fc_b as [Lb Vb]. apply mapM_at in T1. destruct T1 as [Lt Vt]. destruct (rcumsum_spec tr 0) as (Lc & Sc & _).
      apply mapM_at in F1. destruct F1 as [Lf Vf]. cbn in Lb, Lf.
      assert (P9 : forall i, (i < 3)%nat -> at_ [9; 9; 9] i = 9) by (intros [|[|[|i]]] Hi; [reflexivity|reflexivity|reflexivity|lia]).
      assert (TR : forall i, (i < 3)%nat -> 0 < at_ tr i).
      { intros i Hi. specialize (Vt i ltac:(lia)). specialize (Vb i Hi). rewrite P9, beta_val in Vb by (try rewrite P9; auto; lra).
        injection Vb as Vb. rewrite <- Vb, period_val in Vt by (try apply G; lra). injection Vt as <-. apply revolution_pos; [apply G|lra]. }
      destruct (C68_derivative_lem bf (pv_time w) (pv_bdot w) (at_ bf 0) 0 0 F2) as (_ & _ & Q).
      - rewrite T3. intros j Hj. rewrite map_length in Hj. rewrite !at_map by lia. rewrite Sc by lia. specialize (TR (S j) ltac:(lia)). lra.
      - rewrite T3, map_length. intros j Hj. assert (X := Vf j ltac:(cbn; lia)). assert (Y := Vf 0%nat ltac:(cbn; lia)). rewrite P9 in X, Y by lia.
        assert (at_ bf j = at_ bf 0) by congruence. lra.
      - intros i Hi. apply Q; auto. rewrite T3, map_length. lia. }
    assert (BL : length (pv_bdot w) = 3%nat).
    { destruct (gradient_spec _ _ _ F2) as (_ & X & _). rewrite X. apply mapM_at in F1. apply F1. }
    assert (PN : forall f x f', f PI = 0 -> pi_newton f x f' = Ok PI). { intros f x f' E. unfold pi_newton. destruct (Req_EM_T (f PI) 0); [auto|contradiction]. }
    destruct (synchronous_found pi_newton m w (PhiArray l) 0 3 B4 eq_refl) as [ph Hph]; auto.
    + apply mapM_at in fc_e. apply fc_e.
    + cbn; lra.
    + intros x. unfold newton_rf1. change 0%Z with (Z.of_nat 0). rewrite at_np by (rewrite M1; cbn; lia). cbn [bind].
      rewrite at_np by (rewrite BL; lia). cbn [bind]. exists PI. apply PN. unfold rfvolt_rf1. rewrite BD by lia. rewrite sin_PI. ring.
    + intros i x Hi. unfold newton_rf. rewrite !at_np by (rewrite ?M1, ?M2, ?BL; auto). cbn [bind phi12_at].
      rewrite at_np by (rewrite L, L1; auto). cbn [bind]. exists PI. apply PN. unfold rf_voltage. rewrite BD, V2 by auto. rewrite sin_PI. ring.
    + exists (set_phi0 w ph), (PhiArray l). split; [|split; auto].
      unfold programs_machine. fold m. rewrite CK. cbn [bind]. rewrite Hw. cbn [bind]. rewrite B4, Hph. auto.
Qed.

(*EX*)
(** Three turns of the ramp: C64, C65 and C66 speak about it. *)
Example C64_ex : good_program (ramp3 [1]) ramp_time ramp_mom /\ (forall i, (i < length ramp_time)%nat -> 9 <= at_ ramp_mom i) /\
  pg_i0 (ramp3 [1]) = Z.of_nat 0 /\ pg_nturns (ramp3 [1]) = Z.of_nat 3 /\
  at_ ramp_time 0 + INR 0 * revolution (ramp3 [1]) 9 < pg_t_ref (ramp3 [1]) /\
  interpolate_momentum 1 (ramp3 [1]) ramp_time ramp_mom = Ok ([2; 3; 15 / 4], [9; 16; 16]).
Proof.
  split; [apply ramp_good|]. split. { intros [|[|[|[|i]]]] Hi; try at_lra. cbn in Hi. lia. }
  split; [reflexivity|]. split; [reflexivity|]. split; [cbn; lra|]. apply ramp_interp. lia.
Qed.
Example C65_enough_ex : let m := ramp 1 2 0 (1 / 2) ramp_time ramp_mom [1] None None in
  good_program m ramp_time ramp_mom /\ at_ ramp_time 0 + INR 0 * revolution m 9 < pg_t_ref m /\
  pg_t_ref m + INR (2 - 0 + 1) * revolution m 9 <= at_ ramp_time (length ramp_time - 1).
Proof.
  cbv zeta. split; [apply ramp_good|]. rewrite rev_9 by reflexivity. split; [cbn; lra|]. unfold at_. cbn. lra.
Qed.
Example C66_ex : forall newton, exists v, programs_machine newton 1 (ramp3 [1]) = Ok v /\ pv_n_turns v = 3%Z /\ pv_momentum v = [9; 16; 16].
Proof. intros newton. destruct (ramp_machine_built newton 1 ltac:(lra)) as (v & H & N & M & _). eauto. Qed.
(** A machine with a phase program and a root finder that finds its phases. *)
Example C67_ex : finds_roots pi_newton /\
  exists v a, programs_machine pi_newton 3 ramp3_phase = Ok v /\ pv_phi12 v = Some a /\ pv_n_turns v = 3%Z.
Proof.
  split; [|apply phase_built]. intros f x0 f' x H. unfold pi_newton in H. destruct (Req_EM_T (f PI) 0); [|discriminate]. injection H as <-. auto.
Qed.
Example C68_ex : exists v, programs_machine pi_newton 3 ramp3_phase = Ok v /\
  forall i, (Z.of_nat i < pv_n_turns v)%Z -> at_ (pv_momentum v) i = 9 + 0 * at_ (pv_time v) i.
Proof.
  destruct phase_built as (v & a & H & _ & N). exists v. split; auto.
  assert (G : good_program ramp3_phase [0; 4] [9; 9]) by (destruct (flat_good 1 3 0 (3 / 2) [1; 2] None None); constructor; auto).
  destruct (C66_values_partial_lem pi_newton 3 ramp3_phase v [0; 4] [9; 9] 0 eq_refl G eq_refl H) as (n & ts & _ & _ & _ & _ & Hi & _).
  rewrite flat_interp in Hi. injection Hi as _ <-. rewrite N. intros [|[|[|i]]] Hi; unfold at_; cbn [nth]; try lra. lia.
Qed.
(*XE*)
