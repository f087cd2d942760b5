(*HEAD*)
From Coq Require Import List ZArith QArith Qcanon Permutation Lia.
From Verif Require Import Base.Res Base.QcLib Model.MFoot Spec.FootSpec.
Import ListNotations.
Local Open Scope Qc_scope.
(*DAEH*)
From Verif Require Import Base.ResLemmas Base.QcLemmas Model.MParticles Model.MPreproc Proof.PParticles Proof.PFoot.

Lemma edge_peak y l : left_edge y l -> exists p m, peak y p m.
Proof. intros (p & m & P & _). eauto. Qed.

(** The fit of two straight edges: the left foot is half a bin before the zero
    of the line, the right foot is somewhere behind it. *)
Lemma C54_fit_partial_lem : forall y dx l r a z a' z',
  left_edge y l -> right_edge y r -> (1 <= l)%nat -> (2 <= r)%nat ->
  on_line y a z (l - 1) (l + 3) -> on_line y a' z' (r - 2) (r + 2) -> a <> 0 -> a' <> 0 ->
  foot_tangent_fit y dx = Ok ((z - qq 1 2) * dx, (z' + qq 3 5 + (z' - qn r) / qz 5) * dx).
Proof.
  intros y dx l r a z a' z' L R L1 R2 HL HR A A'.
  destruct (edge_peak y l L) as (p & m & P). unfold foot_tangent_fit.
  rewrite (np_max_peak y p m P). cbn [bind]. cbv zeta.
  rewrite (peak_index y p m P). cbn [bind].
  rewrite (left_index y p m l P L). cbn [bind]. rewrite (right_index y p m r P R). cbn [bind].
  destruct l as [|l]; [lia|]. destruct r as [|[|r]]; try lia.
  replace (S l - 1)%nat with l in HL by lia. replace (S l + 3)%nat with (l + 4)%nat in HL by lia.
  replace (S (S r) - 2)%nat with r in HR by lia. replace (S (S r) + 2)%nat with (r + 4)%nat in HR by lia.
  replace (Z.of_nat (S l) - 1)%Z with (Z.of_nat l) by lia. replace (Z.of_nat (S l) + 3)%Z with (Z.of_nat (l + 4)) by lia.
  replace (Z.of_nat (S (S r)) - 2)%Z with (Z.of_nat r) by lia. replace (Z.of_nat (S (S r)) + 2)%Z with (Z.of_nat (r + 4)) by lia.
  rewrite (slice4 y l _ _ _ _ (HL l ltac:(lia)) (HL (l + 1)%nat ltac:(lia)) (HL (l + 2)%nat ltac:(lia)) (HL (l + 3)%nat ltac:(lia))).
  rewrite (slice4 y r _ _ _ _ (HR r ltac:(lia)) (HR (r + 1)%nat ltac:(lia)) (HR (r + 2)%nat ltac:(lia)) (HR (r + 3)%nat ltac:(lia))).
  rewrite foot_shift_line by exact A. cbn [bind]. rewrite foot_shift_line by exact A'. cbn [bind].
  replace (S l) with (l + 1)%nat by lia. replace (S (S r)) with (r + 2)%nat by lia. rewrite !qn_plus.
  replace (qn 1) with 1 by (apply Qc_is_canon; reflexivity). replace (qn 2) with (1 + 1) by (apply Qc_is_canon; reflexivity).
  replace (qz 6) with ((1 + 1 + 1) * (1 + 1)) by (apply Qc_is_canon; reflexivity).
  replace (qz 5) with (1 + 1 + 1 + 1 + 1) by (apply Qc_is_canon; reflexivity).
  replace (qq 3 2) with ((1 + 1 + 1) / (1 + 1)) by (apply Qc_is_canon; reflexivity).
  replace (qq 1 2) with (1 / (1 + 1)) by (apply Qc_is_canon; reflexivity).
  replace (qq 3 5) with ((1 + 1 + 1) / (1 + 1 + 1 + 1 + 1)) by (apply Qc_is_canon; reflexivity).
  f_equal. f_equal; field; repeat split; discriminate.
Qed.

(** So the left foot is never the zero of the line, counted from the first bin or
    from its edge; and neither is the right foot if the profile is positive at
    its peak. *)
Lemma C54_feet_refuted_lem : forall y dx l r a z a' z' fl fr p m,
  left_edge y l -> right_edge y r -> (1 <= l)%nat -> (2 <= r)%nat ->
  on_line y a z (l - 1) (l + 3) -> on_line y a' z' (r - 2) (r + 2) -> a <> 0 -> a' <> 0 ->
  peak y p m -> 0 < m -> 0 < dx -> foot_tangent_fit y dx = Ok (fl, fr) ->
  fl <> z * dx /\ fl <> (z + qq 1 2) * dx /\ z' * dx < fr.
Proof.
  intros y dx l r a z a' z' fl fr p m L R L1 R2 HL HR A A' P M D F.
  rewrite (C54_fit_partial_lem y dx l r a z a' z') in F by assumption. injection F as <- <-.
  assert (H2 : qq 1 2 = (1 / (1 + 1))) by (apply Qc_is_canon; reflexivity).
  assert (H35 : 0 < qq 3 5) by reflexivity.
  assert (HP : 0 < qq 1 2) by reflexivity.
  split; [|split].
  - intro E. assert (0 < qq 1 2 * dx) by qcnra. qclra.
  - intro E. assert (0 < qq 1 2 * dx) by qcnra. qclra.
  - destruct R as (p' & m' & P' & PR & (v & V1 & V2) & AB).
    destruct (peak_unique _ _ _ _ _ P P') as [<- <-].
    assert (HR1 := HR (r - 1)%nat ltac:(lia)). assert (HR0 := HR r ltac:(lia)).
    rewrite V1 in HR0. injection HR0 as HR0.
    assert (T : qq 3 20 * m <= a' * (qn (r - 1) - z')).
    { destruct (Nat.eq_dec (r - 1) p) as [E|NE].
      - destruct P as (Pm & _). rewrite E, Pm in HR1. rewrite E. injection HR1 as HR1. rewrite <- HR1.
        assert (qq 3 20 < 1) by reflexivity. qcnra.
      - apply (AB (r - 1)%nat); [lia|exact HR1]. }
    assert (T0 : 0 < qq 3 20 * m) by (assert (0 < qq 3 20) by reflexivity; qcnra).
    assert (QR : qn (r - 1) = qn r - 1).
    { replace r with ((r - 1) + 1)%nat at 2 by lia. rewrite qn_plus.
      replace (qn 1) with 1 by (apply Qc_is_canon; reflexivity). ring. }
    rewrite QR in T.
    assert (N : a' < 0) by qclra.
    assert (Z : qn r - 1 < z') by (destruct (Qclt_le_dec (qn r - 1) z'); [assumption|exfalso; qcnra]).
    assert (B : 0 < qq 3 5 + (z' - qn r) / qz 5).
    { replace (qq 3 5 + (z' - qn r) / qz 5) with (qq 2 5 + (z' - (qn r - 1)) / qz 5).
      - assert (0 < qq 2 5) by reflexivity. assert (0 < / qz 5) by reflexivity.
        assert (0 < (z' - (qn r - 1)) / qz 5) by (unfold Qcdiv; qcnra). qclra.
      - replace (qz 5) with (1 + 1 + 1 + 1 + 1) by (apply Qc_is_canon; reflexivity).
        replace (qq 2 5) with ((1 + 1) / (1 + 1 + 1 + 1 + 1)) by (apply Qc_is_canon; reflexivity).
        replace (qq 3 5) with ((1 + 1 + 1) / (1 + 1 + 1 + 1 + 1)) by (apply Qc_is_canon; reflexivity).
        field. discriminate. }
    assert (0 < (qq 3 5 + (z' - qn r) / qz 5) * dx) by qcnra.
    replace ((z' + qq 3 5 + (z' - qn r) / qz 5) * dx) with (z' * dx + (qq 3 5 + (z' - qn r) / qz 5) * dx) by ring. qclra.
Qed.

(** The other fit, foot_tangent_fit_dq, gives the zeros of the two lines exactly,
    or refuses the profile if they are not in order or too far apart. *)
Lemma C54_dq_lem : forall (savgol : list Qc -> list Qc) x y0 (flt : bool) t_rf l r a z a' z',
  let y := if flt then savgol y0 else y0 in
  first_high y l -> last_high y r -> (3 <= l)%nat -> (r + 3 < length x)%nat -> increasing x ->
  on_line_at x y a z (l - 3) (l + 3) -> on_line_at x y a' z' (r - 2) (r + 4) -> a <> 0 -> a' <> 0 ->
  (0 <= z' - z -> z' - z < t_rf -> foot_tangent_fit_dq savgol x y0 t_rf flt = Ok (z, z')) /\
  (z' - z < 0 \/ t_rf <= z' - z -> foot_tangent_fit_dq savgol x y0 t_rf flt = Fail (Raised InvalidProfileError)).
Proof.
  intros savgol x y0 flt t_rf l r a z a' z' y FH LH L3 RN INC HL HR A A'.
  unfold foot_tangent_fit_dq. cbv zeta. fold y.
  assert (FH' := FH). destruct FH' as (p & m & P & (v & V1 & V2) & B1).
  rewrite (np_max_peak y p m P). cbn [bind].
  rewrite (first_high_index y p m l P FH). cbn [bind]. rewrite (last_high_index y p m r P LH). cbn [bind].
  assert (LR : (l <= r)%nat).
  { destruct LH as (p' & m' & P' & (v' & V1' & V2') & B2). destruct (peak_unique _ _ _ _ _ P P') as [<- <-].
    destruct (le_lt_dec l r); [assumption|]. specialize (B2 _ _ l0 V1). exfalso. qclra. }
  destruct (Z.ltb_spec (Z.of_nat l - 3) 0); [lia|].
  destruct (Z.leb_spec (Z.of_nat (length x)) (Z.of_nat r + 3)); [lia|]. cbn [orb].
  assert (F : forall i a z, on_line_at x y a z i (i + 6) ->
    polyfit1 (slice x (Z.of_nat i) (Z.of_nat (i + 6))) (slice y (Z.of_nat i) (Z.of_nat (i + 6))) = Ok (a, - (a * z))).
  { clear - INC. intros i a z H.
    destruct (H i ltac:(lia)) as (u0 & X0 & Y0). destruct (H (i + 1)%nat ltac:(lia)) as (u1 & X1 & Y1).
    destruct (H (i + 2)%nat ltac:(lia)) as (u2 & X2 & Y2). destruct (H (i + 3)%nat ltac:(lia)) as (u3 & X3 & Y3).
    destruct (H (i + 4)%nat ltac:(lia)) as (u4 & X4 & Y4). destruct (H (i + 5)%nat ltac:(lia)) as (u5 & X5 & Y5).
    rewrite (slice6 x i u0 u1 u2 u3 u4 u5) by assumption. erewrite (slice6 y i) by eassumption.
    apply polyfit_line. apply (INC i (i + 1)%nat); [lia|assumption|assumption]. }
  replace (Z.of_nat l - 3)%Z with (Z.of_nat (l - 3)) by lia. replace (Z.of_nat l + 3)%Z with (Z.of_nat (l - 3 + 6)) by lia.
  replace (Z.of_nat r - 2)%Z with (Z.of_nat (r - 2)) by lia. replace (Z.of_nat r + 4)%Z with (Z.of_nat (r - 2 + 6)) by lia.
  rewrite (F (l - 3)%nat a z). 2:{ replace (l - 3 + 6)%nat with (l + 3)%nat by lia. exact HL. }
  cbn [bind]. rewrite (F (r - 2)%nat a' z'). 2:{ replace (r - 2 + 6)%nat with (r + 4)%nat by lia. exact HR. }
  cbn [bind fst snd].
  unfold qdiv. rewrite (qeqb_f a) by exact A. cbn [bind]. rewrite (qeqb_f a') by exact A'. cbn [bind].
  replace (- - (a * z) / a) with z by (field; exact A). replace (- - (a' * z') / a') with z' by (field; exact A').
  split.
  - intros H1 H2. rewrite qleb_t by exact H1. rewrite qltb_t by exact H2. reflexivity.
  - intros [H1|H2]; [rewrite qleb_f by exact H1; reflexivity|rewrite qltb_f by exact H2; rewrite Bool.andb_false_r; reflexivity].
Qed.

(** A profile that does not fall below 15 per cent of its peak on one side is
    refused with an IndexError. *)
Lemma C54_no_edge_lem : forall y dx p m, peak y p m ->
  (forall k v, (k < p)%nat -> nth_error y k = Some v -> qq 3 20 * m <= v) \/
  (forall k v, (p < k)%nat -> nth_error y k = Some v -> qq 3 20 * m <= v) ->
  foot_tangent_fit y dx = Fail (Raised IndexError).
Proof.
  intros y dx p m P H. unfold foot_tangent_fit.
  rewrite (np_max_peak y p m P). cbn [bind]. cbv zeta. rewrite (peak_index y p m P). cbn [bind].
  rewrite where_seq, !filter_filter.
  destruct H as [H|H].
  - rewrite filter_none; [reflexivity|]. intros k K. apply in_seq in K.
    destruct (Nat.ltb_spec k p); [|apply Bool.andb_false_r]. rewrite Bool.andb_true_r. apply qltb_f. apply (H k); [lia|]. apply nth_some. lia.
  - destruct (last_ _) as [l|e] eqn:E; cbn [bind].
    + rewrite filter_none; [reflexivity|]. intros k K. apply in_seq in K.
      destruct (Nat.ltb_spec p k); [|apply Bool.andb_false_r]. rewrite Bool.andb_true_r. apply qltb_f. apply (H k); [lia|]. apply nth_some. lia.
    + revert E. unfold last_. destruct (filter _ _); [intro E; injection E as <-; reflexivity|discriminate].
Qed.
(** The other fit refuses a profile whose edge is within three bins of its end. *)
Lemma C54_dq_too_long_lem : forall (savgol : list Qc -> list Qc) x y0 (flt : bool) t_rf l r,
  let y := if flt then savgol y0 else y0 in
  first_high y l -> last_high y r -> (l < 3)%nat \/ (length x <= r + 3)%nat ->
  foot_tangent_fit_dq savgol x y0 t_rf flt = Fail (Raised InvalidProfileError).
Proof.
  intros savgol x y0 flt t_rf l r y FH LH H. unfold foot_tangent_fit_dq. cbv zeta. fold y.
  assert (FH' := FH). destruct FH' as (p & m & P & _).
  rewrite (np_max_peak y p m P). cbn [bind].
  rewrite (first_high_index y p m l P FH). cbn [bind]. rewrite (last_high_index y p m r P LH). cbn [bind].
  destruct (Z.ltb_spec (Z.of_nat l - 3) 0); [reflexivity|].
  destruct (Z.leb_spec (Z.of_nat (length x)) (Z.of_nat r + 3)); [reflexivity|]. lia.
Qed.

(** ** The emittance for a fraction of the density *)
Lemma density_interp img dt dE t : 0 < t -> t < 1 ->
  emittance_density_calc img dt dE t =
  interp t (qcumsum 0 (qsort (concat img))) (map (fun i => qn i * dt * dE) (seq 0 (length (concat img)))).
Proof.
  intros T1 T2. unfold emittance_density_calc. rewrite (qltb_t 0 t) by exact T1. rewrite (qltb_t t 1) by exact T2.
  unfold cumulative_density; cbn [negb andb]. rewrite qcumsum_length. rewrite <- (Permutation_length (qsort_perm (concat img))). reflexivity.
Qed.
Lemma interp_density t s (g : nat -> Qc) :
  interp t (qcumsum 0 s) (map g (seq 0 (length s))) =
  match s with [] => Fail (Raised ValueError)
  | x :: r => if qltb t x then Ok (g 0%nat)
              else interp_from t x (g 0%nat) (combine (qcumsum x r) (map g (seq 1 (length r)))) end.
Proof.
  unfold interp. rewrite qcumsum_length, map_length, seq_length, Nat.eqb_refl. cbn [negb].
  destruct s as [|x r]; [reflexivity|]. cbn [qcumsum length seq map combine].
  replace (0 + x) with x by ring. reflexivity.
Qed.
Lemma qn_succ i : qn (S i) = qn i + 1.
Proof. replace (S i) with (i + 1)%nat by lia. rewrite qn_plus. f_equal. Qed.
Lemma area_rising dt dE : 0 <= dt * dE -> forall i, qn i * dt * dE <= qn (S i) * dt * dE.
Proof. intros H i. rewrite qn_succ. replace ((qn i + 1) * dt * dE) with (qn i * dt * dE + dt * dE) by ring. qclra. Qed.
Lemma sorted_nonneg img : Forall (Forall (fun v => 0 <= v)) img -> Forall (fun v => 0 <= v) (qsort (concat img)).
Proof.
  intro H. apply (Permutation_Forall (qsort_perm (concat img))).
  induction H; cbn; [constructor|]. apply Forall_app. auto.
Qed.

(** A target outside the open interval from 0 to 1 is refused. *)
Lemma C57_target_lem : forall img dt dE t,
  t <= 0 \/ 1 <= t -> emittance_density_calc img dt dE t = Fail (Raised ValueError).
Proof.
  intros img dt dE t H. unfold emittance_density_calc. destruct H as [H|H].
  - rewrite (qltb_f 0 t) by exact H. reflexivity.
  - rewrite (qltb_f t 1) by exact H. rewrite Bool.andb_false_r. reflexivity.
Qed.
(** For an image with no negative pixel the result is a number between 0 and
    the area of all cells but one. *)
Lemma C57_bounds_lem : forall img dt dE t,
  concat img <> [] -> Forall (Forall (fun v => 0 <= v)) img -> 0 <= dt * dE -> 0 < t -> t < 1 ->
  exists v, emittance_density_calc img dt dE t = Ok v /\ 0 <= v /\ v <= qn (length (concat img) - 1) * dt * dE.
Proof.
  intros img dt dE t N P D T1 T2. rewrite density_interp by assumption.
  rewrite (Permutation_length (qsort_perm (concat img))).
  assert (SN := sorted_nonneg img P).
  assert (NE : qsort (concat img) <> []).
  { intro E. apply N. apply Permutation_nil. rewrite <- E. symmetry. apply qsort_perm. }
  rewrite interp_density. destruct (qsort (concat img)) as [|x r]; [congruence|].
  apply Forall_inv in SN as X. apply Forall_inv_tail in SN.
  cbn [length]. rewrite Nat.sub_succ, Nat.sub_0_r.
  set (g := fun i : nat => qn i * dt * dE).
  assert (G0 : g 0%nat = 0) by (unfold g; replace (qn 0) with 0 by (apply Qc_is_canon; reflexivity); ring).
  assert (G : forall i, g i <= g (S i)) by (apply area_rising; exact D).
  assert (MONO : forall i, 0 <= g i).
  { induction i as [|i IH]; [rewrite G0; qclra|]. specialize (G i). qclra. }
  fold g. change (qn (length r) * dt * dE) with (g (length r)).
  destruct (qltb_spec t x) as [L|L].
  - exists (g 0%nat). split; [reflexivity|]. rewrite G0. split; [qclra|apply MONO].
  - destruct (interp_from_ok t x (g 0%nat) (combine (qcumsum x r) (map g (seq 1 (length r))))) as (v & E & B1 & B2).
    + apply cumsum_rising; [exact G|exact SN|qclra|apply G].
    + exact L.
    + exists v. split; [exact E|]. rewrite last_combine in B2 by (rewrite qcumsum_length, map_length, seq_length; reflexivity).
      rewrite G0 in B1. split; [exact B1|].
      assert (LE : last (map g (seq 1 (length r))) (g 0%nat) = g (length r)).
      { destruct (length r) as [|k] eqn:K; [reflexivity|]. rewrite seq_S, map_app. cbn [map plus]. apply last_last. }
      rewrite LE in B2. exact B2.
Qed.
(** A larger fraction never has a smaller emittance. *)
Lemma C57_monotone_lem : forall img dt dE t t' v v',
  Forall (Forall (fun v => 0 <= v)) img -> 0 <= dt * dE -> 0 < t -> t <= t' -> t' < 1 ->
  emittance_density_calc img dt dE t = Ok v -> emittance_density_calc img dt dE t' = Ok v' -> v <= v'.
Proof.
  intros img dt dE t t' v v' P D T1 T2 T3. rewrite !density_interp by qclra.
  rewrite (Permutation_length (qsort_perm (concat img))).
  assert (SN := sorted_nonneg img P). rewrite !interp_density.
  destruct (qsort (concat img)) as [|x r]; [discriminate|].
  apply Forall_inv_tail in SN. set (g := fun i : nat => qn i * dt * dE).
  assert (G : forall i, g i <= g (S i)) by (apply area_rising; exact D).
  assert (RI : rising x (g 0%nat) (combine (qcumsum x r) (map g (seq 1 (length r))))).
  { apply cumsum_rising; [exact G|exact SN|qclra|apply G]. }
  fold g. destruct (qltb_spec t x) as [L|L]; destruct (qltb_spec t' x) as [L'|L'].
  - intros E E'. injection E as <-. injection E' as <-. qclra.
  - intros E E'. injection E as <-. destruct (interp_from_ok t' _ _ _ RI L') as (w & W & B & _).
    assert (Q := eq_trans (eq_sym E') W). injection Q as ->. exact B.
  - exfalso. qclra.
  - intros E E'. exact (interp_from_mono t t' _ _ _ _ _ RI L T2 E E').
Qed.
(** It does not depend on the places of the cells. *)
Lemma C57_invariant_lem : forall img img' dt dE t,
  Permutation (concat img) (concat img') ->
  emittance_density_calc img dt dE t = emittance_density_calc img' dt dE t.
Proof.
  intros img img' dt dE t P. unfold emittance_density_calc, cumulative_density. rewrite (qsort_invariant _ _ P). reflexivity.
Qed.

Lemma interp_from_hit t (g : nat -> Qc) : forall r k i acc, Forall (fun v => 0 < v) r -> (k <= length r)%nat ->
  t = acc + sum (firstn k r) ->
  interp_from t acc (g i) (combine (qcumsum acc r) (map g (seq (S i) (length r)))) = Ok (g (i + k)%nat).
Proof.
  induction r as [|x r IH]; intros k i acc P K T; cbn [length] in K; cbn [qcumsum length seq map combine interp_from].
  - destruct k; [|lia]. rewrite Nat.add_0_r. reflexivity.
  - apply Forall_inv in P as X. apply Forall_inv_tail in P. destruct k as [|k].
    + cbn [firstn sum fold_right] in T. assert (T' : t = acc) by (rewrite T; ring).
      rewrite (qleb_f (acc + x) t) by (rewrite T'; qclra). rewrite T', qeqb_t, Nat.add_0_r. reflexivity.
    + change (firstn (S k) (x :: r)) with (x :: firstn k r) in T.
      change (sum (x :: firstn k r)) with (x + sum (firstn k r)) in T.
      assert (SP : 0 <= sum (firstn k r)).
      { clear - P. revert k. induction P as [|y r Y P IH]; intros [|k]; cbn [firstn sum fold_right]; try qclra.
        specialize (IH k). unfold sum in IH. qclra. }
      rewrite (qleb_t (acc + x) t) by (rewrite T; qclra).
      rewrite (IH k (S i) (acc + x)); [f_equal; f_equal; lia|exact P|lia|]. rewrite T. ring.
Qed.
Lemma qdesc_app_inv a b : qdesc (a ++ b) -> qdesc a /\ qdesc b.
Proof.
  induction a as [|x a IH]; cbn [app]; intro H; [split; [constructor|exact H]|].
  inversion H as [|? ? F D]. subst. apply Forall_app in F as [F _]. destruct (IH D). split; [constructor; assumption|assumption].
Qed.
Lemma qdesc_app a b : qdesc a -> qdesc b -> (forall u v, In u a -> In v b -> v <= u) -> qdesc (a ++ b).
Proof.
  intros A B H. induction A as [|x a F D IH]; cbn [app]; [exact B|]. constructor.
  - apply Forall_app. split; [exact F|]. apply Forall_forall. intros v V. apply H; [left; reflexivity|exact V].
  - apply IH. intros. apply H; [right; assumption|assumption].
Qed.
Lemma largest_sorted k cells a : largest k cells a -> Permutation a (firstn k (qsort cells)).
Proof.
  intros (L & rest & P & H).
  assert (E : qsort cells = qsort a ++ qsort rest).
  { apply qdesc_unique; [apply qsort_desc| |].
    - apply qdesc_app; [apply qsort_desc|apply qsort_desc|]. intros u v U V. apply H.
      + apply (Permutation_in _ (Permutation_sym (qsort_perm a)) U).
      + apply (Permutation_in _ (Permutation_sym (qsort_perm rest)) V).
    - rewrite <- !qsort_perm. symmetry. exact P. }
  rewrite E, <- L, (Permutation_length (qsort_perm a)), firstn_app, Nat.sub_diag, firstn_all. cbn [firstn]. rewrite app_nil_r.
  apply qsort_perm.
Qed.
Lemma sum_perm a b : Permutation a b -> sum a = sum b.
Proof.
  induction 1 as [|x a b P IH|x y a|a b c P1 IH1 P2 IH2]; cbn [sum fold_right]; unfold sum in *; try congruence; ring.
Qed.
(** If the target is what the k largest cells hold, and no cell is empty, the
    result is the area of k - 1 cells: one less. *)
Lemma C57_cells_lem : forall img dt dE t k a,
  Forall (Forall (fun v => 0 < v)) img -> 0 < t -> t < 1 -> (1 <= k)%nat ->
  largest k (concat img) a -> t = sum a ->
  emittance_density_calc img dt dE t = Ok (qn (k - 1) * dt * dE).
Proof.
  intros img dt dE t k a P T1 T2 K LG TS. rewrite density_interp by assumption.
  rewrite (Permutation_length (qsort_perm (concat img))). rewrite interp_density.
  assert (SP : Forall (fun v => 0 < v) (qsort (concat img))).
  { apply (Permutation_Forall (qsort_perm (concat img))). clear - P. induction P; cbn; [constructor|]. apply Forall_app. auto. }
  assert (PA := largest_sorted k (concat img) a LG).
  assert (KL : (k <= length (qsort (concat img)))%nat).
  { destruct LG as (L & rest & PR & _). rewrite <- (Permutation_length (qsort_perm (concat img))), <- (Permutation_length PR), app_length. lia. }
  rewrite (sum_perm _ _ PA) in TS.
  destruct (qsort (concat img)) as [|x r]; [cbn in KL; lia|]. cbn [length] in KL.
  destruct k as [|k]; [lia|]. change (firstn (S k) (x :: r)) with (x :: firstn k r) in TS.
  change (sum (x :: firstn k r)) with (x + sum (firstn k r)) in TS.
  apply Forall_inv_tail in SP as PR.
  assert (S0 : 0 <= sum (firstn k r)).
  { clear - PR. revert k. induction PR as [|y r Y P IH]; intros [|k]; cbn [firstn sum fold_right]; try qclra.
    specialize (IH k). unfold sum in IH. qclra. }
  rewrite qltb_f by (rewrite TS; qclra).
  set (g := fun i : nat => qn i * dt * dE).
  etransitivity; [apply (interp_from_hit t g r k 0 x); [exact PR|lia|exact TS]|].
  unfold g. replace (S k - 1)%nat with (0 + k)%nat by lia. reflexivity.
Qed.

(** The density fit refuses levels outside the open interval from 0 to 1, and
    gives otherwise, if anything, a value between those of increasing x. *)
Lemma C57_level_lem : forall y x level,
  level <= 0 \/ 1 <= level -> foot_tangent_fit_density y x level = Fail (Raised ValueError).
Proof.
  intros y x t H. unfold foot_tangent_fit_density. destruct H as [H|H].
  - rewrite (qltb_f 0 t) by exact H. reflexivity.
  - rewrite (qltb_f t 1) by exact H. rewrite Bool.andb_false_r. reflexivity.
Qed.
Lemma rising_axis x i u0 x0 : increasing (u0 :: x) -> x0 <= qn i ->
  rising x0 u0 (combine (map qn (seq i (length x))) x).
Proof.
  revert i u0 x0. induction x as [|u x IH]; intros i u0 x0 INC X; cbn [length seq map combine]; [constructor|].
  constructor.
  - exact X.
  - apply Qclt_le_weak. apply (INC 0%nat 1%nat); [lia|reflexivity|reflexivity].
  - apply IH; [|rewrite qn_succ; qclra]. intros a b v w AB A B. apply (INC (S a) (S b)); [lia|exact A|exact B].
Qed.
Lemma C57_density_range_lem : forall y x level v u0 x',
  x = u0 :: x' -> increasing x -> foot_tangent_fit_density y x level = Ok v -> u0 <= v /\ v <= last x u0.
Proof.
  intros y x level v u0 x' -> INC H. unfold foot_tangent_fit_density in H.
  destruct (negb _); [discriminate|].
  destruct (np_min y); cbn [bind] in H; [|discriminate].
  destruct (np_max _); cbn [bind] in H; [|discriminate].
  destruct (first_ _); cbn [bind] in H; [|discriminate].
  destruct (first_ _) as [r|]; cbn [bind] in H; [|discriminate].
  destruct (foot_shift _ _) as [s|]; cbn [bind] in H; [|discriminate].
  unfold interp in H. rewrite map_length, seq_length, Nat.eqb_refl in H. cbn [negb length seq map combine] in H.
  assert (RI := rising_axis x' 1 u0 (qn 0) INC ltac:(rewrite (qn_succ 0); qclra)).
  assert (LE : last (u0 :: x') u0 = last x' u0) by (destruct x'; reflexivity).
  destruct (interp_from_ok (qn 0) _ _ _ RI ltac:(qclra)) as (w0 & _ & A1 & A2).
  rewrite last_combine in A2 by (rewrite map_length, seq_length; reflexivity). rewrite LE.
  destruct (qltb_spec (qn r - s) (qn 0)) as [L|L].
  - injection H as <-. split; qclra.
  - destruct (interp_from_ok (qn r - s) _ _ _ RI L) as (w & W & B1 & B2). rewrite H in W. injection W as <-.
    rewrite last_combine in B2 by (rewrite map_length, seq_length; reflexivity). split; assumption.
Qed.

Lemma min_scaled s c l : 0 < s -> forall x,
  fold_left qmin (map (fun v => s * v + c) l) (s * x + c) = s * fold_left qmin l x + c.
Proof.
  intro P. induction l as [|y l IH]; intro x; cbn [map fold_left]; [reflexivity|].
  rewrite <- IH. f_equal. unfold qmin. destruct (qleb_spec x y) as [L|L].
  - rewrite qleb_t by qcnra. reflexivity.
  - rewrite qleb_f by qcnra. reflexivity.
Qed.
Lemma max_scaled s l : 0 < s -> forall x,
  fold_left qmax (map (fun v => s * v) l) (s * x) = s * fold_left qmax l x.
Proof.
  intro P. induction l as [|y l IH]; intro x; cbn [map fold_left]; [reflexivity|].
  rewrite <- IH. f_equal. unfold qmax. destruct (qleb_spec x y) as [L|L].
  - rewrite qleb_t by qcnra. reflexivity.
  - rewrite qleb_f by qcnra. reflexivity.
Qed.
Lemma where_map p (f : Qc -> Qc) l : forall i, where_ i p (map f l) = where_ i (fun v => p (f v)) l.
Proof. induction l as [|x l IH]; intro i; cbn [map where_]; [reflexivity|]. rewrite IH. reflexivity. Qed.
Lemma where_ext p q l : (forall v, p v = q v) -> forall i, where_ i p l = where_ i q l.
Proof. intro E. induction l as [|x l IH]; intro i; cbn [where_]; [reflexivity|]. rewrite E, IH. reflexivity. Qed.
Lemma slice_map (f : Qc -> Qc) l a b : slice (map f l) a b = map f (slice l a b).
Proof. unfold slice. rewrite map_length, skipn_map, firstn_map. reflexivity. Qed.
Lemma np_get_scaled s (l : list Qc) i : np_get (map (fun v => s * v) l) i = (v <- np_get l i ;; Ok (s * v)).
Proof.
  unfold np_get. rewrite map_length. cbv zeta. destruct (_ || _)%bool; [reflexivity|].
  unfold get. destruct (_ <? 0)%Z; [reflexivity|]. rewrite nth_error_map. destruct (nth_error l _); reflexivity.
Qed.
Lemma qsum_scaled s l : qsum (map (fun v => s * v) l) = s * qsum l.
Proof. rewrite (qsum_map_scale Qc s (fun v => v)), map_id. reflexivity. Qed.
Lemma foot_shift_scaled s k v : s <> 0 -> foot_shift k (map (fun v => s * v) v) = foot_shift k v.
Proof.
  intro P. unfold foot_shift. rewrite !np_get_scaled.
  destruct (np_get v 0) as [v0|]; cbn [bind]; [|reflexivity]. destruct (np_get v 1) as [v1|]; cbn [bind]; [|reflexivity].
  destruct (np_get v 2) as [v2|]; cbn [bind]; [|reflexivity]. destruct (np_get v 3) as [v3|]; cbn [bind]; [|reflexivity].
  rewrite qsum_scaled. set (d := - qz 6 * v0 - qz 2 * v1 + qz 2 * v2 + qz 6 * v3).
  replace (- qz 6 * (s * v0) - qz 2 * (s * v1) + qz 2 * (s * v2) + qz 6 * (s * v3)) with (s * d) by (unfold d; ring).
  unfold qdiv. destruct (qeqb_spec d 0) as [E|E].
  - rewrite E. replace (s * 0) with 0 by ring. reflexivity.
  - rewrite qeqb_f. 2:{ intro H. apply Qcmult_integral in H. tauto. }
    f_equal. field. split; assumption.
Qed.
(** The density fit does not depend on the unit and on the offset of the
    ordinates. *)
Lemma C57_density_invariant_lem : forall y x level s c, 0 < s ->
  foot_tangent_fit_density (map (fun v => s * v + c) y) x level = foot_tangent_fit_density y x level.
Proof.
  intros y x level s c P. assert (S0 : s <> 0) by (intro E; rewrite E in P; discriminate).
  unfold foot_tangent_fit_density. destruct (negb _); [reflexivity|].
  destruct y as [|y0 y]; [reflexivity|]. cbn [np_min map bind]. rewrite min_scaled by exact P.
  set (mn := fold_left qmin y y0). cbv zeta. rewrite map_map.
  rewrite (map_ext (fun v => s * v + c - (s * mn + c)) (fun v => s * (v - mn))) by (intro; ring).
  rewrite <- (map_map (fun v => v - mn) (fun v => s * v)).
  replace (s * y0 + c - (s * mn + c)) with (s * (y0 - mn)) by ring.
  change (y0 - mn :: map (fun v => v - mn) y) with (map (fun v => v - mn) (y0 :: y)).
  change (s * (y0 - mn) :: map (fun v => s * v) (map (fun v => v - mn) y)) with (map (fun v => s * v) (map (fun v => v - mn) (y0 :: y))).
  set (z := map (fun v => v - mn) (y0 :: y)).
  assert (M : np_max (map (fun v => s * v) z) = (m <- np_max z ;; Ok (s * m))).
  { unfold z. cbn [map np_max bind]. rewrite max_scaled by exact P. reflexivity. }
  rewrite M. destruct (np_max z) as [m|]; cbn [bind]; [|reflexivity].
  rewrite !where_map.
  rewrite (where_ext (fun v => qeqb (s * v) (s * m)) (fun v => qeqb v m)).
  2:{ intro v. destruct (qeqb_spec v m) as [->|N]; [apply qeqb_t|]. apply qeqb_f. intro H. apply N.
      assert (Q : s * (v - m) = 0) by (replace (s * (v - m)) with (s * v - s * m) by ring; rewrite H; ring).
      apply Qcmult_integral in Q as [Q|Q]; [tauto|]. replace v with (v - m + m) by ring. rewrite Q. ring. }
  destruct (first_ _) as [p|]; cbn [bind]; [|reflexivity].
  rewrite (where_ext (fun v => qltb (s * v) (level * (s * m))) (fun v => qltb v (level * m))).
  2:{ intro v. destruct (qltb_spec v (level * m)) as [L|L].
      - apply qltb_t. replace (level * (s * m)) with (s * (level * m)) by ring. qcnra.
      - apply qltb_f. replace (level * (s * m)) with (s * (level * m)) by ring. qcnra. }
  destruct (first_ _) as [r|]; cbn [bind]; [|reflexivity].
  rewrite slice_map, foot_shift_scaled by exact S0. reflexivity.
Qed.

Lemma interp_axis q : forall x i u0 k u w, qn i <= q -> qn (i + k) <= q -> q < qn (i + k + 1) ->
  nth_error (u0 :: x) k = Some u -> nth_error (u0 :: x) (k + 1) = Some w ->
  interp_from q (qn i) u0 (combine (map qn (seq (S i) (length x))) x) = Ok (u + (q - qn (i + k)) * (w - u)).
Proof.
  induction x as [|u1 x IH]; intros i u0 k u w Q K1 K2 U W; cbn [length seq map combine interp_from].
  - exfalso. assert (A : (k + 1 < length [u0])%nat) by (apply nth_error_Some; rewrite W; discriminate). cbn in A. lia.
  - destruct k as [|k].
    + cbn [nth_error plus] in U, W. injection U as <-. injection W as <-. rewrite Nat.add_0_r in *.
      replace (S i) with (i + 1)%nat by lia. rewrite qleb_f by exact K2.
      destruct (qeqb_spec (qn i) q) as [E|E].
      * f_equal. rewrite E. ring.
      * assert (D : qn (i + 1) - qn i = 1) by (rewrite qn_plus; replace (qn 1) with 1 by (apply Qc_is_canon; reflexivity); ring).
        rewrite D. unfold qdiv. rewrite qeqb_f by discriminate. cbn [bind]. f_equal. field. discriminate.
    + assert (LE : qn (S i) <= q).
      { apply Qcle_trans with (qn (i + S k)); [|exact K1]. apply qn_le. lia. }
      rewrite qleb_t by exact LE. rewrite (IH (S i) u1 k u w).
      * f_equal. f_equal. f_equal. f_equal. f_equal. lia.
      * exact LE.
      * replace (S i + k)%nat with (i + S k)%nat by lia. exact K1.
      * replace (S i + k + 1)%nat with (i + S k + 1)%nat by lia. exact K2.
      * exact U.
      * exact W.
Qed.
Lemma min_lowest y : forall x mn, lowest (x :: y) mn -> fold_left qmin y x = mn.
Proof.
  assert (A : forall y x, fold_left qmin y x <= x /\ (forall v, In v y -> fold_left qmin y x <= v)).
  { clear. induction y as [|a y IH]; intro x; cbn [fold_left]; [split; [qclra|intros v []]|].
    destruct (IH (qmin x a)) as [B C]. assert (D : qmin x a <= x /\ qmin x a <= a) by (unfold qmin; destruct (qleb_spec x a); split; qclra).
    split; [exact (Qcle_trans _ _ _ B (proj1 D))|]. intros v [<-|V]; [exact (Qcle_trans _ _ _ B (proj2 D))|apply C; exact V]. }
  assert (B : forall y x, In (fold_left qmin y x) (x :: y)).
  { clear. induction y as [|a y IH]; intro x; cbn [fold_left]; [left; reflexivity|].
    destruct (IH (qmin x a)) as [E|E]; [|right; right; exact E]. rewrite <- E. unfold qmin. destruct (qleb x a); [left|right; left]; reflexivity. }
  intros x mn [I L]. destruct (A y x) as [A1 A2]. specialize (L _ (B y x)).
  assert (fold_left qmin y x <= mn) by (destruct I as [<-|I]; [exact A1|apply A2; exact I]). apply Qcle_antisym; assumption.
Qed.
(** Where the four bins around the edge lie on a line above the lowest
    value, the density fit gives x at the position z + 3/5 + (z - r)/5 behind
    the zero z of that line, interpolated between its neighbours. *)
Lemma C57_density_value_lem : forall y x level mn r a z k u w, 0 < level -> level < 1 -> lowest y mn ->
  let above := map (fun v => v - mn) y in
  let q := z + qq 3 5 + (z - qn r) / qz 5 in
  right_edge_at level above r -> (2 <= r)%nat -> on_line above a z (r - 2) (r + 2) -> a <> 0 ->
  qn k <= q -> q < qn (k + 1) -> nth_error x k = Some u -> nth_error x (k + 1) = Some w ->
  foot_tangent_fit_density y x level = Ok (u + (q - qn k) * (w - u)).
Proof.
  intros y x level mn r a z k u w L0 L1 LW above q (p & m & P & PR & (v & V1 & V2) & AB) R2 HR A K1 K2 U W.
  unfold foot_tangent_fit_density. rewrite (qltb_t 0 level), (qltb_t level 1) by assumption. cbn [andb negb].
  assert (MN : np_min y = Ok mn) by (destruct y as [|y0 y]; [destruct LW as [[] _]|cbn [np_min]; f_equal; apply min_lowest; exact LW]).
  rewrite MN. cbn [bind]. cbv zeta. fold above.
  rewrite (np_max_peak above p m P). cbn [bind]. rewrite (peak_index above p m P). cbn [bind].
  assert (RI : first_ (filter (fun i => p <? i)%nat (where_ 0 (fun v => qltb v (level * m)) above)) = Ok r).
  { rewrite where_seq, filter_filter. destruct (nth_err _ _ _ 0 V1) as [N RL]. apply first_filter.
    - exact RL.
    - rewrite N, (qltb_t v) by exact V2. apply Nat.ltb_lt. exact PR.
    - intros j J. destruct (Nat.ltb_spec p j); [|apply Bool.andb_false_r]. rewrite Bool.andb_true_r. apply qltb_f.
      apply (AB j); [lia|]. apply nth_some. lia. }
  rewrite RI. cbn [bind].
  assert (SH : foot_shift (qz 6) (slice above (Z.of_nat r - 2) (Z.of_nat r + 2)) = Ok (qn r - q)).
  { destruct r as [|[|r]]; try lia.
    replace (S (S r) - 2)%nat with r in HR by lia. replace (S (S r) + 2)%nat with (r + 4)%nat in HR by lia.
    replace (Z.of_nat (S (S r)) - 2)%Z with (Z.of_nat r) by lia. replace (Z.of_nat (S (S r)) + 2)%Z with (Z.of_nat (r + 4)) by lia.
    rewrite (slice4 above r _ _ _ _ (HR r ltac:(lia)) (HR (r + 1)%nat ltac:(lia)) (HR (r + 2)%nat ltac:(lia)) (HR (r + 3)%nat ltac:(lia))).
    rewrite foot_shift_line by exact A. f_equal. unfold q. replace (S (S r)) with (r + 2)%nat by lia. rewrite !qn_plus.
    replace (qn 2) with (1 + 1) by (apply Qc_is_canon; reflexivity).
    replace (qz 6) with ((1 + 1 + 1) * (1 + 1)) by (apply Qc_is_canon; reflexivity).
    replace (qz 5) with (1 + 1 + 1 + 1 + 1) by (apply Qc_is_canon; reflexivity).
    replace (qq 3 2) with ((1 + 1 + 1) / (1 + 1)) by (apply Qc_is_canon; reflexivity).
    replace (qq 3 5) with ((1 + 1 + 1) / (1 + 1 + 1 + 1 + 1)) by (apply Qc_is_canon; reflexivity).
    field; repeat split; discriminate. }
  rewrite SH. cbn [bind]. replace (qn r - (qn r - q)) with q by ring.
  unfold interp. rewrite map_length, seq_length, Nat.eqb_refl. cbn [negb].
  destruct x as [|u0 x]; [destruct k; discriminate|]. cbn [length seq map combine].
  assert (Q0 : qn 0 <= q) by (apply Qcle_trans with (qn k); [apply qn_le; lia|exact K1]).
  rewrite qltb_f by exact Q0. exact (interp_axis q x 0 u0 k u w Q0 K1 K2 U W).
Qed.

(*EX*)
From Verif Require Import Base.QcLemmas.
(** A profile with two straight edges: peak in bin 5, edges in bins 2 and 8. *)
Example ex_peak : peak ex_profile 5 (qz 100).
Proof.
  split; [reflexivity|]. split.
  - intros k v H. do 10 (destruct k as [|k]; [injection H as <-; apply qleb_true; vm_compute; reflexivity|]). destruct k; discriminate.
  - intros k v K H. do 5 (destruct k as [|k]; [injection H as <-; apply qltb_true; vm_compute; reflexivity|]). lia.
Qed.
Example ex_left : left_edge ex_profile 2 /\ on_line ex_profile (qz 9) (qq 8 9) (2 - 1) (2 + 3).
Proof.
  split.
  - exists 5%nat, (qz 100). split; [exact ex_peak|]. split; [lia|]. split.
    + eexists. split; [reflexivity|]. apply qltb_true. vm_compute. reflexivity.
    + intros k v K H. do 5 (destruct k as [|k]; [try lia; injection H as <-; apply qleb_true; vm_compute; reflexivity|]). lia.
  - intros k K. do 5 (destruct k as [|k]; [try lia; cbn; f_equal; apply Qc_is_canon; vm_compute; reflexivity|]). lia.
Qed.
Example ex_right : right_edge ex_profile 8 /\ on_line ex_profile (- qz 9) (qq 82 9) (8 - 2) (8 + 2).
Proof.
  split.
  - exists 5%nat, (qz 100). split; [exact ex_peak|]. split; [lia|]. split.
    + eexists. split; [reflexivity|]. apply qltb_true. vm_compute. reflexivity.
    + intros k v K H. do 8 (destruct k as [|k]; [try lia; injection H as <-; apply qleb_true; vm_compute; reflexivity|]). lia.
  - intros k K. do 10 (destruct k as [|k]; [try lia; cbn; f_equal; apply Qc_is_canon; vm_compute; reflexivity|]). lia.
Qed.
Example ex_fit : foot_tangent_fit ex_profile 1 = Ok (qq 8 9 - qq 1 2, qq 82 9 + qq 3 5 + qq 2 9).
Proof. 
  rewrite (C54_fit_partial_lem ex_profile 1 2 8 (qz 9) (qq 8 9) (- qz 9) (qq 82 9)
    (proj1 ex_left) (proj1 ex_right) ltac:(lia) ltac:(lia) (proj2 ex_left) (proj2 ex_right) ltac:(discriminate) ltac:(discriminate)).
  f_equal. f_equal; apply Qc_is_canon; vm_compute; reflexivity.
Qed.
(** A profile for the other fit, with abscissae 0, 1, 2, ...: six points on a
    line on each side. *)
Example ex_dq : first_high ex_hill 3 /\ last_high ex_hill 9 /\ increasing (map qn (seq 0 13)) /\
  on_line_at (map qn (seq 0 13)) ex_hill (qz 9) (qq 8 9) (3 - 3) (3 + 3) /\
  on_line_at (map qn (seq 0 13)) ex_hill (- qz 9) (qq 100 9) (9 - 2) (9 + 4).
Proof.
  assert (P : peak ex_hill 6 (qz 100)).
  { split; [reflexivity|]. split.
    - intros k v H. do 13 (destruct k as [|k]; [injection H as <-; apply qleb_true; vm_compute; reflexivity|]). destruct k; discriminate.
    - intros k v K H. do 6 (destruct k as [|k]; [injection H as <-; apply qltb_true; vm_compute; reflexivity|]). lia. }
  split; [|split; [|split; [|split]]].
  - exists 6%nat, (qz 100). split; [exact P|]. split.
    + eexists. split; [reflexivity|]. apply qleb_true. vm_compute. reflexivity.
    + intros k v K H. do 3 (destruct k as [|k]; [try lia; injection H as <-; apply qltb_true; vm_compute; reflexivity|]). lia.
  - exists 6%nat, (qz 100). split; [exact P|]. split.
    + eexists. split; [reflexivity|]. apply qleb_true. vm_compute. reflexivity.
    + intros k v K H. do 13 (destruct k as [|k]; [try lia; injection H as <-; apply qltb_true; vm_compute; reflexivity|]). destruct k; discriminate.
  - intros i j u v IJ I J. assert (A := nth_error_Some (map qn (seq 0 13)) j). rewrite J in A. cbn [map length seq] in A.
    assert (B : (j < 13)%nat) by (apply A; discriminate).
    assert (E : forall k w, (k < 13)%nat -> nth_error (map qn (seq 0 13)) k = Some w -> w = qn k).
    { intros k w K H. apply map_nth_error with (f := fun x : Qc => x) in H. clear - K H.
      do 13 (destruct k as [|k]; [cbn in H; injection H as <-; reflexivity|]). lia. }
    rewrite (E i u ltac:(lia) I), (E j v B J). apply qn_lt. exact IJ.
  - intros k K. do 6 (destruct k as [|k]; [eexists; split; [reflexivity|]; cbn; f_equal; apply Qc_is_canon; vm_compute; reflexivity|]). lia.
  - intros k K. do 13 (destruct k as [|k]; [try (exfalso; lia); eexists; (split; [reflexivity|cbn; f_equal; apply Qc_is_canon; vm_compute; reflexivity])|]). lia.
Qed.
(** Cells whose two largest hold three quarters. *)
Example ex_largest : largest 2 (concat [[qq 1 8; qq 1 2]; [qq 1 4; qq 1 8]]) [qq 1 2; qq 1 4] /\ sum [qq 1 2; qq 1 4] = qq 3 4.
Proof.
  split; [|apply Qc_is_canon; vm_compute; reflexivity]. split; [reflexivity|]. exists [qq 1 8; qq 1 8]. split.
  - cbn [concat app]. apply Permutation_sym. apply perm_trans with (qq 1 2 :: qq 1 8 :: [qq 1 4; qq 1 8]); [constructor|]. apply perm_skip. constructor.
  - intros u v [<-|[<-|[]]] [<-|[<-|[]]]; apply qleb_true; vm_compute; reflexivity.
Qed.
(** The density fit of the same profile raised by 7: its right edge is in bin 8,
    and the zero of the line there is at 82/9. *)
Example ex_density :
  foot_tangent_fit_density (map (fun v => 1 * v + qz 7) ex_profile) (map qn (seq 0 12)) (qq 3 20) =
  Ok (qn 9 + (qq 82 9 + qq 3 5 + (qq 82 9 - qn 8) / qz 5 - qn 9) * (qn 10 - qn 9)).
Proof.
  rewrite (C57_density_invariant_lem ex_profile (map qn (seq 0 12)) (qq 3 20) 1 (qz 7)) by reflexivity.
  assert (E : map (fun v => v - 0) ex_profile = ex_profile) by (cbn; repeat (f_equal; [apply Qc_is_canon; vm_compute; reflexivity|]); reflexivity).
  apply (C57_density_value_lem ex_profile (map qn (seq 0 12)) (qq 3 20) 0 8 (- qz 9) (qq 82 9) 9 (qn 9) (qn 10)); try rewrite E.
  - reflexivity.
  - reflexivity.
  - split; [left; apply Qc_is_canon; vm_compute; reflexivity|]. intros v V.
    repeat (destruct V as [<-|V]; [apply qleb_true; vm_compute; reflexivity|]). destruct V.
  - exact (proj1 ex_right).
  - lia.
  - exact (proj2 ex_right).
  - discriminate.
  - apply qleb_true. vm_compute. reflexivity.
  - apply qltb_true. vm_compute. reflexivity.
  - reflexivity.
  - reflexivity.
Qed.
(*XE*)
