(** Lemmas on the line of least squares and the tangents at the feet. *)
From Coq Require Import List ZArith Bool QArith Qcanon Lia.
From Verif Require Import Base.Res Base.ResLemmas Base.QcLib Base.QcLemmas Base.Loops Model.MRecon Model.MParticles Model.MPreproc
  Model.MFoot Model.MFit Spec.FitSpec Proof.PPreproc Proof.PFoot Proof.CPreproc.
Import ListNotations.
Local Open Scope Qc_scope.

(** Sums over points. *)
Definition Sx (p : list (Qc * Qc)) := qsum (map fst p).
Definition Sy (p : list (Qc * Qc)) := qsum (map snd p).
Definition Sxx (p : list (Qc * Qc)) := qsum (map (fun a => a * a) (map fst p)).
Definition Sxy (p : list (Qc * Qc)) := qsum (map (fun q => fst q * snd q) p).
Definition Syy (p : list (Qc * Qc)) := qsum (map (fun q => snd q * snd q) p).
Definition spread (p : list (Qc * Qc)) := qn (length p) * Sxx p - Sx p * Sx p.

Lemma combine_split_pts : forall p : list (Qc * Qc), combine (map fst p) (map snd p) = p.
Proof. induction p as [|[a b] p IH]; cbn; congruence. Qed.

Lemma qn_S_add n : qn (S n) = qn n + 1.
Proof. replace (S n) with (n + 1)%nat by lia. rewrite qn_add. reflexivity. Qed.

Lemma mult_reg (c x y : Qc) : c <> 0 -> c * x = c * y -> x = y.
Proof. intros N E. replace x with (c * x / c) by (field; auto). rewrite E. field. auto. Qed.

Lemma sq_nonneg (u : Qc) : 0 <= u * u. Proof. qcnra. Qed.
Lemma add_nonneg (u v : Qc) : 0 <= u -> 0 <= v -> 0 <= u + v. Proof. intros. qclra. Qed.

Lemma squares_expand b a p : squares b a p =
  Syy p - (1 + 1) * b * Sxy p - (1 + 1) * a * Sy p + b * b * Sxx p + (1 + 1) * a * b * Sx p + qn (length p) * a * a.
Proof.
  unfold squares, Syy, Sxy, Sy, Sxx, Sx. induction p as [|[x y] p IH]; cbn [map qsum length fst snd].
  - change (qn 0) with 0. ring.
  - rewrite IH, qn_S_add. ring.
Qed.
Lemma quad_nonneg b a p : 0 <= b * b * Sxx p + (1 + 1) * a * b * Sx p + qn (length p) * a * a.
Proof.
  unfold Sxx, Sx. induction p as [|[x y] p IH]; cbn [map qsum length fst snd].
  - change (qn 0) with 0. match goal with |- 0 <= ?e => replace e with 0 by ring end. apply Qcle_refl.
  - rewrite qn_S_add. assert (SQ : 0 <= (b * x + a) * (b * x + a)) by apply sq_nonneg.
    match goal with |- 0 <= ?e => replace e with ((b * x + a) * (b * x + a) + (b * b * qsum (map (fun a0 => a0 * a0) (map fst p)) +
      (1 + 1) * a * b * qsum (map fst p) + qn (length p) * a * a)) by ring end.
    apply add_nonneg; assumption.
Qed.

(** The line of least squares solves the normal equations and is best. *)
Lemma polyfit_ok p : (0 < length p)%nat -> spread p <> 0 ->
  exists b a, polyfit1 (map fst p) (map snd p) = Ok (b, a) /\
    b * spread p = qn (length p) * Sxy p - Sx p * Sy p /\ b * Sx p + qn (length p) * a = Sy p.
Proof.
  intros L N. unfold polyfit1. rewrite !map_length, Nat.eqb_refl. cbn [negb]. cbv zeta. rewrite combine_split_pts.
  fold (Sx p) (Sy p) (Sxx p) (Sxy p). fold (spread p). rewrite qdiv_ok by exact N. cbn [bind].
  assert (P : qn (length p) <> 0) by (apply Qclt_ne, qn_pos; lia).
  rewrite qdiv_ok by exact P. cbn [bind]. do 2 eexists. split; [reflexivity|]. split; field; auto.
Qed.
Lemma normal_best p b a : (0 < length p)%nat -> spread p <> 0 ->
  b * spread p = qn (length p) * Sxy p - Sx p * Sy p -> b * Sx p + qn (length p) * a = Sy p -> best_line b a p.
Proof.
  intros L N E1 E2 b' a'. rewrite !squares_expand.
  assert (P : qn (length p) <> 0) by (apply Qclt_ne, qn_pos; lia).
  assert (E3 : b * Sxx p + a * Sx p = Sxy p).
  { apply (mult_reg (qn (length p))); auto. unfold spread in E1.
    replace (qn (length p) * (b * Sxx p + a * Sx p)) with
      (b * (qn (length p) * Sxx p - Sx p * Sx p) + Sx p * (b * Sx p + qn (length p) * a)) by ring.
    rewrite E1, E2. ring. }
  assert (Q := quad_nonneg (b' - b) (a' - a) p).
  rewrite <- E3, <- E2. 
  match goal with |- ?u <= ?v => assert (D : v - u = (b' - b) * (b' - b) * Sxx p + (1 + 1) * (a' - a) * (b' - b) * Sx p + qn (length p) * (a' - a) * (a' - a)) by ring;
    assert (G : 0 <= v - u) by (rewrite D; exact Q); revert G; generalize u v end.
  intros u v G. qclra.
Qed.

(** Points on a line. *)
Lemma polyfit_straight p s z b a : (0 < length p)%nat -> spread p <> 0 -> straight s z p ->
  b * spread p = qn (length p) * Sxy p - Sx p * Sy p -> b * Sx p + qn (length p) * a = Sy p -> b = s /\ a = - (s * z).
Proof.
  intros L N H E1 E2.
  assert (P : qn (length p) <> 0) by (apply Qclt_ne, qn_pos; lia).
  assert (F1 : Sy p = s * (Sx p - qn (length p) * z)).
  { clear - H. unfold Sy, Sx. induction H as [|[x y] p E _ IH]; cbn [map qsum length fst snd] in *.
    - change (qn 0) with 0. ring. - rewrite IH, E, qn_S_add. ring. }
  assert (F2 : Sxy p = s * (Sxx p - z * Sx p)).
  { clear - H. unfold Sxy, Sxx, Sx. induction H as [|[x y] p E _ IH]; cbn [map qsum length fst snd] in *.
    - ring. - rewrite IH, E. ring. }
  assert (B : b = s).
  { apply (mult_reg (spread p)); auto. rewrite (Qcmult_comm _ b), E1, F1, F2. unfold spread. ring. }
  split; [exact B|]. subst b. apply (mult_reg (qn (length p))); auto.
  replace (qn (length p) * a) with (Sy p - s * Sx p) by (rewrite <- E2; ring). rewrite F1. ring.
Qed.

(** Neighbouring bins are spread. *)
Lemma points_fst prof a n : map fst (points prof a n) = map (fun k => qn k + qq 1 2) (seq a n).
Proof. unfold points. rewrite map_map. reflexivity. Qed.
Lemma points_snd prof a n : map snd (points prof a n) = map (fun k => nth k prof 0) (seq a n).
Proof. unfold points. rewrite map_map. reflexivity. Qed.
Lemma points_length prof a n : length (points prof a n) = n.
Proof. unfold points. rewrite map_length, seq_length. reflexivity. Qed.
Lemma points_spread prof a n : (n = 3 \/ n = 4)%nat -> spread (points prof a n) <> 0.
Proof.
  intros H. unfold spread, Sxx, Sx. rewrite points_fst, points_length.
  destruct H as [-> | ->]; cbn [seq map qsum]; rewrite !qn_S_add; generalize (qn a); intros c;
    [replace (qn 3) with (1 + 1 + 1) by (apply Qc_is_canon; reflexivity)|replace (qn 4) with (1 + 1 + 1 + 1) by (apply Qc_is_canon; reflexivity)];
    match goal with |- ?e <> 0 => ring_simplify e end; discriminate.
Qed.

(** The slices are the points. *)
Lemma map_seq_tab {A} (f : nat -> A) a n : map f (seq a n) = tab n (fun i => f (a + i)%nat).
Proof.
  unfold tab. revert a. induction n as [|n IH]; intros a; [reflexivity|]. cbn [seq map]. rewrite Nat.add_0_r. f_equal.
  rewrite IH, <- seq_shift, map_map. apply map_ext. intros i. f_equal. lia.
Qed.
Lemma slice_points prof (a b n : nat) z : (a <= length prof)%nat -> z = Z.of_nat b -> (a <= b)%nat ->
  n = (Nat.min b (length prof) - a)%nat ->
  slice (tab (length prof) (fun i => qn i + qq 1 2)) (Z.of_nat a) z = map fst (points prof a n) /\
  slice prof (Z.of_nat a) z = map snd (points prof a n).
Proof.
  intros A -> B ->.
  assert (E : forall (f : nat -> Qc), slice (tab (length prof) f) (Z.of_nat a) (Z.of_nat b) =
    map f (seq a (Nat.min b (length prof) - a))).
  { intros f. rewrite (slice_tab _ _ f _ _ a (Nat.min b (length prof))).
    - symmetry. apply map_seq_tab.
    - rewrite pyidx_nonneg by lia. lia.
    - unfold pyidx. destruct (Z.ltb_spec (Z.of_nat b) 0); lia.
    - lia. }
  split.
  - rewrite E, points_fst. reflexivity.
  - rewrite <- (tab_nth prof 0) at 1. rewrite E, points_snd. reflexivity.
Qed.

(** The feet, given the tangent bins. *)
Lemma feet_fit prof up low : calc_tangentbins prof = Ok (Z.of_nat up, Z.of_nat low) ->
  (2 <= low)%nat -> (low <= up)%nat -> (up + 1 < length prof)%nat ->
  let P := points prof (low - 2) 4 in let U := points prof (up - 1) (Nat.min 4 (length prof + 1 - up)) in
  spread P <> 0 /\ spread U <> 0 /\ (0 < length P)%nat /\ (0 < length U)%nat /\
  exists bl al bu au, polyfit1 (map fst P) (map snd P) = Ok (bl, al) /\ polyfit1 (map fst U) (map snd U) = Ok (bu, au) /\
    (bl * spread P = qn (length P) * Sxy P - Sx P * Sy P /\ bl * Sx P + qn (length P) * al = Sy P) /\
    (bu * spread U = qn (length U) * Sxy U - Sx U * Sy U /\ bu * Sx U + qn (length U) * au = Sy U) /\
    calc_tangentfeet prof = (fl <- qdiv (qz (-1) * al) bl ;; fu <- qdiv (qz (-1) * au) bu ;; Ok (fu, fl)).
Proof.
  intros E H1 H2 H3 P U.
  assert (SP : spread P <> 0) by (apply points_spread; lia).
  assert (SU : spread U <> 0) by (apply points_spread; lia).
  assert (LP : (0 < length P)%nat) by (unfold P; rewrite points_length; lia).
  assert (LU : (0 < length U)%nat) by (unfold U; rewrite points_length; lia).
  destruct (polyfit_ok P LP SP) as (bl & al & El & N1 & N2). destruct (polyfit_ok U LU SU) as (bu & au & Eu & N3 & N4).
  repeat (split; [assumption|]). exists bl, al, bu, au. repeat (split; [auto; fail|]).
  unfold calc_tangentfeet. rewrite E. cbn [bind].
  destruct (slice_points prof (low - 2) (low + 2) 4 (Z.of_nat low + 2)%Z) as [A1 A2]; try lia.
  destruct (slice_points prof (up - 1) (up + 3) (Nat.min 4 (length prof + 1 - up)) (Z.of_nat up + 3)%Z) as [A3 A4]; try lia.
  replace (Z.of_nat low - 2)%Z with (Z.of_nat (low - 2)) by lia. replace (Z.of_nat up - 1)%Z with (Z.of_nat (up - 1)) by lia.
  rewrite A1, A2, A3, A4. fold P U. rewrite El. cbn [bind]. rewrite Eu. reflexivity.
Qed.

(** Scaling. *)
Lemma find_ext' {A} (f g : A -> bool) l : (forall x, f x = g x) -> find f l = find g l.
Proof. intros H. induction l as [|x l IH]; [reflexivity|]. cbn [find]. rewrite H, IH. reflexivity. Qed.
Lemma qltb_scale c a b : 0 < c -> qltb (c * a) (c * b) = qltb a b.
Proof. intros H. destruct (qltb_spec a b); [apply qltb_true|apply qltb_false]; qcnra. Qed.
Lemma qmaximum_scale c l : 0 < c -> qmaximum (map (Qcmult c) l) = (m <- qmaximum l ;; Ok (c * m)).
Proof.
  intros H. destruct l as [|x l]; [reflexivity|]. cbn [map qmaximum bind]. f_equal. revert x.
  induction l as [|y l IH]; intros x; [reflexivity|]. cbn [map fold_left]. rewrite qltb_scale by exact H. destruct (qltb x y); apply IH.
Qed.
Lemma qargmax_scale c l : 0 < c -> qargmax (map (Qcmult c) l) = qargmax l.
Proof.
  intros H. destruct l as [|x l]; [reflexivity|]. cbn [map qargmax]. f_equal.
  enough (G : forall l x k best, argmax_from (map (Qcmult c) l) k best (c * x) = argmax_from l k best x) by apply G. clear l x.
  induction l as [|y l IH]; intros x k best; [reflexivity|]. cbn [map argmax_from]. rewrite qltb_scale by exact H. destruct (qltb x y); apply IH.
Qed.
Lemma tangentbins_scale c l : 0 < c -> calc_tangentbins (map (Qcmult c) l) = calc_tangentbins l.
Proof.
  intros H. unfold calc_tangentbins. rewrite qmaximum_scale, qargmax_scale, map_length by exact H.
  destruct (qmaximum l) as [m|]; [|reflexivity]. cbn [bind]. destruct (qargmax l) as [k|]; [|reflexivity]. cbn [bind].
  assert (B : forall i, qltb (nth i (map (Qcmult c) l) 0) (qq 3 20 * (c * m)) = qltb (nth i l 0) (qq 3 20 * m)).
  { intros i. rewrite <- (qltb_scale c (nth i l 0)) by exact H.
    replace (nth i (map (Qcmult c) l) 0) with (c * nth i l 0); [f_equal; ring|].
    replace 0 with (c * 0) at 2 by ring. symmetry. apply (map_nth (Qcmult c)). }
  rewrite (find_ext' _ _ (seq k (length l - k)) B), (find_ext' _ _ (rev (seq 1 k)) B). reflexivity.
Qed.
Lemma qsum_scale_l c l : qsum (map (Qcmult c) l) = c * qsum l.
Proof. induction l as [|x l IH]; cbn [map qsum]; [ring|rewrite IH; ring]. Qed.
Lemma polyfit_scale c x y : polyfit1 x (map (Qcmult c) y) = (r <- polyfit1 x y ;; Ok (c * fst r, c * snd r)).
Proof.
  unfold polyfit1. rewrite map_length. destruct (length x =? length y)%nat; [|reflexivity]. cbn [negb]. cbv zeta.
  rewrite qsum_scale_l.
  replace (qsum (map (fun p => fst p * snd p) (combine x (map (Qcmult c) y)))) with (c * qsum (map (fun p => fst p * snd p) (combine x y))).
  2:{ revert y. induction x as [|a x IH]; intros [|b y]; cbn [combine map qsum]; try ring. rewrite <- IH. cbn [fst snd]. ring. }
  set (n := qn (length x)). set (s := qsum x). set (t := qsum y). set (xy := qsum (map _ (combine x y))). set (xx := qsum (map _ x)).
  destruct (Qc_eq_dec (n * xx - s * s) 0) as [E|N]; [rewrite E, !qdiv_zero; reflexivity|].
  rewrite !qdiv_ok by exact N. cbn [bind].
  destruct (Qc_eq_dec n 0) as [E|N']; [rewrite E, !qdiv_zero; reflexivity|].
  rewrite !qdiv_ok by exact N'. cbn [bind fst snd]. f_equal. f_equal; field; auto.
Qed.
Lemma qdiv_scale c a b : 0 < c -> qdiv (qz (-1) * (c * a)) (c * b) = qdiv (qz (-1) * a) b.
Proof.
  intros H. assert (C := Qclt_ne _ H). destruct (Qc_eq_dec b 0) as [->|N].
  - replace (c * 0) with 0 by ring. rewrite !qdiv_zero. reflexivity.
  - rewrite !qdiv_ok; [f_equal; field; auto| |]; auto. intro E. apply N. apply (mult_reg c); auto. rewrite E. ring.
Qed.
Lemma feet_scale c l : 0 < c -> calc_tangentfeet (map (Qcmult c) l) = calc_tangentfeet l.
Proof.
  intros H. unfold calc_tangentfeet. rewrite map_length, tangentbins_scale by exact H.
  destruct (calc_tangentbins l) as [[up low]|]; [|reflexivity]. cbn [bind]. rewrite !slice_map, !polyfit_scale.
  destruct (polyfit1 _ (slice l (low - 2) _)) as [[bl al]|]; [|reflexivity]. cbn [bind fst snd].
  destruct (polyfit1 _ (slice l (up - 1) _)) as [[bu au]|]; [|reflexivity]. cbn [bind fst snd].
  rewrite !qdiv_scale by exact H. reflexivity.
Qed.
