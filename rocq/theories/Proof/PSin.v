(** Accuracy of the fast sine. *)
From Coq Require Import Reals QArith Qreals List ZArith Bool Lia Lra Psatz.
From Verif Require Import Base.RLib Model.MSin Spec.SineSpec Proof.PPoly.
Import ListNotations.
Local Open Scope R_scope.

(** ** Steps of a computation with rounding *)
Section Steps.
Variables (rnd : R -> R) (U E : R).
Hypothesis HU : 0 <= U.
Hypothesis HE : 0 <= E.
Hypothesis Hr : forall t, Rabs (rnd t - t) <= U * Rabs t + E.

Lemma near_abs : forall a A e M, Rabs (a - A) <= e -> Rabs A <= M -> Rabs a <= M + e.
Proof. intros a A e M H1 H2. replace a with ((a - A) + A) by lra. eapply Rle_trans; [apply Rabs_triang|]. lra. Qed.
Lemma step_rnd : forall a A e M f, Rabs (a - A) <= e -> Rabs A <= M -> e + U * (M + e) + E <= f -> Rabs (rnd a - A) <= f.
Proof.
  intros a A e M f H1 H2 H. replace (rnd a - A) with ((rnd a - a) + (a - A)) by lra.
  eapply Rle_trans; [apply Rabs_triang|]. assert (K := Hr a). assert (L := near_abs a A e M H1 H2). nra.
Qed.
Lemma step_lit : forall c M f, Rabs c <= M -> U * M + E <= f -> Rabs (rnd c - c) <= f.
Proof. intros c M f H1 H2. assert (K := Hr c). nra. Qed.
Lemma step_add : forall a A ea b B eb M f, Rabs (a - A) <= ea -> Rabs (b - B) <= eb -> Rabs (A + B) <= M ->
  (ea + eb) + U * (M + (ea + eb)) + E <= f -> Rabs (rnd (a + b) - (A + B)) <= f.
Proof.
  intros. apply (step_rnd _ _ (ea + eb) M); auto. replace (a + b - (A + B)) with ((a - A) + (b - B)) by lra.
  eapply Rle_trans; [apply Rabs_triang|]. lra.
Qed.
Lemma step_sub : forall a A ea b B eb M f, Rabs (a - A) <= ea -> Rabs (b - B) <= eb -> Rabs (A - B) <= M ->
  (ea + eb) + U * (M + (ea + eb)) + E <= f -> Rabs (rnd (a - b) - (A - B)) <= f.
Proof.
  intros. apply (step_rnd _ _ (ea + eb) M); auto. replace (a - b - (A - B)) with ((a - A) + - (b - B)) by lra.
  eapply Rle_trans; [apply Rabs_triang|]. rewrite Rabs_Ropp. lra.
Qed.
Lemma mul_near : forall a A ea MA b B eb MB, Rabs (a - A) <= ea -> Rabs A <= MA -> Rabs (b - B) <= eb -> Rabs B <= MB ->
  Rabs (a * b - A * B) <= ea * (MB + eb) + MA * eb.
Proof.
  intros a A ea MA b B eb MB H1 H2 H3 H4. replace (a * b - A * B) with ((a - A) * b + A * (b - B)) by ring.
  eapply Rle_trans; [apply Rabs_triang|]. rewrite !Rabs_mult. assert (L := near_abs b B eb MB H3 H4).
  assert (P1 := Rabs_pos (a - A)). assert (P2 := Rabs_pos A). assert (P3 := Rabs_pos b). assert (P4 := Rabs_pos (b - B)).
  apply Rplus_le_compat; apply Rmult_le_compat; auto.
Qed.
Lemma step_mul : forall a A ea MA b B eb MB f, Rabs (a - A) <= ea -> Rabs A <= MA -> Rabs (b - B) <= eb -> Rabs B <= MB ->
  (ea * (MB + eb) + MA * eb) + U * (MA * MB + (ea * (MB + eb) + MA * eb)) + E <= f -> Rabs (rnd (a * b) - A * B) <= f.
Proof.
  intros a A ea MA b B eb MB f H1 H2 H3 H4 H. apply (step_rnd _ _ (ea * (MB + eb) + MA * eb) (MA * MB)); auto.
  - apply mul_near; auto.
  - rewrite Rabs_mult. apply Rmult_le_compat; auto; apply Rabs_pos.
Qed.
(** One coefficient of Horner's scheme. *)
Lemma step_horner : forall p P e M x X ex MX c MC f g h N, Rabs (p - P) <= e -> Rabs P <= M -> Rabs (x - X) <= ex -> Rabs X <= MX -> Rabs c <= MC ->
  Rabs (P * X + c) <= N ->
  (e * (MX + ex) + M * ex) + U * (M * MX + (e * (MX + ex) + M * ex)) + E <= f -> U * MC + E <= g ->
  (f + g) + U * (N + (f + g)) + E <= h -> Rabs (rnd (rnd (p * x) + rnd c) - (P * X + c)) <= h.
Proof.
  intros. eapply step_add; [eapply step_mul; eauto|eapply step_lit; eauto|eauto|eauto].
Qed.
End Steps.

(** ** The polynomials *)
Definition common : Z := (10 ^ 31 * Zpos (pfact 23) * 128 ^ 11)%Z.
Definition Psin : list Q :=
  [1%Q; (-166666666666666307295 # 1000000000000000000000)%Q; (833333333332211858878 # 100000000000000000000000)%Q;
   (-198412698295895385996 # 1000000000000000000000000)%Q; (275573136213857245213 # 100000000000000000000000000)%Q;
   (-250507477628578072866 # 10000000000000000000000000000)%Q; (158962301576546568060 # 1000000000000000000000000000000)%Q].
Definition Pcos : list Q :=
  [1%Q; (-1 # 2)%Q; (416666666666665929218 # 10000000000000000000000)%Q; (-138888888888730564116 # 100000000000000000000000)%Q;
   (248015872888517045348 # 10000000000000000000000000)%Q; (-275573141792967388112 # 1000000000000000000000000000)%Q;
   (208757008419747316778 # 100000000000000000000000000000)%Q; (-113585365213876817300 # 10000000000000000000000000000000)%Q].

Ltac num := unfold Q2R; cbn [Qnum Qden]; try lra.
Lemma Psin_near : forall z, Rabs z <= 0.7855 -> Rabs (z * peval Psin (z ^ 2) - sin z) <= 2E-17.
Proof.
  assert (P : forall z, 0 <= z <= 0.7855 -> Rabs (z * peval Psin (z ^ 2) - sin z) <= 2E-17).
  { intros z Hz. apply Rle_trans with (z * Q2R (2 # 100000000000000000)).
    - apply (sin_near Psin 128 common _ 4 40); [lia|vm_compute; reflexivity|vm_compute; reflexivity|lra|].
      rewrite INR_IZR_INZ. cbn. nra.
    - num. }
  intros z Hz. destruct (Rle_lt_dec 0 z) as [L|L].
  - apply P. rewrite Rabs_right in Hz by lra. lra.
  - rewrite Rabs_left in Hz by lra. specialize (P (- z) ltac:(lra)). rewrite sin_neg in P.
    replace ((- z) ^ 2) with (z ^ 2) in P by ring.
    replace (- z * peval Psin (z ^ 2) - - sin z) with (- (z * peval Psin (z ^ 2) - sin z)) in P by ring. rewrite Rabs_Ropp in P. auto.
Qed.
Lemma Pcos_near : forall z, Rabs z <= 0.7855 -> Rabs (peval Pcos (z ^ 2) - cos z) <= 2E-17.
Proof.
  intros z Hz. apply Rabs_inv in Hz. apply Rle_trans with (Q2R (2 # 100000000000000000)); [|num].
  apply (cos_near Pcos 128 common _ 4 40); [lia|vm_compute; reflexivity|vm_compute; reflexivity|lra|].
  rewrite INR_IZR_INZ. cbn. nra.
Qed.

(** ** Double precision *)
Section Double64.
Variable rnd : R -> R.
Hypothesis Hr : forall t, Rabs (rnd t - t) <= 1.2E-16 * Rabs t + 1E-30.
Let HU : 0 <= 1.2E-16. Proof. lra. Qed.
Let HE : 0 <= 1E-30. Proof. lra. Qed.
Let lit c M f := step_lit rnd _ _ HU Hr c M f.
Let add a A ea b B eb M f := step_add rnd _ _ HU Hr a A ea b B eb M f.
Let sub a A ea b B eb M f := step_sub rnd _ _ HU Hr a A ea b B eb M f.
Let mul a A ea MA b B eb MB f := step_mul rnd _ _ HU Hr a A ea MA b B eb MB f.
Let hor p P e M x X ex MX c MC f g h N := step_horner rnd _ _ HU Hr p P e M x X ex MX c MC f g h N.

Ltac bound := apply Rabs_le; nra.
Ltac number := apply Rabs_le; lra.

Lemma pw : forall a A b B, 0 <= a <= A -> 0 <= b <= B -> 0 <= a * b <= A * B.
Proof. intros a A b B Ha Hb. split; [apply Rmult_le_pos; lra|apply Rmult_le_compat; lra]. Qed.

Section Poly.
Variables z x X : R.
Hypothesis HX : 0 <= X <= 0.61686.
Hypothesis Hx : Rabs (x - X) <= 7.5E-17.
Let AX : Rabs X <= 0.61686. Proof. apply Rabs_le. lra. Qed.

Lemma sin_px_near : Rabs (get_sin_px rnd x - (((((C1sin * X + -2.50507477628578072866E-8) * X + 2.75573136213857245213E-6) * X
    + -1.98412698295895385996E-4) * X + 8.33333333332211858878E-3) * X + -1.66666666666666307295E-1)) <= 4.4E-17.
Proof.
  unfold get_sin_px, horner, sin_coefs. cbn [fold_left].
  set (P1 := C1sin * X + -2.50507477628578072866E-8). set (P2 := P1 * X + 2.75573136213857245213E-6).
  set (P3 := P2 * X + -1.98412698295895385996E-4). set (P4 := P3 * X + 8.33333333332211858878E-3).
  assert (B0 : Rabs C1sin <= 1.6E-10) by (unfold C1sin; number).
  assert (B1 : -2.51E-8 <= P1 <= -2.49E-8) by (unfold P1, C1sin; lra).
  assert (B2 : 2.74E-6 <= P2 <= 2.76E-6) by (unfold P2; nra).
  assert (B3 : -1.99E-4 <= P3 <= -1.96E-4) by (unfold P3; nra).
  assert (B4 : 8.2E-3 <= P4 <= 8.34E-3) by (unfold P4; nra).
  assert (A1 : Rabs P1 <= 2.51E-8) by number. assert (A2 : Rabs P2 <= 2.76E-6) by number.
  assert (A3 : Rabs P3 <= 1.99E-4) by number. assert (A4 : Rabs P4 <= 8.34E-3) by number.
  eapply (hor _ P4 2.1E-18 8.34E-3 _ X 7.5E-17 0.61686 _ 0.16667 2.6E-18 2.01E-17 _ 0.16667); auto; try lra; try number; try bound.
  eapply (hor _ P3 5E-20 1.99E-4 _ X 7.5E-17 0.61686 _ 8.34E-3 6.2E-20 1.01E-18 _ 8.34E-3); try exact A4; try exact A3; try exact A2; try exact A1; auto; try lra; try number.
  eapply (hor _ P2 7.5E-22 2.76E-6 _ X 7.5E-17 0.61686 _ 1.99E-4 9.1E-22 2.4E-20 _ 1.99E-4); try exact A4; try exact A3; try exact A2; try exact A1; auto; try lra; try number.
  eapply (hor _ P1 1E-23 2.51E-8 _ X 7.5E-17 0.61686 _ 2.76E-6 1.1E-23 3.4E-22 _ 2.76E-6); try exact A4; try exact A3; try exact A2; try exact A1; auto; try lra; try number.
  eapply (hor _ C1sin 2E-26 1.6E-10 _ X 7.5E-17 0.61686 _ 2.51E-8 5E-26 3.1E-24 _ 2.51E-8); try exact A4; try exact A3; try exact A2; try exact A1; auto; try lra; try number.
  eapply lit; [exact B0|lra].
Qed.

Lemma cos_px_near : Rabs (get_cos_px rnd x - (((((C1cos * X + 2.08757008419747316778E-9) * X + -2.75573141792967388112E-7) * X
    + 2.48015872888517045348E-5) * X + -1.38888888888730564116E-3) * X + 4.16666666666665929218E-2)) <= 1.1E-17.
Proof.
  unfold get_cos_px, horner, cos_coefs. cbn [fold_left].
  set (P1 := C1cos * X + 2.08757008419747316778E-9). set (P2 := P1 * X + -2.75573141792967388112E-7).
  set (P3 := P2 * X + 2.48015872888517045348E-5). set (P4 := P3 * X + -1.38888888888730564116E-3).
  assert (B0 : Rabs C1cos <= 1.14E-11) by (unfold C1cos; number).
  assert (B1 : 2.0E-9 <= P1 <= 2.1E-9) by (unfold P1, C1cos; lra).
  assert (B2 : -2.76E-7 <= P2 <= -2.74E-7) by (unfold P2; nra).
  assert (B3 : 2.46E-5 <= P3 <= 2.49E-5) by (unfold P3; nra).
  assert (B4 : -1.39E-3 <= P4 <= -1.37E-3) by (unfold P4; nra).
  assert (A1 : Rabs P1 <= 2.1E-9) by number. assert (A2 : Rabs P2 <= 2.76E-7) by number.
  assert (A3 : Rabs P3 <= 2.49E-5) by number. assert (A4 : Rabs P4 <= 1.39E-3) by number.
  eapply (hor _ P4 3.6E-19 1.39E-3 _ X 7.5E-17 0.61686 _ 0.0417 4.4E-19 5.01E-18 _ 0.0417); auto; try lra; try number; try bound.
  eapply (hor _ P3 6.5E-21 2.49E-5 _ X 7.5E-17 0.61686 _ 1.39E-3 8E-21 1.68E-19 _ 1.39E-3); try exact A4; auto; try lra; try number.
  eapply (hor _ P2 7.2E-23 2.76E-7 _ X 7.5E-17 0.61686 _ 2.49E-5 9E-23 3E-21 _ 2.49E-5); try exact A3; auto; try lra; try number.
  eapply (hor _ P1 6E-25 2.1E-9 _ X 7.5E-17 0.61686 _ 2.76E-7 2E-24 3.4E-23 _ 2.76E-7); try exact A2; auto; try lra; try number.
  eapply (hor _ C1cos 3E-27 1.14E-11 _ X 7.5E-17 0.61686 _ 2.1E-9 6E-27 2.6E-25 _ 2.1E-9); try exact A1; auto; try lra; try number.
  eapply lit; [exact B0|lra].
Qed.
End Poly.

Lemma m45_near : forall z, Rabs z <= 0.7854 ->
  Rabs (fst (fast_sincos_m45_45 rnd z) - sin z) <= 2E-16 /\ Rabs (snd (fast_sincos_m45_45 rnd z) - cos z) <= 5.2E-16.
Proof.
  intros z Hz. set (X := z * z). assert (HX : 0 <= X <= 0.61686). { unfold X. apply Rabs_inv in Hz. split; nra. }
  set (x := rnd (z * z)). assert (Hx : Rabs (x - X) <= 7.5E-17).
  { unfold x. apply (mul z z 0 0.7854 z z 0 0.7854); try lra; rewrite Rminus_eq_0, Rabs_R0; lra. }
  assert (AX : Rabs X <= 0.61686) by number.
  assert (Z0 : Rabs (z - z) <= 0) by (rewrite Rminus_eq_0, Rabs_R0; lra).
  assert (SP := sin_px_near x X HX Hx). assert (CP := cos_px_near x X HX Hx).
  match type of SP with Rabs (_ - ?e) <= _ => set (P := e) in * end.
  match type of CP with Rabs (_ - ?e) <= _ => set (Pc := e) in * end.
  assert (BP : -0.1668 <= P <= -0.16).
  { unfold P, C1sin. assert (Q2 := pw _ _ _ _ HX HX). assert (Q3 := pw _ _ _ _ Q2 HX). assert (Q4 := pw _ _ _ _ Q3 HX). assert (Q5 := pw _ _ _ _ Q4 HX). lra. }
  assert (BC : 0.04 <= Pc <= 0.0417).
  { unfold Pc, C1cos. assert (Q2 := pw _ _ _ _ HX HX). assert (Q3 := pw _ _ _ _ Q2 HX). assert (Q4 := pw _ _ _ _ Q3 HX). assert (Q5 := pw _ _ _ _ Q4 HX). lra. }
  assert (ES : z + z * X * P = z * peval Psin (z ^ 2)).
  { unfold P, X, C1sin, Psin. cbn [peval]. num. }
  assert (EC : 1 - X * 0.5 + X * X * Pc = peval Pcos (z ^ 2)).
  { unfold Pc, X, C1cos, Pcos. cbn [peval]. num. }
  unfold fast_sincos_m45_45. cbn [fst snd]. fold x.
  assert (NS := Psin_near z ltac:(lra)). assert (NC := Pcos_near z ltac:(lra)). rewrite <- ES in NS. rewrite <- EC in NC.
  assert (SB := SIN_bound z). assert (CB := COS_bound z). apply Rabs_inv in NS. apply Rabs_inv in NC.
  split.
  - assert (K : Rabs (rnd (z + rnd (rnd (z * x) * get_sin_px rnd x)) - (z + z * X * P)) <= 1.8E-16).
    { apply (add z z 0 _ (z * X * P) 5.3E-17 1.01); auto; try lra; [|apply Rabs_le; lra].
      apply (mul _ (z * X) 1.2E-16 0.4845 _ P 4.4E-17 0.1668); auto; try lra; try number.
      - apply (mul z z 0 0.7854 x X 7.5E-17 0.61686); auto; lra.
      - rewrite Rabs_mult. assert (P1 := Rabs_pos z). assert (P2 := Rabs_pos X). nra. }
    apply Rabs_inv in K. apply Rabs_le. lra.
  - assert (K : Rabs (rnd (rnd (rnd 1 - rnd (x * rnd 0.5)) + rnd (rnd (x * x) * get_cos_px rnd x)) - ((1 - X * 0.5) + X * X * Pc)) <= 5E-16).
    { apply (add _ (1 - X * 0.5) 3.6E-16 _ (X * X * Pc) 1.3E-17 1.01); auto; try lra; [| |apply Rabs_le; lra].
      - apply (sub _ 1 1.21E-16 _ (X * 0.5) 1.16E-16 1); try lra; [apply (lit 1 1); [number|lra]| |number].
        apply (mul x X 7.5E-17 0.61686 _ 0.5 6.1E-17 0.5); auto; try lra; [apply (lit 0.5 0.5); [number|lra]|number].
      - apply (mul _ (X * X) 1.41E-16 0.3806 _ Pc 1.1E-17 0.0417); auto; try lra; try number; [|apply Rabs_le; nra].
        apply (mul x X 7.5E-17 0.61686 x X 7.5E-17 0.61686); auto; lra. }
    apply Rabs_inv in K. apply Rabs_le. lra.
Qed.
End Double64.
