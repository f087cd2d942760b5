(** Accuracy of the fast sine in single precision. *)
From Coq Require Import Reals QArith Qreals List ZArith Bool Lia Lra Psatz.
From Verif Require Import Base.RLib Model.MSin Spec.SineSpec Proof.PPoly Proof.PSelf Proof.PSin Proof.PSin2.
Import ListNotations.
Local Open Scope R_scope.

Definition commonf : Z := (10 ^ 20 * Zpos (pfact 23) * 128 ^ 11)%Z.
Definition Psinf : list Q :=
  [1%Q; (-16666654611 # 100000000000)%Q; (83321608736 # 10000000000000)%Q; (-19515295891 # 100000000000000)%Q].
Definition Pcosf : list Q :=
  [1%Q; (-1 # 2)%Q; (4166664568298827 # 100000000000000000)%Q; (-1388731625493765 # 1000000000000000000)%Q;
   (2443315711809948 # 100000000000000000000)%Q].
Lemma Psinf_near : forall z, Rabs z <= 0.79 -> Rabs (z * peval Psinf (z ^ 2) - sin z) <= 5E-9.
Proof.
  assert (P : forall z, 0 <= z <= 0.79 -> Rabs (z * peval Psinf (z ^ 2) - sin z) <= 5E-9).
  { intros z Hz. apply Rle_trans with (z * Q2R (6 # 1000000000)).
    - apply (sin_near Psinf 128 commonf _ 4 40); [lia|vm_compute; reflexivity|vm_compute; reflexivity|lra|].
      rewrite INR_IZR_INZ. cbn. nra.
    - num. }
  intros z Hz. destruct (Rle_lt_dec 0 z) as [L|L].
  - apply P. rewrite Rabs_right in Hz by lra. lra.
  - rewrite Rabs_left in Hz by lra. specialize (P (- z) ltac:(lra)). rewrite sin_neg in P.
    replace ((- z) ^ 2) with (z ^ 2) in P by ring.
    replace (- z * peval Psinf (z ^ 2) - - sin z) with (- (z * peval Psinf (z ^ 2) - sin z)) in P by ring. rewrite Rabs_Ropp in P. auto.
Qed.
Lemma Pcosf_near : forall z, Rabs z <= 0.79 -> Rabs (peval Pcosf (z ^ 2) - cos z) <= 2E-10.
Proof.
  intros z Hz. apply Rabs_inv in Hz. apply Rle_trans with (Q2R (2 # 10000000000)); [|num].
  apply (cos_near Pcosf 128 commonf _ 4 40); [lia|vm_compute; reflexivity|vm_compute; reflexivity|lra|].
  rewrite INR_IZR_INZ. cbn. nra.
Qed.

Section Result32.
Variables rnd rndf : R -> R.
Hypothesis Hr : forall t, Rabs (rnd t - t) <= 1.2E-16 * Rabs t + 1E-30.
Hypothesis Hf : forall t, Rabs (rndf t - t) <= 6E-8 * Rabs t + 1E-30.
Let HU : 0 <= 6E-8. Proof. lra. Qed.
Let lit c M f := step_lit rndf _ _ HU Hf c M f.
Let add a A ea b B eb M f := step_add rndf _ _ HU Hf a A ea b B eb M f.
Let sub a A ea b B eb M f := step_sub rndf _ _ HU Hf a A ea b B eb M f.
Let mul a A ea MA b B eb MB f := step_mul rndf _ _ HU Hf a A ea MA b B eb MB f.
Ltac number := apply Rabs_le; lra.

Lemma m45f_near : forall x, Rabs x <= 0.79 ->
  Rabs (fst (fast_sincosf_m45_45 rndf x) - sin x) <= 9.2E-8 /\ Rabs (snd (fast_sincosf_m45_45 rndf x) - cos x) <= 2.1E-7.
Proof.
  intros x Hx. set (X := x * x). assert (HX : 0 <= X <= 0.6241). { unfold X. apply Rabs_inv in Hx. split; nra. }
  set (z := rndf (x * x)). assert (Z0 : Rabs (x - x) <= 0) by (rewrite Rminus_eq_0, Rabs_R0; lra).
  assert (Hz : Rabs (z - X) <= 3.8E-8). { unfold z. apply (mul x x 0 0.79 x x 0 0.79); auto; lra. }
  assert (AX : Rabs X <= 0.6241) by number.
  set (P1 := -1.9515295891E-4 * X + 8.3321608736E-3). set (P2 := P1 * X - 1.6666654611E-1).
  set (C1 := 2.443315711809948E-005 * X - 1.388731625493765E-003). set (C2 := C1 * X + 4.166664568298827E-002).
  assert (B1 : 8.2E-3 <= P1 <= 8.34E-3) by (unfold P1; lra). assert (B2 : -0.16667 <= P2 <= -0.16) by (unfold P2; split; nra).
  assert (D1 : -1.39E-3 <= C1 <= -1.37E-3) by (unfold C1; lra). assert (D2 : 0.04 <= C2 <= 0.0417) by (unfold C2; split; nra).
  assert (A1 : Rabs P1 <= 8.34E-3) by number. assert (A2 : Rabs P2 <= 0.16667) by number.
  assert (G1 : Rabs C1 <= 1.39E-3) by number. assert (G2 : Rabs C2 <= 0.0417) by number.
  assert (ES : P2 * X * x + x = x * peval Psinf (x ^ 2)) by (unfold P2, P1, X, Psinf; cbn [peval]; num).
  assert (EC : C2 * X * X - 0.5 * X + 1 = peval Pcosf (x ^ 2)) by (unfold C2, C1, X, Pcosf; cbn [peval]; num).
  assert (NS := Psinf_near x Hx). assert (NC := Pcosf_near x Hx). rewrite <- ES in NS. rewrite <- EC in NC.
  assert (SB := SIN_bound x). assert (CB := COS_bound x). apply Rabs_inv in NS. apply Rabs_inv in NC.
  unfold fast_sincosf_m45_45. cbn [fst snd]. fold z. split.
  - match goal with |- Rabs (?t - _) <= _ => assert (K : Rabs (t - (P2 * X * x + x)) <= 8.7E-8) end.
    { apply (add _ (P2 * X * x) 2.6E-8 _ x 0 1.01); auto; try lra; [|apply Rabs_le; lra].
      apply (mul _ (P2 * X) 2.6E-8 0.1041 _ x 0 0.79); auto; try lra.
      - apply (mul _ P2 2.13E-8 0.16667 _ X 3.8E-8 0.6241); auto; try lra. unfold P2.
        apply (sub _ (P1 * X) 1.28E-9 _ _ 1.001E-8 0.16667); auto; try lra.
        + apply (mul _ P1 1.03E-9 8.34E-3 _ X 3.8E-8 0.6241); auto; try lra. unfold P1.
          apply (add _ (-1.9515295891E-4 * X) 2.3E-11 _ _ 5.01E-10 8.34E-3); auto; try lra.
          * apply (mul _ _ 1.18E-11 1.96E-4 _ X 3.8E-8 0.6241); auto; try lra; [|number]. apply (lit _ 1.96E-4); [number|lra].
          * apply (lit _ 8.34E-3); [number|lra].
        + apply (lit _ 0.16667); [number|lra].
      - rewrite Rabs_mult. assert (Q1 := Rabs_pos P2). assert (Q2 := Rabs_pos X). apply Rle_trans with (0.16667 * 0.6241); [|lra].
        apply Rmult_le_compat; auto. }
    apply Rabs_inv in K. apply Rabs_le. lra.
  - match goal with |- Rabs (?t - _) <= _ => assert (K : Rabs (t - (C2 * X * X - 0.5 * X + 1)) <= 2.05E-7) end.
    { assert (XC : Rabs (C2 * X) <= 0.02603).
      { rewrite Rabs_mult. assert (Q1 := Rabs_pos C2). assert (Q2 := Rabs_pos X). apply Rle_trans with (0.0417 * 0.6241); [|lra]. apply Rmult_le_compat; auto. }
      assert (XX : 0 <= C2 * X * X <= 0.0163). { apply Rabs_inv in XC. assert (0 <= C2 * X) by (apply Rmult_le_pos; lra). split; nra. }
      apply (add _ (C2 * X * X - 0.5 * X) 8.3E-8 _ 1 6.1E-8 1.01); auto; try lra; [| |number].
      - apply (sub _ (C2 * X * X) 6.3E-9 _ (0.5 * X) 5.7E-8 0.32); auto; try lra; [| |number].
        + apply (mul _ (C2 * X) 6.5E-9 0.02603 _ X 3.8E-8 0.6241); auto; try lra.
          apply (mul _ C2 5.3E-9 0.0417 _ X 3.8E-8 0.6241); auto; try lra. unfold C2.
          apply (add _ (C1 * X) 2.2E-10 _ _ 2.51E-9 0.0417); auto; try lra; [|apply (lit _ 0.0417); [number|lra]].
          apply (mul _ C1 1.71E-10 1.39E-3 _ X 3.8E-8 0.6241); auto; try lra. unfold C1.
          apply (sub _ (2.443315711809948E-005 * X) 2.8E-12 _ _ 8.35E-11 1.39E-3); auto; try lra; [|apply (lit _ 1.39E-3); [number|lra]].
          apply (mul _ _ 1.48E-12 2.45E-5 _ X 3.8E-8 0.6241); auto; try lra; [|number]. apply (lit _ 2.45E-5); [number|lra].
        + apply (mul _ 0.5 3.01E-8 0.5 _ X 3.8E-8 0.6241); auto; try lra; [|number]. apply (lit _ 0.5); [number|lra].
      - apply (lit _ 1); [number|lra]. }
    apply Rabs_inv in K. apply Rabs_le. lra.
Qed.

Lemma oneopio4f_near : Rabs (ONEOPIO4F rnd rndf - 4 / PI) <= 7.65E-8.
Proof.
  assert (O := oneopio4_near rnd Hr). destruct four_pi as [F1 F2]. unfold ONEOPIO4F.
  apply (step_rnd rndf _ _ HU Hf _ _ 5E-16 1.2733); [exact O|number|lra].
Qed.
Lemma lit2 : forall c M f, Rabs c <= M -> 6.01E-8 * M + 2.1E-30 <= f -> Rabs (rndf (rnd c) - c) <= f.
Proof.
  intros c M f H1 H2. assert (P := Rabs_pos c). assert (Q : Rabs (rnd c - c) <= 1.2E-16 * M + 1E-30). { assert (J := Hr c). lra. }
  apply (step_rnd rndf _ _ HU Hf _ _ _ M _ Q H1). lra.
Qed.

Lemma reducef_near : forall x, Rabs x <= 1E4 -> exists m z, reduce2quadrantf rnd rndf x = Some (z, (2 * m)%Z) /\
  Rabs (z - (Rabs x - IZR m * (PI / 2))) <= 1.9E-7 * Rabs x + 3E-7 /\ Rabs z <= 0.79.
Proof.
  intros x. unfold reduce2quadrantf. assert (A0 := Rabs_pos x). set (a := Rabs x) in *. clearbody a. intros Ha.
  assert (O := oneopio4f_near). destruct four_pi as [F1 F2]. assert (P := pi_digits).
  set (o := ONEOPIO4F rnd rndf) in *. clearbody o. set (F := 4 / PI) in *. clearbody F. apply Rabs_inv in O.
  assert (W : Rabs (rndf (o * a) - F * a) <= 1.53E-7 * a + 1E-30).
  { assert (K := Hf (o * a)). apply Rabs_inv in K. rewrite (Rabs_right (o * a)) in K by nra. apply Rabs_le. split; nra. }
  set (w := rndf (o * a)) in *. apply Rabs_inv in W.
  destruct (quad_near w) as (k & m & K1 & K2 & K3 & K4); [split; nra|]. rewrite K1, K2. exists m. eexists. split; [reflexivity|].
  apply Rabs_inv in K4. apply IZR_le in K3. rewrite mult_IZR. set (q := 2 * IZR m) in *.
  assert (NQ : Rabs (F * a - q) <= 1 + 1.53E-7 * a + 1E-30) by (apply Rabs_le; lra). apply Rabs_inv in NQ.
  assert (Q : 0 <= q <= 1.273241 * a + 1.002) by (unfold q in *; split; nra).
  assert (RE : Rabs (a - q * (PI / 4)) <= 0.78662).
  { replace (a - q * (PI / 4)) with ((F * a - q) * (PI / 4)) by (replace a with ((F * PI) * a / 4) at 2 by (rewrite F2; field); field).
    assert (V : Rabs (F * a - q) <= 1.00154) by (apply Rabs_le; lra). rewrite Rabs_mult.
    apply Rle_trans with (1.00154 * 0.7853981634); [|lra]. apply Rmult_le_compat; auto; try apply Rabs_pos. number. }
  replace (IZR m * (PI / 2)) with (q * (PI / 4)) by (unfold q; field).
  set (d1 := 0.78515625). set (d2 := 2.4187564849853515625e-4). set (d3 := 3.77489497744594108e-8).
  assert (SUM : Rabs (d1 + d2 + d3 - PI / 4) <= 1E-23) by (unfold d1, d2, d3; number). apply Rabs_inv in SUM.
  assert (Y : Rabs (rndf q - q) <= 6E-8 * q + 1E-30). { assert (J := Hf q). rewrite (Rabs_right q) in J by lra. exact J. }
  assert (AQ : Rabs q <= q) by (rewrite Rabs_right; lra).
  set (y := rndf q) in *.
  assert (T1 : Rabs (rndf (y * DP1F rnd rndf) - q * d1) <= 1.4225E-7 * q + 1.1E-30 * q + 1E-29).
  { apply (mul y q (6E-8 * q + 1E-30) q _ d1 4.72E-8 0.7852); auto; [apply (lit2 _ 0.7852)| |]; unfold d1; try number; lra. }
  assert (T2 : Rabs (rndf (y * DP2F rnd rndf) - q * d2) <= 4.4E-11 * q + 1.1E-30 * q + 1E-29).
  { apply (mul y q (6E-8 * q + 1E-30) q _ d2 1.46E-11 2.42E-4); auto; [apply (lit2 _ 2.42E-4)| |]; unfold d2; try number; lra. }
  assert (T3 : Rabs (rndf (y * DP3F rnd rndf) - q * d3) <= 7E-15 * q + 1.1E-30 * q + 1E-29).
  { apply (mul y q (6E-8 * q + 1E-30) q _ d3 2.3E-15 3.78E-8); auto; [apply (lit2 _ 3.78E-8)| |]; unfold d3; try number; lra. }
  set (t1 := rndf (y * DP1F rnd rndf)) in *. set (t2 := rndf (y * DP2F rnd rndf)) in *. set (t3 := rndf (y * DP3F rnd rndf)) in *.
  apply Rabs_inv in RE.
  assert (G : forall v V w e M V' f, Rabs (v - V) <= e -> Rabs (w - V') <= f -> Rabs (V - V') <= M ->
    Rabs (rndf (v - w) - (V - V')) <= (e + f) + 6E-8 * (M + (e + f)) + 1E-30).
  { intros v V w' e M V' f G1 G2 G3. apply (sub v V e w' V' f M); auto. lra. }
  assert (SC : forall c lo hi, lo <= c <= hi -> q * lo <= q * c <= q * hi) by (intros; split; apply Rmult_le_compat_l; lra).
  assert (X1 : Rabs (rndf (a - t1) - (a - q * d1)) <= 1.4228E-7 * q + 4.8E-8).
  { eapply Rle_trans; [apply (G a a _ 0 (0.787 + 2.43E-4 * q) (q * d1) _ ltac:(rewrite Rminus_eq_0, Rabs_R0; lra) T1)|lra].
    assert (J := SC (PI / 4 - d1) (-2.43E-4) 2.43E-4 ltac:(unfold d1, d2, d3 in *; lra)). apply Rabs_le. lra. }
  assert (X2 : Rabs (rndf (rndf (a - t1) - t2) - (a - q * d1 - q * d2)) <= 1.4235E-7 * q + 9.7E-8).
  { eapply Rle_trans; [apply (G _ _ _ _ (0.787 + 4E-8 * q) _ _ X1 T2)|lra].
    assert (J := SC (PI / 4 - d1 - d2) (-4E-8) 4E-8 ltac:(unfold d1, d2, d3 in *; lra)). apply Rabs_le. lra. }
  assert (X3 : Rabs (rndf (rndf (rndf (a - t1) - t2) - t3) - (a - q * d1 - q * d2 - q * d3)) <= 1.424E-7 * q + 1.46E-7).
  { eapply Rle_trans; [apply (G _ _ _ _ (0.787 + 4E-17 * q) _ _ X2 T3)|lra].
    assert (J := SC (PI / 4 - d1 - d2 - d3) (-4E-17) 4E-17 ltac:(unfold d1, d2, d3 in *; lra)). apply Rabs_le. lra. }
  assert (X4 : - (q * 1E-23) <= q * (d1 + d2 + d3 - PI / 4) <= q * 1E-23).
  { assert (J := SC (d1 + d2 + d3 - PI / 4) (-1E-23) 1E-23 ltac:(lra)). lra. }
  assert (X5 : Rabs (rndf (rndf (rndf (a - t1) - t2) - t3) - (a - q * (PI / 4))) <= 1.9E-7 * a + 3E-7).
  { apply Rabs_inv in X3. apply Rabs_le. lra. }
  split; [exact X5|]. apply Rabs_inv in X5. apply Rabs_le. lra.
Qed.

Lemma fast_sincosf_pick : forall x, fast_sincosf rnd rndf x =
  match reduce2quadrantf rnd rndf x with
  | None => None
  | Some (z, j) => let sc := pick j (fst (fast_sincosf_m45_45 rndf z)) (snd (fast_sincosf_m45_45 rndf z)) in
      Some (if Rlt_dec x 0 then - fst sc else fst sc, snd sc)
  end.
Proof.
  intros x. unfold fast_sincosf, pick. destruct (reduce2quadrantf rnd rndf x) as [[z j]|]; auto.
  destruct (fast_sincosf_m45_45 rndf z) as [s c]. cbn [fst snd]. destruct (Z.land (j - 2) 2 =? 0)%Z; reflexivity.
Qed.
Lemma sincosf_near : forall x, Rabs x <= 1E4 -> exists s c x', fast_sincosf rnd rndf x = Some (s, c) /\
  Rabs (x' - x) <= 1.9E-7 * Rabs x + 3E-7 /\ Rabs (s - sin x') <= 2.1E-7 /\ Rabs (c - cos x') <= 2.1E-7.
Proof.
  intros x Hx. destruct (reducef_near x Hx) as (m & z & R1 & R2 & R3). rewrite fast_sincosf_pick, R1. cbv zeta.
  destruct (m45f_near z R3) as [M1 M2].
  destruct (turned x m z _ _ 2.1E-7 ltac:(apply Rle_trans with (1 := M1); lra) M2) as (T1 & T2 & T3).
  eexists _, _, _. split; [reflexivity|]. rewrite T1. auto.
Qed.
Lemma sincosf_none : forall x, 1.69E9 <= Rabs x -> fast_sincosf rnd rndf x = None.
Proof.
  intros x Hx. unfold fast_sincosf, reduce2quadrantf. assert (O := oneopio4f_near). destruct four_pi as [F1 F2].
  set (o := ONEOPIO4F rnd rndf) in *. clearbody o. set (a := Rabs x) in *. clearbody a. apply Rabs_inv in O.
  rewrite int_none; [reflexivity|]. assert (K := Hf (o * a)). apply Rabs_inv in K. rewrite (Rabs_right (o * a)) in K by nra. nra.
Qed.
End Result32.

Lemma sincosf_odd : forall rnd rndf x, x <> 0 ->
  fast_sincosf rnd rndf (- x) = match fast_sincosf rnd rndf x with Some (s, c) => Some (- s, c) | None => None end.
Proof.
  intros rnd rndf x Hx. rewrite !fast_sincosf_pick. unfold reduce2quadrantf. rewrite Rabs_Ropp.
  destruct (int_of _); auto. cbv zeta. destruct (Rlt_dec (- x) 0), (Rlt_dec x 0); try lra; rewrite ?Ropp_involutive; reflexivity.
Qed.
