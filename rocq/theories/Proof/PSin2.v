(** Accuracy of the fast sine: the quadrant and the result. *)
From Coq Require Import Reals QArith Qreals List ZArith Bool Lia Lra Psatz.
From Verif Require Import Base.RLib Model.MSin Spec.SineSpec Proof.PPoly Proof.PSelf Proof.PSin.
Import ListNotations.
Local Open Scope R_scope.

(** ** The quadrant *)
Lemma quad_near : forall w, -1 < w < 2147483646 -> exists k m, int_of w = Some k /\ Z.land (k + 1) (Z.lnot 1) = (2 * m)%Z /\
  (0 <= m)%Z /\ Rabs (w - 2 * IZR m) <= 1.
Proof.
  intros w Hw. set (k := rtrunc w). assert (K : (0 <= k <= 2147483645)%Z /\ (w < 0 -> k = 0%Z) /\ (0 <= w -> IZR k <= w < IZR k + 1)).
  { unfold k, rtrunc. destruct (Rlt_dec w 0) as [L|L].
    - assert (Q : rceil w = 0%Z). { unfold rceil. change (Int_part (- w)) with (rfloor (- w)). rewrite (rfloor_unique (- w) 0) by lra. reflexivity. }
      rewrite Q. repeat split; try lia; lra.
    - assert (Q := rfloor_spec w). repeat split; try lra; try lia.
      + assert (-1 < rfloor w)%Z; [|lia]. apply lt_IZR. lra.
      + assert (rfloor w < 2147483646)%Z; [|lia]. apply lt_IZR. lra. }
  destruct K as (K1 & K2 & K3). exists k, ((k + 1) / 2)%Z.
  assert (Q : Z.land (k + 1) (Z.lnot 1) = (2 * ((k + 1) / 2))%Z).
  { change (Z.land (k + 1) (Z.lnot 1)) with (Z.land (k + 1) (Z.lnot (Z.ones 1))). rewrite <- Z.ldiff_land, Z.ldiff_ones_r by lia.
    rewrite Z.shiftl_mul_pow2, Z.shiftr_div_pow2 by lia. change (2 ^ 1)%Z with 2%Z. lia. }
  assert (D := Z.div_mod (k + 1) 2 ltac:(lia)). assert (D' := Z.mod_pos_bound (k + 1) 2 ltac:(lia)).
  set (m := ((k + 1) / 2)%Z) in *. repeat split.
  - unfold int_of. fold k. destruct (Z.ltb_spec k (- 2 ^ 31)); [lia|]. destruct (Z.leb_spec (2 ^ 31 - 1) k); [lia|]. reflexivity.
  - exact Q.
  - unfold m. apply Z.div_pos; lia.
  - apply Rabs_le. destruct (Rlt_le_dec w 0) as [L|L].
    + assert (Z0 := K2 L). assert (M0 : m = 0%Z) by lia. rewrite M0. lra.
    + assert (J := K3 L). assert (Q1 : (2 * m <= k + 1)%Z) by lia. assert (Q2 : (k <= 2 * m)%Z) by lia.
      apply IZR_le in Q1, Q2. rewrite mult_IZR in Q1, Q2. rewrite plus_IZR in Q1. lra.
Qed.
Lemma int_none : forall w, 2147483647 <= w -> int_of w = None.
Proof.
  intros w Hw. unfold int_of, rtrunc. destruct (Rlt_dec w 0); [lra|]. assert (Q := rfloor_spec w).
  assert (2 ^ 31 - 1 <= rfloor w)%Z. { assert (2 ^ 31 - 2 < rfloor w)%Z; [|lia]. apply lt_IZR. change (2 ^ 31 - 2)%Z with 2147483646%Z. lra. }
  destruct (Z.leb_spec (2 ^ 31 - 1) (rfloor w)); [|lia]. rewrite orb_true_r. reflexivity.
Qed.

(** The sine and cosine after a whole number of quarter turns, and how the code
    picks them. *)
Definition quarter (m : Z) (s c : R) : R * R :=
  match (m mod 4)%Z with 0%Z => (s, c) | 1%Z => (c, - s) | 2%Z => (- s, - c) | _ => (- c, s) end.
Definition pick (j : Z) (s c : R) : R * R :=
  let signS := Z.land j 4 in
  let j := (j - 2)%Z in
  let signC := Z.land j 4 in
  let poly := Z.land j 2 in
  let (s, c) := if (poly =? 0)%Z then (c, s) else (s, c) in
  let c := if (signC =? 0)%Z then - c else c in
  let s := if negb (signS =? 0)%Z then - s else s in
  (s, c).
Lemma land_mod8 : forall j b, (0 <= b < 8)%Z -> Z.land j b = Z.land (j mod 8) b.
Proof.
  intros j b Hb. change 8%Z with (2 ^ 3)%Z. rewrite <- Z.land_ones by lia. rewrite <- Z.land_assoc. f_equal.
  rewrite Z.land_comm, Z.land_ones by lia. change (2 ^ 3)%Z with 8%Z. symmetry. apply Z.mod_small. lia.
Qed.
Lemma pick_quarter : forall m s c, pick (2 * m) s c = quarter m s c.
Proof.
  intros m s c. unfold pick, quarter. rewrite !(land_mod8 (2 * m)), !(land_mod8 (2 * m - 2)) by lia.
  assert (D := Z.div_mod m 4 ltac:(lia)). assert (D' := Z.mod_pos_bound m 4 ltac:(lia)). set (n := (m / 4)%Z) in *.
  assert (C : (m mod 4 = 0 \/ m mod 4 = 1 \/ m mod 4 = 2 \/ m mod 4 = 3)%Z) by lia.
  assert (A : forall r, (0 <= r < 8)%Z -> forall j, j = (8 * (j / 8) + r)%Z -> (j mod 8 = r)%Z) by (intros; lia).
  destruct C as [C|[C|[C|C]]]; rewrite C in *.
  - replace ((2 * m) mod 8)%Z with 0%Z by lia. replace ((2 * m - 2) mod 8)%Z with 6%Z by lia. reflexivity.
  - replace ((2 * m) mod 8)%Z with 2%Z by lia. replace ((2 * m - 2) mod 8)%Z with 0%Z by lia. reflexivity.
  - replace ((2 * m) mod 8)%Z with 4%Z by lia. replace ((2 * m - 2) mod 8)%Z with 2%Z by lia. cbn. f_equal.
  - replace ((2 * m) mod 8)%Z with 6%Z by lia. replace ((2 * m - 2) mod 8)%Z with 4%Z by lia. reflexivity.
Qed.
Lemma quarter_turn : forall m z, quarter m (sin z) (cos z) = (sin (z + IZR m * (PI / 2)), cos (z + IZR m * (PI / 2))).
Proof.
  assert (P : forall r z n, (0 <= n)%Z -> sin (z + IZR (4 * n + r) * (PI / 2)) = sin (z + IZR r * (PI / 2)) /\
    cos (z + IZR (4 * n + r) * (PI / 2)) = cos (z + IZR r * (PI / 2))).
  { intros r z n Hn. replace (z + IZR (4 * n + r) * (PI / 2)) with (z + IZR r * (PI / 2) + 2 * INR (Z.to_nat n) * PI).
    - rewrite sin_period, cos_period. auto.
    - rewrite INR_IZR_INZ, Z2Nat.id, plus_IZR, mult_IZR by lia. field. }
  assert (PN : forall r z n, sin (z + IZR (4 * n + r) * (PI / 2)) = sin (z + IZR r * (PI / 2)) /\
    cos (z + IZR (4 * n + r) * (PI / 2)) = cos (z + IZR r * (PI / 2))).
  { intros r z n. destruct (Z.le_gt_cases 0 n) as [L|L]; [apply P; auto|].
    destruct (P (4 * n + r)%Z z (- n)%Z ltac:(lia)) as [P1 P2]. replace (4 * - n + (4 * n + r))%Z with r in * by lia. auto. }
  intros m z. unfold quarter. assert (D := Z.div_mod m 4 ltac:(lia)). assert (D' := Z.mod_pos_bound m 4 ltac:(lia)).
  destruct (PN (m mod 4)%Z z (m / 4)%Z) as [Q1 Q2]. rewrite <- D in Q1, Q2. rewrite Q1, Q2. clear Q1 Q2.
  assert (C : (m mod 4 = 0 \/ m mod 4 = 1 \/ m mod 4 = 2 \/ m mod 4 = 3)%Z) by lia.
  destruct C as [C|[C|[C|C]]]; rewrite C.
  - rewrite Rmult_0_l, Rplus_0_r. reflexivity.
  - rewrite Rmult_1_l, sin_plus, cos_plus, sin_PI2, cos_PI2. f_equal; ring.
  - replace (2 * (PI / 2)) with PI by field. rewrite neg_sin, neg_cos. reflexivity.
  - replace (z + 3 * (PI / 2)) with (z + PI + PI / 2) by field.
    rewrite (sin_plus (z + PI)), (cos_plus (z + PI)), sin_PI2, cos_PI2, neg_sin, neg_cos. f_equal; ring.
Qed.
Lemma quarter_near : forall m s c S C e, Rabs (s - S) <= e -> Rabs (c - C) <= e ->
  Rabs (fst (quarter m s c) - fst (quarter m S C)) <= e /\ Rabs (snd (quarter m s c) - snd (quarter m S C)) <= e.
Proof.
  intros m s c S C e H1 H2. assert (N : forall a b, Rabs (a - b) <= e -> Rabs (- a - - b) <= e).
  { intros a b H. replace (- a - - b) with (- (a - b)) by ring. rewrite Rabs_Ropp. auto. }
  unfold quarter. destruct (m mod 4)%Z as [|[[p|p|]|[p|p|]|]|p]; cbn [fst snd]; auto.
Qed.

(** ** Reduction and result: double precision *)
Lemma four_pi : 1.27323954473516268615 < 4 / PI < 1.27323954473516268616 /\ (4 / PI) * PI = 4.
Proof.
  assert (P := pi_digits). assert (Q : (4 / PI) * PI = 4) by (field; lra). split; auto.
  set (F := 4 / PI) in *. clearbody F. split; nra.
Qed.

Section Result64.
Variable rnd : R -> R.
Hypothesis Hr : forall t, Rabs (rnd t - t) <= 1.2E-16 * Rabs t + 1E-30.
Let HU : 0 <= 1.2E-16. Proof. lra. Qed.
Ltac number := apply Rabs_le; lra.

Lemma oneopio4_near : Rabs (ONEOPIO4 rnd - 4 / PI) <= 5E-16.
Proof.
  destruct four_pi as [F1 F2]. assert (P := pi_digits). set (F := 4 / PI) in *. clearbody F.
  assert (M : Rabs (M_PI rnd - 3.14159265358979323846) <= 3.8E-16).
  { unfold M_PI. apply (step_lit rnd _ _ HU Hr _ 3.142); [number|lra]. }
  assert (N : Rabs (rnd 4 - 4) <= 4.81E-16) by (apply (step_lit rnd _ _ HU Hr _ 4); [number|lra]).
  apply Rabs_inv in M, N. unfold ONEOPIO4. set (p := M_PI rnd) in *. set (f := rnd 4) in *.
  assert (D : (f / p) * p = f) by (field; lra). set (d := f / p) in *.
  assert (ND : Rabs (d - F) <= 3.1E-16). { apply Rabs_le. split; nra. }
  apply (step_rnd rnd _ _ HU Hr _ _ 3.1E-16 1.2733); [exact ND|number|lra].
Qed.

Lemma reduce_near : forall x, Rabs x <= 1.68E9 -> exists m z, reduce2quadrant rnd x = Some (z, (2 * m)%Z) /\
  Rabs (z - (Rabs x - IZR m * (PI / 2))) <= 2.5E-16 * Rabs x + 5E-16 /\ Rabs z <= 0.7854.
Proof.
  intros x. unfold reduce2quadrant. assert (A0 := Rabs_pos x). set (a := Rabs x) in *. clearbody a. intros Ha.
  assert (O := oneopio4_near). destruct four_pi as [F1 F2]. assert (P := pi_digits).
  set (o := ONEOPIO4 rnd) in *. clearbody o. set (F := 4 / PI) in *. clearbody F. apply Rabs_inv in O.
  assert (W : Rabs (rnd (o * a) - F * a) <= 6.6E-16 * a + 1E-30).
  { assert (K := Hr (o * a)). apply Rabs_inv in K. rewrite (Rabs_right (o * a)) in K by nra. apply Rabs_le. split; nra. }
  set (w := rnd (o * a)) in *. apply Rabs_inv in W.
  destruct (quad_near w) as (k & m & K1 & K2 & K3 & K4); [split; nra|]. rewrite K1, K2. exists m. eexists. split; [reflexivity|].
  apply Rabs_inv in K4. apply IZR_le in K3. rewrite mult_IZR. set (q := 2 * IZR m) in *.
  assert (NQ : Rabs (F * a - q) <= 1 + 6.6E-16 * a + 1E-30) by (apply Rabs_le; lra). apply Rabs_inv in NQ.
  assert (Q : 0 <= q <= 1.27324 * a + 1.01) by (unfold q in *; split; nra).
  assert (RE : Rabs (a - q * (PI / 4)) <= 0.7853992).
  { replace (a - q * (PI / 4)) with ((F * a - q) * (PI / 4)) by (replace a with ((F * PI) * a / 4) at 2 by (rewrite F2; field); field).
    assert (V : Rabs (F * a - q) <= 1.0000012) by (apply Rabs_le; lra). rewrite Rabs_mult.
    apply Rle_trans with (1.0000012 * 0.7853981634); [|lra]. apply Rmult_le_compat; auto; try apply Rabs_pos. number. }
  replace (IZR m * (PI / 2)) with (q * (PI / 4)) by (unfold q; field).
  set (d1 := 7.853981554508209228515625E-1). set (d2 := 7.94662735614792836714E-9). set (d3 := 3.06161699786838294307E-17).
  assert (SUM : Rabs (d1 + d2 + d3 - PI / 4) <= 1E-28) by (unfold d1, d2, d3; number). apply Rabs_inv in SUM.
  assert (T : forall d M e, 0 <= d <= M -> 2.41E-16 * M + 1.3E-30 <= e -> Rabs (rnd (q * rnd d) - q * d) <= e * q + 1E-30).
  { intros d M e Hd He. assert (J := Hr d). assert (J' := Hr (q * rnd d)). rewrite (Rabs_right d) in J by lra. apply Rabs_inv in J.
    rewrite Rabs_mult, (Rabs_right q) in J' by lra. assert (L : Rabs (rnd d) <= 1.0000001 * M + 1.01E-30) by (apply Rabs_le; lra).
    apply Rabs_inv in J'.
    assert (L1 : q * Rabs (rnd d) <= q * (1.0000001 * M + 1.01E-30)) by (apply Rmult_le_compat_l; lra).
    assert (L2 : - (q * (1.2E-16 * M + 1E-30)) <= q * (rnd d - d) <= q * (1.2E-16 * M + 1E-30)).
    { split; [|apply Rmult_le_compat_l; lra]. rewrite <- Ropp_mult_distr_r_reverse. apply Rmult_le_compat_l; lra. }
    assert (L3 : q * (2.41E-16 * M + 1.3E-30) <= q * e) by (apply Rmult_le_compat_l; lra).
    assert (L4 : 0 <= q * M) by (apply Rmult_le_pos; lra). apply Rabs_le. lra. }
  assert (T1 := T d1 0.7854 1.893E-16 ltac:(unfold d1; lra) ltac:(lra)).
  assert (T2 := T d2 8E-9 2E-24 ltac:(unfold d2; lra) ltac:(lra)).
  assert (T3 := T d3 3.1E-17 1.4E-30 ltac:(unfold d3; lra) ltac:(lra)).
  unfold DP1, DP2, DP3. fold d1 d2 d3. apply Rabs_inv in RE.
  assert (G : forall v V w e M V' f, Rabs (v - V) <= e -> Rabs (w - V') <= f -> Rabs (V - V') <= M ->
    Rabs (rnd (v - w) - (V - V')) <= (e + f) + 1.2E-16 * (M + (e + f)) + 1E-30).
  { intros v V w' e M V' f G1 G2 G3. apply (step_sub rnd _ _ HU Hr v V e w' V' f M); auto. lra. }
  assert (SC : forall c lo hi, lo <= c <= hi -> q * lo <= q * c <= q * hi) by (intros; split; apply Rmult_le_compat_l; lra).
  assert (X1 : Rabs (rnd (a - rnd (q * rnd d1)) - (a - q * d1)) <= 1.8931E-16 * q + 1E-16).
  { eapply Rle_trans; [apply (G a a _ 0 (0.7854 + 8E-9 * q) (q * d1) (1.893E-16 * q + 1E-30) ltac:(rewrite Rminus_eq_0, Rabs_R0; lra) T1)|lra].
    assert (J := SC (PI / 4 - d1) (-8E-9) 8E-9 ltac:(unfold d1, d2, d3 in *; lra)). apply Rabs_le. lra. }
  assert (X2 : Rabs (rnd (rnd (a - rnd (q * rnd d1)) - rnd (q * rnd d2)) - (a - q * d1 - q * d2)) <= 1.8932E-16 * q + 2E-16).
  { eapply Rle_trans; [apply (G _ _ _ _ (0.7854 + 4E-17 * q) _ _ X1 T2)|lra].
    assert (J := SC (PI / 4 - d1 - d2) (-4E-17) 4E-17 ltac:(unfold d1, d2, d3 in *; lra)). apply Rabs_le. lra. }
  assert (X3 : Rabs (rnd (rnd (rnd (a - rnd (q * rnd d1)) - rnd (q * rnd d2)) - rnd (q * rnd d3)) - (a - q * d1 - q * d2 - q * d3)) <= 1.8933E-16 * q + 3E-16).
  { eapply Rle_trans; [apply (G _ _ _ _ (0.7854 + 4E-17 * q) _ _ X2 T3)|lra].
    assert (J := SC (PI / 4 - d1 - d2 - d3) (-4E-17) 4E-17 ltac:(unfold d1, d2, d3 in *; lra)). apply Rabs_le. lra. }
  assert (X4 : - (q * 1E-28) <= q * (d1 + d2 + d3 - PI / 4) <= q * 1E-28).
  { assert (J := SC (d1 + d2 + d3 - PI / 4) (-1E-28) 1E-28 ltac:(lra)). lra. }
  assert (X5 : Rabs (rnd (rnd (rnd (a - rnd (q * rnd d1)) - rnd (q * rnd d2)) - rnd (q * rnd d3)) - (a - q * (PI / 4))) <= 2.5E-16 * a + 5E-16).
  { apply Rabs_inv in X3. apply Rabs_le. lra. }
  split; [exact X5|]. apply Rabs_inv in X5. apply Rabs_le. lra.
Qed.

Lemma fast_sincos_pick : forall x, fast_sincos rnd x =
  match reduce2quadrant rnd x with
  | None => None
  | Some (z, j) => let sc := pick j (fst (fast_sincos_m45_45 rnd z)) (snd (fast_sincos_m45_45 rnd z)) in
      Some (if Rlt_dec x 0 then - fst sc else fst sc, snd sc)
  end.
Proof.
  intros x. unfold fast_sincos, pick. destruct (reduce2quadrant rnd x) as [[z j]|]; auto.
  destruct (fast_sincos_m45_45 rnd z) as [s c]. cbn [fst snd]. destruct (Z.land (j - 2) 2 =? 0)%Z; reflexivity.
Qed.
Lemma turned : forall x m z s c e, Rabs (s - sin z) <= e -> Rabs (c - cos z) <= e -> 
  let sc := pick (2 * m) s c in let x' := if Rlt_dec x 0 then - (z + IZR m * (PI / 2)) else z + IZR m * (PI / 2) in
  Rabs (x' - x) = Rabs (z - (Rabs x - IZR m * (PI / 2))) /\
  Rabs ((if Rlt_dec x 0 then - fst sc else fst sc) - sin x') <= e /\ Rabs (snd sc - cos x') <= e.
Proof.
  intros x m z s c e H1 H2. cbv zeta. rewrite pick_quarter.
  destruct (quarter_near m s c (sin z) (cos z) e H1 H2) as [Q1 Q2]. rewrite quarter_turn in Q1, Q2. cbn [fst snd] in Q1, Q2.
  set (y := z + IZR m * (PI / 2)) in *. destruct (Rlt_dec x 0) as [L|L].
  - rewrite sin_neg, cos_neg. repeat split; auto.
    + rewrite (Rabs_left x) by lra. replace (- y - x) with (- (z - (- x - IZR m * (PI / 2)))) by (unfold y; ring). apply Rabs_Ropp.
    + replace (- fst (quarter m s c) - - sin y) with (- (fst (quarter m s c) - sin y)) by ring. rewrite Rabs_Ropp. auto.
  - repeat split; auto. rewrite (Rabs_right x) by lra. f_equal. unfold y. ring.
Qed.
Lemma sincos_near : forall x, Rabs x <= 1.68E9 -> exists s c x', fast_sincos rnd x = Some (s, c) /\
  Rabs (x' - x) <= 2.5E-16 * Rabs x + 5E-16 /\ Rabs (s - sin x') <= 5.2E-16 /\ Rabs (c - cos x') <= 5.2E-16.
Proof.
  intros x Hx. destruct (reduce_near x Hx) as (m & z & R1 & R2 & R3). rewrite fast_sincos_pick, R1. cbv zeta.
  destruct (m45_near rnd Hr z R3) as [M1 M2].
  destruct (turned x m z _ _ 5.2E-16 ltac:(apply Rle_trans with (1 := M1); lra) M2) as (T1 & T2 & T3).
  eexists _, _, _. split; [reflexivity|]. rewrite T1. auto.
Qed.
Lemma sincos_none : forall x, 1.69E9 <= Rabs x -> fast_sincos rnd x = None.
Proof.
  intros x Hx. rewrite fast_sincos_pick. unfold reduce2quadrant. set (a := Rabs x) in *. clearbody a.
  assert (O := oneopio4_near). destruct four_pi as [F1 F2]. set (o := ONEOPIO4 rnd) in *. clearbody o. set (F := 4 / PI) in *. clearbody F.
  apply Rabs_inv in O. assert (K := Hr (o * a)). rewrite (Rabs_right (o * a)) in K by nra. apply Rabs_inv in K.
  rewrite int_none; auto. nra.
Qed.
End Result64.

Lemma sincos_odd : forall rnd x, x <> 0 -> fast_sincos rnd (- x) = match fast_sincos rnd x with Some (s, c) => Some (- s, c) | None => None end.
Proof.
  intros rnd x Hx. rewrite !fast_sincos_pick. unfold reduce2quadrant. rewrite Rabs_Ropp.
  destruct (int_of _); auto. cbv zeta. destruct (Rlt_dec (- x) 0), (Rlt_dec x 0); try lra; rewrite ?Ropp_involutive; reflexivity.
Qed.

Lemma exact_reduce : forall x m z, reduce2quadrant (fun t => t) x = Some (z, (2 * m)%Z) ->
  z = Rabs x - 2 * IZR m * (7.853981554508209228515625E-1 + 7.94662735614792836714E-9 + 3.06161699786838294307E-17).
Proof.
  intros x m z. unfold reduce2quadrant, DP1, DP2, DP3. destruct (int_of _) as [k|]; [|discriminate].
  cbv zeta. set (quad := Z.land (k + 1) (Z.lnot 1)). intros E. assert (Q : quad = (2 * m)%Z) by congruence.
  assert (V : z = Rabs x - IZR quad * 7.853981554508209228515625E-1 - IZR quad * 7.94662735614792836714E-9
    - IZR quad * 3.06161699786838294307E-17) by congruence.
  rewrite V, Q, mult_IZR. ring.
Qed.
Lemma exact_m45 : forall z, fast_sincos_m45_45 (fun t => t) z = (z * peval Psin (z ^ 2), peval Pcos (z ^ 2)).
Proof.
  intros z. unfold fast_sincos_m45_45, get_sin_px, get_cos_px, horner, sin_coefs, cos_coefs, C1sin, C1cos, Psin, Pcos.
  cbn [fold_left peval]. f_equal; unfold Q2R; cbn [Qnum Qden]; lra.
Qed.
Lemma sin_lip : forall x y, Rabs (sin x - sin y) <= Rabs (x - y).
Proof.
  assert (P : forall x y, x <= y -> Rabs (sin x - sin y) <= Rabs (x - y)).
  { intros x y [L|L]; [|subst; rewrite !Rminus_eq_0; lra]. destruct (MVT_cor2 sin cos x y L) as (c & C1 & C2); [intros; apply derivable_pt_lim_sin|].
    rewrite Rabs_minus_sym, C1, (Rabs_minus_sym x y), Rabs_mult. assert (B := COS_bound c). assert (Rabs (cos c) <= 1) by (apply Rabs_le; lra).
    assert (Q := Rabs_pos (y - x)). nra. }
  intros x y. destruct (Rle_lt_dec x y); [auto|]. rewrite Rabs_minus_sym, (Rabs_minus_sym x). apply P. lra.
Qed.
Lemma cos_lip : forall x y, Rabs (cos x - cos y) <= Rabs (x - y).
Proof.
  intros x y. rewrite !cos_sin. eapply Rle_trans; [apply sin_lip|]. replace (PI / 2 + x - (PI / 2 + y)) with (x - y) by ring. lra.
Qed.
Lemma exact_near : forall x, Rabs x <= 1.68E9 -> exists s c, fast_sincos (fun t => t) x = Some (s, c) /\
  Rabs (s - sin x) <= 2.1E-17 /\ Rabs (c - cos x) <= 2.1E-17.
Proof.
  intros x Hx. assert (Hr : forall t : R, Rabs (t - t) <= 1.2E-16 * Rabs t + 1E-30).
  { intros t. rewrite Rminus_eq_0, Rabs_R0. assert (P := Rabs_pos t). lra. }
  destruct (reduce_near (fun t => t) Hr x Hx) as (m & z & R1 & R2 & R3). rewrite fast_sincos_pick, R1, exact_m45. cbn [fst snd].
  apply exact_reduce in R1. assert (M1 := Psin_near z ltac:(lra)). assert (M2 := Pcos_near z ltac:(lra)).
  destruct (turned x m z _ _ _ M1 M2) as (T1 & T2 & T3).
  set (x' := if Rlt_dec x 0 then - (z + IZR m * (PI / 2)) else z + IZR m * (PI / 2)) in *.
  assert (D : Rabs (x' - x) <= 1E-18).
  { rewrite T1. assert (P := pi_digits). apply Rabs_inv in R3. assert (A := Rabs_pos x). set (a := Rabs x) in *. set (q := IZR m) in *.
    assert (Q : -1 <= q <= 1.1E9) by (split; nra). rewrite R1. 
    replace (a - _ - (a - q * (PI / 2))) with (2 * q * (PI / 4 - (7.853981554508209228515625E-1 + 7.94662735614792836714E-9 + 3.06161699786838294307E-17))) by field.
    apply Rabs_le. split; nra. }
  eexists _, _. split; [reflexivity|]. assert (L1 := Rle_trans _ _ _ (sin_lip x' x) D). assert (L2 := Rle_trans _ _ _ (cos_lip x' x) D).
  apply Rabs_inv in T2, T3, L1, L2. split; apply Rabs_le; lra.
Qed.
