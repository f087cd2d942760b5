(** Tracking in floating point stays near exact tracking. *)
From Coq Require Import Reals List ZArith Bool Lia Lra Psatz.
From Verif Require Import Base.Res Model.MTrack Model.MSin Spec.TrackSpec Spec.SineSpec Proof.PPoly Proof.PSin Proof.PSin2 Proof.PTrack Proof.PTrack2.
Import ListNotations.
Local Open Scope R_scope.

Lemma mul_le : forall a b A B, Rabs a <= A -> Rabs b <= B -> Rabs (a * b) <= A * B.
Proof. intros. rewrite Rabs_mult. apply Rmult_le_compat; auto; apply Rabs_pos. Qed.
Lemma add_le : forall a b A B, Rabs a <= A -> Rabs b <= B -> Rabs (a + b) <= A + B.
Proof. intros. eapply Rle_trans; [apply Rabs_triang|]. lra. Qed.
Lemma sub_le : forall a b A B, Rabs a <= A -> Rabs b <= B -> Rabs (a - b) <= A + B.
Proof. intros. unfold Rminus. apply add_le; auto. rewrite Rabs_Ropp. auto. Qed.
Lemma near_trans : forall a b c e f, Rabs (a - b) <= e -> Rabs (b - c) <= f -> Rabs (a - c) <= e + f.
Proof. intros a b c e f H1 H2. replace (a - c) with ((a - b) + (b - c)) by ring. apply add_le; auto. Qed.

Section Float.
Variables (rnd fsin : R -> R) (F : params R) (N : nat) (B : bounds).
Hypothesis Hr : forall t, Rabs (rnd t - t) <= 1.2E-16 * Rabs t + 1E-30.
Hypothesis Hs : forall x, Rabs x <= 1.68E9 -> Rabs (fsin x - sin x) <= 2.5E-16 * Rabs x + 1.1E-15 /\ Rabs (fsin x) <= 1 + 5.2E-16.
Hypothesis HB : bounded B F N.
Hypothesis HS : sine_range B.
Let HU : 0 <= 1.2E-16. Proof. lra. Qed.
Notation fadd := (fl rnd Rplus). Notation fsub := (fl rnd Rminus). Notation fmul := (fl rnd Rmult).

Let V1 := b_v1 B. Let V2 := b_v2 B. Let P := b_ph B. Let A := b_dE B. Let K := b_coef B. Let H := b_hr B. Let X := b_x B. Let Y := b_e B.

Lemma bounds_pos : 0 <= V1 /\ 0 <= V2 /\ 0 <= P /\ 0 <= A /\ 0 <= K /\ 0 <= H.
Proof.
  destruct HB as [B0 B1]. destruct (B1 0%nat ltac:(lia)) as (Q1 & Q2 & Q3 & Q4 & Q5 & Q6).
  assert (G : forall a b, Rabs a <= b -> 0 <= b) by (intros a b; assert (Z := Rabs_pos a); lra).
  repeat split; eapply G; eauto.
Qed.

(** The increment of the energy. *)
Lemma gain_near : forall t x, (t <= N)%nat -> Rabs x <= X ->
  Rabs (gain fadd fsub fmul fsin F t x - gain Rplus Rminus Rmult sin F t x) <=
    V1 * (3.82E-16 * (X + P) + 1.5E-15) + V2 * (6.42E-16 * (H * (1 + X + 2 * P)) + 1.5E-15) + 1.21E-16 * A + 5E-30 /\
  Rabs (gain Rplus Rminus Rmult sin F t x) <= V1 + V2 + A.
Proof.
  intros t x Ht Hx. destruct bounds_pos as (PV1 & PV2 & PP & PA & PK & PH). destruct HB as [BH BT].
  destruct (BT t Ht) as (Q1 & Q2 & Q3 & Q4 & Q5 & _). destruct HS as [S1 S2]. fold V1 V2 P A H X in Q1, Q2, Q3, Q4, Q5, BH, S1, S2. clear HB HS BT.
  assert (PX : 0 <= X) by (assert (Z := Rabs_pos x); lra).
  unfold gain, fl. set (w1 := v1 F t) in *. set (w2 := v2 F t) in *. set (p := ph0 F t) in *. set (p' := ph12 F t) in *. set (ac := dE F t) in *. set (h := hr F) in *.
  set (a := rnd (x + p)). set (b := rnd (a - p')). set (g := rnd (h * b)).
  assert (Ba : Rabs (x + p) <= X + P) by (apply add_le; auto).
  assert (Ea : Rabs (a - (x + p)) <= 1.2E-16 * (X + P) + 1E-30) by (apply (step_lit rnd _ _ HU Hr _ (X + P)); [auto|lra]).
  assert (Bb : Rabs (x + p - p') <= X + 2 * P). { replace (X + 2 * P) with (X + P + P) by ring. apply sub_le; auto. }
  assert (Eb : Rabs (b - (x + p - p')) <= 2.5E-16 * (X + 2 * P) + 3E-30).
  { apply (step_sub rnd _ _ HU Hr a (x + p) _ p' p' 0 (X + 2 * P) _ Ea); auto; [rewrite Rminus_eq_0, Rabs_R0; lra|lra]. }
  set (HC := H * (1 + X + 2 * P)) in *. assert (PHX : 0 <= H * X) by (apply Rmult_le_pos; lra). assert (PHP : 0 <= H * P) by (apply Rmult_le_pos; lra).
  assert (PC : 0 <= HC) by (unfold HC; lra).
  assert (Bg : Rabs (h * (x + p - p')) <= HC).
  { apply Rle_trans with (H * (X + 2 * P)); [apply mul_le; auto|]. unfold HC. lra. }
  assert (Eg : Rabs (g - h * (x + p - p')) <= 3.8E-16 * HC + 1E-30).
  { unfold g. apply (step_mul rnd _ _ HU Hr h h 0 H b (x + p - p') (2.5E-16 * (X + 2 * P) + 3E-30) (X + 2 * P)); auto; [rewrite Rminus_eq_0, Rabs_R0; lra|unfold HC; lra]. }
  assert (Aa : Rabs a <= 1.0001 * (X + P) + 1E-30). { assert (Z := near_abs _ _ _ _ Ea Ba). lra. }
  assert (Ag : Rabs g <= 1.0001 * HC + 1E-30). { assert (Z := near_abs _ _ _ _ Eg Bg). lra. }
  destruct (Hs a ltac:(lra)) as [Sa1 Sa2]. destruct (Hs g ltac:(lra)) as [Sg1 Sg2].
  assert (M1 : Rabs (fsin a - sin (x + p)) <= 3.8E-16 * (X + P) + 1.11E-15).
  { assert (Z := near_trans _ _ _ _ _ Sa1 (Rle_trans _ _ _ (sin_lip a (x + p)) Ea)). lra. }
  assert (M2 : Rabs (fsin g - sin (h * (x + p - p'))) <= 6.4E-16 * HC + 1.11E-15).
  { assert (Z := near_trans _ _ _ _ _ Sg1 (Rle_trans _ _ _ (sin_lip g _) Eg)). lra. }
  assert (W : forall w V f S e, 0 <= V -> Rabs w <= V -> Rabs (f - S) <= e -> Rabs f <= 1 + 5.2E-16 -> Rabs (rnd (w * f) - w * S) <= V * (e + 1.21E-16) + 1E-30).
  { intros w V f S' e W0 W1 W2 W3. replace (rnd (w * f) - w * S') with ((rnd (w * f) - w * f) + w * (f - S')) by ring.
    eapply Rle_trans; [apply Rabs_triang|]. assert (Z1 := Hr (w * f)). assert (Z2 := mul_le _ _ _ _ W1 W3). assert (Z3 := mul_le _ _ _ _ W1 W2). lra. }
  assert (N1 := W w1 V1 _ _ _ PV1 Q1 M1 Sa2). assert (N2 := W w2 V2 _ _ _ PV2 Q2 M2 Sg2).
  assert (PXP : 0 <= X + P) by lra. set (BX := X + P) in *. clearbody BX HC.
  assert (Z1 : 0 <= V1 * BX) by (apply Rmult_le_pos; auto). assert (Z2 : 0 <= V2 * HC) by (apply Rmult_le_pos; auto).
  set (T1 := sin (x + p)) in *. set (T2 := sin (h * (x + p - p'))) in *.
  assert (D1 : Rabs (w1 * T1) <= V1).
  { replace V1 with (V1 * 1) by ring. apply mul_le; auto. unfold T1. apply Rabs_le. assert (Z := SIN_bound (x + p)). lra. }
  assert (D2 : Rabs (w2 * T2) <= V2).
  { replace V2 with (V2 * 1) by ring. apply mul_le; auto. unfold T2. apply Rabs_le. assert (Z := SIN_bound (h * (x + p - p'))). lra. }
  assert (D3 := add_le _ _ _ _ D1 D2). assert (D4 := sub_le _ _ _ _ D3 Q5).
  split; [|lra].
  assert (N3 : Rabs (rnd (rnd (w1 * fsin a) + rnd (w2 * fsin g)) - (w1 * T1 + w2 * T2)) <=
    V1 * (3.81E-16 * BX + 1.37E-15) + V2 * (6.41E-16 * HC + 1.37E-15) + 3.1E-30).
  { apply (step_add rnd _ _ HU Hr _ _ _ _ _ _ _ _ N1 N2 D3). lra. }
  assert (Z0 : Rabs (ac - ac) <= 0) by (rewrite Rminus_eq_0, Rabs_R0; lra).
  apply (step_sub rnd _ _ HU Hr _ _ _ ac ac 0 _ _ N3 Z0 D4). lra.
Qed.

(** One turn. *)
Lemma drift_near : forall t x e, (t <= N)%nat -> Rabs x <= X -> Rabs e <= Y ->
  Rabs (fsub x (fmul (coef F t) e) - (x - coef F t * e)) <= x_error B /\
  Rabs (fadd x (fmul (coef F t) e) - (x + coef F t * e)) <= x_error B.
Proof.
  intros t x e Ht Hx He. destruct bounds_pos as (PV1 & PV2 & PP & PA & PK & PH). destruct HB as [BH BT].
  destruct (BT t Ht) as (_ & _ & _ & _ & _ & Q). fold K in Q. set (c := coef F t) in *. unfold fl, x_error. fold X Y K.
  assert (PY : 0 <= Y) by (assert (Z := Rabs_pos e); lra). assert (PX : 0 <= X) by (assert (Z := Rabs_pos x); lra).
  assert (Z1 : 0 <= K * Y) by (apply Rmult_le_pos; auto).
  assert (M := mul_le _ _ _ _ Q He). assert (E : Rabs (rnd (c * e) - c * e) <= 1.2E-16 * (K * Y) + 1E-30) by (apply (step_lit rnd _ _ HU Hr _ (K * Y)); [auto|lra]).
  assert (Z0 : Rabs (x - x) <= 0) by (rewrite Rminus_eq_0, Rabs_R0; lra). split.
  - apply (step_sub rnd _ _ HU Hr x x 0 _ _ _ _ _ Z0 E (sub_le _ _ _ _ Hx M)). lra.
  - apply (step_add rnd _ _ HU Hr x x 0 _ _ _ _ _ Z0 E (add_le _ _ _ _ Hx M)). lra.
Qed.
Lemma kick_near : forall t x e, (t <= N)%nat -> Rabs x <= X -> Rabs e <= Y ->
  Rabs (fadd e (gain fadd fsub fmul fsin F t x) - (e + gain Rplus Rminus Rmult sin F t x)) <= e_error B /\
  Rabs (fsub e (gain fadd fsub fmul fsin F t x) - (e - gain Rplus Rminus Rmult sin F t x)) <= e_error B.
Proof.
  intros t x e Ht Hx He. destruct bounds_pos as (PV1 & PV2 & PP & PA & PK & PH).
  destruct (gain_near t x Ht Hx) as [G1 G2]. assert (PY : 0 <= Y) by (assert (Z := Rabs_pos e); lra). assert (PX : 0 <= X) by (assert (Z := Rabs_pos x); lra).
  unfold e_error. fold X Y K V1 V2 H A P.
  assert (PC : 0 <= H * (1 + X + 2 * P)) by (apply Rmult_le_pos; lra). set (HC := H * (1 + X + 2 * P)) in *. clearbody HC.
  assert (Z1 : 0 <= V1 * X) by (apply Rmult_le_pos; auto). assert (Z2 : 0 <= V2 * HC) by (apply Rmult_le_pos; auto).
  assert (Z3 : 0 <= V1 * P) by (apply Rmult_le_pos; auto).
  assert (Z0 : Rabs (e - e) <= 0) by (rewrite Rminus_eq_0, Rabs_R0; lra).
  set (fg := gain fadd fsub fmul fsin F t x) in *. set (eg := gain Rplus Rminus Rmult sin F t x) in *. unfold fl. split.
  - apply (step_add rnd _ _ HU Hr e e 0 _ _ _ _ _ Z0 G1 (add_le _ _ _ _ He G2)). lra.
  - apply (step_sub rnd _ _ HU Hr e e 0 _ _ _ _ _ Z0 G1 (sub_le _ _ _ _ He G2)). lra.
Qed.

(** The exact increment of two particles. *)
Lemma gain_lip : forall t x y, (t <= N)%nat ->
  Rabs (gain Rplus Rminus Rmult sin F t x - gain Rplus Rminus Rmult sin F t y) <= (V1 + H * V2) * Rabs (x - y).
Proof.
  intros t x y Ht. destruct bounds_pos as (PV1 & PV2 & PP & PA & PK & PH). destruct HB as [BH BT]. destruct (BT t Ht) as (Q1 & Q2 & _).
  fold V1 V2 H in Q1, Q2, BH. unfold gain. 
  set (w1 := v1 F t) in *. set (w2 := v2 F t) in *. set (p := ph0 F t) in *. set (p' := ph12 F t) in *. set (ac := dE F t) in *. set (h := hr F) in *.
  match goal with |- Rabs ?l <= _ => replace l with (w1 * (sin (x + p) - sin (y + p)) + w2 * (sin (h * (x + p - p')) - sin (h * (y + p - p')))) by ring end.
  assert (L1 := sin_lip (x + p) (y + p)). assert (L2 := sin_lip (h * (x + p - p')) (h * (y + p - p'))).
  replace (x + p - (y + p)) with (x - y) in L1 by ring. replace (h * (x + p - p') - h * (y + p - p')) with (h * (x - y)) in L2 by ring.
  assert (L3 := mul_le _ _ _ _ Q1 L1). assert (L4 := Rle_trans _ _ _ L2 (mul_le _ _ _ _ BH (Rle_refl (Rabs (x - y))))).
  assert (L5 := mul_le _ _ _ _ Q2 L4). assert (L6 := add_le _ _ _ _ L3 L5). lra.
Qed.

Variables lam G : R.
Hypothesis HG : growth B lam G.
Definition dist (s s' : R * R) : R := lam * Rabs (fst s - fst s') + Rabs (snd s - snd s').
Let L := V1 + H * V2.

Lemma forward_near : forall t s s', (S t <= N)%nat -> Rabs (fst s) <= X -> Rabs (snd s) <= Y ->
  Rabs (fst (forward fadd fsub fmul fsin F t s)) <= X ->
  dist (forward fadd fsub fmul fsin F t s) (forward Rplus Rminus Rmult sin F t s') <= G * dist s s' + turn_error B lam.
Proof.
  intros t [x e] [y f] Ht Hx He. unfold forward, dist. cbn [fst snd]. intros Hx'.
  destruct (drift_near t x e ltac:(lia) Hx He) as [D _]. set (x' := fsub x (fmul (coef F t) e)) in *.
  destruct (kick_near (S t) x' e Ht Hx' He) as [Q _]. set (e' := fadd e _) in *.
  set (y' := y - coef F t * f). assert (LG := gain_lip (S t) x' y' Ht).
  destruct bounds_pos as (PV1 & PV2 & PP & PA & PK & PH). destruct HB as [BH BT]. destruct (BT t ltac:(lia)) as (_ & _ & _ & _ & _ & C). fold K in C.
  set (c := coef F t) in *. set (gx := gain Rplus Rminus Rmult sin F (S t) x') in *. set (gy := gain Rplus Rminus Rmult sin F (S t) y') in *.
  destruct HG as (G0 & G1 & G2). fold V1 V2 H in G1, G2. fold L in G1, G2, LG. fold K in G1, G2. unfold turn_error. fold V1 V2 H. fold L. fold K.
  assert (PL : 0 <= L) by (unfold L; assert (0 <= H * V2) by (apply Rmult_le_pos; auto); lra).
  assert (RX : 0 <= x_error B) by (assert (Z := Rabs_pos (x' - (x - c * e))); lra).
  assert (RE : 0 <= e_error B) by (assert (Z := Rabs_pos (e' - (e + gx))); lra).
  set (rx := x_error B) in *. set (re := e_error B) in *. clearbody rx re e' gx gy L.
  set (dx := Rabs (x - y)). set (de := Rabs (e - f)). assert (Pdx := Rabs_pos (x - y)). assert (Pde := Rabs_pos (e - f)). fold dx in Pdx. fold de in Pde.
  assert (E1 : Rabs (x' - y') <= dx + K * de + rx).
  { replace (x' - y') with ((x' - (x - c * e)) + ((x - y) - c * (e - f))) by (unfold y'; ring).
    assert (Z := mul_le _ _ _ _ C (Rle_refl de)). assert (Z' := sub_le _ _ _ _ (Rle_refl dx) Z). assert (Z'' := add_le _ _ _ _ D Z'). lra. }
  assert (E2 : Rabs (e' - (f + gy)) <= de + L * Rabs (x' - y') + re).
  { replace (e' - (f + gy)) with ((e' - (e + gx)) + ((e - f) + (gx - gy))) by ring.
    assert (Z := add_le _ _ _ _ (Rle_refl de) LG). assert (Z'' := add_le _ _ _ _ Q Z). lra. }
  assert (E3 : (lam + L) * Rabs (x' - y') <= (lam + L) * (dx + K * de + rx)) by (apply Rmult_le_compat_l; lra).
  assert (E4 : (lam * (1 + K * L) + L) * dx <= lam * G * dx) by (apply Rmult_le_compat_r; lra).
  assert (E5 : (1 + K * L + lam * K) * de <= G * de) by (apply Rmult_le_compat_r; lra).
  assert (E6 : 0 <= lam * (K * L) * dx). { repeat apply Rmult_le_pos; lra. }
  assert (E7 : 0 <= lam * K * re). { repeat apply Rmult_le_pos; lra. }
  lra.
Qed.
Lemma backward_near : forall t s s', (S t <= N)%nat -> Rabs (fst s) <= X -> Rabs (snd s) <= Y ->
  Rabs (snd (backward fadd fsub fmul fsin F t s)) <= Y ->
  dist (backward fadd fsub fmul fsin F t s) (backward Rplus Rminus Rmult sin F t s') <= G * dist s s' + turn_error B lam.
Proof.
  intros t [x e] [y f] Ht Hx He. unfold backward, dist. cbn [fst snd]. intros He'.
  destruct (kick_near (S t) x e Ht Hx He) as [_ Q]. set (e' := fsub e _) in *.
  destruct (drift_near t x e' ltac:(lia) Hx He') as [_ D]. set (x' := fadd x _) in *.
  assert (LG := gain_lip (S t) x y Ht).
  destruct bounds_pos as (PV1 & PV2 & PP & PA & PK & PH). destruct HB as [BH BT]. destruct (BT t ltac:(lia)) as (_ & _ & _ & _ & _ & C). fold K in C.
  set (c := coef F t) in *. set (gx := gain Rplus Rminus Rmult sin F (S t) x) in *. set (gy := gain Rplus Rminus Rmult sin F (S t) y) in *.
  destruct HG as (G0 & G1 & G2). fold V1 V2 H in G1, G2. fold L in G1, G2, LG. fold K in G1, G2. unfold turn_error. fold V1 V2 H. fold L. fold K.
  assert (PL : 0 <= L) by (unfold L; assert (0 <= H * V2) by (apply Rmult_le_pos; auto); lra).
  assert (RX : 0 <= x_error B) by (assert (Z := Rabs_pos (x' - (x + c * e'))); lra).
  assert (RE : 0 <= e_error B) by (assert (Z := Rabs_pos (e' - (e - gx))); lra).
  set (rx := x_error B) in *. set (re := e_error B) in *. clearbody rx re x' e' gx gy L.
  set (dx := Rabs (x - y)) in *. set (de := Rabs (e - f)). assert (Pdx := Rabs_pos (x - y)). assert (Pde := Rabs_pos (e - f)). fold dx in Pdx. fold de in Pde.
  assert (E2 : Rabs (e' - (f - gy)) <= de + L * dx + re).
  { replace (e' - (f - gy)) with ((e' - (e - gx)) + ((e - f) - (gx - gy))) by ring.
    assert (Z := sub_le _ _ _ _ (Rle_refl de) LG). assert (Z'' := add_le _ _ _ _ Q Z). lra. }
  assert (E1 : Rabs (x' - (y + c * (f - gy))) <= dx + K * Rabs (e' - (f - gy)) + rx).
  { replace (x' - (y + c * (f - gy))) with ((x' - (x + c * e')) + ((x - y) + c * (e' - (f - gy)))) by ring.
    assert (Z := mul_le _ _ _ _ C (Rle_refl (Rabs (e' - (f - gy))))). assert (Z' := add_le _ _ _ _ (Rle_refl dx) Z). assert (Z'' := add_le _ _ _ _ D Z'). lra. }
  assert (PLK : 0 <= lam * K) by (apply Rmult_le_pos; lra).
  assert (E3 : (1 + lam * K) * Rabs (e' - (f - gy)) <= (1 + lam * K) * (de + L * dx + re)) by (apply Rmult_le_compat_l; lra).
  assert (E3' : lam * Rabs (x' - (y + c * (f - gy))) <= lam * (dx + K * Rabs (e' - (f - gy)) + rx)) by (apply Rmult_le_compat_l; lra).
  assert (E4 : (lam * (1 + K * L) + L) * dx <= lam * G * dx) by (apply Rmult_le_compat_r; lra).
  assert (E5 : (1 + K * L + lam * K) * de <= G * de) by (apply Rmult_le_compat_r; lra).
  assert (E6 : 0 <= K * L * de). { repeat apply Rmult_le_pos; lra. }
  assert (E7 : 0 <= L * rx). { repeat apply Rmult_le_pos; lra. }
  lra.
Qed.

Lemma G_pos : 0 <= G.
Proof.
  destruct HG as (G0 & _ & G2). destruct bounds_pos as (PV1 & PV2 & PP & PA & PK & PH). fold K V1 V2 H in G2.
  assert (0 <= H * V2) by (apply Rmult_le_pos; auto). assert (0 <= K * (V1 + H * V2)) by (apply Rmult_le_pos; lra).
  assert (0 <= lam * K) by (apply Rmult_le_pos; lra). lra.
Qed.

(** Any number of turns. *)
Lemma travel_near : forall a s b, (a <= N)%nat -> (b <= N)%nat ->
  (forall t, (t <= N)%nat -> let st := travel fadd fsub fmul fsin F a t s in Rabs (fst st) <= X /\ Rabs (snd st) <= Y) ->
  dist (travel fadd fsub fmul fsin F a b s) (travel Rplus Rminus Rmult sin F a b s) <= errors G (turn_error B lam) (turns_between a b).
Proof.
  intros a s b Ha Hb HT. assert (GP := G_pos). unfold turns_between. destruct (Nat.leb_spec a b) as [Le|Lt].
  - assert (Q : forall n, (a + n <= N)%nat -> dist (travel fadd fsub fmul fsin F a (a + n) s) (travel Rplus Rminus Rmult sin F a (a + n) s)
      <= errors G (turn_error B lam) n).
    { induction n as [|n IH]; intros Hn.
      - rewrite Nat.add_0_r, !travel_refl. unfold dist. rewrite !Rminus_eq_0, Rabs_R0. cbn [errors]. lra.
      - destruct (HT (a + n)%nat ltac:(lia)) as [T1 T2]. destruct (HT (a + S n)%nat ltac:(lia)) as [T3 _]. revert T1 T2 T3.
        specialize (IH ltac:(lia)). revert IH. rewrite !travel_up by lia.
        replace (a + S n - a)%nat with (S n) by lia. replace (a + n - a)%nat with n by lia. rewrite !ups_snoc. intros IH T1 T2 T3. cbn [errors].
        eapply Rle_trans; [apply forward_near; auto; lia|]. apply Rplus_le_compat_r, Rmult_le_compat_l; auto. }
    replace b with (a + (b - a))%nat at 1 2 by lia. apply Q. lia.
  - assert (Q : forall n, (n <= a)%nat -> dist (travel fadd fsub fmul fsin F a (a - n) s) (travel Rplus Rminus Rmult sin F a (a - n) s)
      <= errors G (turn_error B lam) n).
    { induction n as [|n IH]; intros Hn.
      - rewrite Nat.sub_0_r, !travel_refl. unfold dist. rewrite !Rminus_eq_0, Rabs_R0. cbn [errors]. lra.
      - destruct (HT (a - n)%nat ltac:(lia)) as [T1 T2]. destruct (HT (a - S n)%nat ltac:(lia)) as [_ T3]. revert T1 T2 T3.
        specialize (IH ltac:(lia)). revert IH. rewrite !travel_down by lia.
        replace (a - (a - S n))%nat with (S n) by lia. replace (a - (a - n))%nat with n by lia. cbn [downs].
        replace (S (a - S n)) with (a - n)%nat by lia. intros IH T1 T2 T3. cbn [errors].
        eapply Rle_trans; [apply backward_near; auto; lia|]. apply Rplus_le_compat_r, Rmult_le_compat_l; auto. }
    replace b with (a - (a - b))%nat at 1 2 by lia. apply Q. lia.
Qed.
End Float.
