(** Theorems on the fast sine. *)
(*HEAD*)
From Coq Require Import Reals List ZArith.
From Verif Require Import Base.Res Model.MTrack Model.MSin Spec.TrackSpec Spec.SineSpec.
Import ListNotations.
Local Open Scope R_scope.
(*DAEH*)
From Coq Require Import QArith Qreals Bool Lia Lra Psatz.
From Verif Require Import Base.RLib Proof.PPoly Proof.PSin Proof.PSin2 Proof.PSinf Proof.PTrack Proof.PTrack2 Proof.PSinTrack Proof.CTrack.
Local Open Scope R_scope.

Lemma tiny_le : forall n, (100 <= n)%nat -> / 2 ^ n <= 1E-30.
Proof.
  intros n Hn. apply Rle_trans with (/ 2 ^ 100).
  - apply Rinv_le_contravar; [apply pow_lt; lra|]. apply Rle_pow; [lra|auto].
  - cbn [pow]. lra.
Qed.
Lemma rounds64_err : forall rnd, rounds64 rnd -> forall t, Rabs (rnd t - t) <= 1.2E-16 * Rabs t + 1E-30.
Proof.
  intros rnd H t. assert (K := H t). assert (T := tiny_le 1075 ltac:(lia)). set (tiny := / 2 ^ 1075) in *. clearbody tiny.
  assert (P := Rabs_pos t). assert (Q : Rabs t / 2 ^ 53 <= 1.2E-16 * Rabs t) by (cbn [pow]; lra). lra.
Qed.
Lemma rounds32_err : forall rnd, rounds32 rnd -> forall t, Rabs (rnd t - t) <= 6E-8 * Rabs t + 1E-30.
Proof.
  intros rnd H t. assert (K := H t). assert (T := tiny_le 150 ltac:(lia)). set (tiny := / 2 ^ 150) in *. clearbody tiny.
  assert (P := Rabs_pos t). assert (Q : Rabs t / 2 ^ 24 <= 6E-8 * Rabs t) by (cbn [pow]; lra). lra.
Qed.

(** C69.  In double precision the sine and the cosine of any phase up to
    1.68e9 are those of a phase that differs by at most 2.5e-16 of it plus
    5e-16, up to an error of 5.2e-16; for every rounding function with 53
    digits. *)
Lemma C69_double_partial_lem : forall rnd, rounds64 rnd -> forall x, Rabs x <= 1.68E9 ->
  exists s c x', fast_sincos rnd x = Some (s, c) /\ fast_sin rnd x = Some s /\
    Rabs (x' - x) <= 2.5E-16 * Rabs x + 5E-16 /\ Rabs (s - sin x') <= 5.2E-16 /\ Rabs (c - cos x') <= 5.2E-16.
Proof.
  intros rnd H x Hx. destruct (sincos_near rnd (rounds64_err rnd H) x Hx) as (s & c & x' & E & K1 & K2 & K3).
  exists s, c, x'. unfold fast_sin. rewrite E. auto.
Qed.

(** The error of the sine itself, and a sine never leaves [-1,1] by more than
    rounding. *)
Lemma C69_sine_partial_lem : forall rnd, rounds64 rnd -> forall x, Rabs x <= 1.68E9 ->
  exists s, fast_sin rnd x = Some s /\ Rabs (s - sin x) <= 2.5E-16 * Rabs x + 1.1E-15 /\ Rabs s <= 1 + 5.2E-16.
Proof.
  intros rnd H x Hx. destruct (C69_double_partial_lem rnd H x Hx) as (s & c & x' & _ & E & K1 & K2 & _).
  exists s. split; auto. assert (L := Rle_trans _ _ _ (sin_lip x' x) K1). assert (S1 := SIN_bound x').
  apply Rabs_inv in L. apply Rabs_inv in K2. split; apply Rabs_le; lra.
Qed.

(** With exact arithmetic only the error of the polynomials is left. *)
Lemma C69_exact_partial_lem : forall x, Rabs x <= 1.68E9 ->
  exists s c, fast_sincos (fun t => t) x = Some (s, c) /\ Rabs (s - sin x) <= 2.1E-17 /\ Rabs (c - cos x) <= 2.1E-17.
Proof. exact exact_near. Qed.

(** The sine is odd and the cosine is even, whatever the rounding. *)
Lemma C69_odd_lem : forall rnd x, x <> 0 ->
  fast_sincos rnd (- x) = match fast_sincos rnd x with Some (s, c) => Some (- s, c) | None => None end.
Proof. exact sincos_odd. Qed.

(** Beyond 1.69e9 the number of quadrants does not fit into an int: the
    behaviour of the code is undefined, so no accuracy can be claimed for all
    phases. *)
Lemma C69_large_refuted_lem : forall rnd, rounds64 rnd -> forall x, 1.69E9 <= Rabs x -> fast_sin rnd x = None.
Proof. intros rnd H x Hx. unfold fast_sin. rewrite (sincos_none rnd (rounds64_err rnd H) x Hx). reflexivity. Qed.

(*EX*)
From Coq Require Import Lra Lia.
From Flocq Require Import Core Relative.
From Verif Require Import Proof.PPoly Proof.PSinTrack Proof.CTrack.
Example C69_no_rounding : rounds64 (fun t => t).
Proof.
  intros t. rewrite Rminus_eq_0, Rabs_R0. assert (P := Rabs_pos t). assert (0 < / 2 ^ 53) by (apply Rinv_0_lt_compat, pow_lt; lra).
  assert (0 < / 2 ^ 1075) by (apply Rinv_0_lt_compat, pow_lt; lra). unfold Rdiv. nra.
Qed.
(** Rounding to nearest, ties to even, to the double and float formats. *)
Lemma bpow_pow : forall n, bpow radix2 (- Z.of_nat n) = / 2 ^ n.
Proof. intros n. rewrite bpow_opp, bpow_powerRZ, <- pow_powerRZ. reflexivity. Qed.
Lemma nearest_rounds : forall digits e, (0 < digits)%nat ->
  rounds digits (/ 2 ^ S e) (round radix2 (FLT_exp (- Z.of_nat e) (Z.of_nat digits)) ZnearestE).
Proof.
  intros digits e Hd t. assert (Hp : Prec_gt_0 (Z.of_nat digits)) by (unfold Prec_gt_0; lia).
  destruct (error_N_FLT radix2 (- Z.of_nat e) (Z.of_nat digits) Hp (fun x => negb (Z.even x)) t) as (eps & eta & H1 & H2 & _ & H4).
  rewrite H4. replace (t * (1 + eps) + eta - t) with (t * eps + eta) by ring. eapply Rle_trans; [apply Rabs_triang|].
  rewrite Rabs_mult. assert (P := Rabs_pos t). apply Rplus_le_compat.
  - unfold Rdiv. apply Rmult_le_compat_l; auto. eapply Rle_trans; [exact H1|]. right. 
    replace (- Z.of_nat digits + 1)%Z with (- Z.of_nat digits + 1)%Z by lia. rewrite bpow_plus, bpow_pow. cbn. lra.
  - eapply Rle_trans; [exact H2|]. right. rewrite bpow_pow. cbn [pow]. rewrite Rinv_mult. lra.
Qed.
Example C69_binary64 : rounds64 (round radix2 (FLT_exp (-1074) 53) ZnearestE).
Proof. exact (nearest_rounds 53 1074 ltac:(lia)). Qed.
Example C69_ex : exists s, fast_sin (round radix2 (FLT_exp (-1074) 53) ZnearestE) 100 = Some s /\ Rabs (s - sin 100) <= 2.7E-14.
Proof.
  destruct (C69_sine_partial_lem _ C69_binary64 100) as (s & E & K & _); [rewrite Rabs_right; lra|]. exists s. split; auto.
  rewrite (Rabs_right 100) in K by lra. lra.
Qed.
(*XE*)

(** C70.  The same in single precision, for phases up to 10000. *)
Lemma C70_single_partial_lem : forall rnd rndf, rounds64 rnd -> rounds32 rndf -> forall x, Rabs x <= 1E4 ->
  exists s c x', fast_sincosf rnd rndf x = Some (s, c) /\ fast_sinf rnd rndf x = Some s /\
    Rabs (x' - x) <= 1.9E-7 * Rabs x + 3E-7 /\ Rabs (s - sin x') <= 2.1E-7 /\ Rabs (c - cos x') <= 2.1E-7.
Proof.
  intros rnd rndf H Hf x Hx. destruct (sincosf_near rnd rndf (rounds64_err rnd H) (rounds32_err rndf Hf) x Hx) as (s & c & x' & E & K1 & K2 & K3).
  exists s, c, x'. unfold fast_sinf. rewrite E. auto.
Qed.
Lemma C70_sine_partial_lem : forall rnd rndf, rounds64 rnd -> rounds32 rndf -> forall x, Rabs x <= 1E4 ->
  exists s, fast_sinf rnd rndf x = Some s /\ Rabs (s - sin x) <= 1.9E-7 * Rabs x + 5.1E-7 /\ Rabs s <= 1 + 2.1E-7.
Proof.
  intros rnd rndf H Hf x Hx. destruct (C70_single_partial_lem rnd rndf H Hf x Hx) as (s & c & x' & _ & E & K1 & K2 & _).
  exists s. split; auto. assert (L := Rle_trans _ _ _ (sin_lip x' x) K1). assert (S1 := SIN_bound x').
  apply Rabs_inv in L. apply Rabs_inv in K2. split; apply Rabs_le; lra.
Qed.
(** C70.  Beyond 1.69e9 the conversion to int overflows: refuted. *)
Lemma C70_large_refuted_lem : forall rnd rndf, rounds64 rnd -> rounds32 rndf -> forall x, 1.69E9 <= Rabs x -> fast_sinf rnd rndf x = None.
Proof. intros rnd rndf H Hf x Hx. unfold fast_sinf. rewrite (sincosf_none rnd rndf (rounds64_err rnd H) (rounds32_err rndf Hf) x Hx). reflexivity. Qed.
Lemma C70_odd_lem : forall rnd rndf x, x <> 0 ->
  fast_sincosf rnd rndf (- x) = match fast_sincosf rnd rndf x with Some (s, c) => Some (- s, c) | None => None end.
Proof. exact sincosf_odd. Qed.
(*EX*)
Example C70_binary32 : rounds32 (round radix2 (FLT_exp (-149) 24) ZnearestE).
Proof. exact (nearest_rounds 24 149 ltac:(lia)). Qed.
Example C70_ex : exists s, fast_sinf (round radix2 (FLT_exp (-1074) 53) ZnearestE) (round radix2 (FLT_exp (-149) 24) ZnearestE) 3 = Some s /\
  Rabs (s - sin 3) <= 1.1E-6.
Proof.
  destruct (C70_sine_partial_lem _ _ C69_binary64 C70_binary32 3) as (s & E & K & _); [rewrite Rabs_right; lra|]. exists s. split; auto.
  rewrite (Rabs_right 3) in K by lra. lra.
Qed.
(*XE*)

(** C71.  Tracking in double precision with the fast sine gives every particle,
    at every recorded turn, a phase and an energy close to those of exact
    tracking with the true sine: each turn adds the rounding errors of that
    turn, and the turns after it magnify them at most by the growth factor.
    [fsin] is the fast sine where it is defined. *)
Lemma C71_tracking_error_lem : forall rnd fsin F m np d p r ph de ftn B lam G,
  rounds64 rnd -> (forall x, Rabs x <= 1.68E9 -> fast_sin rnd x = Some (fsin x)) ->
  (0 < d)%nat -> (S p < np)%nat -> (r = Z.of_nat p \/ r = Z.of_nat p - Z.of_nat np)%Z ->
  holds m F (d * (np - 1)) -> length ph = length de ->
  bounded B F (d * (np - 1)) -> sine_range B -> growth B lam G ->
  (forall s t, In s (combine ph de) -> (t <= d * (np - 1))%nat ->
     let st := travel (fl rnd Rplus) (fl rnd Rminus) (fl rnd Rmult) fsin F (p * d) t s in
     Rabs (fst st) <= b_x B /\ Rabs (snd st) <= b_e B) ->
  exists s, track (fl rnd Rplus) (fl rnd Rminus) (fl rnd Rmult) fsin 0 m np (Z.of_nat d) r 0 ph de ftn = Ok s /\
    forall q i x0 e0, (q < np)%nat -> nth_error ph i = Some x0 -> nth_error de i = Some e0 ->
      let exact := travel Rplus Rminus Rmult sin F (p * d) (q * d) (x0, e0) in
      exists row_x row_e x e, nth_error (xp s) q = Some row_x /\ nth_error (yp s) q = Some row_e /\
        nth_error row_x i = Some x /\ nth_error row_e i = Some e /\
        lam * Rabs (x - fst exact) + Rabs (e - snd exact) <= errors G (turn_error B lam) (turns_between (p * d) (q * d)).
Proof.
  intros rnd fsin F m np d p r ph de ftn B lam G HR HF Hd Hp Hr Hm Hl HB HS HG HT.
  destruct (C01_track_rows_lem R (fl rnd Rplus) (fl rnd Rminus) (fl rnd Rmult) fsin 0 F m np d p r ph de ftn Hd Hp Hr Hm Hl) as (s & E & _ & _ & Rows).
  exists s. split; auto. intros q i x0 e0 Hq Hx He exact. destruct (Rows q Hq) as [R1 R2]. 
  assert (I : nth_error (combine ph de) i = Some (x0, e0)).
  { clear - Hx He. revert de i Hx He. induction ph as [|a ph IH]; intros [|b de] [|i] Hx He; try discriminate; cbn in *; [congruence|auto]. }
  eexists _, _, _, _. split; [exact R1|]. split; [exact R2|]. split; [rewrite map_map; apply map_nth_error; exact I|].
  split; [rewrite map_map; apply map_nth_error; exact I|].
  refine (travel_near rnd fsin F (d * (np - 1)) B (rounds64_err rnd HR) _ HB HS lam G HG (p * d) (x0, e0) (q * d) ltac:(nia) ltac:(nia) _).
  - intros x Hx'. destruct (C69_sine_partial_lem rnd HR x Hx') as (v & V & K1 & K2). rewrite (HF x Hx') in V. injection V as <-. auto.
  - intros t Ht. apply HT; auto. eapply nth_error_In; eauto.
Qed.

(*EX*)
(** One particle, one turn, two cavities; any rounding to 53 digits. *)
Definition ex_F : params R := TrackSpec.Params (fun _ => 1) (fun _ => 1/2) (fun _ => 0) (fun _ => 0) (fun _ => 0) (fun _ => 1/10) 2.
Definition ex_m : machine R := Machine [1; 1] [1/2; 1/2] [0; 0] [0; 0] [1/10; 1/10] [0; 0] 2.
Definition ex_B : bounds := Bounds 1 (1/2) 0 0 (1/10) 2 2 4.
Definition total_sin (rnd : R -> R) (x : R) : R := match fast_sin rnd x with Some s => s | None => 0 end.
Example C71_ex : forall rnd, rounds64 rnd -> exists s,
  track (fl rnd Rplus) (fl rnd Rminus) (fl rnd Rmult) (total_sin rnd) 0 ex_m 2 1 0 0 [1] [1] false = Ok s /\
  exists x e, xp s = [[1]; [x]] /\ yp s = [[1]; [e]] /\ Rabs (x - 0.9) + Rabs (e - (1 + sin 0.9 + sin (2 * 0.9) / 2)) <= 1E-13.
Proof.
  intros rnd HR. assert (Hr := rounds64_err rnd HR).
  assert (HF : forall x, Rabs x <= 1.68E9 -> fast_sin rnd x = Some (total_sin rnd x) /\ Rabs (total_sin rnd x) <= 1.1).
  { intros x Hx. destruct (C69_sine_partial_lem rnd HR x Hx) as (s & E & _ & K). unfold total_sin. rewrite E. split; auto. lra. }
  assert (HX : forall t M, Rabs t <= M -> Rabs (rnd t) <= 1.01 * M + 0.01).
  { intros t M Hm. assert (K := Hr t). apply Rabs_inv in K. assert (Z := Rabs_pos t). destruct (Rabs_inv _ _ Hm). apply Rabs_le. lra. }
  assert (HM : forall a b A B, Rabs a <= A -> Rabs b <= B -> Rabs (rnd (a * b)) <= 1.01 * (A * B) + 0.01).
  { intros a b A B Ha Hb. apply HX, mul_le; auto. }
  assert (Hm : holds ex_m ex_F (1 * (2 - 1))).
  { split; [reflexivity|]. intros t Ht. destruct t as [|[|t]]; [repeat split|repeat split|lia]. }
  assert (HT : forall s t, In s (combine [1] [1]) -> (t <= 1 * (2 - 1))%nat ->
     let st := travel (fl rnd Rplus) (fl rnd Rminus) (fl rnd Rmult) (total_sin rnd) ex_F (0 * 1) t s in
     Rabs (fst st) <= b_x ex_B /\ Rabs (snd st) <= b_e ex_B).
  { intros s t [<-|[]] Ht. assert (T : t = 0%nat \/ t = 1%nat) by lia. destruct T as [-> | ->]; cbn [travel Nat.leb Nat.mul Nat.sub ups fst snd b_x b_e ex_B].
    - rewrite Rabs_R1. lra.
    - unfold forward, gain, fl. cbn [fst snd ex_F v1 v2 ph0 ph12 dE coef hr].
      set (y := rnd (1 - rnd (1 / 10 * 1))).
      assert (A1 : Rabs (1 / 10 * 1) <= 0.1) by (apply Rabs_le; lra).
      assert (A2 := HX _ _ A1). assert (A3 : Rabs (1 - rnd (1 / 10 * 1)) <= 1.12) by (destruct (Rabs_inv _ _ A2); apply Rabs_le; lra).
      assert (A4 := HX _ _ A3). fold y in A4. split; [lra|].
      assert (A5 : Rabs (rnd (y + 0)) <= 1.2). { rewrite Rplus_0_r. assert (Z := HX _ _ A4). lra. }
      set (u := rnd (y + 0)) in *. assert (A6 : Rabs (rnd (u - 0)) <= 1.3) by (rewrite Rminus_0_r; assert (Z := HX _ _ A5); lra).
      assert (A7 : Rabs 2 <= 2) by (rewrite Rabs_right; lra). assert (A8 := HM _ _ _ _ A7 A6). set (g := rnd (2 * rnd (u - 0))) in *.
      destruct (HF u ltac:(lra)) as [_ S1]. destruct (HF g ltac:(lra)) as [_ S2].
      assert (B1 : Rabs 1 <= 1) by (rewrite Rabs_right; lra). assert (B2 : Rabs (1 / 2) <= 1 / 2) by (rewrite Rabs_right; lra).
      assert (C1 := HM _ _ _ _ B1 S1). assert (C2 := HM _ _ _ _ B2 S2). assert (C3 := HX _ _ (add_le _ _ _ _ C1 C2)).
      assert (C4 : Rabs 0 <= 0) by (rewrite Rabs_R0; lra). assert (C5 := HX _ _ (sub_le _ _ _ _ C3 C4)). assert (C6 := HX _ _ (add_le _ _ _ _ B1 C5)). lra. }
  destruct (C71_tracking_error_lem rnd (total_sin rnd) ex_F ex_m 2 1 0 0%Z [1] [1] false ex_B 1 4) as (s & E & K); auto.
  - intros x Hx. apply HF. auto.
  - split; [cbn; rewrite Rabs_right; lra|]. intros t Ht. cbn. rewrite !Rabs_R0, !Rabs_right by lra. lra.
  - split; cbn; lra.
  - unfold growth. cbn. lra.
  - exists s. split; auto. assert (K1 := K 1%nat 0%nat 1 1 ltac:(lia) eq_refl eq_refl). assert (K0 := K 0%nat 0%nat 1 1 ltac:(lia) eq_refl eq_refl).
    cbn zeta in K1, K0.
    destruct (C01_track_rows_lem R (fl rnd Rplus) (fl rnd Rminus) (fl rnd Rmult) (total_sin rnd) 0 ex_F ex_m 2 1 0 0%Z [1] [1] false)
      as (s' & E' & L1 & L2 & Rows); auto. change (Z.of_nat 1) with 1%Z in *. rewrite E in E'. injection E' as <-.
    destruct (Rows 0%nat ltac:(lia)) as [X0 Y0]. destruct (Rows 1%nat ltac:(lia)) as [X1 Y1].
    destruct (xp s) as [|r0 [|r1 [|? ?]]]; try discriminate. destruct (yp s) as [|w0 [|w1 [|? ?]]]; try discriminate.
    injection X0 as ->. injection Y0 as ->. injection X1 as ->. injection Y1 as ->.
    eexists _, _. split; [reflexivity|]. split; [reflexivity|].
    destruct K1 as (rx & re & x & e & J1 & J2 & J3 & J4 & J5). injection J1 as <-. injection J2 as <-. injection J3 as <-. injection J4 as <-.
    change (travel Rplus Rminus Rmult sin ex_F (0 * 1) (1 * 1) (1, 1)) with (forward Rplus Rminus Rmult sin ex_F 0 (1, 1)) in J5.
    revert J5. unfold turns_between. cbn [Nat.leb Nat.mul Nat.sub errors].
    unfold turn_error, x_error, e_error. cbn [b_v1 b_v2 b_ph b_dE b_coef b_hr b_x b_e ex_B].
    set (Z := forward Rplus Rminus Rmult sin ex_F 0 (1, 1)). intros J5.
    assert (Z1 : fst Z = 0.9) by (unfold Z, forward; cbn; lra).
    assert (Z2 : snd Z = 1 + sin 0.9 + sin (2 * 0.9) / 2).
    { unfold Z, forward, gain. cbn [fst snd ex_F v1 v2 ph0 ph12 dE coef hr]. replace (1 - 1 / 10 * 1 + 0) with 0.9 by lra.
      replace (2 * (0.9 - 0)) with (2 * 0.9) by lra. lra. }
    rewrite Z1, Z2 in J5. change (1 + 0 - 0)%nat with 1%nat in J5. cbn [errors] in J5. eapply Rle_trans; [|eapply Rle_trans; [exact J5|lra]]. lra.
Qed.
(*XE*)
