(** Calculus for the matched area: the height of a contour is concave, and the
    trapezoidal rule on it. *)
From Coq Require Import Reals List ZArith Lia Lra.
From Verif Require Import Base.Res Base.QcLib Base.QcLemmas Model.MArea.
Import ListNotations.
Local Open Scope R_scope.

Lemma mvt_open f f' a b : a < b -> (forall x, a < x < b -> derivable_pt_lim f x (f' x)) -> (forall x, a <= x <= b -> continuity_pt f x) ->
  exists c, a < c < b /\ f b - f a = f' c * (b - a).
Proof.
  intros H D C. assert (D' : forall c, a < c < b -> derivable_pt f c) by (intros c Hc; exists (f' c); apply D; auto).
  destruct (MVT f id a b D' (fun c _ => derivable_pt_id c) H C (fun c _ => derivable_continuous_pt id c (derivable_pt_id c))) as (c & P & E).
  exists c. split; auto. rewrite derive_pt_id in E. assert (E2 : derive_pt f c (D' c P) = f' c) by (apply derive_pt_eq_0; apply D; auto).
  rewrite E2 in E. unfold id in E. lra.
Qed.

(** A function with a derivative that is not negative does not decrease. *)
Lemma grows f f' a b : a <= b -> (forall x, a < x < b -> derivable_pt_lim f x (f' x)) -> (forall x, a <= x <= b -> continuity_pt f x) ->
  (forall x, a < x < b -> 0 <= f' x) -> f a <= f b.
Proof.
  intros [H| ->] D C P; [|lra]. destruct (mvt_open f f' a b H D C) as (c & Hc & E). specialize (P c Hc). nra.
Qed.

Definition concave (f : R -> R) (a b : R) : Prop :=
  forall x y z, a <= x -> x < y -> y < z -> z <= b -> (z - y) * f x + (y - x) * f z <= (z - x) * f y.

Lemma concave_derivative f f' a b : (forall x, a < x < b -> derivable_pt_lim f x (f' x)) -> (forall x, a <= x <= b -> continuity_pt f x) ->
  (forall x y, a < x -> x < y -> y < b -> f' y <= f' x) -> concave f a b.
Proof.
  intros D C M x y z Hx H1 H2 Hz.
  destruct (mvt_open f f' x y H1) as (c & Hc & Ec); [intros; apply D; lra|intros; apply C; lra|].
  destruct (mvt_open f f' y z H2) as (d & Hd & Ed); [intros; apply D; lra|intros; apply C; lra|].
  assert (K := M c d ltac:(lra) ltac:(lra) ltac:(lra)).
  assert (A : (z - y) * (f y - f x) - (y - x) * (f z - f y) = (y - x) * (z - y) * (f' c - f' d)) by (rewrite Ec, Ed; ring).
  assert (0 <= (y - x) * (z - y)) by nra. assert (0 <= (y - x) * (z - y) * (f' c - f' d)) by (apply Rmult_le_pos; lra). lra.
Qed.

(** One cell of the trapezoidal rule, [F] a primitive. *)
Section Cell.
Variables (f F : R -> R) (a b : R).
Hypothesis HF : forall x, a <= x <= b -> derivable_pt_lim F x (f x).
Lemma F_cont x : a <= x <= b -> continuity_pt F x.
Proof. intros H. apply derivable_continuous_pt. exists (f x). apply HF. auto. Qed.

Lemma cell_concave c d : concave f a b -> a <= c -> c <= d -> d <= b -> (d - c) * (f c + f d) / 2 <= F d - F c.
Proof.
  intros Cv Hc [Hcd| ->] Hd; [|lra].
  set (G := fun x => F x - (f c * (x - c) + (f d - f c) / (d - c) * ((x - c) * (x - c)) / 2)).
  set (G' := fun x => f x - (f c + (f d - f c) / (d - c) * (x - c))).
  assert (DG : forall x, c <= x <= d -> derivable_pt_lim G x (G' x)).
  { intros x Hx. unfold G, G'. apply derivable_pt_lim_minus; [apply HF; lra|].
    replace (f c + (f d - f c) / (d - c) * (x - c)) with (f c * (1 - 0) + ((f d - f c) / (d - c) * / 2) * ((1 - 0) * (x - c) + (x - c) * (1 - 0))) by (field; lra).
    apply derivable_pt_lim_plus.
    - apply (derivable_pt_lim_scal (fun x => x - c)). apply derivable_pt_lim_minus; [apply derivable_pt_lim_id|apply derivable_pt_lim_const].
    - assert (Q : derivable_pt_lim (mult_real_fct ((f d - f c) / (d - c) * / 2) (fun x => (x - c) * (x - c))) x (((f d - f c) / (d - c) * / 2) * ((1 - 0) * (x - c) + (x - c) * (1 - 0)))).
      { apply derivable_pt_lim_scal. apply (derivable_pt_lim_mult (fun x => x - c) (fun x => x - c));
          apply derivable_pt_lim_minus; try apply derivable_pt_lim_id; apply derivable_pt_lim_const. }
      intros eps He. destruct (Q eps He) as [del Hdel]. exists del. intros h Hh Hb. specialize (Hdel h Hh Hb). unfold mult_real_fct in Hdel.
      replace ((f d - f c) / (d - c) * ((x + h - c) * (x + h - c)) / 2) with ((f d - f c) / (d - c) * / 2 * ((x + h - c) * (x + h - c))) by (field; lra).
      replace ((f d - f c) / (d - c) * ((x - c) * (x - c)) / 2) with ((f d - f c) / (d - c) * / 2 * ((x - c) * (x - c))) by (field; lra). exact Hdel. }
  assert (K : G c <= G d).
  { apply (grows G G'); [lra|intros; apply DG; lra| |].
    - intros x Hx. apply derivable_continuous_pt. exists (G' x). apply DG. auto.
    - intros x Hx. unfold G'. assert (Q := Cv c x d ltac:(lra) ltac:(lra) ltac:(lra) ltac:(lra)).
      assert (E : f c + (f d - f c) / (d - c) * (x - c) = ((d - x) * f c + (x - c) * f d) / (d - c)) by (field; lra). rewrite E.
      assert (((d - x) * f c + (x - c) * f d) / (d - c) <= (d - c) * f x / (d - c)) by (apply Rmult_le_compat_r; [apply Rlt_le, Rinv_0_lt_compat; lra|exact Q]).
      replace ((d - c) * f x / (d - c)) with (f x) in * by (field; lra). lra. }
  unfold G in K. replace ((f d - f c) / (d - c) * ((d - c) * (d - c)) / 2) with ((f d - f c) * (d - c) / 2) in K by (field; lra).
  replace (c - c) with 0 in K by ring. lra.
Qed.

Lemma cell_bounded c d M : a <= c -> c <= d -> d <= b -> (forall x, c <= x <= d -> f x <= M) -> F d - F c <= (d - c) * M.
Proof.
  intros Hc [Hcd| ->] Hd HM; [|lra].
  destruct (mvt_open F f c d Hcd) as (x & Hx & E); [intros; apply HF; lra|intros; apply F_cont; lra|].
  rewrite E. assert (f x <= M) by (apply HM; lra). nra.
Qed.
End Cell.

(** Sums by the trapezoidal rule. *)
Lemma trapz_cons dx a b r : trapz dx (a :: b :: r) = dx * (a + b) / 2 + trapz dx (b :: r).
Proof. reflexivity. Qed.
Lemma trapz_tab_shift dx g n : trapz dx (tab (S (S n)) g) = dx * (g 0%nat + g 1%nat) / 2 + trapz dx (tab (S n) (fun i => g (S i))).
Proof. unfold tab. simpl. rewrite <- !seq_shift, !map_map. reflexivity. Qed.
Lemma trapz_tab dx n : forall g, trapz dx (tab (S (S n)) g) = trapz dx (tab (S n) g) + dx * (g n + g (S n)) / 2.
Proof.
  induction n; intros g. { unfold tab. simpl. lra. }
  rewrite trapz_tab_shift, IHn, trapz_tab_shift. lra.
Qed.

Section Rule.
Variables (f F : R -> R) (a b : R) (m : nat).
Hypothesis Hab : a < b.
Hypothesis HF : forall x, a <= x <= b -> derivable_pt_lim F x (f x).
Hypothesis Hc : concave f a b.
Hypothesis Hm : (0 < m)%nat.
Notation N := (2 * m)%nat.
Notation dx := ((b - a) / INR (N - 1)).
Notation p := (fun i : nat => a + INR i * dx).
Lemma N_pos : 0 < INR (N - 1).
Proof. apply lt_0_INR. lia. Qed.
Lemma dx_pos : 0 < dx.
Proof. apply Rmult_lt_0_compat; [lra|]. apply Rinv_0_lt_compat, N_pos. Qed.
Lemma p_last : p (N - 1)%nat = b.
Proof. assert (H := N_pos). cbv beta. field. lra. Qed.
Lemma p_range i : (i <= N - 1)%nat -> a <= p i <= b.
Proof.
  intros H. assert (D := dx_pos). assert (E := p_last). cbv beta in *. apply le_INR in H. assert (P := pos_INR i). split; [nra|].
  eapply Rle_trans; [|right; exact E]. apply Rplus_le_compat_l, Rmult_le_compat_r; lra.
Qed.
Lemma p_step i : p (S i) - p i = dx.
Proof. cbv beta. rewrite S_INR. ring. Qed.

Lemma trapz_below n : (S n <= N)%nat -> trapz dx (tab (S n) (fun i => f (p i))) <= F (p n) - F a.
Proof.
  induction n; intros H. { unfold tab. simpl. rewrite Rmult_0_l, Rplus_0_r. lra. }
  rewrite trapz_tab. assert (K := IHn ltac:(lia)).
  assert (Q := cell_concave f F a b HF (p n) (p (S n)) Hc).
  destruct (p_range n ltac:(lia)) as [P1 P2], (p_range (S n) ltac:(lia)) as [P3 P4]. assert (E := p_step n). assert (D := dx_pos).
  specialize (Q P1 ltac:(lra) P4). cbv beta in *. rewrite E in Q. lra.
Qed.

(** Increasing up to the middle, decreasing from there, zero at the ends. *)
Hypothesis Hup : forall x y, a <= x -> x <= y -> y <= (a + b) / 2 -> f x <= f y.
Hypothesis Hdown : forall x y, (a + b) / 2 <= x -> x <= y -> y <= b -> f y <= f x.
Hypothesis Ha : f a = 0.
Hypothesis Hb : f b = 0.
Notation M := (f ((a + b) / 2)).

Lemma p_mid : p (m - 1)%nat <= (a + b) / 2 <= p m.
Proof.
  assert (P := N_pos). assert (E : INR (N - 1) = 2 * INR m - 1). { rewrite minus_INR by lia. rewrite mult_INR. simpl. lra. }
  cbv beta. rewrite minus_INR by lia. simpl (INR 1). rewrite E in *.
  assert (A : (INR m - 1) * ((b - a) / (2 * INR m - 1)) = (b - a) / 2 - (b - a) / (2 * INR m - 1) / 2) by (field; lra).
  assert (B : INR m * ((b - a) / (2 * INR m - 1)) = (b - a) / 2 + (b - a) / (2 * INR m - 1) / 2) by (field; lra).
  rewrite A, B. assert (0 < (b - a) / (2 * INR m - 1)) by (apply Rmult_lt_0_compat; [lra|apply Rinv_0_lt_compat; lra]). lra.
Qed.
Lemma max_mid x : a <= x <= b -> f x <= M.
Proof. intros H. destruct (Rle_dec x ((a + b) / 2)); [apply Hup|apply Hdown]; lra. Qed.

(** The first half: the integral is at most the sum over the right ends. *)
Lemma half_up n : (n <= m - 1)%nat -> F (p n) - F a <= trapz dx (tab (S n) (fun i => f (p i))) + dx * f (p n) / 2.
Proof.
  induction n; intros H. { unfold tab. simpl. rewrite Rmult_0_l, Rplus_0_r, Ha. lra. }
  rewrite trapz_tab. assert (K := IHn ltac:(lia)).
  destruct (p_range n ltac:(lia)) as [P1 P2], (p_range (S n) ltac:(lia)) as [P3 P4]. assert (E := p_step n). assert (D := dx_pos).
  assert (Q : F (p (S n)) - F (p n) <= (p (S n) - p n) * f (p (S n))).
  { apply (cell_bounded f F a b HF); auto; [lra|]. intros x Hx. apply Hup; [lra|lra|].
    assert (p (S n) <= p (m - 1)%nat). { cbv beta. apply Rplus_le_compat_l, Rmult_le_compat_r; [lra|]. apply le_INR. lia. }
    assert (T := p_mid). lra. }
  cbv beta in *. rewrite E in Q. lra.
Qed.
Lemma half_down n : (m <= n)%nat -> (n <= N - 1)%nat ->
  F (p n) - F a <= trapz dx (tab (S n) (fun i => f (p i))) + dx * M - dx * f (p n) / 2.
Proof.
  induction n; intros H1 H2; [lia|].
  destruct (p_range n ltac:(lia)) as [P1 P2], (p_range (S n) ltac:(lia)) as [P3 P4]. assert (E := p_step n). assert (D := dx_pos).
  destruct (Nat.eq_dec m (S n)) as [Em|Hn].
  - rewrite trapz_tab. assert (K := half_up n ltac:(lia)).
    assert (Q : F (p (S n)) - F (p n) <= (p (S n) - p n) * f ((a + b) / 2)).
    { apply (cell_bounded f F a b HF); auto; [lra|]. intros x Hx. apply max_mid. lra. }
    cbv beta in *. rewrite E in Q. lra.
  - rewrite trapz_tab. assert (K := IHn ltac:(lia) ltac:(lia)).
    assert (Q : F (p (S n)) - F (p n) <= (p (S n) - p n) * f (p n)).
    { apply (cell_bounded f F a b HF); auto; [lra|]. intros x Hx. apply Hdown; [|lra|lra].
      assert (p m <= p n). { cbv beta. apply Rplus_le_compat_l, Rmult_le_compat_r; [lra|]. apply le_INR. lia. }
      assert (T := p_mid). lra. }
    cbv beta in *. rewrite E in Q. lra.
Qed.

(** The rule is between (1 - 2/(N-1)) of the integral and the integral. *)
Lemma trapz_close : (1 - 2 / INR (N - 1)) * (F b - F a) <= trapz dx (tab N (fun i => f (p i))) <= F b - F a.
Proof.
  assert (E := p_last). assert (D := dx_pos). assert (NP := N_pos). assert (SN : N = S (N - 1)) by lia. split.
  - assert (K := half_down (N - 1) ltac:(lia) ltac:(lia)). rewrite <- SN in K. cbv beta in K, E. rewrite E in K. rewrite Hb in K.
    assert (A := cell_concave f F a b HF a ((a + b) / 2) Hc ltac:(lra) ltac:(lra) ltac:(lra)).
    assert (B := cell_concave f F a b HF ((a + b) / 2) b Hc ltac:(lra) ltac:(lra) ltac:(lra)).
    rewrite Ha in A. rewrite Hb in B.
    assert (T : (b - a) * M / 2 <= F b - F a) by lra.
    assert (dx * M <= 2 / INR (N - 1) * (F b - F a)).
    { replace (dx * M) with (2 / INR (N - 1) * ((b - a) * M / 2)) by (field; lra). apply Rmult_le_compat_l; [|exact T].
      apply Rlt_le, Rmult_lt_0_compat; [lra|apply Rinv_0_lt_compat; auto]. }
    lra.
  - assert (K := trapz_below (N - 1) ltac:(lia)). rewrite <- SN in K. cbv beta in K, E. rewrite E in K. exact K.
Qed.
End Rule.

(** ** The height of a contour in a stationary bucket *)
Section Height.
Variables (K l : R).
Hypothesis HK : 0 < K.
Hypothesis Hl : 0 <= l < PI.
Definition arc (x : R) : R := sqrt (K * (cos l - cos x)).
Lemma cos_sym x : cos (2 * PI - x) = cos x.
Proof. rewrite <- (cos_neg x). replace (2 * PI - x) with (- x + 2 * INR 1 * PI) by (simpl; lra). apply cos_period. Qed.
Lemma cos_below x : l < x < 2 * PI - l -> cos x < cos l.
Proof.
  intros H. destruct (Rle_dec x PI). { apply cos_decreasing_1; lra. }
  rewrite <- cos_sym. apply cos_decreasing_1; lra.
Qed.
Lemma cos_below_eq x : l <= x <= 2 * PI - l -> cos x <= cos l.
Proof.
  intros H. destruct (Req_dec x l) as [->|N1]; [lra|]. destruct (Req_dec x (2 * PI - l)) as [->|N2]; [rewrite cos_sym; lra|].
  left. apply cos_below. lra.
Qed.
Lemma inner_lim x : derivable_pt_lim (fun x => K * (cos l - cos x)) x (K * sin x).
Proof.
  replace (K * sin x) with (K * (0 - - sin x)) by ring. apply (derivable_pt_lim_scal (fun x => cos l - cos x)).
  apply derivable_pt_lim_minus; [apply derivable_pt_lim_const|apply derivable_pt_lim_cos].
Qed.
Lemma arc_cont x : l <= x <= 2 * PI - l -> continuity_pt arc x.
Proof.
  intros H. apply (continuity_pt_comp (fun x => K * (cos l - cos x)) sqrt).
  - apply derivable_continuous_pt. exists (K * sin x). apply inner_lim.
  - apply continuity_pt_sqrt. cbv beta. assert (C := cos_below_eq x H). apply Rmult_le_pos; lra.
Qed.
Definition arc' (x : R) : R := / (2 * sqrt (K * (cos l - cos x))) * (K * sin x).
Lemma arc_lim x : l < x < 2 * PI - l -> derivable_pt_lim arc x (arc' x).
Proof.
  intros H. apply (derivable_pt_lim_comp (fun x => K * (cos l - cos x)) sqrt); [apply inner_lim|].
  apply derivable_pt_lim_sqrt. assert (C := cos_below x H). nra.
Qed.
(** The second derivative is not positive. *)
Definition arc'' (x : R) : R :=
  (- (/ (2 * sqrt (K * (cos l - cos x))) * (K * sin x) * 2) / (2 * sqrt (K * (cos l - cos x)))²) * (K * sin x) + / (2 * sqrt (K * (cos l - cos x))) * (K * cos x).
Lemma arc'_lim x : l < x < 2 * PI - l -> derivable_pt_lim arc' x (arc'' x).
Proof.
  intros H. assert (C := cos_below x H). assert (P : 0 < K * (cos l - cos x)) by nra. assert (S0 := sqrt_lt_R0 _ P).
  unfold arc', arc''.
  apply (derivable_pt_lim_mult (fun x => / (2 * sqrt (K * (cos l - cos x)))) (fun x => K * sin x)).
  - assert (D : derivable_pt_lim (fun x => 2 * arc x) x (/ (2 * sqrt (K * (cos l - cos x))) * (K * sin x) * 2)).
    { replace (/ (2 * sqrt (K * (cos l - cos x))) * (K * sin x) * 2) with (2 * (/ (2 * sqrt (K * (cos l - cos x))) * (K * sin x))) by ring.
      apply (derivable_pt_lim_scal arc). apply arc_lim. auto. }
    assert (Q := derivable_pt_lim_div (fun _ => 1) (fun x => 2 * arc x) x 0 _ (derivable_pt_lim_const 1 x) D).
    cbv beta in Q. assert (NZ : 2 * arc x <> 0) by (unfold arc; lra). specialize (Q NZ).
    intros eps He. destruct (Q eps He) as [del Hd]. exists del. intros h Hh Hb. specialize (Hd h Hh Hb). unfold div_fct, arc in Hd.
    replace (- (/ (2 * sqrt (K * (cos l - cos x))) * (K * sin x) * 2) / (2 * sqrt (K * (cos l - cos x)))²) with
      ((0 * (2 * sqrt (K * (cos l - cos x))) - / (2 * sqrt (K * (cos l - cos x))) * (K * sin x) * 2 * 1) / (2 * sqrt (K * (cos l - cos x)))²)
      by (unfold Rdiv; ring).
    assert (O : forall y, 1 / y = / y) by (intros; unfold Rdiv; ring). rewrite !O in Hd. exact Hd.
  - apply (derivable_pt_lim_scal sin). apply derivable_pt_lim_sin.
Qed.
Lemma arc''_neg x : l < x < 2 * PI - l -> arc'' x <= 0.
Proof.
  intros H. assert (C := cos_below x H). assert (P : 0 < K * (cos l - cos x)) by nra. assert (S0 := sqrt_lt_R0 _ P).
  assert (Q : sqrt (K * (cos l - cos x)) * sqrt (K * (cos l - cos x)) = K * (cos l - cos x)) by (apply sqrt_sqrt; lra).
  unfold arc''. set (s := sqrt (K * (cos l - cos x))) in *. unfold Rsqr.
  assert (E : - (/ (2 * s) * (K * sin x) * 2) / (2 * s * (2 * s)) * (K * sin x) + / (2 * s) * (K * cos x) =
    K / (4 * (s * s) * s) * (2 * cos x * (s * s) - K * (sin x * sin x))) by (field; lra).
  rewrite E, Q. assert (T := sin2_cos2 x). unfold Rsqr in T.
  assert (G : 2 * cos x * (K * (cos l - cos x)) - K * (sin x * sin x) <= 0).
  { replace (sin x * sin x) with (1 - cos x * cos x) by lra.
    replace (2 * cos x * (K * (cos l - cos x)) - K * (1 - cos x * cos x)) with (- (K * (cos x * cos x - 2 * cos x * cos l + 1))) by ring.
    assert (0 <= cos x * cos x - 2 * cos x * cos l + 1).
    { assert (B := COS_bound l). assert (0 <= (cos x - cos l) * (cos x - cos l)) by (apply Rle_0_sqr). nra. }
    nra. }
  assert (0 <= K / (4 * (K * (cos l - cos x)) * s)). { apply Rmult_le_pos; [lra|]. apply Rlt_le, Rinv_0_lt_compat. nra. }
  nra.
Qed.
Lemma arc_concave : concave arc l (2 * PI - l).
Proof.
  apply (concave_derivative arc arc'); [apply arc_lim|apply arc_cont|]. intros x y Hx Hxy Hy.
  assert (G : - arc' x <= - arc' y); [|lra].
  apply (grows (fun x => - arc' x) (fun x => - arc'' x)); [lra| | |].
  - intros z Hz. apply (derivable_pt_lim_opp arc'). apply arc'_lim. lra.
  - intros z Hz. apply derivable_continuous_pt. exists (- arc'' z). apply (derivable_pt_lim_opp arc'). apply arc'_lim. lra.
  - intros z Hz. assert (Q := arc''_neg z ltac:(lra)). lra.
Qed.
Lemma arc_up x y : l <= x -> x <= y -> y <= (l + (2 * PI - l)) / 2 -> arc x <= arc y.
Proof.
  intros Hx H Hy. apply sqrt_le_1_alt. apply Rmult_le_compat_l; [lra|]. assert (cos y <= cos x) by (apply cos_decr_1; lra). lra.
Qed.
Lemma arc_down x y : (l + (2 * PI - l)) / 2 <= x -> x <= y -> y <= 2 * PI - l -> arc y <= arc x.
Proof.
  intros Hx H Hy. apply sqrt_le_1_alt. apply Rmult_le_compat_l; [lra|]. assert (cos x <= cos y) by (apply cos_incr_1; lra). lra.
Qed.
Lemma arc_left : arc l = 0.
Proof. unfold arc. replace (K * (cos l - cos l)) with 0 by ring. apply sqrt_0. Qed.
Lemma arc_right : arc (2 * PI - l) = 0.
Proof. unfold arc. rewrite cos_sym. apply arc_left. Qed.

(** The trapezoidal rule and the integral. *)
Lemma arc_area (pr : Riemann_integrable arc l (2 * PI - l)) m : (0 < m)%nat ->
  (1 - 2 / INR (2 * m - 1)) * RiemannInt pr <=
  trapz ((2 * PI - l - l) / INR (2 * m - 1)) (tab (2 * m) (fun i => arc (l + INR i * ((2 * PI - l - l) / INR (2 * m - 1))))) <= RiemannInt pr.
Proof.
  intros Hm. assert (h : l <= 2 * PI - l) by lra. set (F := primitive h (FTC_P1 h arc_cont)).
  rewrite (RiemannInt_P20 h (FTC_P1 h arc_cont) pr). fold F.
  apply (trapz_close arc F); auto; [lra| |apply arc_concave|apply arc_up|apply arc_down|apply arc_left|apply arc_right].
  intros x Hx. apply RiemannInt_P28. auto.
Qed.
Lemma arc_integrable : Riemann_integrable arc l (2 * PI - l).
Proof. apply continuity_implies_RiemannInt; [lra|]. apply arc_cont. Qed.
End Height.
