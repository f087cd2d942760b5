(** Lemmas on machines given by programs. *)
From Coq Require Import Reals List ZArith Bool Lia Lra Psatz.
From Verif Require Import Base.Res Base.ResLemmas Base.QcLib Base.QcLemmas Base.RLib Model.MParticles Model.MTrack Model.MPreproc Model.MMachine Model.MPrograms Spec.MachineSpec Spec.ProgramsSpec Proof.PInput Proof.PParticles Proof.PMachine Proof.PSelf.
Import ListNotations.
Local Open Scope R_scope.

Lemma at_np : forall l i, (i < length l)%nat -> np_get l (Z.of_nat i) = Ok (at_ l i).
Proof. intros. apply np_get_ok. apply nth_error_nth'. auto. Qed.
Lemma at_app1 : forall l r i, (i < length l)%nat -> at_ (l ++ r) i = at_ l i.
Proof. intros. unfold at_. apply app_nth1. auto. Qed.
Lemma at_last : forall l x, at_ (l ++ [x]) (length l) = x.
Proof. intros. unfold at_. apply nth_middle. Qed.
Lemma np_get_over : forall A (l : list A), np_get l (Z.of_nat (length l)) = Fail (Raised IndexError).
Proof.
  intros. unfold np_get. cbv zeta. destruct (Z.ltb_spec (Z.of_nat (length l)) 0); [lia|].
  destruct (Z.leb_spec (Z.of_nat (length l)) (Z.of_nat (length l))); [|lia]. rewrite orb_true_r. auto.
Qed.
Lemma mapM_at : forall (f : R -> res R) l r, mapM f l = Ok r ->
  length r = length l /\ forall i, (i < length l)%nat -> f (at_ l i) = Ok (at_ r i).
Proof.
  intros f l. induction l as [|a l IH]; intros r H; cbn in H.
  - injection H as <-. split; auto. intros; cbn in *; lia.
  - apply bind_ok in H. destruct H as [b [E H]]. apply bind_ok in H. destruct H as [r' [E' H]]. injection H as <-.
    destruct (IH _ E') as [L P]. split; [cbn; auto|]. intros [|i] Hi; [exact E|]. apply P. cbn in Hi. lia.
Qed.

(** ** Speed and period *)

Section Speed.
Variable m : programmed.
Variable Hr : 0 < pg_radius m.

Lemma hyp_pos : forall p e, 0 < p -> 0 < p ^ 2 + e ^ 2.
Proof. intros. assert (0 < p ^ 2) by (apply pow_lt; auto). assert (0 <= e ^ 2) by apply pow2_ge_0. lra. Qed.
Lemma speed_pos : forall e p, 0 < p -> 0 < speed e p.
Proof. intros. unfold speed. apply Rdiv_lt_0_compat; auto. apply sqrt_lt_R0. apply hyp_pos. auto. Qed.
Lemma speed_le : forall e p, 0 < p -> speed e p <= 1.
Proof.
  intros. assert (D : 0 < sqrt (p ^ 2 + e ^ 2)) by (apply sqrt_lt_R0; apply hyp_pos; auto).
  unfold speed. apply (Rmult_le_reg_r (sqrt (p ^ 2 + e ^ 2))); auto. unfold Rdiv. rewrite Rmult_assoc, Rinv_l, Rmult_1_l, Rmult_1_r by lra.
  rewrite <- (sqrt_pow2 p) at 1 by lra. apply sqrt_le_1_alt. assert (0 <= e ^ 2) by apply pow2_ge_0. lra.
Qed.
Lemma beta_val : forall p, 0 < p -> beta_of m p = Ok (speed (pg_e_rest m) p).
Proof.
  intros p Hp. unfold beta_of. set (e := pg_e_rest m). rewrite rdiv_val by lra. cbn [bind].
  assert (0 <= (e / p) ^ 2) by apply pow2_ge_0.
  rewrite rdiv_val by lra. cbn [bind]. assert (Q : 0 < 1 / (1 + (e / p) ^ 2)) by (apply Rdiv_lt_0_compat; lra).
  rewrite rsqrt_val by lra. f_equal. unfold speed. assert (D := hyp_pos p e Hp).
  replace (1 / (1 + (e / p) ^ 2)) with (p ^ 2 / (p ^ 2 + e ^ 2)).
  - rewrite sqrt_div_alt by lra. rewrite sqrt_pow2 by lra. auto.
  - field. split; [|lra]. nra.
Qed.
Lemma circ_pos : 0 < circumference m.
Proof. unfold circumference. assert (P := PI_RGT_0). assert (0 < 2 * PI) by lra. apply Rmult_lt_0_compat; auto. Qed.
Lemma cl_pos : 0 < c_light.
Proof. unfold c_light. lra. Qed.
Lemma period_val : forall p, 0 < p -> period_of m (speed (pg_e_rest m) p) = Ok (revolution m p).
Proof.
  intros. unfold period_of. rewrite rdiv_val; [reflexivity|].
  assert (S := speed_pos (pg_e_rest m) p H). assert (C := cl_pos). nra.
Qed.
Lemma revolution_ge : forall p, 0 < p -> circumference m / c_light <= revolution m p.
Proof.
  intros. unfold revolution. fold (circumference m). assert (S := speed_pos (pg_e_rest m) p H). assert (L := speed_le (pg_e_rest m) p H).
  assert (C := cl_pos). assert (K := circ_pos). unfold Rdiv. apply Rmult_le_compat_l; [lra|].
  apply Rinv_le_contravar; nra.
Qed.
Lemma delta_pos : 0 < circumference m / c_light.
Proof. apply Rdiv_lt_0_compat; [apply circ_pos|apply cl_pos]. Qed.
Lemma revolution_pos : forall p, 0 < p -> 0 < revolution m p.
Proof. intros. assert (A := revolution_ge p H). assert (B := delta_pos). lra. Qed.
Lemma speed_mono : forall e p q, 0 < p -> p <= q -> speed e p <= speed e q.
Proof.
  intros e p q Hp Hq. unfold speed. assert (A := hyp_pos p e Hp). assert (B := hyp_pos q e ltac:(lra)).
  assert (SA : 0 < sqrt (p ^ 2 + e ^ 2)) by (apply sqrt_lt_R0; auto). assert (SB : 0 < sqrt (q ^ 2 + e ^ 2)) by (apply sqrt_lt_R0; auto).
  assert (K : p * sqrt (q ^ 2 + e ^ 2) <= q * sqrt (p ^ 2 + e ^ 2)).
  { rewrite <- (sqrt_pow2 p) at 1 by lra. rewrite <- (sqrt_pow2 q) at 2 by lra.
    rewrite <- !sqrt_mult_alt by apply pow2_ge_0. apply sqrt_le_1_alt.
    assert (0 <= e ^ 2) by apply pow2_ge_0. assert (p ^ 2 <= q ^ 2) by (apply pow_incr; lra). nra. }
  apply (Rmult_le_reg_r (sqrt (p ^ 2 + e ^ 2) * sqrt (q ^ 2 + e ^ 2))); [nra|].
  replace (p / sqrt (p ^ 2 + e ^ 2) * (sqrt (p ^ 2 + e ^ 2) * sqrt (q ^ 2 + e ^ 2))) with (p * sqrt (q ^ 2 + e ^ 2)) by (field; lra).
  replace (q / sqrt (q ^ 2 + e ^ 2) * (sqrt (p ^ 2 + e ^ 2) * sqrt (q ^ 2 + e ^ 2))) with (q * sqrt (p ^ 2 + e ^ 2)) by (field; lra). auto.
Qed.
Lemma revolution_mono : forall p q, 0 < p -> p <= q -> revolution m q <= revolution m p.
Proof.
  intros. unfold revolution. fold (circumference m). assert (S := speed_pos (pg_e_rest m) p H). assert (L := speed_mono (pg_e_rest m) p q H H0).
  assert (C := cl_pos). assert (K := circ_pos). unfold Rdiv. apply Rmult_le_compat_l; [lra|].
  apply Rinv_le_contravar; nra.
Qed.
End Speed.

(** ** The growing lists *)

Lemma line_between : forall a b x t0 t1 t, t0 < t1 -> t0 <= t <= t1 ->
  (x - a) * (t1 - t0) = (b - a) * (t - t0) -> forall lo, lo <= a -> lo <= b -> lo <= x.
Proof.
  intros a b x t0 t1 t H H1 E lo Ha Hb. assert (0 <= (x - lo) * (t1 - t0)).
  { replace ((x - lo) * (t1 - t0)) with ((a - lo) * (t1 - t) + (b - lo) * (t - t0)) by nra.
    assert (0 <= (a - lo) * (t1 - t)) by (apply Rmult_le_pos; lra). assert (0 <= (b - lo) * (t - t0)) by (apply Rmult_le_pos; lra). lra. }
  nra.
Qed.
Lemma line_between' : forall a b x t0 t1 t, t0 < t1 -> t0 <= t <= t1 ->
  (x - a) * (t1 - t0) = (b - a) * (t - t0) -> 0 < a -> 0 < b -> 0 < x.
Proof.
  intros. assert (K := line_between a b x t0 t1 t H H0 H1 (Rmin a b) (Rmin_l _ _) (Rmin_r _ _)).
  assert (0 < Rmin a b) by (apply Rmin_glb_lt; auto). lra.
Qed.

Section Grow.
Variables (m : programmed) (time mom : list R).
Variable G : good_program m time mom.
Let len := length time.
Let delta := circumference m / c_light.
Let Hr := gp_radius _ _ _ G.

(** n+1 momenta are known; k points of the program lie behind. *)
Record inv (k n : nat) (s : growing) : Prop := {
  iv_i : gr_i s = Z.of_nat n;
  iv_mom : length (gr_mom s) = S n;
  iv_time : length (gr_time s) = S (S n);
  iv_p0 : at_ (gr_mom s) 0 = at_ mom 0;
  iv_t0 : at_ (gr_time s) 0 = at_ time 0 + revolution m (at_ mom 0);
  iv_pos : forall j, (j <= n)%nat -> 0 < at_ (gr_mom s) j;
  iv_step : forall j, (j <= n)%nat -> at_ (gr_time s) (S j) = at_ (gr_time s) j + revolution m (at_ (gr_mom s) j);
  iv_line : forall j, (j < n)%nat -> on_line time mom (at_ (gr_time s) (S j)) (at_ (gr_mom s) (S j));
  iv_behind : at_ time (k - 1) < at_ (gr_time s) (S n) }.

(** The turns counted are those after t_ref. *)
Definition counted (n : nat) (s : growing) : Prop :=
  exists f, (f <= S (S n))%nat /\ (forall j, (j < f)%nat -> at_ (gr_time s) j <= pg_t_ref m) /\
    (forall j, (f <= j <= S n)%nat -> pg_t_ref m < at_ (gr_time s) j) /\
    gr_turn s = (pg_i0 m + Z.max 0 (Z.of_nat (S (S n)) - Z.max 2 (Z.of_nat f)))%Z.

Lemma grow_ok : forall k n s, (0 < k < len)%nat -> inv k n s -> counted n s -> at_ (gr_time s) (S n) <= at_ time k ->
  exists s', grow m time mom (Z.of_nat k) s = Ok s' /\ inv k (S n) s' /\ counted (S n) s' /\
    at_ (gr_time s) (S n) + delta <= at_ (gr_time s') (S (S n)).
Proof.
  intros k n s Hk I C Le. destruct I.
  assert (gp_len0 := gp_len _ _ _ G). assert (gp_some0 := gp_some _ _ _ G). assert (gp_inc0 := gp_inc _ _ _ G). assert (gp_pos0 := gp_pos _ _ _ G).
  unfold grow.
  destruct k as [|k]; [lia|]. replace (S k - 1)%nat with k in iv_behind0 by lia.
  replace (Z.of_nat (S k) - 1)%Z with (Z.of_nat k) by lia. rewrite iv_i0. replace (Z.of_nat n + 1)%Z with (Z.of_nat (S n)) by lia.
  fold len in gp_len0, gp_some0.
  rewrite (at_np mom k), (at_np mom (S k)), (at_np (gr_time s) (S n)), (at_np time k), (at_np time (S k)) by (unfold len in *; lia).
  cbn [bind]. set (t := at_ (gr_time s) (S n)) in *.
  assert (Inc := gp_inc0 k ltac:(unfold len in *; lia)).
  rewrite rdiv_val by lra. cbn [bind].
  set (p := at_ mom k + (at_ mom (S k) - at_ mom k) * (t - at_ time k) / (at_ time (S k) - at_ time k)).
  assert (M1 : at_ (gr_mom s ++ [p]) (S n) = p) by (rewrite <- iv_mom0; apply at_last).
  rewrite (at_np (gr_mom s ++ [p])) by (rewrite app_length; cbn; lia). rewrite M1. cbn [bind].
  assert (Ln : (p - at_ mom k) * (at_ time (S k) - at_ time k) = (at_ mom (S k) - at_ mom k) * (t - at_ time k)) by (unfold p; field; lra).
  assert (Hp : 0 < p).
  { apply (line_between' (at_ mom k) (at_ mom (S k)) p (at_ time k) (at_ time (S k)) t); auto; try lra; apply gp_pos0; unfold len in *; lia. }
  rewrite beta_val by auto. cbn [bind]. rewrite period_val by auto. cbn [bind].
  replace (Z.of_nat (S n) + 1)%Z with (Z.of_nat (length (gr_time s))) by lia.
  rewrite at_np by (rewrite app_length; cbn; lia). rewrite at_last. cbn [bind].
  set (t' := t + revolution m p). eexists. split; [reflexivity|].
  assert (T0 : forall j, (j < S (S n))%nat -> at_ (gr_time s ++ [t']) j = at_ (gr_time s) j) by (intros; apply at_app1; lia).
  assert (T1 : at_ (gr_time s ++ [t']) (S (S n)) = t') by (rewrite <- iv_time0; apply at_last).
  assert (M0 : forall j, (j < S n)%nat -> at_ (gr_mom s ++ [p]) j = at_ (gr_mom s) j) by (intros; apply at_app1; lia).
  assert (D := revolution_ge m Hr p Hp). assert (D' := delta_pos m Hr).
  split; [|split].
  - constructor; cbn [gr_i gr_mom gr_time].
    + reflexivity.
    + rewrite app_length. cbn. lia.
    + rewrite app_length. cbn. lia.
    + rewrite M0 by lia. auto.
    + rewrite T0 by lia. auto.
    + intros j Hj. destruct (Nat.eq_dec j (S n)) as [->|]; [rewrite M1; auto|rewrite M0 by lia; apply iv_pos0; lia].
    + intros j Hj. destruct (Nat.eq_dec j (S n)) as [->|]; [rewrite M1, T1, T0 by lia; reflexivity|rewrite M0, !T0 by lia; apply iv_step0; lia].
    + intros j Hj. destruct (Nat.eq_dec j n) as [->|]; [|rewrite M0, T0 by lia; apply iv_line0; lia].
      rewrite M1, T0 by lia. exists k. split; [unfold len in *; lia|]. fold t. split; [lra|auto].
    + rewrite T1. replace (S k - 1)%nat with k by lia. unfold t'. lra.
  - destruct C as (f & F1 & F2 & F3 & F4). unfold counted. cbn [gr_time gr_turn].
    destruct (Rlt_dec (pg_t_ref m) t') as [Lt|Ge].
    + exists f. split; [lia|]. split; [intros; rewrite T0 by lia; auto|]. split.
      * intros j Hj. destruct (Nat.eq_dec j (S (S n))) as [->|]; [rewrite T1; auto|rewrite T0 by lia; apply F3; lia].
      * rewrite F4. lia.
    + assert (f = S (S n)).
      { destruct (Nat.eq_dec f (S (S n))); auto. exfalso. assert (X := F3 (S n) ltac:(lia)). fold t in X. unfold t' in Ge. lra. }
      subst f. exists (S (S (S n))). split; [lia|]. split.
      * intros j Hj. destruct (Nat.eq_dec j (S (S n))) as [->|]; [rewrite T1; lra|rewrite T0 by lia; apply F2; lia].
      * split; [intros; lia|]. rewrite F4. lia.
  - cbn [gr_time]. rewrite T1. unfold t'. unfold delta. lra.
Qed.

Lemma inv_next : forall k n s, inv k n s -> at_ time k < at_ (gr_time s) (S n) -> inv (S k) n s.
Proof. intros k n s I H. destruct I. constructor; auto. replace (S k - 1)%nat with k by lia. auto. Qed.

Lemma grow_to_cases : forall f k n s, (k < len)%nat -> inv k n s -> counted n s ->
  (grow_to f m time mom (Z.of_nat k) s = Fail OutOfFuel /\ at_ (gr_time s) (S n) + INR f * delta <= at_ time k) \/
  exists s' n', grow_to f m time mom (Z.of_nat k) s = Ok s' /\ inv (S k) n' s' /\ counted n' s' /\
    at_ (gr_time s) (S n) <= at_ (gr_time s') (S n').
Proof.
  induction f as [|f IH]; intros k n s Hk I C.
  - cbn [grow_to]. rewrite (iv_i _ _ _ I). replace (Z.of_nat n + 1)%Z with (Z.of_nat (S n)) by lia.
    rewrite (at_np (gr_time s)) by (rewrite (iv_time _ _ _ I); lia). cbn [bind].
    rewrite at_np by auto. cbn [bind]. destruct (Rle_dec (at_ (gr_time s) (S n)) (at_ time k)) as [L|N].
    + left. split; auto. cbn [INR]. lra.
    + right. exists s, n. split; auto. split; [apply inv_next; auto; lra|]. split; auto. lra.
  - cbn [grow_to]. rewrite (iv_i _ _ _ I). replace (Z.of_nat n + 1)%Z with (Z.of_nat (S n)) by lia.
    rewrite (at_np (gr_time s)) by (rewrite (iv_time _ _ _ I); lia). cbn [bind].
    rewrite at_np by auto. cbn [bind]. destruct (Rle_dec (at_ (gr_time s) (S n)) (at_ time k)) as [L|N].
    + assert (K0 : (0 < k)%nat). { destruct k; [|lia]. assert (B := iv_behind _ _ _ I). cbn [Nat.sub] in B. lra. }
      destruct (grow_ok k n s ltac:(lia) I C L) as (s' & E & I' & C' & D). rewrite E. cbn [bind].
      destruct (IH k (S n) s' Hk I' C') as [[E1 B]|(s2 & n2 & E1 & I2 & C2 & B)].
      * left. split; auto. rewrite S_INR. lra.
      * right. exists s2, n2. split; auto. split; auto. split; auto. assert (D' := delta_pos m Hr). fold delta in D'. lra.
    + right. exists s, n. split; auto. split; [apply inv_next; auto; lra|]. split; auto. lra.
Qed.

Lemma inc_le : forall i j, (i <= j < len)%nat -> at_ time i <= at_ time j.
Proof.
  intros i j H. induction j as [|j IH]; [replace i with 0%nat by lia; lra|].
  destruct (Nat.eq_dec i (S j)) as [->|]; [lra|]. specialize (IH ltac:(lia)).
  assert (K := gp_inc _ _ _ G j ltac:(unfold len in *; lia)). lra.
Qed.

Lemma grow_all_cases : forall fuel nt r k n s, (r + k = S len)%nat -> (k <= len)%nat -> inv k n s -> counted n s ->
  at_ time 0 < at_ (gr_time s) (S n) ->
  (grow_all fuel r m time mom nt (Z.of_nat k) s = Fail OutOfFuel /\ INR fuel * delta <= at_ time (len - 1) - at_ time 0) \/
  (grow_all fuel r m time mom nt (Z.of_nat k) s = Fail (Raised IndexError) /\
   exists s' n', inv len n' s' /\ counted n' s' /\ (gr_turn s' < nt)%Z) \/
  exists s' k' n', grow_all fuel r m time mom nt (Z.of_nat k) s = Ok s' /\ inv k' n' s' /\ counted n' s' /\ (nt <= gr_turn s')%Z.
Proof.
  intros fuel nt. induction r as [|r IH]; intros k n s Hr' Hk I C B; [lia|].
  cbn [grow_all]. destruct (Z.ltb_spec (gr_turn s) nt) as [L|L]; [|right; right; exists s, k, n; auto].
  destruct (Nat.eq_dec k len) as [->|].
  - right. left. split; [|exists s, n; auto]. destruct fuel; cbn [grow_to]; rewrite (iv_i _ _ _ I); replace (Z.of_nat n + 1)%Z with (Z.of_nat (S n)) by lia;
      rewrite (at_np (gr_time s)) by (rewrite (iv_time _ _ _ I); lia); cbn [bind]; unfold len; rewrite np_get_over; reflexivity.
  - destruct (grow_to_cases fuel k n s ltac:(lia) I C) as [[E X]|(s' & n' & E & I' & C' & X)]; rewrite E; cbn [bind].
    + left. split; auto. assert (K := inc_le k (len - 1) ltac:(lia)). lra.
    + replace (Z.of_nat k + 1)%Z with (Z.of_nat (S k)) by lia. apply (IH (S k) n' s'); auto; lia || lra.
Qed.

Definition start : growing :=
  let p := at_ mom 0 in
  Growing [at_ time 0 + revolution m p; at_ time 0 + revolution m p + revolution m p] [speed (pg_e_rest m) p] [p] 0 (pg_i0 m).
Lemma start_inv : inv 0 0 start.
Proof.
  assert (P := gp_pos _ _ _ G 0%nat (gp_some _ _ _ G)). assert (R := revolution_pos m Hr _ P).
  constructor; unfold start; try reflexivity.
  - intros j Hj. replace j with 0%nat by lia. exact P.
  - intros j Hj. replace j with 0%nat by lia. reflexivity.
  - intros; lia.
  - unfold at_ at 2. cbn. fold (at_ time 0) (at_ mom 0). lra.
Qed.
Lemma start_counted : counted 0 start.
Proof.
  assert (P := gp_pos _ _ _ G 0%nat (gp_some _ _ _ G)). assert (R := revolution_pos m Hr _ P).
  unfold counted, start. cbn [gr_time gr_turn]. set (p := at_ mom 0) in *. set (a := at_ time 0 + revolution m p).
  destruct (Rlt_dec (pg_t_ref m) a) as [L1|N1]; [|destruct (Rlt_dec (pg_t_ref m) (a + revolution m p)) as [L2|N2]].
  - exists 0%nat. split; [lia|]. split; [intros; lia|]. split; [|lia].
    intros [|[|j]] Hj; [| |lia]; unfold at_; cbn; lra.
  - exists 1%nat. split; [lia|]. split; [intros [|j] Hj; [|lia]; unfold at_; cbn; lra|]. split; [|lia].
    intros [|[|j]] Hj; [lia| |lia]; unfold at_; cbn; lra.
  - exists 2%nat. split; [lia|]. split; [intros [|[|j]] Hj; [| |lia]; unfold at_; cbn; lra|]. split; [|lia].
    intros j Hj; lia.
Qed.
Lemma interpolated_eq : forall fuel, interpolated fuel m time mom =
  (s <- grow_all fuel (S len) m time mom (pg_nturns m) 0 start ;; Ok (removelast (gr_time s), gr_mom s)).
Proof.
  intros. assert (P := gp_pos _ _ _ G 0%nat (gp_some _ _ _ G)). assert (gp_len0 := gp_len _ _ _ G). assert (gp_some0 := gp_some _ _ _ G). unfold interpolated.
  change 0%Z with (Z.of_nat 0) at 1 2. rewrite !at_np by lia. cbn [bind].
  rewrite beta_val by auto. cbn [bind]. rewrite period_val by auto. cbn [bind]. reflexivity.
Qed.
Lemma interpolated_cases : forall fuel,
  (interpolated fuel m time mom = Fail OutOfFuel /\ INR fuel * delta <= at_ time (len - 1) - at_ time 0) \/
  (interpolated fuel m time mom = Fail (Raised IndexError) /\
   exists s' n', inv len n' s' /\ counted n' s' /\ (gr_turn s' < pg_nturns m)%Z) \/
  exists s k n, interpolated fuel m time mom = Ok (removelast (gr_time s), gr_mom s) /\ inv k n s /\ counted n s /\
    (pg_nturns m <= gr_turn s)%Z.
Proof.
  intros. rewrite interpolated_eq. assert (P := gp_pos _ _ _ G 0%nat (gp_some _ _ _ G)). assert (R := revolution_pos m Hr _ P).
  destruct (grow_all_cases fuel (pg_nturns m) (S len) 0 0 start ltac:(lia) ltac:(lia) start_inv start_counted) as [[E X]|[[E X]|(s & k & n & E & X)]].
  - apply (iv_behind _ _ _ start_inv).
  - left. change (Z.of_nat 0) with 0%Z in E. rewrite E. auto.
  - right. left. change (Z.of_nat 0) with 0%Z in E. rewrite E. auto.
  - right. right. exists s, k, n. change (Z.of_nat 0) with 0%Z in E. rewrite E. auto.
Qed.
End Grow.

Lemma removelast_at : forall l i, (S i < length l)%nat -> at_ (removelast l) i = at_ l i.
Proof.
  intros l i H. destruct l as [|a l] using rev_ind; [cbn in H; lia|]. rewrite removelast_last.
  rewrite app_length in H. cbn in H. symmetry. apply at_app1. lia.
Qed.
Lemma removelast_length : forall (l : list R), length (removelast l) = (length l - 1)%nat.
Proof. intros l. destruct l as [|a l] using rev_ind; [reflexivity|]. rewrite removelast_last, app_length. cbn. lia. Qed.

(** ** The window *)

Lemma first_spec : forall x l i z, first_not_before x i l = Ok z ->
  exists k, z = (i + Z.of_nat k)%Z /\ first_at l x k.
Proof.
  intros x l. induction l as [|y l IH]; intros i z H; [discriminate|]. cbn in H.
  destruct (Rle_dec x y) as [L|N].
  - injection H as <-. exists 0%nat. split; [lia|]. split; [cbn; lia|]. split; [exact L|]. intros; lia.
  - apply IH in H. destruct H as (k & -> & L & A & B). exists (S k). split; [lia|]. split; [cbn; lia|]. split; [exact A|].
    intros [|j] Hj; [unfold at_; cbn; lra|]. apply B. lia.
Qed.
Lemma first_fail : forall x l i e, first_not_before x i l = Fail e -> e = Raised ValueError /\ forall j, (j < length l)%nat -> at_ l j < x.
Proof.
  intros x l. induction l as [|y l IH]; intros i e H; cbn in H.
  - injection H as <-. split; auto. intros j Hj; cbn in Hj; lia.
  - destruct (Rle_dec x y) as [L|N]; [discriminate|]. apply IH in H. destruct H as [-> H]. split; auto.
    intros [|j] Hj; [unfold at_; cbn; lra|]. apply H. cbn in Hj. lia.
Qed.
Lemma slice_at : forall (l : list R) a b, (a <= b)%nat ->
  length (slice l (Z.of_nat a) (Z.of_nat b)) = (Nat.min b (length l) - Nat.min a (length l))%nat /\
  forall i, (i < Nat.min b (length l) - a)%nat -> at_ (slice l (Z.of_nat a) (Z.of_nat b)) i = at_ l (a + i).
Proof.
  intros l a b H. unfold slice. cbv zeta. 
  assert (P : forall n, pyidx (length l) (Z.of_nat n) = Nat.min n (length l)).
  { intros. unfold pyidx. destruct (Z.ltb_spec (Z.of_nat n) 0); lia. }
  rewrite !P. split.
  - rewrite firstn_length, skipn_length. lia.
  - intros i Hi. unfold at_. replace (Nat.min a (length l)) with a by lia.
    assert (N : forall (q : list R) n j, (j < n)%nat -> nth j (firstn n q) 0 = nth j q 0).
    { intros q. induction q as [|y q IHq]; intros [|n] [|j] Hj; cbn; auto; try lia. apply IHq. lia. }
    rewrite N by lia. assert (K : forall (q : list R) n j, nth j (skipn n q) 0 = nth (n + j) q 0).
    { intros q. induction q as [|y q IHq]; intros [|n] j; cbn; auto; destruct j; auto. }
    apply K.
Qed.

(** ** Fuel *)
Lemma grow_to_more : forall f m time mom k s r, grow_to f m time mom k s = r -> r <> Fail OutOfFuel ->
  forall f', (f <= f')%nat -> grow_to f' m time mom k s = r.
Proof.
  intros f m time mom k. induction f as [|f IH]; intros s r H N f' Hf.
  - destruct f' as [|f']; auto. cbn [grow_to] in *. destruct (np_get (gr_time s) (gr_i s + 1)); auto. cbn [bind] in *.
    destruct (np_get time k); auto. cbn [bind] in *. destruct (Rle_dec a a0); auto. congruence.
  - destruct f' as [|f']; [lia|]. cbn [grow_to] in *. destruct (np_get (gr_time s) (gr_i s + 1)); auto. cbn [bind] in *.
    destruct (np_get time k); auto. cbn [bind] in *. destruct (Rle_dec a a0); auto.
    destruct (grow m time mom k s) as [s'|e]; auto. cbn [bind] in *. apply IH; auto. lia.
Qed.
Lemma grow_all_more : forall f r m time mom nt k s x, grow_all f r m time mom nt k s = x -> x <> Fail OutOfFuel ->
  forall f', (f <= f')%nat -> grow_all f' r m time mom nt k s = x.
Proof.
  intros f r m time mom nt. induction r as [|r IH]; intros k s x H N f' Hf; cbn [grow_all] in *; auto.
  destruct (gr_turn s <? nt)%Z; auto. destruct (grow_to f m time mom k s) as [s'|e] eqn:E.
  - rewrite (grow_to_more _ _ _ _ _ _ _ E ltac:(discriminate) f' Hf). cbn [bind] in *. apply IH; auto.
  - cbn [bind] in H. subst x. rewrite (grow_to_more _ _ _ _ _ _ _ E N f' Hf). reflexivity.
Qed.
