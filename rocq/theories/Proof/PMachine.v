(** Lemmas on the values at each turn. *)
From Coq Require Import Reals List ZArith Bool Lia Lra.
From Verif Require Import Base.Res Base.ResLemmas Base.QcLib Base.QcLemmas Base.RLib Model.MRecon Model.MParticles Model.MTrack Model.MMachine Spec.MachineSpec Proof.PInput.
Import ListNotations.
Local Open Scope R_scope.

(** ** Arrays *)

Lemma at_get : forall l i x, np_get l (Z.of_nat i) = Ok x -> at_ l i = x /\ (i < length l)%nat.
Proof.
  intros l i x H. apply np_get_nth in H; [|lia]. rewrite Nat2Z.id in H. split.
  - apply nth_error_nth. auto.
  - apply nth_error_lt in H. auto.
Qed.

Lemma pyset_inv : forall A (l : list A) i v l', pyset l (Z.of_nat i) v = Ok l' -> (i < length l)%nat /\ l' = upd l i v.
Proof.
  intros A l i v l' H. unfold pyset in H. cbv zeta in H. destruct (Z.ltb_spec (Z.of_nat i) 0); [lia|].
  cbn iota in H. destruct (Z.ltb_spec (Z.of_nat i) 0); [lia|]. cbn [orb] in H.
  destruct (Z.leb_spec (Z.of_nat (length l)) (Z.of_nat i)); [discriminate|]. injection H as <-.
  rewrite Nat2Z.id. split; auto. lia.
Qed.

Lemma at_upd : forall l i v j, (i < length l)%nat -> at_ (upd l i v) j = if Nat.eq_dec j i then v else at_ l j.
Proof.
  intros. unfold at_. destruct (Nat.eq_dec j i) as [->|N].
  - apply nth_error_nth. apply nth_error_upd_eq. auto.
  - destruct (Nat.lt_ge_cases j (length l)).
    + apply nth_error_nth. rewrite nth_error_upd_neq by auto. apply nth_error_nth'. auto.
    + rewrite !nth_overflow; auto. rewrite upd_length. auto.
Qed.
Lemma at_upd_eq : forall l i v, (i < length l)%nat -> at_ (upd l i v) i = v.
Proof. intros. rewrite at_upd by auto. destruct (Nat.eq_dec i i); congruence. Qed.
Lemma at_upd_neq : forall l i v j, (i < length l)%nat -> j <> i -> at_ (upd l i v) j = at_ l j.
Proof. intros. rewrite at_upd by auto. destruct (Nat.eq_dec j i); congruence. Qed.

Lemma rdiv_ok : forall a b x, rdiv a b = Ok x -> b <> 0 /\ x = a / b.
Proof. intros. unfold rdiv in H. destruct (Req_EM_T b 0); [discriminate|]. injection H as <-. auto. Qed.
Lemma rdiv_val : forall a b, b <> 0 -> rdiv a b = Ok (a / b).
Proof. intros. unfold rdiv. destruct (Req_EM_T b 0); [contradiction|]. auto. Qed.
Lemma rsqrt_ok : forall a x, rsqrt a = Ok x -> 0 <= a /\ x = sqrt a.
Proof. intros. unfold rsqrt in H. destruct (Rlt_dec a 0); [discriminate|]. injection H as <-. split; auto. lra. Qed.
Lemma rsqrt_val : forall a, 0 <= a -> rsqrt a = Ok (sqrt a).
Proof. intros. unfold rsqrt. destruct (Rlt_dec a 0); [lra|]. auto. Qed.

Lemma ave_ok : forall A (r : res A) x, as_value_error r = Ok x -> r = Ok x.
Proof. intros. destruct r as [a|[]]; cbn in H; auto. destruct e; discriminate. Qed.

(** ** One turn *)

Definition lens (n : nat) (s : turns) : Prop :=
  length (tn_time s) = n /\ length (tn_phi0 s) = n /\ length (tn_e0 s) = n /\ length (tn_beta0 s) = n /\ length (tn_deltaE0 s) = n.

Definition same (s s' : turns) (j : nat) : Prop :=
  at_ (tn_time s') j = at_ (tn_time s) j /\ at_ (tn_phi0 s') j = at_ (tn_phi0 s) j /\
  at_ (tn_e0 s') j = at_ (tn_e0 s) j /\ at_ (tn_beta0 s') j = at_ (tn_beta0 s) j /\
  at_ (tn_deltaE0 s') j = at_ (tn_deltaE0 s) j.
Lemma same_refl : forall s j, same s s j.
Proof. intros. repeat split. Qed.
Lemma same_trans : forall a b c j, same a b j -> same b c j -> same a c j.
Proof. intros a b c j H1 H2. unfold same in *. intuition congruence. Qed.

Section Turn.
Variable newton : (R -> R) -> R -> (R -> R) -> res R.
Variable m : rmachine.

Definition rooted (s : turns) (i : nat) : Prop :=
  exists x0, newton (rf_voltage_mch m (at_ (tn_time s) i)) x0 (drf_voltage_mch m (at_ (tn_time s) i)) = Ok (at_ (tn_phi0 s) i).
Definition gain_is (s : turns) (i j : nat) : Prop :=
  at_ (tn_deltaE0 s) j = at_ (tn_e0 s) (S i) - at_ (tn_e0 s) i.

Lemma follows_same : forall s s' i, same s s' i -> same s s' (S i) -> turn_follows m s i -> turn_follows m s' i.
Proof.
  unfold same, turn_follows. intros s s' i (A1 & A2 & A3 & A4 & A5) (B1 & B2 & B3 & B4 & B5) H.
  rewrite A1, A3, A4, B1, B2, B3. auto.
Qed.
Lemma speed_same : forall s s' i, same s s' i -> speed_of_energy m s i -> speed_of_energy m s' i.
Proof. unfold same, speed_of_energy. intros s s' i (A1 & A2 & A3 & A4 & A5) H. rewrite A3, A4. auto. Qed.
Lemma rooted_same : forall s s' i, same s s' i -> rooted s i -> rooted s' i.
Proof. unfold same, rooted. intros s s' i (A1 & A2 & A3 & A4 & A5) H. rewrite A1, A2. auto. Qed.
Lemma gain_same : forall s s' i j, same s s' i -> same s s' (S i) -> same s s' j -> gain_is s i j -> gain_is s' i j.
Proof.
  unfold same, gain_is. intros s s' i j (A1 & A2 & A3 & A4 & A5) (B1 & B2 & B3 & B4 & B5) (C1 & C2 & C3 & C4 & C5) H.
  rewrite A3, B3, C5. auto.
Qed.

Lemma beta_speed : forall e b, lorentz_beta m e = Ok b ->
  0 <= b /\ (1 - b ^ 2) * e ^ 2 = rm_e_rest m ^ 2 /\ e <> 0.
Proof.
  intros e b H. unfold lorentz_beta in H. apply bind_ok in H. destruct H as [r [Hr H]].
  apply rdiv_ok in Hr. destruct Hr as [He ->]. apply rsqrt_ok in H. destruct H as [Hp ->].
  split; [apply sqrt_pos|]. split; auto. rewrite pow2_sqrt by auto. field. auto.
Qed.

Ltac binds H :=
  repeat (lazymatch type of H with
  | bind _ _ = Ok _ => let x := fresh "v" in let E := fresh "E" in apply bind_ok in H; destruct H as [x [E H]]
  end).
Ltac fin :=
  repeat match goal with
  | |- context [at_ (upd ?l ?i ?v) ?i] => rewrite (at_upd_eq l i v) by (auto; lia)
  | |- context [at_ (upd ?l ?i ?v) ?j] => rewrite (at_upd_neq l i v j) by (auto; lia)
  end.

Ltac flds := cbn [tn_time tn_phi0 tn_e0 tn_beta0 tn_deltaE0].

Lemma turn_up_spec : forall n i s s', lens n s -> turn_up newton m (Z.of_nat (S i)) s = Ok s' ->
  lens n s' /\ (forall j, j <> S i -> same s s' j) /\ turn_follows m s' i /\ speed_of_energy m s' (S i) /\
  rooted s' (S i) /\ gain_is s' i (S i) /\ (S i < n)%nat.
Proof.
  intros n i s s' (L1 & L2 & L3 & L4 & L5) H. unfold turn_up in H. cbv zeta in H.
  replace (Z.of_nat (S i) - 1)%Z with (Z.of_nat i) in H by lia.
  binds H. injection H as <-.
  repeat match goal with
  | E : np_get _ _ = Ok _ |- _ => apply at_get in E; destruct E as [<- ?]
  | E : pyset _ _ _ = Ok _ |- _ => apply pyset_inv in E; destruct E as [? ->]
  | E : rdiv _ _ = Ok _ |- _ => apply rdiv_ok in E; destruct E as [? ->]
  | E : as_value_error _ = Ok _ |- _ => apply ave_ok in E
  end.
  match goal with E : lorentz_beta _ _ = Ok _ |- _ => apply beta_speed in E; rename E into B end.
  split; [unfold lens; flds; rewrite !upd_length; auto|].
  split; [intros j Hj; unfold same; flds; fin; auto 6|].
  split. { unfold turn_follows. flds. fin. split; [unfold rf_voltage_at_turn, rf_voltage_at_phase, vrft, rf_at; ring|].
    split; [|ring]. intros E. match goal with E1 : _ * c_light <> 0 |- _ => apply E1; rewrite E; ring end. }
  split. { unfold speed_of_energy. flds. fin. auto. }
  split. { unfold rooted. flds. fin. eexists. eassumption. }
  split; [unfold gain_is; flds; fin; ring|lia].
Qed.

Lemma turn_down_spec : forall n i s s', lens n s -> turn_down newton m (Z.of_nat i) s = Ok s' ->
  lens n s' /\ (forall j, j <> i -> same s s' j) /\ turn_follows m s' i /\ speed_of_energy m s' i /\
  rooted s' i /\ gain_is s' i i.
Proof.
  intros n i s s' (L1 & L2 & L3 & L4 & L5) H. unfold turn_down in H. cbv zeta in H.
  replace (Z.of_nat i + 1)%Z with (Z.of_nat (S i)) in H by lia.
  binds H. injection H as <-.
  repeat match goal with
  | E : np_get _ _ = Ok _ |- _ => apply at_get in E; destruct E as [<- ?]
  | E : pyset _ _ _ = Ok _ |- _ => apply pyset_inv in E; destruct E as [? ->]
  | E : rdiv _ _ = Ok _ |- _ => apply rdiv_ok in E; destruct E as [? ->]
  | E : as_value_error _ = Ok _ |- _ => apply ave_ok in E
  end.
  match goal with E : lorentz_beta _ _ = Ok _ |- _ => apply beta_speed in E; rename E into B end.
  split; [unfold lens; flds; rewrite !upd_length; auto|].
  split; [intros j Hj; unfold same; flds; fin; auto 6|].
  split. { unfold turn_follows. flds. fin. split; [unfold rf_voltage_at_turn, rf_voltage_at_phase, vrft, rf_at; ring|].
    split; [|ring]. intros E. match goal with E1 : _ * c_light <> 0 |- _ => apply E1; rewrite E; ring end. }
  split. { unfold speed_of_energy. flds. fin. auto. }
  split. { unfold rooted. flds. fin. eexists. eassumption. }
  unfold gain_is; flds; fin; ring.
Qed.

(** ** The loops *)

Lemma up_loop_spec : forall n i0 k s s', lens n s ->
  forl (tab k (fun j => Z.of_nat (i0 + 1) + Z.of_nat j)%Z) (turn_up newton m) s = Ok s' ->
  lens n s' /\ (forall j, (j <= i0)%nat -> same s s' j) /\
  (forall i, (i0 <= i < i0 + k)%nat -> turn_follows m s' i /\ speed_of_energy m s' (S i) /\ rooted s' (S i) /\ gain_is s' i (S i)).
Proof.
  intros n i0. induction k as [|k IH]; intros s s' L H.
  - cbn in H. injection H as <-. split; auto. split; [intros; apply same_refl|]. intros; lia.
  - rewrite tab_S, forl_app in H. apply bind_ok in H. destruct H as [s1 [H1 H]].
    cbn [forl] in H. apply bind_ok in H. destruct H as [s2 [H2 H]]. injection H as <-.
    destruct (IH _ _ L H1) as [L1 [S1 P1]].
    replace (Z.of_nat (i0 + 1) + Z.of_nat k)%Z with (Z.of_nat (S (i0 + k))) in H2 by lia.
    apply (turn_up_spec n) in H2; auto. destruct H2 as (L2 & S2 & F & Sp & Ro & G & _).
    split; auto. split.
    + intros j Hj. apply (same_trans _ s1); [apply S1; auto|apply S2; lia].
    + intros i Hi. destruct (Nat.eq_dec i (i0 + k)) as [->|N]; auto.
      destruct (P1 i ltac:(lia)) as (Q1 & Q2 & Q3 & Q4).
      split; [apply (follows_same s1); auto; apply S2; lia|].
      split; [apply (speed_same s1); auto; apply S2; lia|].
      split; [apply (rooted_same s1); auto; apply S2; lia|].
      apply (gain_same s1); auto; apply S2; lia.
Qed.

Lemma down_loop_spec : forall n i0 k s s', lens n s -> (k <= i0)%nat ->
  forl (tab k (fun j => Z.of_nat i0 - 1 - Z.of_nat j)%Z) (turn_down newton m) s = Ok s' ->
  lens n s' /\ (forall j, (i0 <= j)%nat -> same s s' j) /\
  (forall i, (i0 - k <= i < i0)%nat -> turn_follows m s' i /\ speed_of_energy m s' i /\ rooted s' i /\ gain_is s' i i).
Proof.
  intros n i0. induction k as [|k IH]; intros s s' L Hk H.
  - cbn in H. injection H as <-. split; auto. split; [intros; apply same_refl|]. intros; lia.
  - rewrite tab_S, forl_app in H. apply bind_ok in H. destruct H as [s1 [H1 H]].
    cbn [forl] in H. apply bind_ok in H. destruct H as [s2 [H2 H]]. injection H as <-.
    destruct (IH _ _ L ltac:(lia) H1) as [L1 [S1 P1]].
    replace (Z.of_nat i0 - 1 - Z.of_nat k)%Z with (Z.of_nat (i0 - S k)) in H2 by lia.
    apply (turn_down_spec n) in H2; auto. destruct H2 as (L2 & S2 & F & Sp & Ro & G).
    split; auto. split.
    + intros j Hj. apply (same_trans _ s1); [apply S1; auto|apply S2; lia].
    + intros i Hi. destruct (Nat.eq_dec i (i0 - S k)) as [->|N]; auto.
      destruct (P1 i ltac:(lia)) as (Q1 & Q2 & Q3 & Q4).
      split; [apply (follows_same s1); auto; apply S2; lia|].
      split; [apply (speed_same s1); auto; apply S2; lia|].
      split; [apply (rooted_same s1); auto; apply S2; lia|].
      apply (gain_same s1); auto; apply S2; lia.
Qed.

Lemma initial_spec : forall n i0 s s' z, lens n s -> (rm_ref_frame m * rm_dturns m)%Z = Z.of_nat i0 ->
  array_initial_values newton m s = Ok (s', z) ->
  z = Z.of_nat i0 /\ lens n s' /\ (i0 < n)%nat /\ tn_deltaE0 s' = tn_deltaE0 s /\ at_ (tn_time s') i0 = 0 /\
  b_to_e m = Ok (at_ (tn_e0 s') i0) /\ speed_of_energy m s' i0 /\ rooted s' i0.
Proof.
  intros n i0 s s' z (L1 & L2 & L3 & L4 & L5) Hi H. unfold array_initial_values in H. cbv zeta in H. rewrite Hi in H.
  apply bind_ok in H. destruct H as [time [E1 H]]. apply bind_ok in H. destruct H as [e [E2 H]].
  apply bind_ok in H. destruct H as [e0 [E3 H]]. apply bind_ok in H. destruct H as [b [E4 H]].
  apply bind_ok in H. destruct H as [be [E5 H]]. apply bind_ok in H. destruct H as [[lo up] [E6 H]].
  apply bind_ok in H. destruct H as [p [E7 H]]. apply bind_ok in H. destruct H as [ph [E8 H]].
  injection H as <- <-.
  apply pyset_inv in E1; destruct E1 as [? ->]. apply pyset_inv in E3; destruct E3 as [? ->].
  apply pyset_inv in E5; destruct E5 as [? ->]. apply pyset_inv in E8; destruct E8 as [? ->].
  apply ave_ok in E7. apply bind_ok in E7. destruct E7 as [ps [E7 E9]]. apply beta_speed in E4.
  split; auto. split; [unfold lens; flds; rewrite !upd_length; auto|]. split; [lia|]. split; auto.
  flds. split; [fin; auto|]. split; [fin; auto|]. split; [unfold speed_of_energy; flds; fin; auto|].
  unfold rooted; flds; fin. eexists. eassumption.
Qed.

Lemma range_up_tab : forall a b, range_up a b = tab (Z.to_nat (b - a)) (fun j => a + Z.of_nat j)%Z.
Proof. reflexivity. Qed.
Lemma range_down_tab : forall a, range_down a = tab (Z.to_nat (a + 1)) (fun j => a - Z.of_nat j)%Z.
Proof. reflexivity. Qed.

Record chain (n i0 : nat) (s : turns) : Prop := {
  ch_lens : lens n s;
  ch_i0 : (i0 < n)%nat;
  ch_time : at_ (tn_time s) i0 = 0;
  ch_e : b_to_e m = Ok (at_ (tn_e0 s) i0);
  ch_follows : forall i, (S i < n)%nat -> turn_follows m s i;
  ch_speed : forall i, (i < n)%nat -> speed_of_energy m s i;
  ch_root : forall i, (i < n)%nat -> rooted s i;
  ch_up : forall i, (i0 <= i)%nat -> (S i < n)%nat -> gain_is s i (S i);
  ch_down : forall i, (i < i0)%nat -> gain_is s i i;
  ch_ref : at_ (tn_deltaE0 s) i0 = 0 }.

Lemma mapM_length : forall A B (f : A -> res B) l r, mapM f l = Ok r -> length r = length l.
Proof. intros. apply mapM_forall2 in H. symmetry. induction H; cbn; auto. Qed.

Lemma values_spec : forall d np p v, (0 < d)%nat -> (0 < np)%nat ->
  rm_dturns m = Z.of_nat d -> rm_nprofiles m = Z.of_nat np -> rm_ref_frame m = Z.of_nat p ->
  values_at_turns newton m = Ok v ->
  all_length (d * (np - 1) + 1) v /\ chain (d * (np - 1) + 1) (p * d) (tv_turns v) /\
  mapM (phase_slip_factor m) (tn_beta0 (tv_turns v)) = Ok (tv_eta0 v) /\
  mapM (fun x => find_dphase m (fst x) (fst (snd x)) (snd (snd x)))
    (combine (tv_eta0 v) (combine (tn_e0 (tv_turns v)) (tn_beta0 (tv_turns v)))) = Ok (tv_drift_coef v) /\
  mapM (revolution_freq m) (tn_beta0 (tv_turns v)) = Ok (tv_omega_rev0 v) /\
  tv_vrf1 v = map (fun t => rm_vrf1 m + rm_vrf1dot m * t) (tn_time (tv_turns v)) /\
  tv_vrf2 v = map (fun t => rm_vrf2 m + rm_vrf2dot m * t) (tn_time (tv_turns v)).
Proof.
  intros d np p v Hd Hnp Ed En Ep H. unfold values_at_turns in H. cbv zeta in H.
  set (N := (d * (np - 1) + 1)%nat).
  assert (EN : ((rm_nprofiles m - 1) * rm_dturns m + 1 = Z.of_nat N)%Z).
  { rewrite Ed, En. unfold N. rewrite Nat2Z.inj_add, Nat2Z.inj_mul, Nat2Z.inj_sub by lia. ring. }
  rewrite EN in H. destruct (Z.ltb_spec (Z.of_nat N) 0) as [Hneg|Hneg]; [lia|].
  rewrite Nat2Z.id in H.
  apply bind_ok in H. destruct H as [[s0 z] [H0 H]].
  apply bind_ok in H. destruct H as [s1 [H1 H]]. apply bind_ok in H. destruct H as [s2 [H2 H]].
  apply bind_ok in H. destruct H as [eta [H3 H]]. apply bind_ok in H. destruct H as [dr [H4 H]].
  apply bind_ok in H. destruct H as [om [H5 H]]. injection H as <-. cbn [tv_turns tv_eta0 tv_drift_coef tv_omega_rev0 tv_vrf1 tv_vrf2].
  assert (Lz : lens N (Turns (repeat 0 N) (repeat 0 N) (repeat 0 N) (repeat 0 N) (repeat 0 N))).
  { unfold lens. cbn. rewrite repeat_length. auto. }
  apply (initial_spec N (p * d)) in H0; [|auto|rewrite Ep, Ed; lia].
  destruct H0 as (-> & L0 & Hi0 & D0 & T0 & E0 & Sp0 & Ro0). cbn in D0.
  rewrite range_up_tab in H1. replace (Z.of_nat (p * d) + 1)%Z with (Z.of_nat (p * d + 1)) in H1 by lia.
  rewrite range_down_tab in H2.
  apply (up_loop_spec N) in H1; auto. destruct H1 as (L1 & S1 & P1).
  apply (down_loop_spec N) in H2; auto; [|lia]. destruct H2 as (L2 & S2 & P2).
  assert (K1 : Z.to_nat (Z.of_nat N - Z.of_nat (p * d + 1)) = (N - 1 - p * d)%nat) by lia. rewrite K1 in P1.
  assert (K2 : Z.to_nat (Z.of_nat (p * d) - 1 + 1) = (p * d)%nat) by lia. rewrite K2 in P2.
  assert (Q : forall i, (p * d <= i)%nat -> (S i < N)%nat ->
    turn_follows m s2 i /\ speed_of_energy m s2 (S i) /\ rooted s2 (S i) /\ gain_is s2 i (S i)).
  { intros i Hi Hn. destruct (P1 i ltac:(lia)) as (Q1 & Q2 & Q3 & Q4).
    split; [apply (follows_same s1); auto; apply S2; lia|].
    split; [apply (speed_same s1); auto; apply S2; lia|].
    split; [apply (rooted_same s1); auto; apply S2; lia|].
    apply (gain_same s1); auto; apply S2; lia. }
  assert (S0 : same s0 s2 (p * d)) by (apply (same_trans _ s1); [apply S1|apply S2]; lia).
  assert (M3 := mapM_length _ _ _ _ _ H3). assert (M4 := mapM_length _ _ _ _ _ H4). assert (M5 := mapM_length _ _ _ _ _ H5).
  destruct (L2) as (A1 & A2 & A3 & A4 & A5). 
  split.
  { unfold all_length. cbn. rewrite combine_length, combine_length in M4.
    repeat constructor; rewrite ?map_length; try congruence; lia. }
  split.
  { constructor; auto.
    - destruct S0 as (B1 & _). rewrite B1. auto.
    - destruct S0 as (_ & _ & B3 & _). rewrite B3. auto.
    - intros i Hi. destruct (Nat.lt_ge_cases i (p * d)); [apply P2; lia|apply Q; auto].
    - intros i Hi. destruct (Nat.lt_ge_cases i (p * d)); [apply P2; lia|].
      destruct (Nat.eq_dec i (p * d)) as [->|]; [apply (speed_same s0); auto|].
      replace i with (S (i - 1)) by lia. apply Q; lia.
    - intros i Hi. destruct (Nat.lt_ge_cases i (p * d)); [apply P2; lia|].
      destruct (Nat.eq_dec i (p * d)) as [->|]; [apply (rooted_same s0); auto|].
      replace i with (S (i - 1)) by lia. apply Q; lia.
    - intros i Hi Hn. apply Q; auto.
    - intros i Hi. apply P2. lia.
    - destruct S0 as (_ & _ & _ & _ & B5). rewrite B5, D0. unfold at_. apply nth_repeat. }
  auto.
Qed.
End Turn.
