(** Lemmas on the values a program machine stores for each turn. *)
From Coq Require Import Reals List ZArith Bool Lia Lra Psatz.
From Verif Require Import Base.Res Base.ResLemmas Base.QcLib Base.QcLemmas Base.RLib Model.MParticles Model.MTrack Model.MPreproc Model.MMachine Model.MPrograms Spec.MachineSpec Spec.ProgramsSpec Proof.PInput Proof.PParticles Proof.PMachine Proof.PSelf Proof.PPrograms.
Import ListNotations.
Local Open Scope R_scope.

(** ** numpy *)

Lemma rinterp_from_spec : forall rest x x0 f0 y, rinterp_from x x0 f0 rest = Ok y -> x0 <= x ->
  increasing (x0 :: map fst rest) ->
  on_line (x0 :: map fst rest) (f0 :: map snd rest) x y \/
  (at_ (x0 :: map fst rest) (length rest) <= x /\ y = at_ (f0 :: map snd rest) (length rest)).
Proof.
  induction rest as [|[x1 f1] r IH]; intros x x0 f0 y H Hx Inc; cbn in H.
  - injection H as <-. right. cbn. split; auto.
  - assert (I0 := Inc 0%nat ltac:(cbn; lia)). cbn in I0. unfold at_ in I0; cbn in I0.
    destruct (Rle_dec x1 x) as [L|N].
    + apply IH in H; auto.
      * destruct H as [(k & K1 & K2 & K3)|[K1 K2]].
        { left. exists (S k). cbn [map fst snd length] in *. split; [lia|]. auto. }
        { right. cbn [length]. auto. }
      * intros i Hi. apply (Inc (S i)). cbn in *. lia.
    + apply bind_ok in H. destruct H as [q [D H]]. apply rdiv_ok in D. destruct D as [D ->]. injection H as <-.
      left. exists 0%nat. split; [cbn; lia|]. unfold at_. cbn. split; [lra|]. field. lra.
Qed.
Lemma combine_fst : forall A B (l : list A) (r : list B), length l = length r -> map fst (combine l r) = l.
Proof. intros A B l. induction l as [|a l IH]; intros [|b r] H; cbn in *; auto; try lia. f_equal. apply IH. lia. Qed.
Lemma combine_snd : forall A B (l : list A) (r : list B), length l = length r -> map snd (combine l r) = r.
Proof. intros A B l. induction l as [|a l IH]; intros [|b r] H; cbn in *; auto; try lia. f_equal. apply IH. lia. Qed.
Lemma rinterp_spec : forall xp fp x y, increasing xp -> rinterp xp fp x = Ok y ->
  length xp = length fp /\ (0 < length xp)%nat /\ program_value xp fp x y.
Proof.
  intros xp fp x y Inc H. unfold rinterp in H. destruct (Nat.eqb_spec (length xp) (length fp)) as [L|]; [|discriminate]. cbn [negb] in H.
  split; auto. destruct (combine xp fp) as [|[x0 f0] r] eqn:E; [discriminate|].
  assert (E1 := combine_fst _ _ _ _ L). assert (E2 := combine_snd _ _ _ _ L). rewrite E in E1, E2. cbn in E1, E2. subst xp fp.
  split; [cbn; lia|]. unfold program_value. destruct (Rlt_dec x x0) as [Lt|Ge].
  - injection H as <-. left. auto.
  - right. apply rinterp_from_spec in H; auto; try lra. cbn [length]. rewrite map_length.
    replace (S (length r) - 1)%nat with (length r) by lia. auto.
Qed.
Lemma rinterp_from_total : forall rest x x0 f0, increasing (x0 :: map fst rest) -> exists y, rinterp_from x x0 f0 rest = Ok y.
Proof.
  induction rest as [|[x1 f1] r IH]; intros x x0 f0 Inc; cbn; [eauto|].
  assert (I0 := Inc 0%nat ltac:(cbn; lia)). unfold at_ in I0; cbn in I0.
  destruct (Rle_dec x1 x); [apply IH; intros i Hi; apply (Inc (S i)); cbn in *; lia|].
  rewrite rdiv_val by lra. cbn. eauto.
Qed.
Lemma rinterp_total : forall xp fp x, increasing xp -> length xp = length fp -> (0 < length xp)%nat -> exists y, rinterp xp fp x = Ok y.
Proof.
  intros xp fp x Inc L P. unfold rinterp. rewrite (proj2 (Nat.eqb_eq _ _) L). cbn [negb].
  destruct (combine xp fp) as [|[x0 f0] r] eqn:E.
  - assert (K := combine_length xp fp). rewrite E in K. cbn in K. lia.
  - assert (E1 := combine_fst _ _ _ _ L). rewrite E in E1. cbn in E1. subst xp.
    destruct (Rlt_dec x x0); [eauto|]. apply rinterp_from_total. auto.
Qed.
Lemma mapM_total : forall A B (f : A -> res B) l, (forall x, In x l -> exists y, f x = Ok y) -> exists r, mapM f l = Ok r.
Proof.
  intros A B f l. induction l as [|a l IH]; intros H; [exists []; reflexivity|].
  destruct (H a ltac:(left; auto)) as [b Eb]. destruct (IH ltac:(intros; apply H; right; auto)) as [r Er].
  exists (b :: r). change (mapM f (a :: l)) with (bind (f a) (fun b => bind (mapM f l) (fun r => Ok (b :: r)))). rewrite Eb, Er. reflexivity.
Qed.

Lemma rdiffs_spec : forall l, length (rdiffs l) = (length l - 1)%nat /\
  forall i, (S i < length l)%nat -> at_ (rdiffs l) i = at_ l (S i) - at_ l i.
Proof.
  induction l as [|x [|y r] IH]; [split; auto; cbn; intros; lia|split; auto; cbn; intros; lia|].
  change (rdiffs (x :: y :: r)) with ((y - x) :: rdiffs (y :: r)). destruct IH as [L P]. split; [cbn [length] in *; lia|].
  intros [|i] Hi; [reflexivity|]. apply P. cbn in *. lia.
Qed.
Lemma rcumsum_spec : forall l a, length (rcumsum a l) = length l /\
  (forall i, (S i < length l)%nat -> at_ (rcumsum a l) (S i) = at_ (rcumsum a l) i + at_ l (S i)) /\
  ((0 < length l)%nat -> at_ (rcumsum a l) 0 = a + at_ l 0).
Proof.
  induction l as [|x l IH]; intros a; [cbn; repeat split; intros; lia|]. destruct (IH (a + x)) as (L & P & Z). cbn [rcumsum].
  split; [cbn; auto|]. split; [|reflexivity]. intros [|i] Hi.
  - change (at_ (rcumsum (a + x) l) 0 = a + x + at_ l 0). apply Z. cbn in Hi. lia.
  - apply P. cbn in Hi. lia.
Qed.
Lemma at_map : forall (f : R -> R) l i, (i < length l)%nat -> at_ (map f l) i = f (at_ l i).
Proof. intros. unfold at_. rewrite (nth_indep _ 0 (f 0)) by (rewrite map_length; auto). apply map_nth. Qed.

(** ** The gradient *)

Definition inner_slope (f x : list R) (g : R) (i : nat) : Prop :=
  let dx1 := at_ x (S i) - at_ x i in let dx2 := at_ x (S (S i)) - at_ x (S i) in
  g * (dx1 * dx2 * (dx1 + dx2)) =
    dx1 ^ 2 * (at_ f (S (S i)) - at_ f (S i)) + dx2 ^ 2 * (at_ f (S i) - at_ f i).

Lemma gradient_from_spec : forall rest f0 f1 x0 x1 g, gradient_from f0 f1 x0 x1 rest = Ok g ->
  let f := f0 :: f1 :: map fst rest in let x := x0 :: x1 :: map snd rest in let n := length rest in
  length g = S n /\
  (forall i, (i < n)%nat -> inner_slope f x (at_ g i) i) /\
  at_ g n * (at_ x (S n) - at_ x n) = at_ f (S n) - at_ f n.
Proof.
  induction rest as [|[f2 x2] r IH]; intros f0 f1 x0 x1 g H; cbn in H.
  - apply bind_ok in H. destruct H as [q [D H]]. injection H as <-. apply rdiv_ok in D. destruct D as [D ->].
    cbn. split; auto. split; [intros; lia|]. unfold at_. cbn. field. auto.
  - apply bind_ok in H. destruct H as [q [D H]]. apply bind_ok in H. destruct H as [gs [E H]]. injection H as <-.
    apply IH in E. cbv zeta in *. destruct E as (L & P & Z). cbn [length map fst snd]. split; [lia|]. split.
    + intros [|i] Hi; [|apply P; lia]. clear P Z. unfold gradient_inside in D.
      apply bind_ok in D. destruct D as [a [D1 D]]. apply bind_ok in D. destruct D as [b [D2 D]]. apply bind_ok in D. destruct D as [c [D3 D]].
      injection D as <-. apply rdiv_ok in D1, D2, D3. destruct D1 as [N1 ->], D2 as [N2 ->], D3 as [N3 ->].
      unfold inner_slope, at_. cbn. field.
      assert (x1 - x0 <> 0) by (intros K; apply N2; rewrite K; ring). assert (x2 - x1 <> 0) by (intros K; apply N2; rewrite K; ring).
      repeat split; auto; intros K; apply N1; replace (x1 - x0 + (x2 - x1)) with 0 by lra; ring.
    + exact Z.
Qed.
Lemma gradient_spec : forall f x g, gradient f x = Ok g ->
  length f = length x /\ length g = length f /\ (2 <= length f)%nat /\
  at_ g 0 * (at_ x 1 - at_ x 0) = at_ f 1 - at_ f 0 /\
  (forall i, (S (S i) < length f)%nat -> inner_slope f x (at_ g (S i)) i) /\
  (let n := (length f - 2)%nat in at_ g (S n) * (at_ x (S n) - at_ x n) = at_ f (S n) - at_ f n).
Proof.
  intros f x g H. unfold gradient in H. destruct (Nat.eqb_spec (length f) (length x)) as [L|]; [|discriminate]. cbn [negb] in H.
  assert (E1 := combine_fst _ _ _ _ L). assert (E2 := combine_snd _ _ _ _ L).
  destruct (combine f x) as [|[f0 x0] [|[f1 x1] r]]; try discriminate. cbn in E1, E2.
  apply bind_ok in H. destruct H as [q [D H]]. apply bind_ok in H. destruct H as [gs [E H]]. injection H as <-.
  apply gradient_from_spec in E. cbv zeta in E. destruct E as (Lg & P & Z). subst f x. cbn [length] in *. rewrite !map_length in *.
  split; auto. split; [lia|]. split; [lia|]. apply rdiv_ok in D. destruct D as [D ->]. split; [unfold at_; cbn; field; auto|].
  split; [intros i Hi; apply P; lia|]. cbv zeta. replace (S (S (length r)) - 2)%nat with (length r) by lia. exact Z.
Qed.
Lemma gradient_from_total : forall rest f0 f1 x0 x1, increasing (x0 :: x1 :: map snd rest) ->
  exists g, gradient_from f0 f1 x0 x1 rest = Ok g.
Proof.
  induction rest as [|[f2 x2] r IH]; intros f0 f1 x0 x1 Inc; cbn.
  - assert (I0 := Inc 0%nat ltac:(cbn; lia)). unfold at_ in I0; cbn in I0. rewrite rdiv_val by lra. cbn. eauto.
  - assert (I0 := Inc 0%nat ltac:(cbn; lia)). assert (I1 := Inc 1%nat ltac:(cbn; lia)). unfold at_ in I0, I1; cbn in I0, I1.
    unfold gradient_inside. rewrite !rdiv_val by (apply Rgt_not_eq; nra). cbn [bind].
    destruct (IH f1 f2 x1 x2) as [g ->]; [intros i Hi; apply (Inc (S i)); cbn in *; lia|]. cbn. eauto.
Qed.
Lemma gradient_total : forall f x, length f = length x -> (2 <= length x)%nat -> increasing x -> exists g, gradient f x = Ok g.
Proof.
  intros f x L H Inc. unfold gradient. rewrite (proj2 (Nat.eqb_eq _ _) L). cbn [negb].
  assert (E2 := combine_snd _ _ _ _ L). assert (E3 := combine_length f x).
  destruct (combine f x) as [|[f0 x0] [|[f1 x1] r]]; try (cbn in E3; lia). cbn in E2. subst x.
  assert (I0 := Inc 0%nat ltac:(cbn; lia)). unfold at_ in I0; cbn in I0. rewrite rdiv_val by lra. cbn [bind].
  destruct (gradient_from_total r f0 f1 x0 x1 Inc) as [g ->]. cbn. eauto.
Qed.

(** ** The values *)

Ltac binds H :=
  repeat (lazymatch type of H with
  | bind _ _ = Ok _ => let x := fresh "w" in let E := fresh "E" in apply bind_ok in H; destruct H as [x [E H]]
  end).

Record facts (m : programmed) (fuel : nat) (v : pvalues) (ts ps : list R) : Prop := {
  fc_int : exists mt mm, np_get (pg_momentum m) 0 = Ok mt /\ np_get (pg_momentum m) 1 = Ok mm /\
    interpolate_momentum fuel m mt mm = Ok (ts, ps);
  fc_n : pv_n_turns v = Z.of_nat (length ts);
  fc_mom : pv_momentum v = ps;
  fc_v1 : interp_rows (pg_voltage m) 1 ts = Ok (pv_vrf1 v);
  fc_e : mapM (energy_of m) ps = Ok (pv_e0 v);
  fc_b : mapM (beta_of m) ps = Ok (pv_beta0 v);
  fc_time : exists tr ti0, mapM (period_of m) (pv_beta0 v) = Ok tr /\ np_get (rcumsum 0 tr) (pg_i0 m) = Ok ti0 /\
    pv_time v = map (fun t => t - ti0) (rcumsum 0 tr) /\ mapM omega_of tr = Ok (pv_omega_rev0 v);
  fc_de : pv_deltaE0 v = rdiffs (pv_e0 v);
  fc_eta : mapM (eta_of m) (pv_beta0 v) = Ok (pv_eta0 v);
  fc_drift : mapM (fun x => drift_of m (fst x) (fst (snd x)) (snd (snd x))) (combine (pv_eta0 v) (combine (pv_e0 v) (pv_beta0 v)))
             = Ok (pv_drift_coef v);
  fc_bdot : exists bf, mapM (bfield_of m) ps = Ok bf /\ gradient bf (pv_time v) = Ok (pv_bdot v);
  fc_phi0 : pv_phi0 v = map (fun _ => 0) (pv_vrf1 v);
  fc_h2 : forall h0 h1 r, pg_harmonics m = h0 :: h1 :: r ->
     interp_rows (pg_voltage m) 2 ts = Ok (pv_vrf2 v) /\ h0 <> 0 /\ pv_h_ratio v = h1 / h0;
  fc_h1 : (length (pg_harmonics m) <= 1)%nat -> pv_vrf2 v = map (fun _ => 0) (pv_vrf1 v) /\ pv_h_ratio v = 1;
  fc_given : forall a, pg_phi12 m = Some a -> pv_phi12 v = Some a /\ match a with PhiArray _ => False | _ => True end;
  fc_none : pg_phi12 m = None -> pg_phase m = None -> pv_phi12 v = None;
  fc_phase : forall ph, pg_phi12 m = None -> pg_phase m = Some ph -> exists p1 p2 l,
     interp_rows ph 1 ts = Ok p1 /\
     (forall h0 h1 r, pg_harmonics m = h0 :: h1 :: r -> interp_rows ph 2 ts = Ok p2) /\
     ((length (pg_harmonics m) <= 1)%nat -> p2 = map (fun _ => 0) p1) /\
     mapM (fun x => rdiv (fst x - snd x + PI) (pv_h_ratio v)) (combine p1 p2) = Ok l /\ pv_phi12 v = Some (PhiArray l) }.

Lemma values_facts : forall fuel m v, pg_values fuel m = Ok v -> exists ts ps, facts m fuel v ts ps.
Proof.
  intros fuel m v H. unfold pg_values in H.
  apply bind_ok in H. destruct H as [mt [E1 H]]. apply bind_ok in H. destruct H as [mm [E2 H]].
  apply bind_ok in H. destruct H as [[ts ps] [E3 H]]. apply bind_ok in H. destruct H as [v1 [E4 H]].
  apply bind_ok in H. destruct H as [p1 [E5 H]]. apply bind_ok in H. destruct H as [[[v2 hr] p2] [E6 H]].
  apply bind_ok in H. destruct H as [en [E7 H]]. apply bind_ok in H. destruct H as [b0 [E8 H]].
  apply bind_ok in H. destruct H as [tr [E9 H]]. cbv zeta in H. apply bind_ok in H. destruct H as [ti [E10 H]].
  apply bind_ok in H. destruct H as [om [E11 H]]. apply bind_ok in H. destruct H as [p12 [E12 H]].
  apply bind_ok in H. destruct H as [eta [E13 H]]. apply bind_ok in H. destruct H as [dr [E14 H]].
  apply bind_ok in H. destruct H as [bf [E15 H]]. apply bind_ok in H. destruct H as [bd [E16 H]]. injection H as <-.
  exists ts, ps. constructor; cbn [pv_n_turns pv_vrf1 pv_vrf2 pv_h_ratio pv_phi12 pv_momentum pv_bdot pv_beta0 pv_deltaE0 pv_drift_coef pv_e0 pv_eta0 pv_omega_rev0 pv_phi0 pv_time]; auto.
  - exists mt, mm. auto.
  - exists tr, ti. auto.
  - exists bf. auto.
  - intros h0 h1 r Eh. rewrite Eh in E6. apply bind_ok in E6. destruct E6 as [w [A1 E6]]. apply bind_ok in E6. destruct E6 as [h [A2 E6]].
    apply bind_ok in E6. destruct E6 as [p [A3 E6]]. injection E6 as <- <- <-. apply rdiv_ok in A2. destruct A2. auto.
  - intros Hh. destruct (pg_harmonics m) as [|h0 [|h1 r]]; [| |cbn in Hh; lia]; injection E6 as <- <- <-; auto.
  - intros a Ea. rewrite Ea in E5, E12. injection E12 as <-. split; auto. destruct a; auto. discriminate.
  - intros Ea Eb. rewrite Ea, Eb in E12. injection E12 as <-. auto.
  - intros ph Ea Eb. rewrite Ea, Eb in E5, E12, E6. apply bind_ok in E12. destruct E12 as [l [A1 A2]]. injection A2 as <-.
    exists p1, p2, l. split; auto. split; [|split; [|split; auto]].
    + intros h0 h1 r Eh. rewrite Eh in E6. apply bind_ok in E6. destruct E6 as [w [B1 E6]]. apply bind_ok in E6. destruct E6 as [h [B2 E6]].
      apply bind_ok in E6. destruct E6 as [p [B3 E6]]. injection E6 as <- <- <-. auto.
    + intros Hh. destruct (pg_harmonics m) as [|h0 [|h1 r]]; [| |cbn in Hh; lia]; injection E6 as <- <- <-; auto.
Qed.

Lemma interp_rows_length : forall t r ts l, interp_rows t r ts = Ok l -> length l = length ts.
Proof. intros. unfold interp_rows in H. binds H. eapply mapM_length; eauto. Qed.

(** ** Synchronous phases *)
Lemma phi_up : forall (g : Z -> R -> res R) n i0 k phi phi', length phi = n ->
  forl (tab k (fun j => Z.of_nat (i0 + 1) + Z.of_nat j)%Z)
    (fun i phi0 => x <- np_get phi0 (i - 1) ;; p <- g i x ;; pyset phi0 i p) phi = Ok phi' ->
  length phi' = n /\ (forall j, (j <= i0)%nat -> at_ phi' j = at_ phi j) /\
  forall i, (i0 < i <= i0 + k)%nat -> g (Z.of_nat i) (at_ phi' (i - 1)) = Ok (at_ phi' i).
Proof.
  intros g n i0. induction k as [|k IH]; intros phi phi' L H.
  - cbn in H. injection H as <-. split; auto. split; auto. intros; lia.
  - rewrite tab_S, forl_app in H. apply bind_ok in H. destruct H as [p1 [H1 H]]. cbn [forl] in H.
    apply bind_ok in H. destruct H as [p2 [H2 H]]. injection H as <-.
    destruct (IH _ _ L H1) as (L1 & S1 & P1). clear H1.
    replace (Z.of_nat (i0 + 1) + Z.of_nat k)%Z with (Z.of_nat (S (i0 + k))) in * by lia.
    replace (Z.of_nat (S (i0 + k)) - 1)%Z with (Z.of_nat (i0 + k)) in H2 by lia.
    apply bind_ok in H2. destruct H2 as [x [HX H2]]. apply at_get in HX. destruct HX as [<- _]. apply bind_ok in H2. destruct H2 as [p [H2 H3]].
    apply pyset_inv in H3. destruct H3 as [Hl ->]. rewrite upd_length. split; auto. split.
    + intros j Hj. rewrite at_upd_neq by (auto; lia). auto.
    + intros i Hi. destruct (Nat.eq_dec i (S (i0 + k))) as [->|].
      * rewrite at_upd_eq by auto. rewrite at_upd_neq by (auto; lia). replace (S (i0 + k) - 1)%nat with (i0 + k)%nat by lia. exact H2.
      * rewrite !at_upd_neq by (auto; lia). apply P1. lia.
Qed.
Lemma phi_down : forall (g : Z -> R -> res R) n i0 k phi phi', length phi = n -> (k <= i0)%nat ->
  forl (tab k (fun j => Z.of_nat i0 - 1 - Z.of_nat j)%Z)
    (fun i phi0 => x <- np_get phi0 (i + 1) ;; p <- g i x ;; pyset phi0 i p) phi = Ok phi' ->
  length phi' = n /\ (forall j, (i0 <= j)%nat -> at_ phi' j = at_ phi j) /\
  forall i, (i0 - k <= i < i0)%nat -> g (Z.of_nat i) (at_ phi' (i + 1)) = Ok (at_ phi' i).
Proof.
  intros g n i0. induction k as [|k IH]; intros phi phi' L Hk H.
  - cbn in H. injection H as <-. split; auto. split; auto. intros; lia.
  - rewrite tab_S, forl_app in H. apply bind_ok in H. destruct H as [p1 [H1 H]]. cbn [forl] in H.
    apply bind_ok in H. destruct H as [p2 [H2 H]]. injection H as <-.
    destruct (IH _ _ L ltac:(lia) H1) as (L1 & S1 & P1). clear H1.
    replace (Z.of_nat i0 - 1 - Z.of_nat k)%Z with (Z.of_nat (i0 - S k)) in * by lia.
    replace (Z.of_nat (i0 - S k) + 1)%Z with (Z.of_nat (i0 - S k + 1)) in H2 by lia.
    apply bind_ok in H2. destruct H2 as [x [HX H2]]. apply at_get in HX. destruct HX as [<- _]. apply bind_ok in H2. destruct H2 as [p [H2 H3]].
    apply pyset_inv in H3. destruct H3 as [Hl ->]. rewrite upd_length. split; auto. split.
    + intros j Hj. rewrite at_upd_neq by (auto; lia). auto.
    + intros i Hi. destruct (Nat.eq_dec i (i0 - S k)) as [->|].
      * rewrite at_upd_eq by auto. rewrite at_upd_neq by (auto; lia). exact H2.
      * rewrite !at_upd_neq by (auto; lia). apply P1. lia.
Qed.
Lemma synchronous_spec : forall newton m v a i0 n phi0, pv_phi12 v = Some a -> pg_i0 m = Z.of_nat i0 ->
  pv_n_turns v = Z.of_nat n -> length (pv_vrf1 v) = n ->
  find_synchronous_phase newton m v = Ok phi0 ->
  length phi0 = n /\ (i0 < n)%nat /\
  (exists lo up st, pg_phi_lower_upper m (at_ (pv_e0 v) i0) = Ok (lo, up) /\
     newton_rf1 newton m v (Z.of_nat i0) ((lo + up) / 2) = Ok st /\
     newton_rf newton m v a (Z.of_nat i0) st = Ok (at_ phi0 i0)) /\
  (forall i, (i < i0)%nat -> newton_rf newton m v a (Z.of_nat i) (at_ phi0 (i + 1)) = Ok (at_ phi0 i)) /\
  (forall i, (i0 < i < n)%nat -> newton_rf newton m v a (Z.of_nat i) (at_ phi0 (i - 1)) = Ok (at_ phi0 i)).
Proof.
  intros newton m v a i0 n phi0 Ea Ei En Lv H. unfold find_synchronous_phase in H. rewrite Ea in H. cbv zeta in H.
  apply bind_ok in H. destruct H as [e [HE H]]. apply bind_ok in H. destruct H as [[lo up] [HL H]].
  apply ave_ok in H. apply bind_ok in H. destruct H as [st [HS H]]. apply bind_ok in H. destruct H as [sy [H0 H]].
  apply bind_ok in H. destruct H as [p0 [H1 H]]. apply bind_ok in H. destruct H as [p1 [H2 H3]].
  rewrite Ei, En, Lv in *.
  apply pyset_inv in H1. rewrite repeat_length in H1. destruct H1 as [Hl ->].
  rewrite range_up_tab in H2. replace (Z.of_nat i0 + 1)%Z with (Z.of_nat (i0 + 1)) in H2 by lia. rewrite range_down_tab in H3.
  apply (phi_up (newton_rf newton m v a) n) in H2; [|rewrite upd_length, repeat_length; auto]. destruct H2 as (L1 & S1 & P1).
  apply (phi_down (newton_rf newton m v a) n) in H3; auto; [|lia]. destruct H3 as (L2 & S2 & P2).
  split; [exact L2|]. split; [exact Hl|]. split; [|split].
  - exists lo, up, st. apply at_get in HE. destruct HE as [-> _]. split; [exact HL|]. split; [exact HS|].
    rewrite S2, S1 by lia. rewrite at_upd_eq by (rewrite repeat_length; auto). exact H0.
  - intros i Hi. apply P2. lia.
  - intros i Hi. rewrite !S2 by lia. apply P1. lia.
Qed.
