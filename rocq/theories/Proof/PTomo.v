(** Invariants of the Tomography object, and run / run_hybrid on it. *)
From Coq Require Import List ZArith QArith Qcanon Lia Arith Bool.
From Verif Require Import Base.Res Base.ResLemmas Base.QcLib Base.QcLemmas Base.Loops Model.MRecon
  Spec.ReconSpec Spec.TomoSpec Proof.PRecon Proof.PRecon2 Proof.PHybrid.
Import ListNotations.
Local Open Scope Qc_scope.

Lemma mapM_Forall2 : forall A B (f : A -> res B) l l', mapM f l = Ok l' ->
  Forall2 (fun a b => f a = Ok b) l l'.
Proof.
  induction l; intros l' H; unfold mapM in *; simpl in H.
  - inversion H. constructor.
  - destruct (f a) eqn:E; simpl in H; [|discriminate].
    destruct (sequence (map f l)) eqn:E'; simpl in H; [|discriminate]. inversion H. constructor; auto.
Qed.

Lemma qsum_map_div : forall l s, qsum (map (fun x => x / s) l) = qsum l / s.
Proof. induction l; intros; simpl. - unfold Qcdiv. ring. - rewrite IHl. unfold Qcdiv. ring. Qed.

Lemma normalize_row : forall row r, Forall (fun x => 0 <= x) row ->
  mapM (fun x => qdiv x (qsum row)) row = Ok r ->
  length r = length row /\ Forall (fun x => 0 <= x) r /\ (row <> [] -> qsum r = 1 /\ 0 < qsum row) /\
  r = map (fun x => x / qsum row) row.
Proof.
  intros row r Hn H. apply mapM_Forall2 in H.
  assert (E : r = map (fun x => x / qsum row) row).
  { revert H. generalize (qsum row). intros s. revert r. clear Hn. induction row; intros r H; inversion H; subst; auto.
    simpl. apply qdiv_inv in H2. destruct H2 as [_ ->]. f_equal. apply IHrow. auto. }
  assert (P : row <> [] -> 0 < qsum row).
  { intros Hne. destruct row; [congruence|]. inversion H; subst. apply qdiv_inv in H2. destruct H2 as [H2 _].
    assert (0 <= qsum (q :: row)).
    { apply qsum_nonneg. apply Forall_forall. auto. }
    destruct (qltb_spec 0 (qsum (q :: row))); auto. exfalso. apply H2. apply Qcle_antisym'; auto. }
  split; [rewrite E; apply map_length|]. split; [|split; [intros Hne; split; [|apply P; auto]|exact E]].
  - rewrite E. apply Forall_forall. intros x Hx. apply in_map_iff in Hx. destruct Hx as [y [<- Hy]].
    apply Qcdiv_nonneg. + rewrite Forall_forall in Hn. auto. + apply P. intros ->. contradiction.
  - rewrite E, qsum_map_div. field. apply Qclt_ne. auto.
Qed.

Lemma clip_rows_nonneg : forall wf, Forall (Forall (fun x => 0 <= x)) (clip_rows wf).
Proof.
  intros. unfold clip_rows. apply Forall_forall. intros r Hr. apply in_map_iff in Hr. destruct Hr as [r0 [<- _]].
  apply Forall_forall. intros x Hx. apply in_map_iff in Hx. destruct Hx as [x0 [<- _]]. apply (pos_nonneg x0).
Qed.

Lemma clip_rows_rect : forall n m wf, rectangular n m wf -> rectangular n m (clip_rows wf).
Proof.
  intros n m wf [H1 H2]. split; unfold clip_rows; [rewrite map_length; auto|].
  apply Forall_forall. intros r Hr. apply in_map_iff in Hr. destruct Hr as [r0 [<- Hr0]]. rewrite map_length.
  rewrite Forall_forall in H2. auto.
Qed.

Lemma normalize_profiles_good : forall n m wf wf', rectangular n m wf -> Forall (Forall (fun x => 0 <= x)) wf ->
  normalize_profiles wf = Ok wf' -> rectangular n m wf' /\ good_rows wf' /\ (0 < n)%nat /\ (0 < m)%nat.
Proof.
  intros n m wf wf' [L R] N H. unfold normalize_profiles in H.
  destruct (existsb (existsb (fun x => negb (qeqb x 0))) wf) eqn:E; simpl in H; [|discriminate].
  apply existsb_exists in E. destruct E as [r [Hr E]]. apply existsb_exists in E. destruct E as [x [Hx _]].
  assert (Pm : (0 < m)%nat).
  { rewrite Forall_forall in R. rewrite <- (R r Hr). destruct r; [contradiction|simpl; lia]. }
  assert (Pn : (0 < n)%nat). { rewrite <- L. destruct wf; [contradiction|simpl; lia]. }
  apply mapM_Forall2 in H. split; [|split; [|auto]].
  - split.
    + rewrite <- L. clear - H. induction H; simpl; congruence.
    + clear L Hr. induction H; constructor; inversion R; inversion N; subst; auto.
      apply normalize_row in H; auto. destruct H as [-> _]. auto.
  - clear L Hr Pn. induction H; constructor; inversion R; inversion N; subst; auto.
    + apply normalize_row in H; auto. destruct H as [_ [Hp [Hs _]]]. split; auto. apply Hs.
      intros ->. simpl in Pm. lia.
    + apply IHForall2; auto.
Qed.

Record valid (t : tomo) : Prop := {
  v_rect : rectangular (t_nprofs t) (t_nbins t) (t_waterfall t);
  v_good : good_rows (t_waterfall t);
  v_np : (0 < t_nprofs t)%nat;
  v_nb : (0 < t_nbins t)%nat;
  v_parts : t_nparts t = option_map (@length _) (t_xp t);
  v_xp : xp_ok (t_nprofs t) (t_nbins t) (t_xp t) }.

Lemma existsb_false : forall A (p : A -> bool) l, existsb p l = false -> Forall (fun x => p x = false) l.
Proof.
  induction l; intros; constructor; simpl in H; apply orb_false_iff in H; destruct H; auto.
Qed.

Lemma qtrunc_range : forall x n, 0 <= x -> x < qn n -> (0 <= qtrunc x < Z.of_nat n)%Z.
Proof.
  intros. rewrite qtrunc_nonneg by auto. split.
  - apply qfloor_le_iff. exact H.
  - apply qfloor_lt_iff. exact H0.
Qed.

Lemma set_xp_valid : forall t v, proper v -> valid t -> valid (fst (set_xp t v)).
Proof.
  intros t v Hv [A B C D E F]. destruct v; simpl; try (constructor; auto; fail).
  destruct (negb (Nat.eqb cols (t_nprofs t))) eqn:E1; [constructor; auto|].
  destruct (_ || _) eqn:E2; [constructor; auto|].
  apply negb_false_iff, Nat.eqb_eq in E1. subst cols. apply orb_false_iff in E2. destruct E2 as [E2 E3].
  apply existsb_false in E2. apply existsb_false in E3.
  constructor; simpl; auto.
  - unfold to_int. rewrite map_length. auto.
  - unfold to_int. split.
    + split; auto. apply Forall_forall. intros r Hr. apply in_map_iff in Hr. destruct Hr as [r0 [<- Hr0]].
      rewrite map_length. simpl in Hv. rewrite Forall_forall in Hv. auto.
    + apply Forall_forall. intros r Hr. apply in_map_iff in Hr. destruct Hr as [r0 [<- Hr0]].
      apply Forall_forall. intros x Hx. apply in_map_iff in Hx. destruct Hx as [x0 [<- Hx0]].
      rewrite Forall_forall in E2, E3. specialize (E2 _ Hr0). specialize (E3 _ Hr0). simpl in E2, E3.
      apply existsb_false in E2. apply existsb_false in E3. rewrite Forall_forall in E2, E3.
      apply qtrunc_range; [apply qltb_false; auto|apply qleb_false; auto].
Qed.

Lemma set_yp_valid : forall t v, valid t -> valid (fst (set_yp t v)).
Proof.
  intros t v [A B C D E F]. destruct v; simpl; try (constructor; auto; fail).
  destruct (t_xp t) as [l|] eqn:Ex; [|constructor; cbn [fst]; try rewrite Ex; auto].
  destruct (same_shape _ _ _ _); constructor; cbn [fst put_yp t_xp t_nparts]; try rewrite Ex; auto.
Qed.

Lemma history_valid : forall ops t, Forall (fun a => proper (value_of a)) ops -> valid t -> valid (history t ops).
Proof.
  induction ops; intros t H V; simpl; auto. inversion H; subst. apply IHops; auto.
  destruct a; simpl in *; [apply set_xp_valid|apply set_yp_valid]; auto.
Qed.

Lemma lift_exn_ok : forall A (p : A * option exn) a, lift_exn p = Ok a -> fst p = a /\ snd p = None.
Proof. unfold lift_exn. intros A [a0 [e|]] a; simpl; intros H; inversion H; auto. Qed.

Lemma tomography_valid : forall n m wf x y t, rectangular n m wf -> proper x -> proper y ->
  tomography n m wf x y = Ok t -> valid t /\ t_nprofs t = n /\ t_nbins t = m /\
  normalize_profiles (clip_rows wf) = Ok (t_waterfall t).
Proof.
  intros n m wf x y t R Px Py H. unfold tomography in H.
  destruct (normalize_profiles (clip_rows wf)) as [wf'|] eqn:E; simpl in H; [|discriminate].
  destruct (normalize_profiles_good n m _ _ (clip_rows_rect _ _ _ R) (clip_rows_nonneg wf) E) as [A [B [C D]]].
  assert (V : valid (Tomo wf' n m None None None)). { constructor; simpl; auto. }
  assert (V1 := set_xp_valid _ x Px V).
  assert (S1 : forall t v, t_nprofs (fst (set_xp t v)) = t_nprofs t /\ t_nbins (fst (set_xp t v)) = t_nbins t /\
     t_waterfall (fst (set_xp t v)) = t_waterfall t).
  { intros. destruct v; simpl; auto. destruct (negb _); simpl; auto. destruct (_ || _); simpl; auto. }
  assert (S2 : forall t v, t_nprofs (fst (set_yp t v)) = t_nprofs t /\ t_nbins (fst (set_yp t v)) = t_nbins t /\
     t_waterfall (fst (set_yp t v)) = t_waterfall t).
  { intros. destruct v; simpl; auto. destruct (t_xp t0); simpl; auto. destruct (same_shape _ _ _ _); simpl; auto. }
  specialize (S1 (Tomo wf' n m None None None) x). simpl in S1.
  destruct (lift_exn (set_xp _ x)) as [t1|] eqn:E1; simpl in H; [|discriminate].
  apply lift_exn_ok in E1. destruct E1 as [E1 _]. rewrite E1 in *.
  assert (V2 := set_yp_valid _ y V1). specialize (S2 t1 y).
  apply lift_exn_ok in H. destruct H as [H _]. rewrite H in *.
  destruct S1 as [S11 [S12 S13]]. destruct S2 as [S21 [S22 S23]].
  split; auto. split; [congruence|]. split; [congruence|]. rewrite S23, S13. auto.
Qed.

Lemma reachable_valid : forall t, reachable t -> valid t.
Proof.
  intros t (n & m & wf & x & y & t0 & ops & R & Px & Py & Po & H & ->).
  apply history_valid; auto. apply (tomography_valid n m wf x y); auto.
Qed.

(** ** Tables as functions *)
Lemma rect_T : forall A n m (l : list (list A)) d, rectangular n m l ->
  l = T n m (fun i j => nth j (nth i l []) d).
Proof.
  intros A n m l d [H1 H2]. unfold T. rewrite <- H1. rewrite <- (tab_nth l []) at 1.
  apply tab_ext. intros i Hi. assert (E : length (nth i l []) = m).
  { rewrite Forall_forall in H2. apply H2. apply nth_In. auto. }
  rewrite <- E. symmetry. apply tab_nth.
Qed.

Lemma bins_T : forall nprofs nbins rows, xp_ok nprofs nbins (Some rows) ->
  rows = T (length rows) nprofs (fun i j => Z.of_nat (bin_of rows i j)) /\
  (forall i j, (i < length rows)%nat -> (j < nprofs)%nat -> (bin_of rows i j < nbins)%nat).
Proof.
  intros nprofs nbins rows [R B].
  assert (P : forall i j, (i < length rows)%nat -> (j < nprofs)%nat ->
     (0 <= nth j (nth i rows []) 0 < Z.of_nat nbins)%Z).
  { intros. destruct R as [_ R]. rewrite Forall_forall in R, B.
    assert (In (nth i rows []) rows) by (apply nth_In; auto).
    specialize (R _ H1). specialize (B _ H1). rewrite Forall_forall in B. apply B. apply nth_In. lia. }
  split.
  - rewrite (rect_T _ _ _ rows 0%Z R) at 1. apply T_ext. intros i j Hi Hj. unfold bin_of.
    rewrite Z2Nat.id; auto. apply P; auto.
  - intros. unfold bin_of. specialize (P i j H H0). lia.
Qed.

Lemma wf_T : forall n m wf, rectangular n m wf -> wf = T n m (cell wf).
Proof. intros. apply (rect_T _ n m wf 0). auto. Qed.

Section Run.
Variable sqrt : Qc -> Qc.
Variable t : tomo.
Variable xp : list (list Z).
Hypothesis V : valid t.
Hypothesis X : t_xp t = Some xp.

Notation np := (t_nprofs t).
Notation nb := (t_nbins t).
Notation W := (weights_after (length xp) np nb (bin_of xp) (cell (t_waterfall t))).
Notation RA := (recreated_after (length xp) np nb (bin_of xp) (cell (t_waterfall t))).
Notation rmsv := (rms np nb (cell (t_waterfall t)) sqrt).

Lemma bins_ok : forall i j, (i < length xp)%nat -> (j < np)%nat -> (bin_of xp i j < nb)%nat.
Proof. destruct V. rewrite X in v_xp0. apply bins_T in v_xp0. apply v_xp0. Qed.

Lemma xp_flat : concat xp = xpl (length xp) np (bin_of xp).
Proof.
  destruct V. rewrite X in v_xp0. apply bins_T in v_xp0. destruct v_xp0 as [E _].
  rewrite E at 1. rewrite concat_T. reflexivity.
Qed.

Lemma wf_flat : concat (t_waterfall t) = tab (np * nb) (fl nb (cell (t_waterfall t))).
Proof. rewrite (wf_T _ _ _ (v_rect _ V)) at 1. apply concat_T. Qed.

Theorem run_ok : forall niter, (0 <= niter)%Z ->
  (forall k, (k <= Z.to_nat niter)%nat -> 0 < total (length xp) (W true k)) ->
  run sqrt t niter = Ok (tab (length xp) (W true (Z.to_nat niter)),
    tab (S (Z.to_nat niter)) (fun k => rmsv (RA true k)),
    T np nb (RA true (Z.to_nat niter)),
    calls_upto niter (Z.to_nat niter) ++ [(niter, niter)]).
Proof.
  intros. unfold run. rewrite X, xp_flat, wf_flat.
  rewrite reconstruct_ok by (auto using bins_ok). cbn [bind].
  unfold final_state. cbn [r_weights r_discr r_rec r_calls]. rewrite chunk_tab. reflexivity.
Qed.

Theorem run_raises : forall niter k, (0 <= niter)%Z -> (k <= Z.to_nat niter)%nat ->
  ~ 0 < total (length xp) (W true k) -> (forall k', (k' < k)%nat -> 0 < total (length xp) (W true k')) ->
  run sqrt t niter = Fail (Raised RuntimeError).
Proof.
  intros. unfold run. rewrite X, xp_flat, wf_flat.
  rewrite (reconstruct_raises (length xp) np nb (bin_of xp) (cell (t_waterfall t)) bins_ok sqrt niter H k); auto.
Qed.

Lemma tm_eq : t = tm np nb (cell (t_waterfall t)) (Some (xrows (length xp) np (bin_of xp))) (t_yp t) (t_nparts t).
Proof.
  unfold tm, xrows. destruct V. rewrite X in v_xp0. apply bins_T in v_xp0. destruct v_xp0 as [E _].
  rewrite <- E, <- (wf_T _ _ _ v_rect0). rewrite <- X. destruct t; reflexivity.
Qed.

Theorem hybrid_ok : forall n, (forall k, (k <= n)%nat -> 0 < total (length xp) (W false k)) ->
  run_hybrid sqrt t n = Ok (tab (length xp) (W false n), tab (n + 1) (fun k => rmsv (RA false k)), T np nb (RA false n)).
Proof.
  intros. rewrite tm_eq at 1. destruct V. apply run_hybrid_ok; auto using bins_ok.
Qed.

Theorem hybrid_raises : forall n k, (k <= n)%nat ->
  ~ 0 < total (length xp) (W false k) -> (forall k', (k' < k)%nat -> 0 < total (length xp) (W false k')) ->
  run_hybrid sqrt t n = Fail (Raised WaterfallReducedToZero).
Proof.
  intros. rewrite tm_eq at 1. destruct V. eapply run_hybrid_raises; eauto using bins_ok.
Qed.

Lemma run_cases : forall niter, (0 <= niter)%Z ->
  ((forall k, (k <= Z.to_nat niter)%nat -> 0 < total (length xp) (W true k)) /\
   run sqrt t niter = Ok (tab (length xp) (W true (Z.to_nat niter)),
    tab (S (Z.to_nat niter)) (fun k => rmsv (RA true k)),
    T np nb (RA true (Z.to_nat niter)),
    calls_upto niter (Z.to_nat niter) ++ [(niter, niter)])) \/
  (exists k, (k <= Z.to_nat niter)%nat /\ (forall i, (i < length xp)%nat -> W true k i = 0) /\
   run sqrt t niter = Fail (Raised RuntimeError)).
Proof.
  intros niter Hn. destruct (totals_dec (length xp) np nb (bin_of xp) (cell (t_waterfall t)) niter true)
    as [H|[k [H1 [H2 H3]]]]; [left|right].
  - split; auto. apply run_ok; auto.
  - exists k. split; auto. split; [apply total_zero_weights; auto|]. eapply run_raises; eauto.
Qed.

Lemma hybrid_cases : forall n,
  ((forall k, (k <= n)%nat -> 0 < total (length xp) (W false k)) /\
   run_hybrid sqrt t n = Ok (tab (length xp) (W false n), tab (n + 1) (fun k => rmsv (RA false k)), T np nb (RA false n))) \/
  (exists k, (k <= n)%nat /\ (forall i, (i < length xp)%nat -> W false k i = 0) /\
   run_hybrid sqrt t n = Fail (Raised WaterfallReducedToZero)).
Proof.
  intros n. destruct (totals_dec (length xp) np nb (bin_of xp) (cell (t_waterfall t)) (Z.of_nat n) false)
    as [H|[k [H1 [H2 H3]]]]; rewrite ?Nat2Z.id in *; [left|right].
  - split; auto. apply hybrid_ok; auto.
  - exists k. split; auto. split; [apply total_zero_weights; auto|]. eapply hybrid_raises; eauto.
Qed.
End Run.
