(** reconstruct computes the iteration of the specification. *)
From Coq Require Import List ZArith QArith Qcanon Lia Arith Bool.
From Verif Require Import Base.Res Base.ResLemmas Base.QcLib Base.QcLemmas Base.Loops Model.MRecon Spec.ReconSpec Proof.PRecon.
Import ListNotations.
Local Open Scope Qc_scope.

Section Facts.
Variables npart nprof nbins : nat.
Variable bin : nat -> nat -> nat.
Variable prof : nat -> nat -> Qc.
Hypothesis Hbin : forall i j, (i < npart)%nat -> (j < nprof)%nat -> (bin i j < nbins)%nat.

Lemma histogram_total : forall w j, (j < nprof)%nat ->
  sumn nbins (histogram npart bin w j) = total npart w.
Proof.
  intros. unfold histogram. rewrite sumn_swap. unfold total. apply sumn_ext. intros i Hi.
  apply (sumn_single' nbins (fun _ => w i)). auto.
Qed.

Lemma adjoint : forall w f,
  sumn nprof (fun j => sumn nbins (fun b => f j b * histogram npart bin w j b)) =
  sumn npart (fun i => w i * gather nprof bin f i).
Proof.
  intros. unfold gather, histogram.
  transitivity (sumn nprof (fun j => sumn npart (fun i => w i * f j (bin i j)))).
  - apply sumn_ext. intros j Hj.
    transitivity (sumn nbins (fun b => sumn npart (fun i => if Nat.eqb (bin i j) b then w i * f j b else 0))).
    + apply sumn_ext. intros b Hb. rewrite <- sumn_scale. apply sumn_ext. intros i Hi.
      destruct (Nat.eqb (bin i j) b); ring.
    + rewrite sumn_swap. apply sumn_ext. intros i Hi.
      apply (sumn_single' nbins (fun b => w i * f j b)). auto.
  - rewrite sumn_swap. apply sumn_ext. intros. apply sumn_scale.
Qed.

Lemma histogram_nonneg : forall w j b, (forall i, (i < npart)%nat -> 0 <= w i) -> 0 <= histogram npart bin w j b.
Proof.
  intros. apply sumn_nonneg. intros i Hi. destruct (Nat.eqb _ _); auto. apply Qcle_refl.
Qed.

Lemma row_normalised_nonneg : forall f j b, (forall b, 0 <= f j b) -> 0 <= row_normalised nbins f j b.
Proof.
  intros. unfold row_normalised.
  assert (0 <= sumn nbins (f j)) by (apply sumn_nonneg; auto).
  destruct (qeqb_spec (sumn nbins (f j)) 0) as [E|E].
  - rewrite E. unfold Qcdiv. replace (/ 0) with 0 by reflexivity. rewrite Qcmult_0_r. apply Qcle_refl.
  - apply Qcdiv_nonneg; auto. destruct (qltb_spec 0 (sumn nbins (f j))); auto.
    exfalso. apply E. apply Qcle_antisym'; auto.
Qed.

Lemma row_normalised_sum : forall f j, sumn nbins (f j) <> 0 -> sumn nbins (row_normalised nbins f j) = 1.
Proof. intros. unfold row_normalised. rewrite sumn_div. field. auto. Qed.

Notation W := (weights_after npart nprof nbins bin prof).
Notation RA := (recreated_after npart nprof nbins bin prof).
Notation IT := (iterate npart nprof nbins bin prof).
Notation CO := (compensation npart nprof nbins bin).

Lemma W_0 : forall keep, W keep 0 = fun i => pos (gather nprof bin prof i).
Proof. reflexivity. Qed.
Lemma W_S : forall keep k, W keep (S k) = next_weights npart nprof nbins bin prof (RA keep k) (W keep k).
Proof.
  intros. unfold weights_after, recreated_after, weights_after. simpl.
  destruct (IT keep k). reflexivity.
Qed.
Lemma R_S : forall keep k, snd (IT keep (S k)) = RA keep k.
Proof.
  intros. unfold recreated_after, weights_after. simpl. destruct (IT keep k). reflexivity.
Qed.

Lemma W_nonneg : forall keep k i, 0 <= W keep k i.
Proof. intros. destruct k; [rewrite W_0|rewrite W_S]; apply pos_nonneg. Qed.

Lemma total_nonneg : forall keep k, 0 <= total npart (W keep k).
Proof. intros. apply sumn_nonneg. intros. apply W_nonneg. Qed.

Lemma R_nonneg : forall keep k j b, 0 <= snd (IT keep k) j b.
Proof.
  induction k; intros; [apply Qcle_refl|]. rewrite R_S. apply row_normalised_nonneg. intros b'.
  apply Qcadd_nonneg; [destruct keep; auto; apply Qcle_refl|].
  apply histogram_nonneg. intros. apply W_nonneg.
Qed.

Lemma RA_nonneg : forall keep k j b, 0 <= RA keep k j b.
Proof. intros. rewrite <- R_S. apply R_nonneg. Qed.

Lemma prenorm_sum : forall (keep : bool) k j, (j < nprof)%nat ->
  sumn nbins (fun b : nat => (if keep then snd (IT keep k) j b else 0) + histogram npart bin (W keep k) j b) =
  (if keep then sumn nbins (snd (IT keep k) j) else 0) + total npart (W keep k).
Proof.
  intros. rewrite sumn_add, histogram_total by auto. f_equal. destruct keep; auto.
  apply sumn_zero. auto.
Qed.

Lemma prenorm_pos : forall (keep : bool) k j, (j < nprof)%nat -> 0 < total npart (W keep k) ->
  0 < sumn nbins (fun b : nat => (if keep then snd (IT keep k) j b else 0) + histogram npart bin (W keep k) j b).
Proof.
  intros. rewrite prenorm_sum by auto.
  assert (0 <= if keep then sumn nbins (snd (IT keep k) j) else 0).
  { destruct keep; [apply sumn_nonneg; intros; apply R_nonneg|apply Qcle_refl]. }
  qclra.
Qed.

Lemma RA_row_sum : forall (keep : bool) k j, (j < nprof)%nat -> 0 < total npart (W keep k) ->
  sumn nbins (RA keep k j) = 1.
Proof.
  intros. unfold recreated_after, next_recreated. apply row_normalised_sum.
  apply Qclt_ne. apply prenorm_pos; auto.
Qed.

Lemma total_zero_weights : forall keep k, ~ 0 < total npart (W keep k) ->
  forall i, (i < npart)%nat -> W keep k i = 0.
Proof.
  intros. apply (proj1 (sumn_zero_iff npart (W keep k) (fun i _ => W_nonneg keep k i))); auto.
  pose proof (total_nonneg keep k). apply Qcle_antisym'; auto.
  unfold total in *. destruct (qltb_spec 0 (sumn npart (W keep k))); auto. contradiction.
Qed.

Variable sqrt : Qc -> Qc.
Definition rms (R : nat -> nat -> Qc) : Qc := sqrt (mean_square nprof nbins prof R).

Variable niter : Z.
Notation n := (Z.to_nat niter).

Definition calls_upto (k : nat) : list (Z * Z) := map (fun i => (zi i + 1, niter)%Z) (seq 0 k).

Definition st (k : nat) : rstate :=
  RState (tab npart (W true k))
    (tab (nprof * nbins) (fl nbins (snd (IT true k))))
    (tab (S n) (fun i => if (i <? k)%nat then rms (RA true i) else 0))
    (tab (nprof * nbins) (match k with
       | O => fun _ => 0
       | S k' => fl nbins (fun j b => (prof j b - RA true k' j b) * CO j b) end))
    (calls_upto k).

Notation fp := (fpl npart nprof nbins bin).
Notation pl := (tab (nprof * nbins) (fl nbins prof)).
Notation rp := (tab (nprof * nbins) (fl nbins CO)).

Lemma dims_pos : forall keep, 0 < total npart (W keep 0) -> (0 < npart)%nat /\ (0 < nprof)%nat /\ (0 < nbins)%nat.
Proof.
  intros keep H. unfold total in H. rewrite W_0 in H.
  destruct (Nat.eq_dec npart 0) as [E|E]. { rewrite E in H. exfalso. apply (Qclt_not_eq _ _ H). auto. }
  destruct (Nat.eq_dec nprof 0) as [E'|E'].
  { exfalso. rewrite E' in H. unfold gather in H. simpl in H.
    rewrite sumn_zero in H by reflexivity. exact (Qclt_not_eq _ _ H eq_refl). }
  assert (A : (0 < npart)%nat) by lia. assert (B : (0 < nprof)%nat) by lia.
  pose proof (Hbin 0 0 A B). lia.
Qed.

Lemma check_sum_tab : forall w, check_sum (tab npart w) npart =
  if qleb (total npart w) 0 then Fail (Raised RuntimeError) else Ok tt.
Proof. intros. unfold check_sum. rewrite sum_tab. reflexivity. Qed.

Lemma project_normalize : forall k, 0 < total npart (W true k) -> (0 < nprof)%nat ->
  (rec <- project (tab (nprof * nbins) (fl nbins (snd (IT true k)))) fp (tab npart (W true k)) npart nprof ;;
   normalize rec nprof nbins) = Ok (tab (nprof * nbins) (fl nbins (RA true k))).
Proof.
  intros. rewrite project_tab by auto. cbn [bind]. rewrite normalize_tab; auto.
  intros. apply (prenorm_pos true k j); auto.
Qed.

Lemma iteration_tab : forall k, (k < n)%nat -> 0 < total npart (W true k) -> (0 < nprof)%nat -> (0 < nbins)%nat ->
  iteration sqrt fp pl rp niter nbins npart nprof k (st k) =
  if qleb (total npart (W true (S k))) 0 then Fail (Raised RuntimeError) else Ok (st (S k)).
Proof.
  intros k Hk Ht Hp Hb. unfold iteration. unfold st at 1 2 3 4 5 6. cbn [r_rec r_weights r_diff r_discr r_calls].
  assert (E := project_normalize k Ht Hp).
  destruct (project _ fp _ npart nprof) as [rec|]; [|discriminate]. cbn [bind] in *. rewrite E. cbn [bind].
  rewrite find_difference_tab. cbn [bind].
  change (tab (nprof * nbins) (fun k0 => fl nbins prof k0 - fl nbins (RA true k) k0))
    with (tab (nprof * nbins) (fl nbins (fun j b => prof j b - RA true k j b))).
  rewrite discrepancy_tab by nia. cbn [bind].
  rewrite set_tab by lia. cbn [bind].
  rewrite compensate_tab. cbn [bind].
  change (tab (nprof * nbins) (fun k0 => fl nbins (fun j b => prof j b - RA true k j b) k0 * fl nbins CO k0))
    with (tab (nprof * nbins) (fl nbins (fun j b => (prof j b - RA true k j b) * CO j b))).
  rewrite back_project_tab by auto. cbn [bind]. rewrite clip_tab. cbn [bind].
  rewrite check_sum_tab.
  change (tab npart (fun i => pos (W true k i + gather nprof bin (fun j b => (prof j b - RA true k j b) * CO j b) i)))
    with (tab npart (next_weights npart nprof nbins bin prof (RA true k) (W true k))).
  change (total npart (fun i => pos (W true k i + gather nprof bin (fun j b => (prof j b - RA true k j b) * CO j b) i)))
    with (total npart (next_weights npart nprof nbins bin prof (RA true k) (W true k))).
  rewrite <- W_S. destruct (qleb _ 0); cbn [bind]; auto.
  unfold st. rewrite R_S. f_equal. f_equal.
  - apply tab_ext. intros i Hi. destruct (Nat.eqb_spec i k).
    + subst. destruct (Nat.ltb_spec k (S k)); [|lia]. reflexivity.
    + destruct (Nat.ltb_spec i k); destruct (Nat.ltb_spec i (S k)); auto; lia.
  - unfold calls_upto. rewrite seq_S, map_app. reflexivity.
Qed.

Definition final_state : rstate :=
  RState (tab npart (W true n)) (tab (nprof * nbins) (fl nbins (RA true n)))
    (tab (S n) (fun i => rms (RA true i)))
    (tab (nprof * nbins) (fl nbins (fun j b => prof j b - RA true n j b)))
    (calls_upto n ++ [(niter, niter)]).

Hypothesis Hniter : (0 <= niter)%Z.

Lemma loop_tab : forall m, (m <= n)%nat -> (forall k, (k <= m)%nat -> 0 < total npart (W true k)) ->
  for_ 0 m (iteration sqrt fp pl rp niter nbins npart nprof) (st 0) = Ok (st m).
Proof.
  intros m Hm H. destruct (dims_pos true (H 0%nat ltac:(lia))) as [A [B C]].
  apply for_steps. intros i Hi. rewrite iteration_tab; auto; try lia; [|apply H; lia].
  destruct (qleb_spec (total npart (W true (S i))) 0); auto.
  specialize (H (S i) ltac:(lia)). exfalso; qclra.
Qed.

Lemma reconstruct_unfold :
  reconstruct sqrt (repeat 0 (nprof * nbins)) (xpl npart nprof bin) pl niter nbins npart nprof =
  (_ <- (if qleb (total npart (W true 0)) 0 then Fail (Raised RuntimeError) else Ok tt) ;;
   s <- for_ 0 n (iteration sqrt fp pl rp niter nbins npart nprof) (st 0) ;;
   rec <- project (r_rec s) fp (r_weights s) npart nprof ;;
   rec <- normalize rec nprof nbins ;;
   diff <- find_difference_profile (r_diff s) rec pl (nprof * nbins) ;;
   d <- discrepancy sqrt diff nprof nbins ;;
   discr <- set (r_discr s) niter d ;;
   Ok (RState (r_weights s) rec discr diff (r_calls s ++ [(niter, niter)]))).
Proof.
  unfold reconstruct. rewrite reciprocal_tab by auto. cbn [bind].
  rewrite create_flat_points_tab. cbn [bind]. rewrite (repeat_tab npart).
  rewrite back_project_tab by auto. cbn [bind]. rewrite clip_tab. cbn [bind].
  assert (E : tab npart (fun i => pos (0 + gather nprof bin prof i)) = tab npart (W true 0)).
  { apply tab_ext. intros. rewrite W_0. f_equal. ring. }
  rewrite E, check_sum_tab.
  replace (RState (tab npart (W true 0)) (repeat 0 (nprof * nbins)) (repeat 0 (Z.to_nat (niter + 1)))
             (repeat 0 (nprof * nbins)) []) with (st 0); [reflexivity|].
  unfold st. rewrite !repeat_tab. replace (Z.to_nat (niter + 1)) with (S n) by lia. reflexivity.
Qed.

Theorem reconstruct_ok : (forall k, (k <= n)%nat -> 0 < total npart (W true k)) ->
  reconstruct sqrt (repeat 0 (nprof * nbins)) (xpl npart nprof bin) pl niter nbins npart nprof = Ok final_state.
Proof.
  intros H. destruct (dims_pos true (H 0%nat ltac:(lia))) as [A [B C]].
  rewrite reconstruct_unfold.
  destruct (qleb_spec (total npart (W true 0)) 0) as [E|_].
  { specialize (H 0%nat ltac:(lia)). exfalso; qclra. }
  cbn [bind]. rewrite loop_tab by auto. cbn [bind].
  unfold st at 1 2 3 4 5 6. cbn [r_rec r_weights r_diff r_discr r_calls].
  assert (E := project_normalize n (H n ltac:(lia)) B).
  destruct (project _ fp _ npart nprof) as [rec|]; [|discriminate]. cbn [bind] in *. rewrite E. cbn [bind].
  rewrite find_difference_tab. cbn [bind].
  change (tab (nprof * nbins) (fun k0 => fl nbins prof k0 - fl nbins (RA true n) k0))
    with (tab (nprof * nbins) (fl nbins (fun j b => prof j b - RA true n j b))).
  rewrite discrepancy_tab by nia. cbn [bind].
  rewrite set_tab_Z by lia. cbn [bind]. unfold final_state. f_equal. f_equal.
  apply tab_ext. intros i Hi. destruct (Nat.eqb_spec i n) as [N|N]; [subst; reflexivity|].
  destruct (Nat.ltb_spec i n); auto. lia.
Qed.

Theorem reconstruct_raises : forall k, (k <= n)%nat -> ~ 0 < total npart (W true k) ->
  (forall k', (k' < k)%nat -> 0 < total npart (W true k')) ->
  reconstruct sqrt (repeat 0 (nprof * nbins)) (xpl npart nprof bin) pl niter nbins npart nprof
  = Fail (Raised RuntimeError).
Proof.
  intros k Hk Hz Hlt. rewrite reconstruct_unfold.
  assert (Hle : forall m, ~ 0 < total npart (W true m) -> qleb (total npart (W true m)) 0 = true).
  { intros. apply qleb_true. destruct (qltb_spec 0 (total npart (W true m))); auto. contradiction. }
  destruct k as [|k].
  - rewrite Hle by auto. reflexivity.
  - destruct (qleb_spec (total npart (W true 0)) 0) as [E|_]; [reflexivity|]. cbn [bind].
    destruct (dims_pos true (Hlt 0%nat ltac:(lia))) as [A [B C]].
    rewrite (for_fail _ n _ _ k (st k) (Raised RuntimeError)); auto.
    + apply loop_tab; [lia|]. intros. apply Hlt. lia.
    + rewrite iteration_tab; auto. rewrite Hle by auto. reflexivity.
Qed.

Lemma totals_dec : forall keep, (forall k, (k <= n)%nat -> 0 < total npart (W keep k)) \/
  exists k, (k <= n)%nat /\ ~ 0 < total npart (W keep k) /\ forall k', (k' < k)%nat -> 0 < total npart (W keep k').
Proof.
  intros. apply first_failure. intros k. destruct (qltb_spec 0 (total npart (W keep k))); auto.
  right. intros H'. qclra.
Qed.

(** Everything about [reconstruct] in one statement. *)
Theorem reconstruct_spec :
  ((forall k, (k <= n)%nat -> 0 < total npart (W true k)) /\
   reconstruct sqrt (repeat 0 (nprof * nbins)) (xpl npart nprof bin) pl niter nbins npart nprof = Ok final_state)
  \/
  ((exists k, (k <= n)%nat /\ forall i, (i < npart)%nat -> W true k i = 0) /\
   reconstruct sqrt (repeat 0 (nprof * nbins)) (xpl npart nprof bin) pl niter nbins npart nprof
     = Fail (Raised RuntimeError)).
Proof.
  destruct (totals_dec true) as [H|[k [H1 [H2 H3]]]]; [left|right].
  - split; auto. apply reconstruct_ok. auto.
  - split; [|eapply reconstruct_raises; eauto]. exists k. split; auto. apply total_zero_weights. auto.
Qed.
End Facts.
