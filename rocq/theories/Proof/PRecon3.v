(** Consequences of the iteration: permutations, fixed points, empty bins,
    the effect of the carried-over waterfall. *)
From Coq Require Import List ZArith QArith Qcanon Lia Arith Bool.
From Verif Require Import Base.Res Base.ResLemmas Base.QcLib Base.QcLemmas Base.Loops Spec.ReconSpec
  Proof.PRecon Proof.PRecon2.
Import ListNotations.
Local Open Scope Qc_scope.

Section Perm.
Variables npart nprof nbins : nat.
Variables bin bin' : nat -> nat -> nat.
Variable prof : nat -> nat -> Qc.
Variable s : nat -> nat.
Hypothesis Hbin : forall i j, (i < npart)%nat -> (j < nprof)%nat -> (bin i j < nbins)%nat.
Hypothesis Hs : forall i, (i < npart)%nat -> (s i < npart)%nat.
Hypothesis Hinj : forall i j, (i < npart)%nat -> (j < npart)%nat -> s i = s j -> i = j.
Hypothesis Hb' : forall i j, (i < npart)%nat -> (j < nprof)%nat -> bin' i j = bin (s i) j.

Lemma histogram_perm : forall w w' j b, (j < nprof)%nat -> (forall i, (i < npart)%nat -> w' i = w (s i)) ->
  histogram npart bin' w' j b = histogram npart bin w j b.
Proof.
  intros. unfold histogram.
  rewrite <- (sumn_perm npart (fun i => if Nat.eqb (bin i j) b then w i else 0) s Hs Hinj).
  apply sumn_ext. intros. rewrite Hb', H0 by auto. reflexivity.
Qed.

Lemma count_perm : forall j b, (j < nprof)%nat -> count npart bin' j b = count npart bin j b.
Proof.
  intros. apply (proj1 (qn_inj _ _)). rewrite <- !histogram_count. apply histogram_perm; auto.
Qed.

Lemma max_count_perm : max_count npart nprof nbins bin' = max_count npart nprof nbins bin.
Proof.
  unfold max_count. f_equal. apply map_ext_in. intros j Hj. apply in_seq in Hj. f_equal. apply map_ext.
  intros b. apply count_perm. lia.
Qed.

Lemma compensation_perm : forall j b, (j < nprof)%nat ->
  compensation npart nprof nbins bin' j b = compensation npart nprof nbins bin j b.
Proof. intros. unfold compensation. rewrite max_count_perm, count_perm by auto. reflexivity. Qed.

Lemma row_normalised_ext : forall f g j b, (forall b, f j b = g j b) ->
  row_normalised nbins f j b = row_normalised nbins g j b.
Proof. intros. unfold row_normalised. rewrite H. f_equal. apply sumn_ext. auto. Qed.

Lemma iterate_perm : forall keep k,
  (forall i, (i < npart)%nat -> fst (iterate npart nprof nbins bin' prof keep k) i
     = fst (iterate npart nprof nbins bin prof keep k) (s i)) /\
  (forall j b, (j < nprof)%nat -> snd (iterate npart nprof nbins bin' prof keep k) j b
     = snd (iterate npart nprof nbins bin prof keep k) j b).
Proof.
  intros keep. induction k; simpl.
  - split; auto. intros. f_equal. unfold gather. apply sumn_ext. intros. rewrite Hb'; auto.
  - destruct (iterate npart nprof nbins bin' prof keep k) as [w' R'].
    destruct (iterate npart nprof nbins bin prof keep k) as [w R]. destruct IHk as [IH1 IH2]. simpl in *.
    assert (RR : forall j b, (j < nprof)%nat ->
      next_recreated npart nbins bin' keep R' w' j b = next_recreated npart nbins bin keep R w j b).
    { intros. unfold next_recreated. apply row_normalised_ext. intros b'.
      rewrite (histogram_perm w w') by auto. rewrite IH2 by auto. reflexivity. }
    split; auto. intros. unfold next_weights. rewrite IH1 by auto. do 2 f_equal.
    unfold gather. apply sumn_ext. intros j Hj. rewrite Hb', RR, compensation_perm by auto. reflexivity.
Qed.

Lemma weights_perm : forall keep k i, (i < npart)%nat ->
  weights_after npart nprof nbins bin' prof keep k i = weights_after npart nprof nbins bin prof keep k (s i).
Proof. intros. apply iterate_perm. auto. Qed.

Lemma recreated_perm : forall keep k j b, (j < nprof)%nat ->
  recreated_after npart nprof nbins bin' prof keep k j b = recreated_after npart nprof nbins bin prof keep k j b.
Proof.
  intros. rewrite <- !R_S. apply iterate_perm. auto.
Qed.

Lemma total_perm : forall keep k,
  total npart (weights_after npart nprof nbins bin' prof keep k) =
  total npart (weights_after npart nprof nbins bin prof keep k).
Proof.
  intros. unfold total. rewrite <- (sumn_perm npart (weights_after npart nprof nbins bin prof keep k) s Hs Hinj). apply sumn_ext. intros. apply weights_perm. auto.
Qed.
End Perm.

Section More.
Variables npart nprof nbins : nat.
Variable bin : nat -> nat -> nat.
Variable prof : nat -> nat -> Qc.
Hypothesis Hbin : forall i j, (i < npart)%nat -> (j < nprof)%nat -> (bin i j < nbins)%nat.

Notation W := (weights_after npart nprof nbins bin prof).
Notation RA := (recreated_after npart nprof nbins bin prof).
Notation IT := (iterate npart nprof nbins bin prof).
Notation CO := (compensation npart nprof nbins bin).
Notation Hg := (histogram npart bin).

Lemma compensation_nonneg : forall j b, 0 <= CO j b.
Proof. intros. unfold compensation. apply Qcdiv_nonneg; [apply qn_nonneg|apply qn_pos; lia]. Qed.

Lemma compensation_ge_1 : forall j b, (0 < npart)%nat -> (j < nprof)%nat -> (b < nbins)%nat -> 1 <= CO j b.
Proof.
  intros j b Hn Hj Hb. unfold compensation. apply Qcle_div_iff; [apply qn_pos; lia|]. rewrite Qcmult_1_l.
  apply qn_le. pose proof (count_le_max npart nprof nbins bin j b Hj Hb).
  pose proof (max_count_pos npart nprof nbins bin Hbin Hn ltac:(lia)). lia.
Qed.

(** A particle that sees only empty bins never gets weight. *)
Lemma empty_particle : forall keep i, (i < npart)%nat -> (forall j, (j < nprof)%nat -> prof j (bin i j) = 0) ->
  forall k, W keep k i = 0.
Proof.
  intros keep i Hi Hz. induction k.
  - rewrite W_0. unfold gather. rewrite sumn_zero by auto. reflexivity.
  - rewrite W_S. unfold next_weights. rewrite IHk. apply pos_nonpos.
    assert (H0 : 0 <= gather nprof bin (fun j b => - ((prof j b - RA keep k j b) * CO j b)) i).
    { apply sumn_nonneg. intros j Hj. rewrite Hz by auto.
      pose proof (RA_nonneg npart nprof nbins bin prof keep k j (bin i j)).
      pose proof (compensation_nonneg j (bin i j)). generalize dependent (RA keep k j (bin i j)).
      generalize dependent (CO j (bin i j)). intros c Hc r Hr.
      replace (- ((0 - r) * c)) with (r * c) by ring. apply Qcmul_nonneg; auto. }
    assert (E : gather nprof bin (fun j b => - ((prof j b - RA keep k j b) * CO j b)) i =
                - gather nprof bin (fun j b => (prof j b - RA keep k j b) * CO j b) i).
    { unfold gather. transitivity (sumn nprof (fun j => (-(1)) * ((prof j (bin i j) - RA keep k j (bin i j)) * CO j (bin i j)))).
      - apply sumn_ext. intros. ring.
      - rewrite sumn_scale. ring. }
    rewrite E in H0. generalize dependent (gather nprof bin (fun j b => (prof j b - RA keep k j b) * CO j b) i).
    intros. qclra.
Qed.

(** Exact recreated waterfall: nothing changes. *)
Lemma fixed_step : forall keep k, (forall j b, (j < nprof)%nat -> (b < nbins)%nat -> RA keep k j b = prof j b) ->
  forall i, (i < npart)%nat -> W keep (S k) i = W keep k i.
Proof.
  intros keep k E i Hi. rewrite W_S. unfold next_weights.
  assert (Z : gather nprof bin (fun j b => (prof j b - RA keep k j b) * CO j b) i = 0).
  { unfold gather. apply sumn_zero. intros j Hj. rewrite E by auto. ring. }
  rewrite Z. rewrite Qcplus_0_r. apply pos_id. apply W_nonneg.
Qed.

Lemma RA_false : forall k j b, (j < nprof)%nat ->
  RA false k j b = Hg (W false k) j b / total npart (W false k).
Proof.
  intros. unfold recreated_after, next_recreated, row_normalised. cbn iota.
  rewrite <- (histogram_total npart nprof nbins bin Hbin (W false k) j) by auto.
  f_equal; [ring|]. apply sumn_ext. intros. ring.
Qed.

Lemma RA_true_0 : forall j b, (j < nprof)%nat ->
  RA true 0 j b = Hg (W true 0) j b / total npart (W true 0).
Proof. intros. apply (RA_false 0). auto. Qed.

(** The recreated waterfall of the C++ code is a mixture of the previous one
    and of the histogram. *)
Lemma RA_true_S : forall k j b, (j < nprof)%nat -> 0 < total npart (W true k) ->
  RA true (S k) j b = (RA true k j b + Hg (W true (S k)) j b) / (1 + total npart (W true (S k))).
Proof.
  intros. unfold recreated_after at 1, next_recreated, row_normalised. rewrite R_S.
  rewrite sumn_add, (histogram_total npart nprof nbins bin Hbin), (RA_row_sum npart nprof nbins bin prof Hbin) by auto. reflexivity.
Qed.

(** Without carry: once exact, always exact. *)
Lemma fixed_false : forall k, (forall j b, (j < nprof)%nat -> (b < nbins)%nat -> RA false k j b = prof j b) ->
  forall m, (k <= m)%nat -> (forall i, (i < npart)%nat -> W false m i = W false k i) /\
    (forall j b, (j < nprof)%nat -> (b < nbins)%nat -> RA false m j b = prof j b).
Proof.
  intros k E m Hm. replace m with ((m - k) + k)%nat by lia. induction (m - k)%nat as [|d IH]; [auto|].
  destruct IH as [IH1 IH2]. cbn [plus].
  assert (A : forall i, (i < npart)%nat -> W false (S (d + k)) i = W false k i).
  { intros. rewrite fixed_step by auto. auto. }
  split; auto. intros. rewrite RA_false by auto. rewrite <- E by auto. rewrite RA_false by auto.
  f_equal.
  - unfold histogram. apply sumn_ext. intros. rewrite A by auto. reflexivity.
  - unfold total. apply sumn_ext. intros. rewrite A by auto. reflexivity.
Qed.

(** With carry: exact from the start means exact for ever. *)
Lemma fixed_true : (forall j b, (j < nprof)%nat -> (b < nbins)%nat -> RA true 0 j b = prof j b) ->
  0 < total npart (W true 0) ->
  forall m, (forall i, (i < npart)%nat -> W true m i = W true 0 i) /\
    (forall j b, (j < nprof)%nat -> (b < nbins)%nat -> RA true m j b = prof j b).
Proof.
  intros E Hp. induction m as [|m [IH1 IH2]]; [auto|].
  assert (A : forall i, (i < npart)%nat -> W true (S m) i = W true 0 i).
  { intros. rewrite fixed_step by auto. auto. }
  assert (Tt : forall m, (forall i, (i < npart)%nat -> W true m i = W true 0 i) -> total npart (W true m) = total npart (W true 0)).
  { intros. unfold total. apply sumn_ext. auto. }
  split; auto. intros j b Hj Hb. rewrite RA_true_S by (auto; rewrite Tt; auto). rewrite IH2 by auto.
  rewrite Tt by auto. pose proof (E j b Hj Hb) as E'. rewrite RA_true_0 in E' by auto.
  assert (Hh : Hg (W true (S m)) j b = Hg (W true 0) j b).
  { unfold histogram. apply sumn_ext. intros. rewrite A by auto. reflexivity. }
  rewrite Hh. rewrite <- E'. field. split; [apply Qclt_ne; auto|].
  apply Qclt_ne. qclra.
Qed.

(** Initial weights. *)
Lemma initial_zero : (forall j b, (j < nprof)%nat -> (b < nbins)%nat -> 0 <= prof j b) ->
  forall keep i, (i < npart)%nat -> (W keep 0 i = 0 <-> forall j, (j < nprof)%nat -> prof j (bin i j) = 0).
Proof.
  intros Hn keep i Hi. rewrite W_0.
  assert (0 <= gather nprof bin prof i) by (apply sumn_nonneg; intros; auto).
  rewrite pos_id by auto. unfold gather. apply sumn_zero_iff. intros. auto.
Qed.

Lemma total_zero_iff : forall keep k, ~ 0 < total npart (W keep k) <-> forall i, (i < npart)%nat -> W keep k i = 0.
Proof.
  intros. split; [apply total_zero_weights|]. intros A B. unfold total in B. rewrite sumn_zero in B by auto.
  exact (Qclt_not_eq _ _ B eq_refl).
Qed.

Lemma W1_same : forall i, W true 1 i = W false 1 i.
Proof. reflexivity. Qed.
Lemma RA0_same : forall j b, RA true 0 j b = RA false 0 j b.
Proof. reflexivity. Qed.
Lemma W0_same : forall i, W true 0 i = W false 0 i.
Proof. reflexivity. Qed.

(** The mean square vanishes exactly for equality. *)
Lemma mean_square_zero : (0 < nprof)%nat -> (0 < nbins)%nat -> forall R,
  (mean_square nprof nbins prof R = 0 <-> forall j b, (j < nprof)%nat -> (b < nbins)%nat -> R j b = prof j b).
Proof.
  intros Hp Hb R. unfold mean_square.
  assert (0 < qn (nprof * nbins)) by (apply qn_pos; nia).
  set (S := sumn nprof _). split.
  - intros E j b Hj Hb'.
    assert (Z : S = 0). { replace S with (S / qn (nprof * nbins) * qn (nprof * nbins)) by (field; apply Qclt_ne; auto). rewrite E. ring. }
    unfold S in Z. assert (Z' := proj1 (sumn_zero_iff _ _ (fun j _ => sumn_nonneg nbins _ (fun b _ => Qcsquare_nonneg (prof j b - R j b)))) Z j Hj).
    cbn beta in Z'. assert (Z'' := proj1 (sumn_zero_iff _ _ (fun b _ => Qcsquare_nonneg (prof j b - R j b))) Z' b Hb').
    cbn beta in Z''. apply Qcmul_eq_0 in Z''. destruct Z''; generalize dependent (R j b); intros; qclra.
  - intros E. assert (Z : S = 0). { unfold S. apply sumn_zero. intros j Hj. apply sumn_zero. intros b Hb'. rewrite E by auto. ring. }
    rewrite Z. unfold Qcdiv. ring.
Qed.
End More.
