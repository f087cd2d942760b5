(** The iteration under a change of the order of the profiles, of the numbers
    of the bins, and with every particle repeated. *)
From Coq Require Import List ZArith QArith Qcanon Lia Arith Bool.
From Verif Require Import Base.Res Base.ResLemmas Base.QcLib Base.QcLemmas Base.Loops Spec.ReconSpec
  Proof.PRecon Proof.PRecon2 Proof.PRecon3.
Import ListNotations.
Local Open Scope Qc_scope.

Lemma perm_surj : forall n (s : nat -> nat), (forall i, (i < n)%nat -> (s i < n)%nat) ->
  (forall i j, (i < n)%nat -> (j < n)%nat -> s i = s j -> i = j) ->
  forall k, (k < n)%nat -> exists i, (i < n)%nat /\ s i = k.
Proof.
  intros n s Hr Hi k Hk.
  assert (I : incl (seq 0 n) (map s (seq 0 n))).
  { apply NoDup_length_incl.
    - apply NoDup_map_inj; [|apply seq_NoDup]. intros a b Ha Hb. apply in_seq in Ha, Hb. apply Hi; lia.
    - rewrite map_length. auto.
    - intros x Hx. apply in_map_iff in Hx. destruct Hx as [i [<- Hx]]. apply in_seq in Hx. apply in_seq.
      specialize (Hr i). lia. }
  specialize (I k). rewrite in_seq in I. specialize (I ltac:(lia)). apply in_map_iff in I.
  destruct I as [i [E Hin]]. apply in_seq in Hin. exists i. split; [lia|auto].
Qed.

Lemma max_count_bound : forall npart nprof nbins bin N,
  (forall j b, (j < nprof)%nat -> (b < nbins)%nat -> (count npart bin j b <= N)%nat) ->
  (max_count npart nprof nbins bin <= N)%nat.
Proof.
  intros. unfold max_count. apply list_max_le. apply Forall_forall. intros x Hx. apply in_map_iff in Hx.
  destruct Hx as [j [<- Hj]]. apply in_seq in Hj. apply list_max_le. apply Forall_forall. intros y Hy.
  apply in_map_iff in Hy. destruct Hy as [b [<- Hb]]. apply in_seq in Hb. apply H; lia.
Qed.

Section Relabel.
Variables npart nprof nbins : nat.
Variables bin bin' : nat -> nat -> nat.
Variables prof prof' : nat -> nat -> Qc.
(** [p]: the profile now at place j; [q j]: new numbers of the bins there. *)
Variable p : nat -> nat.
Variable q : nat -> nat -> nat.
Hypothesis Hbin : forall i j, (i < npart)%nat -> (j < nprof)%nat -> (bin i j < nbins)%nat.
Hypothesis Hp : forall j, (j < nprof)%nat -> (p j < nprof)%nat.
Hypothesis Hpi : forall i j, (i < nprof)%nat -> (j < nprof)%nat -> p i = p j -> i = j.
Hypothesis Hq : forall j b, (j < nprof)%nat -> (b < nbins)%nat -> (q j b < nbins)%nat.
Hypothesis Hqi : forall j a b, (j < nprof)%nat -> (a < nbins)%nat -> (b < nbins)%nat -> q j a = q j b -> a = b.
Hypothesis Hb' : forall i j, (i < npart)%nat -> (j < nprof)%nat -> bin' i j = q j (bin i (p j)).
Hypothesis Hf' : forall j b, (j < nprof)%nat -> (b < nbins)%nat -> prof' j (q j b) = prof (p j) b.

Lemma eqb_relabel : forall i j b, (i < npart)%nat -> (j < nprof)%nat -> (b < nbins)%nat ->
  Nat.eqb (bin' i j) (q j b) = Nat.eqb (bin i (p j)) b.
Proof.
  intros. rewrite Hb' by auto. destruct (Nat.eqb_spec (bin i (p j)) b) as [E|E].
  - rewrite E. apply Nat.eqb_refl.
  - apply Nat.eqb_neq. intros A. apply E. eapply Hqi; eauto.
Qed.

Lemma histogram_relabel : forall w w' j b, (j < nprof)%nat -> (b < nbins)%nat ->
  (forall i, (i < npart)%nat -> w' i = w i) ->
  histogram npart bin' w' j (q j b) = histogram npart bin w (p j) b.
Proof. intros. unfold histogram. apply sumn_ext. intros. rewrite eqb_relabel, H1 by auto. reflexivity. Qed.

Lemma count_relabel : forall j b, (j < nprof)%nat -> (b < nbins)%nat ->
  count npart bin' j (q j b) = count npart bin (p j) b.
Proof. intros. apply (proj1 (qn_inj _ _)). rewrite <- !histogram_count. apply histogram_relabel; auto. Qed.

Lemma max_count_relabel : max_count npart nprof nbins bin' = max_count npart nprof nbins bin.
Proof.
  apply Nat.le_antisymm; apply max_count_bound; intros j b Hj Hb.
  - destruct (perm_surj nbins (q j) (fun b => Hq j b Hj) (fun a b => Hqi j a b Hj) b Hb) as [a [Ha <-]].
    rewrite count_relabel by auto. apply count_le_max; auto.
  - destruct (perm_surj nprof p Hp Hpi j Hj) as [j' [Hj' <-]]. rewrite <- count_relabel by auto.
    apply count_le_max; auto.
Qed.

Lemma compensation_relabel : forall j b, (j < nprof)%nat -> (b < nbins)%nat ->
  compensation npart nprof nbins bin' j (q j b) = compensation npart nprof nbins bin (p j) b.
Proof. intros. unfold compensation. rewrite max_count_relabel, count_relabel by auto. reflexivity. Qed.

Lemma row_sum_relabel : forall f f' j, (j < nprof)%nat -> (forall b, (b < nbins)%nat -> f' j (q j b) = f (p j) b) ->
  sumn nbins (f' j) = sumn nbins (f (p j)).
Proof.
  intros. rewrite <- (sumn_perm nbins (f' j) (q j)); auto.
  - apply sumn_ext. auto.
  - intros. eapply Hqi; eauto.
Qed.

Lemma gather_relabel : forall f f' i, (i < npart)%nat ->
  (forall j b, (j < nprof)%nat -> (b < nbins)%nat -> f' j (q j b) = f (p j) b) ->
  gather nprof bin' f' i = gather nprof bin f i.
Proof.
  intros. unfold gather. rewrite <- (sumn_perm nprof (fun j => f j (bin i j)) p Hp Hpi).
  apply sumn_ext. intros. rewrite Hb' by auto. apply H0; auto.
Qed.

Lemma iterate_relabel : forall keep k,
  (forall i, (i < npart)%nat -> fst (iterate npart nprof nbins bin' prof' keep k) i
     = fst (iterate npart nprof nbins bin prof keep k) i) /\
  (forall j b, (j < nprof)%nat -> (b < nbins)%nat -> snd (iterate npart nprof nbins bin' prof' keep k) j (q j b)
     = snd (iterate npart nprof nbins bin prof keep k) (p j) b).
Proof.
  intros keep. induction k; simpl.
  - split; auto. intros. f_equal. apply gather_relabel; auto.
  - destruct (iterate npart nprof nbins bin' prof' keep k) as [w' R'].
    destruct (iterate npart nprof nbins bin prof keep k) as [w R]. destruct IHk as [IH1 IH2]. simpl in *.
    assert (RR : forall j b, (j < nprof)%nat -> (b < nbins)%nat ->
      next_recreated npart nbins bin' keep R' w' j (q j b) = next_recreated npart nbins bin keep R w (p j) b).
    { intros. unfold next_recreated, row_normalised.
      assert (C : forall b, (b < nbins)%nat -> (if keep then R' j (q j b) else 0) + histogram npart bin' w' j (q j b)
        = (if keep then R (p j) b else 0) + histogram npart bin w (p j) b).
      { intros. rewrite (histogram_relabel w w'), IH2 by auto. reflexivity. }
      rewrite C by auto. f_equal.
      apply (row_sum_relabel (fun j b => (if keep then R j b else 0) + histogram npart bin w j b)
        (fun j b => (if keep then R' j b else 0) + histogram npart bin' w' j b)); auto. }
    split; auto. intros. unfold next_weights. rewrite IH1 by auto. do 2 f_equal.
    apply gather_relabel; auto. intros. rewrite Hf', RR, compensation_relabel by auto. reflexivity.
Qed.

Lemma weights_relabel : forall keep k i, (i < npart)%nat ->
  weights_after npart nprof nbins bin' prof' keep k i = weights_after npart nprof nbins bin prof keep k i.
Proof. intros. apply iterate_relabel. auto. Qed.

Lemma recreated_relabel : forall keep k j b, (j < nprof)%nat -> (b < nbins)%nat ->
  recreated_after npart nprof nbins bin' prof' keep k j (q j b)
  = recreated_after npart nprof nbins bin prof keep k (p j) b.
Proof. intros. rewrite <- !R_S. apply iterate_relabel; auto. Qed.

Lemma total_relabel : forall keep k,
  total npart (weights_after npart nprof nbins bin' prof' keep k) =
  total npart (weights_after npart nprof nbins bin prof keep k).
Proof. intros. apply sumn_ext. intros. apply weights_relabel. auto. Qed.

Lemma mean_square_relabel : forall R R',
  (forall j b, (j < nprof)%nat -> (b < nbins)%nat -> R' j (q j b) = R (p j) b) ->
  mean_square nprof nbins prof' R' = mean_square nprof nbins prof R.
Proof.
  intros R R' H. unfold mean_square. f_equal.
  rewrite <- (sumn_perm nprof (fun j => sumn nbins (fun b => (prof j b - R j b) * (prof j b - R j b))) p Hp Hpi).
  apply sumn_ext. intros j Hj.
  apply (row_sum_relabel (fun j b => (prof j b - R j b) * (prof j b - R j b))
    (fun j b => (prof' j b - R' j b) * (prof' j b - R' j b))); auto.
  intros. rewrite Hf', H by auto. reflexivity.
Qed.
End Relabel.

Section Repeat.
Variables npart nprof nbins times : nat.
Variables bin bin' : nat -> nat -> nat.
Variable prof : nat -> nat -> Qc.
Hypothesis Hbin : forall i j, (i < npart)%nat -> (j < nprof)%nat -> (bin i j < nbins)%nat.
Hypothesis Ht : (0 < times)%nat.
(** Particle number c * npart + i is copy c of particle i. *)
Hypothesis Hb' : forall c i j, (c < times)%nat -> (i < npart)%nat -> (j < nprof)%nat ->
  bin' (c * npart + i) j = bin i j.

Lemma sumn_repeat : forall f f', (forall c i, (c < times)%nat -> (i < npart)%nat -> f' (c * npart + i)%nat = f i) ->
  sumn (times * npart) f' = qn times * sumn npart f.
Proof.
  intros. rewrite sumn_flat. rewrite <- sumn_const. apply sumn_ext. intros. apply sumn_ext. intros. auto.
Qed.

Lemma histogram_repeat : forall w w' j b, (j < nprof)%nat ->
  (forall c i, (c < times)%nat -> (i < npart)%nat -> w' (c * npart + i)%nat = w i) ->
  histogram (times * npart) bin' w' j b = qn times * histogram npart bin w j b.
Proof. intros. unfold histogram. apply sumn_repeat. intros. rewrite Hb', H0 by auto. reflexivity. Qed.

Lemma count_repeat : forall j b, (j < nprof)%nat ->
  count (times * npart) bin' j b = (times * count npart bin j b)%nat.
Proof.
  intros. apply (proj1 (qn_inj _ _)). rewrite qn_mul. rewrite <- !histogram_count. apply histogram_repeat; auto.
Qed.

Lemma max_count_repeat : max_count (times * npart) nprof nbins bin' = (times * max_count npart nprof nbins bin)%nat.
Proof.
  apply Nat.le_antisymm.
  - apply max_count_bound. intros. rewrite count_repeat by auto. apply Nat.mul_le_mono_l. apply count_le_max; auto.
  - assert (B : (max_count npart nprof nbins bin <= max_count (times * npart) nprof nbins bin' / times)%nat).
    { apply max_count_bound. intros. apply Nat.div_le_lower_bound; [lia|]. rewrite <- count_repeat by auto.
      apply count_le_max; auto. }
    apply Nat.mul_le_mono_l with (p := times) in B. etransitivity; [exact B|]. apply Nat.mul_div_le. lia.
Qed.

Lemma compensation_repeat : forall j b, (j < nprof)%nat -> (0 < count npart bin j b)%nat ->
  compensation (times * npart) nprof nbins bin' j b = compensation npart nprof nbins bin j b.
Proof.
  intros. unfold compensation. rewrite max_count_repeat, count_repeat by auto.
  assert (1 <= times * count npart bin j b)%nat by (apply Nat.mul_pos_pos; auto).
  rewrite !Nat.max_r by lia. rewrite !qn_mul.
  assert (0 < qn times) by (apply qn_pos; auto). assert (0 < qn (count npart bin j b)) by (apply qn_pos; auto).
  field. split; apply Qclt_ne; auto.
Qed.

Lemma own_bin_count : forall i j, (i < npart)%nat -> (0 < count npart bin j (bin i j))%nat.
Proof.
  intros. unfold count. assert (I : In i (filter (fun i0 => Nat.eqb (bin i0 j) (bin i j)) (seq 0 npart))).
  { apply filter_In. split; [apply in_seq; lia|apply Nat.eqb_refl]. }
  destruct (filter _ _); [contradiction|simpl; lia].
Qed.

Lemma normalised_repeat : forall f f' j b, (forall b, f' j b = qn times * f j b) ->
  row_normalised nbins f' j b = row_normalised nbins f j b.
Proof.
  intros. unfold row_normalised. rewrite H. rewrite (sumn_ext nbins (f' j) (fun b => qn times * f j b)) by auto.
  rewrite sumn_scale. assert (T : 0 < qn times) by (apply qn_pos; auto).
  assert (T' : qn times <> 0) by (apply Qclt_ne; auto).
  destruct (qeqb_spec (sumn nbins (f j)) 0) as [E|E].
  - rewrite E. replace (qn times * 0) with 0 by ring. unfold Qcdiv.
    replace (/ 0) with 0 by (apply Qc_is_canon; reflexivity). ring.
  - field. auto.
Qed.

Lemma next_recreated_repeat : forall w w' j b, (j < nprof)%nat ->
  (forall c i, (c < times)%nat -> (i < npart)%nat -> w' (c * npart + i)%nat = w i) ->
  forall R R', next_recreated (times * npart) nbins bin' false R' w' j b = next_recreated npart nbins bin false R w j b.
Proof.
  intros. unfold next_recreated. apply normalised_repeat. intros. rewrite (histogram_repeat w w') by auto. ring.
Qed.

Lemma next_weights_repeat : forall w w' R R' c i, (c < times)%nat -> (i < npart)%nat ->
  (forall c i, (c < times)%nat -> (i < npart)%nat -> w' (c * npart + i)%nat = w i) ->
  (forall j b, (j < nprof)%nat -> R' j b = R j b) ->
  next_weights (times * npart) nprof nbins bin' prof R' w' (c * npart + i) = next_weights npart nprof nbins bin prof R w i.
Proof.
  intros. unfold next_weights. rewrite H1 by auto. do 2 f_equal. unfold gather. apply sumn_ext. intros j Hj.
  rewrite Hb', H2 by auto. rewrite compensation_repeat by (auto using own_bin_count). reflexivity.
Qed.

Lemma iterate_repeat : forall k,
  (forall c i, (c < times)%nat -> (i < npart)%nat ->
     fst (iterate (times * npart) nprof nbins bin' prof false k) (c * npart + i)%nat
     = fst (iterate npart nprof nbins bin prof false k) i) /\
  (forall j b, (j < nprof)%nat -> snd (iterate (times * npart) nprof nbins bin' prof false k) j b
     = snd (iterate npart nprof nbins bin prof false k) j b).
Proof.
  induction k; cbn [iterate].
  - split; auto. intros. cbn [fst]. f_equal. unfold gather. apply sumn_ext. intros. rewrite Hb'; auto.
  - destruct (iterate (times * npart) nprof nbins bin' prof false k) as [w' R'].
    destruct (iterate npart nprof nbins bin prof false k) as [w R]. destruct IHk as [IH1 IH2]. cbn [fst snd] in *.
    assert (RR := fun j b Hj => next_recreated_repeat w w' j b Hj IH1 R R').
    split; auto. intros. apply next_weights_repeat; auto.
Qed.

Lemma weights_repeat : forall k c i, (c < times)%nat -> (i < npart)%nat ->
  weights_after (times * npart) nprof nbins bin' prof false k (c * npart + i)%nat
  = weights_after npart nprof nbins bin prof false k i.
Proof. intros. apply iterate_repeat; auto. Qed.

Lemma recreated_repeat : forall k j b, (j < nprof)%nat ->
  recreated_after (times * npart) nprof nbins bin' prof false k j b
  = recreated_after npart nprof nbins bin prof false k j b.
Proof. intros. rewrite <- !R_S. apply iterate_repeat. auto. Qed.

Lemma total_repeat : forall k,
  total (times * npart) (weights_after (times * npart) nprof nbins bin' prof false k) =
  qn times * total npart (weights_after npart nprof nbins bin prof false k).
Proof. intros. apply sumn_repeat. intros. apply weights_repeat; auto. Qed.
End Repeat.

(** A row that is nowhere negative and sums to one has at most one as sum of
    squares. *)
Lemma square_sum_le : forall n f, (forall i, (i < n)%nat -> 0 <= f i) -> sumn n f = 1 ->
  sumn n (fun i => f i * f i) <= 1.
Proof.
  intros n f H E. rewrite <- E. apply sumn_le. intros i Hi.
  assert (L := sumn_ge_term n f i H Hi). rewrite E in L. specialize (H i Hi).
  assert (A : 0 <= f i * (1 - f i)) by (apply Qcmul_nonneg; auto; qclra).
  replace (f i * (1 - f i)) with (f i - f i * f i) in A by ring. qclra.
Qed.

Lemma row_difference_le : forall n f g, (forall i, (i < n)%nat -> 0 <= f i) -> (forall i, (i < n)%nat -> 0 <= g i) ->
  sumn n f = 1 -> sumn n g = 1 -> sumn n (fun i => (f i - g i) * (f i - g i)) <= qn 2.
Proof.
  intros n f g Hf Hg Ef Eg. assert (A := square_sum_le n f Hf Ef). assert (B := square_sum_le n g Hg Eg).
  assert (C : 0 <= sumn n (fun i => f i * g i)) by (apply sumn_nonneg; intros; apply Qcmul_nonneg; auto).
  rewrite (sumn_ext n _ (fun i => (f i * f i + g i * g i) - qn 2 * (f i * g i))).
  2:{ intros. change (qn 2) with (1 + 1). ring. }
  rewrite sumn_sub, sumn_add, sumn_scale.
  replace (qn 2) with (1 + 1) by (apply Qc_is_canon; reflexivity). qclra.
Qed.
