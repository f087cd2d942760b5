(** An area with a column beyond the image: building the distribution raises
    IndexError. *)
From Coq Require Import List ZArith QArith Qcanon Bool Lia Arith.
From Verif Require Import Base.Res Base.ResLemmas Base.QcLib Base.QcLemmas Model.MRecon Model.MParticles Spec.ParticleSpec Proof.PParticles.
Import ListNotations.
Local Open Scope Qc_scope.

Lemma sequence_index_error : forall B (l : list (res B)), (forall r, In r l -> (exists y, r = Ok y) \/ r = Fail (Raised IndexError)) ->
  In (Fail (Raised IndexError)) l -> sequence l = Fail (Raised IndexError).
Proof.
  induction l as [|a l IH]; intros H I; [contradiction|]. cbn [sequence].
  destruct (H a (or_introl eq_refl)) as [[y ->]| ->]; [|reflexivity]. cbn [bind].
  rewrite IH; [reflexivity|intros; apply H; right; auto|]. destruct I as [I|I]; [discriminate|auto].
Qed.

Lemma np_get_cases : forall A (l : list A) i, (exists y, np_get l i = Ok y) \/ np_get l i = Fail (Raised IndexError).
Proof.
  intros. unfold np_get. cbv zeta. set (j := if (i <? 0)%Z then _ else _). destruct ((j <? 0)%Z || (Z.of_nat (length l) <=? j)%Z)%bool eqn:E; auto.
  apply orb_false_iff in E. destruct E as [E1 E2]. apply Z.ltb_ge in E1. apply Z.leb_gt in E2. left. unfold get.
  destruct (Z.ltb_spec j 0); [lia|]. destruct (nth_error l (Z.to_nat j)) eqn:N; [eauto|]. apply nth_error_None in N. lia.
Qed.

Lemma wide_fails : forall snpt imin imax jmin jmax, (0 < snpt)%nat -> (0 <= imin <= imax)%Z -> (Z.of_nat (length jmax) <= imax)%Z ->
  (exists i, (i < length jmax)%nat /\ (i < length jmin)%nat /\ (nth i jmin 0 < nth i jmax 0)%Z) ->
  homogeneous_coords snpt imin imax jmin jmax = Fail (Raised IndexError).
Proof.
  intros snpt imin imax jmin jmax Hs Hi Hw (i & I1 & I2 & I3). unfold homogeneous_coords. cbv zeta.
  destruct (zmax_ok jmax) as (top & -> & Ht); [intros ->; simpl in *; lia|]. cbn [bind].
  destruct (zmin_ok jmin) as (bot & -> & Hb); [intros ->; simpl in *; lia|]. cbn [bind].
  assert (T1 := Ht _ (nth_In jmax 0%Z I1)). assert (B1 := Hb _ (nth_In jmin 0%Z I2)).
  set (P := fun p => j <- np_get jmax (qtrunc (fst p)) ;; Ok (qltb (snd p) (qz j))).
  set (c := flat_map _ _). assert (E : filterM P c = Fail (Raised IndexError)); [|rewrite E; reflexivity].
  unfold filterM. assert (M : mapM P c = Fail (Raised IndexError)); [|rewrite M; reflexivity].
  unfold mapM. apply sequence_index_error.
  - intros r Hr. apply in_map_iff in Hr. destruct Hr as [p [<- _]]. unfold P.
    destruct (np_get_cases _ jmax (qtrunc (fst p))) as [[y ->]| ->]; cbn [bind]; eauto.
  - assert (F : exists f, In f (bin_pts snpt)).
    { unfold bin_pts. destruct snpt; [lia|]. eexists. simpl. left. reflexivity. }
    destruct F as [f Hf]. assert (Q := bin_pts_in _ _ Hf).
    apply in_map_iff. exists (qz imax + f, qz bot + f). split.
    + unfold P. cbn [fst]. assert (0 <= qz imax) by (change 0 with (qz 0); apply (proj2 (qz_le 0 imax)); lia).
      rewrite qtrunc_nonneg by (destruct Q; qclra). rewrite floor_shift by tauto. unfold np_get. cbv zeta.
      destruct (Z.ltb_spec imax 0); [lia|]. destruct (Z.leb_spec (Z.of_nat (length jmax)) imax); [|lia]. rewrite orb_true_r. reflexivity.
    + unfold c. apply in_flat_map. exists (qz bot + f). split.
      * rewrite grid_flat. apply in_flat_map. exists bot. split; [apply in_arange; lia|]. apply in_map. auto.
      * apply in_map_iff. exists (qz imax + f). split; auto. rewrite grid_flat. apply in_flat_map. exists imax. split; [apply in_arange; lia|]. apply in_map. auto.
Qed.
