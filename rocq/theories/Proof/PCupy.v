(** reconstruct_cupy computes the iteration of the specification when there are
    at least as many particles as bins. *)
From Coq Require Import List ZArith Bool Lia Arith QArith Qcanon.
From Verif Require Import Base.Res Base.ResLemmas Base.QcLib Base.QcLemmas Base.Loops Model.MRecon Model.MOmp Model.MGpu
  Spec.ReconSpec Proof.PRecon Proof.PRecon2 Proof.PHybrid Proof.PGpu3.
Import ListNotations.
Local Open Scope Qc_scope.

Lemma length_filter_map : forall A B (g : B -> bool) (f : A -> B) l,
  length (filter g (map f l)) = length (filter (fun a => g (f a)) l).
Proof. induction l; cbn; auto. destruct (g (f a)); cbn; auto. Qed.

Section Cupy.
Variables npart nprof nbins : nat.
Variable bin : nat -> nat -> nat.
Variable prof : nat -> nat -> Qc.
Variable sqrt : Qc -> Qc.
Hypothesis Hbin : forall i j, (i < npart)%nat -> (j < nprof)%nat -> (bin i j < nbins)%nat.
Hypothesis Hp : (0 < nprof)%nat.
Hypothesis Hb : (0 < nbins)%nat.
Notation W := (weights_after npart nprof nbins bin prof true).
Notation RA := (recreated_after npart nprof nbins bin prof true).
Notation IT := (iterate npart nprof nbins bin prof true).
Notation CO := (compensation npart nprof nbins bin).
Notation rmsv := (rms nprof nbins prof sqrt).
Notation all := (nprof * nbins)%nat.
Notation pl := (tab all (fl nbins prof)).
Notation xr := (xrows npart nprof bin).
Notation fp := (T npart nprof (fun i j => zi (j * nbins + bin i j))).
Notation good := (good npart nprof nbins bin prof).
Notation first_bad := (first_bad npart nprof nbins bin prof).
Notation discr_upto := (discr_upto npart nprof nbins bin prof sqrt).

Lemma cupy_points : cupy_flat_points xr nprof nbins = fp.
Proof.
  unfold cupy_flat_points, py_flat_points, xrows, T. rewrite map_tab. apply tab_ext. intros i Hi.
  rewrite seq_tab, combine_tab, map_tab. apply tab_ext. intros j Hj. cbn [fst snd]. lia.
Qed.

Lemma cupy_back_tab : forall w f, cupy_back_project (tab npart w) fp (tab all (fl nbins f)) =
  Ok (tab npart (fun i => w i + gather nprof bin f i)).
Proof.
  intros w f. unfold cupy_back_project, T.
  rewrite (mapM_tab _ _ _ npart _ (fun i => tab nprof (fun j => f j (bin i j)))).
  2:{ intros i Hi. apply mapM_tab. intros j Hj. unfold cp_take. rewrite tab_length.
      pose proof (Hbin i j Hi Hj). assert (j * nbins + bin i j < all)%nat by nia.
      rewrite Z.mod_small by lia. rewrite get_tab by auto. rewrite fl_at by auto. reflexivity. }
  cbn [bind]. rewrite combine_tab, map_tab. f_equal. apply tab_ext. intros i Hi. cbn [fst snd].
  rewrite <- sumn_qsum. unfold gather. ring.
Qed.

Lemma cupy_clip_tab : forall w, cupy_clip (tab npart w) 0 = tab npart (fun i => pos (w i)).
Proof.
  intros. unfold cupy_clip. rewrite map_tab. apply tab_ext. intros i Hi. unfold pos.
  destruct (qltb_spec (w i) 0); destruct (qltb_spec 0 (w i)); auto; exfalso; qclra.
Qed.

Lemma cupy_bincount_tab : forall w, cp_bincount (List.concat fp) (List.concat (map (fun x => repeat x nprof) (tab npart w))) all =
  Ok (tab all (fl nbins (histogram npart bin w))).
Proof.
  intros w. unfold cp_bincount. rewrite concat_T.
  assert (X : existsb (fun v => (v <? 0)%Z) (tab (npart * nprof) (fl nprof (fun i j => zi (j * nbins + bin i j)))) = false).
  { destruct (existsb _ _) eqn:X; auto. apply existsb_tab in X. destruct X as (k & _ & X). unfold fl in X. apply Z.ltb_lt in X. lia. }
  rewrite X.
  assert (M : Nat.max all (list_max (map (fun v => S (Z.to_nat v))
     (tab (npart * nprof) (fl nprof (fun i j => zi (j * nbins + bin i j)))))) = all).
  { apply Nat.max_l. apply list_max_le. apply Forall_forall. intros x Hx. apply in_map_iff in Hx.
    destruct Hx as (v & <- & Hv). apply in_tab in Hv. destruct Hv as (k & Hk & <-). unfold fl.
    rewrite Nat2Z.id.
    assert (J : (k mod nprof < nprof)%nat) by (apply Nat.mod_upper_bound; lia).
    assert (I : (k / nprof < npart)%nat) by (apply Nat.div_lt_upper_bound; [lia|]; rewrite Nat.mul_comm; auto).
    pose proof (Hbin _ _ I J). nia. }
  cbv zeta. rewrite M. clear M X.
  assert (E : List.concat (map (fun x => repeat x nprof) (tab npart w)) = tab (npart * nprof) (fl nprof (fun i _ => w i))).
  { rewrite map_tab, <- concat_T. f_equal. unfold T. apply tab_ext. intros i Hi. apply repeat_tab. }
  rewrite E, combine_tab, forl_tab, repeat_tab.
  rewrite (for_scatter _ _ _ (fl nprof (fun i j => (j * nbins + bin i j)%nat)) (fl nprof (fun i _ => w i))).
  2:{ intros k h Hk. cbn [fst snd].
      assert (J : (k mod nprof < nprof)%nat) by (apply Nat.mod_upper_bound; lia).
      assert (I : (k / nprof < npart)%nat) by (apply Nat.div_lt_upper_bound; [lia|]; rewrite Nat.mul_comm; auto).
      pose proof (Hbin _ _ I J) as B. unfold fl.
      assert (L : (k mod nprof * nbins + bin (k / nprof) (k mod nprof) < all)%nat) by nia.
      rewrite get_tab by auto. cbn [bind]. rewrite set_tab by auto. reflexivity. }
  f_equal. apply tab_ext. intros k Hk.
  change (fun q => if Nat.eqb (fl nprof (fun i j => (j * nbins + bin i j)%nat) q) k then fl nprof (fun i _ => w i) q else 0)
    with (fl nprof (fun i j => if Nat.eqb (j * nbins + bin i j) k then w i else 0)).
  rewrite sumn_fl. rewrite Qcplus_0_l. unfold fl, histogram.
  apply sumn_ext. intros i Hi.
  assert (L : (k / nbins < nprof)%nat) by (apply Nat.div_lt_upper_bound; lia).
  rewrite <- (sumn_single nprof (fun j => if Nat.eqb (bin i j) (k mod nbins) then w i else 0) (k / nbins) L).
  apply sumn_ext. intros j Hj. pose proof (Nat.div_mod k nbins ltac:(lia)) as D. pose proof (Hbin i j Hi Hj) as B.
  destruct (Nat.eqb_spec (j * nbins + bin i j) k) as [e|e]; destruct (Nat.eqb_spec j (k / nbins)) as [e1|e1];
    try destruct (Nat.eqb_spec (bin i j) (k mod nbins)) as [e2|e2]; auto; exfalso.
  - subst j. lia.
  - apply e1. apply (Nat.div_unique k nbins j (bin i j)); lia.
  - apply e1. apply (Nat.div_unique k nbins j (bin i j)); lia.
  - apply e. rewrite e2, e1. lia.
Qed.

Lemma cupy_project_tab : forall w f, cupy_project (tab all (fl nbins f)) fp (tab npart w) nprof nbins =
  Ok (tab all (fl nbins (fun j b => f j b + histogram npart bin w j b))).
Proof.
  intros. unfold cupy_project. rewrite cupy_bincount_tab. cbn [bind]. rewrite !tab_length, Nat.eqb_refl, combine_tab, map_tab.
  f_equal. apply tab_ext. intros. cbn [fst snd]. unfold fl. apply Qcplus_comm.
Qed.

Lemma cupy_count_T : cupy_count xr nprof nbins = Ok (T nprof nbins (fun j b => qn (count npart bin j b))).
Proof.
  unfold cupy_count. rewrite seq_tab. apply (mapM_tab _ _ _ nprof (fun j => j)). intros j Hj.
  unfold xrows, T. rewrite (mapM_tab _ _ _ npart _ (fun i => zi (bin i j))).
  2:{ intros i Hi. apply (get_tab nprof (fun j => zi (bin i j)) j). auto. }
  cbn [bind]. unfold cp_histogram. rewrite map_tab. f_equal. apply tab_ext. intros b Hb'. f_equal.
  unfold tab, count. rewrite length_filter_map. f_equal. apply filter_ext_in. intros i Hi. apply in_seq in Hi.
  pose proof (Hbin i j ltac:(lia) Hj).
  destruct (Z.eqb_spec (zi (bin i j)) (zi b)); destruct (Nat.eqb_spec (bin i j) b); try lia; auto;
  destruct (Z.eqb_spec (zi (bin i j)) (zi nbins)); try lia; rewrite ?andb_false_r; reflexivity.
Qed.

(** The maximum that is taken. *)
Definition cupy_max : nat := list_max (map (fun j => list_max (map (count npart bin j) (seq 0 (Nat.min npart nbins)))) (seq 0 nprof)).

Lemma cupy_reciprocal_T : (0 < npart)%nat -> cupy_reciprocal xr nbins nprof npart =
  Ok (T nprof nbins (fun j b => qn cupy_max / qn (Nat.max 1 (count npart bin j b)))).
Proof.
  intros Hn. unfold cupy_reciprocal. rewrite cupy_count_T. cbn [bind].
  assert (E : List.concat (map (firstn npart) (firstn nprof (T nprof nbins (fun j b => qn (count npart bin j b))))) =
    tab (nprof * Nat.min npart nbins) (fun k => qn (fl (Nat.min npart nbins) (count npart bin) k))).
  { unfold T. rewrite firstn_tab by auto. rewrite map_tab.
    change (fun k => qn (fl (Nat.min npart nbins) (count npart bin) k))
      with (fl (Nat.min npart nbins) (fun j b => qn (count npart bin j b))).
    rewrite <- concat_tab. f_equal. apply tab_ext. intros j Hj.
    destruct (Nat.le_gt_cases npart nbins) as [L|L].
    - rewrite firstn_tab by auto. rewrite Nat.min_l by auto. reflexivity.
    - rewrite firstn_all2 by (rewrite tab_length; lia). rewrite Nat.min_r by lia. reflexivity. }
  rewrite E, cp_max_tab by nia. cbn [bind].
  assert (M : list_max (map (fl (Nat.min npart nbins) (count npart bin)) (seq 0 (nprof * Nat.min npart nbins))) = cupy_max).
  { apply list_max_flat. }
  rewrite M. unfold T. apply mapM_tab. intros j Hj. apply mapM_tab. intros b Hb'.
  destruct (qeqb_spec (qn (count npart bin j b)) 0) as [e|e].
  - rewrite <- qn_0 in e. apply (proj1 (qn_inj _ _)) in e. rewrite e.
    rewrite qdiv_ok by discriminate. reflexivity.
  - rewrite qdiv_ok by auto.
    assert (count npart bin j b <> 0)%nat by (intros H'; apply e; rewrite H'; reflexivity).
    rewrite Nat.max_r by lia. reflexivity.
Qed.

Lemma cupy_compare_ok : forall k, good k ->
  cupy_compare sqrt fp pl (tab all (fl nbins (snd (IT k)))) (tab npart (W k)) nprof nbins =
  Ok (tab all (fl nbins (RA k)), tab all (fl nbins (fun j b => prof j b - RA k j b)), rmsv (RA k)).
Proof.
  intros k G. unfold cupy_compare. rewrite cupy_project_tab. cbn [bind].
  rewrite gpu_normalize_tab; auto.
  2:{ intros j Hj. apply (prenorm_pos npart nprof nbins bin prof Hbin true k j); auto. }
  cbn [bind]. rewrite combine_tab, map_tab.
  change (row_normalised nbins (fun j b => snd (IT k) j b + histogram npart bin (W k) j b)) with (RA k).
  change (fun i => fst (fl nbins prof i, fl nbins (RA k) i) - snd (fl nbins prof i, fl nbins (RA k) i))
    with (fl nbins (fun j b => prof j b - RA k j b)).
  rewrite gpu_discrepancy_tab by nia. reflexivity.
Qed.

Hypothesis Hmax : cupy_max = max_count npart nprof nbins bin.
Hypothesis Hn : (0 < npart)%nat.

Definition cstate (N k : nat) := (tab npart (W k), tab all (fl nbins (snd (IT k))), discr_upto N k).

Lemma cupy_step : forall N k, (k < N)%nat -> good k ->
  cupy_iteration sqrt fp pl (tab all (fl nbins CO)) nprof nbins k (cstate N k) =
  if qltb 0 (total npart (W (S k))) then Ok (cstate N (S k)) else Fail (Raised RuntimeError).
Proof.
  intros N k Hk G. unfold cupy_iteration, cstate. rewrite cupy_compare_ok by auto. cbn [bind].
  rewrite discr_set by lia. cbn [bind]. rewrite combine_tab, map_tab.
  change (fun i => fst (fl nbins (fun j b => prof j b - RA k j b) i, fl nbins CO i) * snd (fl nbins (fun j b => prof j b - RA k j b) i, fl nbins CO i))
    with (fl nbins (fun j b => (prof j b - RA k j b) * CO j b)).
  rewrite cupy_back_tab. cbn [bind]. rewrite cupy_clip_tab.
  change (fun i => pos (W k i + gather nprof bin (fun j b => (prof j b - RA k j b) * CO j b) i))
      with (next_weights npart nprof nbins bin prof (RA k) (W k)). rewrite <- W_S.
  rewrite gpu_check_tab. destruct (qltb 0 (total npart (W (S k)))); cbn [bind]; [|reflexivity]. rewrite R_S. reflexivity.
Qed.

Lemma cupy_loop : forall N m, (m <= N)%nat -> (forall k, (k <= m)%nat -> good k) ->
  for_ 0 m (cupy_iteration sqrt fp pl (tab all (fl nbins CO)) nprof nbins) (cstate N 0) = Ok (cstate N m).
Proof.
  intros N m Hm G. apply (for_steps _ m _ (cstate N)). intros i Hi. rewrite cupy_step; [|lia|apply G; lia].
  assert (g : 0 < total npart (W (S i))) by (apply G; lia).
  destruct (qltb_spec 0 (total npart (W (S i)))); auto. exfalso. qclra.
Qed.

Theorem cupy_cases : forall N,
  ((forall k, (k <= N)%nat -> good k) /\
   reconstruct_cupy sqrt xr pl N nbins npart nprof =
     Ok (tab npart (W N), tab (S N) (fun i => rmsv (RA i)), tab all (fl nbins (RA N)))) \/
  (exists k, (k <= N)%nat /\ first_bad k /\ reconstruct_cupy sqrt xr pl N nbins npart nprof = Fail (Raised RuntimeError)).
Proof.
  intros N.
  assert (E : reconstruct_cupy sqrt xr pl N nbins npart nprof =
    (_ <- (if qltb 0 (total npart (W 0)) then Ok tt else Fail (Raised RuntimeError)) ;;
    ' (w, rec, discr) <- for_ 0 N (cupy_iteration sqrt fp pl (tab all (fl nbins CO)) nprof nbins) (cstate N 0) ;;
    ' (rec, _, d) <- cupy_compare sqrt fp pl rec w nprof nbins ;;
    discr <- set discr (zi N) d ;;
    Ok (w, discr, rec))).
  { unfold reconstruct_cupy. rewrite cupy_reciprocal_T by auto. cbn [bind]. rewrite concat_T, cupy_points, !repeat_tab.
    rewrite cupy_back_tab. cbn [bind]. rewrite cupy_clip_tab.
    replace (tab npart (fun i => pos (0 + gather nprof bin prof i))) with (tab npart (W 0)).
    2:{ apply tab_ext. intros i Hi. rewrite W_0. f_equal. ring. }
    rewrite gpu_check_tab.
    replace (tab all (fl nbins (fun j b => qn cupy_max / qn (Nat.max 1 (count npart bin j b))))) with (tab all (fl nbins CO)).
    2:{ rewrite Hmax. reflexivity. }
    replace (tab (N + 1) (fun _ => 0)) with (discr_upto N 0) by (unfold PGpu3.discr_upto; rewrite Nat.add_1_r; reflexivity).
    reflexivity. }
  rewrite E. clear E.
  destruct (totals_dec npart nprof nbins bin prof (Z.of_nat N) true) as [G|(k & Hk & NG & G)]; rewrite ?Nat2Z.id in *.
  - left. split; auto. assert (g : 0 < total npart (W 0)) by (apply G; lia).
    destruct (qltb_spec 0 (total npart (W 0))) as [_|c]; [|exfalso; qclra]. cbn [bind].
    rewrite cupy_loop; auto. cbn [bind]. unfold cstate.
    rewrite cupy_compare_ok by (apply G; auto). cbn [bind]. rewrite discr_set by auto. cbn [bind].
    do 2 f_equal. f_equal. unfold PGpu3.discr_upto. apply tab_ext. intros i Hi.
    destruct (Nat.ltb_spec i (S N)); [auto|lia].
  - right. exists k. split; [auto|]. split; [split; auto|].
    destruct k as [|k].
    + destruct (qltb_spec 0 (total npart (W 0))); [contradiction|reflexivity].
    + assert (g : 0 < total npart (W 0)) by (apply G; lia).
      destruct (qltb_spec 0 (total npart (W 0))) as [_|c]; [|exfalso; qclra]. cbn [bind].
      rewrite (for_fail _ N _ (cstate N 0) k (cstate N k) (Raised RuntimeError)); auto; try lia.
      * apply cupy_loop; [lia|]. intros k' Hk'. apply G. lia.
      * rewrite cupy_step; [|lia|apply G; lia].
        destruct (qltb_spec 0 (total npart (W (S k)))); [contradiction|reflexivity].
Qed.
End Cupy.

Lemma cupy_max_enough : forall npart nprof nbins bin, (nbins <= npart)%nat ->
  cupy_max npart nprof nbins bin = max_count npart nprof nbins bin.
Proof. intros. unfold cupy_max, max_count. rewrite Nat.min_r by auto. reflexivity. Qed.
