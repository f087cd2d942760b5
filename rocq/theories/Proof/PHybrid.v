(** run_hybrid computes the iteration of the specification (without carry). *)
From Coq Require Import List ZArith QArith Qcanon Lia Arith Bool.
From Verif Require Import Base.Res Base.ResLemmas Base.QcLib Base.QcLemmas Base.Loops Model.MRecon Spec.ReconSpec Proof.PRecon Proof.PRecon2.
Import ListNotations.
Local Open Scope Qc_scope.

(** A table of n rows and m columns. *)
Definition T {A} (n m : nat) (f : nat -> nat -> A) : list (list A) := tab n (fun i => tab m (f i)).

Lemma T_ext : forall A n m (f g : nat -> nat -> A),
  (forall i j, (i < n)%nat -> (j < m)%nat -> f i j = g i j) -> T n m f = T n m g.
Proof. intros. apply tab_ext. intros. apply tab_ext. auto. Qed.

Lemma chunk_tab : forall A n m (f : nat -> nat -> A), chunk n m (tab (n * m) (fl m f)) = T n m f.
Proof.
  intros. unfold chunk. apply tab_ext. intros i Hi. rewrite skipn_tab, firstn_tab by nia.
  apply tab_ext. intros j Hj. apply fl_at. auto.
Qed.

Lemma concat_T : forall A n m (f : nat -> nat -> A), concat (T n m f) = tab (n * m) (fl m f).
Proof. intros. apply concat_tab. Qed.

Lemma map_T : forall A B (h : A -> B) n m f, map (map h) (T n m f) = T n m (fun i j => h (f i j)).
Proof. intros. unfold T. rewrite map_tab. apply tab_ext. intros. apply map_tab. Qed.

Lemma zip_T : forall h n m f g, zip_rows h (T n m f) (T n m g) = T n m (fun i j => h (f i j) (g i j)).
Proof.
  intros. unfold zip_rows, T. rewrite combine_tab, map_tab. apply tab_ext. intros i Hi. cbn [fst snd].
  rewrite combine_tab, map_tab. reflexivity.
Qed.

Lemma transpose_T : forall A m n (f : nat -> nat -> A),
  transpose m n (T m n f) = Ok (T n m (fun j i => f i j)).
Proof.
  intros. unfold transpose. rewrite (seq_tab n). apply mapM_tab. intros j Hj.
  rewrite (seq_tab m). apply mapM_tab. intros i Hi. unfold T. rewrite get_tab by auto. cbn [bind].
  apply get_tab. auto.
Qed.

Lemma qsum_T : forall n m f, qsum (map qsum (T n m f)) = sumn n (fun i => sumn m (fun j => f i j)).
Proof.
  intros. unfold T. rewrite map_tab, <- sumn_qsum. apply sumn_ext. intros. symmetry. apply sumn_qsum.
Qed.

Lemma py_discrepancy_T : forall sqrt nprof nbins d, (0 < nprof * nbins)%nat ->
  py_discrepancy sqrt (T nprof nbins d) nprof nbins =
  Ok (sqrt (sumn nprof (fun j => sumn nbins (fun b => d j b * d j b)) / qn (nprof * nbins))).
Proof.
  intros. unfold py_discrepancy. rewrite (Nat.mul_comm nbins).
  rewrite qdiv_ok by (apply Qclt_ne, qn_pos; auto). cbn [bind].
  f_equal. f_equal. f_equal. unfold T. rewrite map_tab, <- sumn_qsum. apply sumn_ext. intros.
  rewrite map_tab, <- sumn_qsum. reflexivity.
Qed.

Lemma normalize_profiles_T : forall nprof nbins f, (0 < nprof)%nat ->
  (forall j, (j < nprof)%nat -> 0 < sumn nbins (f j)) ->
  normalize_profiles (T nprof nbins f) = Ok (T nprof nbins (row_normalised nbins f)).
Proof.
  intros nprof nbins f Hn H. unfold normalize_profiles.
  assert (E : existsb (existsb (fun x => negb (qeqb x 0))) (T nprof nbins f) = true).
  { unfold T. apply existsb_tab. exists 0%nat. split; auto. apply existsb_tab.
    destruct (existsb (fun x => negb (qeqb x 0)) (tab nbins (f 0%nat))) eqn:E.
    - apply existsb_tab in E. auto.
    - exfalso. specialize (H 0%nat Hn). rewrite sumn_zero in H; [exact (Qclt_not_eq _ _ H eq_refl)|].
      intros b Hb. destruct (qeqb_spec (f 0%nat b) 0); auto.
      assert (existsb (fun x => negb (qeqb x 0)) (tab nbins (f 0%nat)) = true); [|congruence].
      apply existsb_tab. exists b. split; auto. destruct (qeqb_spec (f 0%nat b) 0); auto. }
  rewrite E. cbn [negb]. unfold T. apply mapM_tab. intros j Hj. apply mapM_tab. intros b Hb.
  rewrite <- sumn_qsum. apply qdiv_ok. apply Qclt_ne. auto.
Qed.

Lemma normalize_profiles_zero : forall nprof nbins f,
  (forall j b, (j < nprof)%nat -> (b < nbins)%nat -> f j b = 0) ->
  normalize_profiles (T nprof nbins f) = Fail (Raised WaterfallReducedToZero).
Proof.
  intros. unfold normalize_profiles.
  destruct (existsb (existsb (fun x => negb (qeqb x 0))) (T nprof nbins f)) eqn:E; auto.
  exfalso. unfold T in E. apply existsb_tab in E. destruct E as [j [Hj E]].
  apply existsb_tab in E. destruct E as [b [Hb E]]. rewrite H in E by auto. discriminate.
Qed.

Section Hybrid.
Variables npart nprof nbins : nat.
Variable bin : nat -> nat -> nat.
Variable prof : nat -> nat -> Qc.
Hypothesis Hbin : forall i j, (i < npart)%nat -> (j < nprof)%nat -> (bin i j < nbins)%nat.
Hypothesis Hp : (0 < nprof)%nat.
Hypothesis Hb : (0 < nbins)%nat.

Notation W := (weights_after npart nprof nbins bin prof).
Notation RA := (recreated_after npart nprof nbins bin prof).
Notation CO := (compensation npart nprof nbins bin).
Definition xrows := T npart nprof (fun i j => zi (bin i j)).

Lemma flat_points_T : concat (py_flat_points xrows nprof nbins) = fpl npart nprof nbins bin.
Proof.
  unfold py_flat_points, xrows, T. rewrite map_tab.
  transitivity (concat (T npart nprof (fun i j => zi (j * nbins + bin i j)))).
  - f_equal. apply tab_ext. intros i Hi. rewrite seq_tab, combine_tab, map_tab. cbn [fst snd].
    apply tab_ext. intros j Hj. lia.
  - apply concat_T.
Qed.

Lemma py_inc_T : forall h x i, (x < nbins)%nat -> (i < nprof)%nat ->
  py_inc nbins (T nbins nprof h) (zi x) i =
  Ok (T nbins nprof (fun b j => if (Nat.eqb b x && Nat.eqb j i)%bool then h b j + 1 else h b j)).
Proof.
  intros. unfold py_inc. destruct (Z.ltb_spec (zi x) 0); [lia|].
  destruct (Z.ltb_spec (zi x) 0); [lia|]. destruct (Z.leb_spec (zi nbins) (zi x)); [lia|]. simpl.
  unfold T. rewrite get_tab by auto. cbn [bind]. rewrite get_tab by auto. cbn [bind].
  rewrite set_tab by auto. cbn [bind]. rewrite set_tab by auto. f_equal. apply tab_ext.
  intros b Hb'. destruct (Nat.eqb_spec b x); simpl; auto. subst.
  apply tab_ext. intros j Hj. destruct (Nat.eqb_spec j i); subst; auto.
Qed.

Lemma forl_tab : forall A B (body : A -> B -> res B) n f s,
  forl (tab n f) body s = for_ 0 n (fun i s => body (f i) s) s.
Proof.
  intros. rewrite for_forl. unfold tab. generalize (seq 0 n). intros l. revert s.
  induction l; intros; simpl; auto. destruct (body (f a) s); simpl; auto.
Qed.

Lemma count_S : forall n j b, count (S n) bin j b = (count n bin j b + if Nat.eqb (bin n j) b then 1 else 0)%nat.
Proof.
  intros. unfold count. rewrite seq_S, filter_app, app_length. cbn [filter plus].
  destruct (Nat.eqb (bin n j) b); auto.
Qed.

Lemma py_count_T : py_count nbins nprof xrows = Ok (T nbins nprof (fun b j => qn (count npart bin j b))).
Proof.
  unfold py_count. rewrite !repeat_tab.
  apply (for_steps' _ nprof _ (fun J => T nbins nprof (fun b j => if (j <? J)%nat then qn (count npart bin j b) else 0))).
  - reflexivity.
  - apply T_ext. intros. destruct (Nat.ltb_spec j nprof); auto; lia.
  - intros J HJ. unfold xrows, T at 1. rewrite forl_tab.
    apply (for_steps' _ npart _ (fun I => T nbins nprof (fun b j => if (j <? J)%nat then qn (count npart bin j b)
              else if Nat.eqb j J then qn (count I bin j b) else 0))).
    + apply T_ext. intros. destruct (Nat.ltb_spec j J); auto. destruct (Nat.eqb j J); auto.
    + apply T_ext. intros. destruct (Nat.ltb_spec j J); destruct (Nat.ltb_spec j (S J)); destruct (Nat.eqb_spec j J); auto; lia.
    + intros I HI. rewrite get_tab by auto. cbn [bind]. rewrite py_inc_T by auto. f_equal.
      apply T_ext. intros b j Hb' Hj. rewrite count_S.
      destruct (Nat.eqb_spec b (bin I J)); destruct (Nat.eqb_spec j J); cbn [andb]; subst;
        destruct (Nat.ltb_spec J J) as [L|_]; try lia; auto.
      * rewrite Nat.eqb_refl, qn_add. reflexivity.
      * destruct (Nat.eqb_spec (bin I J) b); [congruence|]. rewrite Nat.add_0_r. auto.
Qed.

Lemma fold_qmax : forall l a, fold_left qmax (map qn l) (qn a) = qn (Nat.max a (list_max l)).
Proof.
  induction l; intros; simpl; [rewrite Nat.max_0_r; auto|].
  assert (E : qmax (qn a0) (qn a) = qn (Nat.max a0 a)).
  { unfold qmax. destruct (qltb_spec (qn a0) (qn a)) as [H|H].
    - apply (proj1 (qn_lt _ _)) in H. f_equal. lia.
    - apply (proj1 (qn_le _ _)) in H. f_equal. lia. }
  rewrite E, IHl. f_equal. lia.
Qed.

Lemma list_max_swap : forall n m (f : nat -> nat -> nat),
  list_max (map (fun j => list_max (map (f j) (seq 0 m))) (seq 0 n)) =
  list_max (map (fun i => list_max (map (fun j => f j i) (seq 0 n))) (seq 0 m)).
Proof.
  assert (H : forall n m (f : nat -> nat -> nat),
  (list_max (map (fun j => list_max (map (f j) (seq 0 m))) (seq 0 n)) <=
  list_max (map (fun i => list_max (map (fun j => f j i) (seq 0 n))) (seq 0 m)))%nat).
  { intros. apply list_max_le. apply Forall_forall. intros x Hx. apply in_map_iff in Hx.
    destruct Hx as [j [<- Hj]]. apply list_max_le. apply Forall_forall. intros x Hx. apply in_map_iff in Hx.
    destruct Hx as [i [<- Hi]].
    transitivity (list_max (map (fun j => f j i) (seq 0 n))).
    - apply list_max_ge. apply (in_map (fun j => f j i)). auto.
    - apply list_max_ge. apply (in_map (fun i => list_max (map (fun j => f j i) (seq 0 n)))). auto. }
  intros. apply Nat.le_antisymm; [apply H|]. apply (H m n (fun i j => f j i)).
Qed.

Lemma list_max_max1 : forall n m (f : nat -> nat -> nat), (0 < n)%nat -> (0 < m)%nat ->
  list_max (map (fun j => list_max (map (fun b => Nat.max 1 (f j b)) (seq 0 m))) (seq 0 n)) =
  Nat.max 1 (list_max (map (fun j => list_max (map (f j) (seq 0 m))) (seq 0 n))).
Proof.
  assert (L : forall l (f : nat -> nat), (0 < length l)%nat ->
    list_max (map (fun b => Nat.max 1 (f b)) l) = Nat.max 1 (list_max (map f l))).
  { assert (C : forall x l, list_max (x :: l) = Nat.max x (list_max l)) by reflexivity.
    induction l as [|x l]; intros; [simpl in *; lia|]. destruct l as [|y l]; [cbn [map]; rewrite !C; change (list_max []) with 0%nat; lia|].
    cbn [map] in *. rewrite (C (Nat.max 1 (f x))), (C (f x)), IHl by (simpl; lia).
    generalize (list_max (f y :: map f l)). lia. }
  intros. rewrite <- L by (rewrite seq_length; auto). f_equal. apply map_ext. intros. apply L.
  rewrite seq_length. auto.
Qed.

Definition co1 (j b : nat) : Qc :=
  qn (Nat.max 1 (max_count npart nprof nbins bin)) / qn (Nat.max 1 (count npart bin j b)).

Lemma py_reciprocal_T : py_reciprocal nbins nprof xrows = Ok (T nbins nprof (fun b j => co1 j b)).
Proof.
  unfold py_reciprocal. rewrite py_count_T. cbn [bind]. rewrite map_T.
  assert (E : T nbins nprof (fun i j => if qeqb (qn (count npart bin j i)) 0 then 1 else qn (count npart bin j i))
            = T nbins nprof (fun b j => qn (Nat.max 1 (count npart bin j b)))).
  { apply T_ext. intros. destruct (qeqb_spec (qn (count npart bin j i)) 0) as [E|E].
    - rewrite <- qn_0 in E. apply (proj1 (qn_inj _ _)) in E. rewrite E. reflexivity.
    - f_equal. assert (count npart bin j i <> 0)%nat; [|lia]. intros H'. apply E. rewrite H'. reflexivity. }
  rewrite E. clear E.
  assert (E : py_max (T nbins nprof (fun b j => qn (Nat.max 1 (count npart bin j b)))) =
              Ok (qn (Nat.max 1 (max_count npart nprof nbins bin)))).
  { unfold py_max. rewrite concat_T.
    change (tab (nbins * nprof) (fl nprof (fun b j => qn (Nat.max 1 (count npart bin j b)))))
      with (tab (nbins * nprof) (fun k => qn (fl nprof (fun b j => Nat.max 1 (count npart bin j b)) k))).
    unfold max_count. rewrite <- list_max_max1, list_max_swap, <- list_max_flat by auto.
    rewrite <- (@map_tab nat Qc qn).
    change (map (fl nprof (fun i j => Nat.max 1 (count npart bin j i))) (seq 0 (nbins * nprof)))
      with (tab (nbins * nprof) (fl nprof (fun b j => Nat.max 1 (count npart bin j b)))).
    assert (L : length (tab (nbins * nprof) (fl nprof (fun b j => Nat.max 1 (count npart bin j b)))) = (nbins * nprof)%nat)
      by apply tab_length.
    destruct (tab (nbins * nprof) (fl nprof (fun b j => Nat.max 1 (count npart bin j b)))) as [|x r]; simpl in L; [nia|].
    cbn [map]. rewrite fold_qmax. reflexivity. }
  rewrite E. cbn [bind]. unfold T. apply mapM_tab. intros b Hb'. apply mapM_tab. intros j Hj.
  rewrite qdiv_ok by (apply Qclt_ne, qn_pos; lia). reflexivity.
Qed.

Lemma co1_CO : (0 < npart)%nat -> forall j b, co1 j b = CO j b.
Proof.
  intros. unfold co1, compensation.
  pose proof (max_count_pos npart nprof nbins bin Hbin H Hp). do 2 f_equal. lia.
Qed.

Variables (xopt : option (list (list Z))) (yopt : option (list (list Z))) (np : option nat).
Definition tm : tomo := Tomo (T nprof nbins prof) nprof nbins xopt yopt np.
Notation fp := (fpl npart nprof nbins bin).

Lemma py_project_ok : forall k, 0 < total npart (W false k) ->
  py_project tm fp (tab npart (W false k)) = Ok (T nprof nbins (RA false k)).
Proof.
  intros. unfold py_project. cbn [tm t_nprofs t_nbins]. rewrite tab_length, repeat_tab.
  change (tab (nprof * nbins) (fun _ => 0)) with (tab (nprof * nbins) (fl nbins (fun _ _ => 0))).
  rewrite project_tab by auto. cbn [bind]. rewrite chunk_tab.
  rewrite normalize_profiles_T; auto. intros. apply (prenorm_pos npart nprof nbins bin prof Hbin false k j); auto.
Qed.

Lemma py_project_zero : forall w, (forall i, (i < npart)%nat -> w i = 0) ->
  py_project tm fp (tab npart w) = Fail (Raised WaterfallReducedToZero).
Proof.
  intros. unfold py_project. cbn [tm t_nprofs t_nbins]. rewrite tab_length, repeat_tab.
  change (tab (nprof * nbins) (fun _ => 0)) with (tab (nprof * nbins) (fl nbins (fun _ _ => 0))).
  rewrite project_tab by auto. cbn [bind]. rewrite chunk_tab. apply normalize_profiles_zero.
  intros. unfold histogram. rewrite sumn_zero; [ring|]. intros. rewrite H by auto. destruct (Nat.eqb _ _); auto.
Qed.

Lemma py_clip_tab : forall w, py_clip (tab npart w) = tab npart (fun i => pos (w i)).
Proof. intros. unfold py_clip. rewrite map_tab. reflexivity. Qed.

Variable sqrt : Qc -> Qc.
Variable n : nat.
Notation rms := (rms nprof nbins prof sqrt).

Definition hst (k : nat) : list Qc * list Qc :=
  (tab npart (W false k), tab (n + 1) (fun i => if (i <? k)%nat then rms (RA false i) else 0)).

Lemma hybrid_iteration_ok : forall k, (k < n)%nat -> 0 < total npart (W false k) ->
  hybrid_iteration sqrt tm fp (T nprof nbins co1) k (hst k) = Ok (hst (S k)).
Proof.
  intros k Hk Ht. unfold hybrid_iteration, hst.
  rewrite py_project_ok by auto. cbn [bind tm t_waterfall t_nprofs t_nbins]. rewrite zip_T.
  rewrite py_discrepancy_T by nia. cbn [bind].
  rewrite set_tab by lia. cbn [bind]. rewrite zip_T, concat_T, tab_length.
  rewrite back_project_tab by auto. cbn [bind]. rewrite py_clip_tab. f_equal. f_equal.
  - rewrite W_S. apply tab_ext. intros i Hi. unfold next_weights. f_equal. f_equal. unfold gather.
    apply sumn_ext. intros. rewrite co1_CO by lia. reflexivity.
  - apply tab_ext. intros i Hi. destruct (Nat.eqb_spec i k).
    + subst. destruct (Nat.ltb_spec k (S k)); [|lia]. reflexivity.
    + destruct (Nat.ltb_spec i k); destruct (Nat.ltb_spec i (S k)); auto; lia.
Qed.

Hypothesis Hx : xopt = Some xrows.

Lemma run_hybrid_unfold : run_hybrid sqrt tm n =
  (' (w, diff) <- for_ 0 n (hybrid_iteration sqrt tm fp (T nprof nbins co1)) (hst 0) ;;
   rec <- py_project tm fp w ;;
   d <- py_discrepancy sqrt (zip_rows Qcminus (T nprof nbins prof) rec) nprof nbins ;;
   diff <- set diff (zi n) d ;;
   Ok (w, diff, rec)).
Proof.
  unfold run_hybrid. cbn [tm t_waterfall t_nprofs t_nbins t_xp]. rewrite Hx.
  rewrite py_reciprocal_T. cbn [bind]. rewrite transpose_T. cbn [bind].
  rewrite flat_points_T, concat_T. change (length xrows) with (length (tab npart (fun i => tab nprof (fun j => zi (bin i j))))).
  rewrite tab_length, repeat_tab, back_project_tab by auto. cbn [bind]. rewrite py_clip_tab.
  replace (tab npart (fun i => pos (0 + gather nprof bin prof i)), repeat 0 (n + 1)) with (hst 0); [reflexivity|].
  unfold hst. rewrite repeat_tab. f_equal. apply tab_ext. intros. rewrite W_0. f_equal. ring.
Qed.

Lemma hybrid_loop : forall m, (m <= n)%nat -> (forall k, (k < m)%nat -> 0 < total npart (W false k)) ->
  for_ 0 m (hybrid_iteration sqrt tm fp (T nprof nbins co1)) (hst 0) = Ok (hst m).
Proof. intros. apply for_steps. intros. apply hybrid_iteration_ok; auto; lia. Qed.

Theorem run_hybrid_ok : (forall k, (k <= n)%nat -> 0 < total npart (W false k)) ->
  run_hybrid sqrt tm n =
  Ok (tab npart (W false n), tab (n + 1) (fun i => rms (RA false i)), T nprof nbins (RA false n)).
Proof.
  intros H. rewrite run_hybrid_unfold, hybrid_loop; auto. 2: intros; apply H; lia.
  cbn [bind]. unfold hst. rewrite py_project_ok by (apply H; lia). cbn [bind]. rewrite zip_T.
  rewrite py_discrepancy_T by nia. cbn [bind]. rewrite set_tab by lia. cbn [bind]. f_equal. f_equal. f_equal.
  apply tab_ext. intros i Hi. destruct (Nat.eqb_spec i n); [subst; reflexivity|].
  destruct (Nat.ltb_spec i n); auto. lia.
Qed.

Theorem run_hybrid_raises : forall k, (k <= n)%nat -> ~ 0 < total npart (W false k) ->
  (forall k', (k' < k)%nat -> 0 < total npart (W false k')) ->
  run_hybrid sqrt tm n = Fail (Raised WaterfallReducedToZero).
Proof.
  intros k Hk Hz Hlt. rewrite run_hybrid_unfold.
  assert (Z : py_project tm fp (tab npart (W false k)) = Fail (Raised WaterfallReducedToZero)).
  { apply py_project_zero. apply total_zero_weights. auto. }
  destruct (Nat.eq_dec k n).
  - subst. rewrite hybrid_loop by auto. cbn [bind]. unfold hst. rewrite Z. reflexivity.
  - rewrite (for_fail _ n _ _ k (hst k) (Raised WaterfallReducedToZero)); [reflexivity|lia| |].
    + apply hybrid_loop; auto.
    + unfold hybrid_iteration, hst. rewrite Z. reflexivity.
Qed.
End Hybrid.
