(** run_hybrid of the multi-bunch object computes the iteration
    [hybrid_weights] of Spec/MultiSpec.v. *)
From Coq Require Import List ZArith QArith Qcanon Lia Arith Bool.
From Verif Require Import Base.Res Base.ResLemmas Base.QcLib Base.QcLemmas Base.Loops Model.MRecon Model.MMulti
  Spec.ReconSpec Spec.TomoSpec Spec.MultiSpec Proof.PRecon Proof.PRecon2 Proof.PHybrid Proof.PTomo Proof.PMulti.
Import ListNotations.
Local Open Scope Qc_scope.

(** ** Selecting with a mask and writing back *)
Lemma select_map : forall A (m : nat -> bool) (g : nat -> A) l,
  select (map m l) (map g l) = map g (filter m l).
Proof.
  intros. unfold select. induction l; cbn [map combine filter]; auto. cbn [fst]. destruct (m a); cbn [map snd]; rewrite IHl; auto.
Qed.

Lemma put_back_map : forall A (m : nat -> bool) (g h : nat -> A) l,
  put_back (map m l) (map g l) (map h (filter m l)) = map (fun i => if m i then h i else g i) l.
Proof.
  intros. induction l; cbn [map filter put_back]; auto. destruct (m a) eqn:E; cbn [map put_back]; rewrite IHl; auto.
Qed.

Lemma select_tab : forall A n (m : nat -> bool) (g : nat -> A),
  select (tab n m) (tab n g) = map g (filter m (seq 0 n)).
Proof. intros. apply select_map. Qed.

Lemma map_as_tab : forall A (g : nat -> A) l, map g l = tab (length l) (fun k => g (nth k l 0%nat)).
Proof. intros. rewrite <- (@map_tab nat A g). rewrite tab_nth. reflexivity. Qed.

Section Hyb.
Variables nb np nprof nbins : nat.
Variable x : nat -> nat -> Z.
Variables cen lft rgt : nat -> Z.
Variable prof : nat -> nat -> Qc.
Hypothesis Hx : forall c i j, (c < nb)%nat -> (i < np)%nat -> (j < nprof)%nat ->
  (0 <= x i j + cen c < zi nbins)%Z.
Hypothesis Hp : (0 < nprof)%nat.
Hypothesis Hb : (0 < nbins)%nat.
Hypothesis Hcut : forall c, (c < nb)%nat -> (0 <= lft c < rgt c)%Z /\ (rgt c <= zi nbins)%Z.

Notation nq := (nb * np)%nat.
Notation BIN := (mbin np x cen).
Notation INS := (strictly_inside np nprof x cen lft rgt).
Notation X' := (misread np nprof x).
Notation BIN' := (mbin np X' cen).
Notation CO := (hybrid_compensation nb np nprof nbins x cen).
Notation W := (hybrid_weights nb np nprof nbins x cen lft rgt prof).
Notation R := (hybrid_recreated nb np nprof nbins x cen lft rgt prof).

Lemma misread_ok : forall c i j, (c < nb)%nat -> (i < np)%nat -> (j < nprof)%nat -> (0 <= X' i j + cen c < zi nbins)%Z.
Proof.
  intros c i j Hc Hi Hj. unfold misread. apply Hx; auto.
  - apply Nat.mod_upper_bound. lia.
  - apply Nat.div_lt_upper_bound; [lia|]. nia.
Qed.

Lemma misread_flat : concat (T nprof np (fun j i => x i j)) = mxl np nprof X'.
Proof.
  rewrite concat_T. unfold mxl. rewrite (Nat.mul_comm nprof np). apply tab_ext. intros k Hk. unfold fl, misread. cbv zeta.
  replace (k / nprof * nprof + k mod nprof)%nat with k; auto.
  rewrite (Nat.div_mod k nprof) at 1 by lia. lia.
Qed.

Lemma hybrid_reciprocal_T : hybrid_reciprocal (T np nprof x) (tab nb cen) nprof nbins =
  Ok (T nprof nbins (co1 nq nprof nbins BIN')).
Proof.
  unfold hybrid_reciprocal. unfold T at 1 3. rewrite !tab_length. rewrite transpose_T. cbn [bind].
  rewrite misread_flat.
  assert (CM := count_multi_single nb np nprof nbins X' cen misread_ok (repeat 0 (nprof * nbins))).
  unfold mcl in CM. rewrite CM. rewrite count_tab by (intros; apply (mbin_lt nb np nprof nbins); auto using misread_ok).
  cbn [bind]. rewrite map_tab.
  set (cnt := fun j b => Nat.max 1 (count nq BIN' j b)).
  assert (E : tab (nprof * nbins) (fun i => if qeqb (fl nbins (fun j b => qn (count nq BIN' j b)) i) 0 then 1
                 else fl nbins (fun j b => qn (count nq BIN' j b)) i) =
              tab (nprof * nbins) (fun k => qn (fl nbins cnt k))).
  { apply tab_ext. intros k Hk. unfold fl, cnt. destruct (qeqb_spec (qn (count nq BIN' (k / nbins) (k mod nbins))) 0) as [Q|Q].
    - change 0 with (qn 0) in Q. apply (proj1 (qn_inj _ _)) in Q. rewrite Q. reflexivity.
    - f_equal. assert (count nq BIN' (k / nbins) (k mod nbins) <> 0)%nat by (intros C; apply Q; rewrite C; reflexivity). lia. }
  cbv zeta. rewrite E. clear E.
  assert (E : py_max [tab (nprof * nbins) (fun k => qn (fl nbins cnt k))] = Ok (qn (Nat.max 1 (max_count nq nprof nbins BIN')))).
  { unfold py_max. cbn [concat]. rewrite app_nil_r.
    unfold max_count. rewrite <- (list_max_max1 nprof nbins Hp Hb) by auto. rewrite <- list_max_flat.
    fold cnt. rewrite <- (@map_tab nat Qc qn).
    change (map (fl nbins cnt) (seq 0 (nprof * nbins))) with (tab (nprof * nbins) (fl nbins cnt)).
    assert (L : length (tab (nprof * nbins) (fl nbins cnt)) = (nprof * nbins)%nat) by apply tab_length.
    destruct (tab (nprof * nbins) (fl nbins cnt)) as [|y r]; simpl in L; [nia|].
    cbn [map]. rewrite (fold_qmax 1 1) by lia. reflexivity. }
  rewrite E. cbn [bind].
  rewrite (mapM_tab _ _ _ _ _ (fl nbins (co1 nq nprof nbins BIN'))).
  - cbn [bind]. rewrite chunk_tab. reflexivity.
  - intros k Hk. rewrite qdiv_ok by (apply Qclt_ne, qn_pos; unfold fl, cnt; lia). reflexivity.
Qed.

Lemma hybrid_masks : map (fun y => hybrid_mask (T np nprof x) (fst y) (snd y)) (combine (tab nb cen) (tab nb (fun c => (lft c, rgt c)))) =
  T nb np (fun c i => INS (c * np + i)).
Proof.
  rewrite combine_tab, map_tab. apply tab_ext. intros c Hc. cbn [fst snd]. unfold hybrid_mask, T. rewrite map_tab.
  apply tab_ext. intros i Hi. unfold strictly_inside. unfold tab. cbn [fst snd].
  destruct (of_q np c i Hi) as [E1 E2]. rewrite E1.
  generalize (seq 0 nprof). intros l. induction l; cbn [map forallb]; auto.
  rewrite IHl. unfold zbin. rewrite E1, E2. reflexivity.
Qed.

Lemma flat_rows : py_flat_points (T np nprof x) nprof nbins = T np nprof (fun i j => (x i j + zi nbins * zi j)%Z).
Proof.
  unfold py_flat_points, T. rewrite map_tab. apply tab_ext. intros i Hi.
  rewrite seq_tab, combine_tab, map_tab. apply tab_ext. intros j Hj. cbn [fst snd]. ring.
Qed.

Notation FP := (T np nprof (fun i j => (x i j + zi nbins * zi j)%Z)).

Lemma hybrid_back_tab : forall c w f, (c < nb)%nat ->
  hybrid_back (tab np w) FP (tab (nprof * nbins) (fl nbins f)) (tab np (fun i => INS (c * np + i))) (cen c) nprof =
  Ok (tab np (fun i => if INS (c * np + i)%nat then w i + gather nprof BIN f (c * np + i)%nat else w i)).
Proof.
  intros c w f Hc. unfold hybrid_back. cbv zeta. set (m := fun i => INS (c * np + i)%nat).
  change FP with (tab np (fun i => tab nprof (fun j => (x i j + zi nbins * zi j)%Z))). rewrite !select_tab.
  set (l := filter m (seq 0 np)).
  assert (Hl : forall k, (k < length l)%nat -> (nth k l 0 < np)%nat).
  { intros k Hk. assert (I : In (nth k l 0%nat) l) by (apply nth_In; auto).
    set (v := nth k l 0%nat) in *. clearbody v. unfold l in I. apply filter_In in I.
    destruct I as [I _]. apply in_seq in I. lia. }
  assert (P : concat (map (map (fun k => (k + cen c)%Z)) (map (fun i => tab nprof (fun j => (x i j + zi nbins * zi j)%Z)) l)) =
              fpl (length l) nprof nbins (fun k j => BIN (c * np + nth k l 0)%nat j)).
  { rewrite map_map. rewrite map_as_tab.
    transitivity (concat (T (length l) nprof (fun k j => zi (j * nbins + BIN (c * np + nth k l 0)%nat j)))).
    - f_equal. apply tab_ext. intros k Hk. rewrite map_tab. apply tab_ext. intros j Hj.
      symmetry. rewrite <- (fp_center nb np nprof nbins x cen Hx c (nth k l 0%nat) j Hc (Hl k Hk)) by lia. reflexivity.
    - rewrite concat_T. reflexivity. }
  rewrite P. rewrite (map_as_tab _ w l). rewrite tab_length.
  rewrite back_project_tab.
  2:{ intros k j Hk Hj. apply (mbin_lt nb np nprof nbins); auto. apply flat_lt; auto. }
  cbn [bind]. f_equal.
  assert (E : tab (length l) (fun i => w (nth i l 0%nat) + gather nprof (fun k j => BIN (c * np + nth k l 0)%nat j) f i) =
              map (fun i => w i + gather nprof BIN f (c * np + i)%nat) l) by (rewrite map_as_tab; reflexivity).
  rewrite E.
  unfold tab, l. rewrite put_back_map. reflexivity.
Qed.

Lemma histogram_bunches : forall (w : nat -> Qc) j b,
  sumn nb (fun c => histogram np (fun i => BIN (c * np + i)) (fun i => w (c * np + i)%nat) j b) = histogram nq BIN w j b.
Proof. intros. unfold histogram. symmetry. apply sumn_flat. Qed.

Variables (xopt yopt : option (list (list Z))) (npo : option nat).
Notation TM := (Tomo (T nprof nbins prof) nprof nbins xopt yopt npo).

Lemma hybrid_project_sum : forall w, hybrid_project TM FP (T nb np (fun c i => w (c * np + i)%nat)) (tab nb cen) =
  normalize_profiles (T nprof nbins (histogram nq BIN w)).
Proof.
  intros w. unfold hybrid_project. cbn [t_nprofs t_nbins]. unfold T at 1. rewrite combine_tab, forl_tab.
  rewrite (for_steps' _ nb _ (fun c => T nprof nbins (fun j b => sumn c (fun c =>
      histogram np (fun i => BIN (c * np + i)) (fun i => w (c * np + i)%nat) j b))) _
      (T nprof nbins (histogram nq BIN w))).
  - reflexivity.
  - rewrite repeat_tab. apply tab_ext. intros j Hj. rewrite repeat_tab. reflexivity.
  - apply T_ext. intros. symmetry. apply histogram_bunches.
  - intros c Hc. cbn [fst snd]. rewrite tab_length.
    assert (P : concat (map (map (fun k => (k + cen c)%Z)) FP) = fpl np nprof nbins (fun i => BIN (c * np + i))).
    { rewrite map_T, concat_T. unfold fpl. apply tab_fl_ext. intros i j Hi Hj.
      apply (fp_center nb np nprof nbins x cen Hx); auto. }
    rewrite P, repeat_tab.
    change (tab (nprof * nbins) (fun _ => 0)) with (tab (nprof * nbins) (fl nbins (fun _ _ => 0))).
    rewrite project_tab.
    2:{ intros i j Hi Hj. apply (mbin_lt nb np nprof nbins); auto. apply flat_lt; auto. }
    cbn [bind]. rewrite chunk_tab, zip_T. f_equal. apply T_ext. intros j b Hj Hbb. cbn [sumn].
    set (a := sumn c _). set (h := histogram _ _ _ _ _). ring.
Qed.

Lemma W_nonneg : forall k q, 0 <= W k q.
Proof.
  assert (P : forall y, 0 <= pos y) by (intros y; unfold pos; destruct (qltb_spec y 0); [apply Qcle_refl|qclra]).
  intros [|k] q; cbn [hybrid_weights]; cbv zeta; destruct (INS q); auto; apply Qcle_refl.
Qed.

Lemma hybrid_project_ok : forall k, 0 < total nq (W k) ->
  hybrid_project TM FP (T nb np (fun c i => W k (c * np + i)%nat)) (tab nb cen) = Ok (T nprof nbins (R k)).
Proof.
  intros k H. rewrite hybrid_project_sum. apply normalize_profiles_T; auto.
  intros j Hj. rewrite (histogram_total nq nprof nbins BIN); auto. intros. apply (mbin_lt nb np nprof nbins); auto.
Qed.

Lemma hybrid_project_zero : forall k, ~ 0 < total nq (W k) ->
  hybrid_project TM FP (T nb np (fun c i => W k (c * np + i)%nat)) (tab nb cen) = Fail (Raised WaterfallReducedToZero).
Proof.
  intros k H. rewrite hybrid_project_sum. apply normalize_profiles_zero. intros j b Hj Hbb.
  unfold histogram. apply sumn_zero. intros q Hq.
  assert (Z0 : W k q = 0).
  { apply (proj1 (sumn_zero_iff nq (W k) (fun q _ => W_nonneg k q))); auto.
    apply Qcle_antisym'; [|apply sumn_nonneg; intros; apply W_nonneg].
    unfold total in H. destruct (qltb_spec 0 (sumn nq (W k))); auto. contradiction. }
  rewrite Z0. destruct (Nat.eqb _ _); auto.
Qed.

Variable sqrt : Qc -> Qc.
Definition hrms (k : nat) : Qc := rms nprof nbins prof sqrt (R k).
Definition hsplit (k c : nat) : Qc :=
  sqrt (square_sum_between nprof (Z.to_nat (lft c)) (Z.to_nat (rgt c)) (fun j b => prof j b - R k j b)
        / qn (nprof * Z.to_nat (rgt c - lft c))).
Notation CUTS := (tab nb (fun c => (lft c, rgt c))).

Lemma columns_tab' : forall m (f : nat -> Qc) l r, (0 <= l <= r)%Z -> (r <= Z.of_nat m)%Z ->
  columns (tab m f) (l, r) = tab (Z.to_nat r - Z.to_nat l) (fun b => f (Z.to_nat l + b)%nat).
Proof.
  intros m f l r H1 H2. unfold columns, clamp. cbn [fst snd]. rewrite tab_length.
  destruct (Z.ltb_spec l 0); [lia|]. destruct (Z.ltb_spec r 0); [lia|].
  rewrite !Z.min_l by lia. rewrite skipn_tab, firstn_tab by lia. reflexivity.
Qed.

Lemma hybrid_discrepancy_tab : forall k,
  hybrid_discrepancy sqrt (T nprof nbins (fun j b => prof j b - R k j b)) CUTS nprof = Ok (tab nb (hsplit k)).
Proof.
  intros k. unfold hybrid_discrepancy. apply mapM_tab. intros c Hc. destruct (Hcut c Hc) as [C1 C2].
  assert (E : qsum (map (fun row => qsum (map (fun x => x * x) (columns row (lft c, rgt c))))
                (T nprof nbins (fun j b => prof j b - R k j b))) =
              square_sum_between nprof (Z.to_nat (lft c)) (Z.to_nat (rgt c)) (fun j b => prof j b - R k j b)).
  { unfold T. rewrite map_tab, <- sumn_qsum. apply sumn_ext. intros j Hj. rewrite columns_tab' by lia.
    rewrite map_tab, <- sumn_qsum. reflexivity. }
  cbv zeta. cbn [fst snd]. rewrite E. rewrite qdiv_ok.
  - cbn [bind]. unfold hsplit. do 2 f_equal. unfold qn. do 2 f_equal. rewrite Nat2Z.inj_mul, Z2Nat.id by lia. lia.
  - change 0%Qc with (qz 0). intros E0. apply (proj1 (qz_inj _ _)) in E0. nia.
Qed.

Variable n : nat.
Definition hmst (k : nat) : list (list Qc) * list Qc * list (list Qc) :=
  (T nb np (fun c i => W k (c * np + i)%nat), tab (n + 1) (fun i => if (i <? k)%nat then hrms i else 0),
   T k nb hsplit).
Notation MASKS := (T nb np (fun c i => INS (c * np + i)%nat)).
Notation body := (hybrid_multi_iteration sqrt TM FP (T nprof nbins (co1 nq nprof nbins BIN')) MASKS (tab nb cen) CUTS).

Lemma clip_rows : forall f, map py_clip (T nb np f) = T nb np (fun c i => pos (f c i)).
Proof. intros. unfold py_clip. rewrite map_T. reflexivity. Qed.

Lemma pos_0 : pos 0 = 0.
Proof. unfold pos. destruct (qltb 0 0); auto. Qed.

Lemma W_out : forall k q, INS q = false -> W k q = 0.
Proof. intros [|k] q H; cbn [hybrid_weights]; cbv zeta; rewrite H; auto. Qed.

Lemma tab_snoc : forall A k (f : nat -> A), tab k f ++ [f k] = tab (S k) f.
Proof. intros. unfold tab. rewrite seq_S, map_app. reflexivity. Qed.

Lemma hybrid_multi_iteration_ok : forall k, (k < n)%nat -> 0 < total nq (W k) -> body k (hmst k) = Ok (hmst (S k)).
Proof.
  intros k Hk Ht. unfold hybrid_multi_iteration, hmst.
  rewrite hybrid_project_ok by auto. cbn [bind t_waterfall t_nprofs t_nbins]. rewrite zip_T.
  rewrite py_discrepancy_T by nia. cbn [bind]. rewrite set_tab by lia. cbn [bind].
  rewrite hybrid_discrepancy_tab. cbn [bind]. cbv zeta. rewrite zip_T, concat_T.
  assert (CB : combine (T nb np (fun c i => W k (c * np + i)%nat)) (combine MASKS (tab nb cen)) =
    tab nb (fun c => (tab np (fun i => W k (c * np + i)%nat), (tab np (fun i => INS (c * np + i)%nat), cen c)))).
  { unfold T. rewrite !combine_tab. reflexivity. }
  rewrite CB.
  rewrite (mapM_tab _ _ _ _ _ (fun c => tab np (fun i => if INS (c * np + i)%nat
     then W k (c * np + i)%nat + gather nprof BIN (fun j b => (prof j b - R k j b) * co1 nq nprof nbins BIN' j b) (c * np + i)%nat
     else W k (c * np + i)%nat))).
  2:{ intros c Hc. cbn [fst snd]. apply (hybrid_back_tab c (fun i => W k (c * np + i)%nat)). auto. }
  cbn [bind].
  change (tab nb (fun c => tab np (fun i => if INS (c * np + i)%nat
     then W k (c * np + i)%nat + gather nprof BIN (fun j b => (prof j b - R k j b) * co1 nq nprof nbins BIN' j b) (c * np + i)%nat
     else W k (c * np + i)%nat))) with (T nb np (fun c i => if INS (c * np + i)%nat
     then W k (c * np + i)%nat + gather nprof BIN (fun j b => (prof j b - R k j b) * co1 nq nprof nbins BIN' j b) (c * np + i)%nat
     else W k (c * np + i)%nat)).
  rewrite clip_rows. f_equal. f_equal; [f_equal|].
  - apply T_ext. intros c i Hc Hi. cbn [hybrid_weights]. cbv zeta.
    destruct (INS (c * np + i)%nat) eqn:I.
    + f_equal. f_equal. unfold gather. apply sumn_ext. intros j Hj. unfold hybrid_compensation.
      rewrite (co1_CO nq nprof nbins BIN' (mbin_lt nb np nprof nbins X' cen misread_ok) Hp Hb) by nia.
      reflexivity.
    + rewrite W_out by auto. apply pos_0.
  - apply tab_ext. intros i Hi. destruct (Nat.eqb_spec i k).
    + subst. destruct (Nat.ltb_spec k (S k)); [|lia]. reflexivity.
    + destruct (Nat.ltb_spec i k); destruct (Nat.ltb_spec i (S k)); auto; lia.
  - apply (tab_snoc _ k (fun k => tab nb (hsplit k))).
Qed.

Lemma hybrid_multi_loop : forall m, (m <= n)%nat -> (forall k, (k < m)%nat -> 0 < total nq (W k)) ->
  for_ 0 m body (hmst 0) = Ok (hmst m).
Proof. intros. apply for_steps. intros. apply hybrid_multi_iteration_ok; auto; lia. Qed.

Hypothesis Hxo : xopt = Some (T np nprof x).

Lemma run_hybrid_multi_unfold : run_hybrid_multi sqrt TM (tab nb cen) CUTS n =
  (' (ws, diff, split) <- for_ 0 n body (hmst 0) ;;
    rec <- hybrid_project TM FP ws (tab nb cen) ;;
    let dw := zip_rows Qcminus (T nprof nbins prof) rec in
    d <- py_discrepancy sqrt dw nprof nbins ;;
    diff <- set diff (zi n) d ;;
    ds <- hybrid_discrepancy sqrt dw CUTS nprof ;;
    split <- transpose (S n) nb (split ++ [ds]) ;;
    Ok (MResult (concat ws) ws diff split rec [])).
Proof.
  unfold run_hybrid_multi. cbn [t_waterfall t_nprofs t_nbins t_xp]. rewrite Hxo. cbv zeta.
  rewrite hybrid_reciprocal_T. cbn [bind]. rewrite hybrid_masks, flat_rows.
  assert (CB : combine MASKS (tab nb cen) = tab nb (fun c => (tab np (fun i => INS (c * np + i)%nat), cen c))).
  { unfold T. rewrite !combine_tab. reflexivity. }
  rewrite CB. clear CB.
  assert (L : length (T np nprof x) = np) by apply tab_length. rewrite L. rewrite tab_length. rewrite concat_T, repeat_tab.
  rewrite (mapM_tab _ _ _ _ _ (fun c => tab np (fun i => if INS (c * np + i)%nat then 0 + gather nprof BIN prof (c * np + i)%nat else 0))).
  2:{ intros c Hc. cbn [fst snd]. apply (hybrid_back_tab c (fun _ => 0)). auto. }
  cbn [bind].
  change (tab nb (fun c => tab np (fun i => if INS (c * np + i)%nat then 0 + gather nprof BIN prof (c * np + i)%nat else 0)))
    with (T nb np (fun c i => if INS (c * np + i)%nat then 0 + gather nprof BIN prof (c * np + i)%nat else 0)).
  rewrite clip_rows.
  assert (E : (T nb np (fun c i => pos (if INS (c * np + i)%nat then 0 + gather nprof BIN prof (c * np + i)%nat else 0)),
              repeat 0 (n + 1), @nil (list Qc)) = hmst 0).
  { unfold hmst. f_equal. f_equal.
    - apply T_ext. intros c i Hc Hi. cbn [hybrid_weights]. destruct (INS (c * np + i)%nat); [|apply pos_0]. f_equal. ring.
    - rewrite repeat_tab. apply tab_ext. intros. destruct (Nat.ltb_spec i 0); [lia|]. auto. }
  rewrite E. reflexivity.
Qed.

Theorem run_hybrid_multi_ok : (forall k, (k <= n)%nat -> 0 < total nq (W k)) ->
  run_hybrid_multi sqrt TM (tab nb cen) CUTS n =
  Ok (MResult (tab nq (W n)) (T nb np (fun c i => W n (c * np + i)%nat)) (tab (n + 1) hrms)
        (T nb (S n) (fun c k => hsplit k c)) (T nprof nbins (R n)) []).
Proof.
  intros H. rewrite run_hybrid_multi_unfold, hybrid_multi_loop; auto. 2: intros; apply H; lia.
  cbn [bind]. unfold hmst. rewrite hybrid_project_ok by (apply H; lia). cbn [bind]. cbv zeta. rewrite zip_T.
  rewrite py_discrepancy_T by nia. cbn [bind]. rewrite set_tab by lia. cbn [bind].
  rewrite hybrid_discrepancy_tab. cbn [bind].
  assert (E : T n nb hsplit ++ [tab nb (hsplit n)] = T (S n) nb hsplit) by apply (tab_snoc _ n (fun k => tab nb (hsplit k))).
  rewrite E, transpose_T. cbn [bind]. rewrite concat_T. f_equal. f_equal.
  - apply tab_ext. intros q Hq. unfold fl. f_equal.
    assert (np <> 0)%nat by nia. rewrite (Nat.div_mod q np) at 3 by auto. lia.
  - apply tab_ext. intros i Hi. destruct (Nat.eqb_spec i n); [subst; reflexivity|].
    destruct (Nat.ltb_spec i n); auto. lia.
Qed.

Theorem run_hybrid_multi_raises : forall k, (k <= n)%nat -> ~ 0 < total nq (W k) ->
  (forall k', (k' < k)%nat -> 0 < total nq (W k')) ->
  run_hybrid_multi sqrt TM (tab nb cen) CUTS n = Fail (Raised WaterfallReducedToZero).
Proof.
  intros k Hk Hz Hlt. rewrite run_hybrid_multi_unfold.
  assert (Z := hybrid_project_zero k Hz).
  destruct (Nat.eq_dec k n).
  - subst k. rewrite hybrid_multi_loop by auto. cbn [bind]. unfold hmst. rewrite Z. reflexivity.
  - rewrite (for_fail _ n _ _ k (hmst k) (Raised WaterfallReducedToZero)); [reflexivity|lia| |].
    + apply hybrid_multi_loop; auto.
    + unfold hybrid_multi_iteration, hmst. rewrite Z. reflexivity.
Qed.
End Hyb.
