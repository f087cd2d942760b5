(** Property lemmas on the multi-bunch reconstruction (C33). *)
(*HEAD*)
From Coq Require Import List ZArith QArith Qcanon Bool Lia.
From Verif Require Import Base.Res Base.QcLib Model.MRecon Model.MMulti Spec.ReconSpec Spec.TomoSpec Spec.MultiSpec.
Import ListNotations.
Local Open Scope Qc_scope.
(*DAEH*)
From Coq Require Import Arith.
From Verif Require Import Base.ResLemmas Base.QcLemmas Base.Loops Proof.PRecon Proof.PRecon2 Proof.PHybrid Proof.PTomo
  Proof.PMulti Proof.PMulti2.

(*EX*)
(** Example: one profile of four bins, one particle in bin 0, two bunches
    two bins apart. *)
Definition exm : tomo :=
  match tomography 1 4 [[qz 3; qz 1; qz 3; qz 1]] (CArr2 1 [[0]]) CNone with Ok t => t | Fail _ => Tomo [] 0 0 None None None end.
Example exm_built : tomography 1 4 [[qz 3; qz 1; qz 3; qz 1]] (CArr2 1 [[0]]) CNone = Ok exm.
Proof.
  unfold exm. destruct (tomography 1 4 [[qz 3; qz 1; qz 3; qz 1]] (CArr2 1 [[0]]) CNone) eqn:E; [reflexivity|].
  vm_compute in E. discriminate.
Qed.
Example exm_reachable : reachable exm.
Proof.
  exists 1%nat, 4%nat, [[qz 3; qz 1; qz 3; qz 1]], (CArr2 1 [[0]]), CNone, exm, []. repeat split; try exact exm_built; repeat constructor.
Qed.
Definition exm_sqrt (x : Qc) : Qc := x.
Example exm_good : good_call exm [[0]]%Z [0; 2]%Z [0; 2]%Z [1; 3]%Z 1 (repeat 0 4).
Proof.
  constructor; try exact exm_reachable; try reflexivity; try lia.
  - cbn. lia.
  - intros [|[|c]]; cbn; try lia.
  - repeat constructor; intros; discriminate.
Qed.
Example exm_run : match run_multi exm_sqrt (repeat 0 4) exm [0; 2]%Z [0; 2]%Z [1; 3]%Z 1 with
  | Ok r => Some (map this (mr_weights r), map (map this) (mr_weight_split r), map (map this) (mr_recreated r), mr_calls r)
  | Fail _ => None end =
  Some ([1 # 4; 1 # 4], [[1 # 4]; [1 # 4]], [[1 # 2; 0; 1 # 2; 0]], [(1, 1); (1, 1)]%Z)%Q.
Proof. vm_compute. reflexivity. Qed.
(*XE*)

Lemma call_arrays : forall t xp centers cutl cutr niter split0, good_call t xp centers cutl cutr niter split0 ->
  (forall c i j, (c < length centers)%nat -> (i < length xp)%nat -> (j < t_nprofs t)%nat ->
     (0 <= zcell xp i j + znth centers c < Z.of_nat (t_nbins t))%Z) /\
  concat xp = mxl (length xp) (t_nprofs t) (zcell xp) /\
  centers = mcl (length centers) (znth centers) /\
  cutl = mll (length centers) (znth cutl) /\
  cutr = mrl (length centers) (znth cutr) /\
  split0 = tab (S (Z.to_nat niter) * length centers) (fun i => nth i split0 0) /\
  concat (t_waterfall t) = tab (t_nprofs t * t_nbins t) (fl (t_nbins t) (cell (t_waterfall t))) /\
  (forall j b, (j < t_nprofs t)%nat -> (b < t_nbins t)%nat -> 0 <= cell (t_waterfall t) j b).
Proof.
  intros t xp centers cutl cutr niter split0 [R X Hb Hl Hr Hc F Hn Hs].
  assert (V := reachable_valid _ R). destruct V as [V1 V2 V3 V4 V5 V6]. rewrite X in V6. destruct V6 as [[_ V6] _].
  split; [|split; [|split; [|split; [|split; [|split; [|split]]]]]].
  - intros c i j H1 H2 H3. rewrite Forall_forall in F. specialize (F (znth centers c)).
    assert (In (znth centers c) centers) by (apply nth_In; auto). specialize (F H). cbv beta in F.
    rewrite Forall_forall in F. specialize (F (nth i xp []) ltac:(apply nth_In; auto)).
    rewrite Forall_forall in F. apply F. apply nth_In. rewrite Forall_forall in V6.
    rewrite V6 by (apply nth_In; auto). auto.
  - rewrite (rect_T _ (length xp) (t_nprofs t) xp 0%Z (conj eq_refl V6)) at 1. rewrite concat_T. reflexivity.
  - unfold mcl, znth. rewrite tab_nth. reflexivity.
  - unfold mll, znth. rewrite <- Hl. rewrite tab_nth. reflexivity.
  - unfold mrl, znth. rewrite <- Hr. rewrite tab_nth. reflexivity.
  - replace (S (Z.to_nat niter) * length centers)%nat with (length split0) by nia. rewrite tab_nth. reflexivity.
  - rewrite (wf_T _ _ _ V1) at 1. apply concat_T.
  - intros j b Hj Hbb. unfold cell. destruct V1 as [L1 L2]. unfold good_rows in V2. rewrite Forall_forall in L2, V2.
    assert (I : In (nth j (t_waterfall t) []) (t_waterfall t)) by (apply nth_In; lia).
    destruct (V2 _ I) as [P _]. rewrite Forall_forall in P. apply P. apply nth_In. rewrite (L2 _ I). auto.
Qed.

Definition run_result (sqrt : Qc -> Qc) (t : tomo) xp centers cutl cutr (niter : Z) : mresult :=
  let n := Z.to_nat niter in
  MResult (tab (length centers * length xp) (weight_after t xp centers cutl cutr n))
    (T (length centers) (length xp) (fun c i => weight_after t xp centers cutl cutr n (c * length xp + i)%nat))
    (tab (S n) (fun k => rms (t_nprofs t) (t_nbins t) (cell (t_waterfall t)) sqrt (recreated_by t xp centers cutl cutr k)))
    (T (length centers) (S n) (fun c k =>
       split_value (t_nprofs t) (t_nbins t) (znth cutl) (znth cutr) sqrt
         (fl (t_nbins t) (fun j b => cell (t_waterfall t) j b - recreated_by t xp centers cutl cutr k j b)) c))
    (T (t_nprofs t) (t_nbins t) (recreated_by t xp centers cutl cutr n))
    (calls_upto niter n ++ [(niter, niter)]).

Lemma run_multi_cases : forall sqrt split0 t xp centers cutl cutr niter,
  good_call t xp centers cutl cutr niter split0 ->
  ((forall k, (k <= Z.to_nat niter)%nat -> 0 < bunch_weight t xp centers cutl cutr 0 k) /\
   run_multi sqrt split0 t centers cutl cutr niter = Ok (run_result sqrt t xp centers cutl cutr niter)) \/
  ((exists k, (k <= Z.to_nat niter)%nat /\ ~ 0 < bunch_weight t xp centers cutl cutr 0 k) /\
   run_multi sqrt split0 t centers cutl cutr niter = Fail (Raised RuntimeError)).
Proof.
  intros sqrt split0 t xp centers cutl cutr niter G.
  destruct (call_arrays _ _ _ _ _ _ _ G) as (Hx & E1 & E2 & E3 & E4 & E5 & E6 & Hp).
  destruct G as [R X Hb Hl Hr Hc F Hn Hs].
  assert (RUN : run_multi sqrt split0 t centers cutl cutr niter =
     (s <- reconstruct_multi sqrt (tab (S (Z.to_nat niter) * length centers) (fun i => nth i split0 0))
        (mxl (length xp) (t_nprofs t) (zcell xp)) (mcl (length centers) (znth centers))
        (mll (length centers) (znth cutl)) (mrl (length centers) (znth cutr))
        (tab (t_nprofs t * t_nbins t) (fl (t_nbins t) (cell (t_waterfall t)))) niter (t_nbins t) (length xp)
        (t_nprofs t) (length centers) ;;
      split <- transpose (Z.to_nat (niter + 1)) (length centers)
         (chunk (Z.to_nat (niter + 1)) (length centers) (m_split s)) ;;
      Ok (MResult (m_weights s) (chunk (length centers) (length xp) (m_weights s)) (m_discr s) split
          (chunk (t_nprofs t) (t_nbins t) (m_rec s)) (m_calls s)))).
  { unfold run_multi. rewrite X, E1, E6. rewrite <- E5, <- E3, <- E4, <- E2. reflexivity. }
  rewrite RUN. clear RUN.
  destruct (bt_dec (length centers) (length xp) (t_nprofs t) (t_nbins t) (zcell xp) (znth centers) (znth cutl)
    (znth cutr) (cell (t_waterfall t)) niter) as [H|[k [H1 [H2 H3]]]]; [left|right].
  - split; [exact H|].
    rewrite (reconstruct_multi_ok _ _ _ _ _ _ _ _ _ Hx sqrt Hc niter (fun i => nth i split0 0) Hp Hn Hb H).
    cbn [bind]. unfold mfinal. cbn [m_weights m_discr m_split m_rec m_calls].
    replace (Z.to_nat (niter + 1)) with (S (Z.to_nat niter)) by lia.
    rewrite chunk_tab. rewrite transpose_T. cbn [bind]. rewrite chunk_tab. unfold run_result. f_equal. f_equal.
    rewrite <- (chunk_tab _ (length centers) (length xp)
      (fun c i => weight_after t xp centers cutl cutr (Z.to_nat niter) (c * length xp + i)%nat)).
    f_equal. apply tab_ext. intros q Hq. unfold fl, weight_after. f_equal.
    assert (length xp <> 0)%nat by (intros Z0; rewrite Z0 in Hq; lia).
    rewrite (Nat.div_mod q (length xp)) at 1 by auto. lia.
  - split; [exists k; split; auto|].
    rewrite (reconstruct_multi_raises _ _ _ _ _ _ _ _ _ Hx sqrt Hc niter (fun i => nth i split0 0) Hp Hn Hb k H1 H2 H3).
    reflexivity.
Qed.

(** C33.  What happens, for any well-formed call: the reconstruction of all
    bunches together is returned if the first bunch keeps a positive weight,
    otherwise RuntimeError is raised.  (The property asks for "some bunch".)
    Nothing outside the arrays is read or written, and the result does not
    depend on the uninitialised memory [split0]. *)
Lemma C33_outcome_partial_lem : forall sqrt split0 t xp centers cutl cutr niter,
  good_call t xp centers cutl cutr niter split0 ->
  match run_multi sqrt split0 t centers cutl cutr niter with
  | Ok r =>
    (forall k, (k <= Z.to_nat niter)%nat -> 0 < bunch_weight t xp centers cutl cutr 0 k) /\
    mr_weights r = tab (length centers * length xp) (weight_after t xp centers cutl cutr (Z.to_nat niter)) /\
    concat (mr_weight_split r) = mr_weights r /\ rectangular (length centers) (length xp) (mr_weight_split r) /\
    mr_recreated r = tab (t_nprofs t) (fun j => tab (t_nbins t) (recreated_by t xp centers cutl cutr (Z.to_nat niter) j)) /\
    mr_diff r = tab (S (Z.to_nat niter)) (fun k =>
      sqrt (mean_square (t_nprofs t) (t_nbins t) (cell (t_waterfall t)) (recreated_by t xp centers cutl cutr k)))
  | Fail e => e = Raised RuntimeError /\
    exists k, (k <= Z.to_nat niter)%nat /\ bunch_weight t xp centers cutl cutr 0 k = 0
  end.
Proof.
  intros sqrt split0 t xp centers cutl cutr niter G.
  destruct (run_multi_cases sqrt _ _ _ _ _ _ _ G) as [[H E]|[[k [H1 H2]] E]]; rewrite E.
  - unfold run_result. cbn [mr_weights mr_weight_split mr_recreated mr_diff]. split; [exact H|].
    split; [reflexivity|]. split; [|split; [|split; reflexivity]].
    + rewrite concat_T. apply tab_ext. intros q Hq. unfold fl. f_equal.
      assert (length xp <> 0)%nat by (intros Z0; rewrite Z0 in Hq; lia).
      rewrite (Nat.div_mod q (length xp)) at 3 by auto. lia.
    + split; [apply tab_length|]. apply Forall_forall. intros r Hr. apply in_tab in Hr. destruct Hr as [i [_ <-]].
      apply tab_length.
  - split; auto. exists k. split; auto. apply Qcle_antisym'.
    + destruct (qltb_spec 0 (bunch_weight t xp centers cutl cutr 0 k)); auto. contradiction.
    + apply (bt_nonneg (length centers) (length xp) (t_nprofs t) (t_nbins t) (zcell xp) (znth centers) (znth cutl)
        (znth cutr) (cell (t_waterfall t)) 0 k).
Qed.

(** C33.  A particle that leaves the cuts of a bunch at some profile gets
    weight zero there; the other weights are not negative; the recreated
    waterfall has non-negative rows with sum one. *)
Lemma C33_cuts_lem : forall sqrt split0 t xp centers cutl cutr niter r,
  good_call t xp centers cutl cutr niter split0 -> run_multi sqrt split0 t centers cutl cutr niter = Ok r ->
  (forall c i, (c < length centers)%nat -> (i < length xp)%nat ->
     0 <= cell (mr_weight_split r) c i /\
     (~ within_cuts t xp centers cutl cutr c i -> cell (mr_weight_split r) c i = 0)) /\
  rectangular (t_nprofs t) (t_nbins t) (mr_recreated r) /\ good_rows (mr_recreated r).
Proof.
  intros sqrt split0 t xp centers cutl cutr niter r G E.
  destruct (call_arrays _ _ _ _ _ _ _ G) as (Hx & _).
  destruct (run_multi_cases sqrt _ _ _ _ _ _ _ G) as [[H E']|[_ E']]; rewrite E' in E; [|discriminate].
  injection E as <-. unfold run_result. cbn [mr_weight_split mr_recreated]. split; [|split].
  - intros c i Hc Hi. unfold cell, T. rewrite !nth_tab by auto. split; [unfold weight_after; apply mW_nonneg|].
    intros O. unfold weight_after. apply mW_outside. destruct (inside _ _ _ _ _ _ _) eqn:I; auto. exfalso. apply O.
    unfold inside in I. rewrite forallb_forall in I. intros j Hj. specialize (I j ltac:(apply in_seq; lia)).
    apply andb_true_iff in I. destruct I as [I1 I2]. apply Z.leb_le in I1. apply Z.leb_le in I2.
    unfold zbin in *. destruct (of_q (length xp) c i Hi) as [B1 B2]. rewrite B1 in *. rewrite B2 in *. lia.
  - split; [apply tab_length|]. apply Forall_forall. intros x Hx'. apply in_tab in Hx'. destruct Hx' as [i [_ <-]].
    apply tab_length.
  - apply Forall_forall. intros x Hx'. apply in_tab in Hx'. destruct Hx' as [j [Hj <-]]. split.
    + apply Forall_forall. intros x Hx'. apply in_tab in Hx'. destruct Hx' as [b [_ <-]]. unfold recreated_by. apply mRA_nonneg.
    + rewrite <- sumn_qsum. unfold recreated_by. apply mRA_row_sum; auto. apply (total_pos _ _ _ _ _ _ _ _ _ Hx); [apply (gc_bunch _ _ _ _ _ _ _ G)|].
      apply H. lia.
Qed.

(** C33 is false: with the first bunch empty the call fails although the
    second bunch has weight. *)
Lemma C33_some_bunch_refuted_lem : ~ (forall sqrt split0 t xp centers cutl cutr niter,
  good_call t xp centers cutl cutr niter split0 ->
  (forall k, (k <= Z.to_nat niter)%nat -> exists c, (c < length centers)%nat /\ 0 < bunch_weight t xp centers cutl cutr c k) ->
  exists r, run_multi sqrt split0 t centers cutl cutr niter = Ok r).
Proof.
  intros H. destruct (H exm_sqrt (repeat 0 2) exm [[0]]%Z [0; 2]%Z [1; 0]%Z [3; 3]%Z 0%Z) as [r E].
  - constructor; try exact exm_reachable; try reflexivity; try lia.
    + cbn. lia.
    + intros [|[|c]]; cbn; try lia.
    + repeat constructor; intros; discriminate.
  - intros k Hk. replace k with 0%nat by (cbn in Hk; lia). exists 1%nat. split; [cbn; lia|]. vm_compute. reflexivity.
  - vm_compute in E. discriminate.
Qed.

(** C33 is false: an ordinary choice of centres makes the code leave its
    arrays. *)
Lemma C33_bounds_refuted_lem : ~ (forall sqrt split0 t xp centers cutl cutr niter,
  reachable t -> t_xp t = Some xp -> length cutl = length centers -> length cutr = length centers ->
  (0 <= niter)%Z -> Z.of_nat (length split0) = ((niter + 1) * Z.of_nat (length centers))%Z ->
  (forall c, (c < length centers)%nat ->
     (0 <= znth cutl c)%Z /\ (znth cutl c < znth cutr c)%Z /\ (znth cutr c < Z.of_nat (t_nbins t))%Z /\
     (znth cutl c <= znth centers c <= znth cutr c)%Z) ->
  run_multi sqrt split0 t centers cutl cutr niter <> Fail OutOfBounds).
Proof.
  intros H.
  set (t := history exm [SetX (CArr2 1 [[qz 3]])]).
  assert (R : reachable t).
  { exists 1%nat, 4%nat, [[qz 3; qz 1; qz 3; qz 1]], (CArr2 1 [[0]]), CNone, exm, [SetX (CArr2 1 [[qz 3]])].
    repeat split; try exact exm_built; repeat constructor. }
  apply (H exm_sqrt (repeat 0 1) t [[3]]%Z [2]%Z [1]%Z [3]%Z 0%Z R); try (vm_compute; reflexivity); try lia.
  assert (E : t_nbins t = 4%nat) by (vm_compute; reflexivity). rewrite E. clear E. clearbody t.
  intros [|c]; cbn; lia.
Qed.

Lemma iterate_single : forall np nprof nbins x cen lft rgt prof bin,
  (forall i j, (i < np)%nat -> (j < nprof)%nat -> mbin np x cen i j = bin i j) ->
  (forall i j, (i < np)%nat -> (j < nprof)%nat -> (bin i j < nbins)%nat) ->
  (forall i, (i < np)%nat -> inside np nprof x cen lft rgt i = true) ->
  forall k,
  (forall i, (i < np)%nat -> mweights 1 np nprof nbins x cen lft rgt prof k i
     = weights_after np nprof nbins bin prof true k i) /\
  (forall j b, (j < nprof)%nat -> snd (miterate 1 np nprof nbins x cen lft rgt prof k) j b
     = snd (iterate np nprof nbins bin prof true k) j b) /\
  (forall j b, (j < nprof)%nat -> mrecreated 1 np nprof nbins x cen lft rgt prof k j b
     = recreated_after np nprof nbins bin prof true k j b).
Proof.
  intros np nprof nbins x cen lft rgt prof bin Hbin Hlt Hins.
  assert (G : forall f g i, (i < np)%nat -> (forall j b, (j < nprof)%nat -> f j b = g j b) ->
     gather nprof (mbin np x cen) f i = gather nprof bin g i).
  { intros. unfold gather. apply sumn_ext. intros j Hj. rewrite Hbin by auto. auto. }
  assert (Hh : forall w w' j b, (j < nprof)%nat -> (forall i, (i < np)%nat -> w i = w' i) ->
     histogram (1 * np) (mbin np x cen) w j b = histogram np bin w' j b).
  { intros. unfold histogram. rewrite Nat.mul_1_l. apply sumn_ext. intros i Hi. rewrite Hbin, H0 by auto. auto. }
  assert (Hcn : forall j b, (j < nprof)%nat -> count (1 * np) (mbin np x cen) j b = count np bin j b).
  { intros. apply qn_inj. rewrite <- !histogram_count. apply Hh; auto. }
  assert (Hco : forall j b, (j < nprof)%nat -> compensation (1 * np) nprof nbins (mbin np x cen) j b
     = compensation np nprof nbins bin j b).
  { intros. unfold compensation. rewrite Hcn by auto. f_equal. f_equal. unfold max_count. f_equal.
    apply map_ext_in. intros j' Hj'. apply in_seq in Hj'. f_equal. apply map_ext. intros. apply Hcn. lia. }
  assert (NR : forall R R' w w' j b, (j < nprof)%nat -> (forall j b, (j < nprof)%nat -> R j b = R' j b) ->
     (forall i, (i < np)%nat -> w i = w' i) ->
     next_recreated (1 * np) nbins (mbin np x cen) true R w j b = next_recreated np nbins bin true R' w' j b).
  { intros. unfold next_recreated, row_normalised. rewrite H0 by auto. rewrite (Hh w w') by auto. f_equal.
    apply sumn_ext. intros. rewrite H0 by auto. rewrite (Hh w w') by auto. auto. }
  induction k as [|k [IW [IR IRA]]].
  - assert (W0 : forall i, (i < np)%nat -> mweights 1 np nprof nbins x cen lft rgt prof 0 i
     = weights_after np nprof nbins bin prof true 0 i).
    { intros i Hi. rewrite mW_0, W_0, Hins by auto. rewrite (G prof prof) by auto. auto. }
    split; [exact W0|]. split; [reflexivity|]. intros. unfold mrecreated, recreated_after. apply NR; auto.
  - assert (W1 : forall i, (i < np)%nat -> mweights 1 np nprof nbins x cen lft rgt prof (S k) i
     = weights_after np nprof nbins bin prof true (S k) i).
    { intros i Hi. rewrite mW_S, W_S, Hins by auto. unfold next_weights. rewrite IW by auto. f_equal. f_equal.
      apply G; auto. intros. rewrite IRA, Hco by auto. auto. }
    assert (R1 : forall j b, (j < nprof)%nat -> snd (miterate 1 np nprof nbins x cen lft rgt prof (S k)) j b
     = snd (iterate np nprof nbins bin prof true (S k)) j b).
    { intros. rewrite mR_S, R_S. auto. }
    split; [exact W1|]. split; [exact R1|]. intros. unfold mrecreated, recreated_after. apply NR; auto.
Qed.

(** C33.  One bunch with centre 0 and cuts that contain the whole image: run
    of the multi-bunch object gives what run of the single-bunch object
    gives. *)
Lemma C33_one_bunch_lem : forall sqrt split0 t niter l r, reachable t -> (0 <= niter)%Z ->
  Z.of_nat (length split0) = (niter + 1)%Z ->
  (l <= 0)%Z -> (Z.of_nat (t_nbins t) <= r + 1)%Z -> l <> r ->
  match run sqrt t niter with
  | Ok (w, d, rec, calls) =>
    exists m, run_multi sqrt split0 t [0]%Z [l] [r] niter = Ok m /\
      mr_weights m = w /\ mr_weight_split m = [w] /\ mr_diff m = d /\ mr_recreated m = rec /\ mr_calls m = calls
  | Fail e => run_multi sqrt split0 t [0]%Z [l] [r] niter = Fail e
  end.
Proof.
  intros sqrt split0 t niter l r R Hn Hs Hl Hr Hlr. assert (V := reachable_valid _ R).
  destruct (t_xp t) as [xp|] eqn:X; [|unfold run, run_multi; rewrite X; reflexivity].
  assert (XO := v_xp _ V). rewrite X in XO.
  assert (XO' := XO). destruct XO' as [[_ L1] L2].
  assert (G : good_call t xp [0]%Z [l] [r] niter split0).
  { constructor; auto; try (cbn [length]; lia).
    - intros [|c] Hc; cbn in *; lia.
    - constructor; [|constructor]. eapply Forall_impl; [|exact L2]. intros row Hrow.
      eapply Forall_impl; [|exact Hrow]. cbv beta. intros. lia. }
  assert (B := bins_ok t xp V X).
  assert (BN : forall i j, (i < length xp)%nat -> (j < t_nprofs t)%nat ->
     mbin (length xp) (zcell xp) (znth [0]%Z) i j = bin_of xp i j).
  { intros i j Hi Hj. unfold mbin, zbin, bunch_of, part_of. rewrite Nat.div_small, Nat.mod_small by auto.
    unfold bin_of, zcell, znth. cbn [nth]. f_equal. lia. }
  assert (IN : forall i, (i < length xp)%nat ->
     inside (length xp) (t_nprofs t) (zcell xp) (znth [0]%Z) (znth [l]) (znth [r]) i = true).
  { intros i Hi. unfold inside. apply forallb_forall. intros j Hj. apply in_seq in Hj.
    assert (Z0 : zbin (length xp) (zcell xp) (znth [0%Z]) i j = Z.of_nat (bin_of xp i j)).
    { unfold zbin, bunch_of, part_of. rewrite Nat.div_small, Nat.mod_small by auto. unfold bin_of, zcell, znth. cbn [nth].
      rewrite Z2Nat.id; [lia|]. rewrite Forall_forall in L1, L2. assert (I : In (nth i xp []) xp) by (apply nth_In; auto).
      specialize (L2 _ I). rewrite Forall_forall in L2. apply L2. apply nth_In. rewrite (L1 _ I). lia. }
    rewrite Z0. unfold bunch_of. rewrite Nat.div_small by auto. unfold znth. cbn [nth].
    specialize (B i j Hi ltac:(lia)). apply andb_true_iff. split; apply Z.leb_le; lia. }
  assert (IT := iterate_single (length xp) (t_nprofs t) (t_nbins t) (zcell xp) (znth [0]%Z) (znth [l]) (znth [r])
     (cell (t_waterfall t)) (bin_of xp) BN B IN).
  assert (BW : forall k, bunch_weight t xp [0]%Z [l] [r] 0 k =
     total (length xp) (weights_after (length xp) (t_nprofs t) (t_nbins t) (bin_of xp) (cell (t_waterfall t)) true k)).
  { intros. unfold bunch_weight, total. apply sumn_ext. intros i Hi. destruct (IT k) as [I1 _].
    unfold weight_after. cbn [length]. rewrite <- I1 by auto. reflexivity. }
  destruct (run_multi_cases sqrt _ _ _ _ _ _ _ G) as [[H E]|[[k [H1 H2]] E]]; rewrite E.
  - rewrite (run_ok sqrt t xp V X niter Hn) by (intros; rewrite <- BW; auto).
    eexists. split; [reflexivity|]. unfold run_result. cbn [mr_weights mr_weight_split mr_diff mr_recreated mr_calls].
    assert (EW : tab (length [0%Z] * length xp) (weight_after t xp [0%Z] [l] [r] (Z.to_nat niter)) =
       tab (length xp) (weights_after (length xp) (t_nprofs t) (t_nbins t) (bin_of xp) (cell (t_waterfall t)) true (Z.to_nat niter))).
    { cbn [length]. rewrite Nat.mul_1_l. apply tab_ext. intros. apply IT; auto. }
    split; [exact EW|]. split; [|split; [|split; [|reflexivity]]].
    + cbn [length]. unfold T. unfold tab at 1. cbn [seq map]. f_equal.
      rewrite <- EW. cbn [length]. rewrite Nat.mul_1_l. reflexivity.
    + apply tab_ext. intros k Hk. unfold rms. f_equal. unfold mean_square. f_equal. apply sumn_ext. intros j Hj.
      apply sumn_ext. intros b Hb. destruct (IT k) as [_ [_ I3]]. unfold recreated_by. cbn [length]. rewrite I3 by auto. auto.
    + apply T_ext. intros j b Hj Hb. destruct (IT (Z.to_nat niter)) as [_ [_ I3]]. apply I3. auto.
  - destruct (run_cases sqrt t xp V X niter Hn) as [[H _]|[k' [_ [_ E']]]].
    + exfalso. apply H2. rewrite BW. auto.
    + rewrite E'. reflexivity.
Qed.

(** C33.  The figures run reports per bunch: for bunch c, the squared
    differences strictly between the cuts of the bunches 0..c, taken in the
    flat array (so from the first profile unless the cuts exceed a row),
    divided by nprof * (right - left).  One profile and the first bunch: the
    sum runs over left < b < right. *)
Lemma C33_split_value_partial_lem : forall sqrt split0 t xp centers cutl cutr niter r,
  good_call t xp centers cutl cutr niter split0 -> run_multi sqrt split0 t centers cutl cutr niter = Ok r ->
  rectangular (length centers) (S (Z.to_nat niter)) (mr_diff_split r) /\
  forall c k, (c < length centers)%nat -> (k <= Z.to_nat niter)%nat ->
    cell (mr_diff_split r) c k =
    sqrt (sumn (S c) (fun c' => sumn (t_nprofs t) (fun j => sumn (t_nbins t) (fun b =>
            let d := cell (t_waterfall t) j b - recreated_by t xp centers cutl cutr k j b in
            let i := Z.of_nat (j * t_nbins t + b) in
            if ((i <? znth cutr c') && (znth cutl c' <? i))%Z then d * d else 0)))
          / qz (Z.of_nat (t_nprofs t) * (znth cutr c - znth cutl c))).
Proof.
  intros sqrt split0 t xp centers cutl cutr niter r G E.
  destruct (run_multi_cases sqrt _ _ _ _ _ _ _ G) as [[H E']|[_ E']]; rewrite E' in E; [|discriminate].
  injection E as <-. unfold run_result. cbn [mr_diff_split]. split.
  - split; [apply tab_length|]. apply Forall_forall. intros x Hx'. apply in_tab in Hx'. destruct Hx' as [i [_ <-]].
    apply tab_length.
  - intros c k Hc Hk. unfold cell at 1, T. rewrite !nth_tab by lia. unfold split_value. f_equal. f_equal.
    apply sumn_ext. intros c' Hc'. unfold cut_squares.
    etransitivity; [|apply (sumn_fl (t_nprofs t) (t_nbins t) (fun j b =>
            let d := cell (t_waterfall t) j b - recreated_by t xp centers cutl cutr k j b in
            let i := Z.of_nat (j * t_nbins t + b) in
            if ((i <? znth cutr c') && (znth cutl c' <? i))%Z then d * d else 0))].
    apply sumn_ext. intros i Hi. unfold fl. cbv zeta.
    assert (t_nbins t <> 0)%nat by (intros Z0; rewrite Z0 in Hi; lia).
    replace (i / t_nbins t * t_nbins t + i mod t_nbins t)%nat with i; auto.
    rewrite (Nat.div_mod i (t_nbins t)) at 1 by auto. lia.
Qed.

(** C33 is false: the figure of a bunch is not the RMS difference inside its
    cuts. *)
Lemma C33_split_refuted_lem : ~ (forall sqrt split0 t xp centers cutl cutr niter r c,
  good_call t xp centers cutl cutr niter split0 -> run_multi sqrt split0 t centers cutl cutr niter = Ok r ->
  (c < length centers)%nat -> (0 <= znth cutl c < znth cutr c)%Z -> (znth cutr c <= Z.of_nat (t_nbins t))%Z ->
  cell (mr_diff_split r) c (Z.to_nat niter) =
    sqrt (square_sum_between (t_nprofs t) (Z.to_nat (znth cutl c)) (Z.to_nat (znth cutr c))
            (fun j b => cell (t_waterfall t) j b - cell (mr_recreated r) j b)
          / qz (Z.of_nat (t_nprofs t) * (znth cutr c - znth cutl c)))).
Proof.
  intros H.
  destruct (run_multi exm_sqrt (repeat 0 4) exm [0; 2]%Z [0; 2]%Z [1; 3]%Z 1) as [r|] eqn:E; [|vm_compute in E; discriminate].
  specialize (H exm_sqrt (repeat 0 4) exm [[0]]%Z [0; 2]%Z [0; 2]%Z [1; 3]%Z 1%Z r 0%nat exm_good E).
  assert (L : match run_multi exm_sqrt (repeat 0 4) exm [0; 2]%Z [0; 2]%Z [1; 3]%Z 1 with
     | Ok r => qeqb (cell (mr_diff_split r) 0 (Z.to_nat 1))
        (exm_sqrt (square_sum_between (t_nprofs exm) (Z.to_nat (znth [0; 2]%Z 0)) (Z.to_nat (znth [1; 3]%Z 0))
            (fun j b => cell (t_waterfall exm) j b - cell (mr_recreated r) j b)
          / qz (Z.of_nat (t_nprofs exm) * (znth [1; 3]%Z 0 - znth [0; 2]%Z 0))))
     | Fail _ => true end = false) by (vm_compute; reflexivity).
  rewrite E in L. rewrite H in L.
  - destruct (qeqb_spec (exm_sqrt (square_sum_between (t_nprofs exm) (Z.to_nat (znth [0; 2]%Z 0)) (Z.to_nat (znth [1; 3]%Z 0))
            (fun j b => cell (t_waterfall exm) j b - cell (mr_recreated r) j b)
          / qz (Z.of_nat (t_nprofs exm) * (znth [1; 3]%Z 0 - znth [0; 2]%Z 0))))
       (exm_sqrt (square_sum_between (t_nprofs exm) (Z.to_nat (znth [0; 2]%Z 0)) (Z.to_nat (znth [1; 3]%Z 0))
            (fun j b => cell (t_waterfall exm) j b - cell (mr_recreated r) j b)
          / qz (Z.of_nat (t_nprofs exm) * (znth [1; 3]%Z 0 - znth [0; 2]%Z 0))))) as [_|N]; [discriminate|].
    apply N. reflexivity.
  - cbn. lia.
  - cbn. lia.
  - cbn. lia.
Qed.

Lemma columns_tab : forall m (f : nat -> Qc) l r, (0 <= l <= r)%Z -> (r <= Z.of_nat m)%Z ->
  columns (tab m f) (l, r) = tab (Z.to_nat r - Z.to_nat l) (fun b => f (Z.to_nat l + b)%nat).
Proof.
  intros m f l r H1 H2. unfold columns, clamp. cbn [fst snd]. rewrite tab_length.
  destruct (Z.ltb_spec l 0); [lia|]. destruct (Z.ltb_spec r 0); [lia|].
  rewrite !Z.min_l by lia. rewrite skipn_tab, firstn_tab by lia. reflexivity.
Qed.

(** C33.  The figures of run_hybrid are the RMS differences inside the cuts
    (left included, right not). *)
Lemma C33_hybrid_split_lem : forall sqrt dw nprofs nbins cuts, rectangular nprofs nbins dw -> (0 < nprofs)%nat ->
  Forall (fun c => (0 <= fst c < snd c)%Z /\ (snd c <= Z.of_nat nbins)%Z) cuts ->
  hybrid_discrepancy sqrt dw cuts nprofs =
  Ok (map (fun c => sqrt (square_sum_between nprofs (Z.to_nat (fst c)) (Z.to_nat (snd c)) (cell dw)
                          / qn (nprofs * Z.to_nat (snd c - fst c)))) cuts).
Proof.
  intros sqrt dw nprofs nbins cuts R Hp F. unfold hybrid_discrepancy. apply mapM_ok_map. intros [l r] Hc.
  rewrite Forall_forall in F. specialize (F _ Hc). cbn [fst snd] in F.
  assert (S : qsum (map (fun row => qsum (map (fun x => x * x) (columns row (l, r)))) dw) =
              square_sum_between nprofs (Z.to_nat l) (Z.to_nat r) (cell dw)).
  { transitivity (qsum (map (fun row => qsum (map (fun x => x * x) (columns row (l, r)))) (T nprofs nbins (cell dw)))).
    - rewrite <- (wf_T _ _ _ R). reflexivity.
    - unfold T. rewrite map_tab, <- sumn_qsum. apply sumn_ext. intros j Hj. rewrite columns_tab by lia.
      rewrite map_tab, <- sumn_qsum. reflexivity. }
  cbv zeta. cbn [fst snd]. rewrite S. rewrite qdiv_ok.
  - cbn [bind]. unfold qn. do 4 f_equal. rewrite Nat2Z.inj_mul, Z2Nat.id by lia. lia.
  - change 0%Qc with (qz 0). intros E. apply (proj1 (qz_inj _ _)) in E. nia.
Qed.

(** C33 is false: run and run_hybrid do not use the same particles.  A
    particle on the edge of a cut counts in run only. *)
Lemma C33_same_particles_refuted_lem : ~ (forall sqrt split0 t xp centers cutl cutr niter r,
  good_call t xp centers cutl cutr niter split0 -> run_multi sqrt split0 t centers cutl cutr niter = Ok r ->
  forall r', run_hybrid_multi sqrt t centers (combine cutl cutr) (Z.to_nat niter) = Ok r' ->
  mr_weights r' = mr_weights r).
Proof.
  intros H.
  set (t := history exm [SetX (CArr2 1 [[0]; [1]])]).
  assert (R : reachable t).
  { exists 1%nat, 4%nat, [[qz 3; qz 1; qz 3; qz 1]], (CArr2 1 [[0]]), CNone, exm, [SetX (CArr2 1 [[0]; [1]])].
    repeat split; try exact exm_built; repeat constructor. }
  assert (G : good_call t [[0]; [1]]%Z [0]%Z [0]%Z [2]%Z 0 (repeat 0 1)).
  { constructor; try exact R; try (vm_compute; reflexivity); try lia.
    - intros [|c]; cbn; lia.
    - repeat constructor; intros; discriminate. }
  destruct (run_multi exm_sqrt (repeat 0 1) t [0]%Z [0]%Z [2]%Z 0) as [r|] eqn:E; [|vm_compute in E; discriminate].
  destruct (run_hybrid_multi exm_sqrt t [0]%Z (combine [0]%Z [2]%Z) (Z.to_nat 0)) as [r'|] eqn:E'; [|vm_compute in E'; discriminate].
  specialize (H _ _ _ _ _ _ _ _ r G E r' E').
  assert (L : match run_multi exm_sqrt (repeat 0 1) t [0]%Z [0]%Z [2]%Z 0, run_hybrid_multi exm_sqrt t [0]%Z (combine [0]%Z [2]%Z) (Z.to_nat 0) with
     | Ok r, Ok r' => map this (mr_weights r) = [3 # 8; 1 # 8]%Q /\ map this (mr_weights r') = [0; 1 # 8]%Q
     | _, _ => False end) by (vm_compute; split; reflexivity).
  rewrite E, E' in L. destruct L as [L1 L2]. rewrite H, L1 in L2. discriminate.
Qed.

(** C33 is false for run_hybrid: the compensation factors are computed from a
    transposed particle table. *)
Lemma C33_hybrid_count_refuted_lem : ~ (forall xp nprofs nbins, rectangular (length xp) nprofs xp ->
  (0 < length xp)%nat -> (0 < nprofs)%nat ->
  Forall (Forall (fun x => (0 <= x < Z.of_nat nbins)%Z)) xp ->
  hybrid_reciprocal xp [0]%Z nprofs nbins =
  Ok (tab nprofs (fun j => tab nbins (compensation (length xp) nprofs nbins (bin_of xp) j)))).
Proof.
  intros H. specialize (H [[0; 1]; [0; 1]]%Z 2%nat 2%nat).
  assert (L : match hybrid_reciprocal [[0; 1]; [0; 1]]%Z [0]%Z 2 2 with
              | Ok l => map (map this) l = [[1; 1]; [1; 1]]%Q | Fail _ => False end) by (vm_compute; reflexivity).
  rewrite H in L.
  - vm_compute in L. discriminate.
  - repeat constructor.
  - cbn; lia.
  - lia.
  - repeat constructor; intros; discriminate.
Qed.

(** C33.  run_hybrid in full, for cuts inside the image and particles that all
    bunches keep inside it: if some weight is left after each of the
    iterations 0..niter, the result holds the weights of the last iteration,
    flat and per bunch, the RMS difference of every iteration, per bunch the
    RMS difference inside its cuts, and the recreated waterfall.  Otherwise it
    raises WaterfallReducedToZero.  The weights are those of the
    specification: compensation factors from the misread table, only particles
    strictly inside the cuts. *)
Lemma C33_hybrid_outcome_lem : forall sqrt t xp centers cutl cutr niter,
  good_hybrid_call t xp centers cutl cutr ->
  let w k := hybrid_weight_after t xp centers cutl cutr k in
  let d k j b := cell (t_waterfall t) j b - hybrid_recreated_by t xp centers cutl cutr k j b in
  let left c := Z.to_nat (znth cutl c) in
  let right c := Z.to_nat (znth cutr c) in
  let tot k := total (length centers * length xp) (w k) in
  ((forall k, (k <= niter)%nat -> 0 < tot k) /\
   exists r, run_hybrid_multi sqrt t centers (combine cutl cutr) niter = Ok r /\
   mr_weights r = tab (length centers * length xp) (w niter) /\
   mr_weight_split r = tab (length centers) (fun c => tab (length xp) (fun i => w niter (c * length xp + i)%nat)) /\
   mr_diff r = tab (S niter) (fun k =>
     sqrt (sumn (t_nprofs t) (fun j => sumn (t_nbins t) (fun b => d k j b * d k j b)) / qn (t_nprofs t * t_nbins t))) /\
   mr_diff_split r = tab (length centers) (fun c => tab (S niter) (fun k =>
     sqrt (square_sum_between (t_nprofs t) (left c) (right c) (d k) / qn (t_nprofs t * (right c - left c))))) /\
   mr_recreated r = tab (t_nprofs t) (fun j => tab (t_nbins t) (hybrid_recreated_by t xp centers cutl cutr niter j)) /\
   mr_calls r = []) \/
  ((exists k, (k <= niter)%nat /\ ~ 0 < tot k) /\
   run_hybrid_multi sqrt t centers (combine cutl cutr) niter = Fail (Raised WaterfallReducedToZero)).
Proof.
  intros sqrt t xp centers cutl cutr niter [Rt X Hl Hr Hc F] w d left right tot.
  assert (V := reachable_valid _ Rt). destruct V as [V1 V2 V3 V4 V5 V6]. rewrite X in V6. destruct V6 as [[_ V6] _].
  assert (Hx : forall c i j, (c < length centers)%nat -> (i < length xp)%nat -> (j < t_nprofs t)%nat ->
     (0 <= zcell xp i j + znth centers c < Z.of_nat (t_nbins t))%Z).
  { intros c i j H1 H2 H3. rewrite Forall_forall in F. specialize (F (znth centers c)).
    assert (In (znth centers c) centers) by (apply nth_In; auto). specialize (F H). cbv beta in F.
    rewrite Forall_forall in F. specialize (F (nth i xp []) ltac:(apply nth_In; auto)).
    rewrite Forall_forall in F. apply F. apply nth_In. rewrite Forall_forall in V6.
    rewrite V6 by (apply nth_In; auto). auto. }
  assert (XE : xp = T (length xp) (t_nprofs t) (zcell xp)) by exact (rect_T _ (length xp) (t_nprofs t) xp 0%Z (conj eq_refl V6)).
  assert (WE : t_waterfall t = T (t_nprofs t) (t_nbins t) (cell (t_waterfall t))) by exact (wf_T _ _ _ V1).
  assert (CE : tab (length centers) (znth centers) = centers) by apply tab_nth.
  assert (QE : tab (length centers) (fun c => (znth cutl c, znth cutr c)) = combine cutl cutr).
  { rewrite <- combine_tab. f_equal; [rewrite <- Hl|rewrite <- Hr]; apply tab_nth. }
  assert (TE : Tomo (T (t_nprofs t) (t_nbins t) (cell (t_waterfall t))) (t_nprofs t) (t_nbins t) (t_xp t) (t_yp t) (t_nparts t) = t)
    by (rewrite <- WE; destruct t; reflexivity).
  assert (XO : t_xp t = Some (T (length xp) (t_nprofs t) (zcell xp))) by (rewrite <- XE; exact X).
  assert (OK := run_hybrid_multi_ok (length centers) (length xp) (t_nprofs t) (t_nbins t) (zcell xp) (znth centers)
    (znth cutl) (znth cutr) (cell (t_waterfall t)) Hx V3 V4 Hc (t_xp t) (t_yp t) (t_nparts t) sqrt niter XO).
  assert (KO := run_hybrid_multi_raises (length centers) (length xp) (t_nprofs t) (t_nbins t) (zcell xp) (znth centers)
    (znth cutl) (znth cutr) (cell (t_waterfall t)) Hx V3 V4 Hc (t_xp t) (t_yp t) (t_nparts t) sqrt niter XO).
  rewrite TE, CE, QE in OK, KO.
  destruct (first_failure (fun k => 0 < tot k) niter) as [A|[k [K1 [K2 K3]]]].
  - intros k. destruct (qltb_spec 0 (tot k)); auto. right. intros H'. qclra.
  - left. split; [exact A|]. eexists. split; [apply OK; exact A|].
    cbn [mr_weights mr_weight_split mr_diff mr_diff_split mr_recreated mr_calls].
    split; [reflexivity|]. split; [reflexivity|]. split; [rewrite Nat.add_1_r; reflexivity|].
    split; [|split; reflexivity].
    apply tab_ext. intros c Hcc. apply tab_ext. intros k Hk. unfold hsplit. f_equal. f_equal. f_equal. f_equal.
    unfold left, right. destruct (Hc c Hcc). lia.
  - right. split; [eauto|]. apply (KO k); auto.
Qed.

(*EX*)
(** A case with two bunches, both inside their cuts. *)
Definition exh : tomo :=
  match tomography 1 6 [[qz 1; qz 3; qz 1; qz 1; qz 3; qz 1]] (CArr2 1 [[1]]) CNone with Ok t => t | Fail _ => Tomo [] 0 0 None None None end.
Example exh_built : tomography 1 6 [[qz 1; qz 3; qz 1; qz 1; qz 3; qz 1]] (CArr2 1 [[1]]) CNone = Ok exh.
Proof.
  unfold exh. destruct (tomography 1 6 [[qz 1; qz 3; qz 1; qz 1; qz 3; qz 1]] (CArr2 1 [[1]]) CNone) eqn:E; [reflexivity|].
  vm_compute in E. discriminate.
Qed.
Example exh_reachable : reachable exh.
Proof.
  exists 1%nat, 6%nat, [[qz 1; qz 3; qz 1; qz 1; qz 3; qz 1]], (CArr2 1 [[1]]), CNone, exh, [].
  split; [split; repeat constructor|]. split; [repeat constructor|]. split; [constructor|]. split; [constructor|].
  split; [exact exh_built|reflexivity].
Qed.
Example exh_good : good_hybrid_call exh [[1]]%Z [0; 3]%Z [0; 3]%Z [3; 6]%Z.
Proof.
  constructor; try exact exh_reachable; try (vm_compute; reflexivity).
  - assert (E : t_nbins exh = 6%nat) by (vm_compute; reflexivity). rewrite E. clear E.
    intros [|[|c]] Hc; cbn in *; lia.
  - repeat constructor; intros; discriminate.
Qed.
Example exh_run : match run_hybrid_multi exm_sqrt exh [0; 3]%Z [(0, 3); (3, 6)]%Z 1 with
  | Ok r => Some (map (map this) (mr_weight_split r), map this (mr_diff r), map (map this) (mr_diff_split r), map (map this) (mr_recreated r))
  | Fail _ => None end =
  Some ([[1 # 10]; [1 # 10]], [1 # 50; 1 # 50], [[1 # 50; 1 # 50]; [1 # 50; 1 # 50]], [[0; 1 # 2; 0; 0; 1 # 2; 0]])%Q.
Proof. vm_compute. reflexivity. Qed.
(*XE*)
