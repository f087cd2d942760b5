(** reconstruct_multi computes the iteration of Spec/MultiSpec.v. *)
From Coq Require Import List ZArith QArith Qcanon Lia Arith Bool.
From Verif Require Import Base.Res Base.ResLemmas Base.QcLib Base.QcLemmas Base.Loops Model.MRecon Model.MMulti
  Spec.ReconSpec Spec.MultiSpec Proof.PRecon Proof.PRecon2.
Import ListNotations.
Local Open Scope Qc_scope.

Lemma clip_part : forall m n w, (n <= m)%nat ->
  clip (tab m w) n 0 = Ok (tab m (fun i => if (i <? n)%nat then pos (w i) else w i)).
Proof.
  intros m n w H. unfold clip.
  apply (for_steps' _ n _ (fun k => tab m (fun i => if (i <? k)%nat then pos (w i) else w i))); auto.
  intros i Hi. rewrite get_tab by lia. cbn [bind]. rewrite Nat.ltb_irrefl.
  assert (E : tab m (fun i0 => if (i0 <? Datatypes.S i)%nat then pos (w i0) else w i0) =
              tab m (fun k => if Nat.eqb k i then pos (w i) else if (k <? i)%nat then pos (w k) else w k)).
  { apply tab_ext. intros k Hk. destruct (Nat.eqb_spec k i).
    - subst. destruct (Nat.ltb_spec i (Datatypes.S i)); auto; lia.
    - destruct (Nat.ltb_spec k (Datatypes.S i)); destruct (Nat.ltb_spec k i); auto; lia. }
  rewrite E. destruct (qltb (w i) 0) eqn:Q.
  - replace (pos (w i)) with 0 by (unfold pos; rewrite Q; reflexivity). rewrite set_tab by lia. reflexivity.
  - f_equal. apply tab_ext. intros k Hk. destruct (Nat.eqb_spec k i); auto. subst.
    destruct (Nat.ltb_spec i i); [lia|]. unfold pos. rewrite Q. auto.
Qed.

Lemma sum_part : forall m n w, (n <= m)%nat -> sum (tab m w) n = Ok (sumn n w).
Proof.
  intros. unfold sum. rewrite (for_accumulate n w).
  - f_equal. ring.
  - intros. rewrite get_tab by lia. reflexivity.
Qed.

Lemma check_sum_part : forall m n w, (n <= m)%nat -> check_sum (tab m w) n =
  if qleb (sumn n w) 0 then Fail (Raised RuntimeError) else Ok tt.
Proof. intros. unfold check_sum. rewrite sum_part by auto. reflexivity. Qed.

Section Multi.
Variables nb np nprof nbins : nat.
Variable x : nat -> nat -> Z.
Variables cen lft rgt : nat -> Z.
Variable prof : nat -> nat -> Qc.
Hypothesis Hx : forall c i j, (c < nb)%nat -> (i < np)%nat -> (j < nprof)%nat ->
  (0 <= x i j + cen c < zi nbins)%Z.

Notation nq := (nb * np)%nat.
Notation BIN := (mbin np x cen).
Notation INS := (inside np nprof x cen lft rgt).

Definition mxl : list Z := tab (np * nprof) (fl nprof x).
Definition mcl : list Z := tab nb cen.
Definition mll : list Z := tab nb lft.
Definition mrl : list Z := tab nb rgt.
Definition mfp : list Z := tab (np * nprof) (fl nprof (fun i j => (x i j + zi nbins * zi j)%Z)).

Lemma of_q : forall c i, (i < np)%nat -> bunch_of np (c * np + i) = c /\ part_of np (c * np + i) = i.
Proof.
  intros. unfold bunch_of, part_of. rewrite (Nat.add_comm (c * np)). split.
  - rewrite Nat.div_add by lia. rewrite Nat.div_small by auto. lia.
  - rewrite Nat.mod_add by lia. apply Nat.mod_small. auto.
Qed.

Lemma q_lt : forall q, (q < nq)%nat -> (bunch_of np q < nb)%nat /\ (part_of np q < np)%nat.
Proof.
  intros q H. destruct (flat_of _ _ _ H) as [c [i [Hc [Hi ->]]]].
  destruct (of_q c i Hi) as [-> ->]. auto.
Qed.

Lemma zbin_nat : forall q j, (q < nq)%nat -> (j < nprof)%nat ->
  zbin np x cen q j = zi (BIN q j) /\ (BIN q j < nbins)%nat.
Proof.
  intros q j Hq Hj. destruct (q_lt q Hq) as [Hc Hi].
  pose proof (Hx _ _ j Hc Hi Hj). unfold mbin. fold (zbin np x cen q j) in H. lia.
Qed.

Lemma mbin_lt : forall q j, (q < nq)%nat -> (j < nprof)%nat -> (BIN q j < nbins)%nat.
Proof. intros. apply zbin_nat; auto. Qed.

Lemma for_copies : forall S (f : nat -> nat -> S -> res S) (g : nat -> S -> res S) s,
  (forall c i s, (c < nb)%nat -> (i < np)%nat -> f c i s = g (c * np + i)%nat s) ->
  for_ 0 nb (fun c s => for_ 0 np (fun i s => f c i s) s) s = for_ 0 nq g s.
Proof.
  intros. rewrite <- for_nested. apply for_ext. intros c s' Hc. apply for_ext. intros i s'' Hi. apply H; lia.
Qed.

Lemma mflat_points : create_flat_points mxl np nprof nbins = Ok mfp.
Proof.
  unfold create_flat_points, mxl, mfp.
  assert (E : for_ 0 np (fun i fp => for_ 0 nprof (fun j fp =>
      v <- get fp (zi (i * nprof + j)) ;;
      set fp (zi (i * nprof + j)) (v + zi nbins * zi j)%Z) fp)
      (tab (np * nprof) (fl nprof x)) =
    for_ 0 np (fun i fp => for_ 0 nprof (fun j fp =>
      (fun k fp => v <- get fp (zi k) ;;
      set fp (zi k) (v + zi nbins * zi (k mod nprof))%Z) (i * nprof + j)%nat fp) fp)
      (tab (np * nprof) (fl nprof x))).
  { apply for_ext. intros i s Hi. apply for_ext. intros j s' Hj.
    assert (M : ((i * nprof + j) mod nprof = j)%nat).
    { rewrite (Nat.add_comm (i * nprof) j). rewrite Nat.mod_add by lia. apply Nat.mod_small; lia. }
    cbn beta. rewrite M. reflexivity. }
  etransitivity; [exact E|]. rewrite for_nested. apply for_tab.
  intros k h Hk Hh. rewrite get_tab by auto. cbn [bind]. rewrite (Hh k) by lia.
  rewrite set_tab by auto. f_equal.
Qed.

Lemma fp_center : forall c i j, (c < nb)%nat -> (i < np)%nat -> (j < nprof)%nat ->
  (x i j + zi nbins * zi j + cen c)%Z = zi (j * nbins + BIN (c * np + i) j).
Proof.
  intros c i j Hc Hi Hj.
  assert (Hq : (c * np + i < nq)%nat) by (apply flat_lt; auto).
  destruct (zbin_nat _ j Hq Hj) as [E _]. unfold zbin in E. destruct (of_q c i Hi) as [E1 E2].
  rewrite E1, E2 in E. lia.
Qed.

Lemma project_multi_single : forall rec w,
  project_multi rec mfp w mcl np nprof nb = project rec (fpl nq nprof nbins BIN) w nq nprof.
Proof.
  intros. unfold project_multi, project. apply for_copies. intros c i s Hc Hi.
  assert (Hq : (c * np + i < nq)%nat) by (apply flat_lt; auto).
  apply for_ext. intros j s' Hj. unfold mfp, fpl, mcl.
  rewrite get_tab by (apply flat_lt; lia). cbn [bind]. rewrite get_tab by auto. cbn [bind].
  rewrite get_tab by (apply flat_lt; lia). cbn [bind]. rewrite !fl_at by lia.
  rewrite fp_center by lia. replace (i + c * np)%nat with (c * np + i)%nat by lia. reflexivity.
Qed.

Lemma count_multi_single : forall rp,
  count_particles_in_bin_multi rp mxl mcl nprof np nbins nb =
  count_particles_in_bin rp (xpl nq nprof BIN) nprof nq nbins.
Proof.
  intros. unfold count_particles_in_bin_multi, count_particles_in_bin. apply for_copies. intros c i s Hc Hi.
  assert (Hq : (c * np + i < nq)%nat) by (apply flat_lt; auto).
  apply for_ext. intros j s' Hj. unfold mxl, xpl, mcl.
  rewrite get_tab by (apply flat_lt; lia). cbn [bind]. rewrite get_tab by auto. cbn [bind].
  rewrite get_tab by (apply flat_lt; lia). cbn [bind]. rewrite !fl_at by lia.
  assert (E := fp_center c i j Hc Hi ltac:(lia)).
  replace (x i j + cen c + zi j * zi nbins)%Z with (zi j * zi nbins + zi (BIN (c * np + i) j))%Z by lia. reflexivity.
Qed.

Lemma reciprocal_multi_single :
  reciprocal_particles_multi (repeat 0 (nprof * nbins)) mxl mcl nbins nprof np nb =
  Ok (tab (nprof * nbins) (fl nbins (compensation nq nprof nbins BIN))).
Proof.
  rewrite <- (reciprocal_tab nq nprof nbins BIN) by (intros; apply mbin_lt; auto).
  unfold reciprocal_particles_multi, reciprocal_particles. rewrite count_multi_single. reflexivity.
Qed.

Lemma forallb_seq_S : forall (p : nat -> bool) n, forallb p (seq 0 (Datatypes.S n)) = forallb p (seq 0 n) && p n.
Proof. intros. rewrite seq_S, forallb_app. simpl. rewrite andb_true_r. auto. Qed.

Lemma create_mask_tab :
  create_mask mxl mcl mll mrl (repeat true (np * nb)) np nprof nb = Ok (tab nq INS).
Proof.
  unfold create_mask.
  set (g := fun q mask => for_ 0 nprof (fun j mask =>
       if negb ((lft (bunch_of np q) <=? zbin np x cen q j)%Z && (zbin np x cen q j <=? rgt (bunch_of np q))%Z)
       then set mask (zi q) false else Ok mask) (mask : list bool)).
  rewrite (for_copies _ _ g).
  - rewrite repeat_tab. replace (np * nb)%nat with nq by lia.
    apply (for_steps' _ nq g (fun q => tab nq (fun k => if (k <? q)%nat then INS k else true))); auto.
    + apply tab_ext. intros k Hk. destruct (Nat.ltb_spec k nq); auto. lia.
    + intros q Hq. unfold g.
      apply (for_steps' _ nprof _ (fun j => tab nq (fun k => if (k <? q)%nat then INS k else
         if Nat.eqb k q then inside np j x cen lft rgt q else true))).
      * apply tab_ext. intros k Hk. destruct (Nat.ltb_spec k q); auto. destruct (Nat.eqb_spec k q); auto.
      * apply tab_ext. intros k Hk. destruct (Nat.ltb_spec k (Datatypes.S q)); destruct (Nat.ltb_spec k q);
          destruct (Nat.eqb_spec k q); subst; auto; lia.
      * intros j Hj. set (p := _ && _).
        assert (E : inside np (Datatypes.S j) x cen lft rgt q = inside np j x cen lft rgt q && p).
        { unfold inside. rewrite forallb_seq_S. reflexivity. }
        destruct p; cbn [negb].
        { f_equal. apply tab_ext. intros k Hk. destruct (Nat.ltb_spec k q); auto.
          rewrite E, andb_true_r. reflexivity. }
        { rewrite set_tab by auto. f_equal. apply tab_ext. intros k Hk. rewrite E, andb_false_r.
          destruct (Nat.ltb_spec k q); destruct (Nat.eqb_spec k q); auto; lia. }
  - intros c i s Hc Hi. unfold g. apply for_ext. intros j s' Hj. unfold mxl, mcl, mll, mrl.
    rewrite get_tab by (apply flat_lt; lia). cbn [bind]. rewrite !get_tab by auto. cbn [bind].
    rewrite fl_at by lia. destruct (of_q c i Hi) as [E1 E2]. unfold zbin. rewrite E1, E2.
    replace (i + c * np)%nat with (c * np + i)%nat by lia.
    rewrite negb_andb. rewrite <- !Z.ltb_antisym. reflexivity.
Qed.

Lemma back_project_multi_tab : forall w f,
  back_project_multi (tab nq w) mfp (tab (nprof * nbins) (fl nbins f)) (tab nq INS) mcl np nprof nb =
  Ok (tab nq (fun q => w q + if INS q then gather nprof BIN f q else 0)).
Proof.
  intros. unfold back_project_multi.
  set (g := fun q weights => for_ 0 nprof (fun j weights =>
     if INS q then
          v <- get (tab (nprof * nbins) (fl nbins f)) (zi (j * nbins + BIN q j)) ;;
          y <- get weights (zi q) ;;
          set weights (zi q) (y + v)%Qc
     else Ok weights) (weights : list Qc)).
  rewrite (for_copies _ _ g).
  - unfold g. rewrite (for_scatter2 nq w nq nprof (fun q j => q) (fun q j => if INS q then f j (BIN q j) else 0)).
    + f_equal. apply tab_ext. intros q Hq. f_equal. unfold gather.
      rewrite <- (sumn_single nq (fun q => if INS q then sumn nprof (fun j => f j (BIN q j)) else 0) q) by auto.
      apply sumn_ext. intros k Hk. destruct (Nat.eqb k q).
      * destruct (INS k); auto. apply sumn_zero; auto.
      * apply sumn_zero. auto.
    + intros q j h Hq Hj. destruct (INS q).
      * rewrite get_tab by (apply flat_lt; [auto|apply mbin_lt; auto]). cbn [bind].
        rewrite get_tab by auto. cbn [bind]. rewrite fl_at by (apply mbin_lt; auto).
        rewrite set_tab by auto. reflexivity.
      * f_equal. apply tab_ext. intros k Hk. destruct (Nat.eqb_spec k q); auto. subst. ring.
  - intros c i s Hc Hi. assert (Hq : (c * np + i < nq)%nat) by (apply flat_lt; auto).
    unfold g. apply for_ext. intros j s' Hj.
    replace (i + c * np)%nat with (c * np + i)%nat by lia.
    rewrite (get_tab _ INS) by auto. cbn [bind]. destruct (INS (c * np + i)); auto.
    unfold mfp, mcl. rewrite get_tab by (apply flat_lt; lia). cbn [bind]. rewrite get_tab by auto. cbn [bind].
    rewrite fl_at by lia. rewrite fp_center by lia. reflexivity.
Qed.

(** ** Facts about the iteration *)
Notation W := (mweights nb np nprof nbins x cen lft rgt prof).
Notation RA := (mrecreated nb np nprof nbins x cen lft rgt prof).
Notation IT := (miterate nb np nprof nbins x cen lft rgt prof).
Notation CO := (compensation nq nprof nbins BIN).
Notation BT := (bunch_total nb np nprof nbins x cen lft rgt prof).

Lemma mW_0 : W 0 = fun q => if INS q then pos (gather nprof BIN prof q) else 0.
Proof. reflexivity. Qed.
Lemma mW_S : forall k, W (S k) = fun q => if INS q then next_weights nq nprof nbins BIN prof (RA k) (W k) q else 0.
Proof. intros. unfold mrecreated, mweights. simpl. destruct (IT k). reflexivity. Qed.
Lemma mR_S : forall k, snd (IT (S k)) = RA k.
Proof. intros. unfold mrecreated, mweights. simpl. destruct (IT k). reflexivity. Qed.

Lemma mW_nonneg : forall k q, 0 <= W k q.
Proof.
  intros. destruct k; [rewrite mW_0|rewrite mW_S]; destruct (INS q); try apply pos_nonneg; apply Qcle_refl.
Qed.

Lemma mW_outside : forall k q, INS q = false -> W k q = 0.
Proof. intros k q H. destruct k; [rewrite mW_0|rewrite mW_S]; rewrite H; reflexivity. Qed.

Lemma mR_nonneg : forall k j b, 0 <= snd (IT k) j b.
Proof.
  induction k; intros; [apply Qcle_refl|]. rewrite mR_S. apply row_normalised_nonneg. intros b'.
  apply Qcadd_nonneg; auto. apply histogram_nonneg. intros. apply mW_nonneg.
Qed.

Lemma mRA_nonneg : forall k j b, 0 <= RA k j b.
Proof. intros. rewrite <- mR_S. apply mR_nonneg. Qed.

Lemma bt_nonneg : forall c k, 0 <= BT c k.
Proof. intros. apply sumn_nonneg. intros. apply mW_nonneg. Qed.

Lemma total_bunches : forall k, total nq (W k) = sumn nb (fun c => BT c k).
Proof.
  intros. unfold total, bunch_total. rewrite <- (sumn_fl nb np (fun c i => W k (c * np + i)%nat)).
  apply sumn_ext. intros q Hq. unfold fl. f_equal.
  assert (np <> 0)%nat by (intros ->; lia). rewrite (Nat.div_mod q np) at 1 by auto. lia.
Qed.

Lemma total_pos : forall k, (0 < nb)%nat -> 0 < BT 0 k -> 0 < total nq (W k).
Proof.
  intros. rewrite total_bunches. apply sumn_pos_ex; [intros; apply bt_nonneg|]. exists 0%nat. auto.
Qed.

Lemma mprenorm_pos : forall k j, (j < nprof)%nat -> 0 < total nq (W k) ->
  0 < sumn nbins (fun b : nat => snd (IT k) j b + histogram nq BIN (W k) j b).
Proof.
  intros. rewrite sumn_add.
  rewrite (histogram_total nq nprof nbins BIN (fun q j Hq Hj => mbin_lt q j Hq Hj) (W k) j) by auto.
  assert (0 <= sumn nbins (snd (IT k) j)) by (apply sumn_nonneg; intros; apply mR_nonneg). qclra.
Qed.

Lemma mRA_row_sum : forall k j, (j < nprof)%nat -> 0 < total nq (W k) -> sumn nbins (RA k j) = 1.
Proof.
  intros. unfold mrecreated, next_recreated. apply row_normalised_sum. apply Qclt_ne. apply mprenorm_pos; auto.
Qed.

Lemma mproject_normalize : forall k, 0 < total nq (W k) -> (0 < nprof)%nat ->
  (rec <- project_multi (tab (nprof * nbins) (fl nbins (snd (IT k)))) mfp (tab nq (W k)) mcl np nprof nb ;;
   normalize rec nprof nbins) = Ok (tab (nprof * nbins) (fl nbins (RA k))).
Proof.
  intros. rewrite project_multi_single.
  rewrite (project_tab nq nprof nbins BIN (fun q j Hq Hj => mbin_lt q j Hq Hj)).
  cbn [bind]. rewrite normalize_tab; auto. intros. apply (mprenorm_pos k j); auto.
Qed.

(** ** The split discrepancy *)
Variable sqrt : Qc -> Qc.
Hypothesis Hcut : forall c, (c < nb)%nat -> lft c <> rgt c.

(** Squares of the flat array strictly between the cuts of bunch c. *)
Definition cut_squares (d : nat -> Qc) (c : nat) : Qc :=
  sumn (nprof * nbins) (fun i => if ((zi i <? rgt c) && (lft c <? zi i))%Z then d i * d i else 0).

Definition split_value (d : nat -> Qc) (c : nat) : Qc :=
  sqrt (sumn (S c) (cut_squares d) / qz (zi nprof * (rgt c - lft c))).

Lemma discrepancy_multi_tab : forall d n f it, (0 < nprof)%nat -> (it * nb + nb <= n)%nat ->
  discrepancy_multi sqrt (tab (nprof * nbins) d) (tab n f) mll mrl it nprof nbins nb =
  Ok (tab n (fun k => if ((it * nb <=? k) && (k <? it * nb + nb))%nat then split_value d (k - it * nb) else f k)).
Proof.
  intros d n f it Hp Hn. unfold discrepancy_multi.
  set (stt := fun c => (tab n (fun k => if ((it * nb <=? k) && (k <? it * nb + c))%nat
                     then split_value d (k - it * nb) else f k), sumn c (cut_squares d))).
  rewrite (for_steps' _ nb _ stt _ (stt nb)); auto.
  - unfold stt. f_equal. apply tab_ext. intros k Hk.
    destruct (Nat.leb_spec (it * nb) k); destruct (Nat.ltb_spec k (it * nb + 0)); auto. lia.
  - intros c Hc. unfold stt at 1. unfold mll, mrl. rewrite !get_tab by auto. cbn [bind].
    rewrite (for_accumulate (nprof * nbins)
      (fun i => if ((zi i <? rgt c) && (lft c <? zi i))%Z then d i * d i else 0)).
    + cbn [bind]. rewrite qdiv_ok.
      * cbn [bind]. rewrite set_tab by nia. cbn [bind]. unfold stt. f_equal. f_equal.
        apply tab_ext. intros k Hk. destruct (Nat.eqb_spec k (it * nb + c)).
        { subst. replace (it * nb + c - it * nb)%nat with c by lia.
          destruct (Nat.leb_spec (it * nb) (it * nb + c)); [|lia].
          destruct (Nat.ltb_spec (it * nb + c) (it * nb + Datatypes.S c)); [|lia]. reflexivity. }
        { destruct (Nat.leb_spec (it * nb) k); destruct (Nat.ltb_spec k (it * nb + c));
            destruct (Nat.ltb_spec k (it * nb + Datatypes.S c)); auto; lia. }
      * change 0%Qc with (qz 0). intros E. apply (proj1 (qz_inj _ _)) in E. specialize (Hcut c Hc). nia.
    + intros i s Hi. destruct ((zi i <? rgt c) && (lft c <? zi i))%Z.
      * rewrite get_tab by auto. reflexivity.
      * f_equal. ring.
Qed.

(** ** The loop *)
Variable niter : Z.
Notation n := (Z.to_nat niter).
Variable split0 : nat -> Qc.
Hypothesis Hprof : forall j b, (j < nprof)%nat -> (b < nbins)%nat -> 0 <= prof j b.
Hypothesis Hniter : (0 <= niter)%Z.
Hypothesis Hnb : (0 < nb)%nat.

Notation pl := (tab (nprof * nbins) (fl nbins prof)).
Notation rp := (tab (nprof * nbins) (fl nbins CO)).
Notation dif k := (fl nbins (fun j b => prof j b - RA k j b)).

Definition mst (k : nat) : mstate :=
  MState (tab nq (W k))
    (tab (nprof * nbins) (fl nbins (snd (IT k))))
    (tab (S n) (fun i => if (i <? k)%nat then rms nprof nbins prof sqrt (RA i) else 0))
    (tab (S n * nb) (fun i => if (i <? k * nb)%nat then split_value (dif (i / nb)) (i mod nb) else split0 i))
    (tab (nprof * nbins) (match k with
       | O => fun _ => 0
       | S k' => fl nbins (fun j b => (prof j b - RA k' j b) * CO j b) end))
    (calls_upto niter k).

Lemma split_step : forall k i, (i < S n * nb)%nat ->
  (if ((k * nb <=? i) && (i <? k * nb + nb))%nat then split_value (dif k) (i - k * nb)
   else if (i <? k * nb)%nat then split_value (dif (i / nb)) (i mod nb) else split0 i) =
  (if (i <? S k * nb)%nat then split_value (dif (i / nb)) (i mod nb) else split0 i).
Proof.
  intros k i Hi. destruct (Nat.leb_spec (k * nb) i) as [A|A]; cbn [andb].
  - destruct (Nat.ltb_spec i (k * nb + nb)) as [B|B].
    + destruct (Nat.ltb_spec i (S k * nb)) as [D|D]; [|lia].
      assert (Hr : (i - k * nb < nb)%nat) by lia.
      assert (E1 : (i / nb = k)%nat).
      { symmetry. apply (Nat.div_unique i nb k (i - k * nb)); auto. nia. }
      assert (E2 : (i mod nb = i - k * nb)%nat).
      { symmetry. apply (Nat.mod_unique i nb k (i - k * nb)); auto. nia. }
      rewrite E1, E2. reflexivity.
    + destruct (Nat.ltb_spec i (S k * nb)); [lia|]. destruct (Nat.ltb_spec i (k * nb)); auto. lia.
  - destruct (Nat.ltb_spec i (k * nb)); [|lia]. destruct (Nat.ltb_spec i (S k * nb)); auto. lia.
Qed.

Lemma bt0 : forall k, BT 0 k = sumn np (W k).
Proof. intros. unfold bunch_total. apply sumn_ext. intros. reflexivity. Qed.

Lemma iteration_multi_tab : forall k, (k < n)%nat -> 0 < BT 0 k -> (0 < nprof)%nat -> (0 < nbins)%nat ->
  iteration_multi sqrt mfp mcl mll mrl (tab nq INS) pl rp niter nbins np nprof nb k (mst k) =
  if qleb (BT 0 (S k)) 0 then Fail (Raised RuntimeError) else Ok (mst (S k)).
Proof.
  intros k Hk Ht Hp Hb. unfold iteration_multi. unfold mst at 1 2 3 4 5 6 7.
  cbn [m_rec m_weights m_diff m_discr m_split m_calls].
  assert (E := mproject_normalize k (total_pos k Hnb Ht) Hp).
  destruct (project_multi _ mfp _ _ np nprof nb) as [rec|]; [|discriminate]. cbn [bind] in *. rewrite E. cbn [bind].
  rewrite find_difference_tab. cbn [bind].
  change (tab (nprof * nbins) (fun k0 => fl nbins prof k0 - fl nbins (RA k) k0))
    with (tab (nprof * nbins) (dif k)).
  rewrite discrepancy_tab by nia. cbn [bind].
  rewrite set_tab by lia. cbn [bind].
  rewrite discrepancy_multi_tab by (auto; nia). cbn [bind].
  rewrite compensate_tab. cbn [bind].
  change (tab (nprof * nbins) (fun k0 => dif k k0 * fl nbins CO k0))
    with (tab (nprof * nbins) (fl nbins (fun j b => (prof j b - RA k j b) * CO j b))).
  rewrite back_project_multi_tab. cbn [bind].
  replace (np * nb)%nat with nq by lia. rewrite clip_tab. cbn [bind].
  assert (EW : tab nq (fun q => pos (W k q + (if INS q
       then gather nprof BIN (fun j b => (prof j b - RA k j b) * CO j b) q else 0))) = tab nq (W (S k))).
  { apply tab_ext. intros q Hq. rewrite mW_S. destruct (INS q) eqn:Eq; [reflexivity|].
    rewrite (mW_outside k q Eq). replace (0 + 0) with 0 by ring. reflexivity. }
  rewrite EW. rewrite check_sum_part by nia. rewrite <- bt0.
  destruct (qleb _ 0); cbn [bind]; auto.
  unfold mst. rewrite mR_S. f_equal. f_equal.
  - apply tab_ext. intros i Hi. destruct (Nat.eqb_spec i k).
    + subst. destruct (Nat.ltb_spec k (S k)); [|lia]. reflexivity.
    + destruct (Nat.ltb_spec i k); destruct (Nat.ltb_spec i (S k)); auto; lia.
  - apply tab_ext. intros i Hi. apply split_step. auto.
  - unfold calls_upto. rewrite seq_S, map_app. reflexivity.
Qed.

Definition mfinal : mstate :=
  MState (tab nq (W n)) (tab (nprof * nbins) (fl nbins (RA n)))
    (tab (S n) (fun i => rms nprof nbins prof sqrt (RA i)))
    (tab (S n * nb) (fl nb (fun i c => split_value (dif i) c)))
    (tab (nprof * nbins) (dif n))
    (calls_upto niter n ++ [(niter, niter)]).

Lemma mdims : 0 < BT 0 0 -> (0 < np)%nat /\ (0 < nprof)%nat /\ (0 < nbins)%nat.
Proof.
  intros H. rewrite bt0 in H.
  destruct (Nat.eq_dec np 0) as [E|E]. { rewrite E in H. exfalso. apply (Qclt_not_eq _ _ H). auto. }
  destruct (Nat.eq_dec nprof 0) as [E'|E'].
  { exfalso. assert (Z : sumn np (W 0) = 0).
    { apply sumn_zero. intros q Hq. rewrite mW_0. destruct (INS q); auto. unfold gather. rewrite E'. reflexivity. }
    rewrite Z in H. exact (Qclt_not_eq _ _ H eq_refl). }
  assert (A : (0 < np)%nat) by lia. assert (B : (0 < nprof)%nat) by lia.
  pose proof (Hx 0 0 0 Hnb A B). lia.
Qed.

Notation call := (reconstruct_multi sqrt (tab (S n * nb) split0) mxl mcl mll mrl pl niter nbins np nprof nb).

Lemma mloop_tab : forall m, (m <= n)%nat -> (forall k, (k <= m)%nat -> 0 < BT 0 k) ->
  for_ 0 m (iteration_multi sqrt mfp mcl mll mrl (tab nq INS) pl rp niter nbins np nprof nb) (mst 0) = Ok (mst m).
Proof.
  intros m Hm H. destruct (mdims (H 0%nat ltac:(lia))) as [A [B C]].
  apply for_steps. intros i Hi. rewrite iteration_multi_tab; auto; try lia; [|apply H; lia].
  destruct (qleb_spec (BT 0 (S i)) 0); auto.
  specialize (H (S i) ltac:(lia)). exfalso; qclra.
Qed.

Lemma reconstruct_multi_unfold :
  call =
  (_ <- (if qleb (BT 0 0) 0 then Fail (Raised RuntimeError) else Ok tt) ;;
   s <- for_ 0 n (iteration_multi sqrt mfp mcl mll mrl (tab nq INS) pl rp niter nbins np nprof nb) (mst 0) ;;
   rec <- project_multi (m_rec s) mfp (m_weights s) mcl np nprof nb ;;
   rec <- normalize rec nprof nbins ;;
   diff <- find_difference_profile (m_diff s) rec pl (nprof * nbins) ;;
   d <- discrepancy sqrt diff nprof nbins ;;
   discr <- set (m_discr s) niter d ;;
   split <- discrepancy_multi sqrt diff (m_split s) mll mrl n nprof nbins nb ;;
   Ok (MState (m_weights s) rec discr split diff (m_calls s ++ [(niter, niter)]))).
Proof.
  unfold reconstruct_multi. rewrite create_mask_tab. cbn [bind].
  rewrite reciprocal_multi_single. cbn [bind].
  rewrite mflat_points. cbn [bind]. replace (np * nb)%nat with nq by lia. rewrite (repeat_tab nq).
  rewrite back_project_multi_tab. cbn [bind]. rewrite clip_part by nia. cbn [bind].
  assert (E : tab nq (fun q => if (q <? np)%nat then pos (0 + (if INS q then gather nprof BIN prof q else 0))
                else 0 + (if INS q then gather nprof BIN prof q else 0)) = tab nq (W 0)).
  { apply tab_ext. intros q Hq. rewrite mW_0.
    assert (G : 0 <= gather nprof BIN prof q).
    { apply sumn_nonneg. intros j Hj. apply Hprof; auto. apply mbin_lt; auto. }
    replace (0 + (if INS q then gather nprof BIN prof q else 0))
      with (if INS q then gather nprof BIN prof q else 0) by ring.
    destruct (INS q).
    - rewrite pos_id by auto. destruct (q <? np)%nat; auto.
    - destruct (q <? np)%nat; auto. }
  rewrite E, check_sum_part by nia. rewrite <- bt0.
  replace (MState (tab nq (W 0)) (repeat 0 (nprof * nbins)) (repeat 0 (Z.to_nat (niter + 1)))
             (tab (S n * nb) split0) (repeat 0 (nprof * nbins)) []) with (mst 0); [reflexivity|].
  unfold mst. rewrite !repeat_tab. replace (Z.to_nat (niter + 1)) with (S n) by lia. reflexivity.
Qed.

Theorem reconstruct_multi_ok : (forall k, (k <= n)%nat -> 0 < BT 0 k) -> call = Ok mfinal.
Proof.
  intros H. destruct (mdims (H 0%nat ltac:(lia))) as [A [B C]].
  rewrite reconstruct_multi_unfold.
  destruct (qleb_spec (BT 0 0) 0) as [E|_].
  { specialize (H 0%nat ltac:(lia)). exfalso; qclra. }
  cbn [bind]. rewrite mloop_tab by auto. cbn [bind].
  unfold mst at 1 2 3 4 5 6 7. cbn [m_rec m_weights m_diff m_discr m_split m_calls].
  assert (E := mproject_normalize n (total_pos n Hnb (H n ltac:(lia))) B).
  destruct (project_multi _ mfp _ _ np nprof nb) as [rec|]; [|discriminate]. cbn [bind] in *. rewrite E. cbn [bind].
  rewrite find_difference_tab. cbn [bind].
  change (tab (nprof * nbins) (fun k0 => fl nbins prof k0 - fl nbins (RA n) k0))
    with (tab (nprof * nbins) (dif n)).
  rewrite discrepancy_tab by nia. cbn [bind].
  rewrite set_tab_Z by lia. cbn [bind].
  rewrite discrepancy_multi_tab by (auto; nia). cbn [bind]. unfold mfinal. f_equal. f_equal.
  - apply tab_ext. intros i Hi. destruct (Nat.eqb_spec i n) as [N|N]; [subst; reflexivity|].
    destruct (Nat.ltb_spec i n); auto. lia.
  - apply tab_ext. intros i Hi. rewrite split_step by auto. destruct (Nat.ltb_spec i (S n * nb)); auto. lia.
Qed.

Theorem reconstruct_multi_raises : forall k, (k <= n)%nat -> ~ 0 < BT 0 k ->
  (forall k', (k' < k)%nat -> 0 < BT 0 k') -> call = Fail (Raised RuntimeError).
Proof.
  intros k Hk Hz Hlt. rewrite reconstruct_multi_unfold.
  assert (Hle : forall m, ~ 0 < BT 0 m -> qleb (BT 0 m) 0 = true).
  { intros. apply qleb_true. destruct (qltb_spec 0 (BT 0 m)); auto. contradiction. }
  destruct k as [|k].
  - rewrite Hle by auto. reflexivity.
  - destruct (qleb_spec (BT 0 0) 0) as [E|_]; [reflexivity|]. cbn [bind].
    destruct (mdims (Hlt 0%nat ltac:(lia))) as [A [B C]].
    rewrite (for_fail _ n _ _ k (mst k) (Raised RuntimeError)); auto.
    + apply mloop_tab; [lia|]. intros. apply Hlt. lia.
    + rewrite iteration_multi_tab; auto. rewrite Hle by auto. reflexivity.
Qed.

Lemma bt_dec : (forall k, (k <= n)%nat -> 0 < BT 0 k) \/
  exists k, (k <= n)%nat /\ ~ 0 < BT 0 k /\ forall k', (k' < k)%nat -> 0 < BT 0 k'.
Proof.
  apply first_failure. intros k. destruct (qltb_spec 0 (BT 0 k)); auto. right. intros H'. qclra.
Qed.
End Multi.
