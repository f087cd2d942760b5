(** The loops of the reconstruction as sums. *)
From Coq Require Import List ZArith QArith Qcanon Lia Arith Bool.
From Verif Require Import Base.Res Base.ResLemmas Base.QcLib Base.QcLemmas Base.Loops Model.MRecon Spec.ReconSpec.
Import ListNotations.
Local Open Scope Qc_scope.

Lemma pos_nonneg : forall x, 0 <= pos x.
Proof. intros. unfold pos. destruct (qltb_spec x 0); auto. apply Qcle_refl. Qed.
Lemma pos_id : forall x, 0 <= x -> pos x = x.
Proof. intros. unfold pos. destruct (qltb_spec x 0); auto. exfalso; qclra. Qed.
Lemma pos_nonpos : forall x, x <= 0 -> pos x = 0.
Proof. intros. unfold pos. destruct (qltb_spec x 0); auto. qclra. Qed.

(** clip to zero *)
Lemma clip_tab : forall n w, clip (tab n w) n 0 = Ok (tab n (fun i => pos (w i))).
Proof.
  intros. unfold clip. apply for_tab. intros i h Hi Hh.
  rewrite get_tab by auto. simpl. rewrite <- (Hh i) by lia. unfold pos.
  destruct (qltb (h i) 0) eqn:E.
  - apply set_tab. auto.
  - f_equal. apply tab_ext. intros k Hk. destruct (Nat.eqb_spec k i); subst; auto.
Qed.

Lemma sum_tab : forall n w, sum (tab n w) n = Ok (sumn n w).
Proof.
  intros. unfold sum. rewrite (for_accumulate n w).
  - f_equal. ring.
  - intros. rewrite get_tab by auto. reflexivity.
Qed.

Lemma find_difference_tab : forall n d r p,
  find_difference_profile (tab n d) (tab n r) (tab n p) n = Ok (tab n (fun k => p k - r k)).
Proof.
  intros. unfold find_difference_profile. apply for_tab. intros i h Hi Hh.
  rewrite !get_tab by auto. simpl. apply set_tab. auto.
Qed.

Lemma discrepancy_tab : forall sqrt nprof nbins d, (0 < nprof * nbins)%nat ->
  discrepancy sqrt (tab (nprof * nbins) (fl nbins d)) nprof nbins =
  Ok (sqrt (sumn nprof (fun j => sumn nbins (fun b => d j b * d j b)) / qn (nprof * nbins))).
Proof.
  intros. unfold discrepancy.
  rewrite (for_accumulate (nprof * nbins) (fl nbins (fun j b => d j b * d j b))).
  - cbn [bind]. rewrite qdiv_ok by (apply Qclt_ne, qn_pos; auto). cbn [bind].
    rewrite sumn_fl. replace (0 + _) with (sumn nprof (fun j => sumn nbins (fun b => d j b * d j b))) by ring.
    reflexivity.
  - intros. rewrite get_tab by auto. reflexivity.
Qed.

Lemma compensate_tab : forall nprof nbins d r,
  compensate_particle_amount (tab (nprof * nbins) d) (tab (nprof * nbins) r) nprof nbins =
  Ok (tab (nprof * nbins) (fun k => d k * r k)).
Proof.
  intros. unfold compensate_particle_amount.
  rewrite (for_nested _ (fun k diff => x <- get diff (zi k);; r0 <- get (tab (nprof * nbins) r) (zi k);;
      set diff (zi k) (x * r0))).
  apply for_tab. intros i h Hi Hh. rewrite !get_tab by auto. simpl. rewrite (Hh i) by lia.
  apply set_tab. auto.
Qed.

Lemma histogram_count : forall npart bin j b, histogram npart bin (fun _ => 1) j b = qn (count npart bin j b).
Proof.
  intros. unfold histogram, count. induction npart as [|n IHn]; auto.
  cbn [sumn]. rewrite IHn by auto. rewrite seq_S, filter_app, app_length, qn_add. cbn [filter plus].
  destruct (Nat.eqb (bin n j) b); reflexivity.
Qed.

Section Arrays.
Variables npart nprof nbins : nat.
Variable bin : nat -> nat -> nat.
Hypothesis Hbin : forall i j, (i < npart)%nat -> (j < nprof)%nat -> (bin i j < nbins)%nat.

Definition xpl : list Z := tab (npart * nprof) (fl nprof (fun i j => zi (bin i j))).
Definition fpl : list Z := tab (npart * nprof) (fl nprof (fun i j => zi (j * nbins + bin i j))).

Lemma flat_idx : forall i j, (i < npart)%nat -> (j < nprof)%nat -> (j * nbins + bin i j < nprof * nbins)%nat.
Proof. intros. apply flat_lt; auto. Qed.

Lemma create_flat_points_tab : create_flat_points xpl npart nprof nbins = Ok fpl.
Proof.
  unfold create_flat_points, xpl, fpl.
  assert (E : for_ 0 npart (fun i fp => for_ 0 nprof (fun j fp =>
      x <- get fp (zi (i * nprof + j)) ;;
      set fp (zi (i * nprof + j)) (x + zi nbins * zi j)%Z) fp)
      (tab (npart * nprof) (fl nprof (fun i j => zi (bin i j)))) =
    for_ 0 npart (fun i fp => for_ 0 nprof (fun j fp =>
      (fun k fp => x <- get fp (zi k) ;;
      set fp (zi k) (x + zi nbins * zi (k mod nprof))%Z) (i * nprof + j)%nat fp) fp)
      (tab (npart * nprof) (fl nprof (fun i j => zi (bin i j))))).
  { apply for_ext. intros i s Hi. apply for_ext. intros j s' Hj.
    assert (M : ((i * nprof + j) mod nprof = j)%nat).
    { rewrite (Nat.add_comm (i * nprof) j). rewrite Nat.mod_add by lia. apply Nat.mod_small; lia. }
    cbn beta. rewrite M. reflexivity. }
  etransitivity; [exact E|]. rewrite for_nested. apply for_tab.
  intros k h Hk Hh. rewrite get_tab by auto. cbn [bind]. rewrite (Hh k) by lia.
  rewrite set_tab by auto. f_equal. apply tab_ext. intros k' Hk'.
  destruct (Nat.eqb_spec k' k); auto. unfold fl. lia.
Qed.

Lemma back_project_tab : forall w f,
  back_project (tab npart w) fpl (tab (nprof * nbins) (fl nbins f)) npart nprof =
  Ok (tab npart (fun i => w i + gather nprof bin f i)).
Proof.
  intros. unfold back_project.
  rewrite (for_scatter2 npart w npart nprof (fun i j => i) (fun i j => f j (bin i j))).
  - f_equal. apply tab_ext. intros i Hi. f_equal. unfold gather.
    rewrite <- (sumn_single npart (fun i => sumn nprof (fun j => f j (bin i j))) i) by auto.
    apply sumn_ext. intros k Hk. destruct (Nat.eqb k i); auto. apply sumn_zero. auto.
  - intros i j h Hi Hj. unfold fpl. rewrite get_tab by (apply flat_lt; auto). cbn [bind].
    rewrite fl_at by auto. rewrite get_tab by (apply flat_idx; auto). cbn [bind].
    rewrite get_tab by auto. cbn [bind]. rewrite fl_at by auto.
    rewrite set_tab by auto. reflexivity.
Qed.

Lemma project_tab : forall w f,
  project (tab (nprof * nbins) (fl nbins f)) fpl (tab npart w) npart nprof =
  Ok (tab (nprof * nbins) (fl nbins (fun j b => f j b + histogram npart bin w j b))).
Proof.
  intros. unfold project.
  rewrite (for_scatter2 (nprof * nbins) _ npart nprof (fun i j => (j * nbins + bin i j)%nat) (fun i j => w i)).
  - f_equal. apply tab_ext. intros k Hk. destruct (flat_of _ _ _ Hk) as [J [b [HJ [Hb ->]]]].
    rewrite !fl_at by auto. f_equal. unfold histogram. apply sumn_ext. intros i Hi.
    transitivity (sumn nprof (fun j => if Nat.eqb j J then (if Nat.eqb (bin i j) b then w i else 0) else 0)).
    + apply sumn_ext. intros j Hj. destruct (Nat.eqb_spec (j * nbins + bin i j) (J * nbins + b)) as [E|E].
      * apply flat_eq in E; auto. destruct E as [-> ->]. rewrite !Nat.eqb_refl. auto.
      * destruct (Nat.eqb_spec j J); auto. destruct (Nat.eqb_spec (bin i j) b); auto. congruence.
    + rewrite sumn_single by auto. auto.
  - intros i j h Hi Hj. unfold fpl. rewrite get_tab by (apply flat_lt; auto). cbn [bind].
    rewrite fl_at by auto. rewrite get_tab by auto. cbn [bind].
    rewrite get_tab by (apply flat_idx; auto). cbn [bind].
    rewrite set_tab by (apply flat_idx; auto). reflexivity.
Qed.

Lemma count_tab :
  count_particles_in_bin (repeat 0 (nprof * nbins)) xpl nprof npart nbins =
  Ok (tab (nprof * nbins) (fl nbins (fun j b => qn (count npart bin j b)))).
Proof.
  assert (E := project_tab (fun _ => 1) (fun _ _ => 0)).
  match type of E with ?a = _ => transitivity a; [|rewrite E] end.
  - unfold count_particles_in_bin, project. rewrite repeat_tab.
    change (tab (nprof * nbins) (fun _ => 0)) with (tab (nprof * nbins) (fl nbins (fun _ _ => 0))).
    apply for_ext. intros i s Hi. apply for_ext. intros j s' Hj.
    unfold xpl, fpl. rewrite !get_tab by (apply flat_lt; lia). cbn [bind]. rewrite !fl_at by lia.
    rewrite get_tab by lia. cbn [bind].
    replace (zi j * zi nbins + zi (bin i j))%Z with (zi (j * nbins + bin i j)) by lia. reflexivity.
  - f_equal. apply tab_fl_ext. intros. rewrite histogram_count. ring.
Qed.

Lemma max_1d_nat : forall n (f : nat -> nat),
  max_1d (tab n (fun k => qn (f k))) n = Ok (qn (list_max (map f (seq 0 n)))).
Proof.
  intros. unfold max_1d.
  apply (for_steps' _ n _ (fun i => qn (list_max (map f (seq 0 i))))); auto.
  intros i Hi. rewrite get_tab by auto. cbn [bind]. f_equal.
  rewrite seq_S, map_app, list_max_app. simpl. rewrite Nat.max_0_r.
  destruct (qltb_spec (qn (list_max (map f (seq 0 i)))) (qn (f i))) as [H|H].
  - apply (proj1 (qn_lt _ _)) in H. f_equal. lia.
  - apply (proj1 (qn_le _ _)) in H. f_equal. lia.
Qed.

Lemma list_max_flat : forall n m (f : nat -> nat -> nat),
  list_max (map (fl m f) (seq 0 (n * m))) =
  list_max (map (fun j => list_max (map (f j) (seq 0 m))) (seq 0 n)).
Proof.
  intros. change (map (fl m f) (seq 0 (n * m))) with (tab (n * m) (fl m f)).
  rewrite <- concat_tab. unfold tab at 1. induction (seq 0 n); auto.
  simpl. rewrite list_max_app. f_equal. auto.
Qed.

Lemma list_max_ge : forall l x, In x l -> (x <= list_max l)%nat.
Proof. induction l; simpl; intros; [tauto|]. destruct H; [subst|apply IHl in H]; lia. Qed.

Lemma count_le_max : forall j b, (j < nprof)%nat -> (b < nbins)%nat ->
  (count npart bin j b <= max_count npart nprof nbins bin)%nat.
Proof.
  intros. unfold max_count.
  transitivity (list_max (map (count npart bin j) (seq 0 nbins))).
  - apply list_max_ge. apply in_map. apply in_seq. lia.
  - apply list_max_ge.
    apply (in_map (fun j => list_max (map (count npart bin j) (seq 0 nbins)))). apply in_seq. lia.
Qed.

Lemma max_count_pos : (0 < npart)%nat -> (0 < nprof)%nat -> (1 <= max_count npart nprof nbins bin)%nat.
Proof.
  intros. pose proof (count_le_max 0 (bin 0 0)%nat H0 (Hbin 0 0 H H0)).
  assert (1 <= count npart bin 0 (bin 0 0))%nat; [|lia].
  unfold count. destruct npart; [lia|]. simpl. rewrite Nat.eqb_refl. simpl. lia.
Qed.

Lemma reciprocal_tab :
  reciprocal_particles (repeat 0 (nprof * nbins)) xpl nbins nprof npart =
  Ok (tab (nprof * nbins) (fl nbins (compensation npart nprof nbins bin))).
Proof.
  unfold reciprocal_particles. rewrite count_tab. cbn [bind].
  change (tab (nprof * nbins) (fl nbins (fun j b => qn (count npart bin j b))))
    with (tab (nprof * nbins) (fun k => qn (fl nbins (count npart bin) k))).
  rewrite max_1d_nat. cbn [bind]. rewrite list_max_flat.
  change (list_max (map (fun j => list_max (map (count npart bin j) (seq 0 nbins))) (seq 0 nprof)))
    with (max_count npart nprof nbins bin).
  rewrite (for_tab _ (nprof * nbins) _ (fun k => qn (Nat.max 1 (fl nbins (count npart bin) k)))).
  - cbn [bind].
    rewrite (for_nested _ (fun k rparts => x <- get rparts (zi k);;
       q <- qdiv (qz (qtrunc (qn (max_count npart nprof nbins bin)))) x;; set rparts (zi k) q)).
    apply for_tab. intros i h Hi Hh. rewrite get_tab by auto. cbn [bind]. rewrite (Hh i) by lia.
    rewrite qdiv_ok by (apply Qclt_ne, qn_pos; lia). cbn [bind].
    unfold qn at 1. rewrite qtrunc_qz. rewrite set_tab by auto. reflexivity.
  - intros i h Hi Hh. rewrite get_tab by auto. cbn [bind]. rewrite (Hh i) by lia.
    destruct (qeqb_spec (qn (fl nbins (count npart bin) i)) 0) as [E|E].
    + rewrite set_tab by auto. f_equal. apply tab_ext. intros k Hk. destruct (Nat.eqb_spec k i); auto.
      rewrite <- qn_0 in E. apply (proj1 (qn_inj _ _)) in E. rewrite E. reflexivity.
    + f_equal. apply tab_ext. intros k Hk. destruct (Nat.eqb_spec k i); auto. subst.
      rewrite (Hh i) by lia.
      assert (fl nbins (count npart bin) i <> 0)%nat. { intros H. apply E. rewrite H. reflexivity. }
      f_equal. lia.
Qed.
End Arrays.

(** normalize *)
Lemma normalize_tab : forall nprof nbins f,
  (forall j, (j < nprof)%nat -> 0 < sumn nbins (f j)) -> (0 < nprof)%nat ->
  normalize (tab (nprof * nbins) (fl nbins f)) nprof nbins =
  Ok (tab (nprof * nbins) (fl nbins (row_normalised nbins f))).
Proof.
  intros nprof nbins f Hpos Hn. unfold normalize.
  set (st := fun i => (tab (nprof * nbins) (fun k => if (k <? i * nbins)%nat then fl nbins (row_normalised nbins f) k
                                                  else fl nbins f k), sumn i (fun j => sumn nbins (f j)), true)).
  rewrite (for_steps' _ nprof _ st _ (st nprof)); auto.
  - unfold st. cbn [bind].
    destruct (qleb_spec (sumn nprof (fun j => sumn nbins (f j))) 0) as [H|H].
    + exfalso. assert (0 < sumn nprof (fun j => sumn nbins (f j))); [|qclra].
      apply sumn_pos_ex; [intros; apply Qclt_le_weak; auto|]. exists 0%nat. auto.
    + f_equal. apply tab_ext. intros k Hk. destruct (Nat.ltb_spec k (nprof * nbins)); auto. lia.
  - intros i Hi. unfold st at 1. cbn [bind].
    rewrite (for_accumulate nbins (f i)).
    + cbn [bind]. replace (0 + sumn nbins (f i)) with (sumn nbins (f i)) by ring.
      destruct (qeqb_spec (sumn nbins (f i)) 0) as [E|E].
      { exfalso. specialize (Hpos i Hi). rewrite E in Hpos. qclra. }
      rewrite (for_steps' _ nbins _ (fun j => tab (nprof * nbins) (fun k => if (k <? i * nbins + j)%nat
                  then fl nbins (row_normalised nbins f) k else fl nbins f k)) _
                 (tab (nprof * nbins) (fun k => if (k <? S i * nbins)%nat
                  then fl nbins (row_normalised nbins f) k else fl nbins f k))).
      * cbn [bind]. reflexivity.
      * apply tab_ext. intros. rewrite Nat.add_0_r. auto.
      * apply tab_ext. intros. replace (S i * nbins)%nat with (i * nbins + nbins)%nat by lia. auto.
      * intros j Hj. rewrite get_tab by (apply flat_lt; auto). cbn [bind].
        destruct (Nat.ltb_spec (i * nbins + j) (i * nbins + j)); [lia|].
        rewrite set_tab by (apply flat_lt; auto). f_equal. apply tab_ext. intros k Hk.
        destruct (Nat.eqb_spec k (i * nbins + j)).
        { subst. destruct (Nat.ltb_spec (i * nbins + j) (i * nbins + S j)); [|lia].
          rewrite !fl_at by auto. reflexivity. }
        destruct (Nat.ltb_spec k (i * nbins + j)); destruct (Nat.ltb_spec k (i * nbins + S j)); auto; lia.
    + intros j s Hj. rewrite get_tab by (apply flat_lt; auto). cbn [bind].
      destruct (Nat.ltb_spec (i * nbins + j) (i * nbins)); [lia|]. rewrite fl_at by auto. reflexivity.
Qed.
