(** reconstruct_cuda and reconstruct_cupy compute the iteration of the
    specification. *)
From Coq Require Import List ZArith Bool Lia Arith QArith Qcanon.
From Verif Require Import Base.Res Base.ResLemmas Base.QcLib Base.QcLemmas Base.Loops Model.MRecon Model.MOmp Model.MGpu
  Spec.ReconSpec Proof.POmp Proof.PRecon Proof.PRecon2 Proof.PHybrid Proof.PGpu Proof.PGpu2.
Import ListNotations.
Local Open Scope Qc_scope.

Section Ends.
Context {A : Type}.
Variable inside : loc -> bool.
Lemma ends_done : forall (x : res A) m r, host_ends inside (Done x) m r -> r = x.
Proof. intros x m r H. inversion H; subst; auto. Qed.
Lemma ends_launch : forall ps (k : host A) m r, host_ends inside (Launch ps k) m r -> ~ gfault inside ps m ->
  exists m1, gends ps m m1 /\ host_ends inside k m1 r.
Proof. intros ps k m r H N. inversion H; subst; [eauto|contradiction]. Qed.
Lemma ends_load : forall a n (k : _ -> host A) m r, host_ends inside (Fetch a n k) m r -> host_ends inside (k (load m a n)) m r.
Proof. intros a n k m r H. inversion H; subst; auto. Qed.
Lemma ends_store : forall a l (k : host A) m r, host_ends inside (Store a l k) m r -> host_ends inside k (fill_r m a 0 l) r.
Proof. intros a n k m r H. inversion H; subst; auto. Qed.
Lemma ends_load_i : forall a n (k : _ -> host A) m r, host_ends inside (FetchI a n k) m r -> host_ends inside (k (load_i m a n)) m r.
Proof. intros a n k m r H. inversion H; subst; auto. Qed.
Lemma ends_store_i : forall a l (k : host A) m r, host_ends inside (StoreI a l k) m r -> host_ends inside k (fill_i m a 0 l) r.
Proof. intros a n k m r H. inversion H; subst; auto. Qed.
Lemma ends_fresh : forall a (k : host A) m r, host_ends inside (Fresh a k) m r ->
  exists m1, except a m m1 /\ host_ends inside k m1 r.
Proof. intros a k m r H. inversion H; subst; eauto. Qed.
End Ends.

Lemma gpu_normalize_tab : forall nprof nbins f,
  (forall j, (j < nprof)%nat -> 0 < sumn nbins (f j)) -> (0 < nprof)%nat ->
  gpu_normalize (tab (nprof * nbins) (fl nbins f)) nprof nbins =
  Ok (tab (nprof * nbins) (fl nbins (row_normalised nbins f))).
Proof.
  intros nprof nbins f Hpos Hn. unfold gpu_normalize. rewrite chunk_tab.
  assert (E : map qsum (T nprof nbins f) = tab nprof (fun j => sumn nbins (f j))).
  { unfold T. rewrite map_tab. apply tab_ext. intros. symmetry. apply sumn_qsum. }
  rewrite E, <- sumn_qsum.
  destruct (qleb_spec (sumn nprof (fun j => sumn nbins (f j))) 0) as [H|H].
  { exfalso. assert (0 < sumn nprof (fun j => sumn nbins (f j))); [|qclra].
    apply sumn_pos_ex; [intros; apply Qclt_le_weak; auto|]. exists 0%nat. auto. }
  assert (X : existsb (fun s => qeqb s 0) (tab nprof (fun j => sumn nbins (f j))) = false).
  { destruct (existsb _ _) eqn:X; auto. apply existsb_exists in X. destruct X as (s & Hs & E0).
    apply in_tab in Hs. destruct Hs as (j & Hj & <-). apply qeqb_true in E0. specialize (Hpos j Hj). rewrite E0 in Hpos. qclra. }
  rewrite X. f_equal. unfold T. rewrite map_tab.
  transitivity (List.concat (T nprof nbins (row_normalised nbins f))); [|apply concat_T].
  f_equal. apply tab_ext. intros j Hj. rewrite map_tab. apply tab_ext. intros b Hb. unfold row_normalised.
  rewrite sumn_qsum. reflexivity.
Qed.
Lemma gpu_discrepancy_tab : forall sqrt nprof nbins d, (0 < nprof * nbins)%nat ->
  gpu_discrepancy sqrt (tab (nprof * nbins) (fl nbins d)) nprof nbins =
  Ok (sqrt (sumn nprof (fun j => sumn nbins (fun b => d j b * d j b)) / qn (nprof * nbins))).
Proof.
  intros. unfold gpu_discrepancy. rewrite map_tab, <- sumn_qsum.
  change (fun i => fl nbins d i * fl nbins d i) with (fl nbins (fun j b => d j b * d j b)). rewrite sumn_fl.
  rewrite qdiv_ok by (apply Qclt_ne, qn_pos; auto). reflexivity.
Qed.
Lemma cp_max_tab : forall n (f : nat -> nat), (0 < n)%nat -> cp_max (tab n (fun k => qn (f k))) = Ok (qn (list_max (map f (seq 0 n)))).
Proof.
  intros n f H. rewrite <- (@map_tab nat Qc qn). change (map f (seq 0 n)) with (tab n f).
  assert (L : length (tab n f) = n) by apply tab_length.
  destruct (tab n f) as [|x r]; simpl in L; [lia|]. cbn [map cp_max]. rewrite (fold_qmax 1 1) by lia. reflexivity.
Qed.

Section Facts.
Variables npart nprof nbins : nat.
Variable bin : nat -> nat -> nat.
Variable prof : nat -> nat -> Qc.
Variable sqrt : Qc -> Qc.
Hypothesis Hbin : forall i j, (i < npart)%nat -> (j < nprof)%nat -> (bin i j < nbins)%nat.
Hypothesis Hp : (0 < nprof)%nat.
Hypothesis Hb : (0 < nbins)%nat.
Notation W := (weights_after npart nprof nbins bin prof true).
Notation RA := (recreated_after npart nprof nbins bin prof true).
Notation IT := (iterate npart nprof nbins bin prof true).
Notation CO := (compensation npart nprof nbins bin).
Notation rmsv := (rms nprof nbins prof sqrt).
Notation all := (nprof * nbins)%nat.
Notation pl := (tab all (fl nbins prof)).

Definition good (k : nat) : Prop := 0 < total npart (W k).
Definition first_bad (k : nat) : Prop := ~ good k /\ forall k', (k' < k)%nat -> good k'.
Definition discr_upto (N k : nat) : list Qc := tab (S N) (fun i => if (i <? k)%nat then rmsv (RA i) else 0).

Lemma gpu_check_tab : forall k, gpu_check (tab npart (W k)) = if qltb 0 (total npart (W k)) then Ok tt else Fail (Raised RuntimeError).
Proof.
  intros. unfold gpu_check. rewrite <- sumn_qsum. fold (total npart (W k)).
  destruct (qleb_spec (total npart (W k)) 0); destruct (qltb_spec 0 (total npart (W k))); auto; exfalso; qclra.
Qed.
Lemma recip_value : (0 < npart)%nat -> forall k, (k < all)%nat ->
  qn (max_count npart nprof nbins bin) / (if qeqb (qn (fl nbins (count npart bin) k)) 0 then 1 else qn (fl nbins (count npart bin) k)) =
  fl nbins CO k.
Proof.
  intros Hn k Hk. unfold fl at 3, compensation. f_equal.
  fold (fl nbins (count npart bin) k).
  destruct (qeqb_spec (qn (fl nbins (count npart bin) k)) 0) as [E|E].
  - rewrite <- qn_0 in E. apply (proj1 (qn_inj _ _)) in E. rewrite E. reflexivity.
  - f_equal. assert (fl nbins (count npart bin) k <> 0)%nat; [|lia]. intros H'. apply E. rewrite H'. reflexivity.
Qed.
Lemma discr_set : forall N k, (k <= N)%nat -> set (discr_upto N k) (zi k) (rmsv (RA k)) = Ok (discr_upto N (S k)).
Proof.
  intros N k H. unfold discr_upto. rewrite set_tab by lia. f_equal. apply tab_ext. intros i Hi.
  destruct (Nat.eqb_spec i k) as [E|N']; destruct (Nat.ltb_spec i (S k)); destruct (Nat.ltb_spec i k); try lia; subst; auto.
Qed.

(** ** reconstruct_cuda *)
Section Cuda.
Variable block : nat.
Hypothesis Hblock : (0 < block)%nat.
Hypothesis Hn : (0 < npart)%nat.
Notation inside := (allocated nbins npart nprof).
Notation fpf := (fl nprof (fun i j => zi (j * nbins + bin i j))).

Definition gstate (m : mem Qc) (w : nat -> Qc) (R : nat -> nat -> Qc) : Prop :=
  hasi m Points (npart * nprof) fpf /\ has m Profs all (fl nbins prof) /\ has m Rparts all (fl nbins CO) /\
  has m Weights npart w /\ has m Rec all (fl nbins R).

Lemma compare_ends : forall A (kont : list Qc -> Qc -> host A) k m r, gstate m (W k) (snd (IT k)) -> good k ->
  host_ends inside (gpu_compare sqrt block nbins npart nprof kont) m r ->
  exists m1, gstate m1 (W k) (RA k) /\ has m1 Diff all (fl nbins (fun j b => prof j b - RA k j b)) /\
    host_ends inside (kont (tab all (fl nbins (RA k))) (rmsv (RA k))) m1 r.
Proof.
  intros A kont k m r (SP & SF & SC & SW & SR) G H. unfold gpu_compare in H.
  destruct (project_kernel block nbins npart nprof bin Hblock Hbin m (W k) _ SP SW SR) as [F V].
  apply ends_launch in H; auto. destruct H as (m1 & E1 & H). destruct (V m1 E1) as [R1 X1]. clear F V.
  apply ends_load in H. rewrite (load_has _ _ _ _ R1) in H.
  rewrite gpu_normalize_tab in H; auto.
  2:{ intros j Hj. apply (prenorm_pos npart nprof nbins bin prof Hbin true k j); auto. }
  cbn [try] in H. apply ends_store in H.
  change (row_normalised nbins (fun j b => snd (IT k) j b + histogram npart bin (W k) j b)) with (RA k) in H.
  destruct (fill_r_tab m1 Rec all (fl nbins (RA k))) as [R2 X2]. set (m2 := fill_r m1 Rec 0 _) in *.
  apply ends_fresh in H. destruct H as (m3 & X3 & H).
  assert (SF3 : has m3 Profs all (fl nbins prof)) by (repeat (eapply has_except; [eassumption|discriminate|]); auto).
  assert (SR3 : has m3 Rec all (fl nbins (RA k))) by (repeat (eapply has_except; [eassumption|discriminate|]); auto).
  destruct (difference_kernel block nbins npart nprof Hblock m3 _ _ SF3 SR3) as [F V].
  apply ends_launch in H; auto. destruct H as (m4 & E4 & H). destruct (V m4 E4) as [D4 X4]. clear F V.
  apply ends_load in H. rewrite (load_has _ _ _ _ D4) in H.
  change (fun k0 => fl nbins prof k0 - fl nbins (RA k) k0) with (fl nbins (fun j b => prof j b - RA k j b)) in H.
  rewrite gpu_discrepancy_tab in H by nia. cbn [try] in H.
  exists m4. split; [|split; [exact D4|exact H]].
  repeat split.
  - repeat (eapply hasi_except; [eassumption|]); auto.
  - eapply has_except; [eassumption|discriminate|]; auto.
  - repeat (eapply has_except; [eassumption|discriminate|]); auto.
  - repeat (eapply has_except; [eassumption|discriminate|]); auto.
  - eapply has_except; [eassumption|discriminate|]; auto.
Qed.

Lemma loop_ends : forall A (kont : list Qc -> host A) N n k m r, (k + n = N)%nat -> gstate m (W k) (snd (IT k)) ->
  (forall k', (k' <= k)%nat -> good k') ->
  host_ends inside (gpu_loop sqrt block nbins npart nprof n k (discr_upto N k) kont) m r ->
  (exists m1, gstate m1 (W N) (snd (IT N)) /\ (forall k', (k' <= N)%nat -> good k') /\ host_ends inside (kont (discr_upto N N)) m1 r) \/
  (exists k', (k' <= N)%nat /\ first_bad k' /\ r = Fail (Raised RuntimeError)).
Proof.
  intros A kont N. induction n as [|n IH]; intros k m r E S0 G H; cbn [gpu_loop] in H.
  - assert (k = N) by lia. subst k. left. eauto.
  - assert (Gk : good k) by (apply G; lia).
    destruct (compare_ends _ _ k m r S0 Gk H) as (m1 & S1 & D1 & H1). clear H.
    rewrite discr_set in H1 by lia. cbn [try] in H1.
    destruct S1 as (SP & SF & SC & SW & SR).
    destruct (compensate_kernel block nbins npart nprof Hblock m1 _ _ D1 SC) as [F V].
    apply ends_launch in H1; auto. destruct H1 as (m2 & E2 & H). destruct (V m2 E2) as [D2 X2]. clear F V.
    assert (SP2 := hasi_except _ _ _ _ _ _ X2 SP).
    assert (SW2 : has m2 Weights npart (W k)) by (eapply has_except; [eassumption|discriminate|]; auto).
    change (fun k0 => fl nbins (fun j b => prof j b - RA k j b) k0 * fl nbins CO k0)
      with (fl nbins (fun j b => (prof j b - RA k j b) * CO j b)) in D2.
    destruct (back_project_kernel block nbins npart nprof bin Hblock Hbin Diff m2 _ _ (or_intror eq_refl) SP2 SW2 D2) as [F V].
    apply ends_launch in H; auto. destruct H as (m3 & E3 & H). destruct (V m3 E3) as [W3 X3]. clear F V.
    destruct (clip_kernel block nbins npart nprof Hblock m3 _ W3) as [F V].
    apply ends_launch in H; auto. destruct H as (m4 & E4 & H). destruct (V m4 E4) as [W4 X4]. clear F V.
    change (fun i => pos (W k i + gather nprof bin (fun j b => (prof j b - RA k j b) * CO j b) i))
      with (next_weights npart nprof nbins bin prof (RA k) (W k)) in W4. rewrite <- W_S in W4.
    apply ends_load in H. rewrite (load_has _ _ _ _ W4) in H. rewrite gpu_check_tab in H.
    destruct (qltb_spec 0 (total npart (W (S k)))) as [P|P]; cbn [try] in H.
    + apply (IH (S k) m4 r); auto; [lia| |].
      * rewrite R_S. repeat split; auto.
        -- repeat (eapply hasi_except; [eassumption|]); auto.
        -- repeat (eapply has_except; [eassumption|discriminate|]); auto.
        -- repeat (eapply has_except; [eassumption|discriminate|]); auto.
        -- repeat (eapply has_except; [eassumption|discriminate|]); auto.
      * intros k' Hk'. destruct (Nat.eq_dec k' (S k)) as [->|]; [exact P|apply G; lia].
    + right. exists (S k). split; [lia|]. apply ends_done in H. split; auto. split.
      * unfold good. intros C. qclra.
      * intros k' Hk'. apply G. lia.
Qed.

Theorem cuda_ends : forall N m r,
  host_ends inside (reconstruct_cuda sqrt block nbins npart nprof (xpl npart nprof bin) pl N) m r ->
  ((forall k, (k <= N)%nat -> good k) /\
   r = Ok (tab npart (W N), tab (S N) (fun i => rmsv (RA i)), tab all (fl nbins (RA N)))) \/
  (exists k, (k <= N)%nat /\ first_bad k /\ r = Fail (Raised RuntimeError)).
Proof.
  intros N m r H. unfold reconstruct_cuda in H. rewrite !repeat_tab in H.
  apply ends_store_i in H. destruct (fill_i_tab m (Xp 0) (npart * nprof) (fl nprof (fun i j => zi (bin i j)))) as [I1 X1].
  change (tab (npart * nprof) (fl nprof (fun i j => zi (bin i j)))) with (xpl npart nprof bin) in *.
  set (m1 := fill_i m (Xp 0) 0 _) in *. clearbody m1.
  apply ends_store in H. destruct (fill_r_tab m1 Weights npart (fun _ => 0)) as [I2 X2]. set (m2 := fill_r m1 _ _ _) in *. clearbody m2.
  apply ends_store in H. destruct (fill_r_tab m2 Profs all (fl nbins prof)) as [I3 X3]. set (m3 := fill_r m2 _ _ _) in *. clearbody m3.
  apply ends_store in H. destruct (fill_r_tab m3 Rec all (fl nbins (fun _ _ => 0))) as [I4 X4].
  change (tab all (fl nbins (fun _ _ => 0))) with (tab all (fun _ => 0)) in *.
  set (m4 := fill_r m3 _ _ _) in *. clearbody m4.
  apply ends_store in H. destruct (fill_r_tab m4 Rparts all (fl nbins (fun _ _ => 0))) as [I5 X5].
  change (tab all (fl nbins (fun _ _ => 0))) with (tab all (fun _ => 0)) in *.
  set (m5 := fill_r m4 _ _ _) in *. clearbody m5.
  assert (J5 : hasi m5 (Xp 0) (npart * nprof) (fl nprof (fun i j => zi (bin i j)))) by (repeat (eapply hasi_except; [eassumption|]); auto).
  destruct (count_kernel block nbins npart nprof bin Hblock Hbin m5 _ J5 I5) as [F V].
  apply ends_launch in H; auto. destruct H as (m6 & E6 & H). destruct (V m6 E6) as [I6 X6]. clear F V.
  apply (has_ext _ _ _ _ (fun k => qn (fl nbins (count npart bin) k))) in I6.
  2:{ intros k Hk. unfold fl. rewrite histogram_count. ring. }
  apply ends_load in H. rewrite (load_has _ _ _ _ I6) in H. rewrite cp_max_tab in H by nia. cbn [try] in H.
  rewrite list_max_flat in H. fold (max_count npart nprof nbins bin) in H.
  destruct (reciprocal_kernel block nbins npart nprof Hblock m6 _ (qn (max_count npart nprof nbins bin)) I6) as [F V].
  apply ends_launch in H; auto. destruct H as (m7 & E7 & H). destruct (V m7 E7) as [I7 X7]. clear F V.
  apply (has_ext _ _ _ _ (fl nbins CO)) in I7; [|apply recip_value; auto].
  apply ends_load_i in H.
  assert (J7 : hasi m7 (Xp 0) (npart * nprof) (fl nprof (fun i j => zi (bin i j)))) by (repeat (eapply hasi_except; [eassumption|]); auto).
  rewrite (load_i_has _ _ _ _ J7) in H.
  apply ends_store_i in H. destruct (fill_i_tab m7 Points (npart * nprof) (fl nprof (fun i j => zi (bin i j)))) as [I8 X8].
  set (m8 := fill_i m7 _ _ _) in *. clearbody m8.
  destruct (flat_points_kernel block nbins npart nprof bin Hblock m8 I8) as [F V].
  apply ends_launch in H; auto. destruct H as (m9 & E9 & H). destruct (V m9 E9) as [I9 X9]. clear F V.
  assert (P9 : has m9 Profs all (fl nbins prof)).
  { repeat (eapply has_excepti; [eassumption|]). repeat (eapply has_except; [eassumption|discriminate|]). auto. }
  assert (W9 : has m9 Weights npart (fun _ => 0)).
  { repeat (eapply has_excepti; [eassumption|]). repeat (eapply has_except; [eassumption|discriminate|]). auto. }
  destruct (back_project_kernel block nbins npart nprof bin Hblock Hbin Profs m9 _ _ (or_introl eq_refl) I9 W9 P9) as [F V].
  apply ends_launch in H; auto. destruct H as (m10 & E10 & H). destruct (V m10 E10) as [I10 X10]. clear F V.
  destruct (clip_kernel block nbins npart nprof Hblock m10 _ I10) as [F V].
  apply ends_launch in H; auto. destruct H as (m11 & E11 & H). destruct (V m11 E11) as [I11 X11]. clear F V.
  apply (has_ext _ _ _ _ (W 0)) in I11; [|intros i Hi; rewrite W_0; f_equal; ring].
  apply ends_load in H. rewrite (load_has _ _ _ _ I11) in H. rewrite gpu_check_tab in H.
  destruct (qltb_spec 0 (total npart (W 0))) as [P|P]; cbn [try] in H.
  2:{ right. exists 0%nat. split; [lia|]. apply ends_done in H. split; auto. split; [|intros; lia].
      unfold good. intros C. qclra. }
  replace (tab (N + 1) (fun _ => 0)) with (discr_upto N 0) in H.
  2:{ unfold discr_upto. rewrite Nat.add_1_r. reflexivity. }
  assert (S11 : gstate m11 (W 0) (snd (IT 0))).
  { repeat split; auto.
    - repeat (eapply hasi_except; [eassumption|]); auto.
    - repeat (eapply has_except; [eassumption|discriminate|]); auto.
    - repeat (eapply has_except; [eassumption|discriminate|]).
      repeat (eapply has_excepti; [eassumption|]). auto.
    - repeat (eapply has_except; [eassumption|discriminate|]).
      repeat (eapply has_excepti; [eassumption|]). repeat (eapply has_except; [eassumption|discriminate|]). auto. }
  apply loop_ends with (N := N) in H; [|lia|exact S11|].
  2:{ intros k' Hk'. replace k' with 0%nat by lia. exact P. }
  destruct H as [(m12 & S12 & G & H)|B]; [left|right; exact B]. split; auto.
  destruct (compare_ends _ _ N m12 r S12 (G N (le_n N)) H) as (m13 & S13 & _ & H').
  rewrite discr_set in H' by lia. cbn [try] in H'. apply ends_load in H'.
  destruct S13 as (_ & _ & _ & SW & _). rewrite (load_has _ _ _ _ SW) in H'.
  apply ends_done in H'. subst r. do 2 f_equal. f_equal. apply tab_ext. intros i Hi.
  destruct (Nat.ltb_spec i (S N)); [auto|lia].
Qed.
End Cuda.
End Facts.
