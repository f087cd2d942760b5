(** The GPU tracking kernels give the table of the CPU routine. *)
From Coq Require Import List ZArith Bool Lia Arith ZifyBool ZifyNat Permutation.
From Verif Require Import Base.Res Base.ResLemmas Model.MTrack Spec.TrackSpec Proof.PTrack Proof.PTrack2.
Import ListNotations.

Lemma flat_inj : forall n q i q' i', i < n -> i' < n -> n * q + i = n * q' + i' -> q = q' /\ i = i'.
Proof.
  intros. assert (q = q') by nia. subst. split; auto; lia.
Qed.

Lemma flat_bound : forall n np q i, i < n -> q < np -> n * q + i < n * np.
Proof. intros. nia. Qed.

Lemma flat_split : forall n np j, j < n * np -> exists q i, q < np /\ i < n /\ j = n * q + i.
Proof.
  intros. assert (0 < n) by (destruct n; lia).
  exists (j / n), (j mod n).
  pose proof (Nat.div_mod j n ltac:(lia)). pose proof (Nat.mod_upper_bound j n ltac:(lia)).
  repeat split; auto; try lia. apply Nat.div_lt_upper_bound; lia.
Qed.

Section Concat.
Context {A : Type}.
Lemma concat_length_shaped : forall (tab : list (list A)) np n,
  shaped tab np n -> length (concat tab) = n * np.
Proof.
  induction tab as [|r tab IH]; intros np n [HL HR].
  - simpl in *. lia.
  - simpl. rewrite app_length. rewrite (HR 0 r eq_refl).
    destruct np; [discriminate|]. rewrite (IH np n); [lia|].
    split; [simpl in HL; lia|]. intros q r' H. apply (HR (S q) r'). exact H.
Qed.

Lemma nth_error_concat : forall (tab : list (list A)) np n q i r,
  shaped tab np n -> nth_error tab q = Some r -> i < n ->
  nth_error (concat tab) (n * q + i) = nth_error r i.
Proof.
  induction tab as [|r0 tab IH]; intros np n q i r [HL HR] Hq Hi.
  - destruct q; discriminate.
  - simpl. pose proof (HR 0 r0 eq_refl) as H0.
    destruct q.
    + simpl in Hq. inversion Hq; subst. rewrite Nat.mul_0_r. simpl.
      apply nth_error_app1. lia.
    + rewrite nth_error_app2 by lia.
      replace (n * S q + i - length r0) with (n * q + i) by lia.
      destruct np; [discriminate|].
      eapply (IH np); eauto. split; [simpl in HL; lia|].
      intros q' r' H. apply (HR (S q') r'). exact H.
Qed.
End Concat.

Section Gpu.
Context {T : Type} (add sub mul : T -> T -> T) (sin : T -> T) (F : params T).
Notation forward := (forward add sub mul sin F).
Notation backward := (backward add sub mul sin F).
Notation ups := (ups add sub mul sin F).
Notation downs := (downs add sub mul sin F).
Variables (m : machine T) (d np n : nat).
Hypothesis Hd : 0 < d.
Hypothesis Hnp : 0 < np.
Variable N : nat.
Hypothesis HN : N = d * (np - 1).
Hypothesis Hm : holds m F N.

Lemma N_div : N / d = np - 1.
Proof. rewrite HN, Nat.mul_comm. apply Nat.div_mul. lia. Qed.

Lemma gpu_up_ok : forall k t s, t + k = N ->
  gpu_up add sub mul sin k m (Z.of_nat d) (Z.of_nat N) (Z.of_nat t) (Z.of_nat (t / d)) (fst s) (snd s)
  = Ok (map (fun q => (Z.of_nat q, ups (q * d - t) t s)) (seq (S (t / d)) (np - 1 - t / d))).
Proof.
  induction k; intros t s E; cbn [gpu_up].
  - assert (t = N) by lia. subst t. rewrite Z.ltb_irrefl, N_div.
    replace (np - 1 - (np - 1)) with 0 by lia. reflexivity.
  - destruct (Z.ltb_spec (Z.of_nat t) (Z.of_nat N)); [|lia].
    destruct (hold_at F m N Hm t ltac:(lia)) as (_&_&_&_&_&Gc).
    destruct (hold_at F m N Hm (S t) ltac:(lia)) as (G1&G2&G3&G4&G5&_).
    rewrite Gc. cbn [bind]. replace (Z.of_nat t + 1)%Z with (Z.of_nat (S t)) by lia.
    rewrite G1, G2, G3, G4, G5. cbn [bind]. rewrite (hold_hr F m N Hm).
    rewrite on_profile_nat by auto. cbn [bind].
    assert (Hn : S t / d <= np - 1) by (rewrite <- N_div; apply Nat.div_le_mono; lia).
    assert (Hs : forall q, S t <= q * d -> ups (q * d - S t) (S t) (forward t s) = ups (q * d - t) t s).
    { intros q Hq. replace (q * d - t) with (S (q * d - S t)) by lia. reflexivity. }
    pose proof (IHk (S t) (forward t s) ltac:(lia)) as IH.
    destruct (Nat.eqb_spec (S t mod d) 0) as [Hh|Hh].
    + pose proof (div_succ_hit t d Hd Hh) as Hdiv. rewrite Hdiv in *.
      replace (Z.of_nat (t / d) + 1)%Z with (Z.of_nat (S (t / d))) by lia.
      change (sub (fst s) (mul (coef F t) (snd s))) with (fst (forward t s)).
      change (add (snd s) (kick_term add sub mul sin (v1 F (S t)) (v2 F (S t)) (ph0 F (S t))
         (ph12 F (S t)) (hr F) (dE F (S t)) (fst (forward t s)))) with (snd (forward t s)).
      rewrite IH. cbn [bind].
      assert (Hq : S t = S (t / d) * d) by (rewrite <- Hdiv; apply mod0_mul; auto).
      replace (np - 1 - t / d) with (S (np - 1 - S (t / d))) by lia.
      cbn [seq map]. f_equal. f_equal.
      * rewrite <- Hq. replace (S t - t) with 1 by lia. simpl ups.
        destruct (forward t s); reflexivity.
      * apply map_ext_in. intros q Hq'. apply in_seq in Hq'. f_equal. apply Hs. nia.
    + pose proof (div_succ_miss t d Hd Hh) as Hdiv. rewrite Hdiv in *.
      change (sub (fst s) (mul (coef F t) (snd s))) with (fst (forward t s)).
      change (add (snd s) (kick_term add sub mul sin (v1 F (S t)) (v2 F (S t)) (ph0 F (S t))
         (ph12 F (S t)) (hr F) (dE F (S t)) (fst (forward t s)))) with (snd (forward t s)).
      rewrite IH. f_equal.
      apply map_ext_in. intros q Hq'. apply in_seq in Hq'. f_equal. apply Hs.
      pose proof (div_spec (S t) d Hd). rewrite Hdiv in *. nia.
Qed.

Lemma gpu_down_ok : forall t s, t <= N ->
  gpu_down add sub mul sin t m (Z.of_nat d) (Z.of_nat t) (Z.of_nat (ceil_div t d)) (fst s) (snd s)
  = Ok (map (fun q => (Z.of_nat q, downs (t - q * d) (q * d) s)) (rev (seq 0 (ceil_div t d)))).
Proof.
  induction t; intros s Ht; cbn [gpu_down].
  - simpl. assert (E : ceil_div 0 d = 0) by (apply ceil_div_unique; auto; lia). rewrite E. reflexivity.
  - destruct (Z.ltb_spec 0 (Z.of_nat (S t))); [|lia].
    destruct (hold_at F m N Hm t ltac:(lia)) as (_&_&_&_&_&Gc).
    destruct (hold_at F m N Hm (S t) ltac:(lia)) as (G1&G2&G3&G4&G5&_).
    rewrite G1, G2, G3, G4, G5. cbn [bind].
    replace (Z.of_nat (S t) - 1)%Z with (Z.of_nat t) by lia.
    rewrite Gc. cbn [bind]. rewrite (hold_hr F m N Hm).
    rewrite on_profile_nat by auto. cbn [bind].
    pose proof (IHt (backward t s) ltac:(lia)) as IH.
    change (sub (snd s) (kick_term add sub mul sin (v1 F (S t)) (v2 F (S t)) (ph0 F (S t))
         (ph12 F (S t)) (hr F) (dE F (S t)) (fst s))) with (snd (backward t s)).
    change (add (fst s) (mul (coef F t) (snd (backward t s)))) with (fst (backward t s)).
    assert (Hs : forall q, q * d <= t ->
      downs (t - q * d) (q * d) (backward t s) = downs (S t - q * d) (q * d) s).
    { intros q Hq. replace (S t - q * d) with ((t - q * d) + 1) by lia.
      rewrite downs_add. replace (q * d + (t - q * d)) with t by lia. reflexivity. }
    pose proof (ceil_div_spec (S t) d Hd) as Hc.
    pose proof (ceil_div_spec t d Hd) as Hc'.
    destruct (Nat.eqb_spec (t mod d) 0) as [Hh|Hh].
    + assert (Hq : t = t / d * d) by (apply mod0_mul; auto).
      assert (Hdiv : ceil_div (S t) d = S (t / d)) by (apply ceil_div_unique; auto; lia).
      assert (Hdiv' : ceil_div t d = t / d) by (apply ceil_div_unique; auto; lia).
      rewrite Hdiv in *. rewrite Hdiv' in *.
      replace (Z.of_nat (S (t / d)) - 1)%Z with (Z.of_nat (t / d)) by lia.
      rewrite IH. cbn [bind]. rewrite seq_S, rev_app_distr. cbn [rev app map].
      rewrite Nat.add_0_l. f_equal. f_equal.
      * rewrite <- Hq. replace (S t - t) with 1 by lia. simpl downs.
        destruct (backward t s); reflexivity.
      * apply map_ext_in. intros q Hq'. apply in_rev, in_seq in Hq'. f_equal. apply Hs. nia.
    + assert (Hdiv : ceil_div (S t) d = ceil_div t d).
      { symmetry. apply ceil_div_unique; auto.
        destruct (Nat.eq_dec (ceil_div (S t) d * d) (t + d)); [|lia].
        exfalso. apply Hh.
        assert (E : t = (ceil_div (S t) d - 1) * d) by nia.
        rewrite E. apply Nat.mod_mul. lia. }
      rewrite Hdiv in *. rewrite IH. f_equal.
      apply map_ext_in. intros q Hq'. apply in_rev, in_seq in Hq'. f_equal. apply Hs. nia.
Qed.

(** ** Writes of one thread, and of a launch *)
Definition sized (a : list T * list T) : Prop :=
  length (fst a) = n * np /\ length (snd a) = n * np.

Lemma apply_writes_ok : forall tid (f : nat -> T * T) Q a,
  tid < n -> NoDup Q -> (forall q, In q Q -> q < np) -> sized a ->
  exists a', apply_writes n tid (map (fun q => (Z.of_nat q, f q)) Q) a = Ok a' /\ sized a' /\
    forall q i, i < n ->
      nth_error (fst a') (n * q + i) =
        (if (Nat.eqb i tid && existsb (Nat.eqb q) Q)%bool then Some (fst (f q)) else nth_error (fst a) (n * q + i)) /\
      nth_error (snd a') (n * q + i) =
        (if (Nat.eqb i tid && existsb (Nat.eqb q) Q)%bool then Some (snd (f q)) else nth_error (snd a) (n * q + i)).
Proof.
  intros tid f Q. induction Q as [|q0 Q IH]; intros a Htid Hnd Hq Hsz.
  - exists a. split; [reflexivity|]. split; auto. intros q i Hi. simpl.
    rewrite andb_false_r. auto.
  - destruct a as [ax ay]. destruct Hsz as [Sx Sy]. cbn [fst snd] in *.
    unfold apply_writes. cbn [map forl fst snd].
    assert (Hq0 : q0 < np) by (apply Hq; left; auto).
    pose proof (flat_bound n np q0 tid Htid Hq0) as Hb.
    replace (Z.of_nat n * Z.of_nat q0 + Z.of_nat tid)%Z with (Z.of_nat (n * q0 + tid)) by nia.
    rewrite set_nat by lia. cbn [bind]. rewrite set_nat by lia. cbn [bind].
    inversion Hnd; subst.
    destruct (IH (upd ax (n * q0 + tid) (fst (f q0)), upd ay (n * q0 + tid) (snd (f q0))))
      as [a' [E [Hs H]]]; auto.
    { intros; apply Hq; right; auto. }
    { split; cbn [fst snd]; rewrite upd_length; auto. }
    exists a'. split; [exact E|]. split; auto.
    intros q i Hi. destruct (H q i Hi) as [Hx Hy]. cbn [fst snd] in Hx, Hy.
    rewrite Hx, Hy. rewrite !nth_error_upd by lia. cbn [existsb].
    destruct (Nat.eqb_spec i tid) as [->|Hne]; cbn [andb].
    + destruct (Nat.eqb_spec q q0) as [->|Hne]; cbn [orb].
      * assert (existsb (Nat.eqb q0) Q = false) as ->.
        { destruct (existsb (Nat.eqb q0) Q) eqn:Ee; auto.
          apply existsb_exists in Ee. destruct Ee as [y [Hy' Ey]].
          apply Nat.eqb_eq in Ey. subst. contradiction. }
        rewrite Nat.eqb_refl. auto.
      * destruct (existsb (Nat.eqb q) Q); auto.
        destruct (Nat.eqb_spec (n * q + tid) (n * q0 + tid)) as [Ee|]; auto.
        apply flat_inj in Ee; auto. lia.
    + destruct (Nat.eqb_spec (n * q + i) (n * q0 + tid)) as [Ee|]; auto.
      apply flat_inj in Ee; auto. lia.
Qed.

Lemma gpu_launch_ok : forall (f : nat -> nat -> T * T) thread Q sched a,
  NoDup Q -> (forall q, In q Q -> q < np) ->
  (forall tid, tid < n -> thread tid = Ok (map (fun q => (Z.of_nat q, f tid q)) Q)) ->
  sized a ->
  exists a', gpu_launch n sched thread a = Ok a' /\ sized a' /\
    forall q i, i < n ->
      nth_error (fst a') (n * q + i) =
        (if (existsb (Nat.eqb i) sched && existsb (Nat.eqb q) Q)%bool then Some (fst (f i q)) else nth_error (fst a) (n * q + i)) /\
      nth_error (snd a') (n * q + i) =
        (if (existsb (Nat.eqb i) sched && existsb (Nat.eqb q) Q)%bool then Some (snd (f i q)) else nth_error (snd a) (n * q + i)).
Proof.
  intros f thread Q sched. induction sched as [|tid sched IH]; intros a Hnd HQ Hth Hsz.
  - exists a. split; [reflexivity|]. split; auto.
  - unfold gpu_launch. cbn [forl].
    destruct (Nat.ltb_spec tid n) as [Hlt|Hge].
    + rewrite Hth by auto. cbn [bind].
      destruct (apply_writes_ok tid (f tid) Q a Hlt Hnd HQ Hsz) as [a1 [E1 [S1 H1]]].
      rewrite E1. cbn [bind].
      destruct (IH a1 Hnd HQ Hth S1) as [a2 [E2 [S2 H2]]].
      exists a2. split; [exact E2|]. split; auto.
      intros q i Hi. destruct (H1 q i Hi) as [X1 Y1]. destruct (H2 q i Hi) as [X2 Y2].
      rewrite X2, Y2, X1, Y1. cbn [existsb].
      destruct (Nat.eqb_spec i tid) as [->|]; cbn [orb andb]; auto.
      destruct (existsb (Nat.eqb tid) sched), (existsb (Nat.eqb q) Q); auto.
    + cbn [bind]. destruct (IH a Hnd HQ Hth Hsz) as [a2 [E2 [S2 H2]]].
      exists a2. split; [exact E2|]. split; auto.
      intros q i Hi. destruct (H2 q i Hi) as [X2 Y2]. rewrite X2, Y2. cbn [existsb].
      destruct (Nat.eqb_spec i tid); [lia|]. auto.
Qed.

Lemma gpu_store_row_ok : forall (a : list T) p src,
  length a = n * np -> p < np -> length src = n ->
  exists a', gpu_store_row a (Z.of_nat p) src n = Ok a' /\ length a' = n * np /\
    forall q i, i < n -> nth_error a' (n * q + i) =
      if Nat.eqb q p then nth_error src i else nth_error a (n * q + i).
Proof.
  intros a p src Ha Hp Hs. unfold gpu_store_row.
  destruct (for_inv (list T) (fun k a' => length a' = n * np /\
    forall q i, i < n -> nth_error a' (n * q + i) =
      if (Nat.eqb q p && (i <? k))%bool then nth_error src i else nth_error a (n * q + i))
    (fun (i : nat) (a : list T) => x <- get src (Z.of_nat i) ;;
       set a (Z.of_nat n * Z.of_nat p + Z.of_nat i) x) n 0 a) as [a' [E [HL H]]].
  - split; auto. intros. rewrite andb_false_r. auto.
  - intros k a1 Hk [HL H].
    destruct (nth_error_ex _ src k ltac:(lia)) as [x Hx].
    rewrite (get_nat _ _ _ _ Hx). cbn [bind].
    replace (Z.of_nat n * Z.of_nat p + Z.of_nat k)%Z with (Z.of_nat (n * p + k)) by nia.
    pose proof (flat_bound n np p k ltac:(lia) Hp).
    rewrite set_nat by lia. eexists. split; [reflexivity|].
    split; [rewrite upd_length; auto|].
    intros q i Hi. rewrite nth_error_upd by lia.
    destruct (Nat.eqb_spec (n * q + i) (n * p + k)) as [Ee|Ee].
    + apply flat_inj in Ee; auto; [|lia]. destruct Ee as [-> ->].
      rewrite Nat.eqb_refl. destruct (Nat.ltb_spec k (S k)); [|lia]. simpl. auto.
    + rewrite H by auto. destruct (Nat.eqb_spec q p); auto. cbn [andb].
      destruct (Nat.ltb_spec i k), (Nat.ltb_spec i (S k)); auto; try lia.
  - exists a'. split; auto. split; auto. intros q i Hi. rewrite H by auto.
    destruct (Nat.ltb_spec i (0 + n)); [|lia]. rewrite andb_true_r. auto.
Qed.

Lemma gpu_load_row_ok : forall (a : list T) p r,
  (forall i, i < n -> nth_error a (n * p + i) = nth_error r i) -> length r = n ->
  gpu_load_row a (Z.of_nat p) n = Ok r.
Proof.
  intros a p r H Hr. unfold gpu_load_row. destruct r as [|x0 r0].
  - simpl in Hr. rewrite <- Hr. reflexivity.
  - set (r := x0 :: r0) in *.
    rewrite (mapM_ok_map _ _ _ (fun i => nth i r x0)).
    + f_equal. apply nth_error_ext_len; [rewrite map_length, seq_length; auto|].
      intros i Hi. rewrite map_length, seq_length in Hi.
      rewrite (nth_error_nth_lt _ r i x0) by lia.
      erewrite map_nth_error; [reflexivity|].
      rewrite (nth_error_nth_lt _ (seq 0 n) i 0) by (rewrite seq_length; auto).
      rewrite seq_nth by auto. reflexivity.
    + intros i Hi. apply in_seq in Hi.
      replace (Z.of_nat n * Z.of_nat p + Z.of_nat i)%Z with (Z.of_nat (n * p + i)) by nia.
      apply get_nat. rewrite H by lia. apply nth_error_nth_lt. lia.
Qed.

Lemma existsb_seq : forall q a k, existsb (Nat.eqb q) (seq a k) = ((a <=? q) && (q <? a + k))%bool.
Proof.
  intros. destruct (existsb (Nat.eqb q) (seq a k)) eqn:E.
  - apply existsb_exists in E. destruct E as [y [Hy E]]. apply Nat.eqb_eq in E. subst.
    apply in_seq in Hy. destruct (Nat.leb_spec a y), (Nat.ltb_spec y (a+k)); auto; lia.
  - destruct (Nat.leb_spec a q), (Nat.ltb_spec q (a+k)); auto. exfalso.
    rewrite <- not_true_iff_false in E. apply E. apply existsb_exists. exists q.
    split; [apply in_seq; lia|apply Nat.eqb_refl].
Qed.

Lemma existsb_rev : forall A (f : A -> bool) l, existsb f (rev l) = existsb f l.
Proof.
  intros. destruct (existsb f l) eqn:E.
  - apply existsb_exists in E. destruct E as [x [Hx E]]. apply existsb_exists. exists x.
    split; auto. apply in_rev in Hx. auto.
  - rewrite <- not_true_iff_false in *. intros H. apply E. apply existsb_exists in H.
    destruct H as [x [Hx H]]. apply existsb_exists. exists x. split; auto. apply in_rev; auto.
Qed.

Definition covers (sched : list nat) : Prop := forall i, i < n -> In i sched.

Lemma covers_existsb : forall sched i, covers sched -> i < n -> existsb (Nat.eqb i) sched = true.
Proof.
  intros. apply existsb_exists. exists i. split; auto. apply Nat.eqb_refl.
Qed.

(** Every grid order gives, cell by cell, the rows of the CPU specification. *)
Theorem gpu_ok : forall a p l delta x0 y0 sched1 sched2,
  p < np -> a <= N -> (Z.of_nat p * Z.of_nat d + delta = Z.of_nat a)%Z ->
  (Z.abs delta < Z.of_nat d)%Z -> length l = n -> sized (x0, y0) ->
  covers sched1 -> covers sched2 ->
  exists r, gpu_kick_and_drift add sub mul sin m x0 y0 (map snd l) (map fst l)
      (Z.of_nat d) (Z.of_nat p) delta (Z.of_nat N) n sched1 sched2 = Ok r /\
    sized r /\
    forall q i, q < np -> i < n ->
      nth_error (fst r) (n * q + i) = nth_error (map fst (row_spec add sub mul sin F d a p l q)) i /\
      nth_error (snd r) (n * q + i) = nth_error (map snd (row_spec add sub mul sin F d a p l q)) i.
Proof.
  intros a p l delta x0 y0 sched1 sched2 Hp HaN Ha Hdelta Hl [Sx0 Sy0] Hc1 Hc2. cbn [fst snd] in *.
  unfold gpu_kick_and_drift. rewrite Ha.
  assert (Hstart : (if (delta <? 0)%Z then (Z.of_nat p - 1)%Z else Z.of_nat p) = Z.of_nat (a / d)).
  { destruct (Z.ltb_spec delta 0).
    - assert (0 < p) by nia.
      rewrite (div_unique a d (p - 1)); [lia|auto|].
      assert (Z.of_nat ((p - 1) * d) = Z.of_nat p * Z.of_nat d - Z.of_nat d)%Z by nia. lia.
    - rewrite (div_unique a d p); auto.
      assert (Z.of_nat (p * d) = Z.of_nat p * Z.of_nat d)%Z by nia. lia. }
  rewrite Hstart.
  assert (HaD : a / d < np).
  { pose proof (div_spec a d Hd). destruct (Nat.lt_ge_cases (a/d) np); auto. exfalso. nia. }
  destruct (gpu_store_row_ok x0 (a / d) (map fst l) Sx0 HaD ltac:(rewrite map_length; auto)) as [x1 [Ex [Sx1 Hx1]]].
  destruct (gpu_store_row_ok y0 (a / d) (map snd l) Sy0 HaD ltac:(rewrite map_length; auto)) as [y1 [Ey [Sy1 Hy1]]].
  rewrite Ex. cbn [bind]. rewrite Ey. cbn [bind].
  replace (Z.to_nat (Z.of_nat N - Z.of_nat a)) with (N - a) by lia.
  destruct l as [|s00 l0] eqn:El.
  { (* no particles *)
    simpl in Hl. assert (Hn0 : n = 0) by lia.
    assert (Hz : forall sched th (aa : list T * list T), gpu_launch n sched th aa = Ok aa).
    { induction sched; intros; unfold gpu_launch in *; cbn [forl]; auto.
      destruct (Nat.ltb_spec a0 n); [lia|]. apply IHsched. }
    rewrite Hz. cbn [bind fst snd].
    destruct (Z.ltb 0 (Z.of_nat p)).
    - rewrite (gpu_load_row_ok x1 p []) by (auto; intros; lia). cbn [bind].
      rewrite (gpu_load_row_ok y1 p []) by (auto; intros; lia). cbn [bind].
      rewrite Hz. exists (x1, y1).
      split; [reflexivity|]. split; [split; auto|]. intros; lia.
    - exists (x1, y1). split; [reflexivity|]. split; [split; auto|]. intros; lia. }
  rewrite <- El in *. clear El.
  set (getp := fun i => nth i l s00).
  assert (Hgx : forall i, i < n -> nth_error (map fst l) i = Some (fst (getp i))).
  { intros i Hi. apply map_nth_error. apply nth_error_nth_lt. lia. }
  assert (Hgy : forall i, i < n -> nth_error (map snd l) i = Some (snd (getp i))).
  { intros i Hi. apply map_nth_error. apply nth_error_nth_lt. lia. }
  set (Q1 := seq (S (a / d)) (np - 1 - a / d)).
  destruct (gpu_launch_ok (fun i q => ups (q * d - a) a (getp i))
    (fun tid => x <- get (map fst l) (Z.of_nat tid) ;; e <- get (map snd l) (Z.of_nat tid) ;;
       gpu_up add sub mul sin (N - a) m (Z.of_nat d) (Z.of_nat N) (Z.of_nat a) (Z.of_nat (a / d)) x e)
    Q1 sched1 (x1, y1)) as [a1 [E1 [S1 H1]]].
  { apply seq_NoDup. }
  { intros q Hq. apply in_seq in Hq. lia. }
  { intros tid Htid. rewrite (get_nat _ _ _ _ (Hgx tid Htid)), (get_nat _ _ _ _ (Hgy tid Htid)).
    cbn [bind]. apply gpu_up_ok. lia. }
  { split; auto. }
  rewrite E1. cbn [bind fst snd] in *.
  (* table after the upward launch *)
  assert (Hup : forall q i, p < q < np -> i < n ->
     nth_error (fst a1) (n * q + i) = Some (fst (ups (q * d - a) a (getp i))) /\
     nth_error (snd a1) (n * q + i) = Some (snd (ups (q * d - a) a (getp i)))).
  { intros q i Hq Hi. destruct (H1 q i Hi) as [X Y]. rewrite X, Y.
    rewrite (covers_existsb sched1 i Hc1 Hi). unfold Q1. rewrite existsb_seq.
    assert (a / d <= p) by (destruct (delta <? 0)%Z; lia).
    destruct (Nat.leb_spec (S (a/d)) q); [|lia].
    destruct (Nat.ltb_spec q (S (a/d) + (np - 1 - a/d))); [|lia]. simpl. auto. }
  assert (Hpiv : forall i, i < n ->
     nth_error (fst a1) (n * p + i) = nth_error (map fst (pivot add sub mul sin F d a p l)) i /\
     nth_error (snd a1) (n * p + i) = nth_error (map snd (pivot add sub mul sin F d a p l)) i).
  { intros i Hi. destruct (H1 p i Hi) as [X Y]. rewrite X, Y.
    rewrite (covers_existsb sched1 i Hc1 Hi). unfold Q1. rewrite existsb_seq.
    unfold pivot. destruct (Z.ltb_spec delta 0) as [Hneg|Hpos].
    - assert (Hpd : a < p * d) by nia. destruct (Nat.ltb_spec a (p*d)); [|lia].
      destruct (Nat.leb_spec (S (a/d)) p); [|lia].
      destruct (Nat.ltb_spec p (S (a/d) + (np - 1 - a/d))); [|lia]. simpl.
      rewrite !map_map. split; symmetry; apply map_nth_error with (f := fun u => _ (ups (p * d - a) a u));
        apply nth_error_nth_lt; lia.
    - assert (Hpd : p * d <= a) by nia. destruct (Nat.ltb_spec a (p*d)); [lia|].
      destruct (Nat.leb_spec (S (a/d)) p); [lia|]. simpl.
      assert (Hpp : a / d = p) by lia.
      rewrite Hx1, Hy1 by auto. rewrite Hpp, Nat.eqb_refl. auto. }
  assert (HPn : length (pivot add sub mul sin F d a p l) = n).
  { unfold pivot. destruct (a <? p * d); auto. rewrite map_length; auto. }
  destruct (Z.ltb_spec 0 (Z.of_nat p)) as [Hp0|Hp0].
  - set (P := pivot add sub mul sin F d a p l) in *.
    rewrite (gpu_load_row_ok (fst a1) p (map fst P)) by (try (intros; apply Hpiv; auto); rewrite map_length; auto).
    cbn [bind].
    rewrite (gpu_load_row_ok (snd a1) p (map snd P)) by (try (intros; apply Hpiv; auto); rewrite map_length; auto).
    cbn [bind].
    set (getq := fun i => nth i P s00).
    assert (Hqx : forall i, i < n -> nth_error (map fst P) i = Some (fst (getq i))).
    { intros i Hi. apply map_nth_error. apply nth_error_nth_lt. lia. }
    assert (Hqy : forall i, i < n -> nth_error (map snd P) i = Some (snd (getq i))).
    { intros i Hi. apply map_nth_error. apply nth_error_nth_lt. lia. }
    assert (Hcp : ceil_div (p * d) d = p) by (apply ceil_div_unique; auto; lia).
    destruct (gpu_launch_ok (fun i q => downs (p * d - q * d) (q * d) (getq i))
      (fun tid => x <- get (map fst P) (Z.of_nat tid) ;; e <- get (map snd P) (Z.of_nat tid) ;;
         gpu_down add sub mul sin (Z.to_nat (Z.of_nat p * Z.of_nat d)) m (Z.of_nat d)
           (Z.of_nat p * Z.of_nat d) (Z.of_nat p) x e)
      (rev (seq 0 p)) sched2 a1) as [a2 [E2 [S2 H2]]].
    { apply NoDup_rev, seq_NoDup. }
    { intros q Hq. apply in_rev, in_seq in Hq. lia. }
    { intros tid Htid. rewrite (get_nat _ _ _ _ (Hqx tid Htid)), (get_nat _ _ _ _ (Hqy tid Htid)).
      cbn [bind]. replace (Z.of_nat p * Z.of_nat d)%Z with (Z.of_nat (p * d)) by lia.
      rewrite Nat2Z.id. rewrite <- Hcp at 3. rewrite gpu_down_ok by nia.
      rewrite Hcp. reflexivity. }
    { auto. }
    rewrite E2. exists a2. split; auto. split; auto.
    intros q i Hq Hi. destruct (H2 q i Hi) as [X Y]. rewrite X, Y.
    rewrite (covers_existsb sched2 i Hc2 Hi), existsb_rev, existsb_seq. simpl (_ && _)%bool.
    unfold row_spec. fold P.
    destruct (Nat.ltb_spec q p), (Nat.ltb_spec p q); try lia.
    + rewrite !map_map. split; symmetry;
        apply map_nth_error with (f := fun u => _ (downs (p * d - q * d) (q * d) u));
        apply nth_error_nth_lt; lia.
    + destruct (Hup q i ltac:(lia) Hi) as [-> ->].
      rewrite !map_map. split; symmetry;
        apply map_nth_error with (f := fun u => _ (ups (q * d - a) a u));
        apply nth_error_nth_lt; lia.
    + assert (q = p) by lia. subst q. replace (p * d - p * d) with 0 by lia.
      assert (Hid : map (downs 0 (p * d)) P = P) by apply map_id. rewrite Hid. apply Hpiv; auto.
  - assert (p = 0) by lia. subst p. exists a1. split; auto. split; auto.
    intros q i Hq Hi. unfold row_spec.
    destruct (Nat.ltb_spec 0 q).
    + destruct (Hup q i ltac:(lia) Hi) as [-> ->].
      rewrite !map_map. split; symmetry;
        apply map_nth_error with (f := fun u => _ (ups (q * d - a) a u));
        apply nth_error_nth_lt; lia.
    + assert (q = 0) by lia. subst q. simpl (0 * d - 0 * d).
      assert (Hid : map (downs 0 (0 * d)) (pivot add sub mul sin F d a 0 l) = pivot add sub mul sin F d a 0 l)
        by apply map_id.
      rewrite Hid. apply Hpiv; auto.
Qed.
End Gpu.

(** The GPU result is the CPU table, row after row. *)
Theorem gpu_eq_cpu : forall T (add sub mul : T -> T -> T) sin F m d np a p l delta x0 y0 ftn sched1 sched2 s,
  0 < d -> holds m F (d * (np - 1)) ->
  p < np -> a <= d * (np - 1) -> (Z.of_nat p * Z.of_nat d + delta = Z.of_nat a)%Z ->
  (Z.abs delta < Z.of_nat d)%Z ->
  shaped x0 np (length l) -> shaped y0 np (length l) ->
  (forall i, i < length l -> In i sched1) -> (forall i, i < length l -> In i sched2) ->
  kick_and_drift add sub mul sin m x0 y0 (map snd l) (map fst l)
      (Z.of_nat d) (Z.of_nat p) delta (Z.of_nat (d * (np - 1))) (length l) ftn = Ok s ->
  gpu_kick_and_drift add sub mul sin m (concat x0) (concat y0) (map snd l) (map fst l)
      (Z.of_nat d) (Z.of_nat p) delta (Z.of_nat (d * (np - 1))) (length l) sched1 sched2
  = Ok (concat (xp s), concat (yp s)).
Proof.
  intros T add sub mul sin F m d np a p l delta x0 y0 ftn sched1 sched2 s
    Hd Hm Hp HaN Ha Hdelta Sx Sy Hc1 Hc2 E.
  destruct (kick_and_drift_ok add sub mul sin F m d np (length l) Hd ltac:(lia) (d * (np-1)) eq_refl
     _ Hm a p l delta ftn x0 y0 eq_refl Hp HaN Ha Hdelta eq_refl Sx Sy)
    as (s' & E' & Sx' & Sy' & Hrows & _).
  rewrite E in E'. inversion E'; subst s'. clear E'.
  destruct (gpu_ok add sub mul sin F m d np (length l) Hd ltac:(lia) (d * (np-1)) eq_refl Hm
     a p l delta (concat x0) (concat y0) sched1 sched2 Hp HaN Ha Hdelta eq_refl) as (r & Er & Sr & H); auto.
  { split; cbn [fst snd]; apply concat_length_shaped; auto. }
  rewrite Er. destruct r as [rx ry]. cbn [fst snd] in *. destruct Sr as [Srx Sry]. cbn [fst snd] in *.
  f_equal. f_equal.
  - apply nth_error_ext_len; [rewrite (concat_length_shaped _ _ _ Sx'); auto|].
    intros j Hj. rewrite Srx in Hj. destruct (flat_split _ _ _ Hj) as (q & i & Hq & Hi & ->).
    destruct (H q i Hq Hi) as [-> _]. destruct (Hrows q Hq) as [Hr _].
    rewrite (nth_error_concat _ _ _ _ _ _ Sx' Hr Hi). reflexivity.
  - apply nth_error_ext_len; [rewrite (concat_length_shaped _ _ _ Sy'); auto|].
    intros j Hj. rewrite Sry in Hj. destruct (flat_split _ _ _ Hj) as (q & i & Hq & Hi & ->).
    destruct (H q i Hq Hi) as [_ ->]. destruct (Hrows q Hq) as [_ Hr].
    rewrite (nth_error_concat _ _ _ _ _ _ Sy' Hr Hi). reflexivity.
Qed.

(** The launched grid covers all particles. *)
Lemma grid_covers : forall n block sched, 0 < block ->
  Permutation sched (seq 0 (grid_threads n block)) -> forall i, i < n -> In i sched.
Proof.
  intros n block sched Hb Hperm i Hi.
  apply (Permutation_in i (Permutation_sym Hperm)). apply in_seq. unfold grid_threads.
  pose proof (div_spec n block Hb). nia.
Qed.
