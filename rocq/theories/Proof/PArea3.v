(** Lemmas on the density of a column between two energies and on loops that
    succeed. *)
From Coq Require Import Reals List ZArith Bool Lia Lra Psatz.
From Verif Require Import Base.Res Base.ResLemmas Base.QcLib Base.RLib Base.QcLemmas Base.Loops.
From Verif Require Import Model.MParticles Model.MPreproc Model.MPost Model.MArea Spec.AreaSpec Proof.PArea Proof.PArea2 Proof.CArea.
Import ListNotations.
Local Open Scope R_scope.

Lemma for_ok_ind S (P : nat -> S -> Prop) body n : forall i s s', for_ i n body s = Ok s' -> P i s ->
  (forall k s s', (i <= k < i + n)%nat -> P k s -> body k s = Ok s' -> P (Datatypes.S k) s') -> P (i + n)%nat s'.
Proof.
  induction n; intros i s s' E H Hs. { apply ok_inj in E. subst. rewrite Nat.add_0_r. auto. }
  simpl in E. binv E s1 E1. replace (i + Datatypes.S n)%nat with (Datatypes.S i + n)%nat by lia. eapply IHn; eauto.
  - eapply Hs; eauto. lia.
  - intros. eapply Hs; eauto. lia.
Qed.

Lemma np_get_nat A (l : list A) (i : nat) x d : np_get l (Z.of_nat i) = Ok x -> (i < length l)%nat /\ x = nth i l d.
Proof.
  unfold np_get. destruct (Z.ltb_spec (Z.of_nat i) 0); [lia|]. destruct (Z.ltb_spec (Z.of_nat i) 0); [lia|].
  destruct (Z.leb_spec (Z.of_nat (length l)) (Z.of_nat i)) as [L|L]; [discriminate|]. cbn [orb]. intros E. apply get_ok_inv in E. destruct E as (_ & E & _).
  rewrite Nat2Z.id in E. split; [lia|]. symmetry. apply nth_error_nth. auto.
Qed.
Lemma np_get_at A (l : list A) (i : nat) d : (i < length l)%nat -> np_get l (Z.of_nat i) = Ok (nth i l d).
Proof.
  intros H. unfold np_get. destruct (Z.ltb_spec (Z.of_nat i) 0); [lia|]. destruct (Z.ltb_spec (Z.of_nat i) 0); [lia|].
  destruct (Z.leb_spec (Z.of_nat (length l)) (Z.of_nat i)) as [L|L]; [lia|]. cbn [orb]. apply get_nat. apply nth_error_nth'. auto.
Qed.
Lemma np_get_last A (l : list A) x d : np_get l (-1) = Ok x -> l <> [] /\ x = nth (length l - 1) l d.
Proof.
  intros E. unfold np_get in E. change (-1 <? 0)%Z with true in E. cbv zeta iota in E.
  destruct (Z.ltb_spec (-1 + Z.of_nat (length l)) 0); [discriminate|]. destruct (Z.leb_spec (Z.of_nat (length l)) (-1 + Z.of_nat (length l))); [lia|]. cbn [orb] in E.
  apply get_ok_inv in E. destruct E as (_ & E & _). split; [destruct l; [simpl in *; lia|discriminate]|]. symmetry. apply nth_error_nth. rewrite <- E. f_equal. lia.
Qed.

Lemma forall2_nth A B (P : A -> B -> Prop) l r da db : Forall2 P l r -> forall i, (i < length l)%nat -> P (nth i l da) (nth i r db).
Proof. induction 1; simpl; intros i Hi; [lia|]. destruct i; auto. apply IHForall2. lia. Qed.
Lemma mapM_nth A B (f : A -> res B) l r da db : mapM f l = Ok r -> length r = length l /\ forall i, (i < length l)%nat -> f (nth i l da) = Ok (nth i r db).
Proof.
  intros E. apply mapM_ok_inv in E. split; [symmetry; clear - E; induction E; simpl; auto|]. apply (forall2_nth _ _ _ _ _ da db E).
Qed.

(** ** Intervals of indices *)
Lemma some_or_none n (P : nat -> bool) : (exists i, (i < n)%nat /\ P i = true) \/ forall i, (i < n)%nat -> P i = false.
Proof.
  induction n. { right. intros. lia. }
  destruct IHn as [(i & Hi & E)|H]; [left; exists i; split; auto; lia|]. destruct (P n) eqn:E; [left; exists n; auto|].
  right. intros i Hi. destruct (Nat.eq_dec i n) as [->|]; auto. apply H. lia.
Qed.
Lemma interval n (P : nat -> bool) : (forall i j k, (i < j)%nat -> (j < k)%nat -> (k < n)%nat -> P i = true -> P k = true -> P j = true) ->
  (exists i, (i < n)%nat /\ P i = true) -> exists a b, (a <= b)%nat /\ (b < n)%nat /\ forall i, (i < n)%nat -> (P i = true <-> (a <= i <= b)%nat).
Proof.
  induction n; intros Hc (i & Hi & E); [lia|].
  assert (Hc' : forall i j k, (i < j)%nat -> (j < k)%nat -> (k < n)%nat -> P i = true -> P k = true -> P j = true) by (intros; eapply Hc; [..|eauto]; eauto; lia).
  destruct (P n) eqn:En.
  - destruct (some_or_none n P) as [X|X].
    + destruct (IHn Hc' X) as (a & b & Hab & Hb & H). exists a, n. split; [lia|]. split; [lia|]. intros j Hj.
      destruct (Nat.eq_dec j n) as [->|]; [split; [lia|auto]|]. split; intros K.
      * apply H in K; lia.
      * destruct (Nat.eq_dec j a) as [->|]. { apply H; lia. } apply (Hc a j n); auto; try lia. apply H; lia.
    + exists n, n. split; [lia|]. split; [lia|]. intros j Hj. destruct (Nat.eq_dec j n) as [->|]; [split; [lia|auto]|]. split; intros K; [rewrite X in K by lia; discriminate|lia].
  - destruct (IHn Hc') as (a & b & Hab & Hb & H). { exists i. split; auto. destruct (Nat.eq_dec i n) as [->|]; [congruence|lia]. }
    exists a, b. split; [lia|]. split; [lia|]. intros j Hj. destruct (Nat.eq_dec j n) as [->|]; [split; [congruence|lia]|]. apply H. lia.
Qed.
Lemma rwhere_none p l : forall k, (forall i, (i < length l)%nat -> p (nth i l 0) = false) -> rwhere k p l = [].
Proof.
  induction l as [|x l IH]; intros k H; [reflexivity|]. simpl. assert (H0 := H 0%nat ltac:(simpl; lia)). simpl in H0. rewrite H0. apply IH. intros i Hi. apply (H (S i)). simpl. lia.
Qed.
Lemma rwhere_interval p l : forall k a b, (a <= b)%nat -> (b < length l)%nat -> (forall i, (i < length l)%nat -> (p (nth i l 0) = true <-> (a <= i <= b)%nat)) ->
  rwhere k p l = seq (k + a) (b + 1 - a).
Proof.
  induction l as [|x l IH]; intros k a b Hab Hb H; [simpl in Hb; lia|]. simpl rwhere.
  assert (H' : forall i, (i < length l)%nat -> (p (nth i l 0) = true <-> (a <= S i <= b)%nat)) by (intros i Hi; apply (H (S i)); simpl; lia).
  simpl in Hb. destruct a as [|a].
  - destruct (H 0%nat) as [_ H0]; [simpl; lia|]. simpl in H0. rewrite H0 by lia. replace (b + 1 - 0)%nat with (S b) by lia. simpl seq. rewrite Nat.add_0_r. f_equal.
    destruct b as [|b].
    + apply rwhere_none. intros i Hi. destruct (p (nth i l 0)) eqn:E; auto. apply H' in E; [lia|auto].
    + rewrite (IH (S k) 0%nat b); [f_equal; lia|lia|lia|]. intros i Hi. rewrite H' by auto. lia.
  - destruct (p x) eqn:E. { destruct (H 0%nat) as [H0 _]; [simpl; lia|]. apply H0 in E. lia. }
    destruct b as [|b]; [lia|]. rewrite (IH (S k) a b); [f_equal; lia|lia|lia|]. intros i Hi. rewrite H' by auto. lia.
Qed.

(** ** The integral of the piecewise linear density of a column *)
Section Column.
Variable row : list R.
Definition r (i : nat) : R := nth i row 0.
Fixpoint upto (k : nat) : R := match k with O => 0 | S k => upto k + (r k + r (S k)) / 2 end.
Definition integral (b : nat) (t : R) : R := upto b + t * r b + t ^ 2 * (r (S b) - r b) / 2.
Hypothesis Hr : Forall (fun x => 0 <= x) row.
Lemma r_pos i : 0 <= r i.
Proof. unfold r. destruct (nth_in_or_default i row 0) as [H| ->]; [|lra]. rewrite Forall_forall in Hr. auto. Qed.
Lemma upto_mono a b : (a <= b)%nat -> upto a <= upto b.
Proof. induction 1; [lra|]. simpl. assert (X := r_pos m). assert (Y := r_pos (S m)). lra. Qed.
Lemma integral_1 b : integral b 1 = upto (S b).
Proof. unfold integral. simpl. lra. Qed.
Lemma integral_cell b t1 t2 : 0 <= t1 -> t1 <= t2 -> t2 <= 1 -> integral b t1 <= integral b t2.
Proof.
  intros A B C. unfold integral. assert (X := r_pos b). assert (Y := r_pos (S b)).
  assert (0 <= (t2 - t1) * (r b * (1 - (t1 + t2) / 2) + r (S b) * ((t1 + t2) / 2))). { apply Rmult_le_pos; [lra|]. apply Rplus_le_le_0_compat; apply Rmult_le_pos; lra. } lra.
Qed.
Lemma integral_mono a s b t : 0 <= s <= 1 -> 0 <= t <= 1 -> INR a + s <= INR b + t -> integral a s <= integral b t.
Proof.
  intros A B H. destruct (Nat.lt_trichotomy a b) as [L|[->|L]].
  - apply Rle_trans with (integral a 1); [apply integral_cell; lra|]. rewrite integral_1. apply Rle_trans with (upto b); [apply upto_mono; lia|].
    replace (upto b) with (integral b 0) by (unfold integral; lra). apply integral_cell; lra.
  - apply integral_cell; lra.
  - assert (INR (S b) <= INR a) by (apply le_INR; lia). rewrite S_INR in H0. assert (E : INR a = INR b + 1) by lra. assert (s = 0) by lra. assert (t = 1) by lra. subst.
    rewrite <- S_INR in E. apply INR_eq in E. subst a. rewrite integral_1. unfold integral. lra.
Qed.
Lemma integral_pos a s : 0 <= s <= 1 -> 0 <= integral a s.
Proof. intros H. replace 0 with (integral 0 0) by (unfold integral; simpl; lra). apply integral_mono; [lra|lra|]. assert (X := pos_INR a). simpl. lra. Qed.
Lemma rsum_first : forall l k, Forall (fun x => 0 <= x) l -> rsum (map (fun i => nth i l 0) (seq 0 k)) <= rsum l.
Proof.
  induction l as [|x l IH]; intros k H.
  - simpl. clear Hr. assert (forall j, rsum (map (fun i => nth i [] 0) (seq j k)) = 0). { induction k; intros j; simpl; auto. rewrite IHk. destruct j; lra. } rewrite H0. lra.
  - inversion H; subst. destruct k; simpl. + assert (0 <= rsum l). { clear - H3. induction H3; simpl; lra. } lra.
    + rewrite <- seq_shift, map_map. simpl. specialize (IH k H3). lra.
Qed.
Lemma upto_bound k : upto k <= rsum (map r (seq 0 (S k))) - r 0 / 2 - r k / 2.
Proof.
  induction k. { simpl. lra. }
  assert (E : rsum (map r (seq 0 (S (S k)))) = rsum (map r (seq 0 (S k))) + r (S k)).
  { rewrite (seq_S (S k)), map_app. generalize (map r (seq 0 (S k))). intros l. simpl. induction l; simpl; lra. }
  rewrite E. simpl upto. lra.
Qed.
Lemma integral_bound b t : 0 <= t <= 1 -> integral b t <= rsum row.
Proof.
  intros H. apply Rle_trans with (integral b 1); [apply integral_cell; lra|]. rewrite integral_1.
  assert (X := upto_bound (S b)). assert (Y := rsum_first row (S (S b)) Hr). assert (A := r_pos 0). assert (B := r_pos (S b)). unfold r at 1 in X. fold (r 0) in X.
  change (map r (seq 0 (S (S b)))) with (map (fun i => nth i row 0) (seq 0 (S (S b)))) in X. lra.
Qed.
End Column.

Lemma trapz_seq row n : forall a, (0 < n)%nat -> trapz 1 (map (r row) (seq a n)) = upto row (a + n - 1) - upto row a.
Proof.
  induction n; intros a H; [lia|]. destruct n. { simpl. replace (a + 1 - 1)%nat with a by lia. lra. }
  change (map (r row) (seq a (S (S n)))) with (r row a :: map (r row) (seq (S a) (S n))).
  change (map (r row) (seq (S a) (S n))) with (r row (S a) :: map (r row) (seq (S (S a)) n)). rewrite trapz_cons.
  change (r row (S a) :: map (r row) (seq (S (S a)) n)) with (map (r row) (seq (S a) (S n))). rewrite IHn by lia.
  replace (S a + S n - 1)%nat with (a + S (S n) - 1)%nat by lia. simpl upto. lra.
Qed.

(** slice l a (a + 2) *)
Lemma slice_two A (l : list A) a d : (S a < length l)%nat -> slice l (Z.of_nat a) (Z.of_nat a + 2) = [nth a l d; nth (S a) l d].
Proof.
  intros H. unfold slice, pyidx. destruct (Z.ltb_spec (Z.of_nat a) 0); [lia|]. destruct (Z.ltb_spec (Z.of_nat a + 2) 0); [lia|].
  rewrite !Z.min_l by lia. rewrite Nat2Z.id. replace (Z.to_nat (Z.of_nat a + 2) - a)%nat with 2%nat by lia. clear -H. revert a H.
  induction l as [|x l IH]; intros a H; [simpl in H; lia|]. destruct a.
  - destruct l as [|y l]; [simpl in H; lia|]. reflexivity.
  - simpl skipn. rewrite IH by (simpl in H; lia). reflexivity.
Qed.
Lemma slice_end A (l : list A) a : (S a >= length l)%nat -> (length (slice l (Z.of_nat a) (Z.of_nat a + 2)) <= 1)%nat.
Proof.
  intros H. unfold slice, pyidx. destruct (Z.ltb_spec (Z.of_nat a) 0); [lia|]. destruct (Z.ltb_spec (Z.of_nat a + 2) 0); [lia|]. rewrite firstn_length, skipn_length. lia.
Qed.
Lemma slice_wrapped A (l : list A) : (2 <= length l)%nat -> slice l (0 - 1) (0 + 1) = [].
Proof.
  intros H. unfold slice, pyidx. change (0 - 1 <? 0)%Z with true. change (0 + 1 <? 0)%Z with false. cbv iota.
  replace (Z.to_nat (Z.min (0 + 1) (Z.of_nat (length l))) - Z.to_nat (Z.max 0 (0 - 1 + Z.of_nat (length l))))%nat with 0%nat by lia. reflexivity.
Qed.

Lemma equidistant_nth dE step i : equidistant dE step -> (i < length dE)%nat -> nth i dE 0 = nth 0 dE 0 + INR i * step.
Proof.
  intros (Hs & H) Hi. induction i; [simpl; lra|]. rewrite S_INR. specialize (H i Hi). rewrite IHi in H by lia. lra.
Qed.
Lemma equidistant_increasing dE step : equidistant dE step -> increasing dE.
Proof.
  intros H i j Hij Hj. rewrite (equidistant_nth dE step i H), (equidistant_nth dE step j H) by lia. destruct H as (H & _). apply lt_INR in Hij. nra.
Qed.
Lemma pair_increasing a b : a < b -> increasing [a; b].
Proof. intros H i j Hij Hj. simpl in Hj. destruct i as [|i], j as [|[|j]]; simpl; lia || lra. Qed.
Lemma interp_pair interp (Hint : interpolates interp) x a b u v : a <= x <= b -> a < b ->
  interp x [a; b] [u; v] = u + (x - a) * (v - u) / (b - a).
Proof. intros H L. apply (int_cell interp Hint x [a; b] [u; v] 0); auto. apply pair_increasing; auto. Qed.

Section Density.
Variable interp : R -> list R -> list R -> R.
Hypothesis Hint : interpolates interp.
Variables (dE : list R) (step : R).
Hypothesis He : equidistant dE step.
Let e i := nth i dE 0.

(** What a column without error computes. *)
Lemma column_inv row h d top bottom : column_density interp row dE h = Ok (d, top, bottom) ->
  exists a b, (a < b)%nat /\ (b < length dE)%nat /\ e a <= - h < e (S a) /\ e b < h /\
    (forall i, (i < length dE)%nat -> (- h < e i < h <-> (S a <= i <= b)%nat)) /\
    ((S b < length dE)%nat -> h <= e (S b) /\ d = integral row b ((h - e b) / step) - integral row a ((- h - e a) / step) /\
       top = nth b row 0 + (h - e b) / step * (nth (S b) row 0 - nth b row 0) /\
       bottom = nth a row 0 + (- h - e a) / step * (nth (S a) row 0 - nth a row 0)).
Proof.
  intros E. unfold column_density in E. binv E d0 E0. binv E d1 E1. cbv zeta in E.
  apply (np_get_nat _ dE 0 _ 0) in E0. destruct E0 as (L0 & E0). apply (np_get_nat _ dE 1 _ 0) in E1. destruct E1 as (L1 & E1).
  assert (Hs : 0 < step) by apply He. assert (Es : d1 - d0 = step). { subst. apply He. auto. }
  rewrite Es in E. clear E0 E1 Es d0 d1.
  set (P := fun x => ltb (- h) x && ltb x h) in E.
  assert (HP : forall x, P x = true <-> - h < x < h). { intros x. unfold P, ltb. destruct (Rlt_dec (- h) x), (Rlt_dec x h); simpl; intuition (try lra; try discriminate). }
  assert (Inc := equidistant_increasing dE step He).
  destruct (some_or_none (length dE) (fun i => P (e i))) as [X|X].
  2:{ rewrite (rwhere_none P dE 0 X) in E. binv E inner E0. binv E gl E1. discriminate. }
  destruct (interval (length dE) (fun i => P (e i))) as (a & b & Hab & Hb & Hi); auto.
  { intros i j k Hij Hjk Hk A B. apply HP in A, B. apply HP. assert (C := Inc i j Hij ltac:(lia)). assert (D := Inc j k Hjk Hk). fold (e i) (e j) (e k) in *. lra. }
  rewrite (rwhere_interval P dE 0 a b Hab Hb Hi) in E. simpl plus in E.
  binv E inner E0. binv E gl E1. binv E gf E2. apply (np_get_last _ _ _ 0%nat) in E1. destruct E1 as (_ & E1). rewrite seq_length, seq_nth in E1 by lia.
  replace (a + (b + 1 - a - 1))%nat with b in E1 by lia. subst gl. apply (np_get_nat _ _ 0 _ 0%nat) in E2. destruct E2 as (_ & E2). rewrite seq_nth in E2 by lia. rewrite Nat.add_0_r in E2. subst gf.
  assert (Ei : inner = map (r row) (seq a (b + 1 - a)) /\ (b < length row)%nat).
  { split.
    - apply mapM_ok_inv in E0. clear - E0. induction E0; [reflexivity|]. apply (np_get_nat _ row _ _ 0) in H. destruct H as (_ & ->). simpl. f_equal. auto.
    - apply mapM_ok_inv in E0. assert (K := forall2_nth _ _ _ _ _ 0%nat 0 E0 (b - a)%nat). rewrite seq_length, seq_nth in K by lia. replace (a + (b - a))%nat with b in K by lia.
      specialize (K ltac:(lia)). apply (np_get_nat _ row _ _ 0) in K. apply K. }
  destruct Ei as (Ei & Lr). rewrite Ei, trapz_seq in E by lia. replace (a + (b + 1 - a) - 1)%nat with b in E by lia. clear E0 Ei inner.
  binv E ct E1. binv E rl E2. binv E el E3. apply (np_get_nat _ row _ _ 0) in E2. destruct E2 as (_ & ->). apply (np_get_nat _ dE _ _ 0) in E3. destruct E3 as (_ & ->).
  binv E dt E2. rewrite rdiv_ok in E2 by lra. apply ok_inj in E2.
  binv E cb E3. binv E rf E4. binv E ef E5. apply (np_get_nat _ row _ _ 0) in E4. destruct E4 as (_ & ->). apply (np_get_nat _ dE _ _ 0) in E5. destruct E5 as (_ & ->).
  binv E db E4. rewrite rdiv_ok in E4 by lra. apply ok_inj in E4. apply ok_inj in E.
  destruct a as [|a].
  { exfalso. change (Z.of_nat 0) with 0%Z in E3. rewrite slice_wrapped in E3 by lia. discriminate. }
  exists a, b. assert (Ha : e a <= - h).
  { destruct (Rle_dec (e a) (- h)); auto. exfalso. assert (B := proj2 (Hi (S a) ltac:(lia)) ltac:(lia)). apply HP in B.
    assert (C := Inc a (S a) ltac:(lia) ltac:(lia)). fold (e a) (e (S a)) in C. assert (D : P (e a) = true) by (apply HP; lra). apply Hi in D; lia. }
  assert (Hb1 := proj2 (Hi b Hb) ltac:(lia)). apply HP in Hb1. assert (Ha1 := proj2 (Hi (S a) ltac:(lia)) ltac:(lia)). apply HP in Ha1.
  split; [lia|]. split; [exact Hb|]. split; [unfold e in *; lra|]. split; [unfold e in *; lra|]. split. { intros i Hi0. rewrite <- HP. apply (Hi i Hi0). }
  intros Lb2. assert (Hh : h <= e (S b)).
  { destruct (Rle_dec h (e (S b))); auto. exfalso. assert (C := Inc b (S b) ltac:(lia) ltac:(lia)). fold (e b) (e (S b)) in C. assert (D : P (e (S b)) = true) by (apply HP; lra). apply Hi in D; lia. }
  injection E as E Et Eb. rewrite (slice_two _ dE b 0) in E1 by auto. unfold np_interp in E1. simpl (length [nth b dE 0; nth (S b) dE 0]) in E1. cbn [Nat.eqb] in E1.
  destruct (Nat.lt_ge_cases (S b) (length row)) as [Lb|Lb].
  2:{ assert (K := slice_end _ row b Lb). destruct (slice row (Z.of_nat b) (Z.of_nat b + 2)) as [|? [|]]; simpl in E1, K; try discriminate; lia. }
  rewrite (slice_two _ row b 0) in E1 by auto. cbn in E1. apply ok_inj in E1. fold (e b) (e (S b)) in *.
  rewrite interp_pair in E1; [|auto|lra|lra]. assert (Sb : e (S b) - e b = step) by (apply He; auto). rewrite Sb in E1.
  replace (Z.of_nat (S a) - 1)%Z with (Z.of_nat a) in E3 by lia. replace (Z.of_nat (S a) + 1)%Z with (Z.of_nat a + 2)%Z in E3 by lia.
  rewrite (slice_two _ dE a 0), (slice_two _ row a 0) in E3 by lia. unfold np_interp in E3. cbn in E3. apply ok_inj in E3. fold (e a) (e (S a)) in *.
  rewrite interp_pair in E3; [|auto|lra|lra]. assert (Sa : e (S a) - e a = step) by (apply He; lia). rewrite Sa in E3.
  assert (Ea : e (S a) = e a + step) by lra. split; [auto|]. split; [|split; [rewrite <- Et, <- E1; field; lra|rewrite <- Eb, <- E3; field; lra]].
  rewrite <- E. unfold integral. simpl upto. simpl trapz. unfold r. rewrite <- E1, <- E2, <- E3, <- E4. rewrite Ea. field. lra.
Qed.
End Density.
