(** Phases, sorting and interpolation in a stationary bucket. *)
From Coq Require Import Reals List ZArith Bool Lia Lra.
From Verif Require Import Base.Res Base.QcLib Base.RLib Base.ResLemmas Base.QcLemmas Base.Loops Model.MParticles Model.MArea Model.MPost Spec.AreaSpec Proof.PArea.
Import ListNotations.
Local Open Scope R_scope.

Lemma tab_cons A n (f : nat -> A) : tab (S n) f = f 0%nat :: tab n (fun i => f (S i)).
Proof. unfold tab. simpl. rewrite <- seq_shift, map_map. reflexivity. Qed.
Lemma rev_tab A n : forall f : nat -> A, rev (tab n f) = tab n (fun i => f (n - 1 - i)%nat).
Proof.
  induction n; intros f; [reflexivity|]. rewrite tab_S, rev_app_distr. simpl rev at 1. rewrite IHn. rewrite tab_cons. simpl app. f_equal.
  - f_equal. lia.
  - apply tab_ext. intros i Hi. f_equal. lia.
Qed.

Lemma keep_prefix A (q : A -> bool) k n : forall h, (forall i, (i < n)%nat -> q (h i) = (i <? k)%nat) -> filter q (tab n h) = tab (Nat.min n k) h.
Proof.
  induction n; intros h H; [reflexivity|]. rewrite tab_S, filter_app, IHn by (intros; apply H; lia). cbn [filter]. rewrite H by lia.
  destruct (Nat.ltb_spec n k).
  - rewrite !Nat.min_l, tab_S by lia. reflexivity.
  - rewrite app_nil_r. f_equal. lia.
Qed.
Lemma keep_suffix A (q : A -> bool) k n : forall h, (forall i, (i < n)%nat -> q (h i) = (k <=? i)%nat) -> filter q (tab n h) = tab (n - k) (fun i => h (k + i)%nat).
Proof.
  induction n; intros h H; [reflexivity|]. rewrite tab_S, filter_app, IHn by (intros; apply H; lia). cbn [filter]. rewrite H by lia.
  destruct (Nat.leb_spec k n).
  - replace (S n - k)%nat with (S (n - k)) by lia. rewrite tab_S. do 3 f_equal. lia.
  - rewrite app_nil_r. replace (S n - k)%nat with 0%nat by lia. replace (n - k)%nat with 0%nat by lia. reflexivity.
Qed.
Lemma mask_prefix p n k f g : (k <= n)%nat -> (forall i, (i < n)%nat -> p (f i) = (i <? k)%nat) -> mask p (tab n f) (tab n g) = tab k g.
Proof.
  intros Hk H. unfold mask. rewrite combine_tab. rewrite (keep_prefix _ (fun a => p (fst a)) k n) by (intros; apply H; auto).
  rewrite map_tab. rewrite Nat.min_r by auto. reflexivity.
Qed.
Lemma mask_suffix p n k f g : (forall i, (i < n)%nat -> p (f i) = (k <=? i)%nat) -> mask p (tab n f) (tab n g) = tab (n - k) (fun i => g (k + i)%nat).
Proof.
  intros H. unfold mask. rewrite combine_tab. rewrite (keep_suffix _ (fun a => p (fst a)) k n) by (intros; apply H; auto).
  rewrite map_tab. reflexivity.
Qed.

Lemma insert_last p : forall l, (forall q, In q l -> fst q < fst p) -> insert_key p l = l ++ [p].
Proof.
  induction l as [|q l IH]; intros H; simpl; [reflexivity|]. destruct (Rle_dec (fst p) (fst q)) as [L|L].
  - assert (fst q < fst p) by (apply H; left; auto). lra.
  - rewrite IH; auto. intros r Hr. apply H. right. auto.
Qed.
Lemma sort_tab n : forall h : nat -> R * R, (forall i j, (i < j)%nat -> (j < n)%nat -> fst (h j) < fst (h i)) -> sort_key (tab n h) = rev (tab n h).
Proof.
  induction n; intros h H; [reflexivity|]. rewrite tab_cons. simpl sort_key. simpl rev. rewrite IHn by (intros; apply H; lia).
  apply insert_last. intros q Hq. apply in_rev in Hq. apply in_tab in Hq. destruct Hq as (i & Hi & <-). apply H; lia.
Qed.

(** ** Interpolation on tables *)
Section Interp.
Variable interp : R -> list R -> list R -> R.
Hypothesis Hint : interpolates interp.
Variables (n : nat) (u f : nat -> R).
Hypothesis Hn : (0 < n)%nat.
Definition rising (u : nat -> R) := forall i j, (i < j)%nat -> (j < n)%nat -> u i < u j.
Hypothesis Hu : rising u.
Definition at_level (L : R) : R := interp 0 (tab n (fun i => u i - L)) (tab n f).

Lemma cases_of (w : nat -> R) x : rising w -> x <= w 0%nat \/ w (n - 1)%nat <= x \/ exists i, (S i < n)%nat /\ w i <= x <= w (S i).
Proof.
  intros Hw. assert (K : forall k, (k < n)%nat -> x <= w 0%nat \/ w k <= x \/ exists i, (S i <= k)%nat /\ w i <= x <= w (S i)).
  { induction k; intros Hk. { destruct (Rle_dec x (w 0%nat)); [auto|right; left; lra]. }
    destruct (IHk ltac:(lia)) as [A|[A|(i & Hi & A)]]; [auto| |].
    - destruct (Rle_dec x (w (S k))); [right; right; exists k; split; [lia|lra]|right; left; lra].
    - right; right; exists i. split; [lia|auto]. }
  destruct (K (n - 1)%nat ltac:(lia)) as [A|[A|(i & Hi & A)]]; auto. right; right. exists i. split; [lia|auto].
Qed.

Lemma shifted L : increasing (tab n (fun i => u i - L)).
Proof.
  intros i j Hij Hj. rewrite tab_length in Hj. rewrite !nth_tab by lia. assert (K := Hu i j Hij Hj). lra.
Qed.
Definition in_cell (L : R) (i : nat) : Prop := u i <= L <= u (S i).
Definition cell_value (g : nat -> R) (L : R) (i : nat) : R := g i + (L - u i) * (g (S i) - g i) / (u (S i) - u i).
Lemma interp_low g L : L <= u 0%nat -> interp 0 (tab n (fun i => u i - L)) (tab n g) = g 0%nat.
Proof.
  intros H. rewrite (int_left _ Hint); rewrite ?tab_length, ?nth_tab by lia; auto; [apply shifted|lra].
Qed.
Lemma interp_high g L : u (n - 1)%nat <= L -> interp 0 (tab n (fun i => u i - L)) (tab n g) = g (n - 1)%nat.
Proof.
  intros H. rewrite (int_right _ Hint); rewrite ?tab_length, ?nth_tab by lia; auto; [apply shifted|lra].
Qed.
Lemma interp_in g L i : (S i < n)%nat -> in_cell L i -> interp 0 (tab n (fun i => u i - L)) (tab n g) = cell_value g L i.
Proof.
  intros Hi [H1 H2]. assert (K := Hu i (S i) ltac:(lia) Hi). rewrite (int_cell _ Hint _ _ _ i); rewrite ?tab_length, ?nth_tab by lia; auto; [|apply shifted|lra].
  unfold cell_value. replace (0 - (u i - L)) with (L - u i) by ring. replace (u (S i) - L - (u i - L)) with (u (S i) - u i) by ring. reflexivity.
Qed.

Lemma cell_between L i : rising f -> (S i < n)%nat -> in_cell L i -> f i <= cell_value f L i <= f (S i).
Proof.
  intros Hf Hi [H1 H2]. assert (K := Hu i (S i) ltac:(lia) Hi). assert (J := Hf i (S i) ltac:(lia) Hi). unfold cell_value.
  assert (E : f (S i) = f i + (u (S i) - u i) * (f (S i) - f i) / (u (S i) - u i)) by (field; lra).
  assert (P : 0 < / (u (S i) - u i)) by (apply Rinv_0_lt_compat; lra).
  assert (0 <= (L - u i) * (f (S i) - f i) / (u (S i) - u i)) by (apply Rmult_le_pos; [nra|lra]).
  assert ((L - u i) * (f (S i) - f i) / (u (S i) - u i) <= (u (S i) - u i) * (f (S i) - f i) / (u (S i) - u i)) by (apply Rmult_le_compat_r; [lra|nra]).
  lra.
Qed.
Lemma rising_le w i j : rising w -> (i <= j)%nat -> (j < n)%nat -> w i <= w j.
Proof. intros Hw Hij Hj. destruct (Nat.eq_dec i j) as [->|]; [lra|]. left. apply Hw; lia. Qed.

Lemma level_range L : rising f -> f 0%nat <= at_level L <= f (n - 1)%nat.
Proof.
  intros Hf. unfold at_level. assert (M := rising_le f 0 (n - 1) Hf ltac:(lia) ltac:(lia)). destruct (cases_of u L Hu) as [H|[H|(i & Hi & H)]].
  - rewrite interp_low by auto. lra.
  - rewrite interp_high by auto. lra.
  - rewrite (interp_in f L i) by auto. assert (K := cell_between L i Hf Hi H).
    assert (A := rising_le f 0 i Hf ltac:(lia) ltac:(lia)). assert (B := rising_le f (S i) (n - 1) Hf ltac:(lia) ltac:(lia)). lra.
Qed.
Lemma level_mono L1 L2 : rising f -> L1 <= L2 -> at_level L1 <= at_level L2.
Proof.
  intros Hf HL. assert (R1 := level_range L1 Hf). assert (R2 := level_range L2 Hf). unfold at_level in *.
  destruct (cases_of u L1 Hu) as [H|[H|(i & Hi & H)]].
  - rewrite (interp_low f L1) in * by auto. lra.
  - rewrite (interp_high f L2) in * by lra. lra.
  - destruct (cases_of u L2 Hu) as [J|[J|(j & Hj & J)]].
    + rewrite (interp_low f L1) in * by lra. lra.
    + rewrite (interp_high f L2) in * by lra. lra.
    + rewrite (interp_in f L1 i), (interp_in f L2 j) by auto. assert (A := cell_between L1 i Hf Hi H). assert (B := cell_between L2 j Hf Hj J).
      destruct (Nat.lt_trichotomy i j) as [C|[->|C]].
      * assert (D := rising_le f (S i) j Hf ltac:(lia) ltac:(lia)). lra.
      * unfold cell_value. assert (D := Hf j (S j) ltac:(lia) Hj). assert (E := Hu j (S j) ltac:(lia) Hj).
        apply Rplus_le_compat_l, Rmult_le_compat_r; [apply Rlt_le, Rinv_0_lt_compat; lra|nra].
      * destruct H as [H1 H2], J as [J1 J2]. assert (D := rising_le u (S j) i Hu ltac:(lia) ltac:(lia)).
        assert (L1 = L2) by lra. subst L2. rewrite <- (interp_in f L1 i), <- (interp_in f L1 j); auto; [lra| |]; split; auto.
Qed.
Lemma level_onto y : rising f -> f 0%nat <= y <= f (n - 1)%nat -> exists L, at_level L = y.
Proof.
  intros Hf Hy. unfold at_level. destruct (cases_of f y Hf) as [H|[H|(i & Hi & H)]].
  - exists (u 0%nat). rewrite interp_low by lra. lra.
  - exists (u (n - 1)%nat). rewrite interp_high by lra. lra.
  - assert (D := Hf i (S i) ltac:(lia) Hi). assert (E := Hu i (S i) ltac:(lia) Hi).
    exists (u i + (y - f i) * (u (S i) - u i) / (f (S i) - f i)).
    assert (P : 0 < / (f (S i) - f i)) by (apply Rinv_0_lt_compat; lra).
    assert (E2 : u (S i) = u i + (f (S i) - f i) * (u (S i) - u i) / (f (S i) - f i)) by (field; lra).
    assert (0 <= (y - f i) * (u (S i) - u i) / (f (S i) - f i)) by (apply Rmult_le_pos; [nra|lra]).
    assert ((y - f i) * (u (S i) - u i) / (f (S i) - f i) <= (f (S i) - f i) * (u (S i) - u i) / (f (S i) - f i)) by (apply Rmult_le_compat_r; [lra|nra]).
    rewrite (interp_in f _ i); auto; [|split; lra]. unfold cell_value. field. lra.
Qed.
Lemma level_mirror c L : interp 0 (tab n (fun i => u i - L)) (tab n (fun i => c - f i)) = c - at_level L.
Proof.
  unfold at_level. destruct (cases_of u L Hu) as [H|[H|(i & Hi & H)]].
  - rewrite !interp_low by auto. lra.
  - rewrite !interp_high by auto. lra.
  - rewrite !(interp_in _ L i) by auto. unfold cell_value. assert (E := Hu i (S i) ltac:(lia) Hi). field. lra.
Qed.
End Interp.

(** ** The phases around pi *)
Definition st : R := 2 * PI / 999.
Lemma st_pos : 0 < st.
Proof. unfold st. assert (P := PI_RGT_0). lra. Qed.
Lemma inr_999 : INR (1000 - 1) = 999.
Proof. rewrite INR_IZR_INZ. reflexivity. Qed.
Definition ph (i : nat) : R := INR i * st.
Lemma phases_pi : phases PI = tab 1000 ph.
Proof.
  unfold phases, linspace. rewrite map_tab. apply tab_ext. intros i _. rewrite inr_999. unfold ph, st. field.
Qed.
Lemma ph_left i : (i < 1000)%nat -> ltb (ph i) PI = (i <? 500)%nat.
Proof.
  intros H. unfold ltb, ph, st. assert (P := PI_RGT_0). destruct (Nat.ltb_spec i 500) as [L|L].
  - assert (K : INR i <= INR 499) by (apply le_INR; lia). rewrite (INR_IZR_INZ 499) in K. simpl Z.of_nat in K.
    destruct (Rlt_dec _ _) as [A|A]; auto. exfalso. apply A. nra.
  - assert (K : INR 500 <= INR i) by (apply le_INR; lia). rewrite (INR_IZR_INZ 500) in K. simpl Z.of_nat in K.
    destruct (Rlt_dec _ _) as [A|A]; auto. exfalso. nra.
Qed.
Lemma ph_right i : (i < 1000)%nat -> ltb PI (ph i) = (500 <=? i)%nat.
Proof.
  intros H. unfold ltb, ph, st. assert (P := PI_RGT_0). destruct (Nat.leb_spec 500 i) as [L|L].
  - assert (K : INR 500 <= INR i) by (apply le_INR; lia). rewrite (INR_IZR_INZ 500) in K. simpl Z.of_nat in K.
    destruct (Rlt_dec _ _) as [A|A]; auto. exfalso. apply A. nra.
  - assert (K : INR i <= INR 499) by (apply le_INR; lia). rewrite (INR_IZR_INZ 499) in K. simpl Z.of_nat in K.
    destruct (Rlt_dec _ _) as [A|A]; auto. exfalso. nra.
Qed.
Lemma ph_rising n : rising n ph.
Proof. intros i j Hij _. unfold ph. apply Rmult_lt_compat_r; [apply st_pos|]. apply lt_INR. auto. Qed.
Lemma ph_500 : ph (500 - 1) = PI - PI / 999.
Proof. unfold ph, st. rewrite INR_IZR_INZ. simpl Z.of_nat. field. Qed.
Lemma ph_0 : ph 0 = 0.
Proof. unfold ph. simpl. ring. Qed.
Lemma ph_mirror i : (i <= 999)%nat -> ph (999 - i) = 2 * PI - ph i.
Proof. intros H. unfold ph. rewrite minus_INR by auto. rewrite (INR_IZR_INZ 999). simpl Z.of_nat. unfold st. field. Qed.

Definition pot (v : R) (i : nat) : R := v * (-1 - cos (ph i)).
Lemma urf_pi v p : urf_at v PI p = v * (-1 - cos p).
Proof. unfold urf_at. rewrite sin_PI, cos_PI. ring. Qed.
Lemma pot_rising v : 0 < v -> rising 500 (pot v).
Proof.
  intros Hv i j Hij Hj. unfold pot. apply Rmult_lt_compat_l; auto. assert (A := ph_rising 500 i j Hij Hj).
  assert (B : 0 <= ph i) by (unfold ph; assert (P := st_pos); assert (Q := pos_INR i); nra).
  assert (C : ph j <= PI). { assert (D := rising_le 500 ltac:(lia) ph j (500 - 1) (ph_rising 500) ltac:(lia) ltac:(lia)). rewrite ph_500 in D. assert (P := PI_RGT_0). lra. }
  assert (cos (ph j) < cos (ph i)) by (apply cos_decreasing_1; lra). lra.
Qed.

Lemma np_interp_tab interp x n u f : (0 < n)%nat -> np_interp interp x (tab n u) (tab n f) = Ok (interp x (tab n u) (tab n f)).
Proof.
  intros H. unfold np_interp. rewrite !tab_length. destruct (Nat.eqb_spec n 0); [lia|]. rewrite Nat.eqb_refl. reflexivity.
Qed.

Section Lengths.
Variable interp : R -> list R -> list R -> R.
Hypothesis Hint : interpolates interp.
Variable v : R.
Hypothesis Hv : 0 < v.
(** The left end of the contour at a level. *)
Definition left_end (L : R) : R := at_level interp 500 (pot v) ph L.
Lemma lengths L : urf_length_at_level interp (phases PI) (map (urf_at v PI) (phases PI)) PI L =
  Ok (2 * PI - 2 * left_end L, 2 * PI - left_end L, left_end L).
Proof.
  unfold urf_length_at_level. rewrite phases_pi, map_tab. rewrite !(mask_prefix _ 1000 500) by (try lia; apply ph_left).
  rewrite !(mask_suffix _ 1000 500) by apply ph_right. change (1000 - 500)%nat with 500%nat. rewrite !map_tab.
  assert (E : tab 500 (fun i => urf_at v PI (ph i) - L) = tab 500 (fun i => pot v i - L)) by (apply tab_ext; intros; rewrite urf_pi; reflexivity).
  rewrite E. rewrite np_interp_tab by lia. cbn [bind].
  change (interp 0 (tab 500 (fun i => pot v i - L)) (tab 500 ph)) with (left_end L).
  rewrite combine_tab, sort_tab.
  2:{ intros i j Hij Hj. cbn [fst]. rewrite !urf_pi. apply Rplus_lt_compat_r. apply Rmult_lt_compat_l; auto.
      replace (500 + i)%nat with (999 - (499 - i))%nat by lia. replace (500 + j)%nat with (999 - (499 - j))%nat by lia.
      rewrite !ph_mirror by lia. rewrite !cos_sym. assert (K := pot_rising v Hv (499 - j)%nat (499 - i)%nat ltac:(lia) ltac:(lia)). unfold pot in K.
      apply Rmult_lt_reg_l in K; auto. }
  rewrite rev_tab, !map_tab. cbn [fst snd].
  assert (E1 : tab 500 (fun i => urf_at v PI (ph (500 + (500 - 1 - i))) - L) = tab 500 (fun i => pot v i - L)).
  { apply tab_ext. intros i Hi. replace (500 + (500 - 1 - i))%nat with (999 - i)%nat by lia. rewrite urf_pi, ph_mirror, cos_sym by lia. reflexivity. }
  assert (E2 : tab 500 (fun i => ph (500 + (500 - 1 - i))) = tab 500 (fun i => 2 * PI - ph i)).
  { apply tab_ext. intros i Hi. replace (500 + (500 - 1 - i))%nat with (999 - i)%nat by lia. apply ph_mirror. lia. }
  rewrite E1, E2. rewrite np_interp_tab by lia. cbn [bind].
  rewrite (level_mirror interp Hint 500 (pot v) ph ltac:(lia) (pot_rising v Hv)). fold (left_end L). do 3 f_equal. ring.
Qed.
Lemma left_range L : 0 <= left_end L <= PI - PI / 999.
Proof.
  assert (K := level_range interp Hint 500 (pot v) ph ltac:(lia) (pot_rising v Hv) L (ph_rising 500)). rewrite ph_0, ph_500 in K. exact K.
Qed.
Lemma left_mono L1 L2 : L1 <= L2 -> left_end L1 <= left_end L2.
Proof. apply level_mono; auto; [lia|apply pot_rising; auto|apply ph_rising]. Qed.
Lemma left_onto y : 0 <= y <= PI - PI / 999 -> exists L, left_end L = y.
Proof. intros H. apply level_onto; auto; [lia|apply pot_rising; auto|apply ph_rising|]. rewrite ph_0, ph_500. auto. Qed.
End Lengths.
