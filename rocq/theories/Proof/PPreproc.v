(** Lemmas on slices, rebinning, cuts, filters. *)
From Coq Require Import List ZArith Bool QArith Qcanon Lia Arith.
From Verif Require Import Base.Res Base.ResLemmas Base.QcLib Base.QcLemmas Base.Loops.
From Verif Require Import Model.MRecon Model.MParticles Model.MPreproc Spec.ReconSpec Spec.TomoSpec Spec.ParticleSpec Spec.PreprocSpec.
From Verif Require Import Proof.PRecon Proof.PHybrid Proof.PTomo Proof.PParticles Proof.CRecon Proof.CParticles Proof.CImage.
Import ListNotations.
Local Open Scope Qc_scope.

(** ** Slices *)
Lemma pyidx_nonneg : forall len z, (0 <= z <= Z.of_nat len)%Z -> pyidx len z = Z.to_nat z.
Proof. intros. unfold pyidx. destruct (Z.ltb_spec z 0); [lia|]. f_equal. lia. Qed.
Lemma pyidx_neg : forall len z, (- Z.of_nat len <= z < 0)%Z -> pyidx len z = Z.to_nat (z + Z.of_nat len).
Proof. intros. unfold pyidx. destruct (Z.ltb_spec z 0); [|lia]. f_equal. lia. Qed.

Lemma slice_tab : forall A m (f : nat -> A) a b lo hi, pyidx m a = lo -> pyidx m b = hi -> (hi <= m)%nat ->
  slice (tab m f) a b = tab (hi - lo) (fun i => f (lo + i)%nat).
Proof.
  intros. unfold slice. rewrite tab_length, H, H0. rewrite skipn_tab. apply firstn_tab. lia.
Qed.
Lemma slice_from_tab : forall A m (f : nat -> A) a lo, pyidx m a = lo ->
  slice_from (tab m f) a = tab (m - lo) (fun i => f (lo + i)%nat).
Proof. intros. unfold slice_from. rewrite tab_length, H. apply skipn_tab. Qed.

(** ** Rebinning *)
Lemma rebin_dividable_T : forall n k r f, (0 < r)%nat ->
  rebin_dividable (T n (k * r) f) (k * r) r = Ok (T n k (fun i j => sumn r (fun a => f i (j * r + a)%nat))).
Proof.
  intros n k r f Hr. unfold rebin_dividable. rewrite Nat.mod_mul by lia. cbn [negb Nat.eqb].
  assert (LT : length (T n (k * r) f) = n) by apply tab_length.
  rewrite Nat.div_mul by lia. rewrite LT. f_equal.
  rewrite concat_T.
  assert (E : tab (n * (k * r)) (fl (k * r) f) = tab (k * n * r) (fl r (fun q a => f (q / k)%nat (q mod k * r + a)%nat))).
  { replace (n * (k * r))%nat with (k * n * r)%nat by lia. apply tab_ext. intros x Hx.
    destruct (flat_of _ _ _ Hx) as [q [a [Hq [Ha ->]]]]. rewrite fl_at by auto.
    rewrite (Nat.mul_comm k n) in Hq. destruct (flat_of _ _ _ Hq) as [i [j [Hi [Hj ->]]]].
    replace ((i * k + j) * r + a)%nat with (i * (k * r) + (j * r + a))%nat by ring.
    rewrite fl_at by (apply flat_lt; auto).
    assert (F1 := fl_at _ k (fun a b => a) i j Hj). assert (F2 := fl_at _ k (fun a b => b) i j Hj). unfold fl in F1, F2.
    rewrite F1, F2. auto. }
  rewrite E, chunk_tab. unfold T at 1. rewrite map_tab.
  rewrite (Nat.mul_comm k n).
  transitivity (chunk n k (tab (n * k) (fl k (fun i j => sumn r (fun a => f i (j * r + a)%nat))))).
  - f_equal. apply tab_ext. intros x Hx. destruct (flat_of _ _ _ Hx) as [i [j [Hi [Hj ->]]]]. rewrite fl_at by auto.
    rewrite <- sumn_qsum. apply sumn_ext. intros a Ha.
    assert (F1 := fl_at _ k (fun a b => a) i j Hj). assert (F2 := fl_at _ k (fun a b => b) i j Hj). unfold fl in F1, F2.
    rewrite F1, F2. auto.
  - apply chunk_tab.
Qed.

Lemma sumn_shift_flat : forall k r (f : nat -> Qc), sumn k (fun j => sumn r (fun a => f (j * r + a)%nat)) = sumn (k * r) f.
Proof. intros. rewrite sumn_flat. reflexivity. Qed.

Lemma rebin_individable_T : forall n k r s f, (0 < s)%nat -> (s < r)%nat ->
  let start := ((k - 1) * r)%nat in
  rebin_individable (T n (k * r + s) f) (k * r + s) r =
  Ok (T n (k + 1) (fun i j => if (j <? k)%nat then sumn r (fun a => f i (j * r + a)%nat)
        else sumn (k * r + s - start) (fun a => f i (start + a)%nat) * (qn r / qn (r + s)))).
Proof.
  intros n k r s f Hs Hr start. unfold rebin_individable.
  assert (D : ((k * r + s) / r)%nat = k) by (rewrite Nat.div_add_l by lia; rewrite Nat.div_small by auto; lia).
  rewrite D.
  assert (E : map (fun row => slice row 0 (Z.of_nat (k * r))) (T n (k * r + s) f) = T n (k * r) f).
  { unfold T at 1. rewrite map_tab. unfold T. apply tab_ext. intros i Hi.
    rewrite (slice_tab _ _ _ _ _ 0 (k * r)); try lia.
    - replace (k * r - 0)%nat with (k * r)%nat by lia. reflexivity.
    - rewrite pyidx_nonneg by lia. reflexivity.
    - rewrite pyidx_nonneg by lia. lia. }
  rewrite E, rebin_dividable_T by lia. cbn [bind]. unfold rebin_last. rewrite D.
  set (i0 := ((Z.of_nat k - 1) * Z.of_nat r)%Z).
  assert (Hd : qz (Z.of_nat (k * r + s) - i0) = qn (r + s)) by (unfold qn; f_equal; unfold i0; rewrite !Nat2Z.inj_add, Nat2Z.inj_mul; ring).
  rewrite Hd, qdiv_ok by (apply Qclt_ne, qn_pos; lia). cbn [bind].
  unfold T at 2. rewrite map_tab. unfold T at 1. rewrite combine_tab, map_tab. f_equal. unfold T. apply tab_ext. intros i Hi.
  cbn [fst snd]. replace (k + 1)%nat with (S k) by lia. rewrite tab_S. f_equal.
  - apply tab_ext. intros j Hj. destruct (Nat.ltb_spec j k); auto; lia.
  - f_equal. destruct (Nat.ltb_spec k k); [lia|]. rewrite (slice_from_tab _ _ _ _ start).
    + rewrite <- sumn_qsum. reflexivity.
    + unfold start, i0. destruct k.
      * unfold pyidx. destruct (Z.ltb_spec ((Z.of_nat 0 - 1) * Z.of_nat r) 0); [|lia]. lia.
      * replace ((Z.of_nat (S k) - 1) * Z.of_nat r)%Z with (Z.of_nat (k * r)) by (rewrite Nat2Z.inj_mul; nia).
        rewrite pyidx_nonneg by lia. replace (S k - 1)%nat with k by lia. lia.
Qed.

(** ** First and last true *)
Lemma first_true_spec : forall l k,
  match first_true l k with
  | Some i => (k <= i)%nat /\ nth_error l (i - k) = Some true /\ forall j, (j < i - k)%nat -> nth_error l j = Some false
  | None => forall j b, nth_error l j = Some b -> b = false
  end.
Proof.
  induction l as [|a l IH]; intros k; simpl.
  - intros j b H. destruct j; discriminate.
  - destruct a.
    + rewrite Nat.sub_diag. split; auto. split; auto. intros; lia.
    + specialize (IH (S k)). destruct (first_true l (S k)) as [i|].
      * destruct IH as (A & B & C). split; [lia|]. replace (i - k)%nat with (S (i - S k)) by lia. split; auto.
        intros j Hj. destruct j; auto. apply C. lia.
      * intros j b H. destruct j; simpl in H; [congruence|eauto].
Qed.

Lemma nth_error_rev : forall A (l : list A) i, (i < length l)%nat -> nth_error (rev l) i = nth_error l (length l - 1 - i).
Proof.
  intros A l i H. destruct l as [|d l0] eqn:E; [simpl in H; lia|]. rewrite <- E in *.
  rewrite (nth_error_nth' _ d) by (rewrite rev_length; auto). rewrite (nth_error_nth' _ d) by lia. f_equal.
  rewrite rev_nth by auto. f_equal. lia.
Qed.

(** ** Extremes *)
Lemma qmin_fold : forall l x, let v := fold_left (fun a b => if qltb b a then b else a) l x in
  In v (x :: l) /\ forall y, In y (x :: l) -> v <= y.
Proof.
  induction l as [|b l IH]; intros x; simpl.
  - split; auto. intros y [->|[]]. apply Qcle_refl.
  - destruct (qltb_spec b x) as [H|H].
    + destruct (IH b) as [A B]. split.
      * simpl in A. tauto.
      * intros y [->|[->|Hy]]; [|apply B; left; auto|apply B; right; auto].
        eapply Qcle_trans; [apply B; left; reflexivity|]. qclra.
    + destruct (IH x) as [A B]. split.
      * simpl in A. tauto.
      * intros y [->|[->|Hy]]; [apply B; left; auto| |apply B; right; auto].
        eapply Qcle_trans; [apply B; left; reflexivity|]. qclra.
Qed.
Lemma qmax_fold : forall l x, let v := fold_left (fun a b => if qltb a b then b else a) l x in
  In v (x :: l) /\ forall y, In y (x :: l) -> y <= v.
Proof.
  induction l as [|b l IH]; intros x; simpl.
  - split; auto. intros y [->|[]]. apply Qcle_refl.
  - destruct (qltb_spec x b) as [H|H].
    + destruct (IH b) as [A B]. split.
      * simpl in A. tauto.
      * intros y [->|[->|Hy]]; [|apply B; left; auto|apply B; right; auto].
        eapply Qcle_trans; [|apply B; left; reflexivity]. qclra.
    + destruct (IH x) as [A B]. split.
      * simpl in A. tauto.
      * intros y [->|[->|Hy]]; [apply B; left; auto| |apply B; right; auto].
        eapply Qcle_trans; [|apply B; left; reflexivity]. qclra.
Qed.
Lemma qminimum_tab : forall n f, (0 < n)%nat -> exists v, qminimum (tab n f) = Ok v /\ smallest n f v.
Proof.
  intros n f Hn. destruct (tab n f) as [|x l] eqn:E.
  - apply (f_equal (@length _)) in E. rewrite tab_length in E. simpl in E. lia.
  - eexists. split; [reflexivity|]. destruct (qmin_fold l x) as [A B]. rewrite <- E in A, B. split.
    + apply in_tab in A. destruct A as [i [Hi <-]]. eauto.
    + intros i Hi. apply B. apply in_tab. eauto.
Qed.
Lemma qmaximum_tab : forall n f, (0 < n)%nat -> exists v, qmaximum (tab n f) = Ok v /\ largest n f v.
Proof.
  intros n f Hn. destruct (tab n f) as [|x l] eqn:E.
  - apply (f_equal (@length _)) in E. rewrite tab_length in E. simpl in E. lia.
  - eexists. split; [reflexivity|]. destruct (qmax_fold l x) as [A B]. rewrite <- E in A, B. split.
    + apply in_tab in A. destruct A as [i [Hi <-]]. eauto.
    + intros i Hi. apply B. apply in_tab. eauto.
Qed.

(** ** Cuts *)
Lemma steps_of_T : forall n m f, steps_of (T n m f) m =
  tab (m - 1) (fun b => step (T n m f) n b).
Proof.
  intros. unfold steps_of. rewrite seq_tab, map_tab. apply tab_ext. intros b Hb. unfold T at 1. rewrite map_tab, <- sumn_qsum.
  unfold step. apply sumn_ext. intros i Hi. rewrite !cell_T by lia. rewrite !nth_tab by lia. reflexivity.
Qed.

Definition thr_of (th : option Qc) (low high : Qc) : Qc := match th with Some t => t | None => (high - low) * qq 3 10 end.

Lemma get_cuts_T : forall n m f th margin, (2 <= m)%nat -> (0 <= margin)%Z ->
  exists low high, smallest (m - 1) (step (T n m f) n) low /\ largest (m - 1) (step (T n m f) n) high /\
  let above b := thr_of th low high < step (T n m f) n b - low in
  ((forall b, (b < m - 1)%nat -> ~ above b) /\ get_cuts (T n m f) m th margin = Ok (0, Z.of_nat m)%Z \/
   exists first last, (first <= last)%nat /\ (last < m - 1)%nat /\ above first /\ above last /\
     (forall b, (b < m - 1)%nat -> above b -> (first <= b <= last)%nat) /\
     get_cuts (T n m f) m th margin =
       Ok (Z.max 0 (Z.of_nat first - margin), Z.min (Z.of_nat m) (Z.of_nat last + 3 + margin))%Z).
Proof.
  intros n m f th margin Hm Hmg. unfold get_cuts. rewrite steps_of_T. set (st := step (T n m f) n).
  destruct (qminimum_tab (m - 1) st ltac:(lia)) as [low [El Ml]]. rewrite El. cbn [bind]. rewrite map_tab.
  destruct (qmaximum_tab (m - 1) st ltac:(lia)) as [high [Eh Mh]].
  exists low, high. split; auto. split; auto.
  set (thr := thr_of th low high).
  assert (ET : match th with Some t => Ok t | None => mx <- qmaximum (tab (m - 1) (fun b => st b - low)) ;; Ok (mx * qq 3 10) end = Ok thr).
  { unfold thr, thr_of. destruct th; auto.
    destruct (qmaximum_tab (m - 1) (fun b => st b - low) ltac:(lia)) as [h2 [E2 [[i [Hi Ei]] B]]]. rewrite E2. cbn [bind].
    f_equal. f_equal. destruct Mh as [[j [Hj Ej]] C]. apply Qcle_antisym'.
    - rewrite <- Ei. specialize (C i Hi). qclra.
    - rewrite <- Ej. apply (B j Hj). }
  rewrite ET. cbn [bind]. rewrite map_tab. set (act := fun b => qltb thr (st b - low)).
  assert (A1 : forall b, act b = true <-> thr < st b - low) by (intros; unfold act; apply qltb_true).
  change (tab (m - 1) (fun i => qltb thr (st i - low))) with (tab (m - 1) act).
  assert (L : length (tab (m - 1) act) = (m - 1)%nat) by apply tab_length.
  unfold bool_argmax. assert (F := first_true_spec (tab (m - 1) act) 0). assert (G := first_true_spec (rev (tab (m - 1) act)) 0).
  destruct (first_true (tab (m - 1) act) 0) as [i|].
  - right. destruct F as (_ & F1 & F2). rewrite Nat.sub_0_r in F1, F2.
    assert (Hi : (i < m - 1)%nat) by (rewrite <- L; apply nth_error_Some; congruence).
    rewrite nth_error_tab in F1 by auto. injection F1 as F1.
    destruct (first_true (rev (tab (m - 1) act)) 0) as [r|].
    + destruct G as (_ & G1 & G2). rewrite Nat.sub_0_r in G1, G2.
      assert (Hr : (r < m - 1)%nat) by (rewrite <- L, <- rev_length; apply nth_error_Some; congruence).
      rewrite nth_error_rev in G1 by (rewrite L; auto). rewrite L, nth_error_tab in G1 by lia. injection G1 as G1.
      exists i, (m - 1 - 1 - r)%nat.
      assert (R : forall b, (b < m - 1)%nat -> thr < st b - low -> (i <= b <= m - 1 - 1 - r)%nat).
      { intros b Hb Ab. apply A1 in Ab. split.
        - destruct (Nat.le_gt_cases i b); auto. specialize (F2 b H). rewrite nth_error_tab in F2 by auto. congruence.
        - destruct (Nat.le_gt_cases b (m - 1 - 1 - r)); auto. specialize (G2 (m - 1 - 1 - b)%nat ltac:(lia)).
          rewrite nth_error_rev in G2 by (rewrite L; lia). rewrite L, nth_error_tab in G2 by lia.
          replace (m - 1 - 1 - (m - 1 - 1 - b))%nat with b in G2 by lia. congruence. }
      apply A1 in F1, G1. split; [apply R; auto; lia|]. split; [lia|]. split; auto. split; auto. split; [exact R|].
      f_equal. f_equal.
      * destruct (Z.ltb_spec margin (Z.of_nat i)); lia.
      * match goal with |- context [(?a <? ?b)%Z] => destruct (Z.ltb_spec a b) end; lia.
    + exfalso. assert (E : nth_error (rev (tab (m - 1) act)) (m - 1 - 1 - i) = Some true).
      { rewrite nth_error_rev by (rewrite L; lia). rewrite L, nth_error_tab by lia.
        replace (m - 1 - 1 - (m - 1 - 1 - i))%nat with i by lia. congruence. }
      apply G in E. discriminate.
  - left. split.
    + intros b Hb Ab. apply A1 in Ab. assert (E := nth_error_tab (m - 1) act b Hb). apply F in E. congruence.
    + destruct (first_true (rev (tab (m - 1) act)) 0) as [r|].
      * exfalso. destruct G as (_ & G1 & _). rewrite Nat.sub_0_r in G1.
        assert (Hr : (r < m - 1)%nat) by (rewrite <- L, <- rev_length; apply nth_error_Some; congruence).
        rewrite nth_error_rev in G1 by (rewrite L; auto). apply F in G1. discriminate.
      * f_equal. f_equal; match goal with |- context [(?a <? ?b)%Z] => destruct (Z.ltb_spec a b) end; lia.
Qed.

(** ** Flags *)
Lemma keep_flagged_picked : forall A (flags : list bool) (l : list A), length flags = length l ->
  picked (filter (fun i => nth i flags false) (seq 0 (length l))) l (keep_flagged flags l).
Proof.
  intros A flags l L. unfold picked, keep_flagged.
  assert (G : forall (l : list A) flags k, length flags = length l ->
    map Some (map snd (filter (fun p => fst p) (combine flags l))) =
    map (fun j => nth_error l (j - k)) (filter (fun i => nth (i - k) flags false) (seq k (length l)))).
  { clear. induction l as [|a l IH]; intros flags k L; destruct flags as [|b flags]; try discriminate; auto.
    injection L as L. change (seq k (length (a :: l))) with (k :: seq (S k) (length l)).
    cbn [combine filter fst]. replace (nth (k - k) (b :: flags) false) with b by (rewrite Nat.sub_diag; reflexivity).
    assert (R : map (fun j => nth_error (a :: l) (j - k)) (filter (fun i => nth (i - k) (b :: flags) false) (seq (S k) (length l)))
       = map (fun j => nth_error l (j - S k)) (filter (fun i => nth (i - S k) flags false) (seq (S k) (length l)))).
    { rewrite (filter_ext_in _ (fun i => nth (i - S k) flags false)).
      - apply map_ext_in. intros j Hj. apply filter_In in Hj. destruct Hj as [Hj _]. apply in_seq in Hj.
        replace (j - k)%nat with (S (j - S k)) by lia. reflexivity.
      - intros i Hi. apply in_seq in Hi. replace (i - k)%nat with (S (i - S k)) by lia. reflexivity. }
    destruct b; cbn [map]; rewrite R, <- IH by auto; [rewrite Nat.sub_diag|]; reflexivity. }
  rewrite (G l flags 0%nat L). rewrite (filter_ext _ (fun i => nth i flags false)) by (intros; rewrite Nat.sub_0_r; auto).
  apply map_ext. intros. rewrite Nat.sub_0_r. auto.
Qed.

(** ** Tangent bins *)
Lemma argmax_from_spec : forall l k best mx (f : nat -> Qc),
  (best < k)%nat -> f best = mx -> (forall i, (i < k)%nat -> f i <= mx) ->
  (forall i, nth_error l i = Some (f (k + i)%nat) \/ (length l <= i)%nat) ->
  let b := argmax_from l k best mx in
  (b < k + length l)%nat /\ forall i, (i < k + length l)%nat -> f i <= f b.
Proof.
  induction l as [|v l IH]; intros k best mx f Hb Ef Hm Hl; simpl.
  - rewrite Nat.add_0_r. split; auto. intros. rewrite Ef. auto.
  - assert (V : v = f k). { destruct (Hl 0%nat) as [E|E]; [|simpl in E; lia]. simpl in E. injection E as ->. f_equal. lia. }
    assert (Hl' : forall i, nth_error l i = Some (f (S k + i)%nat) \/ (length l <= i)%nat).
    { intros i. destruct (Hl (S i)) as [E|E]; [left; simpl in E; rewrite E; f_equal; f_equal; lia|right; simpl in E; lia]. }
    replace (k + S (length l))%nat with (S k + length l)%nat by lia.
    destruct (qltb_spec mx v) as [H|H].
    + apply IH; auto. intros i Hi. destruct (Nat.eq_dec i k) as [->|N]; [rewrite V; apply Qcle_refl|].
      apply Qcle_trans with mx; [apply Hm; lia|]. qclra.
    + apply IH; auto. intros i Hi. destruct (Nat.eq_dec i k) as [->|N]; [rewrite <- V; auto|apply Hm; lia].
Qed.
Lemma qargmax_tab : forall n f, (0 < n)%nat -> exists b, qargmax (tab n f) = Ok b /\ (b < n)%nat /\ forall i, (i < n)%nat -> f i <= f b.
Proof.
  intros n f Hn. destruct (tab n f) as [|x l] eqn:E.
  - apply (f_equal (@length _)) in E. rewrite tab_length in E. simpl in E. lia.
  - assert (L : n = S (length l)) by (rewrite <- (tab_length n f), E; reflexivity).
    eexists. split; [reflexivity|]. rewrite L. apply (argmax_from_spec l 1 0 x f); auto.
    + assert (E0 := nth_error_tab n f 0 Hn). rewrite E in E0. simpl in E0. congruence.
    + intros i Hi. replace i with 0%nat by lia. assert (E0 := nth_error_tab n f 0 Hn). rewrite E in E0. simpl in E0.
      injection E0 as <-. apply Qcle_refl.
    + intros i. destruct (Nat.lt_ge_cases i (length l)); auto. left.
      assert (E0 := nth_error_tab n f (1 + i) ltac:(lia)). rewrite E in E0. exact E0.
Qed.

Lemma find_seq : forall p a n, match find p (seq a n) with
  | Some i => (a <= i < a + n)%nat /\ p i = true /\ forall j, (a <= j < i)%nat -> p j = false
  | None => forall j, (a <= j < a + n)%nat -> p j = false end.
Proof.
  intros p a n. revert a. induction n; intros a; simpl; [intros; lia|].
  destruct (p a) eqn:E.
  - split; [lia|]. split; auto. intros; lia.
  - specialize (IHn (S a)). destruct (find p (seq (S a) n)) as [i|].
    + destruct IHn as (A & B & C). split; [lia|]. split; auto. intros j Hj. destruct (Nat.eq_dec j a) as [->|]; auto. apply C. lia.
    + intros j Hj. destruct (Nat.eq_dec j a) as [->|]; auto. apply IHn. lia.
Qed.
Lemma find_rev_seq : forall p a n, match find p (rev (seq a n)) with
  | Some i => (a <= i < a + n)%nat /\ p i = true /\ forall j, (i < j < a + n)%nat -> p j = false
  | None => forall j, (a <= j < a + n)%nat -> p j = false end.
Proof.
  intros p a n. induction n; [simpl; intros; lia|].
  rewrite seq_S, rev_app_distr. simpl rev. simpl app. simpl find. destruct (p (a + n)%nat) eqn:E.
  - split; [lia|]. split; auto. intros; lia.
  - destruct (find p (rev (seq a n))) as [i|].
    + destruct IHn as (A & B & C). split; [lia|]. split; auto. intros j Hj. destruct (Nat.eq_dec j (a + n)) as [->|]; auto. apply C. lia.
    + intros j Hj. destruct (Nat.eq_dec j (a + n)) as [->|]; auto. apply IHn. lia.
Qed.
