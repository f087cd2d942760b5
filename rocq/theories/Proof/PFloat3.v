(** Accuracy of normalized rows; the profiles; the exact arithmetic. *)
From Coq Require Import Reals ZArith List Permutation Lia Lra Bool QArith Qcanon.
From Verif Require Import Base.Res Base.ResLemmas Base.Loops Base.QcLib Base.QcLemmas Model.MRecon Model.MFloat Spec.FloatSpec Proof.PFloat.
Import ListNotations.
Local Open Scope R_scope.

(** ** Accuracy *)
Lemma rsum_app : forall a b, rsum (a ++ b) = rsum a + rsum b.
Proof. induction a; simpl; intros; [lra|]. rewrite IHa. lra. Qed.
Lemma rsum_perm : forall a b, Permutation a b -> rsum a = rsum b.
Proof. intros a b P. induction P; simpl; lra. Qed.
Lemma rsum_nonneg : forall l, (forall x, In x l -> 0 <= x) -> 0 <= rsum l.
Proof. induction l; simpl; intros; [lra|]. assert (0 <= a) by auto. assert (0 <= rsum l) by auto. lra. Qed.

Section Acc.
Variables (u tiny : R) (rnd : R -> R) (quot : R -> R -> R) (huge : R).
Hypothesis Ha : accurate u tiny rnd quot.
Hypothesis mono : forall x y, x <= y -> rnd x <= rnd y.
Hypothesis idem : forall x, rnd (rnd x) = rnd x.
Hypothesis zero : rnd 0 = 0.
Hypothesis Hu : 0 <= u < 1.

Lemma leaves_pos : forall t, (0 < length (leaves t))%nat.
Proof. induction t; simpl; [lia|]. rewrite app_length. lia. Qed.

Lemma tree_acc : forall l t s, (forall i, In i (leaves t) -> 0 <= nth i l 0 /\ rnd (nth i l 0) = nth i l 0) ->
  tree_sum rnd huge t l = Ok s ->
  let S := rsum (map (fun i => nth i l 0) (leaves t)) in
  (1 - u) ^ (length (leaves t) - 1) * S <= s <= (1 + u) ^ (length (leaves t) - 1) * S.
Proof.
  intros l t. induction t as [i|a IHa b IHb]; intros s H E; cbn [leaves tree_sum] in *.
  - apply get_ok_inv in E. destruct E as (_ & E & _). rewrite Nat2Z.id in E. apply nth_error_nth with (d := 0) in E. simpl. rewrite E. lra.
  - assert (E0 := E). apply bind_ok in E. destruct E as (x & Ex & E). apply bind_ok in E. destruct E as (y & Ey & E).
    assert (Ha' : forall i, In i (leaves a) -> 0 <= nth i l 0 /\ rnd (nth i l 0) = nth i l 0) by (intros; apply H, in_or_app; auto).
    assert (Hb' : forall i, In i (leaves b) -> 0 <= nth i l 0 /\ rnd (nth i l 0) = nth i l 0) by (intros; apply H, in_or_app; auto).
    specialize (IHa x Ha' Ex). specialize (IHb y Hb' Ey).
    destruct (tree_pos rnd huge mono l a x Ha' idem Ex) as (X1 & X2 & _). destruct (tree_pos rnd huge mono l b y Hb' idem Ey) as (Y1 & Y2 & _).
    unfold finite_number in E. destruct (Rle_dec _ _); [|discriminate]. injection E as <-.
    cbv zeta in *. rewrite map_app, rsum_app, app_length.
    set (A := rsum (map (fun i => nth i l 0) (leaves a))) in *. set (B := rsum (map (fun i => nth i l 0) (leaves b))) in *.
    assert (A0 : 0 <= A). { apply rsum_nonneg. intros z Hz. apply in_map_iff in Hz. destruct Hz as (i & <- & Hi). apply Ha'. auto. }
    assert (B0 : 0 <= B). { apply rsum_nonneg. intros z Hz. apply in_map_iff in Hz. destruct Hz as (i & <- & Hi). apply Hb'. auto. }
    assert (La := leaves_pos a). assert (Lb := leaves_pos b).
    set (p := length (leaves a)) in *. set (q := length (leaves b)) in *.
    replace (p + q - 1)%nat with (S (p + q - 2)) by lia.
    assert (K1 : (1 - u) * (x + y) <= rnd (x + y) <= (1 + u) * (x + y)).
    { assert (K2 := acc_sum _ _ _ _ Ha x y X1 Y1 X2 Y2). assert (K3 := Rle_abs (rnd (x + y) - (x + y))). assert (K4 := Rle_abs (- (rnd (x + y) - (x + y)))). rewrite Rabs_Ropp in K4. lra. }
    assert (Up : forall n m, (n <= m)%nat -> (1 + u) ^ n <= (1 + u) ^ m) by (intros; apply Rle_pow; [lra|auto]).
    assert (Dn : forall n m, (n <= m)%nat -> (1 - u) ^ m <= (1 - u) ^ n).
    { intros n m Hnm. replace m with (n + (m - n))%nat by lia. rewrite pow_add. rewrite <- (Rmult_1_r ((1 - u) ^ n)) at 2.
      apply Rmult_le_compat_l; [apply pow_le; lra|]. apply Rle_trans with (1 ^ (m - n)); [apply pow_incr; lra|rewrite pow1; lra]. }
    assert (U1 := Up (p - 1)%nat (p + q - 2)%nat ltac:(lia)). assert (U2 := Up (q - 1)%nat (p + q - 2)%nat ltac:(lia)).
    assert (D1 := Dn (p - 1)%nat (p + q - 2)%nat ltac:(lia)). assert (D2 := Dn (q - 1)%nat (p + q - 2)%nat ltac:(lia)).
    cbn [pow]. set (P := (1 + u) ^ (p + q - 2)) in *. set (Q := (1 - u) ^ (p + q - 2)) in *.
    assert (xA : x <= P * A) by (eapply Rle_trans; [apply IHa|apply Rmult_le_compat_r; auto]).
    assert (yB : y <= P * B) by (eapply Rle_trans; [apply IHb|apply Rmult_le_compat_r; auto]).
    assert (xA' : Q * A <= x) by (eapply Rle_trans; [|apply IHa]; apply Rmult_le_compat_r; auto).
    assert (yB' : Q * B <= y) by (eapply Rle_trans; [|apply IHb]; apply Rmult_le_compat_r; auto).
    split.
    + eapply Rle_trans; [|apply K1]. rewrite Rmult_assoc. apply Rmult_le_compat_l; [lra|]. lra.
    + eapply Rle_trans; [apply K1|]. rewrite Rmult_assoc. apply Rmult_le_compat_l; [lra|]. lra.
Qed.

Lemma map_nth_seq : forall (l : list R), map (fun i => nth i l 0) (seq 0 (length l)) = l.
Proof. intros. apply (nth_ext _ _ 0 0); rewrite map_length, seq_length; auto. intros i Hi. rewrite nth_map_seq; auto. Qed.

Lemma osum_acc : forall order l s, orders order -> (0 < length l)%nat ->
  (forall i, (i < length l)%nat -> 0 <= nth i l 0 /\ rnd (nth i l 0) = nth i l 0) -> ordered_sum rnd huge order l = Ok s ->
  (1 - u) ^ (length l - 1) * rsum l <= s <= (1 + u) ^ (length l - 1) * rsum l.
Proof.
  intros order l s Ho Hn H E. unfold ordered_sum in E. destruct l as [|x l]; [simpl in Hn; lia|]. set (m := x :: l) in *.
  assert (K := tree_acc m (order (length m)) s). cbv zeta in K.
  rewrite (Permutation_length (Ho _ Hn)), seq_length in K.
  rewrite (rsum_perm (map _ (leaves _)) (map (fun i => nth i m 0) (seq 0 (length m)))) in K by (apply Permutation_map; auto).
  rewrite map_nth_seq in K. apply K; auto. intros i Hi. apply H. eapply leaf_lt; eauto.
Qed.

Lemma pow_low : forall n, 1 - INR n * u <= (1 - u) ^ n.
Proof.
  induction n; [simpl; lra|]. rewrite S_INR. cbn [pow]. assert (0 <= INR n) by apply pos_INR.
  assert (0 <= (1 - u) ^ n) by (apply pow_le; lra).
  destruct (Rle_dec 0 (1 - INR n * u)); nra.
Qed.
Lemma pow_inv : forall n, (1 - u) ^ n * (1 + u) ^ n <= 1.
Proof. intros. rewrite <- Rpow_mult_distr. apply Rle_trans with (1 ^ n); [apply pow_incr; nra|rewrite pow1; lra]. Qed.

(** A row divided by its sum. *)
Lemma normalized_acc : forall order l s l', orders order -> (0 < length l)%nat -> 2 * INR (length l) * u <= 1 ->
  (forall i, (i < length l)%nat -> 0 <= nth i l 0 /\ rnd (nth i l 0) = nth i l 0) -> ordered_sum rnd huge order l = Ok s -> 0 < s ->
  l' = map (fun x => quot x s) l ->
  Rabs (rsum l' - 1) <= 2 * INR (length l) * u + INR (length l) * tiny.
Proof.
  intros order l s l' Ho Hn Hs2 H E Hs ->.
  assert (B := osum_acc order l s Ho Hn H E).
  destruct (osum_pos rnd huge mono order Ho l s H idem zero E) as (Rs & _ & _).
  assert (L0 : 0 <= rsum l). { apply rsum_nonneg. intros x Hx. apply In_nth with (d := 0) in Hx. destruct Hx as (i & Hi & <-). apply H. auto. }
  assert (D : forall m, (forall x, In x m -> 0 <= x /\ rnd x = x) ->
    Rabs (rsum (map (fun x => quot x s) m) - rsum m / s) <= u * (rsum m / s) + INR (length m) * tiny).
  { induction m as [|x m IH]; intros Hm; [simpl; unfold Rdiv; rewrite !Rmult_0_l, Rmult_0_r, Rminus_0_r, Rabs_R0; lra|].
    cbn [map rsum fold_right length]. fold (rsum (map (fun x => quot x s) m)) (rsum m). rewrite S_INR.
    assert (IH' := IH ltac:(intros; apply Hm; right; auto)). destruct (Hm x) as [Hx Rx]; [left; auto|].
    assert (Kq := acc_quot _ _ _ _ Ha x s Rx Rs Hx Hs).
    replace (quot x s + rsum (map (fun x => quot x s) m) - (x + rsum m) / s)
      with ((quot x s - x / s) + (rsum (map (fun x => quot x s) m) - rsum m / s)) by (field; lra).
    eapply Rle_trans; [apply Rabs_triang|]. replace ((x + rsum m) / s) with (x / s + rsum m / s) by (field; lra). lra. }
  specialize (D l). assert (D' := D ltac:(intros x Hx; apply In_nth with (d := 0) in Hx; destruct Hx as (i & Hi & <-); apply H; auto)). clear D.
  set (n := length l) in *. set (q := rsum l / s) in *. set (v := rsum (map (fun x => quot x s) l)) in *.
  assert (N1 : 1 <= INR n) by (apply (le_INR 1); lia).
  assert (P1 := pow_low (n - 1)). rewrite minus_INR in P1 by lia. change (INR 1) with 1 in P1.
  assert (P2 := pow_inv (n - 1)).
  set (a := (1 - u) ^ (n - 1)) in *. set (b := (1 + u) ^ (n - 1)) in *.
  assert (b1 : 1 <= b) by (apply pow_R1_Rle; lra).
  assert (q0 : 0 <= q) by (apply Rmult_le_pos; [auto|apply Rlt_le, Rinv_0_lt_compat; auto]).
  assert (qs : q * s = rsum l) by (unfold q; field; lra). rewrite <- qs in B.
  assert (Q1 : a * q <= 1). { apply (Rmult_le_reg_r s); auto. rewrite Rmult_assoc. lra. }
  assert (Q2 : 1 <= b * q). { apply (Rmult_le_reg_r s); auto. rewrite Rmult_assoc. lra. }
  assert (Q3 : a <= q). { apply (Rmult_le_reg_l b); [lra|]. lra. }
  (* (1+u) q <= 1 + 2 n u *)
  assert (U : (1 + u) * q <= 1 + 2 * INR n * u).
  { assert (a0 : 1 / 2 <= a) by nra.
    apply (Rmult_le_reg_l a); [lra|].
    assert (G : 1 + u <= a * (1 + 2 * INR n * u)).
    { apply Rle_trans with ((1 - (INR n - 1) * u) * (1 + 2 * INR n * u)); [|apply Rmult_le_compat_r; [nra|auto]]. 
      assert (0 <= u * INR n) by nra. nra. }
    nra. }
  assert (W : 1 - INR n * u <= (1 - u) * q).
  { apply Rle_trans with ((1 - u) * a); [|apply Rmult_le_compat_l; lra]. nra. }
  assert (Db : - (u * q + INR n * tiny) <= v - q <= u * q + INR n * tiny).
  { split; [|eapply Rle_trans; [apply Rle_abs|auto]]. assert (K := Rle_abs (- (v - q))). rewrite Rabs_Ropp in K. lra. }
  assert (0 <= u * INR n) by nra.
  apply Rabs_le. split; nra.
Qed.
End Acc.

(** ** Without rounding: the model of Model/MRecon.v *)
Local Open Scope Qc_scope.
Definition rel_res {X Y} (R : X -> Y -> Prop) (a : res X) (b : res Y) : Prop :=
  match a, b with Ok x, Ok y => R x y | Fail e, Fail e' => e = e' | _, _ => False end.
Lemma for_rel : forall X Y (R : X -> Y -> Prop) (b1 : nat -> X -> res X) (b2 : nat -> Y -> res Y) n i x y, R x y ->
  (forall k x y, R x y -> rel_res R (b1 k x) (b2 k y)) -> rel_res R (for_ i n b1 x) (for_ i n b2 y).
Proof.
  induction n; intros i x y H HB; cbn [for_]; [exact H|]. specialize (HB i x y H) as K.
  destruct (b1 i x), (b2 i y); cbn [rel_res bind] in *; auto; try contradiction.
Qed.
Lemma bind_rel : forall X Y U V (R : X -> Y -> Prop) (Q : U -> V -> Prop) a b f g, rel_res R a b ->
  (forall x y, R x y -> rel_res Q (f x) (g y)) -> rel_res Q (bind a f) (bind b g).
Proof. intros. destruct a, b; cbn [rel_res bind] in *; auto; contradiction. Qed.
Lemma rel_eq : forall X (a b : res X), a = b -> rel_res eq a b.
Proof. intros X a b ->. destruct b; reflexivity. Qed.
Lemma eq_rel : forall X (a b : res X), rel_res eq a b -> a = b.
Proof. intros X [a|] [b|]; cbn [rel_res]; intros H; congruence || contradiction. Qed.

Lemma qsum_cons : forall x l, qsum (x :: l) = x + qsum l.
Proof. reflexivity. Qed.
(** Accumulating in a loop is collecting and adding. *)
Lemma for_collect : forall (f : nat -> res Qc) n i s,
  for_ i n (fun j s => x <- f j ;; Ok (s + x)) s = (l <- mapM f (seq i n) ;; Ok (s + qsum l)).
Proof.
  induction n; intros i s; cbn [for_ seq]; unfold mapM; cbn [map sequence].
  - cbn [bind]. f_equal. simpl. ring.
  - destruct (f i) as [x|]; cbn [bind]; auto. rewrite IHn. unfold mapM. destruct (sequence (map f (seq (S i) n))) as [l|]; cbn [bind]; auto.
    f_equal. rewrite qsum_cons. ring.
Qed.
Lemma mapM_map : forall X (f : X -> res Qc) (g : Qc -> Qc) l, mapM (fun x => y <- f x ;; Ok (g y)) l = (r <- mapM f l ;; Ok (map g r)).
Proof.
  unfold mapM. induction l as [|a l IH]; cbn [map sequence]; auto. destruct (f a); cbn [bind]; auto.
  rewrite IH. destruct (sequence (map f l)); reflexivity.
Qed.
Lemma mapM_fails : forall X (f : X -> res Qc) e l, (forall x e', f x = Fail e' -> e' = e) ->
  (exists r, mapM f l = Ok r) \/ mapM f l = Fail e.
Proof.
  intros X f e l H. unfold mapM. induction l as [|a l IH]; cbn [map sequence]; [left; eauto|].
  destruct (f a) as [x|e'] eqn:E; cbn [bind]; [|right; f_equal; eauto].
  destruct IH as [[r ->]| ->]; cbn [bind]; [left; eauto|right; auto].
Qed.
Lemma get_fails : forall X (l : list X) i e, get l i = Fail e -> e = OutOfBounds.
Proof. intros X l i e. unfold get. destruct (i <? 0)%Z; [congruence|]. destruct (nth_error l (Z.to_nat i)); congruence. Qed.

Section Exact.
Variable sqrt : Qc -> Qc.
Notation E := (exact sqrt).
Variable reduce : nat -> list Qc -> res Qc.
Hypothesis Hred : forall k l, reduce k l = Ok (qsum l).

Lemma back_project_exact : forall (w : list Qc) fp (prof : list Qc) npart nprof, (0 < nprof)%nat ->
  back_projectA E w fp prof npart nprof = back_project w fp prof npart nprof.
Proof.
  intros w fp prof npart nprof Hn. unfold back_projectA, back_project. apply (for_ext (list Qc)). intros i a _.
  set (f := fun j => k <- get fp (zi (i * nprof + j)) ;; get prof k).
  assert (Hf : forall j e, f j = Fail e -> e = OutOfBounds).
  { intros j e. unfold f. destruct (get fp (zi (i * nprof + j))) as [k|] eqn:G; cbn [bind]; intros H; [eapply get_fails; eauto|].
    apply get_fails in G. congruence. }
  change (vs <- mapM f (seq 0 nprof) ;; x <- get a (zi i) ;; y <- Ok (qsum (x :: vs)) ;; set a (zi i) y =
    for_ 0 nprof (fun j a => k <- get fp (zi (i * nprof + j)) ;; v <- get prof k ;; x <- get a (zi i) ;; set a (zi i) (x + v)) a).
  destruct (nth_error a i) as [x|] eqn:Gi.
  - assert (Hi : (i < length a)%nat) by (eapply nth_error_lt; eauto).
    assert (K : forall n s b x, nth_error b i = Some x ->
      (vs <- mapM f (seq s n) ;; set b (zi i) (qsum (x :: vs))) =
      for_ s n (fun j a => k <- get fp (zi (i * nprof + j)) ;; v <- get prof k ;; x <- get a (zi i) ;; set a (zi i) (x + v)) b).
    { clear - f. induction n; intros s b x Gx; cbn [for_ seq]; unfold mapM; cbn [map sequence].
      - cbn [bind]. assert (Hb := nth_error_lt _ _ _ _ Gx). rewrite set_nat by auto. f_equal. rewrite qsum_cons. simpl.
        apply nth_error_ext. intros k. rewrite nth_error_upd by auto. destruct (Nat.eqb_spec k i) as [->|]; [|auto]. transitivity (Some x); [cbv iota; f_equal; ring|auto].
      - change (f s) with (k <- get fp (zi (i * nprof + s)) ;; get prof k). destruct (get fp (zi (i * nprof + s))) as [k|]; cbn [bind]; auto.
        destruct (get prof k) as [v|]; cbn [bind]; auto. rewrite (get_nat _ _ _ _ Gx). cbn [bind].
        assert (Hb := nth_error_lt _ _ _ _ Gx). rewrite set_nat by auto. cbn [bind].
        rewrite <- (IHn (S s) (upd b i (x + v)) (x + v)) by (apply nth_error_upd_eq; auto).
        unfold mapM. destruct (sequence (map f (seq (S s) n))) as [vs|]; cbn [bind]; auto.
        rewrite !set_nat by (rewrite ?upd_length; auto). f_equal. rewrite !qsum_cons.
        apply nth_error_ext. intros m. rewrite !nth_error_upd by (rewrite ?upd_length; auto).
        destruct (Nat.eqb_spec m i); auto. f_equal. ring. }
    rewrite <- (K nprof 0%nat a x Gi). destruct (mapM f (seq 0 nprof)); cbn [bind]; auto. rewrite (get_nat _ _ _ _ Gi). reflexivity.
  - assert (Gz : get a (zi i) = Fail OutOfBounds).
    { unfold get. destruct (Z.ltb_spec (zi i) 0); auto. rewrite Nat2Z.id, Gi. auto. }
    transitivity (@Fail (list Qc) OutOfBounds).
    + destruct (mapM_fails _ f OutOfBounds (seq 0 nprof) Hf) as [[r ->]| ->]; cbn [bind]; auto. rewrite Gz. auto.
    + destruct nprof as [|n]; [lia|]. cbn [for_]. specialize (Hf 0%nat). unfold f in Hf.
      destruct (get fp (zi (i * S n + 0))) as [k|e]; cbn [bind] in *; [|rewrite (Hf e eq_refl); auto].
      destruct (get prof k) as [v|e]; cbn [bind] in *; [|rewrite (Hf e eq_refl); auto]. rewrite Gz. auto.
Qed.

Lemma sum_exact : forall (a : list Qc) b n s,
  (l <- gets a b n ;; Ok (s + qsum l)) = for_ 0 n (fun j s => x <- get a (zi (b + j)) ;; Ok (s + x)) s.
Proof.
  intros. rewrite for_collect. unfold gets. f_equal. unfold mapM. f_equal.
  replace (seq b n) with (map (fun j => (b + j)%nat) (seq 0 n)); [rewrite map_map; auto|].
  clear. revert b. induction n; intros b; simpl; auto. rewrite Nat.add_0_r. f_equal. rewrite <- (IHn (S b)).
  rewrite <- seq_shift, map_map. apply map_ext. intros. lia.
Qed.

Lemma normalize_exact : forall k (rec : list Qc) nprof nbins, normalizeA E (reduce k) rec nprof nbins = normalize rec nprof nbins.
Proof.
  intros k rec nprof nbins. apply eq_rel. unfold normalizeA, normalize.
  eapply bind_rel with (R := fun (p : list Qc * list Qc * bool) (q : list Qc * Qc * bool) =>
    let '(r1, sums, f1) := p in let '(r2, t, f2) := q in r1 = r2 /\ t = qsum sums /\ f1 = f2).
  - apply for_rel; [auto|]. intros i [[r1 sums] f1] [[r2 t] f2] (-> & -> & ->).
    assert (S := sum_exact r2 (i * nbins) nbins 0). rewrite <- S. clear S.
    destruct (gets r2 (i * nbins) nbins) as [row|] eqn:G; cbn [num exact] in *; rewrite G; cbn [bind rel_res]; auto.
    cbn [a_sum exact bind]. rewrite Qcplus_0_l. change (a_eq E (qsum row) (a_zero E)) with (qeqb (qsum row) 0).
    destruct (qeqb_spec (qsum row) 0) as [Z|Z].
    + cbn [rel_res]. split; auto. split; auto. rewrite qsum_app. rewrite qsum_cons. simpl. ring.
    + assert (EB : forall r, for_ 0 nbins (fun j rec => x <- get rec (zi (i * nbins + j)) ;; y <- qdiv x (qsum row) ;; set rec (zi (i * nbins + j)) y) r =
        for_ 0 nbins (fun j rec => x <- get rec (zi (i * nbins + j)) ;; set rec (zi (i * nbins + j)) (x / qsum row)) r).
      { intros r. apply for_ext. intros j s _. destruct (get s (zi (i * nbins + j))); cbn [bind]; auto. rewrite qdiv_ok by auto. reflexivity. }
      change (a_div E) with qdiv. rewrite EB. destruct (for_ 0 nbins _ r2); cbn [bind rel_res]; auto.
      split; auto. split; auto. rewrite qsum_app. rewrite qsum_cons. simpl. ring.
  - intros [[r1 sums] f1] [[r2 t] f2] (-> & -> & ->). rewrite Hred. cbn [bind]. change (a_le E (qsum sums) (a_zero E)) with (qleb (qsum sums) 0).
    destruct (qleb (qsum sums) 0); [reflexivity|]. destruct f2; reflexivity.
Qed.

Lemma discrepancy_exact : forall (d : list Qc) nprof nbins, discrepancyA E d nprof nbins = discrepancy sqrt d nprof nbins.
Proof.
  intros d nprof nbins. unfold discrepancyA, discrepancy. cbn [num exact a_sumsq a_int a_div a_sqrt].
  assert (K : for_ 0 (nprof * nbins) (fun i s => x <- get d (zi i) ;; Ok (s + x * x)) 0 =
    (l <- gets d 0 (nprof * nbins) ;; Ok (qsum (map (fun x => x * x) l)))).
  { transitivity (for_ 0 (nprof * nbins) (fun i s => x <- (y <- get d (zi i) ;; Ok (y * y)) ;; Ok (s + x)) 0).
    - apply for_ext. intros i s _. destruct (get d (zi i)); reflexivity.
    - rewrite for_collect. unfold gets. rewrite mapM_map. destruct (mapM _ _); cbn [bind]; auto. f_equal. ring. }
  rewrite K. destruct (gets d 0 (nprof * nbins)); reflexivity.
Qed.

Lemma check_exact : forall (w : list Qc) n, check_sumA E w n = check_sum w n.
Proof.
  intros w n. unfold check_sumA, check_sum, sum. change (for_ 0 n (fun i s => x <- get w (zi i) ;; Ok (s + x)) 0)
    with (for_ 0 n (fun i s => x <- get w (zi (0 + i)) ;; Ok (s + x)) 0).
  rewrite <- (sum_exact w 0 n 0). cbn [num exact a_sum]. destruct (gets w 0 n); cbn [bind]; auto. rewrite Qcplus_0_l. reflexivity.
Qed.

Definition same (f : fstate E) (r : rstate) : Prop :=
  f_weights f = r_weights r /\ f_rec f = r_rec r /\ f_discr f = r_discr r /\ f_diff f = r_diff r.

Lemma bind_same : forall X U V (Q : U -> V -> Prop) (a b : res X) f g, a = b -> (forall x, rel_res Q (f x) (g x)) -> rel_res Q (bind a f) (bind b g).
Proof. intros X U V Q a b f g -> H. destruct b; cbn [bind rel_res]; auto. Qed.

Lemma iteration_exact : forall fp prof rp nbins npart nprof n it f r, (0 < nprof)%nat -> same f r ->
  rel_res same (iterationA E reduce fp prof rp nbins npart nprof it f) (iteration sqrt fp prof rp n nbins npart nprof it r).
Proof.
  intros fp prof rp nbins npart nprof n it [fw fr fd ff] [rw rr rd rf rc] Hn (H1 & H2 & H3 & H4).
  cbn [f_weights f_rec f_discr f_diff r_weights r_rec r_discr r_diff] in *. subst. unfold iterationA, iteration.
  cbn [f_weights f_rec f_discr f_diff r_weights r_rec r_discr r_diff].
  apply bind_same; [reflexivity|intros rec1]. apply bind_same; [apply normalize_exact|intros rec2].
  apply bind_same; [reflexivity|intros df]. apply bind_same; [apply discrepancy_exact|intros d].
  apply bind_same; [reflexivity|intros dl]. apply bind_same; [reflexivity|intros cd].
  apply bind_same; [apply back_project_exact; auto|intros w1]. apply bind_same; [reflexivity|intros w2].
  apply bind_same; [apply check_exact|intros _]. repeat split.
Qed.

Lemma reconstruct_exact : forall xp prof niter nbins npart nprof, (0 < nprof)%nat ->
  rel_res same (reconstructA E reduce xp prof niter nbins npart nprof)
    (reconstruct sqrt (repeat 0 (nprof * nbins)) xp prof (zi niter) nbins npart nprof).
Proof.
  intros xp prof niter nbins npart nprof Hn. unfold reconstructA, reconstruct.
  apply bind_same; [reflexivity|intros rp]. apply bind_same; [reflexivity|intros fp].
  apply bind_same; [apply back_project_exact; auto|intros w1]. apply bind_same; [reflexivity|intros w2].
  apply bind_same; [apply check_exact|intros _].
  apply bind_rel with (R := same).
  - rewrite Nat2Z.id. apply for_rel.
    + repeat split. cbn [f_discr r_discr]. replace (Z.to_nat (zi niter + 1)) with (S niter) by lia. reflexivity.
    + intros k f r H. apply iteration_exact; auto.
  - intros [fw fr fd ff] [rw rr rd rf rc] (H1 & H2 & H3 & H4). cbn [f_weights f_rec f_discr f_diff r_weights r_rec r_discr r_diff] in *. subst.
    apply bind_same; [reflexivity|intros rec1]. apply bind_same; [apply normalize_exact|intros rec2].
    apply bind_same; [reflexivity|intros df]. apply bind_same; [apply discrepancy_exact|intros d].
    apply bind_same; [reflexivity|intros dl]. repeat split.
Qed.
End Exact.
