(** Lemmas on lost particles, the homogeneous distribution and images. *)
From Coq Require Import List ZArith Bool QArith Qcanon Lia Arith Permutation.
From Verif Require Import Base.Res Base.ResLemmas Base.QcLib Base.QcLemmas Base.Loops.
From Verif Require Import Model.MRecon Model.MParticles Spec.ReconSpec Spec.TomoSpec Spec.ParticleSpec.
From Verif Require Import Proof.PRecon Proof.PHybrid Proof.PTomo.
Import ListNotations.
Local Open Scope Qc_scope.

(** ** Lists *)
Lemma in_combine_seq : forall A (l : list A) i x,
  In (i, x) (combine (seq 0 (length l)) l) <-> nth_error l i = Some x.
Proof.
  intros A l. assert (G : forall (l : list A) k i x, In (i, x) (combine (seq k (length l)) l) <->
     (k <= i)%nat /\ nth_error l (i - k) = Some x).
  { clear l. induction l as [|a l IH]; intros k i x; simpl.
    - split; [tauto|]. intros [_ H]. destruct (i - k)%nat; discriminate.
    - rewrite IH. split.
      + intros [H|[H1 H2]].
        * inversion H; subst. split; auto. rewrite Nat.sub_diag. auto.
        * split; [lia|]. replace (i - k)%nat with (S (i - S k)) by lia. auto.
      + intros [H1 H2]. destruct (Nat.eq_dec i k) as [->|N].
        * rewrite Nat.sub_diag in H2. inversion H2. auto.
        * right. split; [lia|]. replace (i - k)%nat with (S (i - S k)) in H2 by lia. auto. }
  intros. rewrite G. rewrite Nat.sub_0_r. intuition lia.
Qed.

Lemma in_argwhere : forall A (p : A -> bool) t i j,
  In (i, j) (argwhere p t) <-> exists row x, nth_error t i = Some row /\ nth_error row j = Some x /\ p x = true.
Proof.
  intros. unfold argwhere. rewrite in_concat. split.
  - intros [l [Hl Hij]]. apply in_map_iff in Hl. destruct Hl as [[i0 row] [<- Hr]].
    apply in_combine_seq in Hr. cbn [fst snd] in Hij. apply in_map_iff in Hij. destruct Hij as [[j0 x] [E Hx]].
    cbn [fst] in E. inversion E; subst. apply filter_In in Hx. destruct Hx as [Hx Px]. apply in_combine_seq in Hx.
    exists row, x. auto.
  - intros [row [x [H1 [H2 H3]]]]. eexists. split.
    + apply in_map_iff. exists (i, row). split; [reflexivity|]. apply in_combine_seq. auto.
    + cbn [fst snd]. apply in_map_iff. exists (j, x). split; auto. apply filter_In. split; auto. apply in_combine_seq. auto.
Qed.

Lemma picked_filter : forall A (row : list A) (mask : nat -> bool),
  picked (filter mask (seq 0 (length row))) row
    (map snd (filter (fun jx => mask (fst jx)) (combine (seq 0 (length row)) row))).
Proof.
  intros. unfold picked.
  assert (G : forall (l : list A) k, map Some (map snd (filter (fun jx => mask (fst jx)) (combine (seq k (length l)) l)))
     = map (fun j => nth_error l (j - k)) (filter mask (seq k (length l)))).
  { clear. induction l as [|a l IH]; intros k; simpl; auto. rewrite <- (seq_shift (length l)).
    destruct (mask k) eqn:E; simpl.
    - rewrite Nat.sub_diag. simpl. f_equal. rewrite seq_shift, IH. apply map_ext_in. intros j Hj.
      apply filter_In in Hj. destruct Hj as [Hj _]. apply in_seq in Hj. replace (j - k)%nat with (S (j - S k)) by lia. auto.
    - rewrite seq_shift, IH. apply map_ext_in. intros j Hj.
      apply filter_In in Hj. destruct Hj as [Hj _]. apply in_seq in Hj. replace (j - k)%nat with (S (j - S k)) by lia. auto. }
  rewrite G. apply map_ext. intros. rewrite Nat.sub_0_r. auto.
Qed.

Lemma picked_all : forall A (row : list A), picked (seq 0 (length row)) row row.
Proof.
  intros. unfold picked. induction row using rev_ind; auto. rewrite app_length. simpl.
  replace (length row + 1)%nat with (S (length row)) by lia. rewrite seq_S, !map_app. simpl.
  f_equal.
  - rewrite IHrow. apply map_ext_in. intros j Hj. apply in_seq in Hj. rewrite nth_error_app1 by lia. auto.
  - rewrite nth_error_app2, Nat.sub_diag by lia. auto.
Qed.

Lemma filter_sorted : forall (f : nat -> bool) m a b, (a < b)%nat -> (b < length (filter f (seq 0 m)))%nat ->
  (nth a (filter f (seq 0 m)) 0 < nth b (filter f (seq 0 m)) 0)%nat.
Proof.
  intros f m.
  assert (G : forall n k a b, (a < b)%nat -> (b < length (filter f (seq k n)))%nat ->
    (nth a (filter f (seq k n)) 0 < nth b (filter f (seq k n)) 0)%nat).
  { induction n; intros k a b Hab Hb; simpl in *; [lia|]. destruct (f k) eqn:E; [|auto].
    destruct b; [lia|]. simpl in *. destruct a.
    - assert (I : In (nth b (filter f (seq (S k) n)) 0%nat) (filter f (seq (S k) n))) by (apply nth_In; lia).
      apply filter_In in I. destruct I as [I _]. apply in_seq in I. lia.
    - apply IHn; lia. }
  apply G.
Qed.

Lemma filter_split_length : forall A (f : A -> bool) l,
  (length (filter f l) + length (filter (fun x => negb (f x)) l) = length l)%nat.
Proof. induction l; simpl; auto. destruct (f a); simpl; lia. Qed.

Lemma Forall2_map_r : forall A B (R : A -> B -> Prop) (f : A -> B) l,
  (forall a, In a l -> R a (f a)) -> Forall2 R l (map f l).
Proof. induction l; intros; simpl; constructor; auto. - apply H. left; auto. - apply IHl. intros. apply H. right; auto. Qed.

(** ** filter_lost *)
Section Lost.
Variable w : Z.
Definition lostcol (xp : list (list num)) (j : nat) : bool :=
  existsb (fun row => match nth_error row j with Some x => is_lost (qz w) x | None => false end) xp.
Definition keepers (xp : list (list num)) (m : nat) : list nat := filter (fun j => negb (lostcol xp j)) (seq 0 m).

Lemma lostcol_argwhere : forall xp j, lostcol xp j = true <-> In j (map snd (argwhere (is_lost (qz w)) xp)).
Proof.
  intros. unfold lostcol. rewrite existsb_exists, in_map_iff. split.
  - intros [row [Hr H]]. destruct (nth_error row j) as [x|] eqn:E; [|discriminate].
    apply In_nth_error in Hr. destruct Hr as [i Hi]. exists (i, j). split; auto. apply in_argwhere. eauto.
  - intros [[i j'] [Ej H]]. simpl in Ej. subst j'. apply in_argwhere in H. destruct H as [row [x [H1 [H2 H3]]]].
    exists row. split; [eapply nth_error_In; eauto|]. rewrite H2. auto.
Qed.

Lemma filter_lost_gen : forall B n m xp (yp : list (list B)), rectangular n m xp -> rectangular n m yp -> (0 < n)%nat ->
  match filter_lost xp yp m m w with
  | Ok (xp', yp', lost) => keepers xp m <> [] /\ Forall2 (picked (keepers xp m)) xp xp' /\
      Forall2 (picked (keepers xp m)) yp yp' /\ (lost + length (keepers xp m) = m)%nat
  | Fail e => e = Raised InvalidParticleError /\ keepers xp m = []
  end.
Proof.
  intros B n m xp yp [Lx Rx] [Ly Ry] Hn. unfold filter_lost. rewrite Forall_forall in Rx, Ry.
  assert (Nil : forall xp', Forall2 (picked (keepers xp m)) xp xp' -> (length (concat xp') = 0%nat <-> keepers xp m = [])).
  { intros xp' F. revert F. generalize (keepers xp m) as kp. intros kp F. assert (Lp : forall A keep (r r' : list A), picked keep r r' -> length r' = length keep).
    { intros A keep r r' P. unfold picked in P. apply (f_equal (@length _)) in P. rewrite !map_length in P. auto. }
    destruct F as [|r r' l l' P F]; [simpl in Lx; lia|]. simpl. rewrite app_length. split.
    - intros E0. apply Lp in P. destruct kp; auto. simpl in P. lia.
    - intros K. rewrite K in *. apply Lp in P. rewrite P. clear - F Lp. induction F; simpl; auto.
      rewrite app_length. apply Lp in H. rewrite H. auto. }
  destruct (Nat.ltb_spec 0 (length (argwhere (is_lost (qz w)) xp))) as [L|L].
  - rewrite Nat.eqb_refl. cbn [negb bind].
    set (cols := nodup Nat.eq_dec (map snd (argwhere (is_lost (qz w)) xp))).
    set (mask := fun j => negb (existsb (Nat.eqb j) cols)).
    assert (M : forall j, mask j = negb (lostcol xp j)).
    { intros j. unfold mask. f_equal. apply eq_true_iff_eq. rewrite lostcol_argwhere, existsb_exists. split.
      - intros [k [Hk E]]. apply Nat.eqb_eq in E. subst. apply nodup_In in Hk. auto.
      - intros H. exists j. split; [apply nodup_In; auto|]. apply Nat.eqb_refl. }
    assert (K : keepers xp m = filter mask (seq 0 m)).
    { unfold keepers. apply filter_ext. intros. symmetry. apply M. }
    assert (PX : Forall2 (picked (keepers xp m)) xp (select_cols mask xp)).
    { unfold select_cols. apply Forall2_map_r. intros r Hr. rewrite K. rewrite <- (Rx r Hr). apply picked_filter. }
    assert (PY : Forall2 (picked (keepers xp m)) yp (select_cols mask yp)).
    { unfold select_cols. apply Forall2_map_r. intros r Hr. rewrite K. rewrite <- (Ry r Hr). apply picked_filter. }
    assert (C : (length cols + length (keepers xp m) = m)%nat).
    { assert (P : Permutation cols (filter (lostcol xp) (seq 0 m))).
      { apply NoDup_Permutation; [apply NoDup_nodup|apply NoDup_filter, seq_NoDup|].
        intros j. unfold cols. rewrite nodup_In, <- lostcol_argwhere, filter_In, in_seq. split; [|tauto].
        intros H. split; auto. unfold lostcol in H. apply existsb_exists in H. destruct H as [r [Hr H]].
        destruct (nth_error r j) eqn:E; [|discriminate]. apply nth_error_Some_lt in E || (assert (j < length r)%nat by (apply nth_error_Some; congruence)).
        rewrite (Rx r Hr) in *. lia. }
      apply Permutation_length in P. rewrite P. unfold keepers. rewrite filter_split_length, seq_length. auto. }
    destruct (Nat.eqb_spec (length (concat (select_cols mask xp))) 0) as [E|E].
    + split; auto. apply (Nil _ PX). auto.
    + split; auto. intros X. apply E. apply (Nil _ PX). auto.
  - cbn [bind].
    assert (NL : forall j, lostcol xp j = false).
    { intros j. destruct (lostcol xp j) eqn:E; auto. apply lostcol_argwhere in E.
      destruct (argwhere (is_lost (qz w)) xp); [contradiction|]. simpl in L. lia. }
    assert (K : keepers xp m = seq 0 m).
    { unfold keepers. erewrite filter_ext by (intros; rewrite NL; reflexivity). clear.
      induction (seq 0 m); simpl; auto. simpl. f_equal. auto. }
    assert (PX : Forall2 (picked (keepers xp m)) xp xp).
    { rewrite <- (map_id xp) at 3. apply Forall2_map_r. intros r Hr. rewrite K, <- (Rx r Hr). apply picked_all. }
    assert (PY : Forall2 (picked (keepers xp m)) yp yp).
    { rewrite <- (map_id yp) at 2. apply Forall2_map_r. intros r Hr. rewrite K, <- (Ry r Hr). apply picked_all. }
    destruct (Nat.eqb_spec (length (concat xp)) 0) as [E|E].
    + split; auto. apply (Nil _ PX). auto.
    + split; [|split; [|split]]; auto.
      * intros X. apply E. apply (Nil _ PX). auto.
      * rewrite K, seq_length. auto.
Qed.

Lemma is_lost_inside : forall x, not_nan x -> (is_lost (qz w) x = false <-> inside w x).
Proof.
  intros x N. unfold is_lost. destruct x; simpl.
  - rewrite orb_false_iff, qleb_false, qltb_false. tauto.
  - destruct negative; simpl; split; try discriminate; tauto.
  - exfalso. apply N. auto.
Qed.

Lemma keepers_survivors : forall n m xp, rectangular n m xp -> Forall (Forall not_nan) xp -> survivors w m xp (keepers xp m).
Proof.
  intros n m xp [L R] F. split.
  - apply filter_sorted.
  - intros j. unfold keepers. rewrite filter_In, in_seq, negb_true_iff. split.
    + intros [H1 H2]. split; [lia|]. intros row x Hr Hx. unfold lostcol in H2.
      apply is_lost_inside.
      * rewrite Forall_forall in F. specialize (F _ Hr). rewrite Forall_forall in F. apply F. eapply nth_error_In; eauto.
      * destruct (is_lost (qz w) x) eqn:E; auto. exfalso. rewrite <- not_true_iff_false in H2. apply H2.
        apply existsb_exists. exists row. split; auto. rewrite Hx. auto.
    + intros [H1 H2]. split; [lia|]. rewrite <- not_true_iff_false. intros E. apply existsb_exists in E.
      destruct E as [row [Hr E]]. destruct (nth_error row j) as [x|] eqn:Hx; [|discriminate].
      specialize (H2 row x Hr Hx). apply is_lost_inside in H2; [congruence|].
      rewrite Forall_forall in F. specialize (F _ Hr). rewrite Forall_forall in F. apply F. eapply nth_error_In; eauto.
Qed.
End Lost.

(** ** Homogeneous distribution *)
Lemma bin_pts_in : forall s f, In f (bin_pts s) -> 0 < f /\ f < 1.
Proof.
  intros s f H. unfold bin_pts in H. apply in_map_iff in H. destruct H as [k [<- Hk]]. apply in_seq in Hk.
  assert (Ps : 0 < qn s) by (apply qn_pos; lia).
  assert (P2 : 0 < qz 2 * qn s) by (assert (qz 2 = 1 + 1) by (apply Qc_is_canon; reflexivity); rewrite H; qclra).
  assert (E2 : qz 2 = 1 + 1) by (apply Qc_is_canon; reflexivity).
  assert (K1 : 1 <= qn k) by (change 1 with (qn 1); apply qn_le; lia).
  assert (K2 : qn k <= qn s) by (apply qn_le; lia).
  split.
  - apply Qcdiv_pos; auto. rewrite E2. qclra.
  - apply Qcdiv_lt_iff; auto. rewrite Qcmult_1_l, E2. qclra.
Qed.

Lemma grid_flat : forall s a b,
  grid s a b = flat_map (fun i => map (fun f => qz i + f) (bin_pts s)) (arange a b).
Proof.
  intros. unfold grid. induction (arange a b) as [|i l IH]; simpl; auto.
  assert (C : forall A B (l1 l1' : list A) (l2 l2' : list B), length l1 = length l2 ->
     combine (l1 ++ l1') (l2 ++ l2') = combine l1 l2 ++ combine l1' l2').
  { clear. induction l1; intros; destruct l2; simpl in *; try discriminate; auto. f_equal. apply IHl1. lia. }
  rewrite C, map_app, IH.
  - f_equal. clear. assert (L : length (bin_pts s) = s) by (unfold bin_pts; rewrite map_length, seq_length; auto).
    rewrite <- L at 1. generalize (bin_pts s). clear. induction l; simpl; auto. f_equal. auto.
  - rewrite repeat_length. unfold bin_pts. rewrite map_length, seq_length. auto.
Qed.

Lemma floor_shift : forall i f, 0 < f -> f < 1 -> qfloor (qz i + f) = i.
Proof. intros. apply qfloor_unique; qclra. Qed.

Lemma filter_flat_map : forall A B (f : A -> list B) p l, filter p (flat_map f l) = flat_map (fun a => filter p (f a)) l.
Proof. induction l; simpl; auto. rewrite filter_app, IHl. auto. Qed.

Lemma filter_none : forall A (p : A -> bool) l, (forall a, In a l -> p a = false) -> filter p l = [].
Proof. induction l; intros; simpl; auto. rewrite H by (left; auto). apply IHl. intros. apply H. right; auto. Qed.
Lemma filter_all : forall A (p : A -> bool) l, (forall a, In a l -> p a = true) -> filter p l = l.
Proof. induction l; intros; simpl; auto. rewrite H by (left; auto). f_equal. apply IHl. intros. apply H. right; auto. Qed.

Lemma in_arange : forall a b i, In i (arange a b) <-> (a <= i < b)%Z.
Proof.
  intros. unfold arange. rewrite in_map_iff. split.
  - intros [k [<- H]]. apply in_seq in H. lia.
  - intros H. exists (Z.to_nat (i - a)). split; [lia|]. apply in_seq. lia.
Qed.

Lemma arange_NoDup : forall a b, NoDup (arange a b).
Proof. intros. unfold arange. apply FinFun.Injective_map_NoDup; [|apply seq_NoDup]. intros x y. lia. Qed.

Lemma flat_map_single : forall B (f : Z -> list B) l i, NoDup l -> (forall k, k <> i -> f k = []) ->
  flat_map f l = if in_dec Z.eq_dec i l then f i else [].
Proof.
  induction l as [|a l IH]; intros i N H; simpl; auto. inversion N; subst.
  destruct (Z.eq_dec a i) as [->|E].
  - rewrite (IH i) by auto. destruct (in_dec Z.eq_dec i l); [contradiction|]. rewrite app_nil_r.
    destruct (Z.eq_dec i i); [|congruence]. auto.
  - rewrite (H a) by auto. simpl. rewrite (IH i) by auto. destruct (Z.eq_dec i a); [congruence|].
    destruct (in_dec Z.eq_dec i l); auto.
Qed.

Lemma grid_cell : forall s a b i,
  filter (fun x => Z.eqb (qfloor x) i) (grid s a b) =
  if (a <=? i)%Z && (i <? b)%Z then map (fun f => qz i + f) (bin_pts s) else [].
Proof.
  intros. rewrite grid_flat, filter_flat_map. rewrite (flat_map_single _ _ _ i (arange_NoDup a b)).
  - destruct (in_dec Z.eq_dec i (arange a b)) as [I|I]; rewrite in_arange in I.
    + destruct (Z.leb_spec a i); [|lia]. destruct (Z.ltb_spec i b); [|lia]. simpl. apply filter_all.
      intros x Hx. apply in_map_iff in Hx. destruct Hx as [f [<- Hf]]. apply bin_pts_in in Hf.
      rewrite floor_shift by tauto. apply Z.eqb_refl.
    + destruct (Z.leb_spec a i); simpl; auto. destruct (Z.ltb_spec i b); simpl; auto. lia.
  - intros k Hk. apply filter_none. intros x Hx. apply in_map_iff in Hx. destruct Hx as [f [<- Hf]]. apply bin_pts_in in Hf.
    rewrite floor_shift by tauto. apply Z.eqb_neq. auto.
Qed.

Lemma in_grid : forall s a b x, In x (grid s a b) -> exists i f, x = qz i + f /\ (a <= i < b)%Z /\ 0 < f /\ f < 1.
Proof.
  intros s a b x H. rewrite grid_flat in H. apply in_flat_map in H. destruct H as [i [Hi H]].
  apply in_map_iff in H. destruct H as [f [<- Hf]]. apply in_arange in Hi. apply bin_pts_in in Hf. exists i, f. tauto.
Qed.

Lemma filterM_ok : forall A (p : A -> res bool) q l, (forall a, In a l -> p a = Ok (q a)) ->
  filterM p l = Ok (filter q l).
Proof.
  intros. unfold filterM. rewrite (mapM_ok_map _ _ p q) by auto. cbn [bind]. f_equal.
  clear H. induction l; simpl; auto. destruct (q a); simpl; f_equal; auto.
Qed.

Lemma zfold_max : forall l x y, In y (x :: l) -> (y <= fold_left Z.max l x)%Z.
Proof.
  induction l; intros x y [->|H]; simpl; try lia; try contradiction.
  - etransitivity; [|apply (IHl (Z.max y a) (Z.max y a)); left; auto]. lia.
  - destruct H as [->|H].
    + etransitivity; [|apply (IHl (Z.max x y) (Z.max x y)); left; auto]. lia.
    + apply IHl. right. auto.
Qed.
Lemma zfold_min : forall l x y, In y (x :: l) -> (fold_left Z.min l x <= y)%Z.
Proof.
  induction l; intros x y [->|H]; simpl; try lia; try contradiction.
  - etransitivity; [apply (IHl (Z.min y a) (Z.min y a)); left; auto|]. lia.
  - destruct H as [->|H].
    + etransitivity; [apply (IHl (Z.min x y) (Z.min x y)); left; auto|]. lia.
    + apply IHl. right. auto.
Qed.
Lemma zmax_ok : forall l, l <> [] -> exists t, zmax l = Ok t /\ forall y, In y l -> (y <= t)%Z.
Proof. destruct l; intros; [congruence|]. eexists. split; [reflexivity|]. intros. apply zfold_max. auto. Qed.
Lemma zmin_ok : forall l, l <> [] -> exists t, zmin l = Ok t /\ forall y, In y l -> (t <= y)%Z.
Proof. destruct l; intros; [congruence|]. eexists. split; [reflexivity|]. intros. apply zfold_min. auto. Qed.

Lemma np_get_ok : forall A (l : list A) i x, nth_error l i = Some x -> np_get l (Z.of_nat i) = Ok x.
Proof.
  intros. assert (i < length l)%nat by (apply nth_error_Some; congruence). unfold np_get.
  destruct (Z.ltb_spec (Z.of_nat i) 0); [lia|]. destruct (Z.leb_spec (Z.of_nat (length l)) (Z.of_nat i)); [lia|].
  simpl. destruct (Z.ltb_spec (Z.of_nat i) 0); [lia|]. simpl.
  unfold get. destruct (Z.ltb_spec (Z.of_nat i) 0); [lia|]. rewrite Nat2Z.id, H. auto.
Qed.

Definition jok (l : list Z) (i : Z) : Z := nth (Z.to_nat i) l 0%Z.
Lemma np_get_jok : forall l i f, (0 <= i < Z.of_nat (length l))%Z -> 0 < f -> f < 1 ->
  np_get l (qtrunc (qz i + f)) = Ok (jok l i).
Proof.
  intros. rewrite qtrunc_nonneg.
  - rewrite floor_shift by auto. rewrite <- (Z2Nat.id i) at 1 by lia. apply np_get_ok.
    apply nth_error_nth'. lia.
  - assert (qz 0 <= qz i) by (apply qz_le; lia). rewrite qz_0 in *. qclra.
Qed.

Lemma qz_frac_lt : forall j k f, 0 < f -> f < 1 -> qltb (qz j + f) (qz k) = (j <? k)%Z.
Proof.
  intros. destruct (Z.ltb_spec j k).
  - apply qltb_true. assert (qz (j + 1) <= qz k) by (apply qz_le; lia). rewrite qz_add, qz_1 in *. qclra.
  - apply qltb_false. apply qz_le in H1. qclra.
Qed.
Lemma qz_lt_frac : forall j k f, 0 < f -> f < 1 -> qltb (qz k) (qz j + f) = (k <=? j)%Z.
Proof.
  intros. destruct (Z.leb_spec k j).
  - apply qltb_true. apply qz_le in H1. qclra.
  - apply qltb_false. assert (qz (j + 1) <= qz k) by (apply qz_le; lia). rewrite qz_add, qz_1 in *. qclra.
Qed.

Definition mesh (x y : list Qc) := flat_map (fun b : Qc => map (fun a : Qc => (a, b)) x) y.

Lemma homogeneous_filter : forall s imin imax jmin jmax top bot,
  (0 <= imin)%Z -> (imax < Z.of_nat (length jmin))%Z -> length jmax = length jmin ->
  zmax jmax = Ok top -> zmin jmin = Ok bot ->
  homogeneous_coords s imin imax jmin jmax = Ok (filter (fun p =>
     (qfloor (snd p) <? jok jmax (qfloor (fst p)))%Z && (jok jmin (qfloor (fst p)) <=? qfloor (snd p))%Z)
     (mesh (grid s imin (imax + 1)) (grid s bot top))).
Proof.
  intros s imin imax jmin jmax top bot H0 H1 HL Et Eb. unfold homogeneous_coords. rewrite Et, Eb. cbn [bind].
  fold (mesh (grid s imin (imax + 1)) (grid s bot top)).
  assert (M : forall p, In p (mesh (grid s imin (imax + 1)) (grid s bot top)) ->
    exists i j f g, p = (qz i + f, qz j + g) /\ (imin <= i <= imax)%Z /\ 0 < f /\ f < 1 /\ 0 < g /\ g < 1).
  { intros p Hp. unfold mesh in Hp. apply in_flat_map in Hp. destruct Hp as [b [Hb Hp]].
    apply in_map_iff in Hp. destruct Hp as [a [<- Ha]]. apply in_grid in Ha. apply in_grid in Hb.
    destruct Ha as (i & f & -> & ? & ? & ?). destruct Hb as (j & g & -> & ? & ? & ?).
    exists i, j, f, g. repeat split; auto; lia. }
  rewrite (filterM_ok _ _ (fun p => (qfloor (snd p) <? jok jmax (qfloor (fst p)))%Z)).
  - cbn [bind]. rewrite (filterM_ok _ _ (fun p => (jok jmin (qfloor (fst p)) <=? qfloor (snd p))%Z)).
    + f_equal. generalize (mesh (grid s imin (imax + 1)) (grid s bot top)). clear. intros l. induction l; simpl; auto.
      destruct (_ <? _)%Z; simpl; rewrite IHl; auto.
    + intros p Hp. apply filter_In in Hp. destruct Hp as [Hp _]. apply M in Hp.
      destruct Hp as (i & j & f & g & -> & ? & ? & ? & ? & ?). cbn [fst snd].
      rewrite np_get_jok by (auto; lia). cbn [bind]. rewrite !floor_shift by auto. f_equal. apply qz_lt_frac; auto.
  - intros p Hp. apply M in Hp.
    destruct Hp as (i & j & f & g & -> & ? & ? & ? & ? & ?). cbn [fst snd].
    rewrite np_get_jok by (auto; lia). cbn [bind]. rewrite !floor_shift by auto. f_equal. apply qz_frac_lt; auto.
Qed.

Lemma mesh_cell : forall X Y i j,
  filter (in_cell i j) (mesh X Y) =
  mesh (filter (fun x => Z.eqb (qfloor x) i) X) (filter (fun y => Z.eqb (qfloor y) j) Y).
Proof.
  intros. unfold mesh. rewrite filter_flat_map. induction Y as [|y Y IH]; simpl; auto. rewrite IH. clear IH.
  destruct (Z.eqb (qfloor y) j) eqn:E; simpl.
  - f_equal. induction X; simpl; auto. unfold in_cell at 1. simpl. rewrite E, andb_true_r.
    destruct (Z.eqb (qfloor a) i); simpl; rewrite IHX; auto.
  - rewrite filter_none; auto. intros p Hp. apply in_map_iff in Hp. destruct Hp as [a [<- _]]. unfold in_cell. simpl.
    rewrite E. apply andb_false_r.
Qed.

Lemma filter_filter : forall A (p q : A -> bool) l, filter p (filter q l) = filter (fun x => q x && p x) l.
Proof. induction l; simpl; auto. destruct (q a); simpl; auto. destruct (p a); rewrite IHl; auto. Qed.

Lemma homogeneous_cells : forall s imin imax jmin jmax, (0 < s)%nat ->
  (0 <= imin)%Z -> (imax < Z.of_nat (length jmin))%Z -> length jmax = length jmin -> jmin <> [] ->
  exists c, homogeneous_coords s imin imax jmin jmax = Ok c /\
    forall i j, filter (in_cell i j) c =
      if ((imin <=? i) && (i <=? imax) && (jok jmin i <=? j) && (j <? jok jmax i))%Z
      then cell_points s i j else [].
Proof.
  intros s imin imax jmin jmax Hs H0 H1 HL Hne.
  destruct (zmax_ok jmax) as [top [Et Ht]]. { destruct jmax; [destruct jmin; [congruence|discriminate]|congruence]. }
  destruct (zmin_ok jmin Hne) as [bot [Eb Hb]].
  eexists. split; [apply (homogeneous_filter _ _ _ _ _ top bot); auto|].
  intros i j. rewrite filter_filter.
  set (cond := ((j <? jok jmax i) && (jok jmin i <=? j))%Z).
  transitivity (if cond then filter (in_cell i j) (mesh (grid s imin (imax + 1)) (grid s bot top)) else []).
  { destruct cond eqn:Ec; [apply filter_ext|apply filter_none].
    - intros p. unfold in_cell. destruct (Z.eqb_spec (qfloor (fst p)) i); [|rewrite !andb_false_r; auto].
      destruct (Z.eqb_spec (qfloor (snd p)) j); [|rewrite !andb_false_r; auto]. cbn [andb]. subst i j.
      unfold cond in Ec. apply andb_prop in Ec. destruct Ec as [E1 E2]. rewrite E1, E2. auto.
    - intros p _. unfold in_cell. destruct (Z.eqb_spec (qfloor (fst p)) i); [|rewrite andb_false_r; auto].
      destruct (Z.eqb_spec (qfloor (snd p)) j); [|rewrite andb_false_r; auto]. cbn [andb]. subst i j.
      rewrite andb_true_r. exact Ec. }
  rewrite mesh_cell, !grid_cell. unfold cond.
  destruct (Z.leb_spec imin i) as [A|A]; [|simpl; destruct (_ && _)%bool; auto; unfold mesh; clear; induction (if (_ : bool) then _ else _); simpl; auto].
  destruct (Z.leb_spec i imax) as [B|B].
  2:{ rewrite (proj2 (Z.ltb_ge i (imax + 1))) by lia. cbn [andb]. destruct (_ && _)%bool; auto. unfold mesh. clear. induction (if (_ : bool) then _ else _); simpl; auto. }
  rewrite (proj2 (Z.ltb_lt i (imax + 1))) by lia. cbn [andb].
  destruct (Z.leb_spec (jok jmin i) j) as [C|C]; [|rewrite andb_false_r; auto].
  destruct (Z.ltb_spec j (jok jmax i)) as [D|D]; [|auto]. cbn [andb].
  assert (Hi : (Z.to_nat i < length jmin)%nat) by lia.
  assert (bot <= jok jmin i)%Z by (apply Hb, nth_In; auto).
  assert (jok jmax i <= top)%Z by (apply Ht, nth_In; lia).
  rewrite (proj2 (Z.leb_le bot j)), (proj2 (Z.ltb_lt j top)) by lia. cbn [andb].
  unfold mesh, cell_points, bin_pts. rewrite !flat_map_concat_map, !map_map. f_equal. apply map_ext. intros b.
  rewrite !map_map. reflexivity.
Qed.
