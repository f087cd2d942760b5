(** Lemmas on the foot tangent fits and on interpolation. *)
From Coq Require Import List ZArith Bool QArith Qcanon Permutation Lia.
From Verif Require Import Base.Res Base.ResLemmas Base.QcLib Base.QcLemmas Model.MParticles Model.MPreproc Model.MFoot Spec.FootSpec.
From Verif Require Import Proof.PParticles.
Import ListNotations.
Local Open Scope Qc_scope.

(** Indices with a property. *)
Lemma where_filter p l : forall i, where_ i p l = filter (fun k => p (nth (k - i) l 0)) (seq i (length l)).
Proof.
  induction l as [|x l IH]; intro i; cbn [where_ length seq filter]; [reflexivity|].
  rewrite Nat.sub_diag. cbn [nth]. rewrite IH.
  assert (E : filter (fun k => p (nth (k - S i) l 0)) (seq (S i) (length l)) =
              filter (fun k => p (nth (k - i) (x :: l) 0)) (seq (S i) (length l))).
  { apply filter_ext_in. intros k K. apply in_seq in K. replace (k - i)%nat with (S (k - S i)) by lia. reflexivity. }
  rewrite E. destruct (p x); reflexivity.
Qed.
Lemma where_seq p l : where_ 0 p l = filter (fun k => p (nth k l 0)) (seq 0 (length l)).
Proof. rewrite where_filter. apply filter_ext. intro k. rewrite Nat.sub_0_r. reflexivity. Qed.
Lemma filter_filter {A} (p q : A -> bool) l : filter q (filter p l) = filter (fun x => p x && q x) l.
Proof.
  induction l as [|x l IH]; [reflexivity|]. cbn. destruct (p x); cbn; [destruct (q x); rewrite IH; reflexivity|exact IH].
Qed.
Lemma filter_none {A} (p : A -> bool) l : (forall x, In x l -> p x = false) -> filter p l = [].
Proof.
  induction l as [|x l IH]; intro H; [reflexivity|]. cbn. rewrite (H x) by (left; reflexivity).
  apply IH. intros. apply H. right. assumption.
Qed.
Lemma first_filter (P : nat -> bool) n k : (k < n)%nat -> P k = true -> (forall j, (j < k)%nat -> P j = false) ->
  first_ (filter P (seq 0 n)) = Ok k.
Proof.
  intros K H F. replace n with (k + S (n - S k))%nat by lia. rewrite seq_app, filter_app.
  rewrite filter_none by (intros x I; apply in_seq in I; apply F; lia).
  cbn [app seq filter plus]. rewrite H. reflexivity.
Qed.
Lemma last_app_single {A} (l : list A) x d : last (l ++ [x]) d = x.
Proof. apply last_last. Qed.
Lemma last_filter (P : nat -> bool) n k : (k < n)%nat -> P k = true -> (forall j, (k < j < n)%nat -> P j = false) ->
  last_ (filter P (seq 0 n)) = Ok k.
Proof.
  intros K H F. replace n with (S k + (n - S k))%nat by lia. rewrite seq_app, filter_app.
  rewrite (filter_none P (seq (0 + S k) _)) by (intros x I; apply in_seq in I; apply F; lia).
  rewrite app_nil_r. rewrite seq_S, filter_app. cbn [filter plus]. rewrite H.
  destruct (filter P (seq 0 k)) as [|a l]; [reflexivity|].
  cbn [app last_]. f_equal. change (a :: l ++ [k]) with ((a :: l) ++ [k]). apply last_last.
Qed.

Lemma max_ge l x : x <= fold_left qmax l x /\ forall v, In v l -> v <= fold_left qmax l x.
Proof.
  revert x. induction l as [|y l IH]; intro x; cbn [fold_left].
  - split; [qclra|contradiction].
  - destruct (IH (qmax x y)) as [H1 H2].
    assert (x <= qmax x y /\ y <= qmax x y) as [M1 M2].
    { unfold qmax. destruct (qleb x y) eqn:E; [apply qleb_true in E|apply qleb_false in E]; split; qclra. }
    split; [qclra|]. intros v [<-|I]; [qclra|auto].
Qed.
Lemma max_in l x : fold_left qmax l x = x \/ In (fold_left qmax l x) l.
Proof.
  revert x. induction l as [|y l IH]; intro x; cbn [fold_left]; [left; reflexivity|].
  destruct (IH (qmax x y)) as [E|I]; [|right; right; exact I].
  rewrite E. unfold qmax. destruct (qleb x y); [right; left; reflexivity|left; reflexivity].
Qed.
Lemma np_max_peak y p m : peak y p m -> np_max y = Ok m.
Proof.
  intros (H1 & H2 & _). destruct y as [|x y]; [destruct p; discriminate|]. cbn [np_max]. f_equal.
  destruct (max_ge y x) as [G1 G2]. apply Qcle_antisym.
  - destruct (max_in y x) as [->|I]; [apply (H2 0%nat); reflexivity|].
    apply In_nth_error in I as [k K]. apply (H2 (S k)). exact K.
  - destruct p as [|p]; [injection H1 as <-; exact G1|]. apply G2. eapply nth_error_In. exact H1.
Qed.
Lemma peak_unique y p m p' m' : peak y p m -> peak y p' m' -> p = p' /\ m = m'.
Proof.
  intros (H1 & H2 & H3) (G1 & G2 & G3).
  assert (m = m') by (apply Qcle_antisym; eauto). subst. split; [|reflexivity].
  destruct (lt_eq_lt_dec p p') as [[L|E]|L]; [|exact E|].
  - specialize (G3 _ _ L H1). exfalso. qclra.
  - specialize (H3 _ _ L G1). exfalso. qclra.
Qed.
Lemma nth_err {A} (l : list A) k v d : nth_error l k = Some v -> nth k l d = v /\ (k < length l)%nat.
Proof. intro H. split; [apply nth_error_nth; exact H|]. apply nth_error_Some. congruence. Qed.
Lemma nth_some (l : list Qc) k : (k < length l)%nat -> nth_error l k = Some (nth k l 0).
Proof. intro H. apply nth_error_nth'. exact H. Qed.
Lemma qltb_t a b : a < b -> qltb a b = true.
Proof. destruct (qltb_spec a b); intro; [reflexivity|exfalso; qclra]. Qed.
Lemma qltb_f a b : b <= a -> qltb a b = false.
Proof. destruct (qltb_spec a b); intro; [exfalso; qclra|reflexivity]. Qed.
Lemma qleb_t a b : a <= b -> qleb a b = true.
Proof. destruct (qleb_spec a b); intro; [reflexivity|exfalso; qclra]. Qed.
Lemma qleb_f a b : b < a -> qleb a b = false.
Proof. destruct (qleb_spec a b); intro; [exfalso; qclra|reflexivity]. Qed.
Lemma qeqb_t a : qeqb a a = true.
Proof. destruct (qeqb_spec a a); congruence. Qed.
Lemma qeqb_f a b : a <> b -> qeqb a b = false.
Proof. destruct (qeqb_spec a b); congruence. Qed.

Lemma peak_index y p m : peak y p m -> first_ (where_ 0 (fun v => qeqb v m) y) = Ok p.
Proof.
  intros (H1 & H2 & H3). rewrite where_seq. destruct (nth_err _ _ _ 0 H1) as [E L].
  apply first_filter; [exact L| |].
  - cbn. rewrite E. apply qeqb_t.
  - intros j J. apply qeqb_f. assert (S := nth_some y j ltac:(lia)). specialize (H3 _ _ J S). intros Q. rewrite Q in H3. qclra.
Qed.
Lemma left_index y p m l : peak y p m -> left_edge y l ->
  last_ (filter (fun i => i <? p)%nat (where_ 0 (fun v => qltb v (qq 3 20 * m)) y)) = Ok l.
Proof.
  intros P (p' & m' & P' & L & (v & V1 & V2) & A). destruct (peak_unique _ _ _ _ _ P P') as [<- <-].
  rewrite where_seq, filter_filter. destruct (nth_err _ _ _ 0 V1) as [E LN].
  apply last_filter; [exact LN| |].
  - rewrite E, qltb_t by exact V2. cbn. apply Nat.ltb_lt. exact L.
  - intros j J. destruct (Nat.ltb_spec j p); [|apply andb_false_r]. rewrite andb_true_r.
    apply qltb_f. apply (A j); [lia|]. apply nth_some. lia.
Qed.
Lemma right_index y p m r : peak y p m -> right_edge y r ->
  first_ (filter (fun i => p <? i)%nat (where_ 0 (fun v => qltb v (qq 3 20 * m)) y)) = Ok r.
Proof.
  intros P (p' & m' & P' & L & (v & V1 & V2) & A). destruct (peak_unique _ _ _ _ _ P P') as [<- <-].
  rewrite where_seq, filter_filter. destruct (nth_err _ _ _ 0 V1) as [E LN].
  apply first_filter; [exact LN| |].
  - rewrite E, qltb_t by exact V2. cbn. apply Nat.ltb_lt. exact L.
  - intros j J. destruct (Nat.ltb_spec p j); [|apply andb_false_r]. rewrite andb_true_r.
    apply qltb_f. apply (A j); [lia|]. apply nth_some. lia.
Qed.
Lemma first_high_index y p m l : peak y p m -> first_high y l ->
  first_ (where_ 0 (fun v => qleb (qq 3 20 * m) v) y) = Ok l.
Proof.
  intros P (p' & m' & P' & (v & V1 & V2) & A). destruct (peak_unique _ _ _ _ _ P P') as [<- <-].
  rewrite where_seq. destruct (nth_err _ _ _ 0 V1) as [E LN]. apply first_filter; [exact LN| |].
  - rewrite E. apply qleb_t. exact V2.
  - intros j J. apply qleb_f. apply (A j); [lia|]. apply nth_some. lia.
Qed.
Lemma last_high_index y p m r : peak y p m -> last_high y r ->
  last_ (where_ 0 (fun v => qleb (qq 3 20 * m) v) y) = Ok r.
Proof.
  intros P (p' & m' & P' & (v & V1 & V2) & A). destruct (peak_unique _ _ _ _ _ P P') as [<- <-].
  rewrite where_seq. destruct (nth_err _ _ _ 0 V1) as [E LN]. apply last_filter; [exact LN| |].
  - rewrite E. apply qleb_t. exact V2.
  - intros j J. apply qleb_f. apply (A j); [lia|]. apply nth_some. lia.
Qed.

(** Slices. *)
Lemma skipn_cons {A} (l : list A) k v : nth_error l k = Some v -> skipn k l = v :: skipn (S k) l.
Proof.
  revert l. induction k as [|k IH]; intros [|x l] H; cbn in H; try discriminate.
  - injection H as ->. reflexivity.
  - cbn [skipn]. apply IH. exact H.
Qed.
Lemma slice_nat {A} (l : list A) a b : (b <= length l)%nat ->
  slice l (Z.of_nat a) (Z.of_nat b) = firstn (b - Nat.min a (length l)) (skipn (Nat.min a (length l)) l).
Proof.
  intro H. unfold slice, pyidx.
  destruct (Z.ltb_spec (Z.of_nat a) 0); [lia|]. destruct (Z.ltb_spec (Z.of_nat b) 0); [lia|].
  replace (Z.to_nat (Z.min (Z.of_nat a) (Z.of_nat (length l)))) with (Nat.min a (length l)) by lia.
  replace (Z.to_nat (Z.min (Z.of_nat b) (Z.of_nat (length l)))) with b by lia. reflexivity.
Qed.
Lemma slice4 {A} (l : list A) a v0 v1 v2 v3 :
  nth_error l a = Some v0 -> nth_error l (a + 1) = Some v1 -> nth_error l (a + 2) = Some v2 -> nth_error l (a + 3) = Some v3 ->
  slice l (Z.of_nat a) (Z.of_nat (a + 4)) = [v0; v1; v2; v3].
Proof.
  intros H0 H1 H2 H3. assert (L := proj1 (nth_error_Some l (a + 3)) ltac:(congruence)).
  rewrite slice_nat by lia. rewrite Nat.min_l by lia. replace (a + 4 - a)%nat with 4%nat by lia.
  rewrite (skipn_cons _ _ _ H0). replace (S a) with (a + 1)%nat by lia.
  rewrite (skipn_cons _ _ _ H1). replace (S (a + 1)) with (a + 2)%nat by lia.
  rewrite (skipn_cons _ _ _ H2). replace (S (a + 2)) with (a + 3)%nat by lia.
  rewrite (skipn_cons _ _ _ H3). reflexivity.
Qed.
Lemma slice6 {A} (l : list A) a v0 v1 v2 v3 v4 v5 :
  nth_error l a = Some v0 -> nth_error l (a + 1) = Some v1 -> nth_error l (a + 2) = Some v2 -> nth_error l (a + 3) = Some v3 ->
  nth_error l (a + 4) = Some v4 -> nth_error l (a + 5) = Some v5 ->
  slice l (Z.of_nat a) (Z.of_nat (a + 6)) = [v0; v1; v2; v3; v4; v5].
Proof.
  intros H0 H1 H2 H3 H4 H5. assert (L := proj1 (nth_error_Some l (a + 5)) ltac:(congruence)).
  rewrite slice_nat by lia. rewrite Nat.min_l by lia. replace (a + 6 - a)%nat with 6%nat by lia.
  rewrite (skipn_cons _ _ _ H0). replace (S a) with (a + 1)%nat by lia.
  rewrite (skipn_cons _ _ _ H1). replace (S (a + 1)) with (a + 2)%nat by lia.
  rewrite (skipn_cons _ _ _ H2). replace (S (a + 2)) with (a + 3)%nat by lia.
  rewrite (skipn_cons _ _ _ H3). replace (S (a + 3)) with (a + 4)%nat by lia.
  rewrite (skipn_cons _ _ _ H4). replace (S (a + 4)) with (a + 5)%nat by lia.
  rewrite (skipn_cons _ _ _ H5). reflexivity.
Qed.

(** Four bins on a line. *)
Lemma get4 (v0 v1 v2 v3 : Qc) : np_get [v0; v1; v2; v3] 0 = Ok v0 /\ np_get [v0; v1; v2; v3] 1 = Ok v1 /\
  np_get [v0; v1; v2; v3] 2 = Ok v2 /\ np_get [v0; v1; v2; v3] 3 = Ok v3.
Proof. repeat split. Qed.
Lemma qn_plus i k : qn (i + k) = qn i + qn k.
Proof. unfold qn. rewrite Nat2Z.inj_add. apply qz_add. Qed.
Lemma foot_shift_line k a z i : a <> 0 ->
  foot_shift k [a * (qn i - z); a * (qn (i + 1) - z); a * (qn (i + 2) - z); a * (qn (i + 3) - z)] =
  Ok (k / qz 5 * (qn i + qq 3 2 - z)).
Proof.
  intro A. unfold foot_shift.
  destruct (get4 (a * (qn i - z)) (a * (qn (i + 1) - z)) (a * (qn (i + 2) - z)) (a * (qn (i + 3) - z))) as (-> & -> & -> & ->).
  cbn [bind]. rewrite !qn_plus.
  assert (D : - qz 6 * (a * (qn i - z)) - qz 2 * (a * (qn i + qn 1 - z)) + qz 2 * (a * (qn i + qn 2 - z)) + qz 6 * (a * (qn i + qn 3 - z)) = qz 20 * a).
  { replace (qn 1) with 1 by (apply Qc_is_canon; reflexivity). replace (qn 2) with (1 + 1) by (apply Qc_is_canon; reflexivity).
    replace (qn 3) with (1 + 1 + 1) by (apply Qc_is_canon; reflexivity).
    replace (qz 6) with ((1 + 1 + 1) * (1 + 1)) by (apply Qc_is_canon; reflexivity).
    replace (qz 2) with (1 + 1) by (apply Qc_is_canon; reflexivity).
    replace (qz 20) with ((1 + 1 + 1 + 1 + 1) * (1 + 1) * (1 + 1)) by (apply Qc_is_canon; reflexivity). ring. }
  rewrite D. assert (N : qz 20 * a <> 0).
  { intro E. apply Qcmult_integral in E as [E|E]; [discriminate|contradiction]. }
  unfold qdiv. rewrite qeqb_f by exact N. f_equal. cbn [qsum].
  replace (qn 1) with 1 by (apply Qc_is_canon; reflexivity). replace (qn 2) with (1 + 1) by (apply Qc_is_canon; reflexivity).
  replace (qn 3) with (1 + 1 + 1) by (apply Qc_is_canon; reflexivity).
  replace (qz 5) with (1 + 1 + 1 + 1 + 1) by (apply Qc_is_canon; reflexivity).
  replace (qq 3 2) with ((1 + 1 + 1) / (1 + 1)) by (apply Qc_is_canon; reflexivity).
  replace (qz 20) with ((1 + 1 + 1 + 1 + 1) * (1 + 1) * (1 + 1)) by (apply Qc_is_canon; reflexivity).
  field. repeat split; (exact A || discriminate).
Qed.

(** Six points on a line. *)
Lemma spread_pos (x0 x1 x2 x3 x4 x5 : Qc) : x0 < x1 ->
  qn 6 * qsum [x0 * x0; x1 * x1; x2 * x2; x3 * x3; x4 * x4; x5 * x5]
  - qsum [x0; x1; x2; x3; x4; x5] * qsum [x0; x1; x2; x3; x4; x5] <> 0.
Proof.
  intro L. cbn [qsum]. replace (qn 6) with (1 + 1 + 1 + 1 + 1 + 1) by (apply Qc_is_canon; reflexivity).
  assert (SQ : forall u : Qc, 0 <= u * u) by (intro u; qcnra).
  assert (P : 0 < (x1 - x0) * (x1 - x0)) by qcnra.
  assert (AD : forall u v : Qc, 0 < u -> 0 <= v -> 0 < u + v) by (intros; qclra).
  match goal with |- ?e <> 0 => replace e with
    ((x1 - x0) * (x1 - x0) + (x2 - x0) * (x2 - x0) + (x3 - x0) * (x3 - x0) + (x4 - x0) * (x4 - x0) + (x5 - x0) * (x5 - x0)
     + (x2 - x1) * (x2 - x1) + (x3 - x1) * (x3 - x1) + (x4 - x1) * (x4 - x1) + (x5 - x1) * (x5 - x1)
     + (x3 - x2) * (x3 - x2) + (x4 - x2) * (x4 - x2) + (x5 - x2) * (x5 - x2)
     + (x4 - x3) * (x4 - x3) + (x5 - x3) * (x5 - x3) + (x5 - x4) * (x5 - x4)) by ring end.
  apply Qclt_ne. repeat (apply AD; [|apply SQ]). exact P.
Qed.
Lemma polyfit_line a z (x0 x1 x2 x3 x4 x5 : Qc) : x0 < x1 ->
  polyfit1 [x0; x1; x2; x3; x4; x5]
    [a * (x0 - z); a * (x1 - z); a * (x2 - z); a * (x3 - z); a * (x4 - z); a * (x5 - z)] = Ok (a, - (a * z)).
Proof.
  intro L. assert (N := spread_pos x0 x1 x2 x3 x4 x5 L).
  unfold polyfit1. change (length _ =? length _)%nat with true. cbn [negb]. cbv zeta.
  cbn [map combine fst snd]. change (length _) with 6%nat.
  unfold qdiv at 1. rewrite qeqb_f by exact N. cbn [bind].
  match goal with |- context [ ?u / ?d ] => replace (u / d) with a end.
  2:{ symmetry. match goal with |- ?u / ?d = a => replace u with (a * d) end.
      - match goal with |- a * ?d / ?d = a => generalize d N end. intros d D. field. exact D.
      - cbn [qsum]. replace (qn 6) with (1 + 1 + 1 + 1 + 1 + 1) by (apply Qc_is_canon; reflexivity). ring. }
  unfold qdiv. rewrite qeqb_f by discriminate. cbn [bind]. f_equal. f_equal.
  cbn [qsum]. replace (qn 6) with (1 + 1 + 1 + 1 + 1 + 1) by (apply Qc_is_canon; reflexivity).
  field. discriminate.
Qed.

(** Interpolation. *)
(** Points from (x0, f0) on, both coordinates not decreasing. *)
Inductive rising : Qc -> Qc -> list (Qc * Qc) -> Prop :=
| rising_nil x0 f0 : rising x0 f0 []
| rising_cons x0 f0 x1 f1 r : x0 <= x1 -> f0 <= f1 -> rising x1 f1 r -> rising x0 f0 ((x1, f1) :: r).

Lemma qdiv_pos_val a b : 0 < b -> qdiv a b = Ok (a / b).
Proof. intro H. unfold qdiv. rewrite qeqb_f; [reflexivity|]. intro E. rewrite E in H. qclra. Qed.
Lemma frac_bounds (f0 f1 x0 x1 x : Qc) : x0 <= x -> x < x1 -> f0 <= f1 ->
  f0 <= (f1 - f0) / (x1 - x0) * (x - x0) + f0 /\ (f1 - f0) / (x1 - x0) * (x - x0) + f0 <= f1.
Proof.
  intros H1 H2 H3. assert (P : 0 < x1 - x0) by qclra.
  set (s := (f1 - f0) / (x1 - x0)).
  assert (E : s * (x1 - x0) = f1 - f0) by (unfold s; field; intro E; rewrite E in P; qclra).
  assert (S : 0 <= s).
  { destruct (Qclt_le_dec s 0) as [B|]; [|assumption]. exfalso. assert (s * (x1 - x0) < 0) by qcnra. qclra. }
  split; [assert (0 <= s * (x - x0)) by qcnra; qclra|].
  assert (s * (x - x0) <= s * (x1 - x0)) by qcnra. qclra.
Qed.
Lemma interp_from_ok x x0 f0 r : rising x0 f0 r -> x0 <= x -> exists v, interp_from x x0 f0 r = Ok v /\
  f0 <= v /\ v <= snd (last r (x0, f0)).
Proof.
  intro H. revert x. induction H as [x0 f0|x0 f0 x1 f1 r X F H IH]; intros x L; cbn [interp_from].
  - exists f0. cbn. repeat split; qclra.
  - assert (LA : snd (last ((x1, f1) :: r) (x0, f0)) = snd (last r (x1, f1))).
    { destruct r as [|q r]; [reflexivity|]. change (last ((x1, f1) :: q :: r) (x0, f0)) with (last (q :: r) (x0, f0)).
      f_equal. clear. revert q. induction r as [|a r IH]; intro q; [reflexivity|]. apply (IH a). }
    rewrite LA. assert (LB : f1 <= snd (last r (x1, f1))).
    { destruct (IH x1 ltac:(qclra)) as (v & _ & B1 & B2). qclra. }
    destruct (qleb_spec x1 x) as [C|C].
    + destruct (IH x C) as (v & E & B1 & B2). exists v. repeat split; [exact E|qclra|exact B2].
    + destruct (qeqb_spec x0 x) as [->|NE]; [exists f0; repeat split; qclra|].
      rewrite qdiv_pos_val by qclra. cbn [bind]. eexists. split; [reflexivity|].
      destruct (frac_bounds f0 f1 x0 x1 x L C F). split; qclra.
Qed.
Lemma interp_from_mono x x' x0 f0 r v v' : rising x0 f0 r -> x0 <= x -> x <= x' ->
  interp_from x x0 f0 r = Ok v -> interp_from x' x0 f0 r = Ok v' -> v <= v'.
Proof.
  intro H. revert v v'. induction H as [x0 f0|x0 f0 x1 f1 r X F H IH]; intros v v' L LE; cbn [interp_from].
  - intros E E'. injection E as <-. injection E' as <-. qclra.
  - destruct (qleb_spec x1 x) as [C|C].
    + rewrite (qleb_t x1 x') by qclra. apply IH; assumption.
    + assert (V : v <= f1 \/ interp_from x x0 f0 ((x1, f1) :: r) <> Ok v).
      { cbn [interp_from]. rewrite (qleb_f x1 x) by exact C. destruct (qeqb_spec x0 x) as [->|NE].
        - destruct (Qc_eq_dec f0 v); [left; subst; exact F|right; congruence].
        - rewrite qdiv_pos_val by qclra. cbn [bind]. destruct (frac_bounds f0 f1 x0 x1 x L C F) as [_ B].
          destruct (Qc_eq_dec ((f1 - f0) / (x1 - x0) * (x - x0) + f0) v) as [<-|]; [left; exact B|right; congruence]. }
      cbn [interp_from] in V. rewrite (qleb_f x1 x) in V by exact C.
      destruct (qleb_spec x1 x') as [C'|C'].
      * intros E E'. destruct V as [V|V]; [|contradiction].
        destruct (interp_from_ok x' x1 f1 r H C') as (w & W & B & _). rewrite E' in W. injection W as <-. qclra.
      * intros E E'. clear V.
        destruct (frac_bounds f0 f1 x0 x1 x' ltac:(qclra) C' F) as [B1' B2'].
        destruct (qeqb_spec x0 x) as [->|NE].
        { injection E as <-. destruct (qeqb_spec x x') as [->|NE']; [injection E' as <-; qclra|].
          rewrite qdiv_pos_val in E' by qclra. cbn [bind] in E'. injection E' as <-. exact B1'. }
        rewrite qdiv_pos_val in E by qclra. cbn [bind] in E. injection E as <-.
        destruct (qeqb_spec x0 x') as [EQ|NE'].
        { exfalso. apply NE. apply Qcle_antisym; qclra. }
        rewrite qdiv_pos_val in E' by qclra. cbn [bind] in E'. injection E' as <-.
        assert (P : 0 < x1 - x0) by qclra.
        set (s := (f1 - f0) / (x1 - x0)) in *.
        assert (SE : s * (x1 - x0) = f1 - f0) by (unfold s; field; intro Z; rewrite Z in P; qclra).
        assert (S : 0 <= s).
        { destruct (Qclt_le_dec s 0) as [B|]; [|assumption]. exfalso. assert (s * (x1 - x0) < 0) by qcnra. qclra. }
        clearbody s. assert (0 <= s * (x' - x)) by qcnra. qclra.
Qed.

(** Sorted cells. *)
Lemma qinsert_perm x l : Permutation (x :: l) (qinsert x l).
Proof.
  induction l as [|y l IH]; cbn [qinsert]; [reflexivity|]. destruct (qleb y x); [reflexivity|].
  transitivity (y :: x :: l); [constructor|]. constructor. exact IH.
Qed.
Lemma qsort_perm l : Permutation l (qsort l).
Proof.
  induction l as [|x l IH]; [constructor|]. cbn [qsort]. transitivity (x :: qsort l); [constructor; exact IH|apply qinsert_perm].
Qed.
Inductive qdesc : list Qc -> Prop :=
| qdesc_nil : qdesc []
| qdesc_cons x l : Forall (fun y => y <= x) l -> qdesc l -> qdesc (x :: l).
Lemma qinsert_desc x l : qdesc l -> qdesc (qinsert x l).
Proof.
  induction 1 as [|y l F D IH]; cbn [qinsert].
  - constructor; constructor.
  - destruct (qleb_spec y x) as [L|L].
    + constructor; [|constructor; assumption]. constructor; [exact L|].
      eapply Forall_impl; [|exact F]. cbn. intros. qclra.
    + constructor; [|exact IH]. apply (Permutation_Forall (qinsert_perm x l)). constructor; [qclra|exact F].
Qed.
Lemma qsort_desc l : qdesc (qsort l).
Proof. induction l; cbn; [constructor|apply qinsert_desc; assumption]. Qed.
Lemma qdesc_unique : forall a b, qdesc a -> qdesc b -> Permutation a b -> a = b.
Proof.
  induction a as [|x a IH]; intros b DA DB P.
  - apply Permutation_nil in P. auto.
  - destruct b as [|y b]; [apply Permutation_sym, Permutation_nil in P; discriminate|].
    inversion DA as [|? ? FA DA']. inversion DB as [|? ? FB DB']. subst.
    assert (x = y).
    { assert (In x (y :: b)) as [->|I] by (apply (Permutation_in _ P); left; reflexivity); [reflexivity|].
      assert (In y (x :: a)) as [->|J] by (apply (Permutation_in _ (Permutation_sym P)); left; reflexivity); [reflexivity|].
      rewrite Forall_forall in FA, FB. specialize (FA _ J). specialize (FB _ I). apply Qcle_antisym; assumption. }
    subst. f_equal. apply IH; auto. apply Permutation_cons_inv with y. exact P.
Qed.
Lemma qsort_invariant a b : Permutation a b -> qsort a = qsort b.
Proof.
  intro P. apply qdesc_unique; [apply qsort_desc|apply qsort_desc|]. rewrite <- !qsort_perm. exact P.
Qed.
Lemma qcumsum_length acc l : length (qcumsum acc l) = length l.
Proof. revert acc. induction l; intro; cbn; auto. Qed.
Lemma qcumsum_nth acc l k : (k < length l)%nat -> nth_error (qcumsum acc l) k = Some (acc + sum (firstn (S k) l)).
Proof.
  revert acc k. induction l as [|x l IH]; intros acc k H; cbn [length] in H; [lia|].
  destruct k as [|k]; cbn [qcumsum nth_error].
  - change (firstn 1 (x :: l)) with [x]. cbn [sum fold_right]. f_equal. ring.
  - rewrite IH by lia. change (firstn (S (S k)) (x :: l)) with (x :: firstn (S k) l). f_equal.
    change (sum (x :: firstn (S k) l)) with (x + sum (firstn (S k) l)). ring.
Qed.
Lemma cumsum_rising (g : nat -> Qc) : (forall i, g i <= g (S i)) -> forall l acc i x0, Forall (fun v => 0 <= v) l -> x0 <= acc ->
  forall f0, f0 <= g i -> rising x0 f0 (combine (qcumsum acc l) (map g (seq i (length l)))).
Proof.
  intro G. induction l as [|x l IH]; intros acc i x0 F X f0 F0; cbn [qcumsum length seq map combine]; [constructor|].
  apply Forall_inv in F as P. apply Forall_inv_tail in F. constructor; [qclra|exact F0|].
  apply IH; [exact F|qclra|apply G].
Qed.
Lemma last_combine {A B} (l : list A) (m : list B) a b : length l = length m ->
  snd (last (combine l m) (a, b)) = last m b.
Proof.
  revert m. induction l as [|x l IH]; intros [|y m] L; cbn in L; try discriminate; [reflexivity|].
  cbn [combine]. destruct l as [|x' l]; destruct m as [|y' m]; cbn in L; try discriminate; [reflexivity|].
  cbn [combine last] in *. apply (IH (y' :: m)). injection L as L. cbn. f_equal. exact L.
Qed.
