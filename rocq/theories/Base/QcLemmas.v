(** Lemmas on exact rationals, arrays given by a function, and sums. *)
From Coq Require Import List ZArith QArith Qround Qcanon Lia Lqa Arith Permutation Bool.
From Verif Require Import Base.Res Base.ResLemmas Base.QcLib.
Import ListNotations.
Local Open Scope Qc_scope.

(** ** From Qc to Q *)
Lemma this_add : forall a b : Qc, (this (a + b)%Qc == this a + this b)%Q.
Proof. intros. apply Qred_correct. Qed.
Lemma this_mul : forall a b : Qc, (this (a * b)%Qc == this a * this b)%Q.
Proof. intros. apply Qred_correct. Qed.
Lemma this_opp : forall a : Qc, (this (- a)%Qc == - this a)%Q.
Proof. intros. apply Qred_correct. Qed.
Lemma this_sub : forall a b : Qc, (this (a - b)%Qc == this a - this b)%Q.
Proof. intros. unfold Qcminus. rewrite this_add, this_opp. reflexivity. Qed.
Lemma this_inv : forall a : Qc, (this (/ a)%Qc == / this a)%Q.
Proof. intros. apply Qred_correct. Qed.
Lemma this_div : forall a b : Qc, (this (a / b)%Qc == this a / this b)%Q.
Proof. intros. unfold Qcdiv. rewrite this_mul, this_inv. reflexivity. Qed.
Lemma this_Q2Qc : forall q, (this (Q2Qc q) == q)%Q.
Proof. intros. apply Qred_correct. Qed.
Lemma this_qz : forall z, (this (qz z) == inject_Z z)%Q.
Proof. intros. unfold qz. apply this_Q2Qc. Qed.
Lemma this_qn : forall n, (this (qn n) == inject_Z (Z.of_nat n))%Q.
Proof. intros. unfold qn. apply this_qz. Qed.
Lemma this_0 : (this 0%Qc == 0)%Q. Proof. reflexivity. Qed.
Lemma this_1 : (this 1%Qc == 1)%Q. Proof. reflexivity. Qed.

Lemma Qc_eq_Q : forall a b : Qc, a = b <-> (this a == this b)%Q.
Proof. split; [intros; subst; reflexivity|apply Qc_is_canon]. Qed.
Lemma Qc_le_Q : forall a b : Qc, (a <= b)%Qc <-> (this a <= this b)%Q.
Proof. intros. reflexivity. Qed.
Lemma Qc_lt_Q : forall a b : Qc, (a < b)%Qc <-> (this a < this b)%Q.
Proof. intros. reflexivity. Qed.

Ltac qc_push_goal :=
  repeat (rewrite ?this_add, ?this_sub, ?this_mul, ?this_opp, ?this_div, ?this_inv, ?this_0, ?this_1).
Ltac qc_push H :=
  repeat (rewrite ?this_add, ?this_sub, ?this_mul, ?this_opp, ?this_div, ?this_inv, ?this_0, ?this_1 in H).

(** Turn all (in)equalities of Qc in the context and goal into Q. *)
Ltac qc_prep :=
  repeat match goal with
  | H : @eq Qc ?a ?b |- _ => apply Qc_eq_Q in H; qc_push H
  | H : Qcle ?a ?b |- _ => change (Qle (this a) (this b)) in H; qc_push H
  | H : Qclt ?a ?b |- _ => change (Qlt (this a) (this b)) in H; qc_push H
  end;
  match goal with
  | |- @eq Qc ?a ?b => apply Qc_eq_Q; qc_push_goal
  | |- Qcle ?a ?b => change (Qle (this a) (this b)); qc_push_goal
  | |- Qclt ?a ?b => change (Qlt (this a) (this b)); qc_push_goal
  | |- ~ (@eq Qc ?a ?b) => let H := fresh in intro H; apply Qc_eq_Q in H; qc_push H
  | |- _ => idtac
  end.
Ltac qclra := qc_prep; lra.
Ltac qcnra := qc_prep; nra.

(** ** Comparisons *)
Lemma qltb_spec : forall a b, BoolSpec (a < b) (b <= a) (qltb a b).
Proof.
  intros. unfold qltb. destruct (Qccompare a b) eqn:E; constructor.
  - apply Qceq_alt in E. subst. apply Qcle_refl.
  - apply Qclt_alt. auto.
  - apply Qcgt_alt in E. apply Qclt_le_weak. auto.
Qed.
Lemma qleb_spec : forall a b, BoolSpec (a <= b) (b < a) (qleb a b).
Proof.
  intros. unfold qleb. destruct (Qccompare a b) eqn:E; constructor.
  - apply Qceq_alt in E. subst. apply Qcle_refl.
  - apply Qclt_alt in E. apply Qclt_le_weak. auto.
  - apply Qcgt_alt. auto.
Qed.
Lemma qeqb_spec : forall a b, BoolSpec (a = b) (a <> b) (qeqb a b).
Proof.
  intros. unfold qeqb. destruct (Qccompare a b) eqn:E; constructor.
  - apply Qceq_alt in E. auto.
  - apply Qclt_alt in E. intros ->. exact (Qclt_not_eq _ _ E eq_refl).
  - apply Qcgt_alt in E. intros ->. exact (Qclt_not_eq _ _ E eq_refl).
Qed.
Lemma qeqb_refl : forall a, qeqb a a = true.
Proof. intros. destruct (qeqb_spec a a); [auto|congruence]. Qed.
Lemma qltb_true : forall a b, qltb a b = true <-> a < b.
Proof. intros. destruct (qltb_spec a b); split; intros; auto; try discriminate. exfalso; qclra. Qed.
Lemma qleb_true : forall a b, qleb a b = true <-> a <= b.
Proof. intros. destruct (qleb_spec a b); split; intros; auto; try discriminate. exfalso; qclra. Qed.
Lemma qeqb_true : forall a b, qeqb a b = true <-> a = b.
Proof. intros. destruct (qeqb_spec a b); split; intros; congruence || discriminate || auto. Qed.
Lemma qltb_false : forall a b, qltb a b = false <-> b <= a.
Proof. intros. destruct (qltb_spec a b); split; intros; auto; try discriminate. exfalso; qclra. Qed.
Lemma qleb_false : forall a b, qleb a b = false <-> b < a.
Proof. intros. destruct (qleb_spec a b); split; intros; auto; try discriminate. exfalso; qclra. Qed.

Lemma Qclt_ne : forall a : Qc, 0 < a -> a <> 0.
Proof. intros a H ->. exact (Qclt_not_eq _ _ H eq_refl). Qed.
#[export] Hint Resolve Qclt_ne Qclt_le_weak : qc.

Lemma qdiv_ok : forall a b, b <> 0 -> qdiv a b = Ok (a / b).
Proof. intros. unfold qdiv. destruct (qeqb_spec b 0); congruence. Qed.
Lemma qdiv_zero : forall a, qdiv a 0 = Fail NotFinite.
Proof. intros. unfold qdiv. rewrite qeqb_refl. reflexivity. Qed.
Lemma qdiv_inv : forall a b c, qdiv a b = Ok c -> b <> 0 /\ c = a / b.
Proof. unfold qdiv; intros. destruct (qeqb_spec b 0); inversion H; auto. Qed.

(** ** Order *)
Lemma Qcle_antisym' : forall a b : Qc, a <= b -> b <= a -> a = b.
Proof. intros. apply Qcle_antisym; auto. Qed.
Lemma Qcadd_nonneg : forall a b : Qc, 0 <= a -> 0 <= b -> 0 <= a + b.
Proof. intros. qclra. Qed.
Lemma Qcmul_nonneg : forall a b : Qc, 0 <= a -> 0 <= b -> 0 <= a * b.
Proof. intros. qcnra. Qed.
Lemma Qcinv_pos : forall a : Qc, 0 < a -> 0 < / a.
Proof.
  intros a H. apply (proj2 (Qc_lt_Q _ _)). rewrite this_inv. apply Qinv_lt_0_compat. exact H.
Qed.
Lemma Qcdiv_nonneg : forall a b : Qc, 0 <= a -> 0 < b -> 0 <= a / b.
Proof.
  intros. unfold Qcdiv. apply Qcmul_nonneg; auto. apply Qclt_le_weak, Qcinv_pos; auto.
Qed.
Lemma Qcdiv_pos : forall a b : Qc, 0 < a -> 0 < b -> 0 < a / b.
Proof. intros. unfold Qcdiv. pose proof (Qcinv_pos b H0). qcnra. Qed.
Lemma Qcsquare_nonneg : forall a : Qc, 0 <= a * a.
Proof. intros. qcnra. Qed.
Lemma Qcmul_eq_0 : forall a b : Qc, a * b = 0 -> a = 0 \/ b = 0.
Proof. intros. apply Qcmult_integral; auto. Qed.
Lemma Qcmul_div : forall a b : Qc, b <> 0 -> a / b * b = a.
Proof. intros. field. auto. Qed.
Lemma Qcdiv_le_iff : forall a b c : Qc, 0 < c -> (a / c <= b <-> a <= b * c).
Proof.
  intros a b c H. assert (E : a = a / c * c) by (field; auto with qc).
  set (x := a / c) in *. rewrite E. split; intros; qcnra.
Qed.
Lemma Qcle_div_iff : forall a b c : Qc, 0 < c -> (b <= a / c <-> b * c <= a).
Proof.
  intros a b c H. assert (E : a = a / c * c) by (field; auto with qc).
  set (x := a / c) in *. rewrite E. split; intros; qcnra.
Qed.
Lemma Qclt_div_iff : forall a b c : Qc, 0 < c -> (b < a / c <-> b * c < a).
Proof.
  intros a b c H. assert (E : a = a / c * c) by (field; auto with qc).
  set (x := a / c) in *. rewrite E. split; intros; qcnra.
Qed.
Lemma Qcdiv_lt_iff : forall a b c : Qc, 0 < c -> (a / c < b <-> a < b * c).
Proof.
  intros a b c H. assert (E : a = a / c * c) by (field; auto with qc).
  set (x := a / c) in *. rewrite E. split; intros; qcnra.
Qed.

(** ** Integers inside Qc *)
Lemma qz_add : forall a b, qz (a + b) = qz a + qz b.
Proof. intros. apply Qc_eq_Q. rewrite this_add, !this_qz. rewrite inject_Z_plus; reflexivity. Qed.
Lemma qz_mul : forall a b, qz (a * b) = qz a * qz b.
Proof. intros. apply Qc_eq_Q. rewrite this_mul, !this_qz. rewrite inject_Z_mult; reflexivity. Qed.
Lemma qz_opp : forall a, qz (- a) = - qz a.
Proof. intros. apply Qc_eq_Q. rewrite this_opp, !this_qz. rewrite inject_Z_opp; reflexivity. Qed.
Lemma qz_sub : forall a b, qz (a - b) = qz a - qz b.
Proof. intros. unfold Z.sub. rewrite qz_add, qz_opp. reflexivity. Qed.
Lemma qz_le : forall a b, qz a <= qz b <-> (a <= b)%Z.
Proof. intros. rewrite Qc_le_Q, !this_qz, <- Zle_Qle. reflexivity. Qed.
Lemma qz_lt : forall a b, qz a < qz b <-> (a < b)%Z.
Proof. intros. rewrite Qc_lt_Q, !this_qz, <- Zlt_Qlt. reflexivity. Qed.
Lemma qz_inj : forall a b, qz a = qz b <-> a = b.
Proof.
  intros. split; [|intros; subst; auto]. intros E.
  assert (A := proj1 (qz_le a b)). assert (B := proj1 (qz_le b a)).
  rewrite E in A, B. specialize (A (Qcle_refl _)). specialize (B (Qcle_refl _)). lia.
Qed.
Lemma qz_0 : qz 0 = 0. Proof. reflexivity. Qed.
Lemma qz_1 : qz 1 = 1. Proof. reflexivity. Qed.
Lemma qn_0 : qn 0 = 0. Proof. reflexivity. Qed.
Lemma qn_S : forall n, qn (S n) = qn n + 1.
Proof. intros. unfold qn. rewrite Nat2Z.inj_succ. unfold Z.succ. rewrite qz_add. reflexivity. Qed.
Lemma qn_add : forall a b, qn (a + b) = qn a + qn b.
Proof. intros. unfold qn. rewrite Nat2Z.inj_add. apply qz_add. Qed.
Lemma qn_mul : forall a b, qn (a * b) = qn a * qn b.
Proof. intros. unfold qn. rewrite Nat2Z.inj_mul. apply qz_mul. Qed.
Lemma qn_nonneg : forall n, 0 <= qn n.
Proof. intros. rewrite <- qz_0. apply qz_le. lia. Qed.
Lemma qn_pos : forall n, (0 < n)%nat -> 0 < qn n.
Proof. intros. rewrite <- qz_0. apply qz_lt. lia. Qed.
Lemma qn_le : forall a b, qn a <= qn b <-> (a <= b)%nat.
Proof. intros. unfold qn. rewrite qz_le. lia. Qed.
Lemma qn_lt : forall a b, qn a < qn b <-> (a < b)%nat.
Proof. intros. unfold qn. rewrite qz_lt. lia. Qed.
Lemma qn_inj : forall a b, qn a = qn b <-> a = b.
Proof. intros. unfold qn. rewrite qz_inj. lia. Qed.

(** floor and ceiling *)
Lemma qfloor_spec : forall a, qz (qfloor a) <= a /\ a < qz (qfloor a) + 1.
Proof.
  intros. unfold qfloor. split.
  - apply (proj2 (Qc_le_Q _ _)). rewrite this_qz. apply Qfloor_le.
  - apply (proj2 (Qc_lt_Q _ _)). rewrite this_add, this_qz, this_1.
    pose proof (Qlt_floor (this a)). rewrite inject_Z_plus in H. exact H.
Qed.
Lemma qfloor_unique : forall a z, qz z <= a -> a < qz z + 1 -> qfloor a = z.
Proof.
  intros a z H1 H2. destruct (qfloor_spec a) as [A B].
  assert (qfloor a < z + 1)%Z.
  { apply qz_lt. rewrite qz_add, qz_1. qclra. }
  assert (z < qfloor a + 1)%Z.
  { apply qz_lt. rewrite qz_add, qz_1. qclra. }
  lia.
Qed.
Lemma qfloor_qz : forall z, qfloor (qz z) = z.
Proof. intros. apply qfloor_unique; qclra. Qed.
Lemma qfloor_le_iff : forall a z, (z <= qfloor a)%Z <-> qz z <= a.
Proof.
  intros. destruct (qfloor_spec a) as [A B]. split; intros.
  - apply qz_le in H. qclra.
  - assert (z < qfloor a + 1)%Z; [|lia]. apply qz_lt. rewrite qz_add, qz_1. qclra.
Qed.
Lemma qfloor_lt_iff : forall a z, (qfloor a < z)%Z <-> a < qz z.
Proof.
  intros. pose proof (qfloor_le_iff a z). split; intros.
  - destruct (qltb_spec a (qz z)); auto. apply H in H1. lia.
  - destruct (Z.lt_ge_cases (qfloor a) z); auto. apply H in H1. exfalso; qclra.
Qed.
Lemma qfloor_mono : forall a b, a <= b -> (qfloor a <= qfloor b)%Z.
Proof. intros. apply qfloor_le_iff. destruct (qfloor_spec a). qclra. Qed.
Lemma qceil_opp : forall a, qceil a = (- qfloor (- a))%Z.
Proof.
  intros. unfold qceil, qfloor, Qceiling. rewrite (Qfloor_comp _ _ (this_opp a)). reflexivity.
Qed.
Lemma qceil_spec : forall a, qz (qceil a) - 1 < a /\ a <= qz (qceil a).
Proof.
  intros. rewrite qceil_opp, qz_opp. destruct (qfloor_spec (- a)). split; qclra.
Qed.
Lemma qceil_le_iff : forall a z, (qceil a <= z)%Z <-> a <= qz z.
Proof.
  intros. rewrite qceil_opp. pose proof (qfloor_le_iff (- a) (- z)). rewrite qz_opp in H.
  split; intros.
  - assert (- z <= qfloor (- a))%Z by lia. apply H in H1. qclra.
  - assert (- qz z <= - a) by qclra. apply H in H1. lia.
Qed.
Lemma qceil_qz : forall z, qceil (qz z) = z.
Proof. intros. rewrite qceil_opp, <- qz_opp, qfloor_qz. lia. Qed.
Lemma qtrunc_nonneg : forall a, 0 <= a -> qtrunc a = qfloor a.
Proof. intros. unfold qtrunc. destruct (qltb_spec a 0); auto. exfalso; qclra. Qed.
Lemma qtrunc_qz : forall z, qtrunc (qz z) = z.
Proof. intros. unfold qtrunc. destruct (qltb _ _); [apply qceil_qz|apply qfloor_qz]. Qed.

(** ** Arrays given by a function *)
Section Tab.
Context {A : Type}.
Implicit Types f g : nat -> A.
Lemma tab_length : forall n f, length (tab n f) = n.
Proof. intros. unfold tab. rewrite map_length, seq_length. reflexivity. Qed.
Lemma nth_error_seq : forall n a i, (i < n)%nat -> nth_error (seq a n) i = Some (a + i)%nat.
Proof.
  induction n; intros; [lia|]. destruct i; simpl; [f_equal; lia|].
  rewrite IHn by lia. f_equal. lia.
Qed.
Lemma nth_error_tab : forall n f i, (i < n)%nat -> nth_error (tab n f) i = Some (f i).
Proof.
  intros. unfold tab. rewrite nth_error_map, nth_error_seq by auto. reflexivity.
Qed.
Lemma nth_error_tab_inv : forall n f i x, nth_error (tab n f) i = Some x -> (i < n)%nat /\ x = f i.
Proof.
  intros. assert (i < n)%nat. { apply nth_error_lt in H. rewrite tab_length in H. auto. }
  rewrite nth_error_tab in H by auto. inversion H. auto.
Qed.
Lemma tab_ext : forall n f g, (forall i, (i < n)%nat -> f i = g i) -> tab n f = tab n g.
Proof. intros. unfold tab. apply map_ext_in. intros. apply H. apply in_seq in H0. lia. Qed.
Lemma tab_inj : forall n f g, tab n f = tab n g -> forall i, (i < n)%nat -> f i = g i.
Proof.
  intros. assert (nth_error (tab n f) i = nth_error (tab n g) i) by (rewrite H; auto).
  rewrite !nth_error_tab in H1 by auto. inversion H1. auto.
Qed.
Lemma tab_nth : forall (l : list A) d, tab (length l) (fun i => nth i l d) = l.
Proof.
  intros. apply nth_error_ext_len; [apply tab_length|].
  intros i Hi. rewrite tab_length in Hi. rewrite nth_error_tab by auto.
  symmetry. apply nth_error_nth'. auto.
Qed.
Lemma tab_as : forall (l : list A) n f, length l = n ->
  (forall i, (i < n)%nat -> nth_error l i = Some (f i)) -> l = tab n f.
Proof.
  intros. apply nth_error_ext_len; [rewrite tab_length; auto|].
  intros i Hi. rewrite nth_error_tab by lia. apply H0. lia.
Qed.
Lemma get_tab : forall n f i, (i < n)%nat -> get (tab n f) (Z.of_nat i) = Ok (f i).
Proof. intros. apply get_nat. apply nth_error_tab. auto. Qed.
Lemma get_tab_Z : forall n f z, (0 <= z < Z.of_nat n)%Z -> get (tab n f) z = Ok (f (Z.to_nat z)).
Proof. intros. rewrite <- (Z2Nat.id z) at 1 by lia. apply get_tab. lia. Qed.
Lemma upd_tab : forall n f i v, (i < n)%nat ->
  upd (tab n f) i v = tab n (fun k => if Nat.eqb k i then v else f k).
Proof.
  intros. apply tab_as; [rewrite upd_length; apply tab_length|].
  intros k Hk. rewrite nth_error_upd by (rewrite tab_length; lia).
  destruct (Nat.eqb_spec k i); auto. apply nth_error_tab. auto.
Qed.
Lemma set_tab : forall n f i v, (i < n)%nat ->
  set (tab n f) (Z.of_nat i) v = Ok (tab n (fun k => if Nat.eqb k i then v else f k)).
Proof. intros. rewrite set_nat by (rewrite tab_length; lia). rewrite upd_tab; auto. Qed.
Lemma set_tab_Z : forall n f z v, (0 <= z < Z.of_nat n)%Z ->
  set (tab n f) z v = Ok (tab n (fun k => if Nat.eqb k (Z.to_nat z) then v else f k)).
Proof. intros. rewrite <- (Z2Nat.id z) at 1 by lia. apply set_tab. lia. Qed.
Lemma in_tab : forall n f x, In x (tab n f) <-> exists i, (i < n)%nat /\ f i = x.
Proof.
  intros. unfold tab. rewrite in_map_iff. split.
  - intros [i [H1 H2]]. apply in_seq in H2. exists i. split; [lia|auto].
  - intros [i [H1 H2]]. exists i. split; auto. apply in_seq. lia.
Qed.
Lemma tab_S : forall n f, tab (S n) f = tab n f ++ [f n].
Proof. intros. unfold tab. rewrite seq_S, map_app. reflexivity. Qed.
Lemma map_tab : forall B (h : A -> B) n f, map h (tab n f) = tab n (fun i => h (f i)).
Proof. intros. unfold tab. apply map_map. Qed.
Lemma repeat_tab : forall n (x : A), repeat x n = tab n (fun _ => x).
Proof.
  induction n; intros; auto. change (repeat x (S n)) with (x :: repeat x n).
  rewrite IHn. unfold tab. simpl. rewrite <- seq_shift, map_map. reflexivity.
Qed.
Lemma nth_tab : forall n f i d, (i < n)%nat -> nth i (tab n f) d = f i.
Proof. intros. apply nth_error_nth. apply nth_error_tab. auto. Qed.
End Tab.

(** A loop whose pass i writes only cell i of an array. *)
Lemma for_tab : forall A n (f : nat -> A) (g : nat -> A) (body : nat -> list A -> res (list A)),
  (forall i h, (i < n)%nat -> (forall k, (i <= k < n)%nat -> h k = f k) ->
     body i (tab n h) = Ok (tab n (fun k => if Nat.eqb k i then g i else h k))) ->
  for_ 0 n body (tab n f) = Ok (tab n g).
Proof.
  intros A n f g body H.
  destruct (for_inv _ (fun i l => exists h, l = tab n h /\ (forall k, (k < i)%nat -> h k = g k) /\
     (forall k, (i <= k < n)%nat -> h k = f k)) body n 0 (tab n f)) as [l [E [h [-> [Hh _]]]]].
  - exists f. repeat split; auto. intros; lia.
  - intros i l Hi [h [-> [H1 H2]]].
    rewrite (H i h) by (auto; lia). eexists. split; [reflexivity|].
    eexists. split; [reflexivity|]. split; intros k Hk.
    + destruct (Nat.eqb_spec k i); [subst; auto|]. apply H1. lia.
    + destruct (Nat.eqb_spec k i); [lia|]. apply H2. lia.
  - rewrite E. f_equal. apply tab_ext. intros. apply Hh. lia.
Qed.

(** ** Sums *)
Lemma sumn_ext : forall n f g, (forall i, (i < n)%nat -> f i = g i) -> sumn n f = sumn n g.
Proof. induction n; intros; simpl; auto. rewrite (IHn f g), (H n); auto. Qed.
Lemma sumn_add : forall n f g, sumn n (fun i => f i + g i) = sumn n f + sumn n g.
Proof. induction n; intros; simpl; [ring|]. rewrite IHn. ring. Qed.
Lemma sumn_sub : forall n f g, sumn n (fun i => f i - g i) = sumn n f - sumn n g.
Proof. induction n; intros; simpl; [ring|]. rewrite IHn. ring. Qed.
Lemma sumn_scale : forall n c f, sumn n (fun i => c * f i) = c * sumn n f.
Proof. induction n; intros; simpl; [ring|]. rewrite IHn. ring. Qed.
Lemma sumn_scale_r : forall n c f, sumn n (fun i => f i * c) = sumn n f * c.
Proof. induction n; intros; simpl; [ring|]. rewrite IHn. ring. Qed.
Lemma sumn_div : forall n c f, sumn n (fun i => f i / c) = sumn n f / c.
Proof. intros. unfold Qcdiv. apply sumn_scale_r. Qed.
Lemma sumn_zero : forall n f, (forall i, (i < n)%nat -> f i = 0) -> sumn n f = 0.
Proof. induction n; intros; simpl; auto. rewrite IHn, H by auto. ring. Qed.
Lemma sumn_const : forall n c, sumn n (fun _ => c) = qn n * c.
Proof. induction n; intros; simpl; [rewrite qn_0; ring|]. rewrite IHn, qn_S. ring. Qed.
Lemma sumn_nonneg : forall n f, (forall i, (i < n)%nat -> 0 <= f i) -> 0 <= sumn n f.
Proof.
  induction n; intros; simpl; [apply Qcle_refl|]. apply Qcadd_nonneg; auto.
Qed.
Lemma sumn_le : forall n f g, (forall i, (i < n)%nat -> f i <= g i) -> sumn n f <= sumn n g.
Proof.
  induction n; intros; simpl; [apply Qcle_refl|].
  apply Qcplus_le_compat; auto.
Qed.
Lemma sumn_swap : forall n m f, sumn n (fun i => sumn m (fun j => f i j)) = sumn m (fun j => sumn n (fun i => f i j)).
Proof.
  induction n; intros; simpl; [symmetry; apply sumn_zero; auto|].
  rewrite IHn, <- sumn_add. reflexivity.
Qed.
Lemma sumn_pos_ex : forall n f, (forall i, (i < n)%nat -> 0 <= f i) ->
  (0 < sumn n f <-> exists i, (i < n)%nat /\ 0 < f i).
Proof.
  induction n; intros f H; simpl.
  - split; [intros H0; exfalso; qclra|intros [i [Hi _]]; lia].
  - assert (HN : 0 <= sumn n f) by (apply sumn_nonneg; auto).
    pose proof (H n ltac:(lia)) as Hn.
    pose proof (IHn f ltac:(auto)) as IH. split.
    + intros Hp. destruct (qltb_spec 0 (f n)).
      * exists n. auto.
      * assert (0 < sumn n f) by qclra. apply IH in H1. destruct H1 as [i [Hi Hf]]. exists i. auto.
    + intros [i [Hi Hf]]. destruct (Nat.eq_dec i n).
      * subst. qclra.
      * assert (0 < sumn n f) by (apply IH; exists i; split; auto; lia). qclra.
Qed.
Lemma sumn_zero_iff : forall n f, (forall i, (i < n)%nat -> 0 <= f i) ->
  (sumn n f = 0 <-> forall i, (i < n)%nat -> f i = 0).
Proof.
  intros n f H. split; [|apply sumn_zero].
  intros E i Hi. apply Qcle_antisym'; auto.
  destruct (qleb_spec (f i) 0); auto. exfalso.
  assert (0 < sumn n f) by (apply sumn_pos_ex; eauto). rewrite E in H1. qclra.
Qed.
Lemma sumn_ge_term : forall n f i, (forall k, (k < n)%nat -> 0 <= f k) -> (i < n)%nat -> f i <= sumn n f.
Proof.
  induction n; intros; [lia|]. simpl.
  assert (0 <= sumn n f) by (apply sumn_nonneg; auto).
  destruct (Nat.eq_dec i n); [subst; qclra|].
  pose proof (IHn f i ltac:(auto) ltac:(lia)). pose proof (H n ltac:(lia)). qclra.
Qed.
(** Picking out one term. *)
Lemma sumn_single : forall n f a, (a < n)%nat ->
  sumn n (fun i => if Nat.eqb i a then f i else 0) = f a.
Proof.
  induction n; intros; [lia|]. simpl. destruct (Nat.eq_dec a n).
  - subst. rewrite Nat.eqb_refl. rewrite sumn_zero; [ring|].
    intros. destruct (Nat.eqb_spec i n); auto; lia.
  - rewrite IHn by lia. destruct (Nat.eqb_spec n a); [lia|]. ring.
Qed.
Lemma sumn_single' : forall n f a, (a < n)%nat ->
  sumn n (fun i => if Nat.eqb a i then f i else 0) = f a.
Proof.
  intros. rewrite <- (sumn_single n f a) by auto. apply sumn_ext. intros.
  rewrite Nat.eqb_sym. reflexivity.
Qed.
Lemma sumn_app : forall n m f, sumn (n + m) f = sumn n f + sumn m (fun i => f (n + i)%nat).
Proof.
  intros n m. induction m; intros; simpl.
  - rewrite Nat.add_0_r. ring.
  - replace (n + S m)%nat with (S (n + m)) by lia. simpl. rewrite IHm. ring.
Qed.
(** A flat sum as a double sum. *)
Lemma sumn_flat : forall n m f, sumn (n * m) f = sumn n (fun i => sumn m (fun j => f (i * m + j)%nat)).
Proof.
  induction n; intros; simpl; auto.
  replace (m + n * m)%nat with (n * m + m)%nat by lia. rewrite sumn_app, IHn. reflexivity.
Qed.
Lemma sumn_qsum : forall n f, sumn n f = qsum (tab n f).
Proof.
  induction n; intros; auto. rewrite tab_S. simpl. rewrite IHn.
  assert (H : forall l x, qsum (l ++ [x]) = qsum l + x).
  { induction l; intros; simpl; [ring|]. rewrite IHl. ring. }
  rewrite H. reflexivity.
Qed.
Lemma qsum_app : forall l1 l2, qsum (l1 ++ l2) = qsum l1 + qsum l2.
Proof. induction l1; intros; simpl; [ring|]. rewrite IHl1. ring. Qed.
Lemma qsum_perm : forall l1 l2, Permutation l1 l2 -> qsum l1 = qsum l2.
Proof. induction 1; simpl; auto; try ring. - rewrite IHPermutation; ring. - congruence. Qed.
Lemma qsum_sumn : forall l, qsum l = sumn (length l) (fun i => nth i l 0).
Proof. intros. rewrite sumn_qsum, tab_nth. reflexivity. Qed.
Lemma qsum_map_add : forall A (f g : A -> Qc) l, qsum (map (fun x => f x + g x) l) = qsum (map f l) + qsum (map g l).
Proof. induction l; simpl; [ring|]. rewrite IHl. ring. Qed.
Lemma qsum_map_scale : forall A c (f : A -> Qc) l, qsum (map (fun x => c * f x) l) = c * qsum (map f l).
Proof. induction l; simpl; [ring|]. rewrite IHl. ring. Qed.
Lemma qsum_nonneg : forall l, (forall x, In x l -> 0 <= x) -> 0 <= qsum l.
Proof. induction l; simpl; intros; [apply Qcle_refl|]. apply Qcadd_nonneg; auto. Qed.
Lemma NoDup_map_inj : forall A B (f : A -> B) l,
  (forall a b, In a l -> In b l -> f a = f b -> a = b) -> NoDup l -> NoDup (map f l).
Proof.
  induction l; intros H Hn; simpl; constructor; inversion Hn; subst.
  - intros Hin. apply in_map_iff in Hin. destruct Hin as [b [E Hb]].
    apply H in E; [subst; contradiction|right; auto|left; auto].
  - apply IHl; auto. intros; apply H; auto; right; auto.
Qed.
(** Reindexing a sum by a permutation of the index range. *)
Lemma sumn_perm : forall n f s, (forall i, (i < n)%nat -> (s i < n)%nat) ->
  (forall i j, (i < n)%nat -> (j < n)%nat -> s i = s j -> i = j) ->
  sumn n (fun i => f (s i)) = sumn n f.
Proof.
  intros n f s Hr Hi. rewrite !sumn_qsum. apply qsum_perm.
  unfold tab. rewrite <- (map_map s f). apply Permutation_map.
  apply Permutation_sym, NoDup_Permutation_bis.
  - apply seq_NoDup.
  - rewrite map_length. auto.
  - intros x Hx.
    assert (HP : Permutation (map s (seq 0 n)) (seq 0 n)).
    { apply NoDup_Permutation_bis.
      - apply NoDup_map_inj.
        + intros a b Ha Hb E. apply in_seq in Ha, Hb. apply Hi; auto; lia.
        + apply seq_NoDup.
      - rewrite map_length. auto.
      - intros y Hy. apply in_map_iff in Hy. destruct Hy as [i [<- Hin]]. apply in_seq in Hin.
        apply in_seq. specialize (Hr i ltac:(lia)). lia. }
    apply (Permutation_in x (Permutation_sym HP)). auto.
Qed.

(** Accumulation into one cell: sum += a[i]. *)
Lemma for_accumulate : forall n (f : nat -> Qc) (body : nat -> Qc -> res Qc) a,
  (forall i s, (i < n)%nat -> body i s = Ok (s + f i)) ->
  for_ 0 n body a = Ok (a + sumn n f).
Proof.
  intros n f body a H.
  destruct (for_inv _ (fun i s => s = a + sumn i f) body n 0 a) as [s [E ->]].
  - simpl. ring.
  - intros i s Hi ->. rewrite H by lia. eexists. split; [reflexivity|]. simpl. ring.
  - exact E.
Qed.
