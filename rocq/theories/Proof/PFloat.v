(** Sums and loops of rounded numbers. *)
From Coq Require Import Reals ZArith List Permutation Lia Lra Bool.
From Verif Require Import Base.Res Base.ResLemmas Base.Loops Model.MRecon Model.MFloat Spec.FloatSpec.
Import ListNotations.
Local Open Scope R_scope.

(** ** Arrays *)
Lemma get_at : forall (l : list R) i, (i < length l)%nat -> get l (zi i) = Ok (nth i l 0).
Proof. intros. apply get_nat. apply nth_error_nth'. auto. Qed.
Lemma nth_upd : forall (l : list R) i j v, (i < length l)%nat -> nth j (upd l i v) 0 = if Nat.eqb j i then v else nth j l 0.
Proof.
  intros. destruct (Nat.eqb_spec j i).
  - subst. apply nth_error_nth. apply nth_error_upd_eq. auto.
  - assert (E := nth_error_upd_neq R l i j v). destruct (Nat.lt_ge_cases j (length l)).
    + apply nth_error_nth. rewrite E by auto. apply nth_error_nth'. auto.
    + rewrite !nth_overflow; auto. rewrite upd_length. auto.
Qed.
Lemma upd_same : forall (l : list R) i, upd l i (nth i l 0) = l.
Proof. induction l; destruct i; simpl; auto. f_equal. auto. Qed.
Lemma gets_at : forall (l : list R) a n, (a + n <= length l)%nat -> gets l a n = Ok (map (fun i => nth i l 0) (seq a n)).
Proof. intros. unfold gets. apply mapM_ok_map. intros i Hi. apply in_seq in Hi. apply get_at. lia. Qed.
Lemma nth_map_seq : forall (f : nat -> R) a n i, (i < n)%nat -> nth i (map f (seq a n)) 0 = f (a + i)%nat.
Proof.
  intros. rewrite (nth_indep _ 0 (f 0%nat)) by (rewrite map_length, seq_length; auto). rewrite map_nth, seq_nth; auto.
Qed.

(** A loop that changes element i in step i. *)
Lemma for_each : forall n (body : nat -> list R -> res (list R)) (Q : nat -> R -> Prop) l, length l = n ->
  (forall i a, (i < n)%nat -> length a = n -> nth i a 0 = nth i l 0 -> exists y, body i a = Ok (upd a i y) /\ Q i y) ->
  exists l', for_ 0 n body l = Ok l' /\ length l' = n /\ forall i, (i < n)%nat -> Q i (nth i l' 0).
Proof.
  intros n body Q l Hl H.
  destruct (for_inv _ (fun i a => length a = n /\ (forall k, (k < i)%nat -> Q k (nth k a 0)) /\
     forall k, (i <= k)%nat -> nth k a 0 = nth k l 0) body n 0 l) as (l' & E & L & P & _).
  - repeat split; auto. intros; lia.
  - intros i a Hi (L & P & U). destruct (H i a) as (y & E & HQ); [lia|auto|auto|]. exists (upd a i y). split; auto.
    rewrite upd_length. split; auto. split.
    + intros k Hk. rewrite nth_upd by lia. destruct (Nat.eqb_spec k i); [subst; auto|]. apply P. lia.
    + intros k Hk. rewrite nth_upd by lia. destruct (Nat.eqb_spec k i); [lia|]. apply U. lia.
  - exists l'. split; auto.
Qed.
Lemma set_at : forall (l : list R) i v, (i < length l)%nat -> set l (zi i) v = Ok (upd l i v).
Proof. intros. apply set_nat. auto. Qed.

(** ** Sums *)
Definition zs (f : nat -> Z) (l : list nat) : Z := fold_right Z.add 0%Z (map f l).
Lemma zs_app : forall f a b, zs f (a ++ b) = (zs f a + zs f b)%Z.
Proof. intros. unfold zs. rewrite map_app, fold_right_app. induction (map f a); simpl; lia. Qed.
Lemma zs_perm : forall f a b, Permutation a b -> zs f a = zs f b.
Proof. intros f a b P. induction P; unfold zs in *; simpl; lia. Qed.
Lemma zs_nonneg : forall f l, (forall i, In i l -> (0 <= f i)%Z) -> (0 <= zs f l)%Z.
Proof. unfold zs. induction l; simpl; intros; [lia|]. assert (0 <= f a)%Z by auto. assert (0 <= zs f l)%Z by auto. unfold zs in *. lia. Qed.
Lemma zs_const : forall c l, zs (fun _ => c) l = (c * Z.of_nat (length l))%Z.
Proof. unfold zs. induction l; [simpl; lia|]. cbn [map fold_right length]. rewrite IHl. lia. Qed.
Lemma zs_ext : forall f g l, (forall i, In i l -> f i = g i) -> zs f l = zs g l.
Proof. intros. unfold zs. f_equal. apply map_ext_in. auto. Qed.

Lemma finite_ok : forall huge x, Rabs x <= huge -> finite_number huge x = Ok x.
Proof. intros. unfold finite_number. destruct (Rle_dec (Rabs x) huge); auto. contradiction. Qed.
Lemma between_abs : forall a b x h, - a <= x <= b -> a <= h -> b <= h -> Rabs x <= h.
Proof. intros. apply Rabs_le. lra. Qed.

Section Sum.
Variables (rd : R -> R) (M : Z) (huge : R).
Hypothesis mono : forall x y, x <= y -> rd x <= rd y.
Hypothesis grid : forall z k, (Z.abs z <= M)%Z -> rd (IZR z * 2 ^ k) = IZR z * 2 ^ k.

Lemma rd_up : forall z k x, (Z.abs z <= M)%Z -> x <= IZR z * 2 ^ k -> rd x <= IZR z * 2 ^ k.
Proof. intros. rewrite <- (grid z k) by auto. auto. Qed.
Lemma rd_low : forall z k x, (Z.abs z <= M)%Z -> IZR z * 2 ^ k <= x -> IZR z * 2 ^ k <= rd x.
Proof. intros. rewrite <- (grid z k) by auto. auto. Qed.
Lemma rd_low' : forall z k x, (Z.abs z <= M)%Z -> - (IZR z * 2 ^ k) <= x -> - (IZR z * 2 ^ k) <= rd x.
Proof. intros. rewrite Ropp_mult_distr_l, <- opp_IZR in *. apply rd_low; auto. rewrite Z.abs_opp. auto. Qed.

Lemma tree_bounds : forall k l lo hi t,
  (forall i, In i (leaves t) -> (i < length l)%nat /\ (0 <= lo i)%Z /\ (0 <= hi i)%Z /\
     - (IZR (lo i) * 2 ^ k) <= nth i l 0 <= IZR (hi i) * 2 ^ k) ->
  (zs lo (leaves t) <= M)%Z -> (zs hi (leaves t) <= M)%Z ->
  IZR (zs lo (leaves t)) * 2 ^ k <= huge -> IZR (zs hi (leaves t)) * 2 ^ k <= huge ->
  exists s, tree_sum rd huge t l = Ok s /\ - (IZR (zs lo (leaves t)) * 2 ^ k) <= s <= IZR (zs hi (leaves t)) * 2 ^ k.
Proof.
  intros k l lo hi. induction t as [i|a IHa b IHb]; cbn [leaves tree_sum]; intros H L1 L2 H1 H2.
  - destruct (H i) as (Hi & _ & _ & B); [left; auto|]. exists (nth i l 0). split; [apply get_at; auto|].
    unfold zs. simpl. rewrite !Z.add_0_r. auto.
  - rewrite !zs_app in *.
    assert (0 <= zs lo (leaves a))%Z by (apply zs_nonneg; intros i Hi; destruct (H i) as (_ & ? & _); [apply in_or_app|]; auto).
    assert (0 <= zs lo (leaves b))%Z by (apply zs_nonneg; intros i Hi; destruct (H i) as (_ & ? & _); [apply in_or_app|]; auto).
    assert (0 <= zs hi (leaves a))%Z by (apply zs_nonneg; intros i Hi; destruct (H i) as (_ & _ & ? & _); [apply in_or_app|]; auto).
    assert (0 <= zs hi (leaves b))%Z by (apply zs_nonneg; intros i Hi; destruct (H i) as (_ & _ & ? & _); [apply in_or_app|]; auto).
    assert (P : 0 < 2 ^ k) by (apply pow_lt; lra).
    assert (Rl : forall x y, (x <= y)%Z -> IZR x * 2 ^ k <= IZR y * 2 ^ k).
    { intros x y Hxy. apply Rmult_le_compat_r; [lra|]. apply IZR_le. auto. }
    destruct IHa as (x & Ex & Bx); try lia.
    { intros i Hi. apply H. apply in_or_app. auto. }
    { eapply Rle_trans; [|exact H1]. apply Rl. lia. }
    { eapply Rle_trans; [|exact H2]. apply Rl. lia. }
    destruct IHb as (y & Ey & By); try lia.
    { intros i Hi. apply H. apply in_or_app. auto. }
    { eapply Rle_trans; [|exact H1]. apply Rl. lia. }
    { eapply Rle_trans; [|exact H2]. apply Rl. lia. }
    rewrite Ex, Ey. cbn [bind]. exists (rd (x + y)).
    assert (B : - (IZR (zs lo (leaves a) + zs lo (leaves b)) * 2 ^ k) <= rd (x + y) <= IZR (zs hi (leaves a) + zs hi (leaves b)) * 2 ^ k).
    { split; [apply rd_low'|apply rd_up]; rewrite ?plus_IZR; try lia; lra. }
    split; auto. apply finite_ok. eapply between_abs; eauto.
Qed.

Lemma tree_pos : forall l t s, (forall i, In i (leaves t) -> 0 <= nth i l 0 /\ rd (nth i l 0) = nth i l 0) ->
  (forall x, rd (rd x) = rd x) -> tree_sum rd huge t l = Ok s ->
  rd s = s /\ 0 <= s /\ forall i, In i (leaves t) -> nth i l 0 <= s.
Proof.
  intros l t. induction t as [i|a IHa b IHb]; cbn [leaves tree_sum]; intros s H I E.
  - apply get_ok_inv in E. destruct E as (_ & E & _). rewrite Nat2Z.id in E. apply nth_error_nth with (d := 0) in E.
    destruct (H i) as [H1 H2]; [left; auto|]. rewrite <- E. repeat split; auto. intros j [<-|[]]. lra.
  - apply bind_ok in E. destruct E as (x & Ex & E). apply bind_ok in E. destruct E as (y & Ey & E).
    destruct (IHa x) as (X1 & X2 & X3); auto. { intros i Hi. apply H. apply in_or_app. auto. }
    destruct (IHb y) as (Y1 & Y2 & Y3); auto. { intros i Hi. apply H. apply in_or_app. auto. }
    unfold finite_number in E. destruct (Rle_dec _ _); [|discriminate]. injection E as <-.
    assert (Lx : x <= rd (x + y)) by (rewrite <- X1 at 1; apply mono; lra).
    assert (Ly : y <= rd (x + y)) by (rewrite <- Y1 at 1; apply mono; lra).
    split; auto. split; [lra|]. intros i Hi. apply in_app_or in Hi. destruct Hi as [Hi|Hi]; [apply X3 in Hi|apply Y3 in Hi]; lra.
Qed.

Lemma tree_number : forall l t s, (forall i, In i (leaves t) -> rd (nth i l 0) = nth i l 0) ->
  (forall x, rd (rd x) = rd x) -> tree_sum rd huge t l = Ok s -> rd s = s.
Proof.
  intros l t s H I E. destruct t; cbn [tree_sum] in E.
  - apply get_ok_inv in E. destruct E as (_ & E & _). rewrite Nat2Z.id in E. apply nth_error_nth with (d := 0) in E. rewrite <- E. apply H. left; auto.
  - apply bind_ok in E. destruct E as (x & Ex & E). apply bind_ok in E. destruct E as (y & Ey & E).
    unfold finite_number in E. destruct (Rle_dec _ _); [|discriminate]. injection E as <-. auto.
Qed.

Variable order : nat -> tree.
Hypothesis Ho : orders order.

Lemma leaf_lt : forall n i, (0 < n)%nat -> In i (leaves (order n)) -> (i < n)%nat.
Proof. intros n i Hn Hi. apply (Permutation_in i (Ho n Hn)) in Hi. apply in_seq in Hi. lia. Qed.
Lemma lt_leaf : forall n i, (i < n)%nat -> In i (leaves (order n)).
Proof. intros n i Hi. apply (Permutation_in i (Permutation_sym (Ho n ltac:(lia)))). apply in_seq. lia. Qed.

Lemma osum_bounds : forall k l lo hi,
  (forall i, (i < length l)%nat -> (0 <= lo i)%Z /\ (0 <= hi i)%Z /\
     - (IZR (lo i) * 2 ^ k) <= nth i l 0 <= IZR (hi i) * 2 ^ k) ->
  (zs lo (seq 0 (length l)) <= M)%Z -> (zs hi (seq 0 (length l)) <= M)%Z ->
  IZR (zs lo (seq 0 (length l))) * 2 ^ k <= huge -> IZR (zs hi (seq 0 (length l))) * 2 ^ k <= huge ->
  exists s, ordered_sum rd huge order l = Ok s /\
    - (IZR (zs lo (seq 0 (length l))) * 2 ^ k) <= s <= IZR (zs hi (seq 0 (length l))) * 2 ^ k.
Proof.
  intros k l lo hi H L1 L2 H1 H2. unfold ordered_sum. destruct l as [|x l].
  - exists 0. split; auto. simpl. unfold zs. simpl. lra.
  - set (m := x :: l) in *. assert (Hn : (0 < length m)%nat) by (simpl; lia).
    assert (P := Ho _ Hn). rewrite <- (zs_perm lo _ _ P), <- (zs_perm hi _ _ P) in *. apply tree_bounds; auto.
    intros i Hi. assert (Hlt := leaf_lt _ _ Hn Hi). split; auto.
Qed.
Lemma osum_number : forall l s, (forall i, (i < length l)%nat -> rd (nth i l 0) = nth i l 0) ->
  (forall x, rd (rd x) = rd x) -> rd 0 = 0 -> ordered_sum rd huge order l = Ok s -> rd s = s.
Proof.
  intros l s H I Z0 E. unfold ordered_sum in E. destruct l as [|x l]; [injection E as <-; auto|].
  eapply tree_number; [|exact I|exact E]. intros i Hi. apply H. eapply leaf_lt; eauto. simpl; lia.
Qed.
Lemma osum_pos : forall l s, (forall i, (i < length l)%nat -> 0 <= nth i l 0 /\ rd (nth i l 0) = nth i l 0) ->
  (forall x, rd (rd x) = rd x) -> rd 0 = 0 -> ordered_sum rd huge order l = Ok s ->
  rd s = s /\ 0 <= s /\ forall i, (i < length l)%nat -> nth i l 0 <= s.
Proof.
  intros l s H I Z0 E. unfold ordered_sum in E. destruct l as [|x l].
  - injection E as <-. split; auto. split; [lra|]. simpl. lia.
  - set (m := x :: l) in *. assert (Hn : (0 < length m)%nat) by (simpl; lia).
    destruct (tree_pos m (order (length m)) s) as (A & B & C); auto.
    { intros i Hi. apply H. eapply leaf_lt; eauto. }
    split; auto. split; auto. intros i Hi. apply C. apply lt_leaf. auto.
Qed.
(** Terms between 0 and b 2^k. *)
Lemma osum_uniform : forall k l b, (0 <= b)%Z ->
  (forall i, (i < length l)%nat -> 0 <= nth i l 0 <= IZR b * 2 ^ k) ->
  (b * Z.of_nat (length l) <= M)%Z -> IZR (b * Z.of_nat (length l)) * 2 ^ k <= huge ->
  exists s, ordered_sum rd huge order l = Ok s /\ 0 <= s <= IZR (b * Z.of_nat (length l)) * 2 ^ k.
Proof.
  intros k l b Hb H L1 H1. assert (P : 0 < 2 ^ k) by (apply pow_lt; lra).
  destruct (osum_bounds k l (fun _ => 0%Z) (fun _ => b)) as (s & E & B); rewrite ?zs_const, ?seq_length in *; auto; try lia.
  - intros i Hi. specialize (H i Hi). repeat split; try lia; lra.
  - rewrite Z.mul_0_l. assert (0 <= IZR (b * Z.of_nat (length l))) by (apply IZR_le; lia). nra.
  - exists s. split; auto. rewrite Z.mul_0_l in B. lra.
Qed.
(** All terms zero. *)
Lemma osum_zero : forall l, (forall i, (i < length l)%nat -> nth i l 0 = 0) -> (0 <= M)%Z -> 0 <= huge -> ordered_sum rd huge order l = Ok 0.
Proof.
  intros l H HM Hh. destruct (osum_uniform 0 l 0) as (s & E & B); try lia.
  - intros i Hi. rewrite H by auto. lra.
  - rewrite Z.mul_0_l. lra.
  - rewrite Z.mul_0_l in B. rewrite E. f_equal. lra.
Qed.
End Sum.
