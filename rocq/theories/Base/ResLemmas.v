(** Lemmas on results, loops and bounds-checked arrays. *)
From Coq Require Import List ZArith Bool Lia.
From Verif Require Import Base.Res.
Import ListNotations.

Lemma bind_ok : forall A B (x : res A) (f : A -> res B) b,
  bind x f = Ok b -> exists a, x = Ok a /\ f a = Ok b.
Proof. intros A B [a|e] f b H; simpl in H; [eauto|discriminate]. Qed.

Lemma bind_Ok : forall A B (a : A) (f : A -> res B), bind (Ok a) f = f a.
Proof. reflexivity. Qed.

Lemma get_nat : forall A (l : list A) i a,
  nth_error l i = Some a -> get l (Z.of_nat i) = Ok a.
Proof.
  intros. unfold get. destruct (Z.ltb_spec (Z.of_nat i) 0); [lia|].
  rewrite Nat2Z.id, H. reflexivity.
Qed.

Lemma get_Z : forall A (l : list A) i a,
  (0 <= i)%Z -> nth_error l (Z.to_nat i) = Some a -> get l i = Ok a.
Proof.
  intros. unfold get. destruct (Z.ltb_spec i 0); [lia|]. rewrite H0. reflexivity.
Qed.

Lemma get_ok_inv : forall A (l : list A) i a,
  get l i = Ok a -> (0 <= i)%Z /\ nth_error l (Z.to_nat i) = Some a /\ (i < Z.of_nat (length l))%Z.
Proof.
  unfold get; intros. destruct (Z.ltb_spec i 0); [discriminate|].
  destruct (nth_error l (Z.to_nat i)) eqn:E; inversion H; subst.
  repeat split; auto. 
  assert (Z.to_nat i < length l) by (apply nth_error_Some; congruence). lia.
Qed.

Lemma upd_length : forall A (l : list A) i v, length (upd l i v) = length l.
Proof. induction l; destruct i; simpl; auto. Qed.

Lemma nth_error_upd_eq : forall A (l : list A) i v,
  i < length l -> nth_error (upd l i v) i = Some v.
Proof. induction l; destruct i; simpl; intros; auto; try lia. apply IHl; lia. Qed.

Lemma nth_error_upd_neq : forall A (l : list A) i j v,
  i <> j -> nth_error (upd l i v) j = nth_error l j.
Proof. induction l; destruct i, j; simpl; intros; auto; try lia. Qed.

Lemma nth_error_upd : forall A (l : list A) i j v,
  i < length l ->
  nth_error (upd l i v) j = if Nat.eqb j i then Some v else nth_error l j.
Proof.
  intros. destruct (Nat.eqb_spec j i); subst.
  - apply nth_error_upd_eq; auto.
  - apply nth_error_upd_neq; auto.
Qed.

Lemma set_nat : forall A (l : list A) i v,
  i < length l -> set l (Z.of_nat i) v = Ok (upd l i v).
Proof.
  intros. unfold set.
  destruct (Z.ltb_spec (Z.of_nat i) 0); [lia|].
  destruct (Z.leb_spec (Z.of_nat (length l)) (Z.of_nat i)); [lia|].
  simpl. rewrite Nat2Z.id. reflexivity.
Qed.

Lemma set_Z : forall A (l : list A) i v,
  (0 <= i < Z.of_nat (length l))%Z -> set l i v = Ok (upd l (Z.to_nat i) v).
Proof.
  intros. rewrite <- (Z2Nat.id i) at 1 by lia. apply set_nat. lia.
Qed.

Lemma set_ok_inv : forall A (l : list A) i v l',
  set l i v = Ok l' -> (0 <= i < Z.of_nat (length l))%Z /\ l' = upd l (Z.to_nat i) v.
Proof.
  unfold set; intros.
  destruct (Z.ltb_spec i 0); [discriminate|].
  destruct (Z.leb_spec (Z.of_nat (length l)) i); [discriminate|].
  simpl in H. inversion H. split; auto; lia.
Qed.

(** Loop rule: an invariant preserved by each iteration. *)
Lemma for_inv : forall S (P : nat -> S -> Prop) body n i s,
  P i s ->
  (forall k s, i <= k < i + n -> P k s -> exists s', body k s = Ok s' /\ P (Datatypes.S k) s') ->
  exists s', for_ i n body s = Ok s' /\ P (i + n) s'.
Proof.
  induction n; intros i s H0 Hs; simpl.
  - exists s. rewrite Nat.add_0_r. auto.
  - destruct (Hs i s) as [s1 [E1 H1]]; auto; [lia|].
    rewrite E1; simpl.
    destruct (IHn (Datatypes.S i) s1 H1) as [s2 [E2 H2]].
    { intros; apply Hs; auto; lia. }
    exists s2. split; auto. replace (i + Datatypes.S n) with (Datatypes.S i + n) by lia. auto.
Qed.

Lemma for_ext : forall S (b1 b2 : nat -> S -> res S) n i s,
  (forall k s, i <= k < i + n -> b1 k s = b2 k s) ->
  for_ i n b1 s = for_ i n b2 s.
Proof.
  induction n; intros; simpl; auto.
  rewrite H by lia. destruct (b2 i s); simpl; auto. apply IHn. intros; apply H; lia.
Qed.

Lemma for_app : forall S (b : nat -> S -> res S) n m i s,
  for_ i (n + m) b s = (s' <- for_ i n b s ;; for_ (i + n) m b s').
Proof.
  induction n; intros; simpl.
  - rewrite Nat.add_0_r. reflexivity.
  - destruct (b i s); simpl; auto. rewrite IHn.
    replace (Datatypes.S i + n) with (i + Datatypes.S n) by lia. reflexivity.
Qed.

Lemma for_forl : forall S (b : nat -> S -> res S) n i s,
  for_ i n b s = forl (seq i n) b s.
Proof. induction n; intros; simpl; auto. destruct (b i s); simpl; auto. Qed.

Lemma forl_app : forall A S (b : A -> S -> res S) l1 l2 s,
  forl (l1 ++ l2) b s = (s' <- forl l1 b s ;; forl l2 b s').
Proof. induction l1; intros; simpl; auto. destruct (b a s); simpl; auto. Qed.

(** A loop whose body always succeeds is a fold. *)
Lemma for_fold : forall S (P : S -> Prop) (b : nat -> S -> res S) (f : nat -> S -> S) n i s,
  P s ->
  (forall k s, i <= k < i + n -> P s -> b k s = Ok (f k s) /\ P (f k s)) ->
  for_ i n b s = Ok (fold_left (fun s k => f k s) (seq i n) s)
  /\ P (fold_left (fun s k => f k s) (seq i n) s).
Proof.
  induction n; intros; simpl; auto.
  destruct (H0 i s) as [E HP]; auto; [lia|]. rewrite E; simpl.
  apply IHn; auto. intros; apply H0; auto; lia.
Qed.

(** The elementwise update loop: a[i] = f i a[i]. *)
Lemma for_elementwise : forall A (f : nat -> A -> A) (body : nat -> list A -> res (list A)) (l : list A),
  (forall k (l' : list A) a, k < length l -> length l' = length l ->
     nth_error l' k = Some a -> body k l' = Ok (upd l' k (f k a))) ->
  exists l', for_ 0 (length l) body l = Ok l' /\ length l' = length l /\
    forall k a, nth_error l k = Some a -> nth_error l' k = Some (f k a).
Proof.
  intros A f body l H.
  destruct (for_inv (list A)
    (fun k l' => length l' = length l /\
       forall j a, nth_error l j = Some a ->
         nth_error l' j = Some (if Nat.ltb j k then f j a else a)) body (length l) 0 l)
    as [l' [E [HL HN]]].
  - split; auto.
  - intros k s Hk [HL HN].
    destruct (nth_error l k) as [a|] eqn:Ea.
    2:{ apply nth_error_None in Ea. lia. }
    specialize (HN k a Ea) as Hka. rewrite Nat.ltb_irrefl in Hka.
    exists (upd s k (f k a)). split; [apply H; auto; lia|].
    split; [rewrite upd_length; auto|].
    intros j b Hb. rewrite nth_error_upd by lia.
    destruct (Nat.eqb_spec j k).
    + subst. rewrite Ea in Hb; inversion Hb; subst.
      destruct (Nat.ltb_spec k (Datatypes.S k)); [auto|lia].
    + rewrite (HN j b Hb).
      destruct (Nat.ltb_spec j k), (Nat.ltb_spec j (Datatypes.S k)); auto; lia.
  - exists l'. repeat split; auto. intros k a Hk. rewrite (HN k a Hk). simpl.
    assert (k < length l) by (apply nth_error_Some; congruence).
    destruct (Nat.ltb_spec k (length l)); auto; lia.
Qed.

Lemma sequence_ok : forall A (l : list (res A)) r,
  sequence l = Ok r <-> l = map Ok r.
Proof.
  induction l as [|x l IH]; intros r; simpl.
  - split; intros H; [inversion H; reflexivity|]. destruct r; [reflexivity|discriminate].
  - split; intros H.
    + apply bind_ok in H. destruct H as [a [Ha H]]. apply bind_ok in H.
      destruct H as [r' [Hr H]]. inversion H; subst. simpl. f_equal. apply IH; auto.
    + destruct r as [|a r]; [discriminate|]. simpl in H. inversion H; subst. simpl.
      rewrite (proj2 (IH r) eq_refl). reflexivity.
Qed.

Lemma mapM_ok_map : forall A B (f : A -> res B) (g : A -> B) l,
  (forall a, In a l -> f a = Ok (g a)) -> mapM f l = Ok (map g l).
Proof.
  intros. unfold mapM. apply sequence_ok. rewrite map_map. apply map_ext_in. auto.
Qed.

Lemma mapM_ok_inv : forall A B (f : A -> res B) l r,
  mapM f l = Ok r -> Forall2 (fun a b => f a = Ok b) l r.
Proof.
  unfold mapM. induction l; simpl; intros.
  - inversion H; constructor.
  - apply bind_ok in H. destruct H as [b [Hb H]]. apply bind_ok in H.
    destruct H as [r' [Hr H]]. inversion H; subst. constructor; auto.
Qed.

Lemma nth_error_ext : forall A (l1 l2 : list A),
  (forall i, nth_error l1 i = nth_error l2 i) -> l1 = l2.
Proof.
  induction l1; destruct l2; intros; auto.
  - specialize (H 0); discriminate.
  - specialize (H 0); discriminate.
  - f_equal.
    + specialize (H 0). simpl in H. congruence.
    + apply IHl1. intros i. apply (H (Datatypes.S i)).
Qed.

Lemma nth_error_ext_len : forall A (l1 l2 : list A),
  length l1 = length l2 ->
  (forall i, i < length l1 -> nth_error l1 i = nth_error l2 i) -> l1 = l2.
Proof.
  intros. apply nth_error_ext. intros i.
  destruct (Nat.lt_ge_cases i (length l1)); auto.
  rewrite (proj2 (nth_error_None l1 i)), (proj2 (nth_error_None l2 i)); auto; lia.
Qed.

Lemma nth_error_ex : forall A (l : list A) i, i < length l -> exists a, nth_error l i = Some a.
Proof.
  intros. destruct (nth_error l i) eqn:E; eauto. apply nth_error_None in E. lia.
Qed.

Lemma nth_error_lt : forall A (l : list A) i a, nth_error l i = Some a -> i < length l.
Proof. intros. apply nth_error_Some. congruence. Qed.

Lemma nth_error_combine : forall A B (l1 : list A) (l2 : list B) i,
  nth_error (combine l1 l2) i =
  match nth_error l1 i, nth_error l2 i with Some a, Some b => Some (a, b) | _, _ => None end.
Proof.
  induction l1; destruct l2, i; simpl; auto.
  - destruct (nth_error l1 i); auto.
Qed.

Lemma map_fst_combine : forall A B (l1 : list A) (l2 : list B),
  length l1 = length l2 -> map fst (combine l1 l2) = l1.
Proof. induction l1; destruct l2; simpl; intros; auto; try lia. f_equal; auto. Qed.

Lemma map_snd_combine : forall A B (l1 : list A) (l2 : list B),
  length l1 = length l2 -> map snd (combine l1 l2) = l2.
Proof. induction l1; destruct l2; simpl; intros; auto; try lia. f_equal; auto. Qed.

Lemma combine_fst_snd : forall A B (l : list (A * B)), combine (map fst l) (map snd l) = l.
Proof. induction l as [|[a b] l]; simpl; auto. f_equal; auto. Qed.
