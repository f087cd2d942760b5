(** Loop lemmas over arrays given by functions. *)
From Coq Require Import List ZArith QArith Qcanon Lia Arith.
From Verif Require Import Base.Res Base.ResLemmas Base.QcLib Base.QcLemmas.
Import ListNotations.
Local Open Scope Qc_scope.

Lemma for_steps : forall S n (body : nat -> S -> res S) (s : nat -> S),
  (forall i, (i < n)%nat -> body i (s i) = Ok (s (Datatypes.S i))) ->
  for_ 0 n body (s 0%nat) = Ok (s n).
Proof.
  intros S n body s H.
  destruct (for_inv _ (fun i x => x = s i) body n 0 (s 0%nat)) as [x [E ->]]; auto.
  intros k x Hk ->. eexists. split; [apply H; lia|]. reflexivity.
Qed.

(** Same, for a loop that starts at [s0], equal to [s 0], and ends in [s n] up
    to an equality. *)
Lemma for_steps' : forall S n (body : nat -> S -> res S) (s : nat -> S) s0 s1,
  s0 = s 0%nat -> s1 = s n ->
  (forall i, (i < n)%nat -> body i (s i) = Ok (s (Datatypes.S i))) ->
  for_ 0 n body s0 = Ok s1.
Proof. intros. subst. apply for_steps. auto. Qed.

Lemma for_shift : forall S (b : nat -> S -> res S) m i s,
  for_ i m b s = for_ 0 m (fun j s => b (i + j)%nat s) s.
Proof.
  intros S b m. induction m; intros; simpl; auto. rewrite Nat.add_0_r.
  destruct (b i s); simpl; auto. rewrite (IHm (Datatypes.S i) a).
  symmetry. rewrite (for_forl _ _ _ 1%nat), <- seq_shift.
  assert (F : forall l x, forl (map Datatypes.S l) (fun j s0 => b (i + j)%nat s0) x
                = forl l (fun j s0 => b (Datatypes.S i + j)%nat s0) x).
  { induction l; intros; simpl; auto.
    replace (i + Datatypes.S a0)%nat with (Datatypes.S (i + a0)) by lia.
    destruct (b _ x); simpl; auto. }
  rewrite F, <- for_forl. reflexivity.
Qed.

(** A double loop over rows of length m is one loop over the flat index. *)
Lemma for_nested : forall S (b : nat -> S -> res S) n m s,
  for_ 0 n (fun i s => for_ 0 m (fun j s => b (i * m + j)%nat s) s) s = for_ 0 (n * m) b s.
Proof.
  intros S b n m. induction n; intros; auto.
  replace (Datatypes.S n) with (n + 1)%nat by lia. rewrite for_app.
  replace ((n + 1) * m)%nat with (n * m + m)%nat by lia. rewrite for_app, IHn.
  destruct (for_ 0 (n * m) b s); simpl; auto.
  rewrite (for_shift _ b m (n * m)). destruct (for_ 0 m _ a); auto.
Qed.

(** for (j) a[idx j] += v j. *)
Lemma for_scatter : forall n f m (idx : nat -> nat) (v : nat -> Qc) (body : nat -> list Qc -> res (list Qc)),
  (forall j h, (j < m)%nat -> body j (tab n h) =
     Ok (tab n (fun k => if Nat.eqb k (idx j) then h (idx j) + v j else h k))) ->
  for_ 0 m body (tab n f) = Ok (tab n (fun k => f k + sumn m (fun j => if Nat.eqb (idx j) k then v j else 0))).
Proof.
  intros n f m idx v body H.
  apply (for_steps' _ m body (fun i => tab n (fun k => f k + sumn i (fun j => if Nat.eqb (idx j) k then v j else 0)))).
  - apply tab_ext. intros. simpl. ring.
  - reflexivity.
  - intros i Hi. rewrite H by auto. f_equal. apply tab_ext. intros k Hk. simpl.
    destruct (Nat.eqb_spec k (idx i)); destruct (Nat.eqb_spec (idx i) k); subst; try congruence; ring.
Qed.

(** The same for a double loop. *)
Lemma for_scatter2 : forall n f m1 m2 (idx : nat -> nat -> nat) (v : nat -> nat -> Qc)
    (body : nat -> nat -> list Qc -> res (list Qc)),
  (forall i j h, (i < m1)%nat -> (j < m2)%nat -> body i j (tab n h) =
     Ok (tab n (fun k => if Nat.eqb k (idx i j) then h (idx i j) + v i j else h k))) ->
  for_ 0 m1 (fun i a => for_ 0 m2 (fun j a => body i j a) a) (tab n f) =
  Ok (tab n (fun k => f k + sumn m1 (fun i => sumn m2 (fun j => if Nat.eqb (idx i j) k then v i j else 0)))).
Proof.
  intros n f m1 m2 idx v body H.
  apply (for_steps' _ m1 _ (fun i => tab n (fun k => f k + sumn i (fun i => sumn m2 (fun j => if Nat.eqb (idx i j) k then v i j else 0))))).
  - apply tab_ext. intros. simpl. ring.
  - reflexivity.
  - intros i Hi. rewrite (for_scatter n _ m2 (idx i) (v i)) by (intros; apply H; auto).
    f_equal. apply tab_ext. intros k Hk. simpl. ring.
Qed.

(** Flattening of a two-dimensional array with rows of length m. *)
Definition fl {A} (m : nat) (f : nat -> nat -> A) : nat -> A := fun k => f (k / m)%nat (k mod m)%nat.

Lemma fl_at : forall A m (f : nat -> nat -> A) i j, (j < m)%nat -> fl m f (i * m + j) = f i j.
Proof.
  intros. unfold fl. rewrite Nat.div_add_l by lia. rewrite Nat.div_small by auto.
  rewrite (Nat.add_comm (i * m) j), Nat.mod_add by lia. rewrite Nat.mod_small by auto.
  rewrite Nat.add_0_r. reflexivity.
Qed.

Lemma flat_lt : forall n m i j, (i < n)%nat -> (j < m)%nat -> (i * m + j < n * m)%nat.
Proof. intros. nia. Qed.

Lemma flat_of : forall n m k, (k < n * m)%nat ->
  exists i j, (i < n)%nat /\ (j < m)%nat /\ k = (i * m + j)%nat.
Proof.
  intros. assert (m <> 0)%nat by (intros ->; lia).
  exists (k / m)%nat, (k mod m)%nat. repeat split.
  - apply Nat.div_lt_upper_bound; lia.
  - apply Nat.mod_upper_bound; lia.
  - rewrite (Nat.mul_comm _ m). apply Nat.div_mod. auto.
Qed.

Lemma flat_eq : forall m i j i' j', (j < m)%nat -> (j' < m)%nat ->
  ((i * m + j = i' * m + j')%nat <-> i = i' /\ j = j').
Proof.
  intros. split; [|intros [-> ->]; auto]. intros E.
  assert (A := fl_at _ m (fun a b => (a, b)) i j H).
  assert (B := fl_at _ m (fun a b => (a, b)) i' j' H0).
  rewrite E in A. rewrite A in B. inversion B. auto.
Qed.

Lemma tab_fl_ext : forall A n m (f g : nat -> nat -> A),
  (forall i j, (i < n)%nat -> (j < m)%nat -> f i j = g i j) ->
  tab (n * m) (fl m f) = tab (n * m) (fl m g).
Proof.
  intros. apply tab_ext. intros k Hk. destruct (flat_of n m k Hk) as [i [j [Hi [Hj ->]]]].
  rewrite !fl_at by auto. auto.
Qed.

Lemma concat_tab : forall A n m (f : nat -> nat -> A),
  concat (tab n (fun i => tab m (f i))) = tab (n * m) (fl m f).
Proof.
  induction n; intros; auto. rewrite tab_S, concat_app, IHn. simpl concat. rewrite app_nil_r.
  apply tab_as.
  - rewrite app_length, !tab_length. lia.
  - intros k Hk. destruct (flat_of _ _ _ Hk) as [i [j [Hi [Hj ->]]]].
    rewrite fl_at by auto. destruct (Nat.lt_ge_cases (i * m + j) (n * m)).
    + rewrite nth_error_app1 by (rewrite tab_length; auto). rewrite nth_error_tab by auto.
      rewrite fl_at by auto. auto.
    + rewrite nth_error_app2 by (rewrite tab_length; auto). rewrite tab_length.
      assert (i = n) by nia. subst i. replace (n * m + j - n * m)%nat with j by lia.
      apply nth_error_tab. auto.
Qed.

Lemma sumn_fl : forall n m f, sumn (n * m) (fl m f) = sumn n (fun i => sumn m (fun j => f i j)).
Proof.
  intros. rewrite sumn_flat. apply sumn_ext. intros. apply sumn_ext. intros. apply fl_at. auto.
Qed.

Lemma skipn_tab : forall A n a (f : nat -> A), skipn a (tab n f) = tab (n - a) (fun i => f (a + i)%nat).
Proof.
  intros. destruct (Nat.le_gt_cases a n).
  - apply tab_as; [rewrite skipn_length, tab_length; auto|].
    intros. replace n with (a + (n - a))%nat by lia.
    rewrite <- (nth_error_tab (a + (n - a)) f (a + i)) by lia.
    clear. generalize (tab (a + (n - a)) f). revert i. induction a; intros; auto.
    destruct l; [destruct i; auto|]. simpl. apply IHa.
  - rewrite skipn_all2 by (rewrite tab_length; lia). replace (n - a)%nat with 0%nat by lia. auto.
Qed.

Lemma firstn_tab : forall A n a (f : nat -> A), (a <= n)%nat -> firstn a (tab n f) = tab a f.
Proof.
  intros. unfold tab. rewrite firstn_map. f_equal.
  replace n with (a + (n - a))%nat by lia. rewrite seq_app, firstn_app, seq_length.
  replace (a - a)%nat with 0%nat by lia. simpl. rewrite app_nil_r.
  rewrite <- (seq_length a 0) at 1. apply firstn_all.
Qed.

Lemma sequence_tab : forall A n (f : nat -> res A) g,
  (forall i, (i < n)%nat -> f i = Ok (g i)) -> sequence (tab n f) = Ok (tab n g).
Proof.
  intros A n f g H. unfold tab.
  assert (F : forall l, (forall i, In i l -> f i = Ok (g i)) -> sequence (map f l) = Ok (map g l)).
  { induction l; intros; simpl; auto. rewrite H0 by (left; auto). simpl. rewrite IHl; auto.
    intros; apply H0; right; auto. }
  apply F. intros i Hi. apply in_seq in Hi. apply H. lia.
Qed.

Lemma mapM_tab : forall A B (h : A -> res B) n f g,
  (forall i, (i < n)%nat -> h (f i) = Ok (g i)) -> mapM h (tab n f) = Ok (tab n g).
Proof. intros. unfold mapM. rewrite map_tab. apply sequence_tab. auto. Qed.

Lemma combine_tab : forall A B n (f : nat -> A) (g : nat -> B),
  combine (tab n f) (tab n g) = tab n (fun i => (f i, g i)).
Proof.
  intros. unfold tab. induction (seq 0 n); simpl; auto. rewrite IHl. auto.
Qed.

Lemma existsb_tab : forall A (p : A -> bool) n f,
  existsb p (tab n f) = true <-> exists i, (i < n)%nat /\ p (f i) = true.
Proof.
  intros. rewrite existsb_exists. split.
  - intros [x [H1 H2]]. apply in_tab in H1. destruct H1 as [i [Hi <-]]. eauto.
  - intros [i [Hi H]]. exists (f i). split; auto. apply in_tab. eauto.
Qed.

Lemma seq_tab : forall n, seq 0 n = tab n (fun i => i).
Proof. intros. unfold tab. rewrite map_id. auto. Qed.

Lemma for_fail : forall S n (body : nat -> S -> res S) s k s' e,
  (k < n)%nat -> for_ 0 k body s = Ok s' -> body k s' = Fail e -> for_ 0 n body s = Fail e.
Proof.
  intros. replace n with (k + (1 + (n - k - 1)))%nat by lia.
  rewrite for_app, H0. simpl. rewrite H1. reflexivity.
Qed.

(** Either a decidable predicate holds for all k <= n or there is a first
    failure. *)
Lemma first_failure : forall (P : nat -> Prop) n, (forall k, P k \/ ~ P k) ->
  (forall k, (k <= n)%nat -> P k) \/ exists k, (k <= n)%nat /\ ~ P k /\ forall k', (k' < k)%nat -> P k'.
Proof.
  intros P n D. induction n.
  - destruct (D 0%nat); [left|right].
    + intros. replace k with 0%nat by lia. auto.
    + exists 0%nat. split; auto. split; auto. intros; lia.
  - destruct IHn as [A|[k [H1 [H2 H3]]]].
    + destruct (D (S n)); [left|right].
      * intros. destruct (Nat.eq_dec k (S n)); [subst; auto|apply A; lia].
      * exists (S n). split; auto. split; auto. intros. apply A. lia.
    + right. exists k. auto.
Qed.
