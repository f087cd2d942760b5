(** Loading of arguments of the compiled reconstruction routines. *)
From Coq Require Import List ZArith Bool QArith Qcanon String Lia.
From Verif Require Import Base.Res Base.ResLemmas Base.QcLib Base.QcLemmas Base.Loops Model.MBind Model.MRecon
  Model.MCalls Spec.ReconSpec Spec.CallsSpec Proof.PRecon.
Import ListNotations.

Section Facts.
Variable single : Qc -> Qc.

Definition put (t : nty) (h : nheap) (a : narr) : nheap := if fits t a then h else h ++ [converted single t a].
Definition loc (t : nty) (h : nheap) (l : nat) (a : narr) : nat := if fits t a then l else List.length h.

Lemma put_old : forall t h a k b, nth_error h k = Some b -> nth_error (put t h a) k = Some b.
Proof.
  intros. unfold put. destruct (fits t a); auto. rewrite nth_error_app1; auto.
  apply nth_error_Some. congruence.
Qed.

Lemma put_len : forall t h a, (List.length h <= List.length (put t h a))%nat.
Proof. intros. unfold put. destruct (fits t a); auto. rewrite app_length. lia. Qed.

Lemma put_here : forall t h l a, nth_error h l = Some a ->
  nth_error (put t h a) (loc t h l a) = Some (if fits t a then a else converted single t a).
Proof.
  intros. unfold put, loc. destruct (fits t a); auto.
  rewrite nth_error_app2 by lia. rewrite Nat.sub_diag. reflexivity.
Qed.

Lemma load_floats : forall d h l a, nth_error h l = Some a ->
  nload single true (NFloats d) h (VArr l) = Some (put (NFloats d) h a, VArr (loc (NFloats d) h l a)).
Proof. intros. unfold nload, put, loc. rewrite H. destruct (fits (NFloats d) a); auto. Qed.

Lemma load_ints : forall h l a, nth_error h l = Some a ->
  nload single true NInts h (VArr l) = Some (put NInts h a, VArr (loc NInts h l a)).
Proof. intros. unfold nload, put, loc. rewrite H. destruct (fits NInts a); auto. Qed.

Lemma exact_floats : forall d h l a, nth_error h l = Some a ->
  nload single false (NFloats d) h (VArr l) = if fits (NFloats d) a then Some (h, VArr l) else None.
Proof. intros. unfold nload. rewrite H. auto. Qed.

Lemma exact_ints : forall h l a, nth_error h l = Some a ->
  nload single false NInts h (VArr l) = if fits NInts a then Some (h, VArr l) else None.
Proof. intros. unfold nload. rewrite H. auto. Qed.

Lemma load_int : forall c h n, (Z.of_nat n < 2 ^ 31)%Z ->
  nload single c NInt h (VInt (Z.of_nat n)) = Some (h, VInt (Z.of_nat n)).
Proof.
  intros. unfold nload.
  replace (- 2 ^ 31 <=? Z.of_nat n)%Z with true by (symmetry; apply Z.leb_le; lia).
  replace (Z.of_nat n <? 2 ^ 31)%Z with true by (symmetry; apply Z.ltb_lt; lia). reflexivity.
Qed.

Lemma load_Z : forall c h z, (0 <= z < 2 ^ 31)%Z ->
  nload single c NInt h (VInt z) = Some (h, VInt z).
Proof. intros. rewrite <- (Z2Nat.id z) by lia. apply load_int. lia. Qed.

Lemma fits_floats : forall d a, fits (NFloats d) a = true <-> floats_of d a.
Proof.
  intros d [s c e]. unfold fits, floats_of. cbn [n_cells n_contig]. split.
  - destruct d, e as [[]| |]; intros; try discriminate; subst; eauto.
  - intros (s' & v & E). injection E as -> -> ->. destruct d; auto.
Qed.

Lemma fits_ints : forall a, fits NInts a = true <-> ints_of a.
Proof.
  intros [s c e]. unfold fits, ints_of. cbn [n_cells n_contig]. split.
  - destruct e; intros; try discriminate; subst; eauto.
  - intros (s' & v & E). injection E as -> -> ->. auto.
Qed.

Lemma not_fits : forall t a (P : Prop), (fits t a = true <-> P) -> ~ P -> fits t a = false.
Proof. intros. destruct (fits t a); auto. exfalso. apply H0, H; auto. Qed.

(** A list that holds a table is that table. *)
Lemma table_tab : forall A n m (f : nat -> nat -> A) l, table n m f l -> l = tab (n * m) (fl m f).
Proof.
  intros A n m f l [L H]. apply nth_error_ext. intros k.
  destruct (Nat.ltb_spec k (n * m)).
  - destruct (flat_of _ _ _ H0) as (i & j & Hi & Hj & ->). rewrite H by auto.
    symmetry. unfold tab. rewrite nth_error_map.
    assert (S : nth_error (seq 0 (n * m)) (i * m + j) = Some (i * m + j)%nat).
    { rewrite (nth_error_nth' _ 0%nat) by (rewrite seq_length; auto). rewrite seq_nth by auto. auto. }
    rewrite S. cbn. rewrite fl_at by auto. auto.
  - rewrite (proj2 (nth_error_None _ _)) by lia. symmetry. apply nth_error_None.
    unfold tab. rewrite map_length, seq_length. lia.
Qed.

Lemma nth_error_tab : forall A n (f : nat -> A) k, (k < n)%nat -> nth_error (tab n f) k = Some (f k).
Proof.
  intros. unfold tab. rewrite nth_error_map, (nth_error_nth' _ 0%nat) by (rewrite seq_length; auto).
  rewrite seq_nth by auto. auto.
Qed.

Lemma tab_table : forall A n m (f : nat -> nat -> A), table n m f (tab (n * m) (fl m f)).
Proof.
  intros. split. { unfold tab. rewrite map_length, seq_length. auto. }
  intros. rewrite nth_error_tab by (apply flat_lt; auto). rewrite fl_at by auto. auto.
Qed.

Lemma vector_tab : forall A n (f : nat -> A) l, vector n f l -> l = tab n f.
Proof.
  intros A n f l [L H]. apply nth_error_ext. intros k. destruct (Nat.ltb_spec k n).
  - rewrite nth_error_tab by auto. auto.
  - rewrite (proj2 (nth_error_None _ _)) by lia. symmetry. apply nth_error_None.
    unfold tab. rewrite map_length, seq_length. lia.
Qed.

Lemma tab_vector : forall A n (f : nat -> A), vector n f (tab n f).
Proof.
  intros. split. { unfold tab. rewrite map_length, seq_length. auto. }
  intros. apply nth_error_tab. auto.
Qed.

(** The values of a loaded array. *)
Lemma loaded_double : forall h l a, nth_error h l = Some a ->
  nth_error (put (NFloats F64) h a) (loc (NFloats F64) h l a) =
  Some (NArr (n_shape a) true (Floats F64 (values_of a))).
Proof.
  intros. rewrite (put_here _ _ _ _ H). f_equal. destruct (fits (NFloats F64) a) eqn:E.
  - apply fits_floats in E. destruct E as (s & v & ->). reflexivity.
  - unfold converted, values_of. destruct a as [s c e]. cbn [n_shape n_cells]. f_equal. f_equal.
    destruct e as [[]| |]; cbn [as_floats]; auto. apply map_id.
Qed.

Lemma wrap_small : forall n, (Z.of_nat n < 2 ^ 31)%Z -> wrap32 (Z.of_nat n) = Z.of_nat n.
Proof. intros. unfold wrap32. rewrite Z.mod_small by lia. lia. Qed.

Lemma loaded_ints : forall h l a n m f, nth_error h l = Some a -> holds_ints a n m f ->
  (forall i j, (i < n)%nat -> (j < m)%nat -> (Z.of_nat (f i j) < 2 ^ 31)%Z) ->
  ints_at (put NInts h a) (loc NInts h l a) = Ok (tab (n * m) (fl m (fun i j => Z.of_nat (f i j)))).
Proof.
  intros h l a n m f H (v & C & T) B. unfold ints_at. rewrite (put_here _ _ _ _ H).
  apply table_tab in T. destruct (fits NInts a) eqn:E.
  - apply fits_ints in E. destruct E as (s & w & ->). cbn [n_cells] in C.
    destruct C as [C|C]; [|discriminate]. injection C as ->. rewrite T. auto.
  - unfold converted. destruct C as [-> | ->]; cbn [as_ints].
    + rewrite T. auto.
    + rewrite T. f_equal. unfold tab at 1. rewrite map_map. unfold tab. apply map_ext_in.
      intros k K. apply in_seq in K. destruct (flat_of n m k ltac:(lia)) as (i & j & Hi & Hj & ->).
      rewrite !fl_at by auto. apply wrap_small. auto.
Qed.

Lemma ints_at_old : forall t h a k v, ints_at h k = Ok v -> ints_at (put t h a) k = Ok v.
Proof.
  intros t h a k v. unfold ints_at. destruct (nth_error h k) eqn:E; [|discriminate].
  rewrite (put_old _ _ _ _ _ E). auto.
Qed.

Lemma write_result : forall h h1 l l1 a d v0 v,
  nth_error h1 l1 = Some (NArr (n_shape a) true (Floats d v0)) ->
  (floats_of d a -> l1 = l) -> (~ floats_of d a -> (List.length h <= l1)%nat) ->
  (forall k b, nth_error h k = Some b -> nth_error h1 k = Some b) ->
  result_in h (write h1 l1 v) l l1 a d v.
Proof.
  intros. unfold write. rewrite H. unfold result_in. repeat split; auto.
  - apply nth_error_upd_eq. apply nth_error_Some. congruence.
  - intros. rewrite nth_error_upd_neq by auto. auto.
Qed.

Lemma loc_floats : forall d h l a, (floats_of d a -> loc (NFloats d) h l a = l) /\
  (~ floats_of d a -> (List.length h <= loc (NFloats d) h l a)%nat).
Proof.
  intros. unfold loc. split; intros H.
  - apply fits_floats in H. rewrite H. auto.
  - rewrite (not_fits _ _ _ (fits_floats d a) H). auto.
Qed.
End Facts.
