(** Lemmas on the numbers that describe a beam. *)
From Coq Require Import List ZArith Reals Permutation Lia Lra Psatz.
From Verif Require Import Base.Res Base.ResLemmas Base.RLib Model.MParticles Model.MPost Spec.PostSpec.
From Verif Require Import Proof.PParticles Proof.PMachine.
Import ListNotations.
Local Open Scope R_scope.

Lemma total_nil : total [] = 0.
Proof. reflexivity. Qed.
Lemma total_cons x l : total (x :: l) = x + total l.
Proof. reflexivity. Qed.
Lemma total_rsum l : rsum l = total l.
Proof. induction l as [|x l IH]; [reflexivity|]. rewrite total_cons, <- IH. reflexivity. Qed.
Lemma total_app a b : total (a ++ b) = total a + total b.
Proof. induction a as [|x a IH]; cbn [app]; [rewrite total_nil; lra|]. rewrite !total_cons, IH. lra. Qed.
Lemma total_perm a b : Permutation a b -> total a = total b.
Proof.
  induction 1 as [|x a b P IH|x y a|a b c P1 IH1 P2 IH2]; rewrite ?total_cons; lra.
Qed.
Lemma total_scale {A} (f : A -> R) k l : total (map (fun x => k * f x) l) = k * total (map f l).
Proof. induction l as [|x l IH]; cbn [map]; [rewrite total_nil; lra|]. rewrite !total_cons, IH. lra. Qed.
Lemma total_plus {A} (f g : A -> R) l : total (map (fun x => f x + g x) l) = total (map f l) + total (map g l).
Proof. induction l as [|x l IH]; cbn [map]; [rewrite total_nil; lra|]. rewrite !total_cons, IH. lra. Qed.
Lemma total_ext {A} (f g : A -> R) l : (forall x, In x l -> f x = g x) -> total (map f l) = total (map g l).
Proof.
  intro H. f_equal. apply map_ext_in. exact H.
Qed.
Lemma total_nonneg l : Forall (fun x => 0 <= x) l -> 0 <= total l.
Proof. induction 1; [rewrite total_nil; lra|]. rewrite total_cons. lra. Qed.
Lemma total_concat ll : total (concat ll) = total (map total ll).
Proof. induction ll as [|l ll IH]; [reflexivity|]. cbn [concat map]. rewrite total_app, IH. reflexivity. Qed.
Lemma total_nth l : total l = sum_to (length l) (fun i => nth i l 0).
Proof.
  unfold sum_to. f_equal. induction l as [|x l IH]; [reflexivity|].
  cbn [length seq map nth]. f_equal. rewrite <- seq_shift, map_map. exact IH.
Qed.
Lemma total_map_nth {A} (d : A) (f : A -> R) l : total (map f l) = sum_to (length l) (fun i => f (nth i l d)).
Proof.
  unfold sum_to. f_equal. induction l as [|x l IH]; [reflexivity|].
  cbn [length seq map nth]. f_equal. rewrite <- seq_shift, map_map. exact IH.
Qed.

Lemma sum_ext n f g : (forall i, (i < n)%nat -> f i = g i) -> sum_to n f = sum_to n g.
Proof. intro H. apply total_ext. intros i I. apply in_seq in I. apply H. lia. Qed.
Lemma sum_scale n k f : sum_to n (fun i => k * f i) = k * sum_to n f.
Proof. apply total_scale. Qed.
Lemma sum_plus n f g : sum_to n (fun i => f i + g i) = sum_to n f + sum_to n g.
Proof. apply total_plus. Qed.
Lemma sum_nonneg n f : (forall i, (i < n)%nat -> 0 <= f i) -> 0 <= sum_to n f.
Proof.
  intro H. apply total_nonneg, Forall_forall. intros x I. apply in_map_iff in I as (i & <- & I).
  apply in_seq in I. apply H. lia.
Qed.

(** Averages. *)
Lemma avg_ext n img f g :
  (forall i j, (i < n)%nat -> (j < n)%nat -> f (INR i) (INR j) = g (INR i) (INR j)) -> average n img f = average n img g.
Proof. intro H. apply sum_ext. intros i I. apply sum_ext. intros j J. rewrite H by assumption. reflexivity. Qed.
Lemma avg_plus n img f g : average n img (fun x y => f x y + g x y) = average n img f + average n img g.
Proof.
  unfold average. rewrite <- sum_plus. apply sum_ext. intros i I. rewrite <- sum_plus. apply sum_ext. intros j J. lra.
Qed.
Lemma avg_scale n img k f : average n img (fun x y => k * f x y) = k * average n img f.
Proof.
  unfold average. rewrite <- sum_scale. apply sum_ext. intros i I. rewrite <- sum_scale. apply sum_ext. intros j J. lra.
Qed.
Lemma pixel_nonneg n img i j :
  shape n n img -> normalised img -> (i < n)%nat -> (j < n)%nat -> 0 <= nth j (nth i img []) 0.
Proof.
  intros [L S] [N _] I J. rewrite Forall_forall in N, S.
  assert (R : In (nth i img []) img) by (apply nth_In; lia).
  specialize (N _ R). specialize (S _ R). rewrite Forall_forall in N. apply N, nth_In. lia.
Qed.
Lemma avg_nonneg n img f :
  shape n n img -> normalised img -> (forall x y, 0 <= f x y) -> 0 <= average n img f.
Proof.
  intros S N H. apply sum_nonneg. intros i I. apply sum_nonneg. intros j J.
  apply Rmult_le_pos; [apply pixel_nonneg with n; assumption|apply H].
Qed.
Lemma avg_one n img : shape n n img -> average n img (fun _ _ => 1) = total (concat img).
Proof.
  intros [L S]. rewrite total_concat. rewrite (total_map_nth [] total img), L.
  apply sum_ext. intros i I. rewrite total_nth.
  rewrite Forall_forall in S. rewrite (S (nth i img [])) by (apply nth_In; lia).
  apply sum_ext. intros j J. lra.
Qed.
Lemma avg_const n img k : shape n n img -> normalised img -> average n img (fun _ _ => k) = k.
Proof.
  intros S [_ N]. rewrite (avg_ext n img _ (fun _ _ => k * 1)) by (intros; lra).
  rewrite avg_scale, avg_one, N by assumption. lra.
Qed.

Section Moments.
Variables (n : nat) (img : list (list R)).
Hypothesis S : shape n n img.
Hypothesis N : normalised img.
Let E := average n img.

Lemma centred_product (f g : R -> R -> R) (a b : R) :
  E f = a -> E g = b -> E (fun x y => (f x y - a) * (g x y - b)) = E (fun x y => f x y * g x y) - a * b.
Proof.
  intros A B.
  transitivity (E (fun x y => (f x y * g x y + (- b) * f x y) + ((- a) * g x y + a * b))).
  { apply avg_ext. intros. lra. }
  unfold E in *. rewrite !avg_plus, !avg_scale, A, B, avg_const by assumption. lra.
Qed.
Lemma var_row_eq : var_row n img = E (fun x _ => x ^ 2) - (mean_row n img) ^ 2.
Proof.
  unfold var_row. transitivity (E (fun x _ => (x - mean_row n img) * (x - mean_row n img))).
  { apply avg_ext. intros. lra. }
  rewrite (centred_product (fun x _ => x) (fun x _ => x)) by reflexivity.
  f_equal; [|lra]. apply avg_ext. intros. lra.
Qed.
Lemma var_col_eq : var_col n img = E (fun _ y => y ^ 2) - (mean_col n img) ^ 2.
Proof.
  unfold var_col. transitivity (E (fun _ y => (y - mean_col n img) * (y - mean_col n img))).
  { apply avg_ext. intros. lra. }
  rewrite (centred_product (fun _ y => y) (fun _ y => y)) by reflexivity.
  f_equal; [|lra]. apply avg_ext. intros. lra.
Qed.
Lemma cov_eq : covariance n img = E (fun x y => x * y) - mean_row n img * mean_col n img.
Proof. unfold covariance. rewrite (centred_product (fun x _ => x) (fun _ y => y)) by reflexivity. reflexivity. Qed.
Lemma var_row_nonneg : 0 <= var_row n img.
Proof. apply avg_nonneg; try assumption. intros. apply pow2_ge_0. Qed.
Lemma var_col_nonneg : 0 <= var_col n img.
Proof. apply avg_nonneg; try assumption. intros. apply pow2_ge_0. Qed.

Lemma quadratic (A B C : R) : 0 <= A -> 0 <= C -> (forall t, 0 <= A + 2 * t * B + t ^ 2 * C) -> B ^ 2 <= A * C.
Proof.
  intros PA PC H. destruct (Req_dec C 0) as [Z|NZ].
  - subst. destruct (Req_dec B 0) as [->|NB]; [nra|]. exfalso.
    specialize (H (- (A + 1) / (2 * B))).
    assert (Q : A + 2 * (- (A + 1) / (2 * B)) * B + (- (A + 1) / (2 * B)) ^ 2 * 0 = - 1) by (field; exact NB).
    rewrite Q in H. lra.
  - specialize (H (- B / C)).
    assert (P : 0 < C) by lra.
    assert (Q : A + 2 * (- B / C) * B + (- B / C) ^ 2 * C = (A * C - B ^ 2) / C) by (field; lra).
    rewrite Q in H. apply Rmult_le_compat_r with (r := C) in H; [|lra].
    unfold Rdiv in H. rewrite Rmult_assoc, Rinv_l in H by lra. lra.
Qed.
Lemma cauchy : (covariance n img) ^ 2 <= var_row n img * var_col n img.
Proof.
  apply quadratic; [apply var_row_nonneg|apply var_col_nonneg|]. intro t.
  assert (H : 0 <= E (fun x y => ((x - mean_row n img) + t * (y - mean_col n img)) ^ 2)).
  { apply avg_nonneg; try assumption. intros. apply pow2_ge_0. }
  replace (E _) with (var_row n img + 2 * t * covariance n img + t ^ 2 * var_col n img) in H; [exact H|].
  transitivity (E (fun x y => (x - mean_row n img) ^ 2 + ((2 * t) * ((x - mean_row n img) * (y - mean_col n img)) + t ^ 2 * (y - mean_col n img) ^ 2))).
  - unfold E. rewrite !avg_plus, !avg_scale. unfold var_row, var_col, covariance. lra.
  - apply avg_ext. intros. lra.
Qed.
End Moments.

(** Sorting and the first cells that hold a fraction. *)
Lemma insert_perm x l : Permutation (x :: l) (insert_desc x l).
Proof.
  induction l as [|y l IH]; cbn [insert_desc]; [reflexivity|].
  destruct (Rle_dec y x); [reflexivity|].
  transitivity (y :: x :: l); [constructor|]. constructor. exact IH.
Qed.
Lemma sort_perm l : Permutation l (sort_desc l).
Proof.
  induction l as [|x l IH]; [constructor|]. cbn [sort_desc].
  transitivity (x :: sort_desc l); [constructor; exact IH|apply insert_perm].
Qed.
(** Every element is at least all later ones. *)
Inductive desc : list R -> Prop :=
| desc_nil : desc []
| desc_cons x l : Forall (fun y => y <= x) l -> desc l -> desc (x :: l).
Lemma insert_desc_desc x l : desc l -> desc (insert_desc x l).
Proof.
  induction 1 as [|y l F D IH]; cbn [insert_desc].
  - constructor; constructor.
  - destruct (Rle_dec y x) as [L|L].
    + constructor; [|constructor; assumption]. constructor; [exact L|].
      eapply Forall_impl; [|exact F]. cbn. intros. lra.
    + constructor; [|exact IH].
      apply (Permutation_Forall (insert_perm x l)). constructor; [lra|exact F].
Qed.
Lemma sort_desc_desc l : desc (sort_desc l).
Proof. induction l; cbn; [constructor|apply insert_desc_desc; assumption]. Qed.

Lemma greedy s : desc s -> forall a b, Permutation (a ++ b) s -> total a <= total (firstn (length a) s).
Proof.
  induction 1 as [|x s F D IH]; intros a b P.
  - apply Permutation_sym, Permutation_nil in P. destruct a; [cbn [length firstn]; lra|discriminate].
  - destruct a as [|y a]; [cbn [length firstn]; lra|].
    assert (I : In x ((y :: a) ++ b)) by (apply Permutation_sym in P; apply (Permutation_in _ P); left; reflexivity).
    apply in_app_or in I as [I|I].
    + apply in_split in I as (a1 & a2 & E). rewrite E in *.
      assert (P' : Permutation ((a1 ++ a2) ++ b) s).
      { apply Permutation_cons_inv with x. rewrite <- P. rewrite <- !app_assoc. cbn [app].
        apply Permutation_middle. }
      specialize (IH _ _ P'). rewrite app_length in *. cbn [length] in *.
      rewrite Nat.add_succ_r. cbn [firstn]. rewrite total_app. rewrite total_app in IH.
      rewrite !total_cons. lra.
    + apply in_split in I as (b1 & b2 & E). rewrite E in *.
      assert (P' : Permutation (a ++ (y :: b1 ++ b2)) s).
      { apply Permutation_cons_inv with x. rewrite <- P. cbn [app].
        transitivity (y :: x :: a ++ b1 ++ b2).
        - transitivity (x :: y :: a ++ b1 ++ b2); [|constructor].
          constructor. symmetry. apply Permutation_middle.
        - constructor. rewrite app_assoc. rewrite (Permutation_middle (a ++ b1) b2 x).
          rewrite app_assoc. reflexivity. }
      specialize (IH _ _ P'). cbn [length firstn]. rewrite !total_cons.
      assert (y <= x).
      { assert (In y (x :: s)) as [->|J].
        - apply (Permutation_in _ P). left. reflexivity.
        - lra.
        - rewrite Forall_forall in F. apply F. exact J. }
      lra.
Qed.

Lemma cumsum_length acc l : length (cumsum acc l) = length l.
Proof. revert acc. induction l; intro; cbn; auto. Qed.
Lemma cumsum_nth acc l k : (k < length l)%nat -> nth k (cumsum acc l) 0 = acc + total (firstn (S k) l).
Proof.
  revert acc k. induction l as [|x l IH]; intros acc k H; cbn [length] in H; [lia|].
  destruct k as [|k]; cbn [cumsum nth].
  - change (firstn 1 (x :: l)) with [x]. rewrite total_cons, total_nil. lra.
  - rewrite IH by lia. change (firstn (S (S k)) (x :: l)) with (x :: firstn (S k) l). rewrite total_cons. lra.
Qed.
Lemma first_ge_some x l n :
  first_ge x l = Some n -> (n < length l)%nat /\ x <= nth n l 0 /\ (forall k, (k < n)%nat -> nth k l 0 < x).
Proof.
  revert n. induction l as [|y l IH]; intros n E; cbn [first_ge] in E; [discriminate|].
  destruct (Rle_dec x y) as [L|L].
  - injection E as <-. cbn. repeat split; [lia|exact L|intros; lia].
  - destruct (first_ge x l) as [m|]; [|discriminate]. injection E as <-.
    destruct (IH m eq_refl) as (H1 & H2 & H3). cbn [length nth]. repeat split; [lia|exact H2|].
    intros [|k] K; [lra|]. apply H3. lia.
Qed.
Lemma first_ge_none x l : first_ge x l = None -> forall k, (k < length l)%nat -> nth k l 0 < x.
Proof.
  induction l as [|y l IH]; intros E k K; cbn [length] in K; [lia|]. cbn [first_ge] in E.
  destruct (Rle_dec x y) as [L|L]; [discriminate|]. destruct (first_ge x l); [discriminate|].
  destruct k; cbn; [lra|]. apply IH; [reflexivity|lia].
Qed.

Lemma firstn_chosen k l s : Permutation l s -> chosen (firstn k s) l.
Proof. intro P. exists (skipn k s). rewrite firstn_skipn. symmetry. exact P. Qed.

(** The number of cells found is one less than the fewest that hold the fraction. *)
Lemma found_fewest f cells n :
  0 < f -> f <= 1 -> 0 < total cells ->
  argmax_ge (f * rsum (sort_desc cells)) (cumsum 0 (sort_desc cells)) = Ok n ->
  fewest (S n) f cells.
Proof.
  intros F1 F2 T E. rewrite total_rsum in E.
  rewrite <- (total_perm _ _ (sort_perm cells)) in E.
  set (s := sort_desc cells) in *.
  assert (P : Permutation cells s) by apply sort_perm.
  assert (LN : (0 < length s)%nat).
  { destruct s; [|cbn; lia]. apply Permutation_sym, Permutation_nil in P. rewrite P, total_nil in T. lra. }
  unfold argmax_ge in E. destruct (cumsum 0 s) as [|c0 cs] eqn:C.
  { apply (f_equal (@length R)) in C. rewrite cumsum_length in C. cbn in C. lia. }
  rewrite <- C in E. clear C c0 cs.
  destruct (first_ge (f * total cells) (cumsum 0 s)) as [m|] eqn:G.
  2:{ exfalso. assert (K := first_ge_none _ _ G (length s - 1)). rewrite cumsum_length in K.
      specialize (K ltac:(lia)). rewrite cumsum_nth in K by lia.
      replace (S (length s - 1)) with (length s) in K by lia. rewrite firstn_all in K.
      rewrite <- (total_perm _ _ P) in K. nra. }
  injection E as <-. apply first_ge_some in G as (G1 & G2 & G3). rewrite cumsum_length in G1.
  rewrite cumsum_nth in G2 by lia. split.
  - exists (firstn (S m) s). split; [apply firstn_chosen; exact P|]. split; [|lra].
    rewrite firstn_length. lia.
  - intros a [rest Pa] H. destruct (le_lt_dec (S m) (length a)) as [|L]; [assumption|]. exfalso.
    assert (B := greedy s (sort_desc_desc cells) a rest (Permutation_trans Pa P)).
    destruct a as [|y a]; [rewrite total_nil in H; nra|]. cbn [length] in *.
    specialize (G3 (length a) ltac:(lia)). rewrite cumsum_nth in G3 by lia. lra.
Qed.
