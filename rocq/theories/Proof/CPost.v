(*HEAD*)
From Coq Require Import List ZArith Reals Permutation Lia Lra.
From Verif Require Import Base.Res Base.RLib Model.MPost Spec.PostSpec.
Import ListNotations.
Local Open Scope R_scope.
(*DAEH*)
From Coq Require Import Psatz.
From Verif Require Import Base.ResLemmas Model.MParticles Proof.PParticles Proof.PMachine Proof.PPost.

Lemma edges_length x0 w n : length (edges x0 w n) = n.
Proof. unfold edges. rewrite map_length, seq_length. reflexivity. Qed.
Lemma edges_first x0 w n : (2 <= n)%nat ->
  np_get (edges x0 w n) 1 = Ok (x0 + w) /\ np_get (edges x0 w n) 0 = Ok x0.
Proof.
  intro H. destruct n as [|[|n]]; try lia. unfold edges. cbn [seq map].
  split.
  - change 1%Z with (Z.of_nat 1). apply np_get_ok. cbn. f_equal. lra.
  - change 0%Z with (Z.of_nat 0). apply np_get_ok. cbn. f_equal. lra.
Qed.
Lemma edges_centres x0 w n : map (fun b => b + w / 2) (edges x0 w n) = centres x0 w n.
Proof. unfold edges, centres. rewrite map_map. reflexivity. Qed.

Lemma combine_mean (S : R) : forall h m,
  map (fun p : R * (R * R) => fst p * (fst (snd p) - snd (snd p)) ^ 2)
    (combine h (combine m (map (fun p => fst p * snd p / S) (combine m h)))) =
  map (fun p => fst p * (snd p * (1 - fst p / S)) ^ 2) (combine h m).
Proof.
  induction h as [|x h IH]; intros [|y m]; cbn [combine map]; try reflexivity.
  f_equal; [|apply IH]. cbn [fst snd]. f_equal. f_equal. unfold Rdiv. lra.
Qed.
Lemma std_val h x0 w n : length h = n -> (2 <= n)%nat -> total h <> 0 ->
  std_from_histogram h (edges x0 w n) =
  rsqrt (total (map (fun p => fst p * (snd p * (1 - fst p / total h)) ^ 2) (combine h (centres x0 w n))) / total h).
Proof.
  intros L N T. unfold std_from_histogram. rewrite edges_length, L, Nat.eqb_refl. cbn [negb].
  destruct (edges_first x0 w n N) as [E1 E0]. rewrite E1, E0. cbn [bind].
  replace (x0 + w - x0) with w by lra. rewrite edges_centres.
  rewrite (mapM_ok_map _ _ _ (fun p => fst p * snd p / rsum h)).
  2:{ intros p _. apply rdiv_val. rewrite total_rsum. exact T. }
  cbn [bind]. rewrite combine_mean, !total_rsum, rdiv_val by exact T. reflexivity.
Qed.
Lemma weighted_nonneg h (g : R * R -> R) m :
  Forall (fun x => 0 <= x) h -> 0 <= total (map (fun p => fst p * g p ^ 2) (combine h m)).
Proof.
  intro H. apply total_nonneg. revert m. induction H as [|x h P H IH]; intros [|y m]; cbn [combine map]; constructor; [|apply IH].
  apply Rmult_le_pos; [exact P|apply pow2_ge_0].
Qed.

(** _std_from_histogram gives a number for every histogram with no negative bin
    and something in it; it is this number. *)
Lemma C52_std_value_lem : forall h x0 w n,
  length h = n -> (2 <= n)%nat -> Forall (fun x => 0 <= x) h -> 0 < total h ->
  std_from_histogram h (edges x0 w n) =
  Ok (sqrt (total (map (fun p => fst p * (snd p * (1 - fst p / total h)) ^ 2) (combine h (centres x0 w n))) / total h)).
Proof.
  intros h x0 w n L N P T. rewrite std_val by (auto; lra). apply rsqrt_val.
  apply Rmult_le_pos; [|left; apply Rinv_0_lt_compat; exact T].
  apply (weighted_nonneg h (fun p => snd p * (1 - fst p / total h))). exact P.
Qed.

Lemma total_zeros a : total (repeat 0 a) = 0.
Proof. induction a; cbn [repeat]; [reflexivity|]. rewrite total_cons. lra. Qed.
Lemma one_bin_total a b x : total (repeat 0 a ++ x :: repeat 0 b) = x.
Proof. rewrite total_app, total_cons, !total_zeros. lra. Qed.
Lemma zeros_sum (g : R * R -> R) b m : total (map (fun p => fst p * g p) (combine (repeat 0 b) m)) = 0.
Proof.
  revert m. induction b as [|b IH]; intros [|y m]; cbn [repeat combine map]; try reflexivity.
  rewrite total_cons, IH. cbn [fst]. lra.
Qed.
Lemma one_bin_sum (g : R * R -> R) a b x m : (a < length m)%nat ->
  total (map (fun p => fst p * g p) (combine (repeat 0 a ++ x :: repeat 0 b) m)) = x * g (x, nth a m 0).
Proof.
  revert m. induction a as [|a IH]; intros [|y m] H; cbn [length] in H; try lia; cbn [repeat app combine map nth].
  - rewrite total_cons, zeros_sum. cbn [fst]. lra.
  - rewrite total_cons, IH by lia. cbn [fst]. lra.
Qed.

(** It is the standard deviation of a histogram with everything in one bin. *)
Lemma C52_std_partial_lem : forall a b x x0 w,
  0 < x -> (1 <= a + b)%nat ->
  let h := repeat 0 a ++ x :: repeat 0 b in
  let n := (a + 1 + b)%nat in
  std_from_histogram h (edges x0 w n) = Ok (std h (centres x0 w n)) /\ std h (centres x0 w n) = 0.
Proof.
  intros a b x x0 w X N h n.
  assert (L : length h = n) by (unfold h, n; rewrite app_length; cbn [length]; rewrite !repeat_length; lia).
  assert (LC : (a < length (centres x0 w n))%nat) by (unfold centres, n; rewrite map_length, seq_length; lia).
  assert (T : total h = x) by apply one_bin_total.
  assert (M : mean h (centres x0 w n) = nth a (centres x0 w n) 0).
  { unfold mean. rewrite T. unfold h. rewrite (one_bin_sum (fun p => snd p)) by exact LC. cbn [snd]. field. lra. }
  assert (V : variance h (centres x0 w n) = 0).
  { unfold variance. rewrite T, M. unfold h. rewrite (one_bin_sum (fun p => (snd p - nth a (centres x0 w n) 0) ^ 2)) by exact LC.
    cbn [snd]. field. lra. }
  assert (Z : std h (centres x0 w n) = 0) by (unfold std; rewrite V; apply sqrt_0).
  split; [|exact Z]. rewrite Z.
  rewrite std_val by (auto; unfold n in *; try lia; lra). rewrite T. unfold h.
  rewrite (one_bin_sum (fun p => (snd p * (1 - fst p / x)) ^ 2)) by exact LC. cbn [fst snd].
  replace (x * (nth a (centres x0 w n) 0 * (1 - x / x)) ^ 2 / x) with 0 by (field; lra).
  rewrite rsqrt_val by lra. rewrite sqrt_0. reflexivity.
Qed.

Lemma std_two x0 w :
  std_from_histogram [1; 1] (edges x0 w 2) = Ok (sqrt (((x0 + w / 2) ^ 2 + (x0 + w + w / 2) ^ 2) / 8)).
Proof.
  assert (T : total [1; 1] = 2) by (rewrite !total_cons, total_nil; lra).
  rewrite std_val; [|reflexivity|lia|lra]. rewrite T.
  unfold centres. cbn [seq map combine]. rewrite !total_cons, total_nil. cbn [fst snd INR].
  rewrite rsqrt_val.
  - f_equal. f_equal. field.
  - assert (0 <= (x0 + 0 * w + w / 2) ^ 2) by apply pow2_ge_0. assert (0 <= (x0 + 1 * w + w / 2) ^ 2) by apply pow2_ge_0.
    replace (_ / 2) with (((x0 + 0 * w + w / 2) ^ 2 + (x0 + 1 * w + w / 2) ^ 2) / 8) by field. lra.
Qed.
Lemma variance_two x0 w : variance [1; 1] (centres x0 w 2) = w ^ 2 / 4.
Proof.
  assert (T : total [1; 1] = 2) by (rewrite !total_cons, total_nil; lra).
  unfold variance, mean. rewrite T. unfold centres. cbn [seq map combine]. rewrite !total_cons, !total_nil. cbn [fst snd INR]. field.
Qed.

(** It is not the standard deviation of two bins with equal contents. *)
Lemma C52_std_refuted_lem : exists h x0 w n v,
  length h = n /\ Forall (fun x => 0 <= x) h /\ 0 < total h /\
  std_from_histogram h (edges x0 w n) = Ok v /\ v <> std h (centres x0 w n).
Proof.
  exists [1; 1], 0, 1, 2%nat. eexists.
  split; [reflexivity|]. split; [repeat constructor; lra|].
  split; [rewrite !total_cons, total_nil; lra|]. split; [apply std_two|].
  unfold std. rewrite variance_two. intro E. apply sqrt_inj in E; lra.
Qed.
(** And it changes when the axis is shifted. *)
Lemma C52_shift_refuted_lem : exists h x0 x1 w n v v',
  length h = n /\ Forall (fun x => 0 <= x) h /\ 0 < total h /\
  std_from_histogram h (edges x0 w n) = Ok v /\ std_from_histogram h (edges x1 w n) = Ok v' /\ v <> v'.
Proof.
  exists [1; 1], 0, (-1), 1, 2%nat. do 2 eexists.
  split; [reflexivity|]. split; [repeat constructor; lra|].
  split; [rewrite !total_cons, total_nil; lra|]. split; [apply std_two|]. split; [apply std_two|].
  intro E. apply sqrt_inj in E; lra.
Qed.

(** ** Fractional emittance *)
Lemma chosen_scale k a cells : chosen a cells -> chosen (map (fun x => x / k) a) (map (fun x => x / k) cells).
Proof. intros [r P]. exists (map (fun x => x / k) r). rewrite <- map_app. apply Permutation_map. exact P. Qed.
Lemma chosen_unscale k a cells : chosen a (map (fun x => x / k) cells) ->
  exists a', a = map (fun x => x / k) a' /\ chosen a' cells.
Proof.
  intros [r P]. apply Permutation_map_inv in P as (l & E & P).
  symmetry in E. apply map_eq_app in E as (l1 & l2 & -> & E1 & E2). exists l1. split; [auto|].
  exists l2. symmetry. exact P.
Qed.
Lemma total_div k l : total (map (fun x => x / k) l) = total l / k.
Proof.
  rewrite (total_ext _ (fun x => / k * (fun y => y) x)) by (intros; unfold Rdiv; lra).
  rewrite total_scale, map_id. unfold Rdiv. lra.
Qed.
Lemma fewest_scale n f k cells : 0 < k -> fewest n f (map (fun x => x / k) cells) -> fewest n f cells.
Proof.
  intros K [(a & C & L & H) M].
  assert (I : 0 < / k) by (apply Rinv_0_lt_compat; exact K). split.
  - apply chosen_unscale in C as (a' & -> & C). exists a'. split; [exact C|].
    rewrite map_length in L. split; [exact L|]. rewrite !total_div in H. unfold Rdiv in H. nra.
  - intros a' C' H'. specialize (M _ (chosen_scale k _ _ C')). rewrite map_length in M. apply M.
    rewrite !total_div. unfold Rdiv. nra.
Qed.
Lemma fewest_unique n m f cells : fewest n f cells -> fewest m f cells -> n = m.
Proof.
  intros [(a & C & <- & H) M] [(b & C' & <- & H') M']. apply Nat.le_antisymm; auto.
Qed.
Lemma hist_val ps : total (concat ps) <> 0 ->
  mapM (fun x => rdiv x (rsum (concat ps))) (concat ps) = Ok (map (fun x => x / total (concat ps)) (concat ps)).
Proof. intro T. apply mapM_ok_map. intros x _. rewrite total_rsum. apply rdiv_val. exact T. Qed.
Lemma argmax_ok x l : l <> [] -> exists n, argmax_ge x l = Ok n.
Proof. destruct l; [congruence|]. intros _. eexists. reflexivity. Qed.
Lemma sort_length l : length (sort_desc l) = length l.
Proof. symmetry. apply Permutation_length, sort_perm. Qed.
Lemma argmax_found x cells : cells <> [] -> exists n, argmax_ge x (cumsum 0 (sort_desc cells)) = Ok n.
Proof.
  intro N. apply argmax_ok. intro E. apply (f_equal (@length R)) in E.
  rewrite cumsum_length, sort_length in E. destruct cells; [congruence|discriminate].
Qed.
Lemma fractional_val ps t0 wt nt e0 we ne f :
  0 <= f -> f <= 100 -> total (concat ps) <> 0 -> (2 <= nt)%nat -> (2 <= ne)%nat ->
  let hist := map (fun x => x / total (concat ps)) (concat ps) in
  exists n, argmax_ge (f / 100 * rsum (sort_desc hist)) (cumsum 0 (sort_desc hist)) = Ok n /\
    emittance_fractional ps (edges t0 wt nt) (edges e0 we ne) f = Ok (INR n * (wt * we)).
Proof.
  intros F1 F2 T NT NE hist. unfold emittance_fractional.
  destruct (Rlt_dec 100 f); [lra|]. destruct (Rlt_dec f 0); [lra|].
  rewrite hist_val by exact T. cbn [bind]. fold hist.
  assert (NN : hist <> []).
  { unfold hist. destruct (concat ps); [rewrite total_nil in T; lra|discriminate]. }
  destruct (argmax_found (f / 100 * rsum (sort_desc hist)) hist NN) as [k E]. exists k. split; [exact E|].
  rewrite E. cbn [bind].
  destruct (edges_first t0 wt nt NT) as [-> ->]. destruct (edges_first e0 we ne NE) as [-> ->]. cbn [bind].
  f_equal. f_equal. f_equal; lra.
Qed.

(** emittance_fractional is the area of one cell less than the fewest cells
    that hold the fraction. *)
Lemma C52_fractional_partial_lem : forall ps t0 wt nt e0 we ne f,
  0 < f -> f <= 100 -> 0 < total (concat ps) -> (2 <= nt)%nat -> (2 <= ne)%nat ->
  exists n, fewest (S n) (f / 100) (concat ps) /\
    emittance_fractional ps (edges t0 wt nt) (edges e0 we ne) f = Ok (INR n * (wt * we)).
Proof.
  intros ps t0 wt nt e0 we ne f F1 F2 T NT NE.
  destruct (fractional_val ps t0 wt nt e0 we ne f) as (n & E & V); try assumption; try lra.
  exists n. split; [|exact V]. apply fewest_scale with (k := total (concat ps)); [exact T|].
  apply found_fewest; [lra|lra| |exact E]. rewrite total_div. apply Rmult_lt_0_compat; [exact T|apply Rinv_0_lt_compat; exact T].
Qed.
(** So it is never the area of the fewest cells that hold the fraction. *)
Lemma C52_fractional_refuted_lem : forall ps t0 wt nt e0 we ne f v n,
  0 < f -> f <= 100 -> 0 < total (concat ps) -> (2 <= nt)%nat -> (2 <= ne)%nat -> 0 < wt -> 0 < we ->
  emittance_fractional ps (edges t0 wt nt) (edges e0 we ne) f = Ok v ->
  fewest n (f / 100) (concat ps) -> v <> INR n * (wt * we) /\ v = INR n * (wt * we) - wt * we.
Proof.
  intros ps t0 wt nt e0 we ne f v n F1 F2 T NT NE W1 W2 V FW.
  destruct (C52_fractional_partial_lem ps t0 wt nt e0 we ne f) as (m & FM & E); try assumption.
  rewrite E in V. injection V as <-. rewrite (fewest_unique _ _ _ _ FW FM). rewrite S_INR.
  assert (0 < wt * we) by (apply Rmult_lt_0_compat; assumption). split; lra.
Qed.
(** A fraction outside 0 to 100 is refused. *)
Lemma C52_fraction_range_lem : forall ps t e f,
  f < 0 \/ 100 < f -> emittance_fractional ps t e f = Fail (Raised ValueError).
Proof.
  intros ps t e f H. unfold emittance_fractional. destruct (Rlt_dec 100 f); [reflexivity|].
  destruct (Rlt_dec f 0); [reflexivity|lra].
Qed.

Lemma desc_unique : forall a b, desc a -> desc b -> Permutation a b -> a = b.
Proof.
  induction a as [|x a IH]; intros b DA DB P.
  - apply Permutation_nil in P. auto.
  - destruct b as [|y b]; [apply Permutation_sym, Permutation_nil in P; discriminate|].
    inversion DA as [|? ? FA DA']. inversion DB as [|? ? FB DB']. subst.
    assert (x = y).
    { assert (In x (y :: b)) as [->|I] by (apply (Permutation_in _ P); left; reflexivity); [reflexivity|].
      assert (In y (x :: a)) as [->|J] by (apply (Permutation_in _ (Permutation_sym P)); left; reflexivity); [reflexivity|].
      rewrite Forall_forall in FA, FB. specialize (FA _ J). specialize (FB _ I). lra. }
    subst. f_equal. apply IH; auto. apply Permutation_cons_inv with y. exact P.
Qed.
(** It depends neither on the places of the cells nor on the origins of the axes. *)
Lemma C52_fractional_invariant_lem : forall ps ps' t0 t0' wt nt e0 e0' we ne f,
  Permutation (concat ps) (concat ps') -> 0 < total (concat ps) -> 0 <= f -> f <= 100 -> (2 <= nt)%nat -> (2 <= ne)%nat ->
  emittance_fractional ps (edges t0 wt nt) (edges e0 we ne) f =
  emittance_fractional ps' (edges t0' wt nt) (edges e0' we ne) f.
Proof.
  intros ps ps' t0 t0' wt nt e0 e0' we ne f P T F1 F2 NT NE.
  destruct (fractional_val ps t0 wt nt e0 we ne f) as (n & E & V); try assumption; try lra.
  destruct (fractional_val ps' t0' wt nt e0' we ne f) as (n' & E' & V'); try assumption.
  { rewrite <- (total_perm _ _ P). lra. }
  rewrite V, V'. rewrite <- (total_perm _ _ P) in E'.
  rewrite (desc_unique (sort_desc (map (fun x => x / total (concat ps)) (concat ps')))
                       (sort_desc (map (fun x => x / total (concat ps)) (concat ps)))) in E';
    [congruence|apply sort_desc_desc|apply sort_desc_desc|].
  rewrite <- !sort_perm. apply Permutation_map. symmetry. exact P.
Qed.
Lemma argmax_mono x y l n m : x <= y -> argmax_ge x l = Ok n -> argmax_ge y l = Ok m ->
  (exists k, (k < length l)%nat /\ y <= nth k l 0) -> (n <= m)%nat.
Proof.
  intros L E F (k & K & Y). destruct l as [|z l]; [discriminate|]. unfold argmax_ge in *.
  destruct (first_ge y (z :: l)) as [m'|] eqn:G.
  - injection F as <-. destruct (first_ge x (z :: l)) as [n'|] eqn:H; injection E as <-; [|lia].
    apply first_ge_some in G as (G1 & G2 & _). apply first_ge_some in H as (_ & _ & H3).
    destruct (le_lt_dec n' m') as [|B]; [assumption|]. specialize (H3 _ B). lra.
  - assert (Q := first_ge_none _ _ G k K). lra.
Qed.
(** It grows with the fraction. *)
Lemma C52_fractional_monotone_lem : forall ps t0 wt nt e0 we ne f f' v v',
  0 <= f -> f <= f' -> f' <= 100 -> 0 < total (concat ps) -> (2 <= nt)%nat -> (2 <= ne)%nat -> 0 <= wt * we ->
  emittance_fractional ps (edges t0 wt nt) (edges e0 we ne) f = Ok v ->
  emittance_fractional ps (edges t0 wt nt) (edges e0 we ne) f' = Ok v' -> v <= v'.
Proof.
  intros ps t0 wt nt e0 we ne f f' v v' F1 F2 F3 T NT NE W V V'.
  destruct (fractional_val ps t0 wt nt e0 we ne f) as (n & E & R); try assumption; try lra.
  destruct (fractional_val ps t0 wt nt e0 we ne f') as (n' & E' & R'); try assumption; try lra.
  rewrite R in V. rewrite R' in V'. injection V as <-. injection V' as <-.
  apply Rmult_le_compat_r; [exact W|]. apply le_INR.
  set (hist := map _ (concat ps)) in *.
  assert (TH : total hist = 1) by (unfold hist; rewrite total_div; field; lra).
  assert (TS : total (sort_desc hist) = 1) by (rewrite <- (total_perm _ _ (sort_perm hist)); exact TH).
  rewrite total_rsum, TS in E, E'. eapply argmax_mono; [|exact E|exact E'|]; [lra|].
  assert (LN : (0 < length (sort_desc hist))%nat) by (destruct (sort_desc hist); [rewrite total_nil in TS; lra|cbn; lia]).
  exists (length (sort_desc hist) - 1)%nat. rewrite cumsum_length. split; [lia|].
  rewrite cumsum_nth by lia. replace (S (length (sort_desc hist) - 1)) with (length (sort_desc hist)) by lia.
  rewrite firstn_all, TS. lra.
Qed.

(** ** All together *)
(** post_process gives the numbers its parts give. *)
Lemma C52_post_process_lem : forall ncols ps t e energy mass a b c,
  post_process ncols ps t e energy mass = Ok (a, b, c) <->
  emittance_rms_histogram ncols ps t e = Ok a /\ emittance_90 ps t e = Ok b /\
  rms_dpp_histogram (col_sums ncols ps) e energy mass = Ok c.
Proof.
  intros ncols ps t e energy mass a b c. unfold post_process, emittance_rms_histogram, rms_dpp_histogram.
  destruct (std_from_histogram (row_sums ps) t); cbn [bind]; [|split; [discriminate|intros [? _]; discriminate]].
  destruct (std_from_histogram (col_sums ncols ps) e); cbn [bind]; [|split; [discriminate|intros [? _]; discriminate]].
  destruct (emittance_90 ps t e); cbn [bind]; [|split; [discriminate|intros (? & ? & _); discriminate]].
  destruct (rms_dpp a1 energy mass); cbn [bind]; [|split; [discriminate|intros (? & ? & ?); discriminate]].
  split.
  - intro H. injection H as <- <- <-. auto.
  - intros (H1 & H2 & H3). injection H1 as <-. injection H2 as <-. injection H3 as <-. reflexivity.
Qed.

Lemma row_sums_total ps : row_sums ps = map total ps.
Proof. unfold row_sums. apply map_ext. apply total_rsum. Qed.
Lemma nonneg_concat ps : Forall (Forall (fun x => 0 <= x)) ps -> Forall (fun x => 0 <= x) (concat ps).
Proof. induction 1; cbn; [constructor|]. apply Forall_app. auto. Qed.
Lemma col_total ncols ps : Forall (fun row => length row = ncols) ps -> total (col_sums ncols ps) = total (concat ps).
Proof.
  intro H. unfold col_sums. change (total (map ?f (seq 0 ncols))) with (sum_to ncols f).
  induction H as [|row ps L H IH].
  - cbn [map concat rsum]. rewrite total_nil. unfold sum_to. clear. induction (seq 0 ncols); cbn [map]; [reflexivity|]. rewrite total_cons. lra.
  - cbn [map concat rsum]. rewrite sum_plus, IH, total_app, <- L, <- total_nth. reflexivity.
Qed.
Lemma dpp_val s e m : 0 <= s -> 0 <= m -> m < e ->
  rms_dpp s e m = Ok ((sqrt ((e + s) ^ 2 - m ^ 2) - sqrt (e ^ 2 - m ^ 2)) / sqrt (e ^ 2 - m ^ 2)).
Proof.
  intros S M E. unfold rms_dpp. rewrite rsqrt_val by nra. cbn [bind]. rewrite rsqrt_val by nra. cbn [bind].
  apply rdiv_val. apply Rgt_not_eq, sqrt_lt_R0. nra.
Qed.
(** Every image with no negative pixel and something in it has its three numbers. *)
Lemma C52_defined_lem : forall nt ne ps t0 wt e0 we energy mass,
  shape nt ne ps -> Forall (Forall (fun x => 0 <= x)) ps -> 0 < total (concat ps) ->
  (2 <= nt)%nat -> (2 <= ne)%nat -> 0 <= mass -> mass < energy ->
  exists a b c, post_process ne ps (edges t0 wt nt) (edges e0 we ne) energy mass = Ok (a, b, c) /\ 0 <= a /\ 0 <= c.
Proof.
  intros nt ne ps t0 wt e0 we energy mass [L S] P T NT NE M E. unfold post_process.
  rewrite C52_std_value_lem; [| | exact NT| |].
  2:{ unfold row_sums. rewrite map_length. exact L. }
  2:{ rewrite row_sums_total. apply Forall_map. eapply Forall_impl; [|exact P]. intro. apply total_nonneg. }
  2:{ rewrite row_sums_total, <- total_concat. exact T. }
  cbn [bind]. rewrite C52_std_value_lem; [| | exact NE| |].
  2:{ unfold col_sums. rewrite map_length, seq_length. reflexivity. }
  2:{ unfold col_sums. apply Forall_forall. intros x I. apply in_map_iff in I as (j & <- & _). rewrite total_rsum.
      apply total_nonneg, Forall_map. eapply Forall_impl; [|exact P]. cbn. intros row R.
      destruct (le_lt_dec (length row) j); [rewrite nth_overflow by assumption; lra|].
      rewrite Forall_forall in R. apply R, nth_In. assumption. }
  2:{ rewrite col_total by exact S. exact T. }
  cbn [bind]. unfold emittance_90.
  destruct (fractional_val ps t0 wt nt e0 we ne 90) as (n & _ & V); try assumption; try lra.
  rewrite V. cbn [bind]. rewrite dpp_val by (assumption || apply sqrt_pos). cbn [bind].
  do 3 eexists. split; [reflexivity|]. split.
  - unfold emittance_rms. apply Rmult_le_pos; [|apply sqrt_pos]. apply Rmult_le_pos; [left; apply PI_RGT_0|apply sqrt_pos].
  - assert (0 < sqrt (energy ^ 2 - mass ^ 2)) by (apply sqrt_lt_R0; nra).
    apply Rmult_le_pos; [|left; apply Rinv_0_lt_compat; assumption].
    set (s := sqrt (_ / _)). assert (0 <= s) by apply sqrt_pos.
    assert (sqrt (energy ^ 2 - mass ^ 2) <= sqrt ((energy + s) ^ 2 - mass ^ 2)) by (apply sqrt_le_1_alt; nra). lra.
Qed.

(** rms_dpp is the relative change of the momentum that goes with the change of
    the energy. *)
Lemma C47_dpp_lem : forall s energy mass,
  0 <= s -> 0 <= mass -> mass < energy ->
  exists p d, 0 < p /\ p ^ 2 + mass ^ 2 = energy ^ 2 /\
    rms_dpp s energy mass = Ok d /\ 0 <= d /\ (p * (1 + d)) ^ 2 + mass ^ 2 = (energy + s) ^ 2.
Proof.
  intros s e m S M E. rewrite dpp_val by assumption.
  set (p := sqrt (e ^ 2 - m ^ 2)). set (q := sqrt ((e + s) ^ 2 - m ^ 2)).
  assert (P : 0 < p) by (apply sqrt_lt_R0; nra).
  assert (P2 : p ^ 2 = e ^ 2 - m ^ 2) by (apply pow2_sqrt; nra).
  assert (Q2 : q ^ 2 = (e + s) ^ 2 - m ^ 2) by (apply pow2_sqrt; nra).
  assert (PQ : p <= q) by (apply sqrt_le_1_alt; nra).
  exists p, ((q - p) / p). split; [exact P|]. split; [lra|]. split; [reflexivity|]. split.
  - apply Rmult_le_pos; [lra|left; apply Rinv_0_lt_compat; exact P].
  - replace (p * (1 + (q - p) / p)) with q by (field; lra). lra.
Qed.

(** ** rms_params *)
Lemma bc_lt n i : (i < n)%nat -> bc n i = i.
Proof. intro H. unfold bc. destruct (Nat.eqb_spec n 1); lia. Qed.
Lemma moment_square n img f : moment n n img f = Ok (average n img f).
Proof.
  unfold moment. rewrite Nat.eqb_refl. cbn [orb]. rewrite Nat.max_id. f_equal.
  rewrite total_rsum. apply sum_ext. intros i I. rewrite total_rsum. apply sum_ext. intros j J.
  unfold pixel. rewrite !bc_lt by assumption. reflexivity.
Qed.

(** For every normalised square image rms_params gives a result, the radicand
    being the determinant of the matrix of second moments; the numbers are the
    means and standard deviations over the image. *)
Lemma C53_defined_lem : forall n img dt dE,
  shape n n img -> normalised img ->
  0 <= var_row n img * var_col n img - covariance n img ^ 2 /\
  exists r, rms_params n n img dt dE = Ok r /\
    emittance r = PI * dt * dE * sqrt (var_row n img * var_col n img - covariance n img ^ 2) /\
    mean_dt r = mean_row n img * dt /\ sigma_dt r = sqrt (var_row n img) * dt /\
    mean_dE r = (mean_col n img - INR n / 2) * dE /\ sigma_dE r = sqrt (var_col n img) * dE.
Proof.
  intros n img dt dE S N. assert (C := cauchy n img S N). split; [lra|].
  unfold rms_params. rewrite !moment_square. cbn [bind].
  assert (V1 := var_row_eq n img S N). assert (V2 := var_col_eq n img S N). assert (V3 := cov_eq n img S N).
  cbv zeta in V1, V2, V3.
  assert (P1 := var_row_nonneg n img S N). assert (P2 := var_col_nonneg n img S N).
  change (average n img (fun x _ : R => x)) with (mean_row n img) in *.
  change (average n img (fun _ y : R => y)) with (mean_col n img) in *.
  rewrite <- V1, <- V2, <- V3.
  rewrite rsqrt_val by lra. cbn [bind]. rewrite rsqrt_val by exact P1. cbn [bind]. rewrite rsqrt_val by exact P2. cbn [bind].
  eexists. split; [reflexivity|]. cbn [emittance mean_dt sigma_dt mean_dE sigma_dE]. auto.
Qed.
(** The emittance lies between 0 and pi times the two standard deviations. *)
Lemma C53_bounds_lem : forall n img dt dE r,
  shape n n img -> normalised img -> 0 <= dt -> 0 <= dE -> rms_params n n img dt dE = Ok r ->
  0 <= emittance r /\ emittance r <= PI * sigma_dt r * sigma_dE r.
Proof.
  intros n img dt dE r S N D1 D2 H.
  destruct (C53_defined_lem n img dt dE S N) as (P & r' & H' & E1 & _ & E2 & _ & E3).
  rewrite H in H'. injection H' as <-. rewrite E1, E2, E3.
  assert (PI0 := PI_RGT_0).
  assert (0 <= PI * dt * dE) by (apply Rmult_le_pos; [apply Rmult_le_pos; lra|lra]).
  split; [apply Rmult_le_pos; [assumption|apply sqrt_pos]|].
  replace (PI * (sqrt (var_row n img) * dt) * (sqrt (var_col n img) * dE))
    with (PI * dt * dE * (sqrt (var_row n img) * sqrt (var_col n img))) by ring.
  apply Rmult_le_compat_l; [assumption|].
  rewrite <- sqrt_mult by (apply var_row_nonneg || apply var_col_nonneg; assumption).
  apply sqrt_le_1_alt. assert (0 <= covariance n img ^ 2) by apply pow2_ge_0. lra.
Qed.
(** No image that is not square, with two rows and two columns at least, has a
    result. *)
Lemma C53_square_only_refuted_lem : forall a b img dt dE,
  (2 <= a)%nat -> (2 <= b)%nat -> a <> b -> rms_params a b img dt dE = Fail (Raised ValueError).
Proof.
  intros a b img dt dE A B N. unfold rms_params, moment.
  destruct (Nat.eqb_spec a b); [contradiction|]. destruct (Nat.eqb_spec a 1); [lia|]. destruct (Nat.eqb_spec b 1); [lia|].
  reflexivity.
Qed.
(** Nor has every square image without negative pixels. *)
Lemma C53_unnormalised_refuted_lem : exists img dt dE,
  shape 2 2 img /\ Forall (Forall (fun x => 0 <= x)) img /\ rms_params 2 2 img dt dE = Fail NotFinite.
Proof.
  exists [[0; 2]; [2; 0]], 1, 1. split; [split; [reflexivity|repeat constructor]|].
  split; [repeat constructor; lra|].
  unfold rms_params. rewrite !moment_square. cbn [bind]. unfold average, sum_to. cbn [seq map nth]. rewrite !total_cons, !total_nil.
  cbn [INR]. unfold rsqrt at 1. destruct (Rlt_dec _ 0) as [|B]; [reflexivity|]. exfalso. apply B. lra.
Qed.

(*EX*)
(** A histogram of two bins, an image of four cells, and a normalised one. *)
Example two_bins : length [1; 1] = 2%nat /\ Forall (fun x => 0 <= x) [1; 1] /\ 0 < total [1; 1].
Proof. repeat split; [repeat constructor; lra|cbn; lra]. Qed.
Example four_cells : 0 < total (concat [[1; 2]; [3; 4]]) /\ shape 2 2 [[1; 2]; [3; 4]].
Proof. split; [cbn; lra|]. split; [reflexivity|repeat constructor]. Qed.
Example half_needs_two : fewest 2 (1 / 2) [1; 2; 3; 4].
Proof.
  split.
  - exists [3; 4]. split; [exists [1; 2]; apply (Permutation_app_comm [3; 4] [1; 2])|]. split; [reflexivity|cbn; lra].
  - intros a [r P] H. destruct a as [|x [|y a]]; cbn in *; try lia; [lra|].
    assert (In x [1; 2; 3; 4]) by (apply (Permutation_in _ P); left; reflexivity).
    cbn in *. intuition lra.
Qed.
Example normalised_image : shape 2 2 [[1 / 2; 0]; [1 / 4; 1 / 4]] /\ normalised [[1 / 2; 0]; [1 / 4; 1 / 4]].
Proof.
  split; [split; [reflexivity|repeat constructor]|].
  split; [repeat constructor; lra|cbn; lra].
Qed.
(*XE*)
