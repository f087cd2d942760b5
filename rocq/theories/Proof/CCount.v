(** Property lemmas on the number of particles in a bin with rounding (C92). *)
(*HEAD*)
From Coq Require Import Reals ZArith List QArith Qcanon.
From Verif Require Import Base.Res Base.QcLib Model.MRecon Model.MFloat Spec.TomoSpec Spec.ReconSpec Spec.FloatSpec.
Import ListNotations.
Local Open Scope R_scope.
(*DAEH*)
From Coq Require Import Lia Lra Bool.
From Verif Require Import Base.ResLemmas Base.Loops Base.QcLemmas Proof.PFloat Proof.PFloat2 Proof.PRecon Proof.PHybrid Proof.PTomo Proof.CFloat.

Section Count.
Variables (rnd wide : R -> R) (huge : R) (quot : R -> R -> R) (order : nat -> tree) (M : Z).
Hypothesis Hr : rounding M rnd.
Hypothesis Hstick : rnd (IZR M + 1) = IZR M.
Hypothesis HM : (1 <= M)%Z.
Hypothesis Hh : IZR M <= huge.
Let A := rounded rnd wide huge quot order.

Definition kept (n : nat) : R := IZR (Z.min (Z.of_nat n) M).
Lemma kept_bounds n : 0 <= kept n <= IZR M.
Proof. unfold kept. split; [apply (IZR_le 0)|apply IZR_le]; lia. Qed.
Lemma kept_S n : finite_number huge (rnd (kept n + 1)) = Ok (kept (S n)).
Proof.
  assert (E : rnd (kept n + 1) = kept (S n)).
  { unfold kept. destruct (Z_lt_le_dec (Z.of_nat n) M).
    - rewrite !Z.min_l by lia. replace (IZR (Z.of_nat n) + 1) with (IZR (Z.of_nat (S n)) * 2 ^ 0).
      2:{ rewrite Nat2Z.inj_succ, succ_IZR. simpl. ring. }
      rewrite (rnd_int _ _ Hr) by lia. simpl. ring.
    - rewrite !Z.min_r by lia. exact Hstick. }
  rewrite E. pose proof (kept_bounds (S n)). apply finite_ok. rewrite Rabs_right; lra.
Qed.

Lemma count_S n bin j b : count (S n) bin j b = (count n bin j b + if Nat.eqb (bin n j) b then 1 else 0)%nat.
Proof. unfold count. rewrite seq_S, filter_app, app_length. cbn [filter]. rewrite Nat.add_0_l. destruct (Nat.eqb (bin n j) b); auto. Qed.

Variables (npart nprof nbins : nat) (bin : nat -> nat -> nat).
Hypothesis Hbin : forall i j, (i < npart)%nat -> (j < nprof)%nat -> (bin i j < nbins)%nat.
Definition tabR (f : nat -> nat -> R) : list R := tab (nprof * nbins) (fl nbins f).

Lemma count_kept : countA A (repeat 0 (nprof * nbins)) (xpl npart nprof bin) nprof npart nbins = Ok (tabR (fun j b => kept (count npart bin j b))).
Proof.
  unfold countA. destruct (for_inv (list R) (fun i s => s = tabR (fun j b => kept (count i bin j b))) (fun i rparts =>
    for_ 0 nprof (fun j rparts =>
      bin <- get (xpl npart nprof bin) (zi (i * nprof + j)) ;;
      let k := (zi j * zi nbins + bin)%Z in
      x <- get rparts k ;;
      y <- a_add A x (a_one A) ;;
      set rparts k y) rparts) npart 0%nat (repeat 0 (nprof * nbins))) as (s & E & Es).
  - rewrite repeat_tab. apply tab_ext. intros k Hk. unfold fl, kept. cbn. rewrite Z.min_l by lia. reflexivity.
  - intros i s Hi ->.
    destruct (for_inv (list R) (fun j0 s => s = tabR (fun j b => kept (count (if Nat.ltb j j0 then S i else i) bin j b))) (fun j rparts =>
      bin <- get (xpl npart nprof bin) (zi (i * nprof + j)) ;;
      let k := (zi j * zi nbins + bin)%Z in
      x <- get rparts k ;;
      y <- a_add A x (a_one A) ;;
      set rparts k y) nprof 0%nat (tabR (fun j b => kept (count i bin j b)))) as (s' & E' & Es').
    + apply tab_ext. intros k Hk. unfold fl. reflexivity.
    + intros j s Hj ->. assert (Hb := Hbin i j ltac:(lia) ltac:(lia)).
      unfold xpl. rewrite get_tab by (apply flat_lt; lia). cbn [bind]. rewrite fl_at by lia. cbv zeta.
      replace (zi j * zi nbins + zi (bin i j))%Z with (zi (j * nbins + bin i j)) by lia.
      assert (L : (j * nbins + bin i j < nprof * nbins)%nat) by (apply flat_lt; lia).
      unfold tabR. rewrite get_tab by auto. cbn [bind]. rewrite fl_at by auto. rewrite Nat.ltb_irrefl.
      change (a_add A ?x (a_one A)) with (finite_number huge (rnd (x + 1))). rewrite kept_S. cbn [bind]. rewrite set_tab by auto.
      eexists. split; [reflexivity|]. apply tab_ext. intros k Hk. destruct (flat_of _ _ _ Hk) as (j' & b & Hj' & Hb' & ->). rewrite !fl_at by auto.
      destruct (Nat.eqb_spec (j' * nbins + b) (j * nbins + bin i j)) as [E|N].
      * apply flat_eq in E; auto. destruct E as [-> ->]. destruct (Nat.ltb_spec j (S j)); [|lia]. rewrite count_S, Nat.eqb_refl, Nat.add_1_r. reflexivity.
      * f_equal. destruct (Nat.ltb_spec j' j), (Nat.ltb_spec j' (S j)); auto; try lia. assert (j' = j) by lia. subst.
        rewrite count_S. destruct (Nat.eqb_spec (bin i j) b); [|lia]. subst. congruence.
    + exists s'. split; [exact E'|]. subst s'. apply tab_ext. intros k Hk. destruct (flat_of _ _ _ Hk) as (j' & b & Hj' & Hb' & ->). rewrite !fl_at by auto.
      destruct (Nat.ltb_spec j' (0 + nprof)); [reflexivity|lia].
  - subst s. exact E.
Qed.

Lemma max_kept n (f : nat -> nat) : max_1dA A (tab n (fun k => kept (f k))) n = Ok (kept (list_max (map f (seq 0 n)))).
Proof.
  unfold max_1dA. apply (for_steps' R n _ (fun i => kept (list_max (map f (seq 0 i))))); auto.
  - unfold kept. simpl. rewrite Z.min_l by lia. reflexivity.
  - intros i Hi. rewrite get_tab by auto. cbn [bind]. f_equal.
    rewrite seq_S, map_app, list_max_app. cbn [map list_max fold_right]. rewrite Nat.add_0_l. change (list_max [f i]) with (Nat.max (f i) 0). rewrite Nat.max_0_r.
    cbn [a_lt rounded]. unfold A. cbn [a_lt rounded]. unfold rltb, kept. set (p := list_max (map f (seq 0 i))).
    destruct (Rlt_dec (IZR (Z.min (Z.of_nat p) M)) (IZR (Z.min (Z.of_nat (f i)) M))) as [L|L].
    + apply lt_IZR in L. f_equal. lia.
    + apply Rnot_lt_le, le_IZR in L. f_equal. lia.
Qed.
Hypothesis Hq : quotient rnd quot.
Lemma kept_rep n : representable rnd (kept n).
Proof.
  unfold representable, kept. replace (IZR (Z.min (Z.of_nat n) M)) with (IZR (Z.min (Z.of_nat n) M) * 2 ^ 0) by (simpl; ring). apply (rnd_int _ _ Hr). lia.
Qed.
Lemma kept_1 n : (1 <= n)%nat -> 1 <= kept n.
Proof. intros. unfold kept. apply (IZR_le 1). lia. Qed.
Lemma kept_0 n : kept n = 0 <-> n = 0%nat.
Proof.
  split; [|intros ->; unfold kept; simpl; rewrite Z.min_l by lia; auto]. intros E. destruct n; auto. pose proof (kept_1 (S n) ltac:(lia)). lra.
Qed.
Lemma trunc_kept n : rtrunc (kept n) = Z.min (Z.of_nat n) M.
Proof.
  unfold kept. set (z := Z.min (Z.of_nat n) M). unfold rtrunc. destruct (Rle_dec 0 (IZR z)) as [_|N]; [|exfalso; apply N; apply (IZR_le 0); lia].
  unfold Int_part. rewrite <- (tech_up (IZR z) (z + 1)); [lia| |]; rewrite plus_IZR; lra.
Qed.

Lemma reciprocal_kept : reciprocalA A (repeat 0 (nprof * nbins)) (xpl npart nprof bin) nbins nprof npart =
  Ok (tabR (fun j b => quot (kept (max_count npart nprof nbins bin)) (kept (Nat.max 1 (count npart bin j b))))).
Proof.
  unfold reciprocalA. cbv zeta. change (list (num A)) with (list R).
  replace (countA A (repeat 0 (nprof * nbins)) (xpl npart nprof bin) nprof npart nbins) with (Ok (tabR (fun j b => kept (count npart bin j b)))) by (symmetry; apply count_kept).
  cbn [bind]. unfold tabR at 1. unfold fl at 1.
  rewrite (max_kept (nprof * nbins) (fun k => count npart bin (k / nbins) (k mod nbins))). cbn [bind].
  change (map (fun k => count npart bin (k / nbins) (k mod nbins)) (seq 0 (nprof * nbins))) with (map (fl nbins (count npart bin)) (seq 0 (nprof * nbins))).
  rewrite list_max_flat. fold (max_count npart nprof nbins bin).
  change (a_trunc A (kept (max_count npart nprof nbins bin))) with (rtrunc (kept (max_count npart nprof nbins bin))). rewrite trunc_kept.
  match goal with |- bind ?a _ = _ => assert (E1 : a = Ok (tabR (fun j b => kept (Nat.max 1 (count npart bin j b))))) end.
  { unfold tabR. apply (for_tab R (nprof * nbins)). intros k h Hk Hhk. rewrite get_tab by auto. cbn [bind]. rewrite (Hhk k) by lia.
    unfold A. cbn [a_eq a_zero a_one rounded]. unfold reqb. destruct (flat_of _ _ _ Hk) as (j & b & Hj & Hb & ->). rewrite !fl_at by auto.
    destruct (Req_EM_T (kept (count npart bin j b)) 0) as [E|N].
    - apply kept_0 in E. rewrite E. rewrite set_tab by auto. f_equal. apply tab_ext. intros c Hc. destruct (Nat.eqb_spec c (j * nbins + b)); auto.
      unfold kept. simpl. rewrite Z.min_l by lia. auto.
    - f_equal. apply tab_ext. intros c Hc. destruct (Nat.eqb_spec c (j * nbins + b)); auto. subst c. rewrite Hhk by lia. rewrite fl_at by auto. f_equal.
      destruct (count npart bin j b); [exfalso; apply N; apply kept_0; auto|lia]. }
  rewrite E1. cbn [bind].
  rewrite (for_nested _ (fun k rparts => x <- get rparts (zi k) ;; m <- a_int A (Z.min (Z.of_nat (max_count npart nprof nbins bin)) M) ;; q <- a_div A m x ;; set rparts (zi k) q)).
  unfold tabR. apply (for_tab R (nprof * nbins)). intros k h Hk Hhk. rewrite get_tab by auto. cbn [bind]. rewrite (Hhk k) by lia.
  destruct (flat_of _ _ _ Hk) as (j & b & Hj & Hb & ->). rewrite !fl_at by auto.
  set (m := max_count npart nprof nbins bin). change (a_int A (Z.min (Z.of_nat m) M)) with (finite_number huge (rnd (kept m))).
  rewrite kept_rep. pose proof (kept_bounds m). rewrite finite_ok by (rewrite Rabs_right; lra). cbn [bind].
  unfold A. cbn [a_div rounded]. pose proof (kept_1 (Nat.max 1 (count npart bin j b)) ltac:(lia)).
  destruct (Req_EM_T (kept (Nat.max 1 (count npart bin j b))) 0); [lra|].
  pose proof (q_nonneg _ _ Hq (kept m) (kept (Nat.max 1 (count npart bin j b))) ltac:(lra) ltac:(lra)).
  pose proof (q_less _ _ Hq (kept m) (kept (Nat.max 1 (count npart bin j b))) (kept_rep _) (kept_rep _) ltac:(lra) ltac:(lra)).
  rewrite finite_ok by (rewrite Rabs_right; lra). cbn [bind]. rewrite set_tab by auto. reflexivity.
Qed.
End Count.

(** C92.  With rounding the number of particles counted in a bin is the number
    of particles, but not more than the largest integer M up to which all are
    exact, if that number plus one is rounded to itself. *)
Lemma C92_counts_lem : forall rnd wide huge quot order M xp nprof nbins,
  rounding M rnd -> rnd (IZR M + 1) = IZR M -> (1 <= M)%Z -> IZR M <= huge -> xp_ok nprof nbins (Some xp) ->
  exists l : list R, countA (rounded rnd wide huge quot order) (repeat 0 (nprof * nbins)) (concat xp) nprof (length xp) nbins = Ok l /\
    length l = (nprof * nbins)%nat /\
    forall j b, (j < nprof)%nat -> (b < nbins)%nat ->
      nth (j * nbins + b) l 0 = IZR (Z.min (Z.of_nat (count (length xp) (bin_of xp) j b)) M).
Proof.
  intros rnd wide huge quot order M xp nprof nbins Hr Hs HM Hh X. destruct (flat_xp _ _ _ X) as [Ex Hb].
  eexists. split; [rewrite Ex; apply (count_kept rnd wide huge quot order M Hr Hs HM Hh _ _ _ _ Hb)|]. split; [apply tab_length|].
  intros j b Hj Hb'. unfold tabR. rewrite nth_tab by (apply flat_lt; auto). rewrite fl_at by auto. reflexivity.
Qed.

(** C92.  So it is exact as long as no bin holds more than M particles. *)
Lemma C92_exact_partial_lem : forall rnd wide huge quot order M xp nprof nbins,
  rounding M rnd -> rnd (IZR M + 1) = IZR M -> (1 <= M)%Z -> IZR M <= huge -> xp_ok nprof nbins (Some xp) ->
  (forall j b, (j < nprof)%nat -> (b < nbins)%nat -> (Z.of_nat (count (length xp) (bin_of xp) j b) <= M)%Z) ->
  exists l : list R, countA (rounded rnd wide huge quot order) (repeat 0 (nprof * nbins)) (concat xp) nprof (length xp) nbins = Ok l /\
    forall j b, (j < nprof)%nat -> (b < nbins)%nat -> nth (j * nbins + b) l 0 = INR (count (length xp) (bin_of xp) j b).
Proof.
  intros rnd wide huge quot order M xp nprof nbins Hr Hs HM Hh X B. destruct (C92_counts_lem rnd wide huge quot order M xp nprof nbins Hr Hs HM Hh X) as (l & E & _ & N).
  exists l. split; auto. intros j b Hj Hb. rewrite N by auto. rewrite Z.min_l by auto. symmetry. apply INR_IZR_INZ.
Qed.

(** C92.  It is wrong for every bin with more particles; and bins with different
    numbers of them are taken to hold the same. *)
Lemma C92_refuted_lem : forall rnd wide huge quot order M xp nprof nbins,
  rounding M rnd -> rnd (IZR M + 1) = IZR M -> (1 <= M)%Z -> IZR M <= huge -> xp_ok nprof nbins (Some xp) ->
  exists l : list R, countA (rounded rnd wide huge quot order) (repeat 0 (nprof * nbins)) (concat xp) nprof (length xp) nbins = Ok l /\
    forall j b, (j < nprof)%nat -> (b < nbins)%nat -> (M < Z.of_nat (count (length xp) (bin_of xp) j b))%Z ->
      nth (j * nbins + b) l 0 = IZR M /\ nth (j * nbins + b) l 0 < INR (count (length xp) (bin_of xp) j b).
Proof.
  intros rnd wide huge quot order M xp nprof nbins Hr Hs HM Hh X. destruct (C92_counts_lem rnd wide huge quot order M xp nprof nbins Hr Hs HM Hh X) as (l & E & _ & N).
  exists l. split; auto. intros j b Hj Hb L. rewrite N by auto. rewrite Z.min_r by lia. split; auto. rewrite INR_IZR_INZ. apply IZR_lt. auto.
Qed.

(** C92.  The compensation factors are computed from these numbers: bins with
    more than M particles all get the same factor. *)
Lemma C92_compensation_lem : forall rnd wide huge quot order M xp nprof nbins,
  rounding M rnd -> rnd (IZR M + 1) = IZR M -> (1 <= M)%Z -> IZR M <= huge -> quotient rnd quot -> xp_ok nprof nbins (Some xp) ->
  let n := count (length xp) (bin_of xp) in
  let top := max_count (length xp) nprof nbins (bin_of xp) in
  exists l : list R, reciprocalA (rounded rnd wide huge quot order) (repeat 0 (nprof * nbins)) (concat xp) nbins nprof (length xp) = Ok l /\
    forall j b, (j < nprof)%nat -> (b < nbins)%nat ->
      nth (j * nbins + b) l 0 = quot (IZR (Z.min (Z.of_nat top) M)) (IZR (Z.min (Z.max 1 (Z.of_nat (n j b))) M)).
Proof.
  intros rnd wide huge quot order M xp nprof nbins Hr Hs HM Hh Hq X n top. destruct (flat_xp _ _ _ X) as [Ex Hb].
  eexists. split; [rewrite Ex; apply (reciprocal_kept rnd wide huge quot order M Hr Hs HM Hh _ _ _ _ Hb Hq)|].
  intros j b Hj Hb'. unfold tabR. rewrite nth_tab by (apply flat_lt; auto). rewrite fl_at by auto. unfold kept, top, n. do 2 f_equal. lia.
Qed.
(*EX*)
From Coq Require Import Lia Lra.
From Flocq Require Import Core.
(** Rounding to nearest, ties to even, stays at 2^digits. *)
Lemma nearest_stays : forall digits emin, (2 <= digits)%Z -> (emin <= 1)%Z ->
  round radix2 (FLT_exp emin digits) ZnearestE (IZR (2 ^ digits) + 1) = IZR (2 ^ digits).
Proof.
  intros d emin Hd He. assert (B : IZR (2 ^ d) = bpow radix2 d) by (rewrite <- (IZR_Zpower radix2) by lia; reflexivity).
  assert (B1 : IZR (2 ^ (d - 1)) = bpow radix2 (d - 1)) by (rewrite <- (IZR_Zpower radix2) by lia; reflexivity).
  assert (T : bpow radix2 d = bpow radix2 (d - 1) * 2). { replace d with (d - 1 + 1)%Z at 1 by lia. rewrite bpow_plus. reflexivity. }
  assert (P : 1 < bpow radix2 d). { change 1 with (bpow radix2 0). apply bpow_lt. lia. }
  assert (G : mag radix2 (IZR (2 ^ d) + 1) = (d + 1)%Z :> Z).
  { apply mag_unique_pos. rewrite B. replace (d + 1 - 1)%Z with d by lia. rewrite bpow_plus. change (bpow radix2 1) with 2. lra. }
  unfold round, scaled_mantissa, cexp. rewrite G. unfold FLT_exp. replace (Z.max (d + 1 - d) emin) with 1%Z by lia.
  assert (X : (IZR (2 ^ d) + 1) * bpow radix2 (- 1) = IZR (2 ^ (d - 1)) + / 2).
  { rewrite B, B1, T. change (bpow radix2 (- 1)) with (/ 2). field. }
  change (- (1))%Z with (-1)%Z. change (- 1)%Z with (-1)%Z in X. rewrite X. assert (F : Zfloor (IZR (2 ^ (d - 1)) + / 2) = (2 ^ (d - 1))%Z) by (apply Zfloor_imp; rewrite plus_IZR; lra).
  unfold Znearest. rewrite F. replace (IZR (2 ^ (d - 1)) + / 2 - IZR (2 ^ (d - 1))) with (/ 2) by ring. rewrite Rcompare_Eq by auto.
  replace (d - 1)%Z with (Z.succ (d - 2)) at 1 by lia. rewrite Z.pow_succ_r by lia. rewrite Z.even_mul. cbn [Z.even orb negb].
  unfold F2R. cbn [Fnum Fexp]. rewrite B1, B, T. reflexivity.
Qed.
Example C92_single : round radix2 (FLT_exp (-149) 24) ZnearestE (IZR (2 ^ 24) + 1) = IZR (2 ^ 24). Proof. apply nearest_stays; lia. Qed.
Example C92_double : round radix2 (FLT_exp (-1074) 53) ZnearestE (IZR (2 ^ 53) + 1) = IZR (2 ^ 53). Proof. apply nearest_stays; lia. Qed.
(** A bin with n particles, for every n. *)
Example C92_particles : forall n, xp_ok 1 1 (Some (repeat [0%Z] n)) /\ count (length (repeat [0%Z] n)) (bin_of (repeat [0%Z] n)) 0 0 = n.
Proof.
  intros n. split.
  - split; [split; [reflexivity|]|]; apply Forall_forall; intros r H; apply repeat_spec in H; subst; repeat constructor; discriminate.
  - rewrite repeat_length. unfold count. rewrite (filter_ext _ (fun _ => true)).
    + assert (F : forall l : list nat, filter (fun _ => true) l = l) by (induction l; simpl; congruence). rewrite F. apply seq_length.
    + intros i. unfold bin_of. assert (E : nth i (repeat [0%Z] n) [] = [0%Z] \/ nth i (repeat [0%Z] n) [] = []).
      { destruct (nth_in_or_default i (repeat [0%Z] n) []) as [H|H]; [left; exact (repeat_spec _ _ _ H)|right; exact H]. }
      destruct E as [-> | ->]; reflexivity.
Qed.
(*XE*)
