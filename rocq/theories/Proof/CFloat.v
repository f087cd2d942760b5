(** Proofs of the properties of the reconstruction with rounding. *)
(*HEAD*)
From Coq Require Import Reals ZArith List QArith Qcanon.
From Verif Require Import Base.Res Base.QcLib Model.MRecon Model.MFloat Spec.TomoSpec Spec.FloatSpec.
Import ListNotations.
Local Open Scope R_scope.
(*DAEH*)
From Coq Require Import Lia Lra Bool Permutation.
From Verif Require Import Base.ResLemmas Base.Loops Base.QcLemmas Proof.PFloat Proof.PFloat2 Proof.PFloat3 Proof.PRecon Proof.PHybrid Proof.PTomo.

(** The flat arrays of a table of coordinates and of the profiles. *)
Lemma flat_prof : forall rnd nprof nbins wf, profiles_ok rnd nprof nbins wf ->
  length (concat wf) = (nprof * nbins)%nat /\
  (forall c, (c < nprof * nbins)%nat -> 0 <= nth c (concat wf) 0 <= 1 /\ representable rnd (nth c (concat wf) 0)) /\
  forall j b, (j < nprof)%nat -> (b < nbins)%nat -> nth (j * nbins + b) (concat wf) 0 = nth b (nth j wf []) 0.
Proof.
  intros rnd nprof nbins wf [Hr Hf]. assert (E : concat wf = tab (nprof * nbins) (fl nbins (fun j b => nth b (nth j wf []) 0))).
  { rewrite (rect_T _ nprof nbins wf 0 Hr) at 1. apply concat_T. }
  assert (N : forall j b, (j < nprof)%nat -> (b < nbins)%nat -> nth (j * nbins + b) (concat wf) 0 = nth b (nth j wf []) 0).
  { intros j b Hj Hb. apply nth_error_nth. rewrite E, nth_error_tab by (apply flat_lt; auto). rewrite fl_at by auto. reflexivity. }
  split; [rewrite E; apply tab_length|]. split; auto. intros c Hc. destruct (flat_of _ _ _ Hc) as (j & b & Hj & Hb & ->). rewrite N by auto.
  destruct Hr as [Hl Hr]. rewrite Forall_forall in Hf, Hr. assert (Ij : In (nth j wf []) wf) by (apply nth_In; lia).
  specialize (Hf _ Ij). rewrite Forall_forall in Hf. apply Hf. apply nth_In. rewrite (Hr _ Ij). auto.
Qed.
Lemma flat_xp : forall nprof nbins xp, xp_ok nprof nbins (Some xp) -> concat xp = xpl (length xp) nprof (bin_of xp) /\
  forall i j, (i < length xp)%nat -> (j < nprof)%nat -> (bin_of xp i j < nbins)%nat.
Proof. intros nprof nbins xp X. destruct (bins_T _ _ _ X) as [Ex Hb]. split; auto. rewrite Ex at 1. apply concat_T. Qed.

Lemma all_nth : forall (P : R -> Prop) l, (forall i, (i < length l)%nat -> P (nth i l 0)) -> Forall P l.
Proof. intros P l H. apply Forall_forall. intros x Hx. apply In_nth with (d := 0) in Hx. destruct Hx as (i & Hi & <-). auto. Qed.

Section Run.
Variables (rnd wide : R -> R) (huge : R) (quot : R -> R -> R) (order : nat -> tree) (M : Z) (e : nat).
Variables (xp : list (list Z)) (wf : list (list R)) (nprof nbins niter : nat).
Hypothesis Hr : rounding M rnd.
Hypothesis Hw : rounding M wide.
Hypothesis Hq : quotient rnd quot.
Hypothesis Ho : orders order.
Hypothesis Hs : sizes_fit M huge e (length xp) nprof nbins niter.
Hypothesis Hx : xp_ok nprof nbins (Some xp).
Hypothesis Hp : profiles_ok rnd nprof nbins wf.
Notation A := (rounded rnd wide huge quot order).

Lemma run_f : exists r,
  (forall reduce, thread_sums rnd huge reduce -> reconstructA A reduce (concat xp) (concat wf) niter nbins (length xp) nprof = r) /\
  match r with
  | Ok s => sound rnd wide huge quot order e (length xp) nprof nbins (bin_of xp) (concat wf) niter niter s /\
      row_sums rnd wide huge quot order nprof nbins s
  | Fail x => x = Raised RuntimeError
  end /\
  ((forall i j, (i < length xp)%nat -> (j < nprof)%nat -> charge_seen xp wf i j = 0) -> r = Fail (Raised RuntimeError)) /\
  ((exists i j, (i < length xp)%nat /\ (j < nprof)%nat /\ 0 < charge_seen xp wf i j) -> niter = 0%nat -> exists s, r = Ok s).
Proof.
  destruct Hs as (H1 & H2 & H3 & H4 & H5 & H6 & H7). destruct (flat_prof _ _ _ _ Hp) as (L & B & N). destruct (flat_xp _ _ _ Hx) as (E & Hb).
  destruct (reconstruct_f rnd wide huge quot order M e Hr Hw Hq Ho H6 H7 (length xp) nprof nbins (bin_of xp) Hb H1 H2 H3 H4 (concat wf) niter L B H5)
    as (r & R1 & R2 & R3 & R4).
  exists r. split; [intros; rewrite E; auto|]. split; auto. 
  assert (C : forall i j, (i < length xp)%nat -> (j < nprof)%nat -> nth (cell_of nbins (bin_of xp) i j) (concat wf) 0 = charge_seen xp wf i j).
  { intros i j Hi Hj. apply N; auto. }
  split.
  - intros K. apply R3. intros i Hi j Hj. rewrite C by auto. auto.
  - intros (i & j & Hi & Hj & K). apply R4. exists i, j. rewrite C by auto. auto.
Qed.
End Run.

(** C81.  In floating point, whatever the order in which the compiler and the
    threads add, the reconstruction of profiles between 0 and 1 ends with finite
    weights, recreated profiles and discrepancies, or with the exception for
    weights that are all zero; no overflow, no division by zero, no access
    outside an array. *)
Lemma C81_finite_lem : forall rnd wide huge quot order M e reduce xp wf nprof nbins niter,
  rounding M rnd -> rounding M wide -> quotient rnd quot -> orders order -> thread_sums rnd huge reduce ->
  sizes_fit M huge e (length xp) nprof nbins niter -> xp_ok nprof nbins (Some xp) -> profiles_ok rnd nprof nbins wf ->
  match reconstructA (rounded rnd wide huge quot order) reduce (concat xp) (concat wf) niter nbins (length xp) nprof with
  | Ok s => finite_result rnd e (length xp) nprof nbins niter (f_weights s) (f_rec s) (f_discr s)
  | Fail x => x = Raised RuntimeError
  end.
Proof.
  intros rnd wide huge quot order M e reduce xp wf nprof nbins niter Hr Hw Hq Ho Ht Hs Hx Hp.
  destruct (run_f rnd wide huge quot order M e xp wf nprof nbins niter Hr Hw Hq Ho Hs Hx Hp) as (r & R1 & R2 & _).
  rewrite (R1 reduce Ht). destruct r as [s|x]; auto. destruct R2 as [[lw w0 (i & Hi & p0) u0 lr r0 ld d0 ldf] _]. split.
  - split; auto. apply all_nth. intros k Hk. destruct (w0 k ltac:(cbn [num rounded] in *; lia)) as [K1 K2]. split; auto. rewrite INR_IZR_INZ. exact K1.
  - apply Exists_exists. exists (nth i (f_weights s : list R) 0). split; auto. apply nth_In. cbn [num rounded] in *. lia.
  - split; auto. apply all_nth. intros c Hc. apply r0. cbn [num rounded] in *. lia.
  - split; [cbn [num rounded] in *; lia|]. apply all_nth. intros k Hk. apply d0. cbn [num rounded] in *. lia.
Qed.

(** C81.  Such profiles are what the Tomography object makes of any waterfall
    in which every profile has a positive sample. *)
Lemma C81_profiles_lem : forall rnd wide huge quot order M k nprof nbins wf,
  rounding M rnd -> quotient rnd quot -> orders order -> (0 < nprof)%nat -> (Z.of_nat nbins <= M)%Z -> 1 <= huge -> INR nbins * 2 ^ k <= huge ->
  rectangular nprof nbins wf -> Forall (Forall (fun x => Rabs x <= 2 ^ k /\ representable rnd x)) wf -> Forall (Exists (fun x => 0 < x)) wf ->
  exists wf', normalized_profilesA (rounded rnd wide huge quot order) wf = Ok wf' /\ profiles_ok rnd nprof nbins wf' /\
    forall u tiny, accurate u tiny rnd quot -> 0 <= u < 1 -> 2 * INR nbins * u <= 1 ->
      Forall (fun row => Rabs (rsum row - 1) <= 2 * INR nbins * u + INR nbins * tiny) wf'.
Proof.
  intros rnd wide huge quot order M k nprof nbins wf Hr Hq Ho Hn HM H1 Hh [Hl Hc] Hb Hpos.
  assert (Z0 : rnd 0 = 0). { assert (K := rnd_int _ _ Hr 0 0). rewrite Rmult_0_l in K. apply K. simpl. lia. }
  assert (P2 : 0 < 2 ^ k) by (apply pow_lt; lra).
  set (p := fun x => if rltb x 0 then 0 else x).
  assert (p0 : forall x, 0 <= p x /\ (0 < x -> p x = x)). { intros x. unfold p, rltb. destruct (Rlt_dec x 0); split; intros; lra. }
  set (rows := map (map p) wf).
  set (g := fun row => match ordered_sum rnd huge order row with Ok s => map (fun x => quot x s) row | Fail _ => [] end).
  assert (Row : forall row, In row rows -> length row = nbins /\ (0 < nbins)%nat /\ (forall i, (i < length row)%nat -> 0 <= nth i row 0 <= 2 ^ k /\ rnd (nth i row 0) = nth i row 0) /\
    exists i, (i < nbins)%nat /\ 0 < nth i row 0).
  { intros row Hi. unfold rows in Hi. apply in_map_iff in Hi. destruct Hi as (r0 & <- & Hi).
    rewrite Forall_forall in Hc, Hb, Hpos. specialize (Hc _ Hi). specialize (Hb _ Hi). specialize (Hpos _ Hi). rewrite Forall_forall in Hb.
    apply Exists_exists in Hpos. destruct Hpos as (x & Hx & Px). apply In_nth with (d := 0) in Hx. destruct Hx as (i & Hix & <-).
    assert (En : forall j, (j < length r0)%nat -> nth j (map p r0) 0 = p (nth j r0 0)).
    { intros j Hj. rewrite (nth_indep _ 0 (p 0)) by (rewrite map_length; auto). apply map_nth. }
    rewrite map_length. split; auto. split; [lia|]. split.
    - intros j Hj. rewrite En by auto. destruct (Hb (nth j r0 0)) as [B1 B2]; [apply nth_In; auto|].
      assert (K := Rle_abs (nth j r0 0)). unfold p, rltb. destruct (Rlt_dec (nth j r0 0) 0); split; auto; lra.
    - exists i. split; [lia|]. rewrite En by auto. destruct (p0 (nth i r0 0)) as [_ K]. rewrite K; auto. }
  assert (Sum : forall row, In row rows -> exists s, ordered_sum rnd huge order row = Ok s /\ 0 < s /\ rnd s = s /\ forall i, (i < length row)%nat -> nth i row 0 <= s).
  { intros row Hi. destruct (Row row Hi) as (L & N & B & i & Hi' & Pi).
    destruct (osum_uniform rnd M huge (rnd_mono _ _ Hr) (rnd_int _ _ Hr) order Ho k row 1) as (s & Es & Bs); try lia.
    - intros j Hj. destruct (B j Hj). lra.
    - rewrite L, Z.mul_1_l, <- INR_IZR_INZ. auto.
    - destruct (osum_pos rnd huge (rnd_mono _ _ Hr) order Ho row s) as (S1 & S2 & S3); auto; [|apply (rnd_idem _ _ Hr)|].
      { intros j Hj. destruct (B j Hj). split; [lra|auto]. }
      exists s. split; auto. split; auto. specialize (S3 i ltac:(lia)). lra. }
  assert (G : forall row, In row rows -> (s <- ordered_sum rnd huge order row ;; mapM (fun x => a_div (rounded rnd wide huge quot order) x s) row) = Ok (g row) /\
    length (g row) = nbins /\ Forall (fun x => 0 <= x <= 1 /\ representable rnd x) (g row)).
  { intros row Hi. destruct (Row row Hi) as (L & N & B & _). destruct (Sum row Hi) as (s & Es & Ps & Rs & Ls). unfold g. rewrite Es. cbn [bind].
    assert (D : forall x, In x row -> 0 <= quot x s <= 1 /\ representable rnd (quot x s)).
    { intros x Hx. apply In_nth with (d := 0) in Hx. destruct Hx as (i & Hix & <-). destruct (B i Hix) as [B1 B2]. split; [|apply (q_number _ _ Hq)].
      split; [apply (q_nonneg _ _ Hq); lra|]. apply (q_one _ _ Hq); auto. split; [lra|auto]. }
    split; [|split].
    - apply mapM_ok_map. intros x Hx. cbn [a_div rounded]. destruct (Req_EM_T s 0); [lra|]. apply finite_ok. destruct (D x Hx). rewrite Rabs_right; lra.
    - rewrite map_length. auto.
    - apply Forall_forall. intros y Hy. apply in_map_iff in Hy. destruct Hy as (x & <- & Hx). auto. }
  exists (map g rows).
  assert (E : normalized_profilesA (rounded rnd wide huge quot order) wf = Ok (map g rows)).
  { unfold normalized_profilesA. change (map (map (fun x => if a_lt (rounded rnd wide huge quot order) x (a_zero (rounded rnd wide huge quot order)) then a_zero (rounded rnd wide huge quot order) else x)) wf) with rows.
    match goal with |- context [existsb ?f rows] => assert (X : existsb f rows = true) end.
    - apply existsb_exists. assert (In (nth 0 rows []) rows) by (apply nth_In; unfold rows; rewrite map_length; lia).
      exists (nth 0 rows []). split; auto. destruct (Row _ H) as (L & N & B & i & Hi & Pi). apply existsb_exists.
      exists (nth i (nth 0 rows []) 0). split; [apply nth_In; lia|]. cbn [a_eq a_zero rounded]. unfold reqb. destruct (Req_EM_T _ 0); [lra|auto].
    - cbn [num rounded] in X |- *. rewrite X. cbn [negb]. apply (mapM_ok_map (list R) (list R)). intros row Hi. apply G. auto. }
  split; auto. split.
  - split; [split|].
    + rewrite map_length. unfold rows. rewrite map_length. auto.
    + apply Forall_forall. intros r Hi. apply in_map_iff in Hi. destruct Hi as (row & <- & Hi). apply G. auto.
    + apply Forall_forall. intros r Hi. apply in_map_iff in Hi. destruct Hi as (row & <- & Hi). apply G. auto.
  - intros u tiny Ha Hu Hu2. apply Forall_forall. intros r Hi. apply in_map_iff in Hi. destruct Hi as (row & <- & Hi).
    destruct (Row row Hi) as (L & N & B & _). destruct (Sum row Hi) as (s & Es & Ps & Rs & Ls). unfold g. rewrite Es.
    rewrite <- L in Hu2 |- *. eapply (normalized_acc u tiny rnd quot huge Ha (rnd_mono _ _ Hr) (rnd_idem _ _ Hr) Z0 Hu order row s); auto; [lia|].
    intros i Hi'. destruct (B i Hi'). split; [lra|auto].
Qed.

(** C81.  Without rounding the model is the exact one of the other theorems. *)
Lemma C81_exact_lem : forall sqrt reduce xp prof niter nbins npart nprof, (0 < nprof)%nat -> (forall k l, reduce k l = Ok (qsum l)) ->
  reconstructA (exact sqrt) reduce xp prof niter nbins npart nprof =
  (s <- reconstruct sqrt (repeat (Q2Qc 0) (nprof * nbins)) xp prof (zi niter) nbins npart nprof ;;
   Ok (FState (r_weights s : list (num (exact sqrt))) (r_rec s) (r_discr s) (r_diff s))).
Proof.
  intros sqrt reduce xp prof niter nbins npart nprof Hn Hred. assert (K := reconstruct_exact sqrt reduce Hred xp prof niter nbins npart nprof Hn).
  destruct (reconstructA (exact sqrt) reduce xp prof niter nbins npart nprof) as [f|x],
    (reconstruct sqrt (repeat (Q2Qc 0) (nprof * nbins)) xp prof (zi niter) nbins npart nprof) as [r|y]; cbn [rel_res bind] in *; try contradiction; [|congruence].
  destruct K as (K1 & K2 & K3 & K4). destruct f as [fw fr fd ff]. cbn [f_weights f_rec f_discr f_diff] in *. subst. reflexivity.
Qed.

(** C82.  The result is the same, bit for bit, for every number of threads and
    every order in which their sums are added. *)
Lemma C82_reproducible_lem : forall rnd wide huge quot order M e reduce1 reduce2 xp wf nprof nbins niter,
  rounding M rnd -> rounding M wide -> quotient rnd quot -> orders order ->
  thread_sums rnd huge reduce1 -> thread_sums rnd huge reduce2 ->
  sizes_fit M huge e (length xp) nprof nbins niter -> xp_ok nprof nbins (Some xp) -> profiles_ok rnd nprof nbins wf ->
  reconstructA (rounded rnd wide huge quot order) reduce1 (concat xp) (concat wf) niter nbins (length xp) nprof =
  reconstructA (rounded rnd wide huge quot order) reduce2 (concat xp) (concat wf) niter nbins (length xp) nprof.
Proof.
  intros rnd wide huge quot order M e reduce1 reduce2 xp wf nprof nbins niter Hr Hw Hq Ho H1 H2 Hs Hx Hp.
  destruct (run_f rnd wide huge quot order M e xp wf nprof nbins niter Hr Hw Hq Ho Hs Hx Hp) as (r & R1 & _).
  rewrite (R1 reduce1 H1), (R1 reduce2 H2). reflexivity.
Qed.

(** C83.  The reconstruction is refused if no particle ever sees charge, and
    starts if one does; a particle that never sees charge has weight exactly 0
    at the end, also with rounding. *)
Lemma C83_blank_lem : forall rnd wide huge quot order M e reduce xp wf nprof nbins niter,
  rounding M rnd -> rounding M wide -> quotient rnd quot -> orders order -> thread_sums rnd huge reduce ->
  sizes_fit M huge e (length xp) nprof nbins niter -> xp_ok nprof nbins (Some xp) -> profiles_ok rnd nprof nbins wf ->
  let result := reconstructA (rounded rnd wide huge quot order) reduce (concat xp) (concat wf) niter nbins (length xp) nprof in
  ((forall i j, (i < length xp)%nat -> (j < nprof)%nat -> charge_seen xp wf i j = 0) -> result = Fail (Raised RuntimeError)) /\
  ((exists i j, (i < length xp)%nat /\ (j < nprof)%nat /\ charge_seen xp wf i j <> 0) -> niter = 0%nat -> exists s, result = Ok s).
Proof.
  intros rnd wide huge quot order M e reduce xp wf nprof nbins niter Hr Hw Hq Ho Ht Hs Hx Hp.
  destruct (run_f rnd wide huge quot order M e xp wf nprof nbins niter Hr Hw Hq Ho Hs Hx Hp) as (r & R1 & _ & R3 & R4).
  cbv zeta. rewrite (R1 reduce Ht). split; auto. intros (i & j & Hi & Hj & K). apply R4. exists i, j. split; auto. split; auto.
  destruct (flat_prof _ _ _ _ Hp) as (_ & B & N). destruct (flat_xp _ _ _ Hx) as (_ & Hb). unfold charge_seen in *.
  rewrite <- N in * by auto. destruct (B (j * nbins + bin_of xp i j)%nat); [apply flat_lt; auto|]. lra.
Qed.
Lemma C83_unseen_lem : forall rnd wide huge quot order M e reduce xp wf nprof nbins niter s i,
  rounding M rnd -> rounding M wide -> quotient rnd quot -> orders order -> thread_sums rnd huge reduce ->
  sizes_fit M huge e (length xp) nprof nbins niter -> xp_ok nprof nbins (Some xp) -> profiles_ok rnd nprof nbins wf ->
  reconstructA (rounded rnd wide huge quot order) reduce (concat xp) (concat wf) niter nbins (length xp) nprof = Ok s ->
  (i < length xp)%nat -> (forall j, (j < nprof)%nat -> charge_seen xp wf i j = 0) -> nth_error (f_weights s : list R) i = Some 0.
Proof.
  intros rnd wide huge quot order M e reduce xp wf nprof nbins niter s i Hr Hw Hq Ho Ht Hs Hx Hp E Hi Hu.
  destruct (run_f rnd wide huge quot order M e xp wf nprof nbins niter Hr Hw Hq Ho Hs Hx Hp) as (r & R1 & R2 & _).
  rewrite (R1 reduce Ht) in E. subst r. destruct R2 as [[lw w0 p0 u0 lr r0 ld d0 ldf] _].
  rewrite (nth_error_nth' _ 0) by (cbn [num rounded] in *; lia). f_equal. apply u0; auto. intros j Hj.
  destruct (flat_prof _ _ _ _ Hp) as (_ & _ & N). destruct (flat_xp _ _ _ Hx) as (_ & Hb). unfold cell_of. rewrite N by auto. apply Hu. auto.
Qed.

(*EX*)
From Coq Require Import Lra Lia Permutation.
From Flocq Require Import Core Relative Plus_error.
From Verif Require Import Proof.PFloat3.
(** Rounding to nearest, ties to even, with subnormal numbers. *)
Lemma nearest_rounding : forall digits emin, (0 < digits)%Z -> (emin <= 0)%Z ->
  rounding (2 ^ digits) (round radix2 (FLT_exp emin digits) ZnearestE).
Proof.
  intros digits emin Hd He. assert (Hp : Prec_gt_0 digits) by (unfold Prec_gt_0; auto). split.
  - intros x y H. apply round_le; auto. apply FLT_exp_valid. auto. apply valid_rnd_N.
  - intros x. apply round_generic. apply valid_rnd_N. apply generic_format_round. apply FLT_exp_valid; auto. apply valid_rnd_N.
  - intros z k Hz. apply round_generic. apply valid_rnd_N.
    assert (Bk : 2 ^ k = bpow radix2 (Z.of_nat k)). { rewrite bpow_powerRZ, <- pow_powerRZ. reflexivity. }
    destruct (Z.eq_dec (Z.abs z) (2 ^ digits)) as [E|N].
    + assert (K : generic_format radix2 (FLT_exp emin digits) (bpow radix2 (digits + Z.of_nat k))) by (apply generic_format_FLT_bpow; auto; lia).
      assert (B : IZR (2 ^ digits) * 2 ^ k = bpow radix2 (digits + Z.of_nat k)).
      { rewrite bpow_plus, <- Bk. f_equal. rewrite <- (IZR_Zpower radix2) by lia. reflexivity. }
      destruct (Z.abs_eq_or_opp z) as [S|S]; rewrite E in S.
      * rewrite <- S, B. auto.
      * replace z with (- 2 ^ digits)%Z by lia. rewrite opp_IZR, <- Ropp_mult_distr_l, B. apply generic_format_opp. auto.
    + apply generic_format_FLT. exists (Float radix2 z (Z.of_nat k)); cbn [Fnum Fexp]; [|change (radix_val radix2) with 2%Z; lia|lia].
      unfold F2R. cbn [Fnum Fexp]. rewrite Bk. reflexivity.
Qed.
(** Numbers below a power of two flushed to zero. *)
Lemma flush_rounding : forall M rnd low, rounding M rnd -> 0 < low <= 1 -> (forall x, low <= x -> low <= rnd x) -> (forall x, rnd (- x) = - rnd x) ->
  rounding M (fun x => if Rlt_dec (Rabs x) low then 0 else rnd x).
Proof.
  intros M rnd low [Hm Hi Hz] Hl Hg Hn.
  assert (G : forall x, low <= Rabs x -> low <= Rabs (rnd x)).
  { intros x Hx. unfold Rabs in Hx. destruct (Rcase_abs x).
    - apply Hg in Hx. rewrite Hn in Hx. rewrite <- Rabs_Ropp. rewrite Rabs_right; lra.
    - apply Hg in Hx. rewrite Rabs_right; lra. }
  split.
  - intros x y H. destruct (Rlt_dec (Rabs x) low) as [Lx|Lx], (Rlt_dec (Rabs y) low) as [Ly|Ly]; auto; try lra.
    + assert (low <= rnd y); [|lra]. apply Hg. unfold Rabs in *. destruct (Rcase_abs x), (Rcase_abs y); lra.
    + assert (low <= rnd (- x)); [|rewrite Hn in *; lra]. apply Hg. unfold Rabs in *. destruct (Rcase_abs x), (Rcase_abs y); lra.
  - intros x. destruct (Rlt_dec (Rabs x) low) as [Lx|Lx].
    + destruct (Rlt_dec (Rabs 0) low) as [L|L]; auto. rewrite Rabs_R0 in L. lra.
    + destruct (Rlt_dec (Rabs (rnd x)) low) as [L|L]; auto. assert (K := G x ltac:(lra)). lra.
  - intros z k H. destruct (Rlt_dec (Rabs (IZR z * 2 ^ k)) low) as [L|L]; auto.
    destruct (Z.eq_dec z 0) as [->|N]; [lra|]. exfalso. rewrite Rabs_mult in L. assert (P : 1 <= 2 ^ k) by (apply pow_R1_Rle; lra).
    rewrite (Rabs_right (2 ^ k)) in L by lra. assert (1 <= Rabs (IZR z)) by (rewrite <- abs_IZR; apply IZR_le; lia). nra.
Qed.
Lemma no_rounding : forall M, rounding M (fun x => x).
Proof. intros. split; auto. Qed.
(** The rounded quotient. *)
Lemma division : forall M rnd, rounding M rnd -> (1 <= M)%Z -> quotient rnd (fun x y => rnd (x / y)).
Proof.
  intros M rnd [Hm Hi Hz] HM.
  assert (Z0 : rnd 0 = 0) by (assert (K := Hz 0%Z 0%nat ltac:(simpl; lia)); rewrite Rmult_0_l in K; auto).
  assert (Z1 : rnd 1 = 1) by (assert (K := Hz 1%Z 0%nat ltac:(simpl; lia)); simpl in K; rewrite Rmult_1_r in K; auto).
  split.
  - intros. apply Hi.
  - intros x y Hx Hy. rewrite <- Z0. apply Hm. apply Rmult_le_pos; [auto|]. apply Rlt_le, Rinv_0_lt_compat. auto.
  - intros x y _ _ H Hy. rewrite <- Z1. apply Hm. apply (Rmult_le_reg_r y); auto. unfold Rdiv. rewrite Rmult_assoc, Rinv_l; lra.
  - intros x y Rx _ Hx Hy. rewrite <- Rx at 2. apply Hm. apply (Rmult_le_reg_r y); [lra|]. unfold Rdiv. rewrite Rmult_assoc, Rinv_l by lra. nra.
Qed.
(** Multiplication by the rounded reciprocal, where that is not larger than the
    number by which it multiplies to 1. *)
Lemma reciprocal : forall M rnd, rounding M rnd -> (1 <= M)%Z -> (forall y, representable rnd y -> 0 < y -> rnd (y * rnd (/ y)) <= 1) ->
  quotient rnd (fun x y => rnd (x * rnd (/ y))).
Proof.
  intros M rnd [Hm Hi Hz] HM Hy1.
  assert (Z0 : rnd 0 = 0) by (assert (K := Hz 0%Z 0%nat ltac:(simpl; lia)); rewrite Rmult_0_l in K; auto).
  assert (Z1 : rnd 1 = 1) by (assert (K := Hz 1%Z 0%nat ltac:(simpl; lia)); simpl in K; rewrite Rmult_1_r in K; auto).
  assert (P : forall y, 0 < y -> 0 <= rnd (/ y)) by (intros; rewrite <- Z0; apply Hm, Rlt_le, Rinv_0_lt_compat; auto).
  split.
  - intros. apply Hi.
  - intros x y Hx Hy. rewrite <- Z0. apply Hm. apply Rmult_le_pos; auto.
  - intros x y _ Ry H Hy. eapply Rle_trans; [|apply (Hy1 y Ry Hy)]. apply Hm. apply Rmult_le_compat_r; [auto|lra].
  - intros x y Rx _ Hx Hy. rewrite <- Rx at 2. apply Hm. rewrite <- (Rmult_1_r x) at 2. apply Rmult_le_compat_l; auto.
    rewrite <- Z1. apply Hm. rewrite <- Rinv_1. apply Rinv_le_contravar; lra.
Qed.
(** Left to right, and in pairs. *)
Fixpoint comb (n : nat) : tree := match n with O => Leaf 0 | S n => Node (comb n) (Leaf (S n)) end.
Lemma left_to_right : orders (fun n => comb (n - 1)).
Proof.
  intros n Hn. destruct n; [lia|]. simpl Nat.sub. rewrite Nat.sub_0_r. clear. induction n; [auto|].
  rewrite seq_S. apply Permutation_app; auto.
Qed.
Lemma pairs : orders (fun n => match n with 4%nat => Node (Node (Leaf 0) (Leaf 1)) (Node (Leaf 2) (Leaf 3)) | _ => comb (n - 1) end).
Proof. intros n Hn. destruct n as [|[|[|[|[|n]]]]]; exact (left_to_right _ Hn). Qed.

Notation double := (round radix2 (FLT_exp (-1074) 53) ZnearestE).
Notation single := (round radix2 (FLT_exp (-149) 24) ZnearestE).
Example C81_double : rounding (2 ^ 53) double. Proof. apply nearest_rounding; lia. Qed.
Example C81_single : rounding (2 ^ 24) single. Proof. apply nearest_rounding; lia. Qed.
(** A million particles, 100 profiles of 500 bins, 20 iterations fit single precision. *)
Example C81_sizes : sizes_fit (2 ^ 24) (2 ^ 127) 24 (Z.to_nat 1000000) 100 500 20.
Proof.
  unfold sizes_fit. repeat split; try lia.
  replace 127%nat with (5 * 24 + 7)%nat by lia. rewrite pow_add. assert (0 < 2 ^ (5 * 24)) by (apply pow_lt; lra).
  assert (1 <= 2 ^ 7) by (apply pow_R1_Rle; lra). nra.
Qed.
Notation C81_xp := ([[0; 0]; [0; 1]]%Z).
Notation C81_wf := ([[1; 0]; [/ 2; / 2]]).
Lemma half : representable double (/ 2).
Proof.
  apply round_generic. apply valid_rnd_N. replace (/ 2) with (bpow radix2 (-1)) by (simpl; lra).
  apply generic_format_FLT_bpow; [unfold Prec_gt_0|]; lia.
Qed.
Example C81_ex_profiles : profiles_ok double 2 2 C81_wf.
Proof.
  assert (Z0 : representable double 0) by apply round_0, valid_rnd_N.
  assert (Z1 : representable double 1) by (assert (K := rnd_int _ _ C81_double 1 0 ltac:(lia)); simpl in K; rewrite Rmult_1_r in K; exact K).
  split; [split; [reflexivity|repeat constructor]|]. repeat constructor; try lra; try exact Z0; try exact Z1; exact half.
Qed.
Example C81_ex_xp : xp_ok 2 2 (Some C81_xp).
Proof. repeat constructor; simpl; lia. Qed.
Example C81_ex_sizes : sizes_fit (2 ^ 53) (2 ^ 1023) 4 (length C81_xp) 2 2 0.
Proof.
  unfold sizes_fit. simpl length. repeat split; try (simpl; lia). replace 1023%nat with (5 * 4 + 1003)%nat by lia. rewrite pow_add.
  assert (0 < 2 ^ (5 * 4)) by (apply pow_lt; lra). assert (1 <= 2 ^ 1003) by (apply pow_R1_Rle; lra). nra.
Qed.
Notation C81_arith := (rounded double double (2 ^ 1023) (fun x y => double (x / y)) (fun n => comb (n - 1))).
Notation C81_threads := (fun _ : nat => ordered_sum double (2 ^ 1023) (fun n => comb (n - 1))).
Lemma C81_ex_threads : thread_sums double (2 ^ 1023) C81_threads.
Proof. exists (fun _ n => comb (n - 1)). split; [intros _; exact left_to_right|reflexivity]. Qed.
Example C81_ex : exists s, reconstructA C81_arith C81_threads (concat C81_xp) (concat C81_wf) 0 2 2 2 = Ok s /\
  finite_result double 4 2 2 2 0 (f_weights s) (f_rec s) (f_discr s).
Proof.
  assert (D := division _ _ C81_double ltac:(lia)).
  destruct (C83_blank_lem double double (2 ^ 1023) _ _ (2 ^ 53) 4 C81_threads C81_xp C81_wf 2 2 0 C81_double C81_double D left_to_right
    C81_ex_threads C81_ex_sizes C81_ex_xp C81_ex_profiles) as [_ K].
  destruct K as [s E]; [exists 0%nat, 0%nat; split; [simpl; lia|]; split; [lia|]; unfold charge_seen, bin_of; simpl; lra|reflexivity|].
  exists s. split; [exact E|].
  assert (F := C81_finite_lem double double (2 ^ 1023) _ _ (2 ^ 53) 4 C81_threads C81_xp C81_wf 2 2 0 C81_double C81_double D left_to_right
    C81_ex_threads C81_ex_sizes C81_ex_xp C81_ex_profiles).
  cbv zeta in E. rewrite E in F. exact F.
Qed.
(** Right to left, for the sums over the threads. *)
Fixpoint mirrored (t : tree) : tree := match t with Leaf i => Leaf i | Node a b => Node (mirrored b) (mirrored a) end.
Lemma right_to_left : orders (fun n => mirrored (comb (n - 1))).
Proof.
  intros n Hn. eapply perm_trans; [|exact (left_to_right n Hn)]. cbv beta. generalize (comb (n - 1)). clear.
  induction t; simpl; [apply Permutation_refl|]. eapply perm_trans; [apply Permutation_app_comm|]. apply Permutation_app; auto.
Qed.
Example C82_ex : reconstructA C81_arith C81_threads (concat C81_xp) (concat C81_wf) 0 2 2 2 =
  reconstructA C81_arith (fun _ : nat => ordered_sum double (2 ^ 1023) (fun n => mirrored (comb (n - 1)))) (concat C81_xp) (concat C81_wf) 0 2 2 2.
Proof.
  apply (C82_reproducible_lem double double (2 ^ 1023) _ _ (2 ^ 53) 4 C81_threads
    (fun _ : nat => ordered_sum double (2 ^ 1023) (fun n => mirrored (comb (n - 1)))) C81_xp C81_wf 2 2 0 C81_double C81_double
    (division _ _ C81_double ltac:(lia)) left_to_right C81_ex_threads); [|exact C81_ex_sizes|exact C81_ex_xp|exact C81_ex_profiles].
  exists (fun _ n => mirrored (comb (n - 1))). split; [intros _; exact right_to_left|reflexivity].
Qed.
(** The second particle sees no charge. *)
Notation C83_xp := ([[0; 0]; [1; 1]]%Z).
Notation C83_wf := ([[1; 0]; [1; 0]]).
Example C83_ex : exists s, reconstructA C81_arith C81_threads (concat C83_xp) (concat C83_wf) 0 2 2 2 = Ok s /\
  nth_error (f_weights s : list R) 1 = Some 0.
Proof.
  assert (D := division _ _ C81_double ltac:(lia)).
  assert (X : xp_ok 2 2 (Some C83_xp)) by (repeat constructor; simpl; lia).
  assert (Z0 : representable double 0) by apply round_0, valid_rnd_N.
  assert (Z1 : representable double 1) by (assert (K := rnd_int _ _ C81_double 1 0 ltac:(lia)); simpl in K; rewrite Rmult_1_r in K; exact K).
  assert (P : profiles_ok double 2 2 C83_wf).
  { split; [split; [reflexivity|repeat constructor]|]. repeat constructor; try lra; try exact Z0; exact Z1. }
  destruct (C83_blank_lem double double (2 ^ 1023) _ _ (2 ^ 53) 4 C81_threads C83_xp C83_wf 2 2 0 C81_double C81_double D left_to_right
    C81_ex_threads C81_ex_sizes X P) as [_ K].
  destruct K as [s E]; [exists 0%nat, 0%nat; split; [simpl; lia|]; split; [lia|]; unfold charge_seen, bin_of; simpl; lra|reflexivity|].
  exists s. split; [exact E|].
  apply (C83_unseen_lem double double (2 ^ 1023) _ _ (2 ^ 53) 4 C81_threads C83_xp C83_wf 2 2 0 s 1 C81_double C81_double D left_to_right
    C81_ex_threads C81_ex_sizes X P E); [simpl; lia|]. intros j Hj. destruct j as [|[|j]]; [reflexivity|reflexivity|lia].
Qed.
(*XE*)

(** C84.  Every recreated profile sums to 1 up to rounding: twice the number of
    bins times the relative error of one operation. *)
Lemma C84_normalized_lem : forall rnd wide huge quot order M e u tiny reduce xp wf nprof nbins niter s,
  rounding M rnd -> rounding M wide -> quotient rnd quot -> orders order -> thread_sums rnd huge reduce ->
  accurate u tiny rnd quot -> 0 <= u < 1 -> 2 * INR nbins * u <= 1 ->
  sizes_fit M huge e (length xp) nprof nbins niter -> xp_ok nprof nbins (Some xp) -> profiles_ok rnd nprof nbins wf ->
  reconstructA (rounded rnd wide huge quot order) reduce (concat xp) (concat wf) niter nbins (length xp) nprof = Ok s ->
  Forall (fun row => Rabs (rsum row - 1) <= 2 * INR nbins * u + INR nbins * tiny) (chunk nprof nbins (f_rec s : list R)).
Proof.
  intros rnd wide huge quot order M e u tiny reduce xp wf nprof nbins niter s Hr Hw Hq Ho Ht Ha Hu Hu2 Hs Hx Hp E.
  destruct (run_f rnd wide huge quot order M e xp wf nprof nbins niter Hr Hw Hq Ho Hs Hx Hp) as (r & R1 & R2 & _).
  rewrite (R1 reduce Ht) in E. subst r. destruct R2 as [[lw w0 p0 u0 lr r0 ld d0 ldf] Rows].
  destruct Hs as (H1 & H2 & _ & _ & _ & HM & _).
  assert (Z0 : rnd 0 = 0).
  { assert (K := rnd_int _ _ Hr 0 0). rewrite Rmult_0_l in K. apply K. assert (Q : (0 < 2 ^ Z.of_nat e)%Z) by (apply Z.pow_pos_nonneg; lia). simpl. lia. }
  assert (Ef : (f_rec s : list R) = tab (nprof * nbins) (fl nbins (fun j b => nth (j * nbins + b) (f_rec s : list R) 0))).
  { apply (nth_error_ext_len R); [rewrite tab_length; auto|]. intros c Hc. cbn [num rounded] in *. rewrite lr in Hc. rewrite nth_error_tab by auto.
    destruct (flat_of _ _ _ Hc) as (j & b & Hj & Hb & ->). rewrite fl_at by auto. apply nth_error_nth'. rewrite lr. auto. }
  rewrite Ef, chunk_tab. apply Forall_forall. intros row Hi. apply in_tab in Hi. destruct Hi as (j & Hj & <-).
  destruct (Rows j Hj) as (l & t & Ll & Pt & Et & Bl & Ql).
  rewrite <- Ll in Hu2 |- *. eapply (normalized_acc u tiny rnd quot huge Ha (rnd_mono _ _ Hr) (rnd_idem _ _ Hr) Z0 Hu order l t); auto; [lia| |].
  - intros b Hb. apply Bl. lia.
  - apply (nth_ext _ _ 0 0); [rewrite tab_length, map_length; auto|]. intros b Hb. rewrite tab_length in Hb.
    transitivity (quot (nth b l 0) t).
    + apply nth_error_nth. rewrite nth_error_tab by auto. f_equal. rewrite Ll in *. apply Ql. auto.
    + symmetry. rewrite (nth_indep _ 0 (quot 0 t)) by (rewrite map_length; auto). apply (map_nth (fun x => quot x t)).
Qed.
(*EX*)
Lemma below_one : forall n, bpow radix2 (- Z.of_nat n) = / 2 ^ n.
Proof. intros. rewrite bpow_opp, bpow_powerRZ, <- pow_powerRZ. reflexivity. Qed.
Example C84_double : accurate (/ 2 ^ 53) (/ 2 ^ 1075) double (fun x y => double (x / y)).
Proof.
  split.
  - intros x y Rx Ry Hx Hy.
    assert (Fx : generic_format radix2 (FLT_exp (-1074) 53) x) by (rewrite <- Rx; apply generic_format_round; [apply FLT_exp_valid; unfold Prec_gt_0; lia|apply valid_rnd_N]).
    assert (Fy : generic_format radix2 (FLT_exp (-1074) 53) y) by (rewrite <- Ry; apply generic_format_round; [apply FLT_exp_valid; unfold Prec_gt_0; lia|apply valid_rnd_N]).
    assert (Hp : Prec_gt_0 53) by (unfold Prec_gt_0; lia).
    destruct (FLT_plus_error_N_ex radix2 (-1074) 53 (fun x => negb (Z.even x)) x y Fx Fy) as (eps & He & E).
    rewrite E. replace ((x + y) * (1 + eps) - (x + y)) with (eps * (x + y)) by ring. rewrite Rabs_mult, (Rabs_right (x + y)) by lra.
    apply Rmult_le_compat_r; [lra|]. eapply Rle_trans; [exact He|].
    assert (U : u_ro radix2 53 = / 2 ^ 53). { unfold u_ro. rewrite bpow_plus. change (bpow radix2 1) with 2. rewrite (below_one 53 : bpow radix2 (-(53)) = / 2 ^ 53). lra. }
    rewrite U. assert (0 < / 2 ^ 53) by (apply Rinv_0_lt_compat, pow_lt; lra). apply (Rmult_le_reg_r (1 + / 2 ^ 53)); [lra|].
    unfold Rdiv. rewrite Rmult_assoc, Rinv_l by lra. nra.
  - intros x y _ _ Hx Hy. assert (Hp : Prec_gt_0 53) by (unfold Prec_gt_0; lia).
    assert (Q : 0 <= x / y) by (apply Rmult_le_pos; [auto|apply Rlt_le, Rinv_0_lt_compat; auto]).
    destruct (error_N_FLT radix2 (-1074) 53 Hp (fun x => negb (Z.even x)) (x / y)) as (eps & eta & H1 & H2 & _ & H4).
    rewrite H4. replace (x / y * (1 + eps) + eta - x / y) with (eps * (x / y) + eta) by ring. eapply Rle_trans; [apply Rabs_triang|].
    rewrite Rabs_mult, (Rabs_right (x / y)) by lra. apply Rplus_le_compat.
    + apply Rmult_le_compat_r; auto. eapply Rle_trans; [exact H1|]. right. rewrite bpow_plus. change (bpow radix2 1) with 2.
      rewrite (below_one 53 : bpow radix2 (-(53)) = / 2 ^ 53). lra.
    + eapply Rle_trans; [exact H2|]. right. rewrite (below_one 1074 : bpow radix2 (-1074) = / 2 ^ 1074). replace (2 ^ 1075) with (2 * 2 ^ 1074) by reflexivity. rewrite Rinv_mult. lra.
Qed.
Example C84_ex : exists s, reconstructA C81_arith C81_threads (concat C81_xp) (concat C81_wf) 0 2 2 2 = Ok s /\
  Forall (fun row => Rabs (rsum row - 1) <= 5 / 2 ^ 53) (chunk 2 2 (f_rec s : list R)).
Proof.
  destruct C81_ex as (s & E & _). exists s. split; auto.
  assert (D := division _ _ C81_double ltac:(lia)).
  assert (P : 0 < / 2 ^ 53 <= / 8).
  { split; [apply Rinv_0_lt_compat, pow_lt; lra|]. apply Rinv_le_contravar; [lra|]. replace 8 with (2 ^ 3) by lra. apply Rle_pow; [lra|lia]. }
  assert (T : / 2 ^ 1075 <= / 2 ^ 53 / 4).
  { replace 1075%nat with (53 + (2 + 1020))%nat by lia. rewrite !pow_add, !Rinv_mult. assert (/ 2 ^ 1020 <= 1) by (rewrite <- Rinv_1; apply Rinv_le_contravar; [lra|apply pow_R1_Rle; lra]).
    assert (0 < / 2 ^ 1020) by (apply Rinv_0_lt_compat, pow_lt; lra). replace (/ 2 ^ 2) with (/ 4) by (simpl; lra). nra. }
  assert (F := C84_normalized_lem double double (2 ^ 1023) _ _ (2 ^ 53) 4 (/ 2 ^ 53) (/ 2 ^ 1075) C81_threads C81_xp C81_wf 2 2 0 s C81_double C81_double D left_to_right
    C81_ex_threads C84_double ltac:(lra) ltac:(simpl INR; lra) C81_ex_sizes C81_ex_xp C81_ex_profiles E).
  eapply Forall_impl; [|exact F]. intros row H. cbn beta in H. eapply Rle_trans; [exact H|]. simpl INR. lra.
Qed.
(*XE*)
