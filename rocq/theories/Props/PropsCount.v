(** Theorems on the number of particles in a bin with rounding (C92).
    Statements only: each theorem is closed by the lemma of the same name in
    Proof/CCount.v.  Written by tools/mkprops.py. *)
From Coq Require Import Reals ZArith List QArith Qcanon.
From Verif Require Import Base.Res Base.QcLib Model.MRecon Model.MFloat Spec.TomoSpec Spec.ReconSpec Spec.FloatSpec.
Import ListNotations.
Local Open Scope R_scope.
From Verif Require Import Proof.CCount.

(** C92.  With rounding the number of particles counted in a bin is the number
    of particles, but not more than the largest integer M up to which all are
    exact, if that number plus one is rounded to itself. *)
Theorem C92_counts : forall rnd wide huge quot order M xp nprof nbins,
  rounding M rnd -> rnd (IZR M + 1) = IZR M -> (1 <= M)%Z -> IZR M <= huge -> xp_ok nprof nbins (Some xp) ->
  exists l : list R, countA (rounded rnd wide huge quot order) (repeat 0 (nprof * nbins)) (concat xp) nprof (length xp) nbins = Ok l /\
    length l = (nprof * nbins)%nat /\
    forall j b, (j < nprof)%nat -> (b < nbins)%nat ->
      nth (j * nbins + b) l 0 = IZR (Z.min (Z.of_nat (count (length xp) (bin_of xp) j b)) M).
Proof. exact C92_counts_lem. Qed.
Print Assumptions C92_counts.

(** C92.  So it is exact as long as no bin holds more than M particles. *)
Theorem C92_exact_partial : forall rnd wide huge quot order M xp nprof nbins,
  rounding M rnd -> rnd (IZR M + 1) = IZR M -> (1 <= M)%Z -> IZR M <= huge -> xp_ok nprof nbins (Some xp) ->
  (forall j b, (j < nprof)%nat -> (b < nbins)%nat -> (Z.of_nat (count (length xp) (bin_of xp) j b) <= M)%Z) ->
  exists l : list R, countA (rounded rnd wide huge quot order) (repeat 0 (nprof * nbins)) (concat xp) nprof (length xp) nbins = Ok l /\
    forall j b, (j < nprof)%nat -> (b < nbins)%nat -> nth (j * nbins + b) l 0 = INR (count (length xp) (bin_of xp) j b).
Proof. exact C92_exact_partial_lem. Qed.
Print Assumptions C92_exact_partial.

(** C92.  It is wrong for every bin with more particles; and bins with different
    numbers of them are taken to hold the same. *)
Theorem C92_refuted : forall rnd wide huge quot order M xp nprof nbins,
  rounding M rnd -> rnd (IZR M + 1) = IZR M -> (1 <= M)%Z -> IZR M <= huge -> xp_ok nprof nbins (Some xp) ->
  exists l : list R, countA (rounded rnd wide huge quot order) (repeat 0 (nprof * nbins)) (concat xp) nprof (length xp) nbins = Ok l /\
    forall j b, (j < nprof)%nat -> (b < nbins)%nat -> (M < Z.of_nat (count (length xp) (bin_of xp) j b))%Z ->
      nth (j * nbins + b) l 0 = IZR M /\ nth (j * nbins + b) l 0 < INR (count (length xp) (bin_of xp) j b).
Proof. exact C92_refuted_lem. Qed.
Print Assumptions C92_refuted.

(** C92.  The compensation factors are computed from these numbers: bins with
    more than M particles all get the same factor. *)
Theorem C92_compensation : forall rnd wide huge quot order M xp nprof nbins,
  rounding M rnd -> rnd (IZR M + 1) = IZR M -> (1 <= M)%Z -> IZR M <= huge -> quotient rnd quot -> xp_ok nprof nbins (Some xp) ->
  let n := count (length xp) (bin_of xp) in
  let top := max_count (length xp) nprof nbins (bin_of xp) in
  exists l : list R, reciprocalA (rounded rnd wide huge quot order) (repeat 0 (nprof * nbins)) (concat xp) nbins nprof (length xp) = Ok l /\
    forall j b, (j < nprof)%nat -> (b < nbins)%nat ->
      nth (j * nbins + b) l 0 = quot (IZR (Z.min (Z.of_nat top) M)) (IZR (Z.min (Z.max 1 (Z.of_nat (n j b))) M)).
Proof. exact C92_compensation_lem. Qed.
Print Assumptions C92_compensation.

From Coq Require Import Lia Lra.
From Flocq Require Import Core.
(** Rounding to nearest, ties to even, stays at 2^digits. *)
Lemma nearest_stays : forall digits emin, (2 <= digits)%Z -> (emin <= 1)%Z ->
  round radix2 (FLT_exp emin digits) ZnearestE (IZR (2 ^ digits) + 1) = IZR (2 ^ digits).
Proof.
  intros d emin Hd He. assert (B : IZR (2 ^ d) = bpow radix2 d) by (rewrite <- (IZR_Zpower radix2) by lia; reflexivity).
  assert (B1 : IZR (2 ^ (d - 1)) = bpow radix2 (d - 1)) by (rewrite <- (IZR_Zpower radix2) by lia; reflexivity).
  assert (T : bpow radix2 d = bpow radix2 (d - 1) * 2). { replace d with (d - 1 + 1)%Z at 1 by lia. rewrite bpow_plus. reflexivity. }
  assert (P : 1 < bpow radix2 d). { change 1 with (bpow radix2 0). apply bpow_lt. lia. }
  assert (G : mag radix2 (IZR (2 ^ d) + 1) = (d + 1)%Z :> Z).
  { apply mag_unique_pos. rewrite B. replace (d + 1 - 1)%Z with d by lia. rewrite bpow_plus. change (bpow radix2 1) with 2. lra. }
  unfold round, scaled_mantissa, cexp. rewrite G. unfold FLT_exp. replace (Z.max (d + 1 - d) emin) with 1%Z by lia.
  assert (X : (IZR (2 ^ d) + 1) * bpow radix2 (- 1) = IZR (2 ^ (d - 1)) + / 2).
  { rewrite B, B1, T. change (bpow radix2 (- 1)) with (/ 2). field. }
  change (- (1))%Z with (-1)%Z. change (- 1)%Z with (-1)%Z in X. rewrite X. assert (F : Zfloor (IZR (2 ^ (d - 1)) + / 2) = (2 ^ (d - 1))%Z) by (apply Zfloor_imp; rewrite plus_IZR; lra).
  unfold Znearest. rewrite F. replace (IZR (2 ^ (d - 1)) + / 2 - IZR (2 ^ (d - 1))) with (/ 2) by ring. rewrite Rcompare_Eq by auto.
  replace (d - 1)%Z with (Z.succ (d - 2)) at 1 by lia. rewrite Z.pow_succ_r by lia. rewrite Z.even_mul. cbn [Z.even orb negb].
  unfold F2R. cbn [Fnum Fexp]. rewrite B1, B, T. reflexivity.
Qed.
Example C92_single : round radix2 (FLT_exp (-149) 24) ZnearestE (IZR (2 ^ 24) + 1) = IZR (2 ^ 24). Proof. apply nearest_stays; lia. Qed.
Example C92_double : round radix2 (FLT_exp (-1074) 53) ZnearestE (IZR (2 ^ 53) + 1) = IZR (2 ^ 53). Proof. apply nearest_stays; lia. Qed.
(** A bin with n particles, for every n. *)
Example C92_particles : forall n, xp_ok 1 1 (Some (repeat [0%Z] n)) /\ count (length (repeat [0%Z] n)) (bin_of (repeat [0%Z] n)) 0 0 = n.
Proof.
  intros n. split.
  - split; [split; [reflexivity|]|]; apply Forall_forall; intros r H; apply repeat_spec in H; subst; repeat constructor; discriminate.
  - rewrite repeat_length. unfold count. rewrite (filter_ext _ (fun _ => true)).
    + assert (F : forall l : list nat, filter (fun _ => true) l = l) by (induction l; simpl; congruence). rewrite F. apply seq_length.
    + intros i. unfold bin_of. assert (E : nth i (repeat [0%Z] n) [] = [0%Z] \/ nth i (repeat [0%Z] n) [] = []).
      { destruct (nth_in_or_default i (repeat [0%Z] n) []) as [H|H]; [left; exact (repeat_spec _ _ _ H)|right; exact H]. }
      destruct E as [-> | ->]; reflexivity.
Qed.
