(** Lemmas on the formats of numbers and on lines and words. *)
From Coq Require Import List ZArith Bool QArith Qcanon Qcabs String Ascii Lia.
From Verif Require Import Base.Res Base.ResLemmas Base.QcLib Base.QcLemmas Model.MOutput Spec.OutputSpec.
Import ListNotations.
Local Open Scope Qc_scope.

(** ** Strings *)
Lemma app_assoc_s a b c : ((a ++ b) ++ c = a ++ (b ++ c))%string.
Proof. induction a; cbn; congruence. Qed.
Lemma app_nil_s a : (a ++ "" = a)%string.
Proof. induction a; cbn; congruence. Qed.
Lemma app_inj_s a b c : (a ++ b = a ++ c)%string -> b = c.
Proof. induction a; cbn; intro H; [exact H|]. injection H. auto. Qed.
Lemma length_app_s a b : String.length (a ++ b) = (String.length a + String.length b)%nat.
Proof. induction a; cbn; congruence. Qed.
Lemma app_inj_len a b c d : String.length a = String.length b -> (a ++ c = b ++ d)%string -> a = b /\ c = d.
Proof.
  revert b. induction a as [|x a IH]; intros [|y b]; cbn; try discriminate; intros L H; [auto|].
  injection H as -> H. injection L as L. destruct (IH b L H). subst. auto.
Qed.
Lemma app_tail_inj a b c : (a ++ c = b ++ c)%string -> a = b.
Proof.
  intro H. assert (L : String.length (a ++ c) = String.length (b ++ c)) by congruence.
  rewrite !length_app_s in L. apply (app_inj_len a b c c); [lia|exact H].
Qed.

(** ** Digits *)
Lemma digit_value_digit d : (0 <= d < 10)%Z -> digit_value (digit d) = Some d.
Proof.
  intro H. assert (C : (d = 0 \/ d = 1 \/ d = 2 \/ d = 3 \/ d = 4 \/ d = 5 \/ d = 6 \/ d = 7 \/ d = 8 \/ d = 9)%Z) by lia.
  repeat destruct C as [->|C]; try reflexivity. subst. reflexivity.
Qed.
Lemma digs_length k : forall n, String.length (digs k n) = k.
Proof. induction k as [|k IH]; intro n; cbn [digs]; [reflexivity|]. rewrite length_app_s, IH. cbn. lia. Qed.
Lemma read_digs k : forall n acc j rest, (0 <= n)%Z ->
  read_digits acc j (digs k n ++ rest) = read_digits (acc * 10 ^ Z.of_nat k + n mod 10 ^ Z.of_nat k)%Z (j + k) rest.
Proof.
  induction k as [|k IH]; intros n acc j rest N.
  - cbn [digs append]. f_equal; [|lia]. cbn. rewrite Z.mod_1_r. lia.
  - cbn [digs]. rewrite app_assoc_s. rewrite IH by (apply Z.div_pos; lia). cbn [append read_digits].
    rewrite digit_value_digit by (apply Z.mod_pos_bound; lia).
    f_equal; [|lia]. rewrite Nat2Z.inj_succ, Z.pow_succ_r by lia.
    rewrite (Z.rem_mul_r n 10) by (try apply Z.pow_pos_nonneg; lia). ring.
Qed.
Definition no_digit (s : string) : Prop := match s with EmptyString => True | String c _ => digit_value c = None end.
Lemma read_stop acc k s : no_digit s -> read_digits acc k s = (acc, k, s).
Proof. destruct s; cbn; [reflexivity|]. intros ->. reflexivity. Qed.

Lemma ndig_fuel f : forall n, (0 <= n < 2 ^ Z.of_nat (S f))%Z ->
  (n < 10 ^ Z.of_nat (ndig_ f n) /\ (1 <= ndig_ f n)%nat /\ (n = 0 \/ 10 ^ (Z.of_nat (ndig_ f n) - 1) <= n))%Z.
Proof.
  induction f as [|f IH]; intros n N.
  - cbn [ndig_]. change (Z.of_nat 1) with 1%Z in *. rewrite Z.pow_1_r in *. cbn. lia.
  - cbn [ndig_]. destruct (Z.ltb_spec n 10) as [L|L].
    + change (Z.of_nat 1) with 1%Z. rewrite Z.pow_1_r. cbn. lia.
    + assert (B : (0 <= n / 10 < 2 ^ Z.of_nat (S f))%Z).
      { split; [apply Z.div_pos; lia|]. apply Z.div_lt_upper_bound; [lia|].
        rewrite Nat2Z.inj_succ, Z.pow_succ_r in N by lia. lia. }
      destruct (IH _ B) as (U & P & D). set (k := ndig_ f (n / 10)) in *. clearbody k.
      assert (E := Z.div_mod n 10 ltac:(lia)). assert (M := Z.mod_pos_bound n 10 ltac:(lia)).
      split; [|split; [lia|]].
      * rewrite Nat2Z.inj_succ, Z.pow_succ_r by lia. lia.
      * right. destruct D as [D|D]; [lia|].
        replace (Z.of_nat (S k) - 1)%Z with (Z.succ (Z.of_nat k - 1)) by lia. rewrite Z.pow_succ_r by lia. lia.
Qed.
Lemma ndig_spec n : (0 <= n)%Z ->
  (n < 10 ^ Z.of_nat (ndig n) /\ (1 <= ndig n)%nat /\ (n = 0 \/ 10 ^ (Z.of_nat (ndig n) - 1) <= n))%Z.
Proof.
  intro N. apply ndig_fuel. split; [exact N|].
  destruct (Z.eq_dec n 0) as [->|NZ]; [reflexivity|].
  rewrite Nat2Z.inj_succ, Z2Nat.id by (apply Z.log2_nonneg). apply Z.log2_spec. lia.
Qed.
Lemma pow10_mono a b : (a <= b)%nat -> (10 ^ Z.of_nat a <= 10 ^ Z.of_nat b)%Z.
Proof. intro. apply Z.pow_le_mono_r; lia. Qed.
Lemma ndig_unique n k : (1 <= k)%nat -> (n < 10 ^ Z.of_nat k)%Z -> (10 ^ (Z.of_nat k - 1) <= n)%Z -> ndig n = k.
Proof.
  intros K U L. assert (P : (0 < 10 ^ (Z.of_nat k - 1))%Z) by (apply Z.pow_pos_nonneg; lia).
  destruct (ndig_spec n ltac:(lia)) as (A & B & [C|C]); [lia|].
  destruct (lt_eq_lt_dec (ndig n) k) as [[H|H]|H]; [exfalso|exact H|exfalso].
  - assert (Q := pow10_mono (ndig n) (k - 1) ltac:(lia)). rewrite Nat2Z.inj_sub in Q by lia. cbn in Q. lia.
  - assert (Q := pow10_mono k (ndig n - 1) ltac:(lia)). rewrite Nat2Z.inj_sub in Q by lia. cbn in Q. lia.
Qed.

(** ** Numbers that are read *)
Lemma read_padded k n rest : (0 <= n)%Z -> (n < 10 ^ Z.of_nat k)%Z -> no_digit rest ->
  read_digits 0 0 (digs k n ++ rest) = (n, k, rest).
Proof. intros N B S. rewrite read_digs by exact N. rewrite read_stop by exact S. rewrite Z.mod_small by lia. reflexivity. Qed.
Lemma ndig_max w n : (0 <= n)%Z -> (n < 10 ^ Z.of_nat (Nat.max w (ndig n)))%Z.
Proof. intro N. destruct (ndig_spec n N) as (A & _). assert (Q := pow10_mono (ndig n) (Nat.max w (ndig n)) ltac:(lia)). lia. Qed.

Lemma fmt_0wd_inj w a b : fmt_0wd w a = fmt_0wd w b -> a = b.
Proof.
  assert (R : forall w n, (0 <= n)%Z -> read_digits 0 0 (digs (Nat.max w (ndig n)) n) = (n, Nat.max w (ndig n), EmptyString)).
  { intros w' n N. rewrite <- (app_nil_s (digs _ _)). apply read_padded; [exact N|apply ndig_max; exact N|exact I]. }
  assert (M : forall w n r, (0 <= n)%Z -> digs (Nat.max w (ndig n)) n = String "-" r -> False).
  { intros w' n r N E. specialize (R w' n N). rewrite E in R. cbn in R. injection R as _ R. 
    destruct (ndig_spec n N) as (_ & K & _). lia. }
  unfold fmt_0wd. destruct (Z.ltb_spec a 0) as [A|A]; destruct (Z.ltb_spec b 0) as [B|B]; intro E.
  - injection E as E. assert (Ra := R (w - 1)%nat (- a)%Z ltac:(lia)). rewrite E, R in Ra by lia. injection Ra as Ra _. lia.
  - exfalso. symmetry in E. exact (M _ _ _ B E).
  - exfalso. exact (M _ _ _ A E).
  - assert (Ra := R w a A). rewrite E, R in Ra by lia. injection Ra as Ra _. congruence.
Qed.

(** ** Powers of ten *)
Ltac fld := field; repeat split; first [discriminate | solve [auto with qc]].
Lemma qz_pow k : qz (10 ^ Z.of_nat k) = qz 10 ^ k.
Proof.
  induction k as [|k IH]; [reflexivity|]. rewrite Nat2Z.inj_succ, Z.pow_succ_r by lia. rewrite qz_mul, IH. reflexivity.
Qed.
Lemma tpow_pos k : 0 < qz 10 ^ k.
Proof. rewrite <- qz_pow, <- qz_0. apply qz_lt. apply Z.pow_pos_nonneg; lia. Qed.
Lemma zpow_pos e : (0 <= e)%Z -> 0 < qz (10 ^ e).
Proof. intro. rewrite <- qz_0. apply qz_lt. apply Z.pow_pos_nonneg; lia. Qed.
Lemma p10_pos e : 0 < p10 e.
Proof. unfold p10. destruct (Z.ltb_spec e 0); [apply Qcinv_pos|]; apply zpow_pos; lia. Qed.
Lemma p10_nat k : p10 (Z.of_nat k) = qz 10 ^ k.
Proof. unfold p10. destruct (Z.ltb_spec (Z.of_nat k) 0); [lia|]. apply qz_pow. Qed.
Lemma p10_ge a : (0 <= a)%Z -> p10 a = qz (10 ^ a).
Proof. intro. unfold p10. destruct (Z.ltb_spec a 0); [lia|reflexivity]. Qed.
Lemma p10_opp a : p10 (- a) = / p10 a.
Proof.
  unfold p10. destruct (Z.ltb_spec (- a) 0) as [A|A]; destruct (Z.ltb_spec a 0) as [B|B]; try lia.
  - rewrite Z.opp_involutive. reflexivity.
  - assert (P := zpow_pos (- a) ltac:(lia)). fld.
  - replace a with 0%Z by lia. reflexivity.
Qed.
Lemma p10_succ a : p10 (a + 1) = qz 10 * p10 a.
Proof.
  destruct (Z_le_gt_dec 0 a) as [A|A].
  - rewrite !p10_ge by lia. rewrite Z.pow_add_r by lia. rewrite Z.pow_1_r, qz_mul. ring.
  - replace (a + 1)%Z with (- (- a - 1))%Z by lia. replace (p10 a) with (p10 (- - a)) by (f_equal; lia).
    rewrite (p10_opp (- a - 1)), (p10_opp (- a)). rewrite !p10_ge by lia.
    assert (E : qz (10 ^ (- a)) = qz 10 * qz (10 ^ (- a - 1))).
    { rewrite <- qz_mul. f_equal. replace (- a)%Z with (Z.succ (- a - 1)) at 1 by lia. apply Z.pow_succ_r. lia. }
    rewrite E. assert (P := zpow_pos (- a - 1) ltac:(lia)). set (u := qz (10 ^ (- a - 1))) in *. fld.
Qed.
Lemma p10_add a b : p10 (a + b) = p10 a * p10 b.
Proof.
  assert (N : forall k, p10 (a + Z.of_nat k) = p10 a * p10 (Z.of_nat k)).
  { induction k as [|k IH].
    - change (p10 (Z.of_nat 0)) with (Q2Qc 1). replace (a + Z.of_nat 0)%Z with a by lia. ring.
    - rewrite Nat2Z.inj_succ. unfold Z.succ. rewrite Z.add_assoc, !p10_succ, IH. ring. }
  destruct (Z_le_gt_dec 0 b) as [B|B].
  - rewrite <- (Z2Nat.id b B). apply N.
  - assert (M : forall k a, p10 (a - Z.of_nat k) = p10 a / p10 (Z.of_nat k)).
    { clear. induction k as [|k IH]; intro a.
      - change (p10 (Z.of_nat 0)) with (Q2Qc 1). replace (a - Z.of_nat 0)%Z with a by lia. field. discriminate.
      - assert (E := p10_succ (a - Z.of_nat (S k))). replace (a - Z.of_nat (S k) + 1)%Z with (a - Z.of_nat k)%Z in E by lia.
        rewrite IH in E. rewrite Nat2Z.inj_succ. rewrite Nat2Z.inj_succ in E. unfold Z.succ in *. rewrite p10_succ.
        assert (P := p10_pos (Z.of_nat k)).
        assert (T : qz 10 * (p10 (a - (Z.of_nat k + 1)) - p10 a / (qz 10 * p10 (Z.of_nat k))) = 0).
        { rewrite Qcmult_comm. unfold Qcminus. rewrite Qcmult_plus_distr_l. rewrite (Qcmult_comm _ (qz 10)), <- E. fld. }
        apply Qcmul_eq_0 in T. destruct T as [T|T]; [discriminate|]. apply (f_equal (fun v => v + p10 a / (qz 10 * p10 (Z.of_nat k)))) in T.
        replace (p10 (a - (Z.of_nat k + 1)) - p10 a / (qz 10 * p10 (Z.of_nat k)) + p10 a / (qz 10 * p10 (Z.of_nat k))) with (p10 (a - (Z.of_nat k + 1))) in T by ring.
        rewrite T. ring. }
    replace b with (- Z.of_nat (Z.to_nat (- b)))%Z by lia. rewrite p10_opp. apply M.
Qed.

(** ** Rounding *)
Lemma round_even_bound x : Qcabs (qz (round_even x) - x) * qz 2 <= 1.
Proof.
  destruct (qfloor_spec x) as [A B]. unfold round_even. cbv zeta. set (f := qfloor x) in *.
  assert (H2 : qq 1 2 * qz 2 = 1) by (apply Qc_is_canon; reflexivity).
  assert (U : forall z, qz z - x <= qq 1 2 -> x - qz z <= qq 1 2 -> Qcabs (qz z - x) * qz 2 <= 1).
  { intros z U1 U2. rewrite <- H2. apply Qcmult_le_compat_r; [|discriminate].
    apply Qcabs_Qcle_condition. split; qclra. }
  assert (D : qq 1 2 + qq 1 2 = 1) by (apply Qc_is_canon; reflexivity).
  assert (S : qz (f + 1) = qz f + 1) by (rewrite qz_add; reflexivity).
  destruct (Qccompare (x - qz f) (qq 1 2)) eqn:C.
  - apply Qceq_alt in C. destruct (Z.even f); apply U; rewrite ?S; qclra.
  - apply Qclt_alt in C. apply U; qclra.
  - apply Qcgt_alt in C. change (qq 1 2 < x - qz f) in C. apply U; rewrite ?S; qclra.
Qed.
Lemma round_even_ge x z : qz z <= x -> (z <= round_even x)%Z.
Proof.
  intro H. apply qfloor_le_iff in H. unfold round_even. cbv zeta.
  destruct (Qccompare _ _); [destruct (Z.even _)| |]; lia.
Qed.
Lemma round_even_le x z : x <= qz z -> (round_even x <= z)%Z.
Proof.
  intro H. destruct (qfloor_spec x) as [A B]. unfold round_even. cbv zeta.
  assert (F : (qfloor x <= z)%Z) by (apply qz_le; qclra).
  assert (G : (qfloor x = z)%Z -> Qccompare (x - qz (qfloor x)) (qq 1 2) = Lt).
  { intro E. apply Qclt_alt. rewrite E. change (x - qz z < qq 1 2). assert (0 < qq 1 2) by reflexivity. qclra. }
  destruct (Z.eq_dec (qfloor x) z) as [E|E].
  - rewrite (G E). lia.
  - destruct (Qccompare _ _); [destruct (Z.even _)| |]; lia.
Qed.

(** ** The exponent *)
Lemma Qc_frac x : x = qz (Qnum (this x)) / qz (Zpos (Qden (this x))).
Proof.
  apply Qc_eq_Q. unfold Qcdiv. rewrite this_mul. unfold Qcinv. cbn [this Q2Qc]. rewrite !Qred_correct, !this_qz.
  destruct (this x) as [n d]. cbn [Qnum Qden]. unfold inject_Z, Qeq, Qmult, Qinv. cbn. lia.
Qed.
Lemma expo_spec x : 0 < x -> p10 (expo x) <= x /\ x < p10 (expo x + 1).
Proof.
  intro X. unfold expo. cbv zeta. assert (FR := Qc_frac x). set (n := Qnum (this x)) in *. set (d := Zpos (Qden (this x))) in *.
  assert (D : (0 < d)%Z) by reflexivity.
  assert (DQ : 0 < qz d) by (rewrite <- qz_0; apply qz_lt; exact D).
  assert (XE : x * qz d = qz n) by (rewrite FR; fld).
  assert (N : (0 < n)%Z). { apply qz_lt. rewrite qz_0, <- XE. qcnra. }
  clearbody n d. clear FR.
  destruct (ndig_spec n ltac:(lia)) as (NU & N1 & [NZ|NL]); [lia|]. destruct (ndig_spec d ltac:(lia)) as (DU & D1 & [DZ|DL]); [lia|].
  set (a := ndig n) in *. set (b := ndig d) in *. clearbody a b.
  apply qz_lt in NU, DU. apply qz_le in NL, DL.
  rewrite <- !p10_ge in NU, DU, NL, DL by lia.
  set (k := (Z.of_nat a - Z.of_nat b)%Z).
  assert (U : x < p10 (k + 1)).
  { assert (E : p10 (Z.of_nat a) = p10 (k + 1) * p10 (Z.of_nat b - 1)) by (rewrite <- p10_add; f_equal; lia).
    destruct (Qclt_le_dec x (p10 (k + 1))) as [L|L]; [exact L|exfalso].
    assert (P1 := p10_pos (k + 1)). assert (P2 := p10_pos (Z.of_nat b - 1)).
    assert (p10 (k + 1) * p10 (Z.of_nat b - 1) <= x * qz d) by qcnra. qclra. }
  assert (L : p10 (k - 1) <= x).
  { assert (E : p10 (Z.of_nat a - 1) = p10 (k - 1) * p10 (Z.of_nat b)) by (rewrite <- p10_add; f_equal; lia).
    destruct (Qclt_le_dec x (p10 (k - 1))) as [Q|Q]; [exfalso|exact Q].
    assert (P1 := p10_pos (k - 1)). assert (P2 := p10_pos (Z.of_nat b)).
    assert (x * qz d < p10 (k - 1) * p10 (Z.of_nat b)) by qcnra. qclra. }
  destruct (qleb_spec (p10 k) x) as [C|C].
  - split; assumption.
  - split; [exact L|]. replace (k - 1 + 1)%Z with k by lia. qclra.
Qed.
Lemma mantissa_spec p x m e : 0 <= x -> mantissa p x = (m, e) ->
  (0 <= m < 10 ^ Z.of_nat (S p))%Z /\ Qcabs (qz m * p10 (e - Z.of_nat p) - x) * (qz 2 * qz 10 ^ p) <= x.
Proof.
  intros X H. unfold mantissa in H. destruct (qeqb_spec x 0) as [Z|NZ].
  { injection H as <- <-. rewrite Z. split; [split; [lia|apply Z.pow_pos_nonneg; lia]|]. rewrite qz_0.
    replace (0 * p10 (0 - Z.of_nat p) - 0) with (Q2Qc 0) by ring. rewrite Qcabs_pos by apply Qcle_refl. rewrite Qcmult_0_l. apply Qcle_refl. }
  assert (XP : 0 < x) by (apply Qcle_lt_or_eq in X as [X|X]; [exact X|congruence]).
  destruct (expo_spec x XP) as [L U]. set (e0 := expo x) in *. clearbody e0. cbv zeta in H.
  set (y := x * p10 (Z.of_nat p - e0)) in *.
  assert (PE := p10_pos e0). assert (PP := tpow_pos p).
  assert (YL : qz (10 ^ Z.of_nat p) <= y).
  { rewrite qz_pow, <- p10_nat. replace (Z.of_nat p) with (e0 + (Z.of_nat p - e0))%Z at 1 by lia. rewrite p10_add.
    unfold y. apply Qcmult_le_compat_r; [exact L|apply Qclt_le_weak, p10_pos]. }
  assert (YU : y <= qz (10 ^ Z.of_nat (S p))).
  { rewrite qz_pow, <- p10_nat. replace (Z.of_nat (S p)) with ((e0 + 1) + (Z.of_nat p - e0))%Z by lia. rewrite p10_add.
    unfold y. apply Qcmult_le_compat_r; [qclra|apply Qclt_le_weak, p10_pos]. }
  assert (ML := round_even_ge _ _ YL). assert (MU := round_even_le _ _ YU).
  assert (PZ : (0 < 10 ^ Z.of_nat p)%Z) by (apply Z.pow_pos_nonneg; lia).
  assert (RB := round_even_bound y). set (m0 := round_even y) in *. clearbody m0.
  assert (V : Qcabs (qz m0 * p10 (e0 - Z.of_nat p) - x) * (qz 2 * qz 10 ^ p) <= x).
  { assert (E : qz m0 * p10 (e0 - Z.of_nat p) - x = (qz m0 - y) * p10 (e0 - Z.of_nat p)).
    { unfold y, Qcminus. rewrite Qcmult_plus_distr_l. f_equal.
      replace (- (x * p10 (Z.of_nat p - e0)) * p10 (e0 - Z.of_nat p)) with (- x * (p10 (Z.of_nat p - e0) * p10 (e0 - Z.of_nat p))) by ring.
      rewrite <- p10_add. replace (Z.of_nat p - e0 + (e0 - Z.of_nat p))%Z with 0%Z by lia. change (p10 0) with (Q2Qc 1). ring. }
    rewrite E, Qcabs_Qcmult, (Qcabs_pos (p10 _)) by (apply Qclt_le_weak, p10_pos).
    replace (Qcabs (qz m0 - y) * p10 (e0 - Z.of_nat p) * (qz 2 * qz 10 ^ p)) with (Qcabs (qz m0 - y) * qz 2 * (p10 (e0 - Z.of_nat p) * p10 (Z.of_nat p))) by (rewrite p10_nat; ring).
    rewrite <- p10_add. replace (e0 - Z.of_nat p + Z.of_nat p)%Z with e0 by lia.
    apply Qcle_trans with (1 * p10 e0); [apply Qcmult_le_compat_r; [exact RB|qclra]|]. rewrite Qcmult_1_l. exact L. }
  assert (T : (10 ^ Z.of_nat (S p) = 10 * 10 ^ Z.of_nat p)%Z) by (rewrite Nat2Z.inj_succ, Z.pow_succ_r by lia; reflexivity).
  destruct (Z.eqb_spec m0 (10 ^ Z.of_nat (S p))) as [Q|Q]; injection H as <- <-.
  - split; [lia|]. replace (qz (10 ^ Z.of_nat p) * p10 (e0 + 1 - Z.of_nat p)) with (qz m0 * p10 (e0 - Z.of_nat p)); [exact V|].
    rewrite Q, T, qz_mul. replace (e0 + 1 - Z.of_nat p)%Z with (e0 - Z.of_nat p + 1)%Z by lia. rewrite p10_succ. ring.
  - split; [lia|exact V].
Qed.

(** ** Reading a formatted number *)
Lemma read_exponent_E (e : Z) :
  read_exponent (String "E" ((if (e <? 0)%Z then "-" else "+") ++ fmt_0wd 2 (Z.abs e))) = Some (p10 e).
Proof.
  unfold fmt_0wd. destruct (Z.ltb_spec (Z.abs e) 0); [lia|].
  assert (R : read_digits 0 0 (digs (Nat.max 2 (ndig (Z.abs e))) (Z.abs e)) = (Z.abs e, Nat.max 2 (ndig (Z.abs e)), EmptyString)).
  { rewrite <- (app_nil_s (digs _ _)). apply read_padded; [lia|apply ndig_max; lia|exact I]. }
  destruct (Nat.max 2 (ndig (Z.abs e))) as [|k] eqn:K; [lia|].
  destruct (Z.ltb_spec e 0) as [L|L]; cbn [append]; unfold read_exponent; rewrite R; cbn [Ascii.eqb Bool.eqb].
  - f_equal. replace e with (- Z.abs e)%Z at 2 by lia. rewrite p10_opp. f_equal. rewrite <- p10_nat. f_equal. lia.
  - f_equal. rewrite <- p10_nat. f_equal. lia.
Qed.
Lemma read_unsigned_E p m e : (0 <= m < 10 ^ Z.of_nat (S p))%Z ->
  read_unsigned (digs 1 (m / 10 ^ Z.of_nat p) ++ "." ++ digs p m ++ "E" ++ (if (e <? 0)%Z then "-" else "+") ++ fmt_0wd 2 (Z.abs e))
  = Some (qz m * p10 (e - Z.of_nat p)).
Proof.
  intros M. assert (P : (0 < 10 ^ Z.of_nat p)%Z) by (apply Z.pow_pos_nonneg; lia).
  unfold read_unsigned. rewrite Nat2Z.inj_succ, Z.pow_succ_r in M by lia.
  rewrite read_padded.
  - cbn [append]. rewrite read_digs by lia. cbn [append]. rewrite read_stop by reflexivity.
    rewrite read_exponent_E. f_equal. cbn [Nat.add]. rewrite Z.mul_0_l, Z.add_0_l.
    replace (qz (m / 10 ^ Z.of_nat p) + qz (m mod 10 ^ Z.of_nat p) / qz 10 ^ p) with (qz m * p10 (- Z.of_nat p)).
    + replace (e - Z.of_nat p)%Z with (- Z.of_nat p + e)%Z by lia. rewrite p10_add. ring.
    + rewrite p10_opp, p10_nat. rewrite (Z.div_mod m (10 ^ Z.of_nat p)) at 1 by lia.
      rewrite qz_add, qz_mul, qz_pow. assert (Q := tpow_pos p). fld.
  - apply Z.div_pos; lia.
  - change (10 ^ Z.of_nat 1)%Z with 10%Z. apply Z.div_lt_upper_bound; lia.
  - reflexivity.
Qed.
Lemma digit_char z : exists d, digit z = d /\ (0 <= z < 10 -> d <> "-"%char /\ d <> " "%char /\ d <> ascii_of_nat 10)%Z.
Proof.
  exists (digit z). split; [reflexivity|]. intros H.
  assert (C : (z = 0 \/ z = 1 \/ z = 2 \/ z = 3 \/ z = 4 \/ z = 5 \/ z = 6 \/ z = 7 \/ z = 8 \/ z = 9)%Z) by lia.
  repeat destruct C as [->|C]; try (split; [|split]; discriminate). subst. split; [|split]; discriminate.
Qed.
Lemma read_number_unsigned s : (forall r, s <> String "-" r) -> read_number s = read_unsigned s.
Proof.
  intro H. destruct s as [|c r]; [reflexivity|]. unfold read_number.
  destruct c as [[] [] [] [] [] [] [] []]; try reflexivity. exfalso. exact (H r eq_refl).
Qed.
Lemma digs_no_minus k n r rest : (0 <= n)%Z -> (1 <= k)%nat -> (digs k n ++ rest)%string <> String "-" r.
Proof.
  intros N K E. assert (R := read_digs k n 0 0 rest N). rewrite E in R. cbn in R.
  assert (T : forall s a j a' j' s', read_digits a j s = (a', j', s') -> (j <= j')%nat).
  { clear. induction s as [|c s IH]; intros a j a' j' s' H; cbn in H; [injection H as <- <- <-; lia|].
    destruct (digit_value c); [apply IH in H; lia|injection H as <- <- <-; lia]. }
  symmetry in R. apply T in R. lia.
Qed.
Lemma read_E p x : exists v, read_number (fmt_E p x) = Some v /\ near p x v.
Proof.
  unfold fmt_E. destruct (mantissa p (Qcabs x)) as [m e] eqn:M.
  destruct (mantissa_spec p (Qcabs x) m e (Qcabs_nonneg x) M) as [B V].
  assert (D : (0 <= m / 10 ^ Z.of_nat p)%Z) by (apply Z.div_pos; [lia|apply Z.pow_pos_nonneg; lia]).
  destruct (qltb_spec x 0) as [L|L].
  - exists (- (qz m * p10 (e - Z.of_nat p))). split.
    + cbn [append read_number]. rewrite <- ?app_assoc_s. unfold read_number. rewrite ?app_assoc_s.
      assert (R := read_unsigned_E p m e B). cbn [append] in R. cbn [append]. rewrite R. reflexivity.
    + unfold near. rewrite (Qcabs_neg x) in V |- * by qclra.
      replace (- (qz m * p10 (e - Z.of_nat p)) - x) with (- (qz m * p10 (e - Z.of_nat p) - - x)) by ring.
      rewrite Qcabs_opp. exact V.
  - exists (qz m * p10 (e - Z.of_nat p)). split.
    + cbn [append]. rewrite read_number_unsigned; [apply (read_unsigned_E p m e B)|].
      intro r. apply digs_no_minus; [exact D|lia].
    + unfold near. rewrite (Qcabs_pos x) in V |- * by qclra. exact V.
Qed.
Lemma read_d n : read_number (fmt_d n) = Some (qz n).
Proof.
  assert (U : forall n, (0 <= n)%Z -> read_unsigned (digs (ndig n) n) = Some (qz n)).
  { clear. intros n N. unfold read_unsigned.
    rewrite <- (app_nil_s (digs _ _)). destruct (ndig_spec n N) as (A & B & _). rewrite read_padded by (exact N || exact A || exact I).
    destruct (ndig n); [lia|]. cbn [read_exponent]. f_equal. ring. }
  unfold fmt_d. destruct (Z.ltb_spec n 0) as [L|L].
  - cbn [read_number]. rewrite U by lia. rewrite qz_opp. f_equal. ring.
  - rewrite read_number_unsigned; [apply U; lia|]. intro r. rewrite <- (app_nil_s (digs _ _)).
    apply digs_no_minus; [lia|apply (ndig_spec n L)].
Qed.
Lemma read_f p x : exists v, read_number (fmt_f p x) = Some v /\ near_point p x v.
Proof.
  unfold fmt_f. cbv zeta. set (y := Qcabs x * p10 (Z.of_nat p)). assert (RB := round_even_bound y).
  assert (PP := tpow_pos p).
  assert (M0 : (0 <= round_even y)%Z).
  { apply round_even_ge. rewrite qz_0. unfold y. assert (A := Qcabs_nonneg x). rewrite p10_nat. qcnra. }
  set (m := round_even y) in *. clearbody m.
  assert (PZ : (0 < 10 ^ Z.of_nat p)%Z) by (apply Z.pow_pos_nonneg; lia).
  assert (D : (0 <= m / 10 ^ Z.of_nat p)%Z) by (apply Z.div_pos; lia).
  set (u := qz m / qz 10 ^ p).
  assert (R : read_unsigned (fmt_d (m / 10 ^ Z.of_nat p) ++ "." ++ digs p m) = Some u).
  { unfold fmt_d. destruct (Z.ltb_spec (m / 10 ^ Z.of_nat p) 0); [lia|]. unfold read_unsigned.
    destruct (ndig_spec _ D) as (A & B & _). rewrite read_padded by (exact D || exact A || reflexivity).
    destruct (ndig _); [lia|]. cbn [append]. rewrite <- (app_nil_s (digs p m)). rewrite read_digs by lia.
    rewrite read_stop by exact I. cbn [read_exponent Nat.add]. f_equal. rewrite Z.mul_0_l, Z.add_0_l.
    unfold u. rewrite (Z.div_mod m (10 ^ Z.of_nat p)) at 3 by lia. rewrite qz_add, qz_mul, qz_pow. fld. }
  assert (V : Qcabs (u - Qcabs x) * (qz 2 * qz 10 ^ p) <= 1).
  { assert (E : qz m - y = (u - Qcabs x) * qz 10 ^ p) by (unfold u, y; rewrite p10_nat; fld).
    rewrite E, Qcabs_Qcmult, (Qcabs_pos (_ ^ _)) in RB by qclra.
    replace (Qcabs (u - Qcabs x) * (qz 2 * qz 10 ^ p)) with (Qcabs (u - Qcabs x) * qz 10 ^ p * qz 2) by ring. exact RB. }
  destruct (qltb_spec x 0) as [L|L].
  - exists (- u). split.
    + cbn [append] in R |- *. unfold read_number. rewrite R. reflexivity.
    + unfold near_point. rewrite (Qcabs_neg x) in V by qclra. replace (- u - x) with (- (u - - x)) by ring. rewrite Qcabs_opp. exact V.
  - exists u. split.
    + cbn [append] in R |- *. rewrite read_number_unsigned; [exact R|]. intro r. unfold fmt_d.
      destruct (Z.ltb_spec (m / 10 ^ Z.of_nat p) 0); [lia|]. apply digs_no_minus; [exact D|apply (ndig_spec _ D)].
    + unfold near_point. rewrite (Qcabs_pos x) in V by qclra. exact V.
Qed.

(** ** Lines and words *)
Fixpoint free (c : ascii) (s : string) : bool :=
  match s with EmptyString => true | String d r => negb (Ascii.eqb d c) && free c r end.
Lemma free_app c a b : free c (a ++ b) = free c a && free c b.
Proof. induction a as [|d a IH]; cbn; [reflexivity|]. rewrite IH. apply andb_assoc. Qed.
Definition plain (s : string) : Prop := free " " s = true /\ free (ascii_of_nat 10) s = true.
Lemma plain_app a b : plain a -> plain b -> plain (a ++ b).
Proof. unfold plain. rewrite !free_app. intros [-> ->] [-> ->]. auto. Qed.
Lemma plain_digs k : forall n, (0 <= n)%Z -> plain (digs k n).
Proof.
  induction k as [|k IH]; intros n N; cbn [digs]; [split; reflexivity|]. apply plain_app; [apply IH, Z.div_pos; lia|].
  assert (M := Z.mod_pos_bound n 10 ltac:(lia)). set (z := (n mod 10)%Z) in *. clearbody z.
  assert (C : (z = 0 \/ z = 1 \/ z = 2 \/ z = 3 \/ z = 4 \/ z = 5 \/ z = 6 \/ z = 7 \/ z = 8 \/ z = 9)%Z) by lia.
  repeat destruct C as [->|C]; try (split; reflexivity). subst. split; reflexivity.
Qed.
Lemma plain_d n : plain (fmt_d n).
Proof.
  unfold fmt_d. destruct (Z.ltb_spec n 0).
  - apply (plain_app "-"); [split; reflexivity|apply plain_digs; lia].
  - apply plain_digs; lia.
Qed.
Lemma plain_0wd w n : plain (fmt_0wd w n).
Proof.
  unfold fmt_0wd. destruct (Z.ltb_spec n 0).
  - apply (plain_app "-"); [split; reflexivity|apply plain_digs; lia].
  - apply plain_digs; lia.
Qed.
Lemma mantissa_nonneg p x : 0 <= x -> (0 <= fst (mantissa p x))%Z.
Proof. intro X. destruct (mantissa p x) as [m e] eqn:M. apply (mantissa_spec p x m e X M). Qed.
Lemma plain_E p x : plain (fmt_E p x).
Proof.
  unfold fmt_E. assert (M := mantissa_nonneg p (Qcabs x) (Qcabs_nonneg x)). destruct (mantissa p (Qcabs x)) as [m e]. cbn [fst] in M.
  apply plain_app; [destruct (qltb x 0); split; reflexivity|].
  apply plain_app; [apply plain_digs, Z.div_pos; [lia|apply Z.pow_pos_nonneg; lia]|].
  apply plain_app; [split; reflexivity|]. apply plain_app; [apply plain_digs; lia|].
  apply plain_app; [split; reflexivity|]. apply plain_app; [destruct (e <? 0)%Z; split; reflexivity|]. apply plain_0wd.
Qed.
Lemma plain_f p x : plain (fmt_f p x).
Proof.
  unfold fmt_f. cbv zeta. assert (M : (0 <= round_even (Qcabs x * p10 (Z.of_nat p)))%Z).
  { apply round_even_ge. rewrite qz_0. assert (A := Qcabs_nonneg x). assert (B := p10_pos (Z.of_nat p)). qcnra. }
  apply plain_app; [destruct (qltb x 0); split; reflexivity|]. apply plain_app; [apply plain_d|].
  apply plain_app; [split; reflexivity|apply plain_digs; exact M].
Qed.
Lemma app_nonempty a b : b <> EmptyString -> (a ++ b)%string <> EmptyString.
Proof. destruct a; [auto|discriminate]. Qed.
Lemma nonempty_E p x : fmt_E p x <> EmptyString.
Proof.
  unfold fmt_E. destruct (mantissa _ _). do 2 apply app_nonempty. discriminate.
Qed.
Lemma nonempty_f p x : fmt_f p x <> EmptyString.
Proof. unfold fmt_f. cbv zeta. do 2 apply app_nonempty. discriminate. Qed.
Lemma nonempty_d n : fmt_d n <> EmptyString.
Proof.
  unfold fmt_d. destruct (Z.ltb_spec n 0); [discriminate|]. intro E. apply (f_equal String.length) in E.
  rewrite digs_length in E. cbn in E. destruct (ndig_spec n ltac:(lia)) as (_ & K & _). lia.
Qed.

Lemma lines_line l t : free (ascii_of_nat 10) l = true -> lines (l ++ nl ++ t) = l :: lines t.
Proof.
  induction l as [|c l IH]; intro F; [reflexivity|].
  cbn [free] in F. apply andb_true_iff in F as [F1 F2]. apply negb_true_iff in F1.
  cbn [append lines]. rewrite F1, (IH F2). reflexivity.
Qed.
Lemma lines_last l : l <> EmptyString -> free (ascii_of_nat 10) l = true -> lines l = l :: nil.
Proof.
  induction l as [|c l IH]; intros N F; [congruence|].
  cbn [free] in F. apply andb_true_iff in F as [F1 F2]. apply negb_true_iff in F1.
  cbn [lines]. rewrite F1. destruct l as [|d l]; [reflexivity|]. rewrite (IH ltac:(discriminate) F2). reflexivity.
Qed.
Lemma lines_text {A} (line : A -> string) l : (forall x, free (ascii_of_nat 10) (line x) = true) ->
  lines (text line l) = map line l.
Proof. intro H. induction l as [|x l IH]; [reflexivity|]. cbn [text fold_right map]. rewrite lines_line by apply H. f_equal. exact IH. Qed.
Lemma lines_join l : Forall (fun s => free (ascii_of_nat 10) s = true /\ s <> EmptyString) l -> lines (join_lines l) = l.
Proof.
  induction 1 as [|x l [F N] H IH]; [reflexivity|]. destruct l as [|y l].
  - apply lines_last; assumption.
  - change (join_lines (x :: y :: l)) with (x ++ nl ++ join_lines (y :: l))%string. rewrite lines_line by exact F. f_equal. exact IH.
Qed.
Lemma words_space s : words (String " " s) = words s.
Proof. unfold words. cbn [first_word]. destruct (first_word s) as [w ws]. reflexivity. Qed.
Lemma words_fill k s : words (fill " " k ++ s) = words s.
Proof. induction k as [|k IH]; [reflexivity|]. cbn [fill append]. rewrite words_space. exact IH. Qed.
Lemma first_word_app w s : free " " w = true ->
  first_word (w ++ s) = ((w ++ fst (first_word s))%string, snd (first_word s)).
Proof.
  induction w as [|c w IH]; intro F; cbn [append]; [destruct (first_word s); reflexivity|].
  cbn [free] in F. apply andb_true_iff in F as [F1 F2]. apply negb_true_iff in F1.
  cbn [first_word]. rewrite (IH F2), F1. reflexivity.
Qed.
Lemma words_one w : free " " w = true -> w <> EmptyString -> words w = w :: nil.
Proof.
  intros F N. unfold words. rewrite <- (app_nil_s w) at 1. rewrite first_word_app by exact F. cbn [first_word fst snd].
  rewrite app_nil_s. destruct w; [congruence|reflexivity].
Qed.
Lemma words_cons w s : free " " w = true -> w <> EmptyString -> words (w ++ String " " s) = w :: words s.
Proof.
  intros F N. unfold words at 1. rewrite first_word_app by exact F.
  assert (E : first_word (String " " s) = (EmptyString, words s)).
  { unfold words. cbn [first_word]. destruct (first_word s). reflexivity. }
  rewrite E. cbn [fst snd]. rewrite app_nil_s. destruct w; [congruence|reflexivity].
Qed.
