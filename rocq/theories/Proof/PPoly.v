(** Polynomials with rational coefficients over the real numbers, bounded on an
    interval by computation; Taylor polynomials of sine and cosine; digits of
    pi. *)
From Coq Require Import Reals QArith Qreals Qabs List ZArith Bool Lia Lra Psatz.
Import ListNotations.
Local Open Scope R_scope.

Lemma Rabs_inv : forall x b, Rabs x <= b -> - b <= x <= b.
Proof. intros x b H. destruct (Rcase_abs x) as [L|L]; [rewrite Rabs_left in H by auto|rewrite Rabs_right in H by auto]; lra. Qed.

Lemma Q2R_0 : Q2R 0 = 0.
Proof. unfold Q2R. cbn. lra. Qed.

Fixpoint peval (p : list Q) (x : R) : R := match p with [] => 0 | c :: r => Q2R c + x * peval r x end.
Fixpoint qeval (p : list Q) (x : Q) : Q := match p with [] => 0%Q | c :: r => (c + x * qeval r x)%Q end.
Lemma peval_Q2R : forall p x, peval p (Q2R x) = Q2R (qeval p x).
Proof.
  induction p as [|c r IH]; intros x; cbn [peval qeval].
  - unfold Q2R. cbn. lra.
  - rewrite Q2R_plus, Q2R_mult, IH. auto.
Qed.

Fixpoint psub (p q : list Q) : list Q :=
  match p, q with
  | [], _ => map Qopp q
  | _, [] => p
  | c :: r, d :: s => Qred (c - d) :: psub r s
  end.
Lemma peval_opp : forall p x, peval (map Qopp p) x = - peval p x.
Proof. induction p as [|c r IH]; intros x; cbn [map peval]; [lra|]. rewrite IH, Q2R_opp. lra. Qed.
Lemma peval_psub : forall p q x, peval (psub p q) x = peval p x - peval q x.
Proof.
  induction p as [|c r IH]; intros [|d s] x; cbn [psub]; rewrite ?peval_opp; cbn [peval map]; try lra.
  - rewrite IH, (Qeq_eqR _ _ (Qred_correct _)), Q2R_minus. lra.
Qed.

(** ** Bounds by computation with integers *)
Fixpoint zeval (p : list Z) (x : R) : R := match p with [] => 0 | c :: r => IZR c + x * zeval r x end.

(** The polynomial t |-> p (t + c). *)
Fixpoint zadd_mul (c : Z) (prev : Z) (s : list Z) : list Z :=      (* prev + (t + c) * s, prev a constant *)
  match s with [] => [prev] | a :: r => (prev + c * a)%Z :: zadd_mul c a r end.
Fixpoint zshift (c : Z) (p : list Z) : list Z := match p with [] => [] | a :: r => zadd_mul c a (zshift c r) end.
Lemma zadd_mul_ok : forall c s prev t, zeval (zadd_mul c prev s) t = IZR prev + (t + IZR c) * zeval s t.
Proof.
  intros c. induction s as [|a r IH]; intros prev t; cbn [zadd_mul zeval]; [lra|]. rewrite IH, plus_IZR, mult_IZR. ring.
Qed.
Lemma zshift_ok : forall c p t, zeval (zshift c p) t = zeval p (t + IZR c).
Proof. intros c p t. induction p as [|a r IH]; cbn [zshift zeval]; [auto|]. rewrite zadd_mul_ok, IH. auto. Qed.
Definition zsum (p : list Z) : Z := fold_right (fun c acc => (Z.abs c + acc)%Z) 0%Z p.
Lemma zsum_ok : forall p t, Rabs t <= 1 -> Rabs (zeval p t) <= IZR (zsum p).
Proof.
  intros p t Ht. induction p as [|c r IH]; cbn [zeval zsum fold_right]; [rewrite Rabs_R0; lra|].
  rewrite plus_IZR, abs_IZR. eapply Rle_trans; [apply Rabs_triang|]. apply Rplus_le_compat_l. rewrite Rabs_mult.
  fold (zsum r). assert (P1 := Rabs_pos t). assert (P2 := Rabs_pos (zeval r t)). nra.
Qed.
Definition zcheck (p : list Z) (B : Z) (n : nat) : bool :=
  forallb (fun i => (zsum (zshift (2 * Z.of_nat i + 1) p) <=? B)%Z) (seq 0 n).
Lemma zcheck_ok : forall p B n v, (0 < n)%nat -> zcheck p B n = true -> 0 <= v <= 2 * INR n -> Rabs (zeval p v) <= IZR B.
Proof.
  intros p B n v Hn H Hv. unfold zcheck in H. rewrite forallb_forall in H.
  assert (X : exists i, (i < n)%nat /\ 2 * INR i <= v <= 2 * INR (S i)).
  { clear H. induction n as [|n IH]; [lia|]. destruct (Rle_lt_dec v (2 * INR n)) as [L|L].
    - destruct n as [|n]; [exists 0%nat; cbn in *; split; [lia|]; lra|]. destruct IH as (i & Hi & K); [lia|lra|]. exists i. split; [lia|auto].
    - exists n. split; [lia|lra]. }
  destruct X as (i & Hi & K). specialize (H i). rewrite in_seq in H. specialize (H ltac:(lia)). apply Z.leb_le in H.
  apply IZR_le in H. eapply Rle_trans; [|exact H].
  replace v with ((v - IZR (2 * Z.of_nat i + 1)) + IZR (2 * Z.of_nat i + 1)) by lra. rewrite <- zshift_ok. apply zsum_ok.
  rewrite plus_IZR, mult_IZR, <- INR_IZR_INZ. rewrite S_INR in K. apply Rabs_le. lra.
Qed.

(** w p as a polynomial in v = s x with integer coefficients. *)
Fixpoint tozp (s : Z) (p : list Q) (w : Z) : option (list Z) :=
  match p with
  | [] => Some []
  | c :: r => let d := Zpos (Qden c) in
    match tozp s r (w / s) with
    | Some l => if ((w / s * s =? w) && (w / d * d =? w))%Z%bool then Some ((Qnum c * (w / d))%Z :: l) else None
    | None => None
    end
  end.
Lemma tozp_ok : forall s p w l x, tozp s p w = Some l -> zeval l (IZR s * x) = IZR w * peval p x.
Proof.
  intros s. induction p as [|c r IH]; intros w l x H; cbn [tozp] in H.
  - injection H as <-. cbn. lra.
  - destruct (tozp s r (w / s)) as [l'|] eqn:E; [|discriminate]. apply (IH _ _ x) in E.
    destruct (Z.eqb_spec (w / s * s) w) as [E1|]; [|discriminate]. destruct (Z.eqb_spec (w / Zpos (Qden c) * Zpos (Qden c)) w) as [E2|]; [|discriminate].
    cbn [andb] in H. injection H as <-. cbn [zeval peval]. rewrite Rmult_assoc.
    replace (x * zeval l' (IZR s * x)) with (x * (IZR (w / s) * peval r x)) by (rewrite <- E; ring).
    rewrite mult_IZR. unfold Q2R.
    assert (D : IZR (Zpos (Qden c)) <> 0) by (apply not_0_IZR; lia).
    assert (W : IZR w = IZR (w / s) * IZR s) by (rewrite <- mult_IZR; f_equal; auto).
    assert (Q : IZR (w / Zpos (Qden c)) = IZR w * / IZR (Zpos (Qden c))).
    { assert (X : IZR w = IZR (w / Zpos (Qden c)) * IZR (Zpos (Qden c))) by (rewrite <- mult_IZR; f_equal; auto). rewrite X. field. auto. }
    rewrite Q, W. ring.
Qed.

(** |p x| <= B for 0 <= x <= 2 n / s; w is a common denominator. *)
Definition pcheck (p : list Q) (s w : Z) (B : Q) (n : nat) : bool :=
  match tozp s p w with
  | Some l => (0 <? w)%Z && (0 <? s)%Z && (w / Zpos (Qden B) * Zpos (Qden B) =? w)%Z && zcheck l (Qnum B * (w / Zpos (Qden B)))%Z n
  | None => false
  end.
Lemma pcheck_ok : forall p s w B n x, (0 < n)%nat -> pcheck p s w B n = true -> 0 <= x -> IZR s * x <= 2 * INR n -> Rabs (peval p x) <= Q2R B.
Proof.
  intros p s w B n x Hn H Hx Hs. unfold pcheck in H. destruct (tozp s p w) as [l|] eqn:E; [|discriminate].
  apply andb_prop in H. destruct H as [H C]. apply andb_prop in H. destruct H as [H D]. apply andb_prop in H. destruct H as [Hw Hs'].
  apply Z.ltb_lt, IZR_lt in Hw. apply Z.ltb_lt, IZR_lt in Hs'. apply Z.eqb_eq in D.
  assert (T := tozp_ok _ _ _ _ x E). assert (0 <= IZR s * x) by (apply Rmult_le_pos; lra).
  apply (zcheck_ok _ _ _ (IZR s * x) Hn) in C; [|lra]. rewrite T, Rabs_mult, (Rabs_right (IZR w)) in C by lra.
  rewrite mult_IZR in C. unfold Q2R.
  assert (DD : 0 < IZR (Zpos (Qden B))) by (apply IZR_lt; lia).
  assert (Q : IZR (w / Zpos (Qden B)) = IZR w * / IZR (Zpos (Qden B))). { assert (X : IZR w = IZR (w / Zpos (Qden B)) * IZR (Zpos (Qden B))) by (rewrite <- mult_IZR; f_equal; auto). rewrite X. field. lra. }
  rewrite Q in C. apply (Rmult_le_reg_l (IZR w)); [auto|]. lra.
Qed.

(** ** Taylor polynomials *)

Fixpoint pfact (n : nat) : positive := match n with O => 1%positive | S k => (Pos.of_succ_nat k * pfact k)%positive end.
Lemma pfact_INR : forall n, INR (fact n) = IZR (Zpos (pfact n)).
Proof.
  induction n as [|n IH]; [reflexivity|]. rewrite fact_simpl, mult_INR, IH. cbn [pfact]. rewrite Pos2Z.inj_mul, mult_IZR.
  f_equal. rewrite INR_IZR_INZ. f_equal. 
Qed.
Definition alt (i : nat) : Z := if Nat.even i then 1%Z else (-1)%Z.
Lemma alt_pow : forall i, (-1) ^ i = IZR (alt i).
Proof.
  induction i as [|i IH]; [reflexivity|]. cbn [pow]. rewrite IH. unfold alt. rewrite Nat.even_succ, <- Nat.negb_even. destruct (Nat.even i); cbn; lra.
Qed.
(** sin x is about x * peval (tsin n) (x^2), cos x about peval (tcos n) (x^2). *)
Definition tsin (n : nat) : list Q := map (fun i => alt i # pfact (2 * i + 1)) (seq 0 (S n)).
Definition tcos (n : nat) : list Q := map (fun i => alt i # pfact (2 * i)) (seq 0 (S n)).
Lemma peval_app : forall p q x, peval (p ++ q) x = peval p x + x ^ length p * peval q x.
Proof. induction p as [|c r IH]; intros q x; cbn [app peval length pow]; [lra|]. rewrite IH. ring. Qed.
Lemma series : forall (f : nat -> Q) n x, peval (map f (seq 0 (S n))) x = sum_f_R0 (fun i => Q2R (f i) * x ^ i) n.
Proof.
  intros f n x. induction n as [|n IH]; [cbn; lra|]. rewrite seq_S, map_app, peval_app, IH. cbn [sum_f_R0 map peval].
  rewrite map_length, seq_length. cbn [Nat.add]. ring.
Qed.
Lemma tsin_ok : forall n x, sin_approx x n = x * peval (tsin n) (x ^ 2).
Proof.
  intros n x. unfold tsin. rewrite series. unfold sin_approx. rewrite scal_sum. apply sum_eq. intros i _.
  unfold sin_term. rewrite pfact_INR, alt_pow. unfold Q2R. cbn [Qnum Qden]. rewrite pow_add, pow_mult, pow_1. unfold Rdiv. ring.
Qed.
Lemma tcos_ok : forall n x, cos_approx x n = peval (tcos n) (x ^ 2).
Proof.
  intros n x. unfold tcos. rewrite series. unfold cos_approx. apply sum_eq. intros i _.
  unfold cos_term. rewrite pfact_INR, alt_pow. unfold Q2R. cbn [Qnum Qden]. rewrite pow_mult. unfold Rdiv. ring.
Qed.

(** A polynomial whose distance from two Taylor polynomials is small is near. *)
Lemma sin_near : forall p s w B n N x, (0 < N)%nat ->
  pcheck (psub p (tsin (2 * n + 1))) s w B N = true -> pcheck (psub p (tsin (2 * (n + 1)))) s w B N = true ->
  0 <= x <= 3 -> IZR s * x ^ 2 <= 2 * INR N -> Rabs (x * peval p (x ^ 2) - sin x) <= x * Q2R B.
Proof.
  intros p s w B n N x HN C1 C2 Hx Hx2. destruct (pre_sin_bound x n) as [L U]; [lra|lra|].
  rewrite tsin_ok in L, U. assert (P2 : 0 <= x ^ 2) by nra.
  apply (pcheck_ok _ _ _ _ _ (x ^ 2)) in C1; auto. apply (pcheck_ok _ _ _ _ _ (x ^ 2)) in C2; auto.
  rewrite peval_psub in C1, C2. apply Rabs_inv in C1. apply Rabs_inv in C2. apply Rabs_le. split; nra.
Qed.
Lemma cos_near : forall p s w B n N x, (0 < N)%nat ->
  pcheck (psub p (tcos (2 * n + 1))) s w B N = true -> pcheck (psub p (tcos (2 * (n + 1)))) s w B N = true ->
  -2 <= x <= 2 -> IZR s * x ^ 2 <= 2 * INR N -> Rabs (peval p (x ^ 2) - cos x) <= Q2R B.
Proof.
  intros p s w B n N x HN C1 C2 Hx Hx2. destruct (pre_cos_bound x n) as [L U]; [lra|lra|].
  rewrite tcos_ok in L, U. assert (P2 : 0 <= x ^ 2) by nra.
  apply (pcheck_ok _ _ _ _ _ (x ^ 2)) in C1; auto. apply (pcheck_ok _ _ _ _ _ (x ^ 2)) in C2; auto.
  rewrite peval_psub in C1, C2. apply Rabs_inv in C1. apply Rabs_inv in C2. apply Rabs_le. split; lra.
Qed.

(** ** Digits of pi *)
Definition neg (q : Q) : bool := negb (Qle_bool 0 q).
Lemma pi_lt : forall (b : Q) n, 0 < Q2R b <= 4 -> neg (qeval (tsin (2 * (n + 1))) (b * b)) = true -> PI < Q2R b.
Proof.
  intros b n Hb H. destruct (pre_sin_bound (Q2R b) n) as [_ U]; [lra|lra|]. rewrite tsin_ok in U.
  replace (Q2R b ^ 2) with (Q2R (b * b)) in U by (rewrite Q2R_mult; ring). rewrite peval_Q2R in U.
  unfold neg in H. apply negb_true_iff in H.
  assert (N : Q2R (qeval (tsin (2 * (n + 1))) (b * b)) < 0).
  { apply Rnot_le_lt. intros K. assert (Qle_bool 0 (qeval (tsin (2 * (n + 1))) (b * b)) = true); [|congruence].
    apply Qle_bool_iff. apply Rle_Qle. rewrite Q2R_0. lra. }
  apply Rnot_le_lt. intros K. assert (K0 : 0 <= Q2R b) by (destruct Hb; lra). assert (K1 := sin_ge_0 (Q2R b) K0 K). nra.
Qed.
Lemma lt_pi : forall (b : Q) n, 0 < Q2R b <= 4 -> neg (- qeval (tsin (2 * n + 1)) (b * b)) = true -> Q2R b < PI.
Proof.
  intros b n Hb H. destruct (pre_sin_bound (Q2R b) n) as [L _]; [lra|lra|]. rewrite tsin_ok in L.
  replace (Q2R b ^ 2) with (Q2R (b * b)) in L by (rewrite Q2R_mult; ring). rewrite peval_Q2R in L.
  unfold neg in H. apply negb_true_iff in H. set (q := qeval (tsin (2 * n + 1)) (b * b)) in *.
  assert (N : 0 < Q2R q).
  { apply Rnot_le_lt. intros K. assert (Qle_bool 0 (- q) = true); [|congruence].
    apply Qle_bool_iff. apply Rle_Qle. rewrite Q2R_opp. rewrite Q2R_0. lra. }
  apply Rnot_le_lt. intros K. assert (P4 := PI_4). assert (P3 : 2 < PI) by (assert (X := PI2_1); lra).
  destruct (Rle_lt_dec (Q2R b) (2 * PI)) as [Y|Y]; [|lra]. assert (S := sin_le_0 (Q2R b) K Y). nra.
Qed.
Lemma pi_digits : 3.14159265358979323846264338327 < PI < 3.14159265358979323846264338328.
Proof.
  split.
  - replace 3.14159265358979323846264338327 with (Q2R (314159265358979323846264338327 # 100000000000000000000000000000)) by (unfold Q2R; cbn [Qnum Qden]; lra).
    apply (lt_pi _ 12); [unfold Q2R; cbn [Qnum Qden]; lra|vm_compute; reflexivity].
  - replace 3.14159265358979323846264338328 with (Q2R (314159265358979323846264338328 # 100000000000000000000000000000)) by (unfold Q2R; cbn [Qnum Qden]; lra).
    apply (pi_lt _ 12); [unfold Q2R; cbn [Qnum Qden]; lra|vm_compute; reflexivity].
Qed.
