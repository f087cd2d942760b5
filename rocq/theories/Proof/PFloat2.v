(** The steps of the reconstruction with rounding. *)
From Coq Require Import Reals ZArith List Permutation Lia Lra Bool.
From Verif Require Import Base.Res Base.ResLemmas Base.Loops Base.QcLemmas Model.MRecon Model.MFloat Spec.FloatSpec Proof.PFloat Proof.PRecon.
Import ListNotations.
Local Open Scope R_scope.

(** A loop that changes elements base, base+1, .... *)
Lemma for_each_from : forall base n (body : nat -> list R -> res (list R)) (Q : nat -> R -> Prop) l, (base + n <= length l)%nat ->
  (forall j a, (j < n)%nat -> length a = length l -> nth (base + j) a 0 = nth (base + j) l 0 ->
     exists y, body j a = Ok (upd a (base + j) y) /\ Q j y) ->
  exists l', for_ 0 n body l = Ok l' /\ length l' = length l /\ (forall j, (j < n)%nat -> Q j (nth (base + j) l' 0)) /\
    forall c, (c < base \/ base + n <= c)%nat -> nth c l' 0 = nth c l 0.
Proof.
  intros base n body Q l Hl H.
  destruct (for_inv _ (fun i a => length a = length l /\ (forall k, (k < i)%nat -> Q k (nth (base + k) a 0)) /\
     (forall k, (i <= k)%nat -> nth (base + k) a 0 = nth (base + k) l 0) /\ (forall c, (c < base \/ base + n <= c)%nat -> nth c a 0 = nth c l 0)) body n 0 l)
    as (l' & E & L & P & _ & U).
  - repeat split; auto. intros; lia.
  - intros i a Hi (L & P & U & O). destruct (H i a) as (y & E & HQ); [lia|auto|auto|]. exists (upd a (base + i) y). split; auto.
    rewrite upd_length. split; auto. split; [|split].
    + intros k Hk. rewrite nth_upd by lia. destruct (Nat.eqb_spec (base + k) (base + i)).
      * assert (k = i) by lia. subst. auto.
      * apply P. lia.
    + intros k Hk. rewrite nth_upd by lia. destruct (Nat.eqb_spec (base + k) (base + i)); [lia|]. apply U. lia.
    + intros c Hc. rewrite nth_upd by lia. destruct (Nat.eqb_spec c (base + i)); [lia|]. apply O. lia.
  - exists l'. auto.
Qed.

Section Steps.
Variables (rnd wide : R -> R) (huge : R) (quot : R -> R -> R) (order : nat -> tree) (M : Z) (e : nat).
Hypothesis Hr : rounding M rnd.
Hypothesis Hw : rounding M wide.
Hypothesis Hq : quotient rnd quot.
Hypothesis Ho : orders order.
Hypothesis HM : (2 ^ zi e <= M)%Z.
Hypothesis Hh : 2 ^ (5 * e) <= huge.
Variables (npart nprof nbins : nat) (bin : nat -> nat -> nat).
Hypothesis bin_ok : forall i j, (i < npart)%nat -> (j < nprof)%nat -> (bin i j < nbins)%nat.
Hypothesis Hnp : (0 < nprof)%nat.
Hypothesis Hnb : (0 < nbins)%nat.
Hypothesis Hpart : (zi (npart + 1) <= 2 ^ zi e)%Z.
Hypothesis Hall : (zi (nprof * nbins) <= 2 ^ zi e)%Z.

Notation A := (rounded rnd wide huge quot order).
Notation all := (nprof * nbins)%nat.
Notation rep := (representable rnd).
Definition cell_of (i j : nat) : nat := (j * nbins + bin i j)%nat.
Notation xpl := (xpl npart nprof bin).
Notation fpl := (fpl npart nprof nbins bin).

Lemma cell_lt : forall i j, (i < npart)%nat -> (j < nprof)%nat -> (cell_of i j < all)%nat.
Proof. intros. apply flat_lt; auto. Qed.
Lemma get_fp : forall i j, (i < npart)%nat -> (j < nprof)%nat -> get fpl (zi (i * nprof + j)) = Ok (zi (cell_of i j)).
Proof. intros. apply get_nat. unfold PRecon.fpl. rewrite nth_error_tab by (apply flat_lt; auto). rewrite fl_at by auto. reflexivity. Qed.
Lemma get_xp : forall i j, (i < npart)%nat -> (j < nprof)%nat -> get xpl (zi (i * nprof + j)) = Ok (zi (bin i j)).
Proof. intros. apply get_nat. unfold PRecon.xpl. rewrite nth_error_tab by (apply flat_lt; auto). rewrite fl_at by auto. reflexivity. Qed.

Lemma e_pos : (0 < 2 ^ zi e)%Z.
Proof. apply Z.pow_pos_nonneg; lia. Qed.
Lemma IZR_e : IZR (2 ^ zi e) = 2 ^ e.
Proof. rewrite <- pow_IZR. reflexivity. Qed.
Lemma pow_pos : forall k, 0 < 2 ^ k.
Proof. intros. apply pow_lt. lra. Qed.
Lemma pow_one : forall k, 1 <= 2 ^ k.
Proof. intros. apply pow_R1_Rle. lra. Qed.
Lemma pow_huge : forall z k, (z <= 2 ^ zi e)%Z -> (k <= 4 * e)%nat -> IZR z * 2 ^ k <= huge.
Proof.
  intros z k Hz Hk. eapply Rle_trans; [|exact Hh]. replace (5 * e)%nat with (e + (k + (4 * e - k)))%nat by lia.
  rewrite pow_add, pow_add. assert (IZR z <= 2 ^ e) by (rewrite <- IZR_e; apply IZR_le; auto).
  assert (P := pow_pos k). assert (P2 := pow_one (4 * e - k)). assert (P3 := pow_pos e).
  apply Rle_trans with (2 ^ e * 2 ^ k); [apply Rmult_le_compat_r; lra|]. apply Rmult_le_compat_l; [lra|]. 
  rewrite <- (Rmult_1_r (2 ^ k)) at 1. apply Rmult_le_compat_l; lra.
Qed.
(** Products with the scale of the grid. *)
Lemma pow_up : forall z k, (z <= 2 ^ zi e)%Z -> IZR z * 2 ^ k <= 2 ^ (e + k).
Proof. intros z k Hz. rewrite pow_add. apply Rmult_le_compat_r; [apply Rlt_le, pow_pos|]. rewrite <- IZR_e. apply IZR_le. auto. Qed.
Lemma huge_one : 1 <= huge.
Proof. eapply Rle_trans; [|exact Hh]. apply pow_one. Qed.
Lemma M_one : (1 <= M)%Z.
Proof. assert (P := e_pos). lia. Qed.
Lemma rnd_grid : forall z k, (Z.abs z <= 2 ^ zi e)%Z -> rnd (IZR z * 2 ^ k) = IZR z * 2 ^ k.
Proof. intros. apply (rnd_int _ _ Hr). lia. Qed.
Lemma rnd_z : forall z, (Z.abs z <= 2 ^ zi e)%Z -> rnd (IZR z) = IZR z.
Proof. intros z Hz. generalize (rnd_grid z 0 Hz). simpl. rewrite Rmult_1_r. auto. Qed.
Lemma rnd_0 : rnd 0 = 0.
Proof. apply (rnd_z 0). assert (P := e_pos). simpl. lia. Qed.
Lemma rnd_1 : rnd 1 = 1.
Proof. apply (rnd_z 1). assert (P := e_pos). simpl. lia. Qed.
Lemma rnd_m1 : rnd (-1) = -1.
Proof. apply (rnd_z (-1)). assert (P := e_pos). simpl. lia. Qed.
Lemma unit_rnd : forall x, 0 <= x <= 1 -> 0 <= rnd x <= 1.
Proof. intros x H. split; [rewrite <- rnd_0|rewrite <- rnd_1]; apply (rnd_mono _ _ Hr); lra. Qed.
Lemma fin_unit : forall x, -1 <= x <= 1 -> finite_number huge x = Ok x.
Proof. intros. apply finite_ok. assert (P := huge_one). apply Rabs_le. lra. Qed.
Lemma rep_rnd : forall x, rep (rnd x).
Proof. intros. apply (rnd_idem _ _ Hr). Qed.
Lemma rep_0 : rep 0. Proof. exact rnd_0. Qed.
Lemma rep_1 : rep 1. Proof. exact rnd_1. Qed.
(** Rounding keeps bounds that are whole multiples of a power of two. *)
Lemma up : forall z k x, (Z.abs z <= 2 ^ zi e)%Z -> x <= IZR z * 2 ^ k -> rnd x <= IZR z * 2 ^ k.
Proof. intros. rewrite <- (rnd_grid z k) by auto. apply (rnd_mono _ _ Hr). auto. Qed.
Lemma low : forall z k x, (Z.abs z <= 2 ^ zi e)%Z -> - (IZR z * 2 ^ k) <= x -> - (IZR z * 2 ^ k) <= rnd x.
Proof.
  intros. rewrite Ropp_mult_distr_l, <- opp_IZR in *. rewrite <- (rnd_grid (- z) k) by (rewrite Z.abs_opp; auto). apply (rnd_mono _ _ Hr). auto.
Qed.
Lemma up_rep : forall x y, rep y -> x <= y -> rnd x <= y.
Proof. intros x y H L. rewrite <- H. apply (rnd_mono _ _ Hr). auto. Qed.
Lemma low_rep : forall x y, rep y -> y <= x -> y <= rnd x.
Proof. intros x y H L. rewrite <- H at 1. apply (rnd_mono _ _ Hr). auto. Qed.

Lemma reqb_true : forall x, reqb x 0 = true <-> x = 0.
Proof. intros. unfold reqb. destruct (Req_EM_T x 0); split; intros; auto; discriminate || contradiction. Qed.
Lemma reqb_false : forall x, x <> 0 -> reqb x 0 = false.
Proof. intros. unfold reqb. destruct (Req_EM_T x 0); auto. contradiction. Qed.
Lemma rleb_pos : forall x, 0 < x -> rleb x 0 = false.
Proof. intros. unfold rleb. destruct (Rle_dec x 0); auto. lra. Qed.

(** ** Back projection *)
Definition gathered (w prof : list R) (i : nat) : list R :=
  nth i w 0 :: map (fun j => nth (cell_of i j) prof 0) (seq 0 nprof).
Lemma gathered_length : forall w prof i, length (gathered w prof i) = S nprof.
Proof. intros. unfold gathered. cbn [length]. rewrite map_length, seq_length. auto. Qed.
Lemma gathered_S : forall w prof i j, (j < nprof)%nat -> nth (S j) (gathered w prof i) 0 = nth (cell_of i j) prof 0.
Proof. intros. unfold gathered. cbn [nth]. rewrite nth_map_seq; auto. Qed.

Lemma back_project_f : forall (w prof : list R) z, length w = npart -> length prof = all ->
  (0 <= z)%Z -> (z + zi nprof <= 2 ^ zi e)%Z ->
  (forall i, (i < npart)%nat -> 0 <= nth i w 0 <= IZR z * 2 ^ e /\ rep (nth i w 0)) ->
  (forall c, (c < all)%nat -> - 2 ^ e <= nth c prof 0 <= 2 ^ e /\ rep (nth c prof 0)) ->
  exists w' : list R, back_projectA A w fpl prof npart nprof = Ok w' /\ length w' = npart /\
    forall i, (i < npart)%nat -> ordered_sum rnd huge order (gathered w prof i) = Ok (nth i w' 0) /\
      nth i w' 0 <= IZR (z + zi nprof) * 2 ^ e /\ rep (nth i w' 0).
Proof.
  intros w prof z Lw Lp Hz0 Hz Bw Bp.
  apply (for_each npart _ (fun i y => ordered_sum rnd huge order (gathered w prof i) = Ok y /\ y <= IZR (z + zi nprof) * 2 ^ e /\ rep y) w Lw).
  intros i a Hi La Ea. 
  assert (E : mapM (fun j => k <- get fpl (zi (i * nprof + j)) ;; get prof k) (seq 0 nprof) = Ok (map (fun j => nth (cell_of i j) prof 0) (seq 0 nprof))).
  { apply mapM_ok_map. intros j Hj. apply in_seq in Hj. rewrite get_fp by lia. cbn [bind]. apply get_at. rewrite Lp. apply cell_lt; lia. }
  cbn [num rounded]. rewrite E. cbn [bind]. rewrite get_at by lia. cbn [bind]. rewrite Ea.
  change (nth i w 0 :: map (fun j => nth (cell_of i j) prof 0) (seq 0 nprof)) with (gathered w prof i).
  assert (Zs : forall c : Z, zs (fun k => match k with O => c | S _ => 1%Z end) (seq 0 (S nprof)) = (c + zi nprof)%Z).
  { intros c. cbn [seq]. change (0%nat :: seq 1 nprof) with ([0%nat] ++ seq 1 nprof). rewrite zs_app.
    rewrite (zs_ext _ (fun _ => 1%Z) (seq 1 nprof)); [rewrite zs_const, seq_length; unfold zs; cbn [map fold_right]; lia|].
    intros k Hk. apply in_seq in Hk. destruct k; [lia|auto]. }
  destruct (osum_bounds rnd M huge (rnd_mono _ _ Hr) (rnd_int _ _ Hr) order Ho e (gathered w prof i)
    (fun k => match k with O => 0 | S _ => 1 end)%Z (fun k => match k with O => z | S _ => 1 end)%Z) as (y & Ey & By).
  - rewrite gathered_length. intros [|j] Hj.
    + split; [lia|]. split; [lia|]. unfold gathered. cbn [nth]. destruct (Bw i Hi). lra.
    + rewrite gathered_S by lia. split; [lia|]. split; [lia|]. destruct (Bp (cell_of i j)); [apply cell_lt; lia|lra].
  - rewrite gathered_length, Zs. lia.
  - rewrite gathered_length, Zs. lia.
  - rewrite gathered_length, Zs. apply pow_huge; lia.
  - rewrite gathered_length, Zs. apply pow_huge; lia.
  - exists y. cbn [a_sum rounded]. rewrite Ey. cbn [bind]. split; [apply set_at; lia|]. split; auto.
    rewrite gathered_length, !Zs in By. split; [lra|].
    apply (osum_number rnd huge order Ho (gathered w prof i) y); auto; [|apply rep_rnd|apply rep_0].
    rewrite gathered_length. intros [|j] Hj; [apply (Bw i Hi)|]. rewrite gathered_S by lia. apply Bp. apply cell_lt; lia.
Qed.

(** ** Clipping *)
Definition pos (x : R) : R := if Rlt_dec x 0 then 0 else x.
Lemma pos_nonneg : forall x, 0 <= pos x.
Proof. intros. unfold pos. destruct (Rlt_dec x 0); lra. Qed.
Lemma clip_f : forall w : list R, length w = npart ->
  exists w' : list R, clipA A w npart = Ok w' /\ length w' = npart /\ forall i, (i < npart)%nat -> nth i w' 0 = pos (nth i w 0).
Proof.
  intros w Lw. apply (for_each npart _ (fun i y => y = pos (nth i w 0)) w Lw).
  intros i a Hi La Ea. rewrite get_at by lia. cbn [bind a_lt a_zero rounded]. exists (pos (nth i a 0)). split; [|congruence].
  unfold rltb, pos. destruct (Rlt_dec (nth i a 0) 0).
  - apply set_at. lia.
  - rewrite upd_same. auto.
Qed.

(** ** The sum of the weights *)
Lemma check_f : forall w : list R, length w = npart ->
  (forall i, (i < npart)%nat -> 0 <= nth i w 0 <= 2 ^ (2 * e) /\ rep (nth i w 0)) ->
  (check_sumA A w npart = Ok tt /\ exists i, (i < npart)%nat /\ 0 < nth i w 0) \/
  (check_sumA A w npart = Fail (Raised RuntimeError) /\ forall i, (i < npart)%nat -> nth i w 0 = 0).
Proof.
  intros w Lw Bw. unfold check_sumA. rewrite gets_at by lia. cbn [bind a_sum rounded].
  set (l := map (fun i => nth i w 0) (seq 0 npart)).
  assert (Ll : length l = npart) by (unfold l; rewrite map_length, seq_length; auto).
  assert (Nl : forall i, (i < npart)%nat -> nth i l 0 = nth i w 0) by (intros; unfold l; rewrite nth_map_seq; auto).
  destruct (osum_uniform rnd M huge (rnd_mono _ _ Hr) (rnd_int _ _ Hr) order Ho (2 * e) l 1) as (s & E & B); try lia.
  - rewrite Ll. intros i Hi. rewrite Nl by auto. destruct (Bw i Hi). lra.
  - rewrite Ll. apply pow_huge; lia.
  - rewrite E. cbn [bind a_le a_zero rounded].
    destruct (osum_pos rnd huge (rnd_mono _ _ Hr) order Ho l s) as (S1 & S2 & S3); auto.
    { rewrite Ll. intros i Hi. rewrite Nl by auto. destruct (Bw i Hi). split; [lra|auto]. }
    { apply rep_rnd. } { apply rep_0. }
    unfold rleb. destruct (Rle_dec s 0) as [Hs|Hs].
    + right. split; auto. intros i Hi. assert (K := S3 i ltac:(lia)). rewrite Nl in K by auto. destruct (Bw i Hi). lra.
    + left. split; auto.
      assert (D : forall n, (n <= npart)%nat -> (exists i, (i < n)%nat /\ 0 < nth i w 0) \/ (forall i, (i < n)%nat -> nth i w 0 = 0)).
      { induction n; intros Hn; [right; intros; lia|]. destruct IHn as [(i & Hi & K)|K]; [lia|left; exists i; split; [lia|auto]|].
        destruct (Bw n) as [B1 _]; [lia|]. destruct (Req_dec (nth n w 0) 0) as [Z|Z].
        - right. intros i Hi. destruct (Nat.eq_dec i n); [subst; auto|]. apply K. lia.
        - left. exists n. split; [lia|lra]. }
      destruct (D npart) as [D1|D1]; auto. exfalso. apply Hs. right.
      assert (E0 : ordered_sum rnd huge order l = Ok 0).
      { apply (osum_zero rnd M huge (rnd_mono _ _ Hr) (rnd_int _ _ Hr) order Ho); [rewrite Ll; intros; rewrite Nl by auto; auto| |].
        - assert (P := M_one). lia. 
        - assert (P := huge_one). lra. }
      congruence.
Qed.

(** ** Scattering over the bins *)
Lemma scatter : forall (P : nat -> R -> Prop) (v : nat -> R) (body : nat -> nat -> list R -> res (list R)) l, length l = all ->
  (forall n x, P n x -> P (S n) x) -> (forall c, (c < all)%nat -> P 0%nat (nth c l 0)) ->
  (forall i j a, (i < npart)%nat -> (j < nprof)%nat -> length a = all -> P i (nth (cell_of i j) a 0) ->
     exists y, body i j a = Ok (upd a (cell_of i j) y) /\ P (S i) y /\ v i <= y /\ nth (cell_of i j) a 0 <= y) ->
  exists l', for_ 0 npart (fun i a => for_ 0 nprof (body i) a) l = Ok l' /\ length l' = all /\
    (forall c, (c < all)%nat -> P npart (nth c l' 0)) /\
    (forall i j, (i < npart)%nat -> (j < nprof)%nat -> v i <= nth (cell_of i j) l' 0) /\
    (forall c, nth c l 0 <= nth c l' 0).
Proof.
  intros P v body l Ll HS H0 HB.
  apply (for_inv _ (fun i a => length a = all /\ (forall c, (c < all)%nat -> P i (nth c a 0)) /\
    (forall i' j, (i' < i)%nat -> (j < nprof)%nat -> v i' <= nth (cell_of i' j) a 0) /\ (forall c, nth c l 0 <= nth c a 0))).
  - repeat split; auto; intros; try lia. lra.
  - intros i a Hi (La & Pa & Va & Ma).
    destruct (for_inv _ (fun j b => length b = all /\
      (forall c, (c < all)%nat -> P (if (c / nbins <? j)%nat then S i else i) (nth c b 0)) /\
      (forall j', (j' < j)%nat -> v i <= nth (cell_of i j') b 0) /\ (forall c, nth c a 0 <= nth c b 0)) (body i) nprof 0 a)
      as (b & Eb & Lb & Pb & Vb & Mb).
    + split; [auto|]. split; [|split; [intros; lia|intros; lra]]. intros c Hc. destruct (Nat.ltb_spec (c / nbins) 0); [lia|auto].
    + intros j b Hj (Lb & Pb & Vb & Mb).
      assert (Hc : (cell_of i j < all)%nat) by (apply cell_lt; lia).
      assert (Hd : (cell_of i j / nbins = j)%nat).
      { unfold cell_of. rewrite Nat.div_add_l by lia. rewrite Nat.div_small by (apply bin_ok; lia). lia. }
      destruct (HB i j b) as (y & Ey & Py & Vy & My); auto; try lia.
      { specialize (Pb _ Hc). rewrite Hd in Pb. destruct (Nat.ltb_spec j j); [lia|auto]. }
      exists (upd b (cell_of i j) y). split; auto. rewrite upd_length. split; auto. split; [|split].
      * intros c Hcc. rewrite nth_upd by lia. destruct (Nat.eqb_spec c (cell_of i j)) as [->|N].
        -- rewrite Hd. destruct (Nat.ltb_spec j (S j)); [auto|lia].
        -- specialize (Pb c Hcc). destruct (Nat.ltb_spec (c / nbins) j), (Nat.ltb_spec (c / nbins) (S j)); auto; lia.
      * intros j' Hj'. rewrite nth_upd by lia. destruct (Nat.eqb_spec (cell_of i j') (cell_of i j)) as [E|N]; auto.
        apply Vb. destruct (Nat.eq_dec j' j); [subst; congruence|lia].
      * intros c. rewrite nth_upd by lia. destruct (Nat.eqb_spec c (cell_of i j)) as [->|N]; auto.
        eapply Rle_trans; [apply Mb|auto].
    + exists b. split; auto. split; auto. split; [|split].
      * intros c Hc. specialize (Pb c Hc). destruct (Nat.ltb_spec (c / nbins) (0 + nprof)) as [|K]; auto.
      * intros i' j Hi' Hj. destruct (Nat.eq_dec i' i) as [->|N]; [apply Vb; lia|].
        eapply Rle_trans; [apply (Va i' j); lia|apply Mb].
      * intros c. eapply Rle_trans; [apply Ma|apply Mb].
Qed.

(** ** Projection *)
Lemma project_f : forall rec w : list R, length rec = all -> length w = npart ->
  (forall c, (c < all)%nat -> 0 <= nth c rec 0 <= 1 /\ rep (nth c rec 0)) ->
  (forall i, (i < npart)%nat -> 0 <= nth i w 0 <= 2 ^ (2 * e) /\ rep (nth i w 0)) ->
  exists rec' : list R, projectA A rec fpl w npart nprof = Ok rec' /\ length rec' = all /\
    (forall c, (c < all)%nat -> 0 <= nth c rec' 0 <= 2 ^ (3 * e) /\ rep (nth c rec' 0)) /\
    (forall i j, (i < npart)%nat -> (j < nprof)%nat -> nth i w 0 <= nth (cell_of i j) rec' 0) /\
    (forall c, nth c rec 0 <= nth c rec' 0).
Proof.
  intros rec w Lr Lw Br Bw. assert (P2 := pow_one (2 * e)).
  destruct (scatter (fun n x => 0 <= x <= IZR (zi (n + 1)) * 2 ^ (2 * e) /\ rep x) (fun i => nth i w 0)
    (fun i j rec => k <- get fpl (zi (i * nprof + j)) ;; w <- get w (zi i) ;; x <- get rec k ;; y <- a_add A x w ;; set rec k y) rec Lr)
    as (rec' & E & L & P & V & Mo).
  - intros n x [[H1 H2] H3]. repeat split; auto. eapply Rle_trans; [exact H2|]. apply Rmult_le_compat_r; [lra|]. apply IZR_le. lia.
  - intros c Hc. destruct (Br c Hc) as [[H1 H2] H3]. repeat split; auto. change (zi (0 + 1)) with 1%Z. lra.
  - intros i j a Hi Hj La [[H1 H2] H3]. rewrite get_fp by auto. cbn [bind]. rewrite get_at by lia. cbn [bind].
    assert (Hc := cell_lt i j Hi Hj). rewrite get_at by lia. cbn [bind a_add rounded].
    destruct (Bw i Hi) as [[W1 W2] W3]. set (x := nth (cell_of i j) a 0) in *. set (y := rnd (x + nth i w 0)).
    assert (Ly : x <= y) by (apply low_rep; auto; lra). assert (Wy : nth i w 0 <= y) by (apply low_rep; auto; lra).
    assert (Uy : y <= IZR (zi (S i + 1)) * 2 ^ (2 * e)).
    { apply up; [lia|]. replace (zi (S i + 1)) with (zi (i + 1) + 1)%Z by lia. rewrite plus_IZR. lra. }
    exists y. rewrite finite_ok.
    + cbn [bind]. split; [apply set_at; lia|]. split; auto. split; [lra|apply rep_rnd].
    + rewrite Rabs_right by lra. eapply Rle_trans; [exact Uy|]. apply pow_huge; lia.
  - exists rec'. split; [exact E|]. split; auto. split; auto. intros c Hc. destruct (P c Hc) as [[H1 H2] H3]. repeat split; auto.
    eapply Rle_trans; [exact H2|]. replace (3 * e)%nat with (e + 2 * e)%nat by lia. apply pow_up. auto.
Qed.

(** ** Normalization *)
Lemma div_f : forall x s, rep x -> rep s -> 0 <= x <= s -> 0 < s -> a_div A x s = Ok (quot x s) /\ 0 <= quot x s <= 1 /\ rep (quot x s).
Proof.
  intros x s Rx Rs H Hs. assert (B : 0 <= quot x s <= 1) by (split; [apply (q_nonneg _ _ Hq); lra|apply (q_one _ _ Hq); auto]).
  cbn [a_div rounded]. destruct (Req_EM_T s 0); [lra|]. rewrite fin_unit by lra. repeat split; try lra. apply (q_number _ _ Hq).
Qed.

Lemma normalize_f : forall rec : list R, length rec = all ->
  (forall c, (c < all)%nat -> 0 <= nth c rec 0 <= 2 ^ (3 * e) /\ rep (nth c rec 0)) ->
  (forall i, (i < nprof)%nat -> exists j, (j < nbins)%nat /\ 0 < nth (i * nbins + j) rec 0) ->
  exists rec' : list R, length rec' = all /\ (forall c, (c < all)%nat -> 0 <= nth c rec' 0 <= 1 /\ rep (nth c rec' 0)) /\
    (forall i, (i < nprof)%nat -> exists s, 0 < s /\ ordered_sum rnd huge order (map (fun j => nth (i * nbins + j) rec 0) (seq 0 nbins)) = Ok s /\
       forall j, (j < nbins)%nat -> nth (i * nbins + j) rec' 0 = quot (nth (i * nbins + j) rec 0) s) /\
    forall order', orders order' -> normalizeA A (ordered_sum rnd huge order') rec nprof nbins = Ok rec'.
Proof.
  intros rec Lr Br Hpos.
  assert (nb_le : (zi nbins <= 2 ^ zi e)%Z) by nia. assert (np_le : (zi nprof <= 2 ^ zi e)%Z) by nia.
  set (body := fun i (st : list R * list R * bool) => let '(rec, sums, fin) := st in
    row <- gets rec (i * nbins) nbins ;; s <- a_sum A row ;;
    if a_eq A s (a_zero A) then Ok (rec, sums ++ [s], false)
    else rec <- for_ 0 nbins (fun j rec => x <- get rec (zi (i * nbins + j)) ;; y <- a_div A x s ;; set rec (zi (i * nbins + j)) y) rec ;;
      Ok (rec, sums ++ [s], fin)).
  destruct (for_inv _ (fun i st => let '(a, sums, fin) := st in fin = true /\ length a = all /\ length sums = i /\
     (forall k, (k < i)%nat -> 0 < nth k sums 0 <= 2 ^ (4 * e) /\ rep (nth k sums 0)) /\
     (forall c, (c < i * nbins)%nat -> 0 <= nth c a 0 <= 1 /\ rep (nth c a 0)) /\
     (forall k, (k < i)%nat -> exists s, 0 < s /\ ordered_sum rnd huge order (map (fun j => nth (k * nbins + j) rec 0) (seq 0 nbins)) = Ok s /\
       forall j, (j < nbins)%nat -> nth (k * nbins + j) a 0 = quot (nth (k * nbins + j) rec 0) s) /\
     (forall c, (i * nbins <= c)%nat -> nth c a 0 = nth c rec 0)) body nprof 0%nat (rec, [], true)) as ([[a sums] fin] & E & F & La & Ls & Ss & Ba & Qa & _).
  - repeat split; auto; intros; try lia.
  - intros i [[a sums] fin] Hi (F & La & Ls & Ss & Ba & Qa & Ua). unfold body at 1.
    assert (Hi' : (i * nbins + nbins <= all)%nat) by nia.
    rewrite gets_at by lia. cbn [bind a_sum rounded].
    assert (El : map (fun k => nth k a 0) (seq (i * nbins) nbins) = map (fun j => nth (i * nbins + j) rec 0) (seq 0 nbins)).
    { apply (nth_ext _ _ 0 0); rewrite !map_length, !seq_length; auto. intros j Hj. rewrite !nth_map_seq by auto. apply Ua. simpl. lia. }
    rewrite El. set (l := map (fun j => nth (i * nbins + j) rec 0) (seq 0 nbins)).
    assert (Ll : length l = nbins) by (unfold l; rewrite map_length, seq_length; auto).
    assert (Nl : forall j, (j < nbins)%nat -> nth j l 0 = nth (i * nbins + j) rec 0) by (intros; unfold l; rewrite nth_map_seq; auto).
    assert (Bl : forall j, (j < nbins)%nat -> 0 <= nth j l 0 <= 2 ^ (3 * e) /\ rep (nth j l 0)) by (intros; rewrite Nl by auto; apply Br; nia).
    destruct (osum_uniform rnd M huge (rnd_mono _ _ Hr) (rnd_int _ _ Hr) order Ho (3 * e) l 1) as (s & Es & Bs); try lia.
    { rewrite Ll. intros j Hj. destruct (Bl j Hj). lra. } { rewrite Ll. apply pow_huge; lia. }
    destruct (osum_pos rnd huge (rnd_mono _ _ Hr) order Ho l s) as (S1 & S2 & S3); auto.
    { rewrite Ll. intros j Hj. destruct (Bl j Hj). split; [lra|auto]. } { apply rep_rnd. } { apply rep_0. }
    assert (Sp : 0 < s). { destruct (Hpos i) as (j & Hj & K); [lia|]. specialize (S3 j ltac:(lia)). rewrite Nl in S3 by auto. lra. }
    rewrite Es. cbn [bind a_eq a_zero rounded]. rewrite (reqb_false s) by lra.
    destruct (for_each_from (i * nbins) nbins (fun j rec => x <- get rec (zi (i * nbins + j)) ;; y <- a_div A x s ;; set rec (zi (i * nbins + j)) y)
      (fun j y => y = quot (nth (i * nbins + j) rec 0) s) a) as (a' & Ea' & La' & Qa' & Ua').
    { lia. }
    { intros j b Hj Lb Eb. rewrite get_at by lia. cbn [bind]. rewrite Eb, Ua by lia.
      destruct (div_f (nth (i * nbins + j) rec 0) s) as (D1 & D2 & D3); auto.
      { apply Br. lia. } { assert (K := S3 j ltac:(lia)). rewrite Nl in K by auto. split; auto. apply Br. lia. }
      exists (quot (nth (i * nbins + j) rec 0) s). rewrite D1. cbn [bind]. split; auto. apply set_at. lia. }
    cbn [num rounded] in Ea' |- *. rewrite Ea'. cbn [bind]. eexists. split; [reflexivity|].
    split; auto. split; [lia|]. split; [rewrite app_length; simpl; lia|]. split; [|split; [|split]].
    + intros k Hk. destruct (Nat.eq_dec k i) as [->|N].
      * rewrite app_nth2 by lia. rewrite Ls, Nat.sub_diag. simpl nth. split; auto. split; auto.
        eapply Rle_trans; [apply Bs|]. rewrite Ll. replace (4 * e)%nat with (e + 3 * e)%nat by lia. apply pow_up. lia.
      * rewrite app_nth1 by lia. apply Ss. lia.
    + intros c Hc. destruct (Nat.lt_ge_cases c (i * nbins)).
      * rewrite Ua' by lia. apply Ba. auto.
      * replace c with (i * nbins + (c - i * nbins))%nat by lia. rewrite Qa' by (simpl in Hc; lia).
        set (j := (c - i * nbins)%nat). assert (Hj : (j < nbins)%nat) by (unfold j; simpl in Hc; lia).
        assert (K := S3 j ltac:(lia)). rewrite Nl in K by auto. apply div_f; auto; [apply Br; lia|]. split; auto. apply Br. lia.
    + intros k Hk. destruct (Nat.eq_dec k i) as [->|N].
      * exists s. split; auto.
      * destruct (Qa k) as (s' & P1 & P2 & P3); [lia|]. exists s'. split; auto. split; auto. intros j Hj. rewrite Ua' by nia. auto.
    + intros c Hc. rewrite Ua' by (simpl in Hc; lia). apply Ua. simpl in Hc. lia.
  - exists a. split; auto. split; [exact Ba|]. split; [exact Qa|]. intros order' Ho'. unfold normalizeA.
    match goal with |- bind ?x _ = _ => change x with (for_ 0 nprof body (rec, [], true)) end.
    rewrite E. cbn [bind]. simpl in Ls.
    destruct (osum_uniform rnd M huge (rnd_mono _ _ Hr) (rnd_int _ _ Hr) order' Ho' (4 * e) sums 1) as (s & Es & Bs); try lia.
    { rewrite Ls. intros k Hk. destruct (Ss k Hk). lra. } { rewrite Ls. apply pow_huge; lia. }
    destruct (osum_pos rnd huge (rnd_mono _ _ Hr) order' Ho' sums s) as (S1 & S2 & S3); auto.
    { rewrite Ls. intros k Hk. destruct (Ss k Hk). split; [lra|auto]. } { apply rep_rnd. } { apply rep_0. }
    rewrite Es. cbn [bind a_le a_zero rounded]. rewrite rleb_pos; [rewrite F; reflexivity|].
    specialize (S3 0%nat ltac:(lia)). destruct (Ss 0%nat); [lia|]. lra.
Qed.

(** ** Differences *)
Lemma difference_f : forall diff rec prof : list R, length diff = all -> length rec = all -> length prof = all ->
  (forall c, (c < all)%nat -> 0 <= nth c rec 0 <= 1 /\ rep (nth c rec 0)) ->
  (forall c, (c < all)%nat -> 0 <= nth c prof 0 <= 1 /\ rep (nth c prof 0)) ->
  exists d : list R, differenceA A diff rec prof all = Ok d /\ length d = all /\
    forall c, (c < all)%nat -> nth c d 0 = rnd (nth c prof 0 - nth c rec 0) /\ -1 <= nth c d 0 <= 1 /\ rep (nth c d 0).
Proof.
  intros diff rec prof Ld Lr Lp Br Bp.
  apply (for_each all _ (fun c y => y = rnd (nth c prof 0 - nth c rec 0) /\ -1 <= y <= 1 /\ rep y) diff Ld).
  intros c a Hc La Ea. rewrite (get_at prof) by lia. cbn [bind]. rewrite (get_at rec) by lia. cbn [bind a_sub rounded].
  destruct (Br c Hc) as [[R1 R2] R3]. destruct (Bp c Hc) as [[P1 P2] P3].
  set (y := rnd (nth c prof 0 - nth c rec 0)).
  assert (By : -1 <= y <= 1). { unfold y. split; [rewrite <- rnd_m1|rewrite <- rnd_1]; apply (rnd_mono _ _ Hr); lra. }
  rewrite fin_unit by auto. cbn [bind]. exists y. split; [apply set_at; lia|]. split; [reflexivity|]. split; [auto|]. apply rep_rnd.
Qed.

Lemma discrepancy_f : forall d : list R, length d = all -> (forall c, (c < all)%nat -> -1 <= nth c d 0 <= 1) ->
  exists v, discrepancyA A d nprof nbins = Ok v /\ 0 <= v <= 1 /\ rep v.
Proof.
  intros d Ld Bd. unfold discrepancyA. rewrite gets_at by lia. cbn [bind a_sumsq rounded].
  set (l := map (fun x => wide (x * x)) (map (fun i => nth i d 0) (seq 0 all))).
  assert (Ll : length l = all) by (unfold l; rewrite !map_length, seq_length; auto).
  assert (W0 : wide 0 = 0). { assert (K := rnd_int _ _ Hw 0 0). simpl in K. rewrite Rmult_0_l in K. apply K. assert (P := M_one). lia. }
  assert (W1 : wide 1 = 1). { assert (K := rnd_int _ _ Hw 1 0). simpl in K. rewrite Rmult_1_r in K. apply K. apply M_one. }
  assert (Bl : forall c, (c < all)%nat -> 0 <= nth c l 0 <= 1).
  { intros c Hc. unfold l. rewrite map_map. rewrite (nth_map_seq (fun x => wide (nth x d 0 * nth x d 0)) 0 all c Hc). simpl Nat.add.
    assert (B := Bd c Hc). split; [rewrite <- W0|rewrite <- W1]; apply (rnd_mono _ _ Hw); nra. }
  destruct (osum_uniform (fun x => rnd (wide x)) M huge) with (order := order) (k := 0%nat) (l := l) (b := 1%Z) as (s & Es & Bs); auto; try lia.
  - intros x y Hxy. apply (rnd_mono _ _ Hr), (rnd_mono _ _ Hw). auto.
  - intros z k Hz. rewrite (rnd_int _ _ Hw) by auto. apply (rnd_int _ _ Hr). auto.
  - rewrite Ll. intros c Hc. assert (B := Bl c Hc). simpl. lra.
  - rewrite Ll. apply pow_huge; lia.
  - rewrite Es. cbn [bind]. rewrite Ll in Bs. rewrite Z.mul_1_l in Bs. simpl pow in Bs. rewrite Rmult_1_r in Bs.
    assert (Hn : 0 < IZR (zi all)) by (apply IZR_lt; nia).
    assert (Bn : IZR (zi all) <= huge). { assert (K := pow_huge (zi all) 0 Hall ltac:(lia)). simpl in K. lra. }
    assert (Rn : rep (IZR (zi all))) by (apply rnd_z; lia).
    assert (B2 : 0 <= rnd s <= IZR (zi all)). { split; [apply low_rep; [apply rep_0|lra]|apply up_rep; auto; lra]. }
    rewrite finite_ok by (rewrite Rabs_right; lra). cbn [bind a_int rounded]. rewrite Rn.
    rewrite finite_ok by (rewrite Rabs_right; lra). cbn [bind].
    destruct (div_f (rnd s) (IZR (zi all))) as (D1 & D2 & D3); auto; [apply rep_rnd|].
    cbn [a_div rounded] in D1 |- *. rewrite D1. cbn [bind a_sqrt rounded]. destruct (Rlt_dec (quot (rnd s) (IZR (zi all))) 0); [lra|].
    set (q := quot (rnd s) (IZR (zi all))) in *.
    assert (Bq : 0 <= sqrt q <= 1). { split; [apply sqrt_pos|]. rewrite <- sqrt_1. apply sqrt_le_1_alt. lra. }
    assert (Br := unit_rnd _ Bq). rewrite fin_unit by lra. exists (rnd (sqrt q)). split; auto. split; auto. apply rep_rnd.
Qed.

Definition factors_ok (rp : list R) : Prop := length rp = all /\ forall c, (c < all)%nat -> 0 <= nth c rp 0 <= 2 ^ e.

Lemma compensate_f : forall d rp : list R, length d = all -> factors_ok rp -> (forall c, (c < all)%nat -> -1 <= nth c d 0 <= 1) ->
  exists d' : list R, compensateA A d rp nprof nbins = Ok d' /\ length d' = all /\
    forall c, (c < all)%nat -> nth c d' 0 = rnd (nth c d 0 * nth c rp 0) /\ - 2 ^ e <= nth c d' 0 <= 2 ^ e /\ rep (nth c d' 0).
Proof.
  intros d rp Ld [Lp Bp] Bd. unfold compensateA.
  rewrite (for_nested _ (fun k diff => x <- get diff (zi k) ;; r <- get rp (zi k) ;; y <- a_mul A x r ;; set diff (zi k) y)).
  apply (for_each all _ (fun c y => y = rnd (nth c d 0 * nth c rp 0) /\ - 2 ^ e <= y <= 2 ^ e /\ rep y) d Ld).
  intros c a Hc La Ea. rewrite (get_at a) by lia. cbn [bind]. rewrite (get_at rp) by lia. cbn [bind a_mul rounded]. rewrite Ea.
  assert (B1 := Bd c Hc). assert (B2 := Bp c Hc). assert (P := e_pos).
  set (y := rnd (nth c d 0 * nth c rp 0)).
  assert (By : - 2 ^ e <= y <= 2 ^ e).
  { unfold y. split.
    - assert (K := low 1 e (nth c d 0 * nth c rp 0) ltac:(simpl; lia)). rewrite Rmult_1_l in K. apply K. nra.
    - assert (K := up 1 e (nth c d 0 * nth c rp 0) ltac:(simpl; lia)). rewrite Rmult_1_l in K. apply K. nra. }
  rewrite finite_ok.
  - cbn [bind]. exists y. split; [apply set_at; lia|]. split; [reflexivity|]. split; [auto|]. apply rep_rnd.
  - assert (K := pow_huge 1 e ltac:(lia) ltac:(lia)). rewrite Rmult_1_l in K. apply Rabs_le. lra.
Qed.

(** ** Compensation factors *)
Definition count_le (n : nat) (x : R) : Prop := exists z, x = IZR z /\ (0 <= z <= zi n)%Z.

Lemma count_f : exists rp : list R, countA A (repeat 0 all) xpl nprof npart nbins = Ok rp /\ length rp = all /\
  forall c, (c < all)%nat -> count_le npart (nth c rp 0).
Proof.
  destruct (scatter count_le (fun _ => 0) (fun i j rparts =>
      bin <- get xpl (zi (i * nprof + j)) ;;
      let k := (zi j * zi nbins + bin)%Z in
      x <- get rparts k ;;
      y <- a_add A x (a_one A) ;;
      set rparts k y) (repeat 0 all)) as (rp & E & L & P & _).
  - apply repeat_length.
  - intros n x (z & -> & Hz). exists z. split; auto. lia.
  - intros c Hc. exists 0%Z. split; [apply nth_repeat|lia].
  - intros i j a Hi Hj La (z & Hz & Bz). rewrite get_xp by auto. cbn [bind].
    replace (zi j * zi nbins + zi (bin i j))%Z with (zi (cell_of i j)) by (unfold cell_of; lia).
    assert (Hc := cell_lt i j Hi Hj). cbv zeta. rewrite get_at by lia. cbn [bind a_add a_one rounded]. rewrite Hz.
    replace (IZR z + 1) with (IZR (z + 1)) by (rewrite plus_IZR; lra). rewrite rnd_z by lia.
    assert (Hb : IZR (z + 1) <= huge). { assert (K := pow_huge (z + 1) 0 ltac:(lia) ltac:(lia)). simpl in K. lra. }
    assert (0 <= IZR (z + 1)) by (apply IZR_le; lia).
    rewrite finite_ok by (rewrite Rabs_right; lra). cbn [bind]. exists (IZR (z + 1)). split; [apply set_at; lia|].
    split; [exists (z + 1)%Z; split; auto; lia|]. split; auto. apply IZR_le. lia.
  - exists rp. auto.
Qed.

Lemma max_f : forall rp : list R, length rp = all -> (forall c, (c < all)%nat -> count_le npart (nth c rp 0)) ->
  exists m, max_1dA A rp all = Ok m /\ count_le npart m.
Proof.
  intros rp L P. apply (for_inv _ (fun _ m => count_le npart m)).
  - exists 0%Z. split; auto. lia.
  - intros c m Hc Hm. rewrite get_at by lia. cbn [bind]. eexists. split; [reflexivity|]. destruct (a_lt A m (nth c rp 0)); auto. apply P. lia.
Qed.
Lemma rtrunc_int : forall z, (0 <= z)%Z -> rtrunc (IZR z) = z.
Proof.
  intros z Hz. unfold rtrunc. destruct (Rle_dec 0 (IZR z)) as [_|N]; [|exfalso; apply N; apply IZR_le; auto].
  unfold Int_part. rewrite <- (tech_up (IZR z) (z + 1)); [lia| |]; rewrite plus_IZR; lra.
Qed.

Lemma reciprocal_f : exists rp : list R, reciprocalA A (repeat 0 all) xpl nbins nprof npart = Ok rp /\ factors_ok rp.
Proof.
  destruct count_f as (r1 & E1 & L1 & P1). unfold reciprocalA. rewrite E1. cbn [bind].
  destruct (max_f r1 L1 P1) as (m & Em & z & -> & Hz). rewrite Em. cbn [bind a_trunc rounded]. rewrite rtrunc_int by lia.
  destruct (for_each all (fun i rparts => x <- get rparts (zi i) ;; if a_eq A x (a_zero A) then set rparts (zi i) (a_one A) else Ok rparts)
    (fun _ y => exists z, y = IZR z /\ (1 <= z <= zi npart \/ z = 1)%Z) r1 L1) as (r2 & E2 & L2 & P2).
  { intros c a Hc La Ea. rewrite get_at by lia. cbn [bind a_eq a_zero a_one rounded]. destruct (P1 c Hc) as (y & Hy & By). rewrite Ea, Hy.
    unfold reqb. destruct (Req_EM_T (IZR y) 0) as [Z|Z].
    - exists 1. split; [apply set_at; lia|]. exists 1%Z. split; auto.
    - exists (nth c a 0). rewrite upd_same. split; auto. exists y. rewrite Ea. split; auto. left.
      destruct (Z.eq_dec y 0) as [->|]; [exfalso; apply Z; auto|lia]. }
  cbn [num rounded] in E2 |- *. rewrite E2. cbn [bind].
  rewrite (for_nested _ (fun k rparts => x <- get rparts (zi k) ;; m <- a_int A z ;; q <- a_div A m x ;; set rparts (zi k) q)).
  assert (Bz : IZR z <= huge). { assert (K := pow_huge z 0 ltac:(lia) ltac:(lia)). simpl in K. lra. }
  assert (Z0 : 0 <= IZR z) by (apply IZR_le; lia).
  assert (Rz : rep (IZR z)) by (apply rnd_z; lia).
  destruct (for_each all (fun k rparts => x <- get rparts (zi k) ;; m <- a_int A z ;; q <- a_div A m x ;; set rparts (zi k) q)
    (fun _ y => 0 <= y <= IZR z) r2 L2) as (r3 & E3 & L3 & P3).
  { intros c a Hc La Ea. rewrite get_at by lia. cbn [bind a_int a_div rounded]. rewrite Rz. rewrite finite_ok by (rewrite Rabs_right; lra). cbn [bind].
    destruct (P2 c Hc) as (y & Hy & By). rewrite Ea, Hy.
    assert (Y1 : 1 <= IZR y) by (apply IZR_le; lia). destruct (Req_EM_T (IZR y) 0) as [F|_]; [lra|].
    assert (B : 0 <= quot (IZR z) (IZR y) <= IZR z).
    { assert (Q := e_pos). split; [apply (q_nonneg _ _ Hq); lra|apply (q_less _ _ Hq); auto]. apply rnd_z. lia. }
    rewrite finite_ok by (rewrite Rabs_right; lra). cbn [bind]. exists (quot (IZR z) (IZR y)). split; [apply set_at; lia|auto]. }
  exists r3. split; [exact E3|]. split; auto. intros c Hc. destruct (P3 c Hc). split; auto.
  eapply Rle_trans; [eassumption|]. rewrite <- IZR_e. apply IZR_le. lia.
Qed.

(** ** One iteration *)
Section Iteration.
Variables (prof rp : list R) (niter : nat).
Hypothesis Lprof : length prof = all.
Hypothesis Bprof : forall c, (c < all)%nat -> 0 <= nth c prof 0 <= 1 /\ rep (nth c prof 0).
Hypothesis Hrp : factors_ok rp.
Hypothesis Hit : (zi ((niter + 1) * nprof) <= 2 ^ zi e)%Z.

(** A particle that only visits bins without charge. *)
Definition unseen (i : nat) : Prop := forall j, (j < nprof)%nat -> nth (cell_of i j) prof 0 = 0.

(** The state before iteration it. *)
Record sound (it : nat) (s : fstate A) : Prop := Sound {
  s_lw : length (f_weights s) = npart;
  s_w : forall i, (i < npart)%nat -> 0 <= nth i (f_weights s : list R) 0 <= IZR (zi ((it + 1) * nprof)) * 2 ^ e /\ rep (nth i (f_weights s : list R) 0);
  s_pos : exists i, (i < npart)%nat /\ 0 < nth i (f_weights s : list R) 0;
  s_unseen : forall i, (i < npart)%nat -> unseen i -> nth i (f_weights s : list R) 0 = 0;
  s_lr : length (f_rec s) = all;
  s_r : forall c, (c < all)%nat -> 0 <= nth c (f_rec s : list R) 0 <= 1 /\ rep (nth c (f_rec s : list R) 0);
  s_ld : length (f_discr s) = S niter;
  s_d : forall k, (k < S niter)%nat -> 0 <= nth k (f_discr s : list R) 0 <= 1;
  s_df : length (f_diff s) = all }.

Lemma weights_cap : forall it (w : list R), (it <= niter)%nat ->
  (forall i, (i < npart)%nat -> 0 <= nth i w 0 <= IZR (zi ((it + 1) * nprof)) * 2 ^ e /\ rep (nth i w 0)) ->
  forall i, (i < npart)%nat -> 0 <= nth i w 0 <= 2 ^ (2 * e) /\ rep (nth i w 0).
Proof.
  intros it w Hi H i Hn. destruct (H i Hn) as [[H1 H2] H3]. repeat split; auto. eapply Rle_trans; [exact H2|].
  replace (2 * e)%nat with (e + e)%nat by lia. apply pow_up. nia.
Qed.

(** Projection and normalization of a sound state. *)
Lemma recreate_f : forall it s, sound it s -> (it <= niter)%nat ->
  exists rec rec' : list R, projectA A (f_rec s) fpl (f_weights s) npart nprof = Ok rec /\ length rec' = all /\
    (forall c, (c < all)%nat -> 0 <= nth c rec' 0 <= 1 /\ rep (nth c rec' 0)) /\
    (forall c, (c < all)%nat -> 0 <= nth c rec 0 /\ rep (nth c rec 0)) /\
    (forall i, (i < nprof)%nat -> exists s, 0 < s /\ ordered_sum rnd huge order (map (fun j => nth (i * nbins + j) rec 0) (seq 0 nbins)) = Ok s /\
       forall j, (j < nbins)%nat -> nth (i * nbins + j) rec' 0 = quot (nth (i * nbins + j) rec 0) s) /\
    forall reduce, thread_sums rnd huge reduce -> forall k, normalizeA A (reduce k) rec nprof nbins = Ok rec'.
Proof.
  intros it s HS Hi. destruct HS as [lw w0 (i0 & Hi0 & P0) _ lr r0 _ _ _].
  destruct (project_f (f_rec s) (f_weights s)) as (rec & E & L & B & V & _); auto. { apply (weights_cap it); auto. }
  destruct (normalize_f rec L B) as (rec' & L' & B' & Q' & N').
  { intros j Hj. exists (bin i0 j). split; [apply bin_ok; auto|]. specialize (V i0 j Hi0 Hj). unfold cell_of in V. lra. }
  exists rec, rec'. split; auto. split; auto. split; auto. split; [intros c Hc; destruct (B c Hc); split; [lra|auto]|]. split; auto.
  intros reduce (order' & Ho' & Hred) k.
  transitivity (normalizeA A (ordered_sum rnd huge (order' k)) rec nprof nbins); [|auto].
  unfold normalizeA. match goal with |- bind ?x _ = bind ?y _ => change y with x; destruct x as [[[a b] c]|] end; auto. cbn [bind]. rewrite Hred. reflexivity.
Qed.

Lemma discr_f : forall it s d, sound it s -> (it <= niter)%nat -> 0 <= d <= 1 ->
  exists l : list R, set (f_discr s) (zi it) d = Ok l /\ length l = S niter /\ (forall k, (k < S niter)%nat -> 0 <= nth k l 0 <= 1) /\ nth it l 0 = d.
Proof.
  intros it s d HS Hi Hd. destruct HS as [_ _ _ _ _ _ ld d0 _]. exists (upd (f_discr s) it d).
  split; [apply set_at; cbn [num rounded] in *; lia|]. split; [rewrite upd_length; auto|]. split.
  - intros k Hk. rewrite nth_upd by (cbn [num rounded] in *; lia). destruct (Nat.eqb_spec k it); auto.
  - rewrite nth_upd by (cbn [num rounded] in *; lia). rewrite Nat.eqb_refl. auto.
Qed.

Lemma iteration_f : forall it s, sound it s -> (it < niter)%nat ->
  exists r, (forall reduce, thread_sums rnd huge reduce -> iterationA A reduce fpl prof rp nbins npart nprof it s = r) /\
    match r with Ok s' => sound (S it) s' | Fail x => x = Raised RuntimeError end.
Proof.
  intros it s HS Hi. destruct (recreate_f it s HS ltac:(lia)) as (rec & rec' & E1 & L' & B' & _ & _ & N).
  assert (HS' := HS). destruct HS' as [lw w0 p0 u0 lr r0 ld d0 ldf].
  destruct (difference_f (f_diff s) rec' prof) as (df & E2 & Ldf & Bdf); auto.
  assert (Bdf1 : forall c, (c < all)%nat -> -1 <= nth c df 0 <= 1) by (intros; apply Bdf; auto).
  destruct (discrepancy_f df Ldf Bdf1) as (d & E3 & Bd & _).
  destruct (discr_f it s d HS ltac:(lia) Bd) as (dl & E4 & Ldl & Bdl & _).
  destruct (compensate_f df rp Ldf Hrp Bdf1) as (cd & E5 & Lcd & Bcd).
  destruct (back_project_f (f_weights s) cd (zi ((it + 1) * nprof))) as (w1 & E6 & L1 & B1); auto; try lia.
  { nia. } { intros c Hc. destruct (Bcd c Hc) as (_ & ? & ?). auto. }
  destruct (clip_f w1 L1) as (w2 & E7 & L2 & B2).
  assert (C2 : forall i, (i < npart)%nat -> 0 <= nth i w2 0 <= IZR (zi ((S it + 1) * nprof)) * 2 ^ e /\ rep (nth i w2 0)).
  { intros i Hn. rewrite B2 by auto. destruct (B1 i Hn) as (_ & U & Rp). unfold pos. destruct (Rlt_dec (nth i w1 0) 0).
    - split; [|apply rep_0]. split; [lra|]. apply Rmult_le_pos; [apply IZR_le; lia|apply Rlt_le, pow_pos].
    - split; auto. split; [lra|]. replace (zi ((S it + 1) * nprof)) with (zi ((it + 1) * nprof) + zi nprof)%Z by lia. auto. }
  assert (F : forall reduce, thread_sums rnd huge reduce -> iterationA A reduce fpl prof rp nbins npart nprof it s =
    (_ <- check_sumA A w2 npart ;; Ok (FState (w2 : list (num A)) rec' dl cd))).
  { intros reduce Hred. unfold iterationA. cbn [num rounded] in *. rewrite E1. cbn [bind]. rewrite (N reduce Hred). cbn [bind].
    rewrite E2. cbn [bind]. rewrite E3. cbn [bind]. rewrite E4. cbn [bind]. rewrite E5. cbn [bind]. rewrite E6. cbn [bind]. rewrite E7. reflexivity. }
  exists (_ <- check_sumA A w2 npart ;; Ok (FState (w2 : list (num A)) rec' dl cd)). split; auto.
  destruct (check_f w2 L2 (weights_cap (S it) w2 ltac:(lia) C2)) as [[E8 P8]|[E8 _]]; rewrite E8; cbn [bind]; auto.
  constructor; cbn [f_weights f_rec f_discr f_diff]; auto.
  intros i Hn Hu. rewrite B2 by auto. destruct (B1 i Hn) as (K & _ & _).
  destruct (osum_bounds rnd M huge (rnd_mono _ _ Hr) (rnd_int _ _ Hr) order Ho e (gathered (f_weights s) cd i)
    (fun k => match k with O => 0 | S _ => 1 end)%Z (fun _ => 0%Z)) as (y & Ey & By).
  - rewrite gathered_length. intros [|j] Hj.
    + split; [lia|]. split; [lia|]. unfold gathered. cbn [nth]. rewrite (u0 i Hn Hu). simpl. lra.
    + rewrite gathered_S by lia. split; [lia|]. split; [lia|].
      assert (Hc : (cell_of i j < all)%nat) by (apply cell_lt; lia).
      destruct (Bcd _ Hc) as (Q1 & Q2 & _). split; [lra|].
      destruct (Bdf _ Hc) as (Q3 & _). rewrite (Hu j) in Q3 by lia. destruct (B' _ Hc) as [B'1 _]. destruct Hrp as [_ Hrp2]. specialize (Hrp2 _ Hc).
      assert (D0 : nth (cell_of i j) df 0 <= 0) by (rewrite Q3; apply up_rep; [apply rep_0|lra]).
      rewrite Q1. rewrite Rmult_0_l. apply up_rep; [apply rep_0|]. nra.
  - rewrite gathered_length. change (seq 0 (S nprof)) with ([0%nat] ++ seq 1 nprof). rewrite zs_app.
    rewrite (zs_ext _ (fun _ => 1%Z) (seq 1 nprof)); [rewrite zs_const, seq_length; unfold zs; cbn [map fold_right]; nia|].
    intros k Hk. apply in_seq in Hk. destruct k; [lia|auto].
  - rewrite zs_const. assert (P := M_one). lia.
  - rewrite gathered_length. change (seq 0 (S nprof)) with ([0%nat] ++ seq 1 nprof). rewrite zs_app.
    rewrite (zs_ext _ (fun _ => 1%Z) (seq 1 nprof)); [rewrite zs_const, seq_length; unfold zs; cbn [map fold_right]; apply pow_huge; nia|].
    intros k Hk. apply in_seq in Hk. destruct k; [lia|auto].
  - rewrite zs_const, Z.mul_0_l. assert (P := huge_one). lra.
  - assert (y = nth i w1 0) by congruence. subst y. rewrite zs_const, Z.mul_0_l in By. unfold pos. destruct (Rlt_dec (nth i w1 0) 0); auto. lra.
Qed.

Lemma loop_f : forall n it s, sound it s -> (it + n <= niter)%nat ->
  exists r, (forall reduce, thread_sums rnd huge reduce -> for_ it n (iterationA A reduce fpl prof rp nbins npart nprof) s = r) /\
    match r with Ok s' => sound (it + n) s' | Fail x => x = Raised RuntimeError end.
Proof.
  induction n; intros it s HS Hn.
  - exists (Ok s). split; auto. rewrite Nat.add_0_r. auto.
  - destruct (iteration_f it s HS ltac:(lia)) as (r & E & P). destruct r as [s'|x].
    + destruct (IHn (S it) s' P ltac:(lia)) as (r & E' & P'). exists r. split.
      * intros reduce Hred. cbn [for_]. rewrite (E reduce Hred). cbn [bind]. auto.
      * replace (it + S n)%nat with (S it + n)%nat by lia. auto.
    + exists (Fail x). split; auto. intros reduce Hred. cbn [for_]. rewrite (E reduce Hred). reflexivity.
Qed.
End Iteration.

(** ** The whole reconstruction *)
Definition row_sums (s : fstate A) : Prop := forall i, (i < nprof)%nat ->
  exists l t, length l = nbins /\ 0 < t /\ ordered_sum rnd huge order l = Ok t /\ (forall j, (j < nbins)%nat -> 0 <= nth j l 0 /\ rep (nth j l 0)) /\
    forall j, (j < nbins)%nat -> nth (i * nbins + j) (f_rec s : list R) 0 = quot (nth j l 0) t.

Lemma reconstruct_f : forall (prof : list R) niter, length prof = all ->
  (forall c, (c < all)%nat -> 0 <= nth c prof 0 <= 1 /\ rep (nth c prof 0)) -> (zi ((niter + 1) * nprof) <= 2 ^ zi e)%Z ->
  exists r, (forall reduce, thread_sums rnd huge reduce -> reconstructA A reduce xpl prof niter nbins npart nprof = r) /\
    match r with Ok s => sound prof niter niter s /\ row_sums s | Fail x => x = Raised RuntimeError end /\
    ((forall i, (i < npart)%nat -> unseen prof i) -> r = Fail (Raised RuntimeError)) /\
    ((exists i j, (i < npart)%nat /\ (j < nprof)%nat /\ 0 < nth (cell_of i j) prof 0) -> niter = 0%nat -> exists s, r = Ok s).
Proof.
  intros prof niter Lp Bp Hit.
  destruct reciprocal_f as (rp & E1 & Hrp).
  assert (Z0 : forall n c, nth c (repeat 0 n) 0 = 0) by (intros; apply nth_repeat).
  assert (P1 := pow_one e).
  destruct (back_project_f (repeat 0 npart) prof 0) as (w1 & E2 & L1 & B1); auto; try lia.
  { apply repeat_length. } { intros i Hi. rewrite Z0. split; [lra|apply rep_0]. }
  { intros c Hc. destruct (Bp c Hc). split; [lra|auto]. }
  assert (G : forall i, (i < npart)%nat -> rep (nth i w1 0) /\ 0 <= nth i w1 0 /\ forall j, (j < nprof)%nat -> nth (cell_of i j) prof 0 <= nth i w1 0).
  { intros i Hi. destruct (B1 i Hi) as (K & _ & _).
    destruct (osum_pos rnd huge (rnd_mono _ _ Hr) order Ho (gathered (repeat 0 npart) prof i) (nth i w1 0)) as (S1 & S2 & S3); auto; [|apply rep_rnd|apply rep_0|].
    - rewrite gathered_length. intros [|j] Hj.
      + unfold gathered. cbn [nth]. rewrite Z0. split; [lra|apply rep_0].
      + rewrite gathered_S by lia. destruct (Bp (cell_of i j)); [apply cell_lt; lia|]. split; [lra|auto].
    - split; auto. split; auto. intros j Hj. rewrite gathered_length in S3. specialize (S3 (S j) ltac:(lia)). rewrite gathered_S in S3 by auto. auto. }
  destruct (clip_f w1 L1) as (w2 & E3 & L2 & B2).
  assert (E12 : forall i, (i < npart)%nat -> nth i w2 0 = nth i w1 0).
  { intros i Hi. rewrite B2 by auto. destruct (G i Hi) as (_ & K & _). unfold pos. destruct (Rlt_dec (nth i w1 0) 0); auto. lra. }
  assert (C2 : forall i, (i < npart)%nat -> 0 <= nth i w2 0 <= IZR (zi ((0 + 1) * nprof)) * 2 ^ e /\ rep (nth i w2 0)).
  { intros i Hi. rewrite E12 by auto. destruct (B1 i Hi) as (_ & U & _). destruct (G i Hi) as (K1 & K2 & _).
    replace (zi ((0 + 1) * nprof)) with (0 + zi nprof)%Z by lia. auto. }
  assert (U2 : forall i, (i < npart)%nat -> unseen prof i -> nth i w2 0 = 0).
  { intros i Hi Hu. rewrite E12 by auto. destruct (B1 i Hi) as (K & _ & _).
    rewrite (osum_zero rnd M huge (rnd_mono _ _ Hr) (rnd_int _ _ Hr) order Ho) in K.
    - injection K. auto.
    - rewrite gathered_length. intros [|j] Hj; [unfold gathered; cbn [nth]; apply Z0|]. rewrite gathered_S by lia. apply Hu. lia.
    - assert (P := M_one). lia.
    - assert (P := huge_one). lra. }
  set (s0 := FState (w2 : list (num A)) (repeat 0 all) (repeat 0 (S niter)) (repeat 0 all)).
  assert (F : forall reduce, reconstructA A reduce xpl prof niter nbins npart nprof =
    (_ <- check_sumA A w2 npart ;; s <- for_ 0 niter (iterationA A reduce fpl prof rp nbins npart nprof) s0 ;;
     rec <- projectA A (f_rec s) fpl (f_weights s) npart nprof ;;
     rec <- normalizeA A (reduce niter) rec nprof nbins ;;
     diff <- differenceA A (f_diff s) rec prof all ;;
     d <- discrepancyA A diff nprof nbins ;;
     discr <- set (f_discr s) (zi niter) d ;;
     Ok (FState (f_weights s) rec discr diff))).
  { intros reduce. unfold reconstructA. cbn [a_zero rounded num] in *. rewrite E1. cbn [bind]. rewrite create_flat_points_tab. cbn [bind].
    rewrite E2. cbn [bind]. rewrite E3. cbn [bind]. reflexivity. }
  destruct (check_f w2 L2) as [[E4 P4]|[E4 P4]].
  { intros i Hi. destruct (C2 i Hi) as [[H1 H2] H3]. repeat split; auto. eapply Rle_trans; [exact H2|]. replace (2 * e)%nat with (e + e)%nat by lia. apply pow_up. nia. }
  - destruct P4 as (i4 & Hi4 & P4).
    assert (S0 : sound prof niter 0 s0).
    { constructor; cbn [f_weights f_rec f_discr f_diff s0]; auto; try (apply repeat_length); eauto.
      - intros c Hc. rewrite Z0. split; [lra|apply rep_0].
      - intros k Hk. rewrite Z0. lra. }
    destruct (loop_f prof rp niter Lp Bp Hrp Hit niter 0 s0 S0 ltac:(lia)) as (r & E5 & P5).
    assert (NU : (forall i, (i < npart)%nat -> unseen prof i) -> False). { intros K. rewrite (U2 i4) in P4; auto. lra. }
    destruct r as [s|x].
    + simpl Nat.add in P5.
      destruct (recreate_f prof niter Lp Hit niter s P5 ltac:(lia)) as (rec & rec' & E6 & L' & B' & Bc & Qr & N).
      assert (HS' := P5). destruct HS' as [lw w0 p0 u0 lr r0 ld d0 ldf].
      destruct (difference_f (f_diff s) rec' prof) as (df & E7 & Ldf & Bdf); auto.
      assert (Bdf1 : forall c, (c < all)%nat -> -1 <= nth c df 0 <= 1) by (intros; apply Bdf; auto).
      destruct (discrepancy_f df Ldf Bdf1) as (d & E8 & Bd & _).
      destruct (discr_f prof niter Lp Hit niter s d P5 ltac:(lia) Bd) as (dl & E9 & Ldl & Bdl & _).
      exists (Ok (FState (f_weights s) (rec' : list (num A)) dl df)). split; [|split; [|split]].
      * intros reduce Hred. rewrite F, E4. cbn [bind]. rewrite (E5 reduce Hred). cbn [bind num rounded] in *. rewrite E6. cbn [bind].
        rewrite (N reduce Hred). cbn [bind]. rewrite E7. cbn [bind]. rewrite E8. cbn [bind]. rewrite E9. reflexivity.
      * split; [constructor; cbn [f_weights f_rec f_discr f_diff]; auto|].
        intros i Hi. destruct (Qr i Hi) as (t & T1 & T2 & T3). exists (map (fun j => nth (i * nbins + j) rec 0) (seq 0 nbins)), t.
        split; [rewrite map_length, seq_length; auto|]. split; auto. split; auto.
        assert (Nj : forall j, (j < nbins)%nat -> nth j (map (fun j => nth (i * nbins + j) rec 0) (seq 0 nbins)) 0 = nth (i * nbins + j) rec 0).
        { intros j Hj. rewrite (nth_map_seq (fun j => nth (i * nbins + j) rec 0) 0 nbins j Hj). auto. }
        split; intros j Hj; rewrite Nj by auto; [apply Bc; nia|]. cbn [f_rec]. auto.
      * intros K. destruct (NU K).
      * eauto.
    + exists (Fail x). split; [|split; [|split]].
      * intros reduce Hred. rewrite F, E4. cbn [bind]. rewrite (E5 reduce Hred). reflexivity.
      * auto.
      * intros K. destruct (NU K).
      * intros _ ->. exfalso. assert (K : exists reduce, thread_sums rnd huge reduce).
        { exists (fun _ => ordered_sum rnd huge order), (fun _ => order). auto. }
        destruct K as (reduce & Hred). specialize (E5 reduce Hred). discriminate E5.
  - exists (Fail (Raised RuntimeError)). split; [|split; [|split]]; auto.
    + intros reduce _. rewrite F, E4. reflexivity.
    + intros (i & j & Hi & Hj & K) _. exfalso. destruct (G i Hi) as (_ & _ & Q). specialize (Q j Hj). rewrite <- E12, P4 in Q by auto. lra.
Qed.
End Steps.
