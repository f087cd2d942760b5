(** Values of the density inside a contour, the contour over the time axis and
    the particles that mark it. *)
(*HEAD*)
From Coq Require Import Reals List ZArith Bool.
From Verif Require Import Base.Res Base.QcLib Base.RLib Model.MParticles Model.MPreproc Model.MPost Model.MArea Spec.AreaSpec.
Import ListNotations.
Local Open Scope R_scope.
(*DAEH*)
From Coq Require Import Lia Lra Psatz.
From Verif Require Import Base.ResLemmas Base.QcLemmas Base.Loops Proof.PArea Proof.PArea2 Proof.PArea3.
From Verif Require Export Proof.CArea2.
Opaque contour phases.

(** ** Integrals of piecewise linear functions *)
Lemma square_lim u v c x : derivable_pt_lim (fun x => u * x + (x - c) * (x - c) / 2 * v) x (u + (x - c) * v).
Proof.
  intros eps He. assert (V : 0 < Rabs v + 1) by (assert (X := Rabs_pos v); lra).
  exists (mkposreal (eps / (Rabs v + 1)) (Rdiv_lt_0_compat _ _ He V)). intros h Hh Hb. simpl in Hb.
  replace ((u * (x + h) + (x + h - c) * (x + h - c) / 2 * v - (u * x + (x - c) * (x - c) / 2 * v)) / h - (u + (x - c) * v)) with (h * (v / 2)) by (field; auto).
  rewrite Rabs_mult. assert (A : Rabs (v / 2) <= Rabs v). { unfold Rdiv. rewrite Rabs_mult, (Rabs_right (/ 2)) by lra. assert (X := Rabs_pos v). lra. }
  assert (B := Rabs_pos h). assert (C := Rabs_pos (v / 2)).
  apply Rle_lt_trans with (Rabs h * (Rabs v + 1)). { apply Rmult_le_compat_l; lra. }
  replace eps with (eps / (Rabs v + 1) * (Rabs v + 1)) by (field; lra). apply Rmult_lt_compat_r; auto.
Qed.
Lemma affine_is u v c a b : a <= b -> integral_is (fun x => u + (x - c) * v) a b ((b - a) * (u + ((a + b) / 2 - c) * v)).
Proof.
  intros H. assert (C : forall x, a <= x <= b -> continuity_pt (fun x => u + (x - c) * v) x).
  { intros x _. apply continuity_pt_plus; [apply continuity_pt_const; intros ? ?; reflexivity|]. apply continuity_pt_mult; [|apply continuity_pt_const; intros ? ?; reflexivity].
    apply continuity_pt_minus; [apply derivable_continuous_pt; apply derivable_pt_id|apply continuity_pt_const; intros ? ?; reflexivity]. }
  exists (continuity_implies_RiemannInt H C).
  rewrite (RiemannInt_P20 H (FTC_P1 H C)).
  assert (A := RiemannInt_P29 H C).
  assert (B : antiderivative (fun x => u + (x - c) * v) (fun x => u * x + (x - c) * (x - c) / 2 * v) a b).
  { split; [|auto]. intros x _. assert (L := square_lim u v c x). exists (exist _ _ L). symmetry. apply derive_pt_eq_0. exact L. }
  destruct (antiderivative_Ucte _ _ _ _ _ A B) as (k & K). rewrite (K b), (K a) by lra. field.
Qed.
Lemma integral_ext f g a b s : a <= b -> (forall x, a <= x <= b -> f x = g x) -> integral_is f a b s -> integral_is g a b s.
Proof.
  intros H E (pr & <-). assert (X : forall x, Rmin a b <= x <= Rmax a b -> f x = g x) by (rewrite Rmin_left, Rmax_right by auto; auto).
  pose (pr2 := Riemann_integrable_ext g X pr). exists pr2. symmetry. apply RiemannInt_P18; auto. intros x Hx. apply E. lra.
Qed.
Lemma integral_chain f a b c s t : integral_is f a b s -> integral_is f b c t -> integral_is f a c (s + t).
Proof.
  intros (p1 & <-) (p2 & <-). pose (p3 := RiemannInt_P24 p1 p2). exists p3. symmetry. apply RiemannInt_P26.
Qed.
Lemma integral_point f a : integral_is f a a 0.
Proof. exists (RiemannInt_P7 f a). apply RiemannInt_P9. Qed.

Section Rows.
Variable interp : R -> list R -> list R -> R.
Hypothesis Hint : interpolates interp.
Variables (dE : list R) (step : R).
Hypothesis He : equidistant dE step.
Variable row : list R.
Hypothesis Hl : length row = length dE.
Let e i := nth i dE 0.
Let f x := interp x dE row.
Lemma f_cell a x : (S a < length dE)%nat -> e a <= x <= e (S a) -> f x = nth a row 0 + (x - e a) * ((nth (S a) row 0 - nth a row 0) / step).
Proof.
  intros L H. unfold f. rewrite (int_cell interp Hint x dE row a); auto; [|apply (equidistant_increasing dE step He)]. rewrite (proj2 He a L). fold (e a). unfold Rdiv. ring.
Qed.
Lemma cell_is a x y : (S a < length dE)%nat -> e a <= x -> x <= y -> y <= e (S a) ->
  integral_is f x y (step * (integral row a ((y - e a) / step) - integral row a ((x - e a) / step))).
Proof.
  intros L A B C. assert (Hs : 0 < step) by apply He. pose (v := (nth (S a) row 0 - nth a row 0) / step).
  apply (integral_ext (fun z => nth a row 0 + (z - e a) * v)); [auto| |].
  - intros z Hz. symmetry. apply f_cell; auto. lra.
  - replace (step * (integral row a ((y - e a) / step) - integral row a ((x - e a) / step))) with ((y - x) * (nth a row 0 + ((x + y) / 2 - e a) * v)).
    { apply affine_is. auto. }
    unfold integral, r, v. field. lra.
Qed.
Lemma cells_is a : forall n, (a + n < length dE)%nat -> integral_is f (e a) (e (a + n)) (step * (upto row (a + n) - upto row a)).
Proof.
  assert (Hs : 0 < step) by apply He. induction n; intros L.
  - rewrite Nat.add_0_r. replace (step * (upto row a - upto row a)) with 0 by ring. apply integral_point.
  - replace (step * (upto row (a + S n) - upto row a)) with (step * (upto row (a + n) - upto row a) + step * (upto row (S (a + n)) - upto row (a + n))) by (rewrite Nat.add_succ_r; ring).
    apply integral_chain with (e (a + n)); [apply IHn; lia|]. rewrite Nat.add_succ_r.
    assert (D := proj2 He (a + n)%nat ltac:(lia)). fold (e (S (a + n))) (e (a + n)) in D.
    assert (K := cell_is (a + n) (e (a + n)) (e (S (a + n))) ltac:(lia) ltac:(lra) ltac:(lra) ltac:(lra)).
    replace ((e (S (a + n)) - e (a + n)) / step) with 1 in K by (rewrite D; field; lra). replace ((e (a + n) - e (a + n)) / step) with 0 in K by (field; lra).
    rewrite integral_1 in K. replace (integral row (a + n) 0) with (upto row (a + n)) in K by (unfold integral; field). exact K.
Qed.
(** A column that is computed is an integral, and its ends are values. *)
Hypothesis Hw : - nth 0 dE 0 <= nth (length dE - 1) dE 0.
Lemma column_is h d top bot : column_density interp row dE h = Ok (d, top, bot) ->
  integral_is f (- h) h (step * d) /\ top = f h /\ bot = f (- h).
Proof.
  intros E. assert (Hs : 0 < step) by apply He. apply (column_inv interp Hint dE step He) in E. destruct E as (a & b & Hab & Hb & Ha & Hh & _ & H). fold (e a) (e (S a)) (e b) in *.
  assert (Inc := equidistant_increasing dE step He).
  assert (M : e (S a) <= e b). { destruct (Nat.eq_dec (S a) b) as [->|]; [lra|]. left. apply Inc; lia. }
  assert (L : (S b < length dE)%nat).
  { destruct (Nat.eq_dec (S b) (length dE)) as [X|]; [|lia]. exfalso.
    replace (length dE - 1)%nat with b in Hw by lia. fold (e b) in Hw. assert (nth 0 dE 0 <= e a). { unfold e. destruct a; [lra|]. left. apply Inc; lia. } lra. }
  destruct (H L) as (H1 & -> & -> & ->). fold (e (S b)) in *. fold (e a) (e b). split; [|split].
  - assert (K1 := cell_is a (- h) (e (S a)) ltac:(lia) ltac:(lra) ltac:(lra) ltac:(lra)).
    assert (K2 := cells_is (S a) (b - S a) ltac:(lia)). replace (S a + (b - S a))%nat with b in K2 by lia.
    assert (K3 := cell_is b (e b) h L ltac:(lra) ltac:(lra) ltac:(lra)).
    assert (D := proj2 He a ltac:(lia)). fold (e (S a)) (e a) in D.
    replace ((e (S a) - e a) / step) with 1 in K1 by (rewrite D; field; lra). rewrite integral_1 in K1.
    replace ((e b - e b) / step) with 0 in K3 by (field; lra). replace (integral row b 0) with (upto row b) in K3 by (unfold integral; field).
    assert (K := integral_chain _ _ _ _ _ _ (integral_chain _ _ _ _ _ _ K1 K2) K3).
    match goal with |- integral_is _ _ _ ?s => match type of K with integral_is _ _ _ ?t => replace s with t by ring end end. exact K.
  - rewrite (f_cell b h) by (auto; lra). unfold Rdiv. ring.
  - rewrite (f_cell a (- h)) by (lia || lra). unfold Rdiv. ring.
Qed.
End Rows.

(** ** The contour over the time axis *)
Section Stationary.
Variable interp : R -> list R -> list R -> R.
Hypothesis Hint : interpolates interp.
Variables (m : amachine) (turn : Z) (energy eta0 omega : R).
Hypothesis Hst : stationary_above m turn energy eta0 omega.
Lemma matched_phases tm matched : time_phases m tm omega PI = Ok matched -> (2 <= length tm)%nat /\ matched = map (phase_of m tm omega) tm.
Proof.
  unfold time_phases. intros E. binv E t0 E0. binv E t1 E1. cbv zeta in E. apply ok_inj in E. subst matched.
  apply (np_get_nat _ tm 0 _ 0) in E0. apply (np_get_nat _ tm 1 _ 0) in E1. destruct E0 as (_ & ->), E1 as (L & ->). split; [lia|].
  apply map_ext. intros t. unfold phase_of. ring.
Qed.
Lemma contour_times tm matched a hs : time_phases m tm omega PI = Ok matched -> contour interp m PI energy eta0 matched a = Ok hs ->
  exists phi_left, 0 <= phi_left < PI /\ hs = map (fun t => trajectory m energy eta0 phi_left (phase_of m tm omega t)) tm.
Proof.
  intros E C. apply matched_phases in E. destruct E as (_ & ->). assert (V : 0 < am_vrf1 m) by apply Hst. assert (P := PI_RGT_0).
  rewrite (contour_ok interp Hint m turn energy eta0 omega Hst) in C. apply ok_inj in C. exists (left_end interp (am_vrf1 m) a).
  assert (R1 := left_range interp Hint _ V a). split; [lra|]. rewrite <- C, map_map. reflexivity.
Qed.
Lemma emittance_times tm matched hs em : time_phases m tm omega PI = Ok matched -> contour_emittance m omega matched hs = Ok em ->
  em = 2 / (am_h m * omega) * trapz (am_h m * omega * (nth 1 tm 0 - nth 0 tm 0)) hs.
Proof.
  intros E C. apply matched_phases in E. destruct E as (L & ->). unfold contour_emittance in C. binv C p0 C0. binv C p1 C1. binv C f C2. apply ok_inj in C.
  destruct Hst as [_ _ _ _ _ _ (_ & Hh & _ & Ho)]. assert (0 < am_h m * omega) by (apply Rmult_lt_0_compat; auto). rewrite rdiv_ok in C2 by lra. apply ok_inj in C2. subst f em.
  apply (np_get_nat _ _ 0 _ 0) in C0. apply (np_get_nat _ _ 1 _ 0) in C1. destruct C0 as (_ & ->), C1 as (_ & ->).
  destruct tm as [|t0 [|t1 tm]]; try (simpl in L; lia). simpl nth. f_equal. f_equal. unfold phase_of. simpl nth. ring.
Qed.
End Stationary.

(** ** The densities at the ends of the columns *)
Definition touched (hs : list R) (n : nat) : list nat := filter (fun k => negb (eqb (nth k hs 0) 0)) (seq 0 n).
Lemma touched_in hs n k : In k (touched hs n) <-> (k < n)%nat /\ nth k hs 0 <> 0.
Proof.
  unfold touched. rewrite filter_In, in_seq. unfold eqb. destruct (Req_EM_T (nth k hs 0) 0); simpl; intuition (lia || discriminate || auto).
Qed.
Lemma touched_S hs n : touched hs (S n) = touched hs n ++ (if Req_EM_T (nth n hs 0) 0 then [] else [n]).
Proof. unfold touched. rewrite seq_S, filter_app. simpl. unfold eqb. destruct (Req_EM_T (nth n hs 0) 0); reflexivity. Qed.
Section Ends.
Variable interp : R -> list R -> list R -> R.
Hypothesis Hint : interpolates interp.
Variables (dE : list R) (step : R) (img : list (list R)).
Hypothesis He : equidistant dE step.
Hypothesis Hw : - nth 0 dE 0 <= nth (length dE - 1) dE 0.
Hypothesis Hr : Forall (fun row => length row = length dE) img.
Let f k x := interp x dE (nth k img []).
Lemma get_row (k : nat) row : np_get img (Z.of_nat k) = Ok row -> row = nth k img [] /\ length row = length dE.
Proof. intros E. apply (np_get_nat _ img k _ []) in E. destruct E as (L & ->). split; [auto|]. rewrite Forall_forall in Hr. apply Hr. apply nth_In. auto. Qed.
Definition ends_inv (hs : list R) (n : nat) (s : dstate) : Prop :=
  ds_n s = length (touched hs n) /\
  ds_local s = rsum (map (fun k => (f k (nth k hs 0) + f k (- nth k hs 0)) / 2) (touched hs n)) /\
  (forall k, In k (touched hs n) -> match ds_min s with None => False | Some mn => mn <= f k (nth k hs 0) /\ mn <= f k (- nth k hs 0) end) /\
  (forall mn, ds_min s = Some mn -> exists k, In k (touched hs n) /\ (mn = f k (nth k hs 0) \/ mn = f k (- nth k hs 0))) /\
  (forall k, In k (touched hs n) -> f k (nth k hs 0) <= ds_max s /\ f k (- nth k hs 0) <= ds_max s) /\
  (ds_max s = 0 \/ exists k, In k (touched hs n) /\ (ds_max s = f k (nth k hs 0) \/ ds_max s = f k (- nth k hs 0))).
Lemma rsum_snoc l x : rsum (l ++ [x]) = rsum l + x.
Proof. induction l; simpl; lra. Qed.
Lemma ends_loop hs n s' : for_ 0 n (density_step interp img dE hs) (DState 0 0 0 None 0) = Ok s' -> ends_inv hs n s'.
Proof.
  intros E. change n with (0 + n)%nat at 1. refine (for_ok_ind _ (ends_inv hs) _ n 0%nat _ s' E _ _).
  - unfold ends_inv. simpl. repeat split; try (intros; contradiction); auto. intros; discriminate.
  - clear E s'. intros k s s' Hk (A & B & C & D & F & G) E. unfold density_step in E. binv E h E1. apply (np_get_nat _ hs k _ 0) in E1. destruct E1 as (L & E1).
    unfold ends_inv. rewrite touched_S. destruct (Req_EM_T h 0) as [Z|Z].
    + apply ok_inj in E. subst s'. destruct (Req_EM_T (nth k hs 0) 0); [|congruence]. rewrite app_nil_r. repeat split; auto; apply F; auto.
    + binv E row E2. binv E r1 E3. destruct r1 as [[d top] bot]. apply ok_inj in E. subst s'. cbn [ds_sum ds_n ds_local ds_min ds_max].
      destruct (Req_EM_T (nth k hs 0) 0); [congruence|]. apply get_row in E2. destruct E2 as (Er & Lr).
      apply (column_is interp Hint dE step He row Lr Hw) in E3. destruct E3 as (_ & Et & Eb). rewrite Er, E1 in Et, Eb. change (top = f k (nth k hs 0)) in Et. change (bot = f k (- nth k hs 0)) in Eb.
      split. { rewrite app_length. simpl. lia. } split. { rewrite map_app. simpl map. rewrite rsum_snoc, <- B, Et, Eb. reflexivity. }
      split; [|split; [|split]].
      * intros j Hj. apply in_app_or in Hj. assert (X := Rmin_l (min_inf (ds_min s) top) bot). assert (Y := Rmin_r (min_inf (ds_min s) top) bot).
        destruct Hj as [Hj|[<-|[]]].
        -- specialize (C j Hj). destruct (ds_min s) as [mn|]; [|contradiction]. cbn [min_inf] in *. assert (W := Rmin_l mn top). split; lra.
        -- rewrite <- Et, <- Eb. assert (W : min_inf (ds_min s) top <= top). { destruct (ds_min s); cbn [min_inf]; [apply Rmin_r|lra]. } split; lra.
      * intros mn Hm. injection Hm as <-. assert (K : In k (touched hs k ++ [k])) by (apply in_or_app; right; simpl; auto).
        assert (Q : Rmin (min_inf (ds_min s) top) bot = bot \/ Rmin (min_inf (ds_min s) top) bot = min_inf (ds_min s) top) by (unfold Rmin; destruct (Rle_dec (min_inf (ds_min s) top) bot); auto).
        destruct Q as [-> | ->]. { exists k. split; [exact K|]. right. exact Eb. }
        destruct (ds_min s) as [mn|] eqn:Em; cbn [min_inf]. 2:{ exists k. split; [exact K|]. left. exact Et. }
        assert (Q : Rmin mn top = top \/ Rmin mn top = mn) by (unfold Rmin; destruct (Rle_dec mn top); auto).
        destruct Q as [-> | ->]. { exists k. split; [exact K|]. left. exact Et. }
        destruct (D mn eq_refl) as (j & J1 & J2). exists j. split; [apply in_or_app; left; exact J1|exact J2].
      * intros j Hj. apply in_app_or in Hj. assert (X := Rmax_l (Rmax (ds_max s) top) bot). assert (Y := Rmax_r (Rmax (ds_max s) top) bot).
        assert (W := Rmax_l (ds_max s) top). assert (W' := Rmax_r (ds_max s) top). destruct Hj as [Hj|[<-|[]]]; [destruct (F j Hj); lra|]. rewrite <- Et, <- Eb. split; lra.
      * assert (K : In k (touched hs k ++ [k])) by (apply in_or_app; right; simpl; auto).
        assert (Q : Rmax (Rmax (ds_max s) top) bot = bot \/ Rmax (Rmax (ds_max s) top) bot = Rmax (ds_max s) top) by (unfold Rmax at 1 3; destruct (Rle_dec (Rmax (ds_max s) top) bot); auto).
        destruct Q as [-> | ->]. { right. exists k. split; [exact K|]. right. exact Eb. }
        assert (Q : Rmax (ds_max s) top = top \/ Rmax (ds_max s) top = ds_max s) by (unfold Rmax; destruct (Rle_dec (ds_max s) top); auto).
        destruct Q as [-> | ->]. { right. exists k. split; [exact K|]. left. exact Et. }
        destruct G as [G|(j & J1 & J2)]; [left; exact G|]. right. exists j. split; [apply in_or_app; left; exact J1|exact J2].
Qed.
End Ends.

(** ** One amplitude *)
Lemma nth_map_at A (g : A -> R) l k a : (k < length l)%nat -> nth k (map g l) 0 = g (nth k l a).
Proof. intros H. rewrite (nth_indep _ 0 (g a)) by (rewrite map_length; auto). apply map_nth. Qed.
Lemma amplitude_value interp m p0 en et om img tm dE matched a c : amplitude_data interp m p0 en et om img tm dE matched a = Ok c ->
  exists hs s, contour interp m p0 en et matched a = Ok hs /\ for_ 0 (length tm) (density_step interp img dE hs) (DState 0 0 0 None 0) = Ok s /\
    ((ds_n s = 0%nat /\ c = CData 0 0 0 0 0) \/
     exists mn em, (0 < ds_n s)%nat /\ ds_min s = Some mn /\ contour_emittance m om matched hs = Ok em /\ rsum (map rsum img) <> 0 /\
       c = CData em (ds_local s / INR (ds_n s)) mn (ds_max s) (ds_sum s / rsum (map rsum img))).
Proof.
  intros E. unfold amplitude_data in E. binv E hs E1. binv E s E2. exists hs, s. split; [auto|]. split; [auto|].
  destruct (density_loop _ _ _ _ _ _ E2) as (cs & _ & _ & _ & D & _). destruct (ds_n s) as [|n] eqn:En.
  - left. apply ok_inj in E. auto.
  - right. destruct (ds_min s) as [mn|]; [|destruct D; discriminate]. binv E fr E3. binv E em E4. apply ok_inj in E.
    exists mn, em. split; [lia|]. split; [auto|]. split; [auto|]. unfold rdiv in E3. destruct (Req_EM_T (rsum (map rsum img)) 0); [discriminate|]. apply ok_inj in E3. subst fr. auto.
Qed.
Lemma extrapolated_later l l' : extrapolated l = Ok l' -> forall i d, (0 < i)%nat -> nth i l' d = nth i l d.
Proof.
  unfold extrapolated. intros E. binv E c0 E0. destruct (Req_EM_T (cd_local c0) 0).
  - binv E c2 E2. binv E c1 E1. binv E sl E3. cbv zeta in E. apply ok_inj in E. subst l'. intros i d Hi. destruct i; [lia|]. destruct l; simpl; [destruct i|]; reflexivity.
  - apply ok_inj in E. subst l'. auto.
Qed.
Lemma density_later interp m img tm dE n idx l p0 en et om : let turn := (frame_of m idx * am_dturns m)%Z in
  density_vs_emittance interp m img tm dE n idx = Ok l ->
  np_get (am_phi0 m) turn = Ok p0 -> np_get (am_e0 m) turn = Ok en -> np_get (am_eta0 m) turn = Ok et -> np_get (am_omega m) turn = Ok om ->
  exists matched amps l0, time_phases m tm om p0 = Ok matched /\ length l = n /\ length l0 = n /\
    (forall i, (i < n)%nat -> amplitude_data interp m p0 en et om img tm dE matched (nth i amps 0) = Ok (nth i l0 (CData 0 0 0 0 0))) /\
    (forall i d, cd_emittance (nth i l d) = cd_emittance (nth i l0 d) /\ cd_sum (nth i l d) = cd_sum (nth i l0 d)) /\
    forall i d, (0 < i)%nat -> nth i l d = nth i l0 d.
Proof.
  intros turn E G1 G2 G3 G4. unfold density_vs_emittance in E. cbv zeta in E. fold turn in E. rewrite G1, G2, G3, G4 in E. cbn [bind] in E.
  binv E matched E5. binv E amps E6. binv E l0 E7. unfold amplitudes in E6. binv E6 mn E8. apply ok_inj in E6.
  assert (K := mapM_nth _ _ _ _ _ 0 (CData 0 0 0 0 0) E7). destruct K as (K1 & K2). assert (La : length amps = n) by (subst amps; unfold linspace; apply tab_length). rewrite La in K1, K2.
  assert (X := extrapolated_inv _ _ E). destruct X as (L & X). exists matched, amps, l0. split; [auto|]. split; [lia|]. split; [auto|]. split; [auto|]. split; [intros i d; destruct (X i d) as (X1 & X2 & _); auto|].
  apply (extrapolated_later _ _ E).
Qed.

(** C87.  Above transition without acceleration every entry of the result
    belongs to one trajectory.  The density inside is the sum over the times of
    the integrals of the image, interpolated between the energies, from the
    lower to the upper side of the trajectory, as a fraction of the sum of the
    image.  The emittance is twice the area below the trajectory by the
    trapezoidal rule. *)
Lemma C87_value_lem : forall interp m img time_array dE step n_points idx_frame energy eta0 omega l i d,
  interpolates interp -> stationary_above m (frame_of m idx_frame * am_dturns m) energy eta0 omega ->
  equidistant dE step -> - nth 0 dE 0 <= nth (length dE - 1) dE 0 ->
  Forall (fun row => length row = length dE) img -> rsum (map rsum img) <> 0 ->
  density_vs_emittance interp m img time_array dE n_points idx_frame = Ok l -> (i < n_points)%nat ->
  exists phi_left inside, 0 <= phi_left < PI /\
    let h := height_at m time_array energy eta0 omega phi_left in
    (forall k, (k < length time_array)%nat -> integral_is (fun x => interp x dE (nth k img [])) (- h k) (h k) (step * inside k)) /\
    cd_sum (nth i l d) = rsum (map inside (seq 0 (length time_array))) / rsum (map rsum img) /\
    cd_emittance (nth i l d) =
      2 / (am_h m * omega) * trapz (am_h m * omega * (nth 1 time_array 0 - nth 0 time_array 0)) (map h (seq 0 (length time_array))).
Proof.
  intros interp m img tm dE step n idx energy eta0 omega l i d Hint Hst He Hw Hr Hs E Hi.
  destruct (density_later _ _ _ _ _ _ _ _ _ _ _ _ E (st_phi _ _ _ _ _ Hst) (st_energy _ _ _ _ _ Hst) (st_eta _ _ _ _ _ Hst) (st_omega _ _ _ _ _ Hst)) as (matched & amps & l0 & Et & L & L0 & HA & HB & _).
  destruct (HB i d) as (B1 & B2). rewrite B1, B2. rewrite !(nth_indep l0 d (CData 0 0 0 0 0)) by lia. specialize (HA i Hi). apply amplitude_value in HA. destruct HA as (hs & s & C & F & V).
  destruct (contour_times interp Hint m _ energy eta0 omega Hst tm matched _ hs Et C) as (phi & Hphi & Eh).
  apply density_loop in F. destruct F as (c & F1 & F2 & F3 & _).
  assert (Hh : hs = map (height_at m tm energy eta0 omega phi) (seq 0 (length tm))).
  { rewrite Eh. apply nth_ext with (d := 0) (d' := 0); [rewrite !map_length, seq_length; auto|]. rewrite map_length. intros k Hk.
    rewrite (nth_map_at _ _ tm k 0), (nth_map_at _ _ (seq 0 (length tm)) k 0%nat), seq_nth by (rewrite ?seq_length; auto). reflexivity. }
  assert (Hk : forall k, (k < length tm)%nat -> nth k hs 0 = height_at m tm energy eta0 omega phi k).
  { intros k K. rewrite Hh, (nth_map_at _ _ (seq 0 (length tm)) k 0%nat), seq_nth by (rewrite ?seq_length; auto). reflexivity. }
  exists phi, c. split; [auto|]. cbv zeta. split; [|split].
  - intros k K. rewrite <- Hk by auto. destruct (F2 k K) as [(Z1 & Z2)|(Z1 & row & top & bot & Z2 & Z3)].
    + rewrite Z1, Z2, Ropp_0, Rmult_0_r. apply integral_point.
    + apply (get_row dE img Hr) in Z2. destruct Z2 as (Er & Lr). apply (column_is interp Hint dE step He row Lr Hw) in Z3. rewrite <- Er. apply Z3.
  - rewrite <- acc_seq, <- F1. destruct V as [(V1 & ->)|(mn & em & _ & _ & _ & _ & ->)]; [|reflexivity]. cbn [cd_sum].
    rewrite F1, (acc_ext _ (fun _ => 0)). { clear. replace (acc (fun _ => 0) (length tm)) with 0 by (induction (length tm); simpl; lra). unfold Rdiv. ring. }
    intros k K. destruct (F2 k K) as [(_ & Z2)|(Z1 & _)]; [auto|]. exfalso. apply Z1. apply F3; auto.
  - rewrite <- Hh. destruct V as [(V1 & ->)|(mn & em & _ & _ & V & _ & ->)]; cbn [cd_emittance].
    + rewrite trapz_nil; [ring|]. intros k. destruct (Nat.lt_ge_cases k (length tm)); [apply F3; auto|]. apply nth_overflow. rewrite Hh, map_length, seq_length. auto.
    + apply (emittance_times m _ energy eta0 omega Hst tm matched hs em Et V).
Qed.

(** C87.  The local density of every entry but the first is the mean of the
    image on the trajectory, its minimum is the smallest and its maximum the
    largest value there.  The columns where the trajectory has no height do not
    count. *)
Lemma C87_local_lem : forall interp m img time_array dE step n_points idx_frame energy eta0 omega l i d,
  interpolates interp -> stationary_above m (frame_of m idx_frame * am_dturns m) energy eta0 omega ->
  equidistant dE step -> - nth 0 dE 0 <= nth (length dE - 1) dE 0 ->
  Forall (fun row => length row = length dE) img ->
  density_vs_emittance interp m img time_array dE n_points idx_frame = Ok l -> (0 < i < n_points)%nat ->
  exists phi_left columns, 0 <= phi_left < PI /\ NoDup columns /\
    let h := height_at m time_array energy eta0 omega phi_left in
    let upper k := interp (h k) dE (nth k img []) in
    let lower k := interp (- h k) dE (nth k img []) in
    (forall k, In k columns <-> (k < length time_array)%nat /\ h k <> 0) /\
    (columns = [] -> nth i l d = CData 0 0 0 0 0) /\
    (columns <> [] ->
      cd_local (nth i l d) = rsum (map (fun k => (upper k + lower k) / 2) columns) / INR (length columns) /\
      (forall k, In k columns -> cd_min (nth i l d) <= upper k <= cd_max (nth i l d) /\ cd_min (nth i l d) <= lower k <= cd_max (nth i l d)) /\
      (exists k, In k columns /\ (cd_min (nth i l d) = upper k \/ cd_min (nth i l d) = lower k)) /\
      (cd_max (nth i l d) = 0 \/ exists k, In k columns /\ (cd_max (nth i l d) = upper k \/ cd_max (nth i l d) = lower k))).
Proof.
  intros interp m img tm dE step n idx energy eta0 omega l i d Hint Hst He Hw Hr E Hi.
  destruct (density_later _ _ _ _ _ _ _ _ _ _ _ _ E (st_phi _ _ _ _ _ Hst) (st_energy _ _ _ _ _ Hst) (st_eta _ _ _ _ _ Hst) (st_omega _ _ _ _ _ Hst)) as (matched & amps & l0 & Et & L & L0 & HA & _ & HB).
  rewrite (HB i d) by lia. rewrite !(nth_indep l0 d (CData 0 0 0 0 0)) by lia. specialize (HA i ltac:(lia)). apply amplitude_value in HA. destruct HA as (hs & s & C & F & V).
  destruct (contour_times interp Hint m _ energy eta0 omega Hst tm matched _ hs Et C) as (phi & Hphi & Eh).
  apply (ends_loop interp Hint dE step img He Hw Hr) in F. destruct F as (F1 & F2 & F3 & F4 & F5 & F6).
  assert (Hk : forall k, (k < length tm)%nat -> nth k hs 0 = height_at m tm energy eta0 omega phi k).
  { intros k K. rewrite Eh, (nth_map_at _ _ tm k 0) by auto. reflexivity. }
  exists phi, (touched hs (length tm)). split; [auto|]. split; [apply NoDup_filter, seq_NoDup|]. cbv zeta.
  assert (T := touched_in hs (length tm)).
  assert (Q : forall k, In k (touched hs (length tm)) -> nth k hs 0 = height_at m tm energy eta0 omega phi k) by (intros k K; apply Hk; apply T; auto).
  split; [|split].
  - intros k. rewrite T. split; intros (K1 & K2); (split; [auto|]); [rewrite <- Hk by auto|rewrite Hk by auto]; auto.
  - intros Z. rewrite Z in F1. destruct V as [(_ & ->)|(mn & em & V & _)]; [reflexivity|]. simpl in F1. lia.
  - intros N. destruct V as [(V & _)|(mn & em & V1 & V2 & V3 & V4 & ->)]. { exfalso. apply N. destruct (touched hs (length tm)); [auto|]. simpl in F1. lia. }
    cbn [cd_local cd_min cd_max]. rewrite V2 in F3. split; [|split; [|split]].
    + rewrite F2, F1. f_equal. f_equal. apply map_ext_in. intros k K. rewrite (Q k K). reflexivity.
    + intros k K. specialize (F3 k K). specialize (F5 k K). rewrite (Q k K) in F3, F5. tauto.
    + destruct (F4 mn V2) as (k & K & G). exists k. rewrite (Q k K) in G. auto.
    + destruct F6 as [G|(k & K & G)]; [auto|]. right. exists k. rewrite (Q k K) in G. auto.
Qed.

(** C88.  In every slot of time with a particle inside of the contour, a
    particle with the lowest and one with the highest energy are marked. *)
Lemma C88_extremes_lem : forall interp m time_array dE map_x map_y weights target n_points idx_frame w hs idx k,
  let inside i y := (i < length weights)%nat /\ np_get (nth i map_y []) (frame_of m idx_frame) = Ok y /\
    exists x, np_get (nth i map_x []) (frame_of m idx_frame) = Ok x /\ in_slot time_array k x /\ within dE hs k y in
  tomo_weight_clipping interp m time_array dE map_x map_y weights target n_points idx_frame = Ok (w, hs, idx) -> (S k < length time_array)%nat ->
  (exists i y, inside i y) ->
  exists a ya b yb, In a idx /\ In b idx /\ inside a ya /\ inside b yb /\ forall i y, inside i y -> ya <= y <= yb.
Proof.
  intros interp m tm dE map_x map_y weights target n idx_frame w hs idx k inside E Hk (i0 & y0 & H0). apply clip_inv in E. cbv zeta in E.
  destruct E as (p0 & en & et & om & matched & amps & xs & ys & w0 & _ & _ & _ & _ & _ & _ & _ & L2 & X1 & X2 & Y1 & Y2 & E & W1 & W2 & W3).
  apply clip_loop in E; [|lia]. destruct E as (A1 & A2 & A3 & _ & A5 & _ & A7).
  assert (Q : forall i y, inside i y <-> (i < length weights)%nat /\ y = nth i ys 0 /\ in_cell xs ys tm dE hs k i).
  { intros i y. unfold inside, in_cell. split.
    - intros (Hi & Hy & x & Hx & H). rewrite Y2 in Hy by lia. rewrite X2 in Hx by lia. apply ok_inj in Hy, Hx. subst. auto.
    - intros (Hi & -> & H). split; [auto|]. split; [apply Y2; lia|]. exists (nth i xs 0). split; [apply X2; lia|auto]. }
  destruct (A7 k ltac:(lia)) as (a & b & I1 & I2 & C1 & C2 & M). { exists i0. apply Q in H0. tauto. }
  rewrite Forall_forall in A5. destruct (A5 a I1) as (La & _). destruct (A5 b I2) as (Lb & _).
  exists a, (nth a ys 0), b, (nth b ys 0). split; [auto|]. split; [auto|]. split; [apply Q; auto|]. split; [apply Q; auto|].
  intros i y H. apply Q in H. destruct H as (Hi & -> & H). apply M; auto.
Qed.

(** C88.  Above transition without acceleration the contour returned is a
    trajectory over the times. *)
Lemma C88_trajectory_lem : forall interp m time_array dE map_x map_y weights target n_points idx_frame w hs idx energy eta0 omega,
  interpolates interp -> stationary_above m (frame_of m idx_frame * am_dturns m) energy eta0 omega ->
  tomo_weight_clipping interp m time_array dE map_x map_y weights target n_points idx_frame = Ok (w, hs, idx) ->
  exists phi_left, 0 <= phi_left < PI /\
    hs = map (height_at m time_array energy eta0 omega phi_left) (seq 0 (length time_array)).
Proof.
  intros interp m tm dE map_x map_y weights target n idx_frame w hs idx energy eta0 omega Hint Hst E.
  assert (E' := E). apply clip_inv in E'. cbv zeta in E'. destruct E' as (p0 & en & et & om & matched & amps & xs & ys & w0 & E1 & E2 & E3 & E4 & E5 & E6 & _).
  rewrite (st_phi _ _ _ _ _ Hst) in E1. apply ok_inj in E1. subst p0. rewrite (st_omega _ _ _ _ _ Hst) in E4. apply ok_inj in E4. subst om.
  destruct (C88_contour_lem _ _ _ _ _ _ _ _ _ _ _ _ _ _ _ _ _ _ _ E (st_phi _ _ _ _ _ Hst) (st_energy _ _ _ _ _ Hst) (st_eta _ _ _ _ _ Hst) (st_omega _ _ _ _ _ Hst) E5 E6) as (be & a & af & em & _ & C & _).
  destruct (contour_times interp Hint m _ energy eta0 omega Hst tm matched _ hs E5 C) as (phi & Hphi & Eh). exists phi. split; [auto|].
  rewrite Eh. apply nth_ext with (d := 0) (d' := 0); [rewrite !map_length, seq_length; auto|]. rewrite map_length. intros k Hk.
  rewrite (nth_map_at _ _ tm k 0), (nth_map_at _ _ (seq 0 (length tm)) k 0%nat), seq_nth by (rewrite ?seq_length; auto). reflexivity.
Qed.

Lemma inside_instance : in_slot [0; 1] 0 (1 / 2) /\ within [- top_height; 0; top_height] [low_height; 0] 0 1.
Proof.
  assert (P := H_pos). assert (Q := h1_range). split.
  - unfold in_slot, bins_of. simpl. lra.
  - unfold within, bins_of. simpl nth. replace ((- low_height - - top_height) / (0 - - top_height)) with (1 - low_height / top_height) by (field; lra).
    replace ((low_height - - top_height) / (0 - - top_height)) with (1 + low_height / top_height) by (field; lra).
    assert (0 < low_height / top_height) by (apply Rdiv_lt_0_compat; lra). lra.
Qed.

(*EX*)
(** An image with rows as long as the energy axis, and a result in which the
    second entry has a density inside. *)
Example C87_value_nonvacuous : exists img dE step l, stationary_above mach (frame_of mach None * am_dturns mach) 2 (-1) PI /\
  equidistant dE step /\ - nth 0 dE 0 <= nth (length dE - 1) dE 0 /\ Forall (fun row => length row = length dE) img /\
  rsum (map rsum img) <> 0 /\ density_vs_emittance piecewise mach img [0; 1] dE 2 None = Ok l /\ cd_sum (nth 1 l (CData 0 0 0 0 0)) <> 0.
Proof.
  destruct (density_instance piecewise (proj1 C85_interp_lem)) as (img & dE & step & l & H1 & H2 & H3 & _ & H5 & H6 & H7 & _).
  exists img, dE, step, l. split; [exact mach_above|]. split; [exact H1|]. split; [exact H3|]. split; [exact H2|]. split; [apply Rgt_not_eq; exact H5|].
  split; [exact H6|]. apply Rgt_not_eq. apply Rlt_trans with (cd_sum (nth 0 l (CData 0 0 0 0 0))); apply H7.
Qed.
(** A call with particles inside the contour in the only slot of time. *)
Example C88_extremes_nonvacuous : tomo_weight_clipping piecewise mach [0; 1] [- top_height; 0; top_height] [[1/2]; [1/2]; [1/2]] [[1]; [1]; [5]] [1; 2; 3] 0 2 None =
  Ok ([2; 4; 0], [low_height; 0], [0%nat; 0%nat]) /\ in_slot [0; 1] 0 (1 / 2) /\ within [- top_height; 0; top_height] [low_height; 0] 0 1.
Proof. split; [exact (small_clip piecewise (proj1 C85_interp_lem))|exact inside_instance]. Qed.
(*XE*)
