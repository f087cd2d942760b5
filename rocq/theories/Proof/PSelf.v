(** Lemmas on tracking with self-fields. *)
From Coq Require Import Reals List ZArith Bool Lia Lra Arith.
From Verif Require Import Base.Res Base.ResLemmas Base.QcLib Base.QcLemmas Base.RLib Model.MRecon Model.MParticles Model.MTrack Model.MMachine Model.MSelf
  Spec.TrackSpec Spec.MachineSpec Spec.SelfSpec Proof.PInput Proof.PTrack Proof.PMachine.
Import ListNotations.
Local Open Scope R_scope.

Lemma rfloor_spec : forall x, IZR (rfloor x) <= x < IZR (rfloor x) + 1.
Proof. intros. unfold rfloor. destruct (base_Int_part x). lra. Qed.
Lemma rfloor_unique : forall x z, IZR z <= x < IZR z + 1 -> rfloor x = z.
Proof.
  intros x z H. assert (S := rfloor_spec x).
  assert (IZR (rfloor x) < IZR (z + 1)) by (rewrite plus_IZR; lra). assert (IZR z < IZR (rfloor x + 1)) by (rewrite plus_IZR; lra).
  apply lt_IZR in H0. apply lt_IZR in H1. lia.
Qed.
Lemma rceil_spec : forall x, x <= IZR (rceil x) < x + 1.
Proof. intros. unfold rceil. rewrite opp_IZR. assert (S := rfloor_spec (- x)). unfold rfloor in S. lra. Qed.
Lemma rtrunc_floor : forall x, 0 <= x -> rtrunc x = rfloor x.
Proof. intros. unfold rtrunc. destruct (Rlt_dec x 0); auto. lra. Qed.

Lemma reduce_window : forall z L, 0 < L -> 0 <= z - L * IZR (rfloor (z / L)) < L.
Proof.
  intros z L HL. assert (S := rfloor_spec (z / L)). set (k := IZR (rfloor (z / L))) in *.
  assert (E : z = L * (z / L)) by (field; lra). nra.
Qed.

Lemma position_range : forall w n t x, fits w n -> (t <= n)%nat ->
  0 <= position w t x < INR (w_cells w) + 1 /\ (0 <= rfloor (position w t x) <= Z.of_nat (w_cells w))%Z.
Proof.
  intros w n t x [HL HB] Ht. destruct (HB t Ht) as [B1 B2].
  assert (R := reduce_window (x - w_origin w * w_bin w t) (w_length w) HL).
  assert (Q : 0 <= position w t x < INR (w_cells w) + 1).
  { unfold position. cbv zeta. set (y := _ - w_length w * _) in *.
    assert (E : y = w_bin w t * (y / w_bin w t)) by (field; lra). set (u := y / w_bin w t) in *.
    split; [apply Rnot_lt_le; intros C; nra|]. apply Rnot_le_lt; intros C. nra. }
  split; auto. assert (S := rfloor_spec (position w t x)). rewrite INR_IZR_INZ in Q.
  assert (IZR (-1) < IZR (rfloor (position w t x))) by lra.
  assert (IZR (rfloor (position w t x)) < IZR (Z.of_nat (w_cells w) + 1)) by (rewrite plus_IZR; lra).
  apply lt_IZR in H. apply lt_IZR in H0. lia.
Qed.

Lemma np_get_cell : forall row k c, length row = S k -> (-1 <= c <= Z.of_nat k)%Z -> np_get row c = Ok (cell row c).
Proof.
  intros row k c Hl Hc. unfold cell. destruct (Z.ltb_spec c 0).
  - assert (c = (-1)%Z) by lia. subst c. unfold np_get. cbv zeta. change (-1 <? 0)%Z with true. cbn iota. rewrite Hl.
    replace (-1 + Z.of_nat (S k))%Z with (Z.of_nat k) by lia.
    destruct (Z.ltb_spec (Z.of_nat k) 0); [lia|]. cbn [orb].
    destruct (Z.leb_spec (Z.of_nat (S k)) (Z.of_nat k)); [lia|]. unfold get. destruct (Z.ltb_spec (Z.of_nat k) 0); [lia|]. rewrite Nat2Z.id.
    destruct row as [|r0 row]; [discriminate|].
    destruct (exists_last (l := r0 :: row)) as [l' [a E]]; [discriminate|]. rewrite E. rewrite last_last.
    rewrite E, app_length in Hl. cbn in Hl. rewrite nth_error_app2 by lia. replace (k - length l')%nat with 0%nat by lia. reflexivity.
  - apply np_get_nth; auto. apply nth_error_nth'. lia.
Qed.

Lemma mapM_val : forall A B C (f : B -> res C) (g : A -> C) (h : A -> B) l,
  (forall a, In a l -> f (h a) = Ok (g a)) -> mapM f (map h l) = Ok (map g l).
Proof.
  intros A B C f g h l H. apply mapM_forall2. induction l; cbn; constructor.
  - apply H. left. auto.
  - apply IHl. intros. apply H. right. auto.
Qed.

Lemma pyset_ok : forall A (l : list A) i v, (i < length l)%nat -> pyset l (Z.of_nat i) v = Ok (upd l i v).
Proof.
  intros. unfold pyset. cbv zeta. destruct (Z.ltb_spec (Z.of_nat i) 0); [lia|].
  cbn iota. destruct (Z.ltb_spec (Z.of_nat i) 0); [lia|]. cbn [orb].
  destruct (Z.leb_spec (Z.of_nat (length l)) (Z.of_nat i)); [lia|]. rewrite Nat2Z.id. auto.
Qed.

Section Self.
Variables (m : machine R) (p12 : R) (f : sfield) (F : params R) (d np cells : nat).
Hypothesis Hd : (0 < d)%nat.
Hypothesis Hnp : (0 < np)%nat.
Let N := (d * (np - 1))%nat.
Hypothesis Hm : holds m F N.
Hypothesis H12 : forall t, (t <= N)%nat -> ph12 F t = p12.
Let w := window_of f cells.
Hypothesis Hw : fits w N.
Hypothesis Hom : (N < length (sf_omega f))%nat.
Hypothesis HE : sf_dEbin f <> 0.
Hypothesis Ht : table_shape f np cells.
Let fwd := self_forward F w (sf_vself f) (sf_q f) d.
Let bwd := self_backward F w (sf_vself f) (sf_q f) d.
Let sups := self_ups F w (sf_vself f) (sf_q f) d.
Let sdowns := self_downs F w (sf_vself f) (sf_q f) d.

(** Rows of the tables at turn t for particles l. *)
Definition xrow (t : nat) (l : list (R * R)) : list R := map (fun s => position w t (fst s + ph0 F t)) l.
Definition yrow (l : list (R * R)) : list R := map (fun s => snd s / sf_dEbin f + sf_synch_y f) l.

Lemma np_get_ph0 : forall t, (t <= N)%nat -> np_get (MTrack.phi0 m) (Z.of_nat t) = Ok (ph0 F t).
Proof.
  intros t Hle. apply np_get_nth; [lia|]. rewrite Nat2Z.id. destruct Hm as [_ H]. apply H. auto.
Qed.
Lemma np_get_om : forall t, (t <= N)%nat -> np_get (sf_omega f) (Z.of_nat t) = Ok (at_ (sf_omega f) t).
Proof. intros t Hle. apply np_get_nth; [lia|]. rewrite Nat2Z.id. apply nth_error_nth'. lia. Qed.

Lemma xp_sf_ok : forall l t, (t <= N)%nat -> xp_sf m f (map fst l) (Z.of_nat t) = Ok (xrow t l).
Proof.
  intros l t Hle. unfold xp_sf. rewrite np_get_ph0, np_get_om by auto. cbn [bind].
  apply mapM_val. intros s _. unfold calc_xp_sf. cbv zeta. destruct Hw as [HL HB]. destruct (HB t Hle) as [B1 _].
  cbn [w window_of w_length w_bin] in HL, B1.
  rewrite rdiv_val by lra. cbn [bind]. rewrite rdiv_val by lra. f_equal. unfold position, w, window_of. cbn [w_length w_bin w_origin]. cbv zeta.
  replace (fst s + ph0 F t - sf_xorigin f * sf_h f * at_ (sf_omega f) t * sf_dtbin f)
    with (fst s + ph0 F t - sf_xorigin f * (sf_h f * at_ (sf_omega f) t * sf_dtbin f)) by ring. reflexivity.
Qed.
Lemma yp_sf_ok : forall l, yp_sf f (map snd l) = Ok (yrow l).
Proof. intros. unfold yp_sf. apply mapM_val. intros s _. rewrite rdiv_val by auto. reflexivity. Qed.

Lemma pos_trunc : forall t x, (t <= N)%nat -> rtrunc (position w t x) = rfloor (position w t x) /\
  (0 <= rfloor (position w t x) <= Z.of_nat cells)%Z.
Proof. intros t x Hle. destruct (position_range w N t x Hw Hle) as [[P1 P2] P3]. split; [apply rtrunc_floor; auto|exact P3]. Qed.

Lemma selfvolt_ok : forall A (l : list A) t (g : A -> Z), (t < N)%nat ->
  (forall a, In a l -> (-1 <= g a <= Z.of_nat cells)%Z) ->
  selfvolt f (Z.of_nat (t / d)) (map g l) = Ok (map (fun a => field (sf_vself f) d t (g a)) l).
Proof.
  intros A l t g Htn Hg. unfold selfvolt. destruct Ht as [T1 T2].
  assert (Q : (t / d < np - 1)%nat) by (apply Nat.div_lt_upper_bound; [lia|exact Htn]).
  assert (G : np_get (sf_vself f) (Z.of_nat (t / d)) = Ok (nth (t / d) (sf_vself f) [])).
  { apply np_get_nth; [apply Nat2Z.is_nonneg|]. rewrite Nat2Z.id. apply nth_error_nth'. rewrite T1. exact Q. }
  rewrite G.
  cbn [bind]. apply mapM_val. intros a Ha. apply (np_get_cell _ cells); auto.
  rewrite Forall_forall in T2. apply T2. apply nth_In. rewrite T1. exact Q.
Qed.

Lemma add_volt_ok : forall A (l : list A) (g h : A -> R), add_volt f (map g l) (map h l) = map (fun a => g a + sf_q f * h a) l.
Proof. intros. unfold add_volt. rewrite combine_map_map, map_map. apply map_ext. intros. cbn. ring. Qed.

Definition hit (t : nat) : bool := Nat.eqb (t mod d) 0.
Lemma hit_ok : forall t, (Z.modulo (Z.of_nat t) (Z.of_nat d) =? 0)%Z = hit t.
Proof.
  intros. unfold hit. rewrite <- Nat2Z.inj_mod. destruct (Nat.eqb_spec (t mod d) 0); destruct (Z.eqb_spec (Z.of_nat (t mod d)) 0); auto; lia.
Qed.

Lemma up_step_ok : forall t l x y tmp, (t < N)%nat -> length x = np -> length y = np ->
  self_up_step m p12 f (Z.of_nat d) (SState (map fst l) (map snd l) x y (Z.of_nat (t / d)) (Z.of_nat t) tmp)
  = Ok (let l' := map (fwd t) l in
        SState (map fst l') (map snd l')
          (if hit (S t) then upd x (S t / d) (xrow (S t) l') else x)
          (if hit (S t) then upd y (S t / d) (yrow l') else y)
          (Z.of_nat (S t / d)) (Z.of_nat (S t)) (xrow (S t) l')).
Proof.
  intros t l x y tmp Htn Lx Ly. unfold self_up_step. cbn [s_dphi s_denergy s_turn s_profile s_xp s_yp s_temp]. cbv zeta.
  rewrite map_length.
  destruct (hold_at F m N Hm t ltac:(lia)) as (_&_&_&_&_&Gc).
  destruct (hold_at F m N Hm (S t) ltac:(lia)) as (G1&G2&G3&_&G5&_).
  rewrite Gc. cbn [bind]. rewrite drift_up_ok by auto. cbn [bind].
  replace (Z.of_nat t + 1)%Z with (Z.of_nat (S t)) by lia.
  set (l' := map (fwd t) l).
  assert (E1 : map (fun s => fst s - coef F t * snd s) l = map fst l').
  { unfold l'. rewrite map_map. reflexivity. }
  rewrite E1. rewrite xp_sf_ok by lia. cbn [bind].
  unfold xrow at 1. rewrite map_map.
  rewrite (selfvolt_ok _ l' t) by (auto; intros a Ha; destruct (pos_trunc (S t) (fst a + ph0 F (S t)) ltac:(lia)) as [-> K]; lia).
  cbn [bind]. rewrite G1, G2, G3, G5. cbn [bind]. rewrite (hold_hr F m N Hm).
  rewrite <- E1. rewrite (kick_up_ok Rplus Rminus Rmult sin l (fun s => fst s - coef F t * snd s)) by auto. cbn [bind].
  assert (E2 : map (fun a => field (sf_vself f) d t (rtrunc (position w (S t) (fst a + ph0 F (S t))) - 1)) l'
     = map (fun s => field (sf_vself f) d t (rfloor (position w (S t) (fst (fwd t s) + ph0 F (S t))) - 1)) l).
  { unfold l'. rewrite map_map. apply map_ext. intros s. destruct (pos_trunc (S t) (fst (fwd t s) + ph0 F (S t)) ltac:(lia)) as [-> _]. reflexivity. }
  rewrite E2, add_volt_ok.
  assert (E3 : map (fun a => snd a + kick_term Rplus Rminus Rmult sin (v1 F (S t)) (v2 F (S t)) (ph0 F (S t)) p12 (hr F) (dE F (S t)) (fst a - coef F t * snd a)
      + sf_q f * field (sf_vself f) d t (rfloor (position w (S t) (fst (fwd t a) + ph0 F (S t))) - 1)) l = map snd l').
  { unfold l'. rewrite map_map. apply map_ext. intros s. rewrite <- (H12 (S t)) by lia. reflexivity. }
  rewrite E3, E1. rewrite hit_ok.
  destruct (Z.eqb_spec (Z.of_nat d) 0); [lia|].
  unfold hit. destruct (Nat.eqb_spec (S t mod d) 0).
  - replace (Z.of_nat (t / d) + 1)%Z with (Z.of_nat (S t / d)) by (rewrite div_succ_hit by auto; lia).
    assert (Q : (S t / d < np)%nat) by (apply Nat.div_lt_upper_bound; [lia|]; unfold N in Htn; nia).
    rewrite pyset_ok by lia. cbn [bind]. rewrite yp_sf_ok. cbn [bind]. rewrite pyset_ok by lia. cbn [bind]. reflexivity.
  - rewrite (div_succ_miss t d) by auto. reflexivity.
Qed.

Lemma down_step_ok : forall t l x y, (t < N)%nat -> length x = np -> length y = np ->
  self_down_step m p12 f (Z.of_nat d) (SState (map fst l) (map snd l) x y (Z.of_nat (t / d)) (Z.of_nat (S t)) (xrow (S t) l))
  = Ok (let l' := map (bwd t) l in
        SState (map fst l') (map snd l')
          (if hit t then upd x (t / d) (xrow t l') else x)
          (if hit t then upd y (t / d) (yrow l') else y)
          (if hit t then Z.of_nat (t / d) - 1 else Z.of_nat (t / d))%Z (Z.of_nat t) (xrow t l')).
Proof.
  intros t l x y Htn Lx Ly. unfold self_down_step. cbn [s_dphi s_denergy s_turn s_profile s_xp s_yp s_temp]. cbv zeta.
  rewrite map_length.
  destruct (hold_at F m N Hm t ltac:(lia)) as (_&_&_&_&_&Gc).
  destruct (hold_at F m N Hm (S t) ltac:(lia)) as (G1&G2&G3&_&G5&_).
  unfold xrow at 1. rewrite map_map.
  rewrite (selfvolt_ok _ l t) by (auto; intros a Ha; destruct (pos_trunc (S t) (fst a + ph0 F (S t)) ltac:(lia)) as [-> K]; lia).
  cbn [bind]. rewrite G1, G2, G3, G5. cbn [bind]. rewrite (hold_hr F m N Hm).
  rewrite (kick_down_ok Rplus Rminus Rmult sin l fst) by auto. cbn [bind].
  rewrite add_volt_ok.
  replace (Z.of_nat (S t) - 1)%Z with (Z.of_nat t) by lia. rewrite Gc. cbn [bind].
  set (l' := map (bwd t) l).
  assert (E3 : map (fun a => snd a - kick_term Rplus Rminus Rmult sin (v1 F (S t)) (v2 F (S t)) (ph0 F (S t)) p12 (hr F) (dE F (S t)) (fst a)
      + sf_q f * field (sf_vself f) d t (rtrunc (position w (S t) (fst a + ph0 F (S t))))) l = map snd l').
  { unfold l'. rewrite map_map. apply map_ext. intros s. rewrite <- (H12 (S t)) by lia.
    destruct (pos_trunc (S t) (fst s + ph0 F (S t)) ltac:(lia)) as [-> _]. reflexivity. }
  rewrite E3.
  assert (E1 : drift_down Rplus Rmult (map fst l) (map snd l') (coef F t) (length l) = Ok (map fst l')).
  { set (l2 := map (fun s => (fst s, snd (bwd t s))) l).
    replace (map fst l) with (map fst l2) by (unfold l2; rewrite map_map; reflexivity).
    replace (map snd l') with (map snd l2) by (unfold l2, l'; rewrite !map_map; reflexivity).
    assert (HL2 : length l2 = length l) by (unfold l2; apply map_length).
    etransitivity; [apply drift_down_ok; first [exact HL2|exact Rminus|exact sin]|].
    f_equal. unfold l2, l'. rewrite !map_map. reflexivity. }
  rewrite E1. cbn [bind]. rewrite xp_sf_ok by lia. cbn [bind]. rewrite hit_ok.
  destruct (Z.eqb_spec (Z.of_nat d) 0); [lia|].
  unfold hit. destruct (Nat.eqb_spec (t mod d) 0).
  - assert (Q : (t / d < np)%nat) by (apply Nat.div_lt_upper_bound; [lia|]; unfold N in Htn; nia).
    rewrite pyset_ok by lia. cbn [bind]. rewrite yp_sf_ok. cbn [bind]. rewrite pyset_ok by lia. cbn [bind]. reflexivity.
  - reflexivity.
Qed.

Lemma up_loop_ok : forall k t l x y pr tmp, (t + k = N)%nat -> length x = np -> length y = np -> pr = Z.of_nat (t / d) ->
  exists s, self_up_loop k m p12 f (Z.of_nat d) (Z.of_nat N) (SState (map fst l) (map snd l) x y pr (Z.of_nat t) tmp) = Ok s
  /\ length (s_xp s) = np /\ length (s_yp s) = np
  /\ (forall q, (t < q * d)%nat -> (q < np)%nat ->
        nth_error (s_xp s) q = Some (xrow (q * d) (map (sups (q * d - t) t) l))
     /\ nth_error (s_yp s) q = Some (yrow (map (sups (q * d - t) t) l)))
  /\ (forall q, (q * d <= t)%nat -> nth_error (s_xp s) q = nth_error x q /\ nth_error (s_yp s) q = nth_error y q).
Proof.
  induction k as [|k IH]; intros t l x y pr tmp Ek Lx Ly Ep.
  - eexists. cbn [self_up_loop s_turn]. destruct (Z.ltb_spec (Z.of_nat t) (Z.of_nat N)); [lia|].
    split; [reflexivity|]. cbn [s_xp s_yp]. split; [auto|]. split; [auto|]. split; [|intros; split; reflexivity].
    intros q A B. exfalso. unfold N in Ek. nia.
  - cbn [self_up_loop s_turn]. destruct (Z.ltb_spec (Z.of_nat t) (Z.of_nat N)); [|lia].
    subst pr. rewrite up_step_ok by (auto; lia). cbn [bind]. cbv zeta.
    set (l' := map (fwd t) l).
    set (x1 := if hit (S t) then upd x (S t / d) (xrow (S t) l') else x).
    set (y1 := if hit (S t) then upd y (S t / d) (yrow l') else y).
    assert (L1 : length x1 = np) by (unfold x1; destruct (hit (S t)); rewrite ?upd_length; auto).
    assert (L2 : length y1 = np) by (unfold y1; destruct (hit (S t)); rewrite ?upd_length; auto).
    destruct (IH (S t) l' x1 y1 _ (xrow (S t) l') ltac:(lia) L1 L2 eq_refl) as (s & Es & A & B & C & D).
    exists s. split; [exact Es|]. split; [auto|]. split; [auto|].
    split.
    + intros q Hq Hqn. destruct (Nat.eq_dec (q * d) (S t)) as [E|E].
      * destruct (D q ltac:(lia)) as [D1 D2]. rewrite D1, D2.
        replace (q * d - t)%nat with 1%nat by lia.
        assert (Hh : hit (S t) = true) by (unfold hit; rewrite <- E, Nat.mod_mul by lia; reflexivity).
        unfold x1, y1. rewrite Hh. rewrite <- E, Nat.div_mul by lia.
        rewrite !nth_error_upd_eq by lia. rewrite E. split; reflexivity.
      * destruct (C q ltac:(lia) Hqn) as [C1 C2]. rewrite C1, C2.
        replace (q * d - t)%nat with (S (q * d - S t)) by lia. unfold l'. rewrite map_map. split; reflexivity.
    + intros q Hq. destruct (D q ltac:(lia)) as [D1 D2]. rewrite D1, D2. unfold x1, y1.
      destruct (hit (S t)) eqn:Hh; [|split; reflexivity].
      assert (q <> S t / d)%nat.
      { intros ->. unfold hit in Hh. apply Nat.eqb_eq in Hh. pose proof (Nat.div_mod_eq (S t) d). nia. }
      rewrite !nth_error_upd_neq by auto. split; reflexivity.
Qed.

Lemma down_loop_ok : forall t l x y pr, (t <= N)%nat -> length x = np -> length y = np ->
  (forall t', t = S t' -> pr = Z.of_nat (t' / d)) ->
  exists s, self_down_loop t m p12 f (Z.of_nat d) (SState (map fst l) (map snd l) x y pr (Z.of_nat t) (xrow t l)) = Ok s
  /\ length (s_xp s) = np /\ length (s_yp s) = np
  /\ (forall q, (q * d < t)%nat ->
        nth_error (s_xp s) q = Some (xrow (q * d) (map (sdowns (t - q * d) (q * d)) l))
     /\ nth_error (s_yp s) q = Some (yrow (map (sdowns (t - q * d) (q * d)) l)))
  /\ (forall q, (t <= q * d)%nat -> nth_error (s_xp s) q = nth_error x q /\ nth_error (s_yp s) q = nth_error y q).
Proof.
  induction t as [|t IH]; intros l x y pr Hle Lx Ly Ep.
  - eexists. cbn [self_down_loop s_turn]. destruct (Z.ltb_spec 0 (Z.of_nat 0)); [lia|].
    split; [reflexivity|]. cbn [s_xp s_yp]. split; [auto|]. split; [auto|]. split; [|intros; split; reflexivity].
    intros q A. exfalso. lia.
  - cbn [self_down_loop]. cbn [s_turn]. destruct (Z.ltb_spec 0 (Z.of_nat (S t))); [|lia].
    rewrite (Ep t eq_refl). rewrite down_step_ok by (auto; lia). cbn [bind]. cbv zeta.
    set (l' := map (bwd t) l).
    set (x1 := if hit t then upd x (t / d) (xrow t l') else x).
    set (y1 := if hit t then upd y (t / d) (yrow l') else y).
    assert (L1 : length x1 = np) by (unfold x1; destruct (hit t); rewrite ?upd_length; auto).
    assert (L2 : length y1 = np) by (unfold y1; destruct (hit t); rewrite ?upd_length; auto).
    assert (Q : (t / d < np)%nat) by (apply Nat.div_lt_upper_bound; [lia|]; unfold N in Hle; nia).
    set (pr' := (if hit t then Z.of_nat (t / d) - 1 else Z.of_nat (t / d))%Z).
    assert (P' : forall t', t = S t' -> pr' = Z.of_nat (t' / d)).
    { intros t' ->. unfold pr', hit. destruct (Nat.eqb_spec (S t' mod d) 0) as [Z0|Z0].
      - rewrite div_succ_hit by auto. lia.
      - rewrite (div_succ_miss t' d) by auto. reflexivity. }
    destruct (IH l' x1 y1 pr' ltac:(lia) L1 L2 P') as (s & Es & A & B & C & D).
    exists s. split; [exact Es|]. split; [auto|]. split; [auto|].
    assert (IND : forall n a s0, sdowns (S n) a s0 = sdowns n a (bwd (a + n) s0)).
    { induction n as [|n IHn]; intros a s0.
      - cbn. rewrite Nat.add_0_r. reflexivity.
      - change (bwd a (sdowns (S n) (S a) s0) = bwd a (sdowns n (S a) (bwd (a + S n) s0))). rewrite IHn.
        replace (S a + n)%nat with (a + S n)%nat by lia. reflexivity. }
    split.
    + intros q Hq. destruct (Nat.eq_dec (q * d) t) as [E|E].
      * destruct (D q ltac:(lia)) as [D1 D2]. rewrite D1, D2.
        assert (Hh : hit t = true) by (unfold hit; rewrite <- E, Nat.mod_mul by lia; reflexivity).
        assert (Eq : (t / d)%nat = q) by (rewrite <- E; apply Nat.div_mul; lia).
        unfold x1, y1. rewrite Hh. rewrite Eq in Q |- *.
        rewrite !nth_error_upd_eq by lia. replace (S t - q * d)%nat with 1%nat by lia. rewrite E. split; reflexivity.
      * destruct (C q ltac:(lia)) as [C1 C2]. rewrite C1, C2.
        replace (S t - q * d)%nat with (S (t - q * d)) by lia. unfold l'. rewrite map_map.
        assert (Em : map (fun s0 => sdowns (t - q * d) (q * d) (bwd t s0)) l = map (sdowns (S (t - q * d)) (q * d)) l).
        { apply map_ext. intros s0. rewrite IND. replace (q * d + (t - q * d))%nat with t by lia. reflexivity. }
        rewrite Em. split; reflexivity.
    + intros q Hq. destruct (D q ltac:(lia)) as [D1 D2]. rewrite D1, D2. unfold x1, y1.
      destruct (hit t) eqn:Hh; [|split; reflexivity].
      assert (q <> t / d)%nat.
      { intros ->. unfold hit in Hh. apply Nat.eqb_eq in Hh. pose proof (Nat.div_mod_eq t d). nia. }
      rewrite !nth_error_upd_neq by auto. split; reflexivity.
Qed.

Theorem self_rows : forall p l, (p < np)%nat ->
  exists xs ys, kick_and_drift_self m p12 f np (map snd l) (map fst l) (Z.of_nat d) (Z.of_nat p) 0 (Z.of_nat N) = Ok (xs, ys)
  /\ length xs = np /\ length ys = np
  /\ forall q, (q < np)%nat ->
        nth_error xs q = Some (xrow (q * d) (map (self_travel F w (sf_vself f) (sf_q f) d (p * d) (q * d)) l))
     /\ nth_error ys q = Some (yrow (map (self_travel F w (sf_vself f) (sf_q f) d (p * d) (q * d)) l)).
Proof.
  intros p l Hp. unfold kick_and_drift_self. cbv zeta.
  replace (Z.of_nat p * Z.of_nat d + 0)%Z with (Z.of_nat (p * d)) by lia.
  assert (PN : (p * d <= N)%nat) by (unfold N; nia).
  rewrite xp_sf_ok by auto. cbn [bind]. rewrite pyset_ok by (rewrite repeat_length; auto). cbn [bind].
  rewrite yp_sf_ok. cbn [bind]. rewrite pyset_ok by (rewrite repeat_length; auto). cbn [bind].
  change (0 <? 0)%Z with false. cbv iota.
  replace (Z.to_nat (Z.of_nat N - Z.of_nat (p * d))) with (N - p * d)%nat by lia.
  set (x0 := upd _ p (xrow _ _)). set (y0 := upd _ p (yrow _)).
  assert (L0 : length x0 = np) by (unfold x0; rewrite upd_length, repeat_length; auto).
  assert (L1 : length y0 = np) by (unfold y0; rewrite upd_length, repeat_length; auto).
  destruct (up_loop_ok (N - p * d) (p * d) l x0 y0 (Z.of_nat p) (xrow (p * d) l) ltac:(lia) L0 L1 ltac:(rewrite Nat.div_mul by lia; reflexivity))
    as (s & -> & A & B & C & D).
  cbn [bind].
  assert (X0 : nth_error x0 p = Some (xrow (p * d) l)) by (unfold x0; apply nth_error_upd_eq; rewrite repeat_length; auto).
  assert (Y0 : nth_error y0 p = Some (yrow l)) by (unfold y0; apply nth_error_upd_eq; rewrite repeat_length; auto).
  destruct (D p ltac:(lia)) as [Dx Dy]. rewrite X0 in Dx. rewrite Y0 in Dy.
  assert (G : np_get (s_xp s) (Z.of_nat p) = Ok (xrow (p * d) l)) by (apply np_get_nth; [lia|]; rewrite Nat2Z.id; auto).
  rewrite G. cbn [bind]. rewrite Nat2Z.id.
  assert (PR : forall t', (p * d)%nat = S t' -> (Z.of_nat p - 1)%Z = Z.of_nat (t' / d)).
  { intros t' E. destruct p as [|p]; [lia|]. replace (t' / d)%nat with p; [lia|].
    apply (Nat.div_unique t' d p (d - 1)); nia. }
  destruct (down_loop_ok (p * d) l (s_xp s) (s_yp s) _ PN A B PR) as (s' & -> & A' & B' & C' & D').
  cbn [bind]. do 2 eexists. split; [reflexivity|]. split; [auto|]. split; [auto|].
  intros q Hq. unfold self_travel. destruct (Nat.leb_spec (p * d) (q * d)).
  - destruct (D' q ltac:(auto)) as [-> ->]. destruct (Nat.eq_dec q p) as [->|NE].
    + rewrite Dx, Dy, Nat.sub_diag. cbn [self_ups]. rewrite map_id. split; reflexivity.
    + destruct (C q ltac:(nia) Hq) as [-> ->]. split; reflexivity.
  - destruct (C' q ltac:(auto)) as [-> ->]. split; reflexivity.
Qed.
End Self.
