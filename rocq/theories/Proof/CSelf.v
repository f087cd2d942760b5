(*HEAD*)
From Coq Require Import Reals List ZArith Bool Lia Lra.
From Verif Require Import Base.Res Base.RLib Model.MRecon Model.MParticles Model.MTrack Model.MMachine Model.MSelf
  Spec.TrackSpec Spec.MachineSpec Spec.SelfSpec.
Import ListNotations.
Local Open Scope R_scope.
(*DAEH*)
From Verif Require Import Base.ResLemmas Base.QcLib Base.QcLemmas Proof.PInput Proof.PTrack Proof.PTrack2 Proof.PMachine Proof.PSelf Proof.CMachine.

Lemma rceil_unique : forall x z, IZR z - 1 < x <= IZR z -> rceil x = z.
Proof.
  intros x z H. assert (S := rceil_spec x).
  assert (IZR (rceil x) < IZR (z + 1)) by (rewrite plus_IZR; lra). assert (IZR z < IZR (rceil x + 1)) by (rewrite plus_IZR; lra).
  apply lt_IZR in H0. apply lt_IZR in H1. lia.
Qed.

Lemma Forall2_nth_error_r : forall A B (P : A -> B -> Prop) l l', Forall2 P l l' -> forall i b, nth_error l' i = Some b ->
  exists a, nth_error l i = Some a /\ P a b.
Proof. intros A B P l l' H. induction H; intros [|i] b' E; cbn in *; try discriminate. - injection E as <-. eauto. - apply IHForall2. auto. Qed.
Lemma nth_error_firstn_lt : forall A (l : list A) n j, (j < n)%nat -> nth_error (firstn n l) j = nth_error l j.
Proof. intros A l. induction l as [|a l IH]; intros [|n] [|j] H; cbn; auto; try lia. apply IH. lia. Qed.

(** * C13: tracking with self-fields *)

(** C13: when the window fits at every turn, tracking returns for every start
    profile and distribution, and each row has the positions of the particles
    followed turn by turn from the start profile; the accepted deltaturn has
    no effect. *)
Lemma C13_rows_partial_lem : forall m p12 f F d np cells r delta p l, self_setting m p12 f F d np cells ->
  fits (window_of f cells) (d * (np - 1)) ->
  track_checks (Z.of_nat np) (Z.of_nat d) r delta = Ok (Z.of_nat p) ->
  exists xs ys, track_self m p12 f np (Z.of_nat d) r delta (map fst l) (map snd l) = Ok (xs, ys) /\
    self_rows_are F f cells d np (p * d) l xs ys.
Proof.
  intros m p12 f F d np cells r delta p l (Hd & Hn & Hm & H12 & Ho & HE & Ht) Hf Hc.
  unfold track_self. rewrite Hc. cbn [bind].
  apply track_checks_ok in Hc. destruct Hc as (A & B & C & D).
  assert (Hp : (p < np)%nat) by nia.
  destruct (self_rows m p12 f F d np cells Hd Hn Hm H12 Hf Ho HE Ht p l Hp) as (xs & ys & E & L1 & L2 & R).
  exists xs, ys. split.
  - rewrite <- E. f_equal. nia.
  - split; [auto|]. split; [auto|]. intros q Hq. destruct (R q Hq) as [R1 R2]. cbv zeta. rewrite R1, R2. split; reflexivity.
Qed.

(** C13: the routine itself, for every start profile including the last. *)
Lemma C13_routine_rows_lem : forall m p12 f F d np cells p l, self_setting m p12 f F d np cells ->
  fits (window_of f cells) (d * (np - 1)) -> (p < np)%nat ->
  exists xs ys, kick_and_drift_self m p12 f np (map snd l) (map fst l) (Z.of_nat d) (Z.of_nat p) 0 (Z.of_nat (d * (np - 1))) = Ok (xs, ys) /\
    self_rows_are F f cells d np (p * d) l xs ys.
Proof.
  intros m p12 f F d np cells p l (Hd & Hn & Hm & H12 & Ho & HE & Ht) Hf Hp.
  destruct (self_rows m p12 f F d np cells Hd Hn Hm H12 Hf Ho HE Ht p l Hp) as (xs & ys & E & L1 & L2 & R).
  exists xs, ys. split; [exact E|]. split; [auto|]. split; [auto|].
  intros q Hq. destruct (R q Hq) as [R1 R2]. cbv zeta. rewrite R1, R2. split; reflexivity.
Qed.

Lemma cell_zero : forall row c, Forall (fun v => v = 0) row -> cell row c = 0.
Proof.
  intros row c H. unfold cell. destruct (c <? 0)%Z.
  - induction H as [|a row E H IH]; auto. subst a. cbn. destruct row; auto.
  - generalize (Z.to_nat c). induction H as [|a row E H IH]; intros [|n]; cbn; auto.
Qed.
Lemma field_zero : forall table d t c, Forall (Forall (fun v => v = 0)) table -> field table d t c = 0.
Proof.
  intros table d t c H. unfold field. apply cell_zero. generalize (t / d)%nat. induction H as [|a row E H IH]; intros [|n]; cbn; auto.
Qed.

(** C13: without self-field voltages the path of a particle is the ordinary
    one. *)
Lemma C13_no_field_lem : forall F w table q d, Forall (Forall (fun v => v = 0)) table ->
  forall a b s, self_travel F w table q d a b s = travel Rplus Rminus Rmult sin F a b s.
Proof.
  intros F w table q d Hz.
  assert (U : forall t s, self_forward F w table q d t s = forward Rplus Rminus Rmult sin F t s).
  { intros. unfold self_forward. cbv zeta. rewrite field_zero by auto. destruct (forward _ _ _ _ F t s). cbn [fst snd]. f_equal. ring. }
  assert (D : forall t s, self_backward F w table q d t s = backward Rplus Rminus Rmult sin F t s).
  { intros. unfold self_backward, backward. cbv zeta. rewrite field_zero by auto.
    replace (snd s - gain Rplus Rminus Rmult sin F (S t) (fst s) + q * 0) with (snd s - gain Rplus Rminus Rmult sin F (S t) (fst s)) by ring. reflexivity. }
  assert (US : forall n t s, self_ups F w table q d n t s = ups Rplus Rminus Rmult sin F n t s).
  { induction n; intros; cbn; auto. rewrite U. apply IHn. }
  assert (DS : forall n t s, self_downs F w table q d n t s = downs Rplus Rminus Rmult sin F n t s).
  { induction n; intros; cbn; auto. rewrite D, IHn. reflexivity. }
  intros a b s. unfold self_travel, travel. rewrite US, DS. reflexivity.
Qed.

(** C13: one turn forward and one turn back changes the energy by q times the
    sum of two neighbouring cells of the table; one turn is undone exactly if
    that sum vanishes. *)
Lemma C13_one_turn_partial_lem : forall F w table q d t s,
  let c := rfloor (position w (S t) (fst (forward Rplus Rminus Rmult sin F t s) + ph0 F (S t))) in
  let err := q * (field table d t (c - 1) + field table d t c) in
  self_backward F w table q d t (self_forward F w table q d t s) = (fst s + coef F t * err, snd s + err) /\
  (self_backward F w table q d t (self_forward F w table q d t s) = s <-> err = 0).
Proof.
  intros F w table q d t s c err.
  assert (E : self_backward F w table q d t (self_forward F w table q d t s) = (fst s + coef F t * err, snd s + err)).
  { unfold self_backward, self_forward. cbv zeta. cbn [fst snd]. fold c.
    assert (Ee : snd (forward Rplus Rminus Rmult sin F t s) + q * field table d t (c - 1)
       - gain Rplus Rminus Rmult sin F (S t) (fst (forward Rplus Rminus Rmult sin F t s)) + q * field table d t c = snd s + err).
    { unfold forward, err. cbv zeta. cbn [fst snd]. ring. }
    rewrite Ee. f_equal. unfold forward. cbv zeta. cbn [fst]. ring. }
  split; [exact E|]. rewrite E. destruct s as [x e]. cbn [fst snd]. split.
  - intros H. injection H as _ H. lra.
  - intros ->. f_equal; ring.
Qed.

Lemma still_holds : forall k n, holds (still_machine k n) (still_params k) n.
Proof.
  intros k n. split; [reflexivity|]. intros t Ht. cbn [still_machine rf1v rf2v MTrack.phi0 MTrack.phi12 deltaE0 drift_coef still_params v1 v2 ph0 ph12 dE coef].
  assert (G : forall x : R, nth_error (repeat x (S n)) t = Some x).
  { intros. apply nth_error_repeat. lia. }
  rewrite !G. repeat split.
Qed.

Lemma still_gain : forall k t x, gain Rplus Rminus Rmult sin (still_params k) t x = 0.
Proof. intros. unfold gain. cbn [still_params v1 v2 ph0 ph12 dE hr]. ring. Qed.

Lemma still_setting : forall k n dt om tab cells d np, (0 < d)%nat -> (0 < np)%nat -> n = (d * (np - 1))%nat -> (n < length om)%nat ->
  length tab = (np - 1)%nat -> Forall (fun r => length r = S cells) tab ->
  self_setting (still_machine k n) 0 (still_field dt om tab) (still_params k) d np cells.
Proof.
  intros k n dt om tab cells d np Hd Hn -> Ho L T. split; [auto|]. split; [auto|]. split; [apply still_holds|]. split; [reflexivity|].
  split; [exact Ho|]. split; [cbn; lra|]. split; auto.
Qed.

Lemma at_repeat : forall (x : R) n t, (t < n)%nat -> at_ (repeat x n) t = x.
Proof. intros. unfold at_. rewrite (nth_indep _ 0 x) by (rewrite repeat_length; auto). apply nth_repeat. Qed.

Lemma still_position : forall n tab cells t x, (t < n)%nat -> 0 <= x < 2 * PI ->
  position (window_of (still_field 1 (repeat 1 n) tab) cells) t x = x.
Proof.
  intros n tab cells t x Ht Hx. unfold position, window_of, still_field. cbn [w_origin w_bin w_length sf_phiwrap sf_h sf_omega sf_dtbin sf_xorigin]. cbv zeta.
  rewrite at_repeat by auto.
  assert (P := PI_RGT_0). replace (rfloor ((x - 0 * (1 * 1 * 1)) / (2 * PI))) with 0%Z; [cbn; field|].
  symmetry. apply rfloor_unique. cbn.
  assert (E : x = (2 * PI) * ((x - 0 * (1 * 1 * 1)) / (2 * PI))) by (field; lra).
  set (u := (x - 0 * (1 * 1 * 1)) / (2 * PI)) in *. split; nra.
Qed.

Lemma still_fits : forall n tab cells, (7 <= cells)%nat -> fits (window_of (still_field 1 (repeat 1 (S n)) tab) cells) n.
Proof.
  intros n tab cells Hc. split; cbn [window_of still_field w_length w_bin w_cells sf_phiwrap sf_h sf_omega sf_dtbin].
  - assert (P := PI_RGT_0). lra.
  - intros t Ht. rewrite at_repeat by lia. split; [lra|]. apply le_INR in Hc. cbn in Hc. assert (P := PI_4). lra.
Qed.

(** C13 does not hold: in a machine that changes no energy and no phase, with
    the same voltage in every cell, the table started at profile 1 with the
    coordinates found there has another energy at profile 0. *)
Lemma C13_reversible_refuted_lem : exists m f xs ys ys',
  self_setting m 0 f (still_params 0) 1 3 7 /\ fits (window_of f 7) (1 * (3 - 1)) /\
  track_self m 0 f 3 1 0 0 [0] [0] = Ok (xs, ys) /\ ys = [[0]; [1]; [2]] /\
  track_self m 0 f 3 1 1 0 [0] [1] = Ok (xs, ys') /\ ys' = [[2]; [1]; [2]].
Proof.
  set (tab := [repeat 1 8; repeat 1 8]).
  set (f := still_field 1 (repeat 1 3) tab).
  assert (ST : self_setting (still_machine 0 2) 0 f (still_params 0) 1 3 7).
  { apply still_setting; cbn; try lia. repeat constructor. }
  assert (FI : fits (window_of f 7) (1 * (3 - 1))) by (apply still_fits; lia).
  set (w := window_of f 7).
  assert (V : forall t c, (t < 2)%nat -> (-1 <= c <= 7)%Z -> field (sf_vself f) 1 t c = 1).
  { intros t c Ht Hc. unfold field. rewrite Nat.div_1_r. assert (Row : nth t (sf_vself f) [] = repeat 1 8) by (destruct t as [|[|t]]; [reflexivity|reflexivity|lia]).
    rewrite Row. unfold cell. destruct (Z.ltb_spec c 0); [reflexivity|]. rewrite (nth_indep _ 0 1) by (rewrite repeat_length; lia). apply nth_repeat. }
  assert (R : forall t x, (t <= 2)%nat -> (0 <= rfloor (position w t x) <= 7)%Z).
  { intros t x Ht. destruct (position_range w 2 t x FI ltac:(lia)) as [_ P]. exact P. }
  assert (U : forall t e, (t < 2)%nat -> self_forward (still_params 0) w (sf_vself f) 1 1 t (0, e) = (0, e + 1)).
  { intros t e Ht. unfold self_forward, forward. cbv zeta. cbn [fst snd]. rewrite still_gain.
    assert (P := R (S t) (0 - coef (still_params 0) t * e + ph0 (still_params 0) (S t)) ltac:(lia)). rewrite V by lia.
    cbn [still_params coef]. f_equal; ring. }
  assert (D : forall t e, (t < 2)%nat -> self_backward (still_params 0) w (sf_vself f) 1 1 t (0, e) = (0, e + 1)).
  { intros t e Ht. unfold self_backward. cbv zeta. cbn [fst snd]. rewrite still_gain.
    assert (P := R (S t) (0 + ph0 (still_params 0) (S t)) ltac:(lia)). rewrite V by lia.
    cbn [still_params coef]. f_equal; ring. }
  assert (X : forall t, (t < 3)%nat -> position w t (0 + ph0 (still_params 0) t) = 0).
  { intros t Ht. cbn [still_params ph0]. rewrite Rplus_0_r. apply (still_position 3 tab 7 t 0); auto. assert (P := PI_RGT_0). lra. }
  assert (K : forall p e, (p < 2)%nat -> exists xs ys,
     track_self (still_machine 0 2) 0 f 3 1 (Z.of_nat p) 0 [0] [e] = Ok (xs, ys) /\ self_rows_are (still_params 0) f 7 1 3 (p * 1) [(0, e)] xs ys).
  { intros p e Hp. apply (C13_rows_partial_lem _ _ _ _ 1 3 7 (Z.of_nat p) 0 p [(0, e)] ST FI). apply track_checks_ok.
    destruct (Z.ltb_spec (Z.of_nat p) 0); cbn [Z.abs]; lia. }
  assert (T3 : forall A (l : list A) a b c, length l = 3%nat -> nth_error l 0 = Some a -> nth_error l 1 = Some b -> nth_error l 2 = Some c -> l = [a; b; c]).
  { intros A l a b c. destruct l as [|a' [|b' [|c' [|d' l]]]]; cbn; intros; try discriminate. congruence. }
  destruct (K 0%nat 0 ltac:(lia)) as (xs & ys & E & L1 & L2 & Rw).
  destruct (K 1%nat 1 ltac:(lia)) as (xs' & ys' & E' & L1' & L2' & Rw').
  exists (still_machine 0 2), f, xs, ys, ys'.
  split; [exact ST|]. split; [exact FI|]. split; [exact E|].
  destruct (Rw 0%nat ltac:(lia)) as [A0 B0]. destruct (Rw 1%nat ltac:(lia)) as [A1 B1]. destruct (Rw 2%nat ltac:(lia)) as [A2 B2].
  destruct (Rw' 0%nat ltac:(lia)) as [A0' B0']. destruct (Rw' 1%nat ltac:(lia)) as [A1' B1']. destruct (Rw' 2%nat ltac:(lia)) as [A2' B2'].
  fold w in A0, A1, A2, A0', A1', A2', B0, B1, B2, B0', B1', B2'. cbv zeta in *. unfold self_travel in *. cbn [Nat.mul Nat.add Nat.sub Nat.leb map self_ups self_downs] in *.
  change (sf_q f) with 1 in *. change (sf_dEbin f) with 1 in *. change (sf_synch_y f) with 0 in *.
  rewrite (U 0%nat) in * by lia. rewrite (U 1%nat) in * by lia. rewrite (D 0%nat) in * by lia.
  cbn [fst snd] in *. rewrite !X in * by lia.
  assert (Ex : xs = [[0]; [0]; [0]]) by (apply T3; auto).
  assert (Ex' : xs' = [[0]; [0]; [0]]) by (apply T3; auto).
  split. { rewrite (T3 _ ys _ _ _ L2 B0 B1 B2). repeat f_equal; field. }
  split. { rewrite Ex, <- Ex'. exact E'. }
  rewrite (T3 _ ys' _ _ _ L2' B0' B1' B2'). repeat f_equal; field.
Qed.

(** C13 does not hold: with deltaturn 1 the particle is not followed from turn
    1, not even without fields: its energy 1 at turn 1 puts it at phase 1 at
    turn 0, and the table has phase 0. *)
Lemma C13_deltaturn_refuted_lem : exists m f xs ys,
  self_setting m 0 f (still_params 1) 2 3 7 /\ fits (window_of f 7) (2 * (3 - 1)) /\
  track_self m 0 f 3 2 0 1 [0] [1] = Ok (xs, ys) /\
  ~ self_rows_are (still_params 1) f 7 2 3 (0 * 2 + 1) [(0, 1)] xs ys /\
  self_rows_are (still_params 1) f 7 2 3 (0 * 2) [(0, 1)] xs ys.
Proof.
  set (tab := [repeat 0 8; repeat 0 8]).
  set (f := still_field 1 (repeat 1 5) tab).
  assert (ST : self_setting (still_machine 1 4) 0 f (still_params 1) 2 3 7).
  { apply still_setting; cbn; try lia. repeat constructor. }
  assert (FI : fits (window_of f 7) (2 * (3 - 1))) by (apply still_fits; lia).
  destruct (C13_rows_partial_lem _ _ _ _ 2 3 7 0%Z 1%Z 0%nat [(0, 1)] ST FI) as (xs & ys & E & Rw).
  { apply track_checks_ok. cbn. lia. }
  exists (still_machine 1 4), f, xs, ys. split; [exact ST|]. split; [exact FI|]. split; [exact E|]. split; [|exact Rw].
  intros C. destruct Rw as (_ & _ & Rw). destruct C as (_ & _ & C).
  destruct (Rw 0%nat ltac:(lia)) as [A _]. destruct (C 0%nat ltac:(lia)) as [B _].
  rewrite A in B. cbn [map] in B. rewrite !C13_no_field_lem in B by (repeat constructor). clear A C Rw.
  unfold travel in B. cbn [Nat.mul Nat.add Nat.leb Nat.sub ups downs] in B. unfold backward in B. cbv zeta in B. cbn [fst snd] in B.
  rewrite still_gain in B. cbn [still_params coef ph0] in B.
  assert (P2 := PI2_1). assert (P := PI_RGT_0).
  assert (SP := still_position 5 tab 7 0). fold f in SP.
  rewrite (SP (0 + 0)) in B by (lia || lra).
  rewrite (SP (0 + 1 * (1 - 0) + 0)) in B by (lia || lra). injection B as B. lra.
Qed.

(** C13: the window made by find_wrap_length fits at every turn whose
    revolution frequency is not much below the one the window was made with:
    then no index of the table is out of range. *)
Lemma C13_bounds_partial_lem : forall m p12 f F d np nbins wl bdot om r delta p l,
  (1 < np)%nat -> (0 < nbins)%nat -> 0 < sf_h f -> 0 < sf_dtbin f ->
  find_wrap_length bdot (sf_h f) (sf_dtbin f) (sf_omega f) (Z.of_nat np) (Z.of_nat d) (Z.of_nat nbins) = Ok (sf_phiwrap f, wl) ->
  om = at_ (sf_omega f) (window_turn bdot np d) -> 0 < om ->
  (forall t, (t <= d * (np - 1))%nat -> 0 < at_ (sf_omega f) t /\ IZR wl * om <= (IZR wl + 1) * at_ (sf_omega f) t) ->
  self_setting m p12 f F d np (Z.to_nat wl) ->
  track_checks (Z.of_nat np) (Z.of_nat d) r delta = Ok (Z.of_nat p) ->
  exists xs ys, track_self m p12 f np (Z.of_nat d) r delta (map fst l) (map snd l) = Ok (xs, ys) /\
    self_rows_are F f (Z.to_nat wl) d np (p * d) l xs ys.
Proof.
  intros m p12 f F d np nbins wl bdot om r delta p l Hnp Hnb Hh Hdt HW Eom Hom HO HS Hc.
  apply C13_rows_partial_lem; auto. destruct HS as (Hd & _ & _ & _ & Ho & _).
  unfold find_wrap_length in HW. cbv zeta in HW.
  assert (Eg : np_get (sf_omega f) (if Rlt_dec 0 bdot then (Z.of_nat np - 1) * Z.of_nat d - 1 else 0)%Z = Ok om).
  { apply np_get_nth. { destruct (Rlt_dec 0 bdot); nia. }
    rewrite Eom. unfold at_, window_turn. replace (Z.to_nat (if Rlt_dec 0 bdot then (Z.of_nat np - 1) * Z.of_nat d - 1 else 0)) with (if Rlt_dec 0 bdot then (np - 1) * d - 1 else 0)%nat by (destruct (Rlt_dec 0 bdot); nia).
    apply nth_error_nth'. destruct (Rlt_dec 0 bdot); nia. }
  rewrite Eg in HW. cbn [bind] in HW. assert (P := PI_RGT_0). rewrite rdiv_val in HW by lra. cbn [bind] in HW.
  assert (DP : 0 < sf_h f * om * sf_dtbin f) by (repeat apply Rmult_lt_0_compat; auto).
  rewrite rdiv_val in HW by lra. cbn [bind] in HW. injection HW as E1 E2.
  assert (NB : 0 < IZR (Z.of_nat nbins)) by (apply IZR_lt; lia).
  set (g := sf_h f * om * sf_dtbin f) in *.
  set (k := rceil (IZR (Z.of_nat nbins) * g / (2 * PI))) in *.
  assert (K := rceil_spec (IZR (Z.of_nat nbins) * g / (2 * PI))). fold k in K.
  assert (KP : 0 < IZR k).
  { apply Rlt_le_trans with (IZR (Z.of_nat nbins) * g / (2 * PI)); [|lra]. apply Rdiv_lt_0_compat; [nra|lra]. }
  assert (W := rceil_spec (IZR k * 2 * PI / g)). rewrite E2 in W.
  assert (LP : 0 < sf_phiwrap f) by (rewrite <- E1; nra).
  assert (WP : 0 < IZR wl). { apply Rlt_le_trans with (IZR k * 2 * PI / g); [|lra]. apply Rdiv_lt_0_compat; nra. }
  assert (WL : sf_phiwrap f <= IZR wl * g).
  { rewrite <- E1. replace (IZR k * 2 * PI) with (IZR k * 2 * PI / g * g) by (field; lra). apply Rmult_le_compat_r; lra. }
  split; cbn [window_of w_length w_bin w_cells]; auto.
  intros t Ht. destruct (HO t Ht) as [O1 O2]. split; [repeat apply Rmult_lt_0_compat; auto|].
  rewrite INR_IZR_INZ, Z2Nat.id by (apply lt_IZR in WP; lia).
  apply Rle_trans with (IZR wl * g); auto. unfold g.
  replace (IZR wl * (sf_h f * om * sf_dtbin f)) with (sf_h f * sf_dtbin f * (IZR wl * om)) by ring.
  replace (sf_h f * at_ (sf_omega f) t * sf_dtbin f * (IZR wl + 1)) with (sf_h f * sf_dtbin f * ((IZR wl + 1) * at_ (sf_omega f) t)) by ring.
  apply Rmult_le_compat_l; auto. apply Rlt_le. apply Rmult_lt_0_compat; auto.
Qed.

(** C13 does not hold: with a rising field the window is made with a late
    (high) revolution frequency; at an early turn the index is out of range. *)
Lemma C13_bounds_refuted_lem : exists m f wl,
  find_wrap_length 1 (sf_h f) (sf_dtbin f) (sf_omega f) 4 1 2 = Ok (sf_phiwrap f, wl) /\
  self_setting m 0 f (still_params 0) 1 4 (Z.to_nat wl) /\
  (forall t, (t < 3)%nat -> 0 < at_ (sf_omega f) t <= at_ (sf_omega f) (S t)) /\
  track_checks 4 1 0 0 = Ok 0%Z /\
  track_self m 0 f 4 1 0 0 [11 / 6 * PI] [0] = Fail (Raised IndexError).
Proof.
  assert (P := PI_RGT_0).
  set (tab := [repeat 0 3; repeat 0 3; repeat 0 3]).
  set (f := still_field (PI / 3) [1; 1; 3; 3] tab).
  exists (still_machine 0 3), f, 2%Z. split.
  { unfold find_wrap_length. cbv zeta. cbn [f still_field sf_h sf_dtbin sf_omega sf_phiwrap].
    destruct (Rlt_dec 0 1); [|lra]. change (np_get [1; 1; 3; 3] ((4 - 1) * 1 - 1)) with (Ok 3). cbn [bind].
    rewrite rdiv_val by lra. cbn [bind].
    replace (rceil (2 * (1 * 3 * (PI / 3)) / (2 * PI))) with 1%Z.
    2:{ symmetry. apply rceil_unique. replace (2 * (1 * 3 * (PI / 3)) / (2 * PI)) with 1 by (field; lra). lra. }
    rewrite rdiv_val by lra. cbn [bind].
    replace (rceil (1 * 2 * PI / (1 * 3 * (PI / 3)))) with 2%Z.
    2:{ symmetry. apply rceil_unique. replace (1 * 2 * PI / (1 * 3 * (PI / 3))) with 2 by (field; lra). lra. }
    repeat f_equal. ring. }
  split. { apply still_setting; cbn; try lia. repeat constructor. }
  split. { intros [|[|[|t]]] Ht; cbn; try lra. lia. }
  split. { reflexivity. }
  unfold track_self. change (track_checks (Z.of_nat 4) 1 0 0) with (Ok 0%Z). cbn [bind].
  assert (XP : forall t, (t <= 1)%nat -> xp_sf (still_machine 0 3) f [11 / 6 * PI] (Z.of_nat t) = Ok [11 / 2]).
  { intros t Ht. unfold xp_sf.
    assert (E1 : np_get (MTrack.phi0 (still_machine 0 3)) (Z.of_nat t) = Ok 0) by (destruct t as [|[|t]]; [reflexivity|reflexivity|lia]).
    assert (E2 : np_get (sf_omega f) (Z.of_nat t) = Ok 1) by (destruct t as [|[|t]]; [reflexivity|reflexivity|lia]).
    rewrite E1, E2. cbn [bind].
    assert (C : calc_xp_sf (11 / 6 * PI) 0 0 1 1 (PI / 3) (2 * PI) = Ok (11 / 2)).
    { unfold calc_xp_sf. cbv zeta. rewrite rdiv_val by lra. cbn [bind].
      replace (rfloor ((11 / 6 * PI + 0 - 0 * 1 * 1 * (PI / 3)) / (2 * PI))) with 0%Z.
      2:{ symmetry. apply rfloor_unique. replace ((11 / 6 * PI + 0 - 0 * 1 * 1 * (PI / 3)) / (2 * PI)) with (11 / 12) by (field; lra). lra. }
      rewrite rdiv_val by lra. f_equal. field. lra. }
    apply (mapM_val _ _ _ _ (fun _ => 11 / 2) (fun x => x) [11 / 6 * PI]). intros a [<-|[]]. exact C. }
  assert (YP : forall e, yp_sf f [e] = Ok [e / 1 + 0]).
  { intros. unfold yp_sf. apply (mapM_val _ _ _ _ (fun e => e / 1 + 0) (fun x => x) [e]). intros a [<-|[]].
    change (sf_dEbin f) with 1. rewrite rdiv_val by lra. reflexivity. }
  unfold kick_and_drift_self. cbv zeta. change (0 * 1 + 0)%Z with (Z.of_nat 0). change (0 <? 0)%Z with false. cbv iota.
  rewrite XP by lia. cbn [bind]. rewrite YP.
  change (pyset (repeat (repeat 0 (length [0])) 4) 0 [11 / 2]) with (Ok [[11 / 2]; [0]; [0]; [0]]). cbn [bind].
  change (pyset (repeat (repeat 0 (length [0])) 4) 0 [0 / 1 + 0]) with (Ok [[0 / 1 + 0]; [0]; [0]; [0]]). cbn [bind].
  change (Z.to_nat (1 * (Z.of_nat 4 - 1) - Z.of_nat 0)) with 3%nat. change (1 * (Z.of_nat 4 - 1))%Z with 3%Z.
  cbn [self_up_loop s_turn]. change (Z.of_nat 0 <? 3)%Z with true. cbv iota.
  unfold self_up_step. cbn [s_turn s_denergy s_dphi s_profile]. cbv zeta.
  change (get (drift_coef (still_machine 0 3)) (Z.of_nat 0)) with (Ok 0). cbn [bind].
  assert (DR : drift_up Rminus Rmult [11 / 6 * PI] [0] 0 (length [0]) = Ok [11 / 6 * PI]).
  { etransitivity; [apply (drift_up_ok Rplus Rminus Rmult sin [(11 / 6 * PI, 0)]); reflexivity|]. cbn [map fst snd]. do 2 f_equal. ring. }
  rewrite DR. cbn [bind]. change (Z.of_nat 0 + 1)%Z with (Z.of_nat 1). rewrite XP by lia. cbn [bind map].
  rewrite rtrunc_floor by lra. replace (rfloor (11 / 2)) with 5%Z by (symmetry; apply rfloor_unique; lra).
  reflexivity.
Qed.

(*EX*)
From Verif Require Import Proof.PInput Proof.PMachine Proof.PSelf.
(** The hypotheses of the C13 theorems are met by a machine with drift and a
    table of alternating voltages, started between two profiles. *)
Example C13_ex : exists f, f = still_field 1 (repeat 1 5) [[1; -2; 3; -4; 5; -6; 7; 0]; [2; 0; 1; 0; 1; 0; 1; 0]] /\
  self_setting (still_machine 1 4) 0 f (still_params 1) 2 3 7 /\ fits (window_of f 7) (2 * (3 - 1)) /\
  track_checks 3 2 (-3) 1 = Ok 0%Z /\
  self_forward (still_params 1) (window_of f 7) (sf_vself f) 1 2 0 (1, -1) = (2, -3).
Proof.
  eexists. split; [reflexivity|]. split. { apply still_setting; cbn; try lia. repeat constructor. }
  split. { apply (still_fits 4). lia. } split; [reflexivity|].
  unfold self_forward, forward. cbv zeta. cbn [fst snd]. rewrite still_gain. cbn [still_params coef ph0].
  replace (1 - 1 * -1 + 0) with 2 by ring.
  assert (P := PI2_1). rewrite (still_position 5) by (lia || lra).
  replace (rfloor 2) with 2%Z by (symmetry; apply rfloor_unique; lra).
  match goal with |- context [field ?a ?b ?c ?e] => replace (field a b c e) with (-2) by reflexivity end. f_equal; ring.
Qed.
Example C13_one_turn_ex : exists w table, let c := rfloor (position w 1 (fst (forward Rplus Rminus Rmult sin (still_params 0) 0 (1, 2)) + ph0 (still_params 0) 1)) in
  field table 1 0 (c - 1) + field table 1 0 c = 0 /\ field table 1 0 c <> 0.
Proof.
  exists (window_of (still_field 1 (repeat 1 5) []) 7), [[1; -1; 1; -1; 1; -1; 1; -1]]. intros c.
  assert (E : c = 1%Z). { unfold c, forward. cbv zeta. cbn [fst snd still_params coef ph0]. replace (1 - 0 * 2 + 0) with 1 by ring.
    assert (P := PI2_1). rewrite (still_position 5) by (lia || lra). apply rfloor_unique. lra. }
  rewrite E. match goal with |- field ?a ?b ?c _ + _ = _ /\ _ => assert (A : field a b c (1 - 1) = 1) by reflexivity; assert (B : field a b c 1 = -1) by reflexivity end.
  rewrite A, B. lra.
Qed.
(*XE*)

(** * C50: the window of the self-field table *)

Lemma wrap_length_spec : forall bdot h dt omega np d nbins phiwrap wl om, (1 < np)%nat -> (0 < d)%nat -> (0 < nbins)%nat ->
  nth_error omega (window_turn bdot np d) = Some om -> 0 < h * om * dt ->
  find_wrap_length bdot h dt omega (Z.of_nat np) (Z.of_nat d) (Z.of_nat nbins) = Ok (phiwrap, wl) ->
  exists k, phiwrap = IZR k * 2 * PI /\ IZR (Z.of_nat nbins) * (h * om * dt) / (2 * PI) <= IZR k < IZR (Z.of_nat nbins) * (h * om * dt) / (2 * PI) + 1 /\
    phiwrap / (h * om * dt) <= IZR wl < phiwrap / (h * om * dt) + 1.
Proof.
  intros bdot h dt omega np d nbins phiwrap wl om Hnp Hd Hnb Hom DP HW.
  unfold find_wrap_length in HW. cbv zeta in HW.
  assert (Eg : np_get omega (if Rlt_dec 0 bdot then (Z.of_nat np - 1) * Z.of_nat d - 1 else 0)%Z = Ok om).
  { apply np_get_nth. { destruct (Rlt_dec 0 bdot); nia. }
    rewrite <- Hom. f_equal. unfold window_turn. destruct (Rlt_dec 0 bdot); nia. }
  rewrite Eg in HW. cbn [bind] in HW. assert (P := PI_RGT_0). rewrite rdiv_val in HW by lra. cbn [bind] in HW.
  rewrite rdiv_val in HW by lra. cbn [bind] in HW. injection HW as E1 E2.
  eexists. split; [symmetry; exact E1|]. split; [apply rceil_spec|]. rewrite <- E2, <- E1. apply rceil_spec.
Qed.

Lemma div_le_mul : forall a b c, 0 < b -> a / b <= c <-> a <= c * b.
Proof.
  intros a b c Hb. assert (E : a = (a / b) * b) by (field; lra). set (u := a / b) in *. split; intros; nra.
Qed.
Lemma lt_div_mul : forall a b c, 0 < b -> c < a / b <-> c * b < a.
Proof.
  intros a b c Hb. assert (E : a = (a / b) * b) by (field; lra). set (u := a / b) in *. split; intros; nra.
Qed.

(** C50: the window is the smallest whole number of RF periods that covers the
    image, and its length in bins is rounded up; bins have the length of the
    turn the window is made with. *)
Lemma C50_window_lem : forall bdot h dt omega np d nbins phiwrap wl om, (1 < np)%nat -> (0 < d)%nat -> (0 < nbins)%nat ->
  nth_error omega (window_turn bdot np d) = Some om -> 0 < h * om * dt ->
  find_wrap_length bdot h dt omega (Z.of_nat np) (Z.of_nat d) (Z.of_nat nbins) = Ok (phiwrap, wl) ->
  let bin := h * om * dt in
  (exists k : Z, (0 < k)%Z /\ phiwrap = IZR k * (2 * PI) /\ IZR (Z.of_nat nbins) * bin <= phiwrap /\ IZR (k - 1) * (2 * PI) < IZR (Z.of_nat nbins) * bin) /\
  (Z.of_nat nbins <= wl)%Z /\ phiwrap <= IZR wl * bin /\ IZR (wl - 1) * bin < phiwrap.
Proof.
  intros bdot h dt omega np d nbins phiwrap wl om Hnp Hd Hnb Hom DP HW bin.
  destruct (wrap_length_spec _ _ _ _ _ _ _ _ _ _ Hnp Hd Hnb Hom DP HW) as (k & -> & K & W). fold bin in DP, K, W.
  assert (P := PI_RGT_0). assert (NB : 1 <= IZR (Z.of_nat nbins)) by (apply IZR_le; lia).
  destruct K as [K1 K2]. apply div_le_mul in K1; [|lra].
  assert (K3 : IZR k - 1 < IZR (Z.of_nat nbins) * bin / (2 * PI)) by lra. apply lt_div_mul in K3; [|lra].
  destruct W as [W1 W2]. apply div_le_mul in W1; auto.
  assert (W3 : IZR wl - 1 < IZR k * 2 * PI / bin) by lra. apply lt_div_mul in W3; auto.
  assert (Kp : 0 < IZR k) by nra.
  split.
  - exists k. split; [apply lt_IZR; auto|]. split; [ring|]. rewrite minus_IZR. lra.
  - split; [|split; [auto|rewrite minus_IZR; auto]].
    apply le_IZR. apply Rmult_le_reg_r with bin; auto. lra.
Qed.

(** C50: if no revolution frequency exceeds the one the window is made with,
    the window covers the image at every turn. *)
Lemma C50_covers_partial_lem : forall bdot h dt omega np d nbins phiwrap wl om, (1 < np)%nat -> (0 < d)%nat -> (0 < nbins)%nat ->
  nth_error omega (window_turn bdot np d) = Some om -> 0 < h -> 0 < om -> 0 < dt ->
  find_wrap_length bdot h dt omega (Z.of_nat np) (Z.of_nat d) (Z.of_nat nbins) = Ok (phiwrap, wl) ->
  forall t o, nth_error omega t = Some o -> o <= om -> IZR (Z.of_nat nbins) * (h * o * dt) <= phiwrap.
Proof.
  intros bdot h dt omega np d nbins phiwrap wl om Hnp Hd Hnb Hom Hh Ho Hdt HW t o Et Hle.
  assert (DP : 0 < h * om * dt) by (repeat apply Rmult_lt_0_compat; auto).
  destruct (C50_window_lem _ _ _ _ _ _ _ _ _ _ Hnp Hd Hnb Hom DP HW) as [(k & _ & _ & C & _) _].
  apply Rle_trans with (IZR (Z.of_nat nbins) * (h * om * dt)); auto.
  apply Rmult_le_compat_l; [apply IZR_le; lia|]. apply Rmult_le_compat_r; [lra|]. apply Rmult_le_compat_l; lra.
Qed.

(** C50 does not hold: with a rising field the turn used is the last but one;
    at the last turn the image is longer than the window. *)
Lemma C50_covers_refuted_lem : exists omega phiwrap wl,
  find_wrap_length 1 1 (PI / 2) omega 2 1 4 = Ok (phiwrap, wl) /\ omega = [1; 2] /\
  phiwrap < 4 * (1 * 2 * (PI / 2)).
Proof.
  assert (P := PI_RGT_0). exists [1; 2], (2 * PI), 4%Z. split; [|split; [reflexivity|lra]].
  unfold find_wrap_length. cbv zeta. destruct (Rlt_dec 0 1); [|lra]. change (np_get [1; 2] ((2 - 1) * 1 - 1)) with (Ok 1). cbn [bind].
  rewrite rdiv_val by lra. cbn [bind].
  replace (rceil (4 * (1 * 1 * (PI / 2)) / (2 * PI))) with 1%Z.
  2:{ symmetry. apply rceil_unique. replace (4 * (1 * 1 * (PI / 2)) / (2 * PI)) with 1 by (field; lra). lra. }
  rewrite rdiv_val by lra. cbn [bind].
  replace (rceil (1 * 2 * PI / (1 * 1 * (PI / 2)))) with 4%Z.
  2:{ symmetry. apply rceil_unique. replace (1 * 2 * PI / (1 * 1 * (PI / 2))) with 4 by (field; lra). lra. }
  repeat f_equal. ring.
Qed.

(** C50: the table has one row per pair of neighbouring profiles and one column
    more than the window has bins.  Within the image an entry is the mean of
    the two profiles' fields; it is zero outside. *)
Lemma C50_table_lem : forall sfc charge ds nbins np wl v, (Z.of_nat nbins <= wl)%Z ->
  calculate_self sfc charge ds nbins np wl = Ok v ->
  length v = (np - 1)%nat /\
  forall i, (i < np - 1)%nat -> exists row s0 d0 s1 d1,
    nth_error v i = Some row /\ nth_error sfc i = Some s0 /\ nth_error ds i = Some d0 /\
    nth_error sfc (S i) = Some s1 /\ nth_error ds (S i) = Some d1 /\
    Z.of_nat (length row) = (wl + 1)%Z /\
    (forall j, (j < nbins)%nat -> exists a b, nth_error d0 j = Some a /\ nth_error d1 j = Some b /\
       nth_error row j = Some ((charge * (s0 * a) + charge * (s1 * b)) / 2)) /\
    (forall j, (nbins <= j)%nat -> (Z.of_nat j <= wl)%Z -> nth_error row j = Some 0).
Proof.
  intros sfc charge ds nbins np wl v Hw H. unfold calculate_self in H.
  destruct ((Z.of_nat np - 1 <? 0)%Z || (wl + 1 <? 0)%Z) eqn:C; [discriminate|].
  apply orb_false_elim in C. destruct C as [C1 C2]. apply Z.ltb_ge in C1, C2.
  assert (L : length v = (np - 1)%nat) by (apply mapM_length in H; rewrite seq_length in H; congruence).
  split; [exact L|]. intros i Hi.
  destruct (nth_error v i) as [row|] eqn:Er; [|apply nth_error_None in Er; lia].
  assert (R : self_row sfc charge ds nbins (Z.to_nat (wl + 1)) i = Ok row).
  { apply mapM_forall2 in H. assert (G := Forall2_nth_error_r _ _ _ _ _ H _ _ Er). destruct G as (a & Ga & Gb).
    rewrite (nth_error_nth' (seq 0 (np - 1)) 0%nat) in Ga by (rewrite seq_length; auto). rewrite seq_nth in Ga by auto. injection Ga as <-. exact Gb. }
  unfold self_row in R.
  apply bind_ok in R. destruct R as (s0 & G1 & R). apply bind_ok in R. destruct R as (d0 & G2 & R).
  apply bind_ok in R. destruct R as (s1 & G3 & R). apply bind_ok in R. destruct R as (d1 & G4 & R).
  apply np_get_nth in G1; [|lia]. apply np_get_nth in G2; [|lia]. apply np_get_nth in G3; [|lia]. apply np_get_nth in G4; [|lia].
  rewrite Nat2Z.id in G1, G2. replace (Z.to_nat (Z.of_nat i + 1)) with (S i) in G3, G4 by lia.
  cbv zeta in R. set (vals := map _ (combine (firstn nbins d0) (firstn nbins d1))) in R.
  replace (Nat.min nbins (Z.to_nat (wl + 1))) with nbins in R by lia.
  destruct (Nat.eqb_spec (length vals) nbins) as [LV|LV]; cbn [negb] in R; [|discriminate]. injection R as <-.
  assert (LC : (nbins <= length d0 /\ nbins <= length d1)%nat).
  { unfold vals in LV. rewrite map_length, combine_length, !firstn_length in LV. lia. }
  exists (vals ++ repeat 0 (Z.to_nat (wl + 1) - nbins)), s0, d0, s1, d1. do 5 (split; [solve [auto]|]).
  split. { rewrite app_length, LV, repeat_length. lia. }
  split.
  - intros j Hj. destruct (nth_error d0 j) as [a|] eqn:Ea; [|apply nth_error_None in Ea; lia].
    destruct (nth_error d1 j) as [b|] eqn:Eb; [|apply nth_error_None in Eb; lia].
    exists a, b. split; [auto|]. split; [auto|].
    rewrite nth_error_app1 by lia. unfold vals.
    rewrite nth_error_map.
    assert (EC : nth_error (combine (firstn nbins d0) (firstn nbins d1)) j = Some (a, b)).
    { assert (F1 : nth_error (firstn nbins d0) j = Some a) by (rewrite nth_error_firstn_lt by auto; auto).
      assert (F2 : nth_error (firstn nbins d1) j = Some b) by (rewrite nth_error_firstn_lt by auto; auto).
      revert F1 F2. generalize (firstn nbins d0), (firstn nbins d1). clear. induction j; intros [|x l] [|y l']; cbn; try discriminate.
      - congruence. - apply IHj. }
    rewrite EC. cbn [option_map fst snd]. f_equal. field.
  - intros j Hj Hj2. rewrite nth_error_app2 by lia. apply nth_error_repeat. lia.
Qed.

(** C50: the self-field coefficient of a profile in terms of the impedances: the
    space charge impedance g Z0 / (2 beta gamma^2) less the wall impedance. *)
Lemma C50_coefficient_lem : forall omega beta g z dtbin d np sfc, 
  calc_self_field_coeffs omega beta g z dtbin (Z.of_nat d) np = Ok sfc ->
  length sfc = np /\
  forall i, (i < np)%nat -> exists om b s,
    nth_error omega (i * d) = Some om /\ nth_error beta (i * d) = Some b /\ nth_error sfc i = Some s /\
    om <> 0 /\ b <> 0 /\ dtbin <> 0 /\
    forall gamma, gamma ^ 2 * (1 - b ^ 2) = 1 ->
    s = e_charge / (om * dtbin ^ 2) * (g * free_space / (2 * b * gamma ^ 2) - z).
Proof.
  intros omega beta g z dtbin d np sfc H. unfold calc_self_field_coeffs in H.
  assert (L : length sfc = np) by (apply mapM_length in H; rewrite seq_length in H; congruence).
  split; [exact L|]. intros i Hi.
  destruct (nth_error sfc i) as [s|] eqn:Er; [|apply nth_error_None in Er; lia].
  assert (R : self_field_coeff omega beta g z dtbin (Z.of_nat d) (Z.of_nat i) = Ok s).
  { apply mapM_forall2 in H. assert (G := Forall2_nth_error_r _ _ _ _ _ H _ _ Er). destruct G as (a & Ga & Gb).
    rewrite (nth_error_nth' (seq 0 np) 0%nat) in Ga by (rewrite seq_length; auto). rewrite seq_nth in Ga by auto. injection Ga as <-. exact Gb. }
  unfold self_field_coeff in R.
  apply bind_ok in R. destruct R as (om & G1 & R). apply bind_ok in R. destruct R as (b & G2 & R).
  apply bind_ok in R. destruct R as (a & G3 & R). apply bind_ok in R. destruct R as (ib & G4 & R).
  replace (Z.of_nat i * Z.of_nat d)%Z with (Z.of_nat (i * d)) in G1, G2 by lia.
  apply np_get_nth in G1; [|lia]. apply np_get_nth in G2; [|lia]. rewrite Nat2Z.id in G1, G2.
  apply rdiv_ok in G3. destruct G3 as [N1 ->]. apply rdiv_ok in G4. destruct G4 as [N2 ->]. apply rdiv_ok in R. destruct R as [N3 ->].
  assert (ND : dtbin <> 0) by (intros ->; apply N3; ring).
  exists om, b. eexists. do 2 (split; [solve [auto]|]). split; [reflexivity|]. do 3 (split; [solve [auto]|]).
  intros gamma HG.
  assert (NG : gamma <> 0) by (intros ->; lra).
  assert (EB : 1 - b ^ 2 = 1 / gamma ^ 2) by (apply Rmult_eq_reg_l with (gamma ^ 2); [|apply pow_nonzero; auto]; rewrite HG; field; auto).
  replace (1 / b - b) with ((1 - b ^ 2) / b) by (field; auto). rewrite EB. unfold free_space. field. repeat split; auto. 
Qed.

(*EX*)
(** The window of C50 for 3 bins of a quarter of a turn, and a table for two
    profiles. *)
Example C50_ex : find_wrap_length 0 1 (PI / 2) [1; 2] 2 1 3 = Ok (2 * PI, 4%Z) /\
  exists v, calculate_self [1; 3] 2 [[1; 2; 3]; [4; 5; 6]] 3 2 4 = Ok v /\ v = [[13; 17; 21; 0; 0]].
Proof.
  assert (P := PI_RGT_0). split.
  - unfold find_wrap_length. cbv zeta. destruct (Rlt_dec 0 0); [lra|]. change (np_get [1; 2] 0) with (Ok 1). cbn [bind].
    rewrite rdiv_val by lra. cbn [bind].
    replace (rceil (3 * (1 * 1 * (PI / 2)) / (2 * PI))) with 1%Z.
    2:{ symmetry. apply rceil_unique. replace (3 * (1 * 1 * (PI / 2)) / (2 * PI)) with (3 / 4) by (field; lra). lra. }
    rewrite rdiv_val by lra. cbn [bind].
    replace (rceil (1 * 2 * PI / (1 * 1 * (PI / 2)))) with 4%Z.
    2:{ symmetry. apply rceil_unique. replace (1 * 2 * PI / (1 * 1 * (PI / 2))) with 4 by (field; lra). lra. }
    repeat f_equal. ring.
  - eexists. split; [reflexivity|]. cbn. repeat f_equal; field.
Qed.
Example C50_coefficient_ex : exists sfc, calc_self_field_coeffs [1; 1; 2] [3 / 5; 3 / 5; 4 / 5] 1 0 1 2 2 = Ok sfc /\ (5 / 4) ^ 2 * (1 - (3 / 5) ^ 2) = 1.
Proof.
  assert (E : forall i om b, np_get [1; 1; 2] (Z.of_nat i * 2) = Ok om -> np_get [3 / 5; 3 / 5; 4 / 5] (Z.of_nat i * 2) = Ok b -> om <> 0 -> b <> 0 ->
    exists s, self_field_coeff [1; 1; 2] [3 / 5; 3 / 5; 4 / 5] 1 0 1 2 (Z.of_nat i) = Ok s).
  { intros i om b E1 E2 H1 H2. unfold self_field_coeff. rewrite E1, E2. cbn [bind]. rewrite !rdiv_val by auto. cbn [bind]. rewrite rdiv_val by lra. eauto. }
  destruct (E 0%nat 1 (3 / 5) eq_refl eq_refl) as [s0 E0]; [lra|lra|]. destruct (E 1%nat 2 (4 / 5) eq_refl eq_refl) as [s1 E1]; [lra|lra|].
  exists [s0; s1]. split; [|field]. unfold calc_self_field_coeffs. apply mapM_forall2. repeat constructor; assumption.
Qed.
(*XE*)
