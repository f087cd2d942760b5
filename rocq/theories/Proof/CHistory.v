(** Proofs on the history of a machine object. *)
(*HEAD*)
From Coq Require Import Reals List ZArith Bool Lia Lra.
From Verif Require Import Base.Res Model.MTrack Model.MMachine Model.MObjects Spec.MachineSpec Spec.ObjectSpec.
Import ListNotations.
Local Open Scope R_scope.
(*DAEH*)
From Verif Require Import Base.ResLemmas Base.RLib Proof.PMachine Proof.CMachine.

Lemma hist_snoc : forall newton check left m x l a,
  history newton check left m x (l ++ [a]) = act newton check left (history newton check left m x l) a.
Proof. intros. unfold history. rewrite fold_left_app. reflexivity. Qed.
Lemma hist_app : forall newton check left m x l1 l2,
  history newton check left m x (l1 ++ l2) = fold_left (act newton check left) l2 (history newton check left m x l1).
Proof. intros. unfold history. apply fold_left_app. Qed.
Lemma calculated_snoc : forall newton check left m x l a, calculated newton check left m x (l ++ [a]) <->
  calculated newton check left m x l \/ (a = Calculate /\ snd (calc_values newton check left (history newton check left m x l)) = Ok tt).
Proof.
  intros. split.
  - intros (l1 & l2 & E & H). destruct l2 as [|b l2 _] using rev_ind.
    + apply app_inj_tail in E. destruct E as [<- ->]. right. auto.
    + left. change (l ++ [a] = l1 ++ (Calculate :: l2) ++ [b])%list in E. rewrite app_assoc in E. apply app_inj_tail in E. destruct E as [-> _].
      exists l1, l2. auto.
  - intros [(l1 & l2 & -> & H)|[-> H]].
    + exists l1, (l2 ++ [a])%list. rewrite <- app_assoc. auto.
    + exists l, []. auto.
Qed.
Definition full (o : mobject) : Prop :=
  exists t d v1 v2, ar_turns (mo_arr o) = Some t /\ ar_drift (mo_arr o) = Some d /\ ar_vrf1 (mo_arr o) = Some v1 /\ ar_vrf2 (mo_arr o) = Some v2.
Lemma calc_ok : forall newton check left o, snd (calc_values newton check left o) = Ok tt ->
  exists v, check (mo_set o) = Ok tt /\ values_at_turns newton (mo_set o) = Ok v /\ fst (calc_values newton check left o) =
    MObject (mo_set o) (mo_synch_x o) (Arrays (Some (tv_turns v)) (Some (tv_eta0 v)) (Some (tv_drift_coef v))
                 (Some (tv_omega_rev0 v)) (Some (tv_vrf1 v)) (Some (tv_vrf2 v))).
Proof.
  intros newton check left o. unfold calc_values. destruct (check (mo_set o)) as [[]|]; [|discriminate]. cbv zeta.
  destruct (Z.ltb _ _); [discriminate|]. destruct (values_at_turns newton (mo_set o)) as [v|]; [|discriminate]. intros _. exists v. auto.
Qed.
Lemma hist_inv : forall newton check left m x l,
  (calculated newton check left m x l <-> ar_vrf1 (mo_arr (history newton check left m x l)) <> None) /\
  (ar_vrf1 (mo_arr (history newton check left m x l)) <> None -> full (history newton check left m x l)).
Proof.
  intros newton check left m x l. induction l as [|a l [IH1 IH2]] using rev_ind.
  - cbn. split; [split|]; try congruence. intros (l1 & l2 & E & _). destruct l1; discriminate.
  - rewrite calculated_snoc, hist_snoc. set (o := history newton check left m x l) in *. destruct a as [m' x'|]; cbn [act].
    + split; [|intros H; apply IH2 in H; exact H]. rewrite IH1. cbn. split; [intros [H|[H _]]; [auto|discriminate]|auto].
    + destruct (snd (calc_values newton check left o)) as [[]|e] eqn:E.
      * destruct (calc_ok _ _ _ _ E) as (v & _ & _ & ->). cbn. split; [split; [discriminate|auto]|]. intros _. unfold full. cbn. eauto 10.
      * assert (V : ar_vrf1 (mo_arr (fst (calc_values newton check left o))) = ar_vrf1 (mo_arr o) /\ (full o -> full (fst (calc_values newton check left o)))).
        { revert E. unfold calc_values. destruct (check (mo_set o)); [|cbn; auto]. cbv zeta. destruct (Z.ltb _ _); [cbn; auto|].
          destruct (values_at_turns newton (mo_set o)); [discriminate|]. intros _. cbn. split; auto.
          unfold full. cbn. intros (t & d & v1 & v2 & A & B & C & D). rewrite C, D. eauto 10. }
        destruct V as [V1 V2]. rewrite V1, IH1. split; [|intros H; apply V2, IH2; auto]. split; [intros [H|[_ H]]; [auto|discriminate]|auto].
Qed.

(** C95.  A tracker is made from a machine exactly when its values have been
    calculated at some point and its synchronous particle is not negative. *)
Lemma C95_accepted_iff_lem : forall newton check left m x l, let o := history newton check left m x l in
  (calculated newton check left m x l /\ 0 <= mo_synch_x o -> new_tracker o = Ok tt) /\
  (~ (calculated newton check left m x l /\ 0 <= mo_synch_x o) -> new_tracker o = Fail (Raised MachineParameterError)).
Proof.
  intros newton check left m x l o. destruct (hist_inv newton check left m x l) as [I1 I2]. fold o in I1, I2. split.
  - intros [C X]. apply I1 in C. destruct (I2 C) as (t & d & v1 & v2 & A & B & D & E). unfold new_tracker. rewrite A, B, D, E. cbn [need bind].
    destruct (Rle_dec 0 (mo_synch_x o)); [auto|contradiction].
  - intros N. unfold new_tracker. destruct (ar_vrf1 (mo_arr o)) as [v1|] eqn:V; [|reflexivity].
    assert (C : Some v1 <> None) by discriminate. destruct (I2 C) as (t & d & v1' & v2 & A & B & D & E). rewrite A, B, E. cbn [need bind].
    destruct (Rle_dec 0 (mo_synch_x o)); [|auto]. exfalso. apply N. split; auto. apply I1. auto.
Qed.

(** C95.  What is tracked directly after a calculation belongs to the settings
    of the machine. *)
Lemma C95_current_partial_lem : forall newton check left m x l,
  let o0 := history newton check left m x l in let o := history newton check left m x (l ++ [Calculate]) in
  snd (calc_values newton check left o0) = Ok tt ->
  mo_set o = mo_set o0 /\ mo_synch_x o = mo_synch_x o0 /\
  exists v, values_at_turns newton (mo_set o) = Ok v /\
    handed o (map (fun _ => rm_phi12 (mo_set o)) (tn_phi0 (tv_turns v))) = Ok (tracking_machine (mo_set o) v).
Proof.
  intros newton check left m x l o0 o H. unfold o. rewrite hist_snoc. fold o0. cbn [act].
  destruct (calc_ok _ _ _ _ H) as (v & _ & V & ->). cbn. split; auto. split; auto. exists v. auto.
Qed.

(** C95.  A refused calculation (settings that do not pass the checks) changes
    nothing. *)
Lemma C95_refused_lem : forall newton check left m x l e, check (mo_set (history newton check left m x l)) = Fail e ->
  history newton check left m x (l ++ [Calculate]) = history newton check left m x l.
Proof. intros newton check left m x l e H. rewrite hist_snoc. cbn [act]. unfold calc_values. rewrite H. reflexivity. Qed.

Definition assigns (l : list action) : Prop := Forall (fun a => a <> Calculate) l.
Lemma assigns_arr : forall newton check left l o, assigns l -> mo_arr (fold_left (act newton check left) l o) = mo_arr o.
Proof.
  intros newton check left. induction l as [|a l IH]; intros o H; auto. inversion H as [|? ? H1 H2]; subst. cbn [fold_left]. rewrite IH by auto.
  destruct a; [reflexivity|congruence].
Qed.

(** C95.  Refuted: settings assigned after the calculation.  The arrays tracked
    with are those of the old settings; the charge and the harmonic ratio are
    those of the new ones. *)
Lemma C95_stale_refuted_lem : forall newton check left m x l1 l2, Forall (fun a => a <> Calculate) l2 ->
  snd (calc_values newton check left (history newton check left m x l1)) = Ok tt ->
  let o := history newton check left m x (l1 ++ Calculate :: l2) in
  exists v, values_at_turns newton (mo_set (history newton check left m x l1)) = Ok v /\
    forall p12, handed o p12 = Ok (Machine (map (fun u => u * rm_q (mo_set o)) (tv_vrf1 v)) (map (fun u => u * rm_q (mo_set o)) (tv_vrf2 v))
      (tn_phi0 (tv_turns v)) (tn_deltaE0 (tv_turns v)) (tv_drift_coef v) p12 (rm_h_ratio (mo_set o))).
Proof.
  intros newton check left m x l1 l2 A H o. destruct (calc_ok _ _ _ _ H) as (v & _ & V & F). exists v. split; auto. intros p12.
  assert (E : mo_arr o = mo_arr (fst (calc_values newton check left (history newton check left m x l1)))).
  { unfold o. rewrite hist_app. cbn [fold_left act]. apply assigns_arr. auto. }
  unfold handed. rewrite E, F. reflexivity.
Qed.

(** C95.  Refuted: e.g. after the reference frame was changed, other energy
    gains are tracked with than those of the new settings. *)
Lemma C95_frame_refuted_lem : exists newton m m' v', finds_roots newton /\ values_at_turns newton m' = Ok v' /\
  forall check left x x', check m = Ok tt -> 0 <= x' ->
  let o := history newton check left m x [Calculate; Assign m' x'] in
  mo_set o = m' /\ new_tracker o = Ok tt /\
  exists mm, handed o (phi12 (tracking_machine m' v')) = Ok mm /\ deltaE0 mm <> deltaE0 (tracking_machine m' v').
Proof.
  destruct ex_values as (v & V & _ & D & _). destruct ex_values_0 as (v' & V').
  exists ramp_newton, (ramp_machine 1), (ramp_machine 0), v'. split.
  { intros f x0 f' x Hx. unfold ramp_newton in Hx. destruct (Req_EM_T (f (PI / 6)) 0); [|discriminate]. injection Hx as <-. auto. }
  split; auto. intros check left x x' Hc X o.
  assert (E : o = MObject (ramp_machine 0) x' (Arrays (Some (tv_turns v)) (Some (tv_eta0 v)) (Some (tv_drift_coef v))
                 (Some (tv_omega_rev0 v)) (Some (tv_vrf1 v)) (Some (tv_vrf2 v)))).
  { unfold o, history. cbn [fold_left act]. unfold calc_values. cbn [mo_set]. rewrite Hc. cbv zeta.
    change ((rm_nprofiles (ramp_machine 1) - 1) * rm_dturns (ramp_machine 1) + 1 <? 0)%Z with false. cbn iota. rewrite V. reflexivity. }
  rewrite E. split; [reflexivity|]. split. { unfold new_tracker. cbn [mo_arr ar_vrf1 ar_vrf2 ar_drift ar_turns need bind mo_synch_x]. destruct (Rle_dec 0 x'); [auto|contradiction]. }
  eexists. split; [reflexivity|]. cbn. rewrite D. intros H.
  destruct (values_spec ramp_newton (ramp_machine 0) 1 2 0 v' ltac:(lia) ltac:(lia) eq_refl eq_refl eq_refl V') as (_ & C & _).
  assert (R0 := ch_ref _ _ _ _ _ C). rewrite <- H in R0. cbn in R0. lra.
Qed.

(** C95.  Refuted: a calculation that stops with an exception after new
    settings (no synchronous phase is found).  A tracker is accepted
    nevertheless; it drifts by nothing and kicks with the old voltages. *)
Lemma C95_failed_refuted_lem : forall newton check left m m' x x' v, check m = Ok tt -> check m' = Ok tt -> 0 <= x' ->
  (0 <= (rm_nprofiles m' - 1) * rm_dturns m')%Z ->
  values_at_turns newton m = Ok v -> values_at_turns newton m' = Fail (Raised ValueError) ->
  let o1 := history newton check left m x [Calculate; Assign m' x'] in
  let o := history newton check left m x [Calculate; Assign m' x'; Calculate] in
  snd (calc_values newton check left o1) = Fail (Raised ValueError) /\ new_tracker o = Ok tt /\
  forall p12, exists mm, handed o p12 = Ok mm /\ Forall (fun c => c = 0) (drift_coef mm) /\ rf1v mm = map (fun u => u * rm_q m') (tv_vrf1 v).
Proof.
  intros newton check left m m' x x' v H H' X N V V' o1 o.
  assert (C : fst (calc_values newton check left (MObject m x no_arrays)) = MObject m x (Arrays (Some (tv_turns v)) (Some (tv_eta0 v)) (Some (tv_drift_coef v))
                 (Some (tv_omega_rev0 v)) (Some (tv_vrf1 v)) (Some (tv_vrf2 v)))).
  { unfold calc_values. cbn [mo_set]. rewrite H. cbv zeta.
    destruct (Z.ltb_spec ((rm_nprofiles m - 1) * rm_dturns m + 1) 0) as [L|L]; [|rewrite V; reflexivity].
    unfold values_at_turns in V. cbv zeta in V. destruct (Z.ltb_spec ((rm_nprofiles m - 1) * rm_dturns m + 1) 0); [discriminate|lia]. }
  assert (E1 : o1 = MObject m' x' (Arrays (Some (tv_turns v)) (Some (tv_eta0 v)) (Some (tv_drift_coef v))
                 (Some (tv_omega_rev0 v)) (Some (tv_vrf1 v)) (Some (tv_vrf2 v)))).
  { unfold o1, history. cbn [fold_left act]. rewrite C. reflexivity. }
  assert (Eo : o = fst (calc_values newton check left o1)) by reflexivity.
  set (n := Z.to_nat ((rm_nprofiles m' - 1) * rm_dturns m' + 1)).
  assert (E2 : calc_values newton check left o1 = (MObject m' x' (Arrays (Some (left m')) (Some (repeat 0 n)) (Some (repeat 0 n)) (Some (repeat 0 n)) (Some (tv_vrf1 v)) (Some (tv_vrf2 v))), Fail (Raised ValueError))).
  { rewrite E1. unfold calc_values. cbn [mo_set mo_synch_x mo_arr ar_vrf1 ar_vrf2]. rewrite H'. cbv zeta.
    destruct (Z.ltb_spec ((rm_nprofiles m' - 1) * rm_dturns m' + 1) 0) as [L|L]; [lia|]. rewrite V'. reflexivity. }
  rewrite Eo, E2. split; [reflexivity|]. split.
  { unfold new_tracker. cbn [fst mo_arr ar_vrf1 ar_vrf2 ar_drift ar_turns need bind mo_synch_x]. destruct (Rle_dec 0 x'); [auto|contradiction]. }
  intros p12. eexists. split; [reflexivity|]. split; [|reflexivity]. cbn. apply Forall_forall. intros c Hc. apply repeat_spec in Hc. auto.
Qed.

(** ** Too short arrays *)

Section Short.
Context {T : Type} (add sub mul : T -> T -> T) (sin : T -> T).
Definition oob {A} (r : res A) : Prop := match r with Ok _ => True | Fail e => e = OutOfBounds end.
Lemma oob_bind : forall A B (x : res A) (f : A -> res B), oob x -> (forall a, x = Ok a -> oob (f a)) -> oob (bind x f).
Proof. intros A B [a|e] f H1 H2; cbn; auto. Qed.
Lemma oob_get : forall A (l : list A) i, oob (get l i).
Proof. intros. unfold get. destruct (Z.ltb _ _); cbn; auto. destruct (nth_error _ _); cbn; auto. Qed.
Lemma oob_set : forall A (l : list A) i v, oob (set l i v).
Proof. intros. unfold set. repeat (match goal with |- context[if ?b then _ else _] => destruct b end; cbn; auto). Qed.
Lemma oob_for : forall S (b : nat -> S -> res S), (forall i s, oob (b i s)) -> forall n i s, oob (for_ i n b s).
Proof. intros S b H. induction n as [|n IH]; intros i s; cbn; auto. apply oob_bind; auto. Qed.
Ltac oo := repeat (first [apply oob_get|apply oob_set|apply oob_bind; [|intros ? _]|apply oob_for; intros ? ?]); cbn; auto.
Lemma oob_store : forall tab p (src : list T) n, oob (store_row tab p src n).
Proof. intros. unfold store_row, copy_loop. oo. Qed.
Lemma oob_up : forall m d rp tot n ftn s, d <> 0%Z -> oob (up_step add sub mul sin m d rp tot n ftn s).
Proof.
  intros m d rp tot n ftn s Hd. unfold up_step, drift_up, kick_up, on_profile. cbv zeta. destruct (Z.eqb_spec d 0); [contradiction|].
  apply oob_bind; [oo|intros ? _]. apply oob_bind; [oo|intros ? _]. do 5 (apply oob_bind; [oo|intros ? _]). apply oob_bind; [oo|intros ? _]. cbn [bind].
  destruct (Z.eqb _ _); cbn; auto. apply oob_bind; [apply oob_store|intros ? _]. apply oob_bind; [apply oob_store|intros ? _]. cbn. auto.
Qed.
Lemma up_turn : forall m d rp tot n ftn s s', up_step add sub mul sin m d rp tot n ftn s = Ok s' ->
  turn s' = (turn s + 1)%Z /\ (turn s + 1 < Z.of_nat (length (rf1v m)))%Z.
Proof.
  intros m d rp tot n ftn s s' H. unfold up_step in H. cbv zeta in H.
  apply bind_ok in H. destruct H as [co [_ H]]. apply bind_ok in H. destruct H as [ph [_ H]].
  apply bind_ok in H. destruct H as [v1 [G H]]. apply get_ok_inv in G. destruct G as (G0 & G1 & G).
  split; [|lia].
  do 5 (apply bind_ok in H; destruct H as [? [_ H]]). apply bind_ok in H. destruct H as [hit [_ H]]. destruct hit.
  - do 2 (apply bind_ok in H; destruct H as [? [_ H]]). injection H as <-. reflexivity.
  - injection H as <-. reflexivity.
Qed.
Lemma up_short : forall m d rp nt n ftn, d <> 0%Z -> (Z.of_nat (length (rf1v m)) <= nt)%Z ->
  forall fuel s, (turn s < nt)%Z -> fuel = Z.to_nat (nt - turn s) ->
  up_loop add sub mul sin fuel m d rp nt n ftn s = Fail OutOfBounds.
Proof.
  intros m d rp nt n ftn Hd L. induction fuel as [|fuel IH]; intros s Hs Hf; [lia|]. cbn [up_loop].
  destruct (Z.ltb_spec (turn s) nt); [|lia].
  assert (O := oob_up m d rp nt n ftn s Hd). destruct (up_step add sub mul sin m d rp nt n ftn s) as [s'|e] eqn:E; [|cbn in *; subst; auto].
  cbn [bind]. destruct (up_turn _ _ _ _ _ _ _ _ E) as [E1 E2]. apply IH; lia.
Qed.
Lemma track_short : forall zero m np d rp dt q ph de ftn, track_checks (Z.of_nat np) d rp dt = Ok q ->
  (Z.of_nat (length (rf1v m)) <= d * (Z.of_nat np - 1))%Z ->
  track add sub mul sin zero m np d rp dt ph de ftn = Fail OutOfBounds.
Proof.
  intros zero m np d rp dt q ph de ftn C L. unfold track. rewrite C. cbn [bind]. unfold track_checks in C.
  apply bind_ok in C. destruct C as [p [_ C]]. destruct (Z.ltb_spec (Z.abs dt) d); cbn in C; [|discriminate].
  destruct (Z.ltb_spec (d * p + dt) (d * (Z.of_nat np - 1))); cbn in C; [|discriminate]. destruct (Z.leb_spec 0 (d * p + dt)); cbn in C; [|discriminate]. injection C as <-.
  unfold kick_and_drift. cbv zeta.
  match goal with |- bind ?a ?f = _ => assert (O := oob_store (repeat (repeat zero (length ph)) np) (if (dt <? 0)%Z then p - 1 else p)%Z ph (length ph)); destruct a as [x0|e]; [|cbn in *; subst; auto] end. cbn [bind].
  match goal with |- bind ?a ?f = _ => assert (O' := oob_store (repeat (repeat zero (length ph)) np) (if (dt <? 0)%Z then p - 1 else p)%Z de (length ph)); destruct a as [y0|e]; [|cbn in *; subst; auto] end. cbn [bind].
  rewrite up_short; auto; cbn [turn]; lia.
Qed.
End Short.

(** C95.  Refuted: more profiles (or turns between them) set after the
    calculation.  The tracker is accepted and tracking reads past the end of
    the arrays, whatever the particles. *)
Lemma C95_longer_refuted_lem : forall newton check left m m' x x' v d np p np' rp dt q ph de ftn,
  (0 < d)%nat -> (0 < np)%nat ->
  rm_dturns m = Z.of_nat d -> rm_nprofiles m = Z.of_nat np -> rm_ref_frame m = Z.of_nat p -> rm_nprofiles m' = Z.of_nat np' ->
  check m = Ok tt -> values_at_turns newton m = Ok v -> 0 <= x' ->
  ((rm_nprofiles m - 1) * rm_dturns m < (rm_nprofiles m' - 1) * rm_dturns m')%Z ->
  track_checks (Z.of_nat np') (rm_dturns m') rp dt = Ok q ->
  let o := history newton check left m x [Calculate; Assign m' x'] in
  new_tracker o = Ok tt /\ forall p12, exists mm, handed o p12 = Ok mm /\
    track Rplus Rminus Rmult sin 0 mm np' (rm_dturns m') rp dt ph de ftn = Fail OutOfBounds.
Proof.
  intros newton check left m m' x x' v d np p np' rp dt q ph de ftn Hd Hn E1 E2 E3 E4 H V X L C o.
  assert (Cv : snd (calc_values newton check left (history newton check left m x [])) = Ok tt /\
    fst (calc_values newton check left (history newton check left m x [])) = MObject m x (Arrays (Some (tv_turns v)) (Some (tv_eta0 v)) (Some (tv_drift_coef v))
                 (Some (tv_omega_rev0 v)) (Some (tv_vrf1 v)) (Some (tv_vrf2 v)))).
  { unfold calc_values. cbn [history fold_left mo_set]. rewrite H. cbv zeta.
    destruct (Z.ltb_spec ((rm_nprofiles m - 1) * rm_dturns m + 1) 0) as [B|B]; [|rewrite V; auto].
    unfold values_at_turns in V. cbv zeta in V. destruct (Z.ltb_spec ((rm_nprofiles m - 1) * rm_dturns m + 1) 0); [discriminate|lia]. }
  split.
  { apply (C95_accepted_iff_lem newton check left m x [Calculate; Assign m' x']). split; [|exact X]. exists [], [Assign m' x']. split; [reflexivity|apply Cv]. }
  intros p12. destruct (C95_stale_refuted_lem newton check left m x [] [Assign m' x']) as (v2 & V2 & Hh); [repeat constructor; discriminate|apply Cv|].
  cbn [app history fold_left mo_set] in V2. rewrite V in V2. injection V2 as <-. eexists. split; [apply Hh|].
  apply (track_short _ _ _ _ _ _ _ _ _ _ q); auto. cbn [rf1v]. rewrite map_length.
  destruct (values_spec newton m d np p v Hd Hn E1 E2 E3 V) as (A & _). unfold all_length in A. cbv zeta in A.
  rewrite Forall_forall in A. rewrite (A (tv_vrf1 v)) by (cbn; tauto). rewrite E1, E2, E4 in *. nia.
Qed.

Lemma hist_ex : (exists v, values_at_turns ramp_newton (ramp_machine 1) = Ok v) /\
  values_at_turns ramp_newton (RMachine 1 2 1 1 (4 / c_light) 1 1 (/ (2 * PI)) 1 3 1 2 0 0 0 0 0) = Fail (Raised ValueError) /\
  track_checks 3 1 0 0 = Ok 0%Z.
Proof.
  split; [destruct ex_values as (v & V & _); eauto|]. split; [|reflexivity].
  unfold values_at_turns. cbv zeta. cbn [rm_nprofiles rm_dturns]. change ((2 - 1) * 1 + 1 <? 0)%Z with false. cbn iota.
  change (Z.to_nat ((2 - 1) * 1 + 1)) with 2%nat. cbn [repeat]. unfold array_initial_values. cbv zeta. cbn [rm_ref_frame rm_dturns tn_time tn_e0 tn_beta0 tn_phi0].
  change (1 * 1)%Z with 1%Z. change (pyset [0; 0] 1 0) with (@Ok (list R) [0; 0]). cbn [bind].
  set (m := RMachine 1 2 1 1 (4 / c_light) 1 1 (/ (2 * PI)) 1 3 1 2 0 0 0 0 0).
  assert (B : b_to_e m = Ok 5) by exact (ex_e 1). rewrite B. cbn [bind]. change (pyset [0; 0] 1 5) with (@Ok (list R) [0; 5]). cbn [bind].
  destruct (ex_beta 1 5 ltac:(lra)) as [B5 P5]. assert (B' : lorentz_beta m 5 = Ok (sqrt (1 - (3 / 5) ^ 2))) by exact B5. rewrite B'. cbn [bind].
  change (pyset [0; 0] 1 (sqrt (1 - (3 / 5) ^ 2))) with (@Ok (list R) [0; sqrt (1 - (3 / 5) ^ 2)]). cbn [bind].
  assert (Pp : exists lu, find_phi_lower_upper m 5 = Ok lu). { unfold find_phi_lower_upper. cbn [rm_e_rest m]. rewrite rdiv_val by lra. cbn. eauto. }
  destruct Pp as [[lo up] ->]. cbn [bind]. unfold find_synch_phase_mch, ramp_newton at 1.
  destruct (Req_EM_T _ 0) as [Z|]; [exfalso|reflexivity]. unfold rfvolt_rf1_mch, rfvolt_rf1, vrft in Z. cbn in Z.
  unfold rsign in Z. assert (P := PI_RGT_0). assert (I : / (2 * PI) > 0) by (apply Rinv_0_lt_compat; lra). assert (2 * PI * / (2 * PI) = 1) by (field; lra). destruct (Rlt_dec 1 0); [lra|]. destruct (Rlt_dec 0 1); [|lra]. cbn in Z. nra.
Qed.
(*EX*)
(** The machine of the examples; its values cannot be calculated without
    voltage. *)
Example C95_ex : (exists v, values_at_turns ramp_newton (ramp_machine 1) = Ok v) /\
  values_at_turns ramp_newton (RMachine 1 2 1 1 (4 / c_light) 1 1 (/ (2 * PI)) 1 3 1 2 0 0 0 0 0) = Fail (Raised ValueError) /\
  track_checks 3 1 0 0 = Ok 0%Z.
Proof. exact hist_ex. Qed.
(*XE*)
