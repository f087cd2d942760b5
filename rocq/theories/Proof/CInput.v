(** Property lemmas on input files and machine settings (C42, C43, C56). *)
(*HEAD*)
From Coq Require Import List ZArith QArith Qcanon Bool String Ascii Lia.
From Verif Require Import Base.Res Base.QcLib Model.MRecon Model.MParticles Model.MPreproc Model.MInput Spec.InputSpec.
Import ListNotations.
Local Open Scope Z_scope.
(*DAEH*)
From Verif Require Import Base.ResLemmas Base.QcLemmas Base.Loops Proof.PParticles Proof.PInput.

Lemma not_none_ok : forall A (v : option A) e x, not_none v e = Ok x <-> v = Some x.
Proof. intros. destruct v; cbn; split; intros H; inversion H; auto. Qed.
Lemma agt_ok : forall v l e u, assert_greater v l e = Ok u <-> l < v.
Proof. intros. destruct u. unfold assert_greater. destruct (Z.leb_spec v l); split; intros; auto; try discriminate; lia. Qed.
Lemma age_ok : forall v l e u, assert_greater_or_equal v l e = Ok u <-> l <= v.
Proof. intros. destruct u. unfold assert_greater_or_equal. destruct (Z.ltb_spec v l); split; intros; auto; try discriminate; lia. Qed.
Lemma fgt_ok : forall v l e u, fassert_greater v l e = Ok u <-> above l v.
Proof.
  intros. destruct u. unfold fassert_greater, above. destruct v as [| | |q]; cbn [fle].
  - split; auto.
  - split; auto.
  - split; [discriminate|]. intros [H|[H|[q [H _]]]]; discriminate.
  - destruct (qleb q l) eqn:E; split; intros H; auto.
    + discriminate.
    + exfalso. destruct H as [H|[H|[q' [H Hq]]]]; try discriminate. injection H as <-. apply qleb_true in E. qclra.
    + right; right. exists q. split; auto. apply qleb_false in E. auto.
Qed.
Lemma fge_ok : forall v l e u, fassert_greater_or_equal v l e = Ok u <-> not_below l v.
Proof.
  intros. destruct u. unfold fassert_greater_or_equal, not_below. destruct v as [| | |q]; cbn [flt].
  - split; auto.
  - split; auto.
  - split; [discriminate|]. intros [H|[H|[q [H _]]]]; discriminate.
  - destruct (qltb q l) eqn:E; split; intros H; auto.
    + discriminate.
    + exfalso. destruct H as [H|[H|[q' [H Hq]]]]; try discriminate. injection H as <-. apply qltb_true in E. qclra.
    + right; right. exists q. split; auto. apply qltb_false in E. auto.
Qed.
Lemma guard_ok : forall b e u, guard b e = Ok u <-> b = true.
Proof. intros. destruct u, b; cbn; split; intros; auto; discriminate. Qed.

Ltac inv_binds H :=
  repeat (lazymatch type of H with
  | bind _ _ = Ok _ => let x := fresh "v" in let E := fresh "E" in apply bind_ok in H; destruct H as [x [E H]]
  end).

(** A machine passes the checks exactly when every setting is present and on
    the documented side of its limit. *)
Lemma C43_accepted_lem : forall m, assert_machine_input m = Ok tt <-> acceptable m.
Proof.
  intros m. split.
  - intros H. unfold assert_machine_input in H. cbv zeta in H.
    apply bind_ok in H; destruct H as [dtbin [E1 H]]. apply bind_ok in H; destruct H as [u1 [E2 H]].
    apply bind_ok in H; destruct H as [dturns [E3 H]]. apply bind_ok in H; destruct H as [u2 [E4 H]].
    apply bind_ok in H; destruct H as [[[a b] s] [E5 H]].
    destruct (im_filmstart m) as [a'|] eqn:Ea; [|discriminate].
    destruct (im_filmstop m) as [b'|] eqn:Eb; [|discriminate].
    destruct (im_filmstep m) as [s'|] eqn:Es; [|discriminate].
    injection E5 as -> -> ->.
    inv_binds H.
    repeat match goal with
    | E : not_none _ _ = Ok _ |- _ => apply not_none_ok in E
    | E : assert_greater _ _ _ = Ok _ |- _ => apply agt_ok in E
    | E : assert_greater_or_equal _ _ _ = Ok _ |- _ => apply age_ok in E
    | E : fassert_greater _ _ _ = Ok _ |- _ => apply fgt_ok in E
    | E : fassert_greater_or_equal _ _ _ = Ok _ |- _ => apply fge_ok in E
    | E : guard _ _ = Ok _ |- _ => apply guard_ok in E
    end.
    constructor; try (eexists; split; [eassumption|assumption]).
    + exists a, b, s. repeat (split; [auto; fail|]).
      repeat match goal with
      | E : (_ <=? _) = true |- _ => apply Z.leb_le in E
      | E : negb (_ =? _) = true |- _ => apply negb_true_iff, Z.eqb_neq in E
      end. lia.
    + intros x Hx. match goal with E : match im_pickup m with _ => _ end = _ |- _ => rewrite Hx in E; apply fge_ok in E; auto end.
    + intros x Hx. rewrite Hx in H. apply fge_ok in H. auto.
  - intros A. destruct A as [[? [? ?]] [? [? ?]] [a [b [s [Ha [Hb [Hs [? [? ?]]]]]]]] [? [? ?]] [? [? ?]] [? [? ?]] [? [? ?]]
      [? [? ?]] [? [? ?]] [? [? ?]] [? [? ?]] [? [? ?]] [? [? ?]] Hp Hg].
    unfold assert_machine_input. cbv zeta. rewrite Ha, Hb, Hs.
    assert (G1 : guard (Z.abs s <=? Z.abs (b - a + 1)) (Raised MachineParameterError) = Ok tt)
      by (apply guard_ok; apply Z.leb_le; lia).
    assert (G2 : guard (negb (s =? 0)) (Raised MachineParameterError) = Ok tt)
      by (apply guard_ok; apply negb_true_iff, Z.eqb_neq; auto).
    repeat match goal with
    | H : _ = Some _ |- context [not_none ?v _] => rewrite (proj2 (not_none_ok _ v _ _) H); cbn [bind]
    | H : above ?l ?v |- context [fassert_greater ?v ?l ?e] => rewrite (proj2 (fgt_ok v l e tt) H); cbn [bind]
    | H : not_below ?l ?v |- context [fassert_greater_or_equal ?v ?l ?e] => rewrite (proj2 (fge_ok v l e tt) H); cbn [bind]
    | |- context [assert_greater ?v ?l ?e] => rewrite (proj2 (agt_ok v l e tt)) by lia; cbn [bind]
    | |- context [assert_greater_or_equal ?v ?l ?e] => rewrite (proj2 (age_ok v l e tt)) by lia; cbn [bind]
    end.
    rewrite G1, G2. cbn [bind].
    destruct (im_pickup m) as [p|]; [rewrite (proj2 (fge_ok p 0%Qc _ tt) (Hp p eq_refl))|]; cbn [bind];
    (destruct (im_g_coupling m) as [g|]; [rewrite (proj2 (fge_ok g 0%Qc _ tt) (Hg g eq_refl))|]; reflexivity).
Qed.
(*EX*)
Definition C43_machine : imachine :=
  IMachine (Some (Fin (qq 1 1000))) (Some 5) (Some 0) (Some 4) (Some 2) (Some 20) (Some 4) (Some 1) (Some 0)
    (Some (Fin 1%Qc)) (Some (Fin (qz 2))) (Some (Fin 1%Qc)) (Some (Fin (qz 25))) (Some (Fin (qz 8)))
    (Some (Fin (qz 938))) (Some (Fin 1%Qc)) (Some (Fin 0%Qc))
    "/tmp/" (Fin 0%Qc) (Fin 0%Qc) false false (Fin (qz 2637)) (Fin 0%Qc) (Fin 0%Qc) (Fin 0%Qc) (Fin 0%Qc) (Fin 0%Qc)
    (Fin (qz 4)) (Fin 1%Qc) (Fin 0%Qc) 10 100 (Fin 0%Qc) (Fin 1%Qc).
Example C43_accepted_ex : assert_machine_input C43_machine = Ok tt.
Proof. reflexivity. Qed.
(** The settings of the example with other frame numbers. *)
Definition C43_with (start stop step mref bref : Z) (dtbin : pyfloat) : imachine :=
  let m := C43_machine in
  IMachine (Some dtbin) (im_dturns m) (Some start) (Some stop) (Some step) (im_niter m) (im_snpt m) (Some mref) (Some bref)
    (im_h_num m) (im_h_ratio m) (im_b0 m) (im_mean_orbit_rad m) (im_bending_rad m) (im_e_rest m) (im_pickup m) (im_g_coupling m)
    (im_output_dir m) (im_synch_part_x m) (im_demax m) (im_full_pp m) (im_self_field m) (im_vrf1 m) (im_vrf1dot m)
    (im_vrf2 m) (im_vrf2dot m) (im_phi12 m) (im_bdot m) (im_trans_gamma m) (im_charge m) (im_zwall_over_n m)
    (im_nprofiles m) (im_nbins m) (im_min_dt m) (im_max_dt m).
(*XE*)

Lemma py_range_pos : forall a b s, 0 < s -> a <= b ->
  py_range a (b + 1) s = tab (S (Z.to_nat ((b - a) / s))) (fun k => a + Z.of_nat k * s).
Proof.
  intros. unfold py_range. destruct (Z.ltb_spec 0 s); [|lia].
  replace (b + 1 - a + s - 1) with ((b - a) + 1 * s) by lia. rewrite Z.div_add by lia.
  assert (0 <= (b - a) / s) by (apply Z.div_pos; lia).
  rewrite Z2Nat.inj_add by lia. change (Z.to_nat 1) with 1%nat. rewrite Nat.add_1_r. reflexivity.
Qed.

Lemma film_loop_ok : forall n a s k, (forall i, (i <= k)%nat -> 0 <= a + Z.of_nat i * s < n) ->
  forl (tab (S k) (fun i => a + Z.of_nat i * s))
    (fun film st => if ((film <? - n) || (n <=? film))%bool then Fail (Raised IndexError)
                   else Ok (fst st ++ [film], Some film)) ([] : list Z, None)
  = Ok (tab (S k) (fun i => a + Z.of_nat i * s), Some (a + Z.of_nat k * s)).
Proof.
  intros n a s. induction k; intros H.
  - specialize (H 0%nat (le_n _)). cbn [tab map seq forl]. cbn [Z.of_nat] in *.
    destruct (Z.ltb_spec (a + 0 * s) (- n)); [lia|]. destruct (Z.leb_spec n (a + 0 * s)); [lia|]. reflexivity.
  - rewrite tab_S, forl_app, IHk by (intros; apply H; lia). cbn [bind forl fst].
    specialize (H (S k) (le_n _)).
    destruct (Z.ltb_spec (a + Z.of_nat (S k) * s) (- n)); [lia|].
    destruct (Z.leb_spec n (a + Z.of_nat (S k) * s)); [lia|]. reflexivity.
Qed.

(** If the checks pass, every frame number is inside the recorded profiles and
    the film step is positive, then the run finds every frame it needs.  The
    film shows the profiles start, start+step, ... up to stop, at least one. *)
Lemma C43_runs_partial_lem : forall m a b s, assert_machine_input m = Ok tt -> frames_inside m ->
  im_filmstart m = Some a -> im_filmstop m = Some b -> im_filmstep m = Some s -> 0 < s ->
  exists shown, run_frames m = Ok shown /\ nth_error shown 0 = Some a /\
    (forall film, In film shown <-> exists k, 0 <= k /\ film = a + k * s /\ film <= b) /\
    (forall i x y, nth_error shown i = Some x -> nth_error shown (S i) = Some y -> x < y) /\
    (forall film, In film shown -> 0 <= film < im_nprofiles m).
Proof.
  intros m a b s H In_ Ha Hb Hs Hs0. assert (A := proj1 (C43_accepted_lem m) H).
  unfold run_frames. rewrite H, Ha, Hb, Hs. cbn [bind].
  destruct (ac_dturns _ A) as [dt [Edt Hdt]]. rewrite Edt.
  destruct (ac_mref _ A) as [mr [Emr Hmr]]. rewrite Emr.
  destruct (ac_bref _ A) as [br [Ebr Hbr]]. rewrite Ebr. cbn [not_none bind].
  destruct (ac_film _ A) as [a' [b' [s' [Ea [Eb [Es [Hab [Hn0 Habs]]]]]]]].
  rewrite Ha in Ea. rewrite Hb in Eb. rewrite Hs in Es. injection Ea as <-. injection Eb as <-. injection Es as <-.
  assert (I1 := In_ mr (or_introl Emr)). assert (I2 := In_ br (or_intror (or_introl Ebr))).
  assert (I3 := In_ a (or_intror (or_intror (or_introl Ha)))). assert (I4 := In_ b (or_intror (or_intror (or_intror Hb)))).
  replace (guard (mr * dt <=? (im_nprofiles m - 1) * dt) (Raised IndexError)) with (Ok tt)
    by (symmetry; apply guard_ok, Z.leb_le, Z.mul_le_mono_nonneg_r; lia).
  replace (guard (br <? im_nprofiles m) (Raised IndexError)) with (Ok tt) by (symmetry; apply guard_ok, Z.ltb_lt; lia).
  replace (guard (a <? im_nprofiles m) (Raised IndexError)) with (Ok tt) by (symmetry; apply guard_ok, Z.ltb_lt; lia).
  cbn [bind]. unfold film_loop. rewrite py_range_pos by lia.
  set (k := Z.to_nat ((b - a) / s)).
  assert (Hk : Z.of_nat k = (b - a) / s) by (unfold k; rewrite Z2Nat.id; auto; apply Z.div_pos; lia).
  assert (Hks : s * ((b - a) / s) <= b - a) by (apply Z.mul_div_le; lia).
  assert (Hall : forall i, (i <= k)%nat -> 0 <= a + Z.of_nat i * s <= b).
  { intros i Hi. assert (Z.of_nat i <= (b - a) / s) by lia. nia. }
  rewrite film_loop_ok by (intros i Hi; specialize (Hall i Hi); lia). cbn [bind].
  eexists. split; [reflexivity|]. split; [rewrite nth_error_tab by lia; f_equal; lia|].
  assert (Hin : forall film, In film (tab (S k) (fun i => a + Z.of_nat i * s)) <-> exists k0, 0 <= k0 /\ film = a + k0 * s /\ film <= b).
  { intros film. split.
    - intros Hf. apply in_tab in Hf. destruct Hf as [i [Hi <-]]. exists (Z.of_nat i). specialize (Hall i ltac:(lia)). lia.
    - intros [z [Hz [Hf Hle]]]. apply in_map_iff. exists (Z.to_nat z). split; [rewrite Z2Nat.id by auto; lia|].
      apply in_seq. assert (z <= (b - a) / s) by (apply Z.div_le_lower_bound; lia). lia. }
  split; [exact Hin|]. split.
  - intros i x y Hx Hy. apply nth_error_tab_inv in Hx. apply nth_error_tab_inv in Hy. destruct Hx, Hy. subst. lia.
  - intros film Hf. apply Hin in Hf. destruct Hf as [z [Hz [Hf Hle]]]. nia.
Qed.
(*EX*)
Example C43_runs_ex : frames_inside C43_machine /\ run_frames C43_machine = Ok [0; 2; 4].
Proof.
  split; [|reflexivity]. intros z H. cbn in H. cbn.
  destruct H as [H|[H|[H|H]]]; injection H as <-; lia.
Qed.
(*XE*)

(** The checks accept settings that cannot be run: a machine reference frame,
    a beam reference frame or a last film frame beyond the profiles
    (IndexError), and a negative film step (no frame is shown). *)
Lemma C43_usable_refuted_lem :
  exists m1 m2 m3 m4, Forall (fun m => assert_machine_input m = Ok tt) [m1; m2; m3; m4] /\
    ~ frames_inside m1 /\ run_frames m1 = Fail (Raised IndexError) /\
    ~ frames_inside m2 /\ run_frames m2 = Fail (Raised IndexError) /\
    ~ frames_inside m3 /\ run_frames m3 = Fail (Raised IndexError) /\
    frames_inside m4 /\ run_frames m4 = Fail (Raised UnboundLocalError).
Proof.
  exists (C43_with 0 4 2 10 0 (Fin 1%Qc)), (C43_with 0 4 2 0 10 (Fin 1%Qc)), (C43_with 0 10 2 0 0 (Fin 1%Qc)), (C43_with 0 4 (-1) 0 0 (Fin 1%Qc)).
  split; [repeat constructor|].
  split; [intros H; specialize (H 10 ltac:(cbn; auto)); cbn in H; lia|]. split; [reflexivity|].
  split; [intros H; specialize (H 10 ltac:(cbn; auto)); cbn in H; lia|]. split; [reflexivity|].
  split; [intros H; specialize (H 10 ltac:(cbn; auto)); cbn in H; lia|]. split; [reflexivity|].
  split; [|reflexivity]. intros z H. cbn in H. cbn.
  destruct H as [H|[H|[H|H]]]; injection H as <-; lia.
Qed.

(** A setting that is not a number passes all the checks, and so does a
    harmonic ratio of 0 (by which the phase range is divided). *)
Lemma C43_not_a_number_refuted_lem :
  (exists m, assert_machine_input m = Ok tt /\ im_dtbin m = Some NaN) /\
  (exists m, assert_machine_input m = Ok tt /\ im_h_ratio m = Some (Fin 0%Qc)).
Proof.
  split.
  - exists (C43_with 0 4 2 0 0 NaN). split; reflexivity.
  - exists (IMachine (Some (Fin 1%Qc)) (Some 5) (Some 0) (Some 4) (Some 2) (Some 20) (Some 4) (Some 1) (Some 0)
    (Some (Fin 1%Qc)) (Some (Fin 0%Qc)) (Some (Fin 1%Qc)) (Some (Fin (qz 25))) (Some (Fin (qz 8)))
    (Some (Fin (qz 938))) (Some (Fin 1%Qc)) (Some (Fin 0%Qc))
    "/tmp/" (Fin 0%Qc) (Fin 0%Qc) false false (Fin (qz 2637)) (Fin 0%Qc) (Fin 0%Qc) (Fin 0%Qc) (Fin 0%Qc) (Fin 0%Qc)
    (Fin (qz 4)) (Fin 1%Qc) (Fin 0%Qc) 10 100 (Fin 0%Qc) (Fin 1%Qc)). split; reflexivity.
Qed.

(** ** C42 *)

(** An input of any other length than 98 lines raises InputError. *)
Lemma C42_wrong_length_lem : forall to_int to_float values_at_turns lines, List.length lines <> 98%nat ->
  txt_input_to_machine to_int to_float values_at_turns lines = Fail (Raised InputError).
Proof.
  intros. unfold txt_input_to_machine, PARAMETER_LENGTH.
  destruct (Z.eqb_spec (Z.of_nat (List.length lines)) 98); [lia|reflexivity].
Qed.
(*EX*)
Example C42_wrong_length_ex : List.length ["a"%string; "b"%string] <> 98%nat.
Proof. cbn. lia. Qed.
(*XE*)

Lemma to_bool_iff : forall z, to_bool z = true <-> z <> 0.
Proof. intros. unfold to_bool. rewrite negb_true_iff, Z.eqb_neq. reflexivity. Qed.
Lemma to_bool_eq : forall b z, (b = true <-> z <> 0) -> b = to_bool z.
Proof. intros. assert (B := to_bool_iff z). destruct b, (to_bool z); auto; exfalso; intuition discriminate. Qed.

Lemma line_pred : forall lines k s, line lines k s -> np_get (map strip lines) (k - 1) = Ok s.
Proof. intros. apply line_at; [destruct H; lia|]. replace (k - 1 + 1) with k by lia. auto. Qed.
Lemma whole_pred : forall A (conv : string -> res A) lines k v, (exists s, line lines k s /\ conv s = Ok v) ->
  (l <- np_get (map strip lines) (k - 1) ;; conv l) = Ok v.
Proof. intros. destruct H as [s [H1 H2]]. rewrite (line_pred _ _ _ H1). auto. Qed.

Ltac fields := cbn [tf_path im_output_dir tf_frames f_nframes f_skip_frames f_nbins_frame tf_dtbin im_dtbin im_dturns f_skip_start f_skip_end im_nprofiles im_nbins
      im_min_dt im_max_dt f_rebin im_synch_part_x im_demax im_filmstart im_filmstop im_filmstep im_niter im_snpt im_full_pp im_beam_ref_frame
      im_machine_ref_frame im_vrf1 im_vrf1dot im_vrf2 im_vrf2dot im_h_num im_h_ratio im_phi12 im_b0 im_bdot im_mean_orbit_rad im_bending_rad
      im_trans_gamma im_e_rest im_charge im_self_field im_g_coupling im_zwall_over_n im_pickup f_nprofs f_nbins].
Ltac fields_in := cbn [tf_path im_output_dir tf_frames f_nframes f_skip_frames f_nbins_frame tf_dtbin im_dtbin im_dturns f_skip_start f_skip_end im_nprofiles im_nbins
      im_min_dt im_max_dt f_rebin im_synch_part_x im_demax im_filmstart im_filmstop im_filmstep im_niter im_snpt im_full_pp im_beam_ref_frame
      im_machine_ref_frame im_vrf1 im_vrf1dot im_vrf2 im_vrf2dot im_h_num im_h_ratio im_phi12 im_b0 im_bdot im_mean_orbit_rad im_bending_rad
      im_trans_gamma im_e_rest im_charge im_self_field im_g_coupling im_zwall_over_n im_pickup] in *.

(** A machine and its frames are returned exactly when there are 98 lines,
    every setting is the one on its documented line, the settings pass the
    checks and the values at each turn can be computed. *)
Lemma C42_lines_lem : forall to_int to_float values_at_turns lines m f,
  txt_input_to_machine to_int to_float values_at_turns lines = Ok (m, f) <->
  (List.length lines = 98%nat /\ documented to_int to_float lines m f /\ acceptable m /\ values_at_turns m = Ok tt).
Proof.
  intros ti tf vat lines m f. unfold txt_input_to_machine, PARAMETER_LENGTH.
  destruct (Z.eqb_spec (Z.of_nat (List.length lines)) 98) as [L|L]; cbn [negb].
  2:{ split; [discriminate|]. intros [H _]. lia. }
  assert (L' : List.length lines = 98%nat) by lia. clear L. unfold min_max_dt. cbv zeta. split.
  - intros H. split; auto.
    repeat (lazymatch type of H with
    | bind (bind (bind _ _) _) _ = Ok _ => let x := fresh "v" in let y := fresh "w" in let E := fresh "E" in
        apply bind_ok in H; destruct H as [[x y] [E H]]
    | bind _ _ = Ok _ => let x := fresh "v" in let E := fresh "E" in apply bind_ok in H; destruct H as [x [E H]]
    end).
    match goal with E : bind (bind _ _) _ = Ok (_, _) |- _ => rename E into D end.
    inv_binds D. injection D as <- <-.
    match goal with E : assert_machine_input _ = Ok ?u, F : vat _ = Ok ?v |- _ => destruct u, v; apply C43_accepted_lem in E; injection H as <- <-; split; [|split; assumption] end.
    match goal with E : ?x = Ok ?a, E' : ?x = Ok ?b |- _ => assert_fails (constr_eq a b); rewrite E in E'; injection E' as -> end.
    repeat match goal with
    | E : np_get (map strip lines) ?k = Ok _ |- _ => apply line_at in E; [|lia]; cbn [Z.add Pos.add Pos.succ Pos.add_carry] in E
    | E : bind (np_get (map strip lines) ?k) _ = Ok _ |- _ => apply conv_at in E; [|lia]; cbn [Z.add Pos.add Pos.succ Pos.add_carry] in E
    end.
    constructor; fields;
    try assumption; try reflexivity; try (eexists; split; [eassumption|reflexivity]); try (eexists; split; [reflexivity|eassumption]);
    try (eexists; split; [eassumption|apply to_bool_iff]).
  - intros [_ [D [A V]]]. apply C43_accepted_lem in A.
    destruct m, f as [[] ? ?]. destruct D. fields_in.
    repeat match goal with
    | H : some _ _ |- _ => let E := fresh in destruct H as [? [E H]]; try (injection E as ->); subst
    | H : frame_number _ _ _ _ |- _ => destruct H as [? [H ->]]
    | H : flag _ _ _ _ |- _ => let E := fresh in destruct H as [? [H E]]; apply to_bool_eq in E; subst
    | H : exists z, whole _ _ _ z /\ _ |- _ => destruct H as [? [H ->]]
    | H : line lines _ _ |- _ => apply line_pred in H; cbn [Z.sub Z.add Z.opp Z.pos_sub Pos.pred_double Z.pred_double Z.succ_double Z.double] in H
    | H : whole _ _ _ _ |- _ => apply whole_pred in H; cbn [Z.sub Z.add Z.opp Z.pos_sub Pos.pred_double Z.pred_double Z.succ_double Z.double] in H
    | H : number _ _ _ _ |- _ => apply whole_pred in H; cbn [Z.sub Z.add Z.opp Z.pos_sub Pos.pred_double Z.pred_double Z.succ_double Z.double] in H
    end.
    unfold f_nprofs, f_nbins. fields.
    repeat (match goal with H : ?x = Ok _ |- context [bind ?x _] => rewrite H; cbn [bind] end).
    reflexivity.
Qed.
(*EX*)
Definition C42_conv (s : string) : res Z :=
  match s with
  | String "1" EmptyString => Ok 1
  | String "2" EmptyString => Ok 2
  | _ => Fail (Raised ValueError)
  end.
Definition C42_file : list string := map (fun _ => String "1" (String "010" EmptyString)) (seq 0 98).
Example C42_lines_ex :
  match txt_input_to_machine C42_conv (fun s => z <- C42_conv s ;; Ok (Fin (qz z))) (fun _ => Ok tt)
    (map (fun k => if Nat.eqb k 16 then String "2" (String "010" EmptyString)
                   else if Nat.eqb k 26 then String "1" EmptyString
                   else if Nat.eqb k 20 then String "2" (String "013" (String "010" EmptyString))
                   else String "1" (String "010" EmptyString)) (seq 0 98)) with
  | Ok (m, f) => f_nframes (tf_frames f) = 2 /\ im_nprofiles m = 1 /\ im_filmstart m = Some 0 /\ im_output_dir m = "1"%string
  | Fail _ => False
  end.
Proof. vm_compute. auto. Qed.
(*XE*)

(** ** C56 *)

(** Reading standard input takes the 98 parameter lines; if line 13 says that
    the data follow, it also takes one line for each of the (frames * bins)
    measurements, and leaves the rest unread.  A line after the end of the
    input reads as empty. *)
Lemma C56_stdin_lem : forall to_int stdin fuel n,
  (contains "pipe" (nth 12 stdin EmptyString) = false /\ n = 98%nat \/
   contains "pipe" (nth 12 stdin EmptyString) = true /\
   exists nframes nbins, to_int (nth 16 stdin EmptyString) = Ok nframes /\ to_int (nth 20 stdin EmptyString) = Ok nbins /\
     0 <= nframes * nbins /\ Z.of_nat n = 98 + nframes * nbins) ->
  (n <= fuel)%nat ->
  get_input_stdin to_int fuel stdin = Ok (tab n (fun i => nth i stdin EmptyString), skipn n stdin).
Proof.
  intros ti stdin fuel n [[H ->]|[H [nf [nb [H1 [H2 [H3 H4]]]]]]] Hf.
  - replace fuel with (98 + (fuel - 98))%nat by lia. apply read_no_pipe. auto.
  - replace n with (98 + (n - 98))%nat by lia. replace fuel with (98 + (n - 98) + (fuel - n))%nat by lia.
    apply (read_pipe _ _ _ nf nb); auto. lia.
Qed.
(*EX*)
Example C56_stdin_ex :
  match get_input_stdin C42_conv 200 (map (fun k => if Nat.eqb k 12 then "pipe"%string else if Nat.eqb k 16 then "2"%string else "1"%string) (seq 0 120)) with
  | Ok (r, rest) => List.length r = 100%nat /\ List.length rest = 20%nat
  | Fail _ => False
  end.
Proof. vm_compute. auto. Qed.
(*XE*)

(** The lines that were read are split after line 98.  The parameters are
    those lines without their ends; the data are the numbers on the remaining
    lines if line 13 is the word pipe, and the contents of the file named on
    line 13 otherwise.  There are as many of them as frames times bins. *)
Lemma C56_split_lem : forall to_int to_float genfromtxt read params data,
  split_input to_int to_float genfromtxt read = Ok (params, data) <->
  exists ps ds nframes nbins,
    read = ps ++ ds /\ List.length ps = 98%nat /\
    Forall2 trimmed ps params /\
    to_int (nth 16 ps EmptyString) = Ok nframes /\ to_int (nth 20 ps EmptyString) = Ok nbins /\
    (if String.eqb (nth 12 params EmptyString) "pipe" then Forall2 (fun s v => to_float s = Ok v) ds data
     else genfromtxt (nth 12 params EmptyString) = Ok data) /\
    Z.of_nat (List.length data) = nframes * nbins.
Proof.
  intros ti tf gen read params data. split.
  - intros H. unfold split_input, PARAMETER_LENGTH in H. cbv zeta in H.
    change 98 with (Z.of_nat 98) in H. rewrite py_range_up in H.
    assert (L : (98 <= List.length read)%nat).
    { inv_binds H. match goal with E : mapM _ _ = Ok _ |- _ => apply mapM_np_get_all in E; rename E into K end.
      destruct (Nat.le_gt_cases 98 (List.length read)); auto.
      rewrite slice_short in K by lia. auto. }
    rewrite slice_first in H by auto.
    assert (F : List.length (firstn 98 read) = 98%nat) by (apply firstn_length_le; auto).
    set (ps := firstn 98 read) in *.
    assert (M := mapM_np_get _ _ strip ps). rewrite F in M. rewrite M in H.
    apply bind_ok in H. destruct H as [l20 [E20 H]]. apply bind_ok in H. destruct H as [nb [Enb H]].
    apply bind_ok in H. destruct H as [l16 [E16 H]]. apply bind_ok in H. destruct H as [nf [Enf H]].
    cbn [bind] in H. apply bind_ok in H. destruct H as [file [Ef H]]. apply bind_ok in H. destruct H as [d [Ed H]].
    destruct (Z.eqb_spec (Z.of_nat (List.length d)) (nb * nf)) as [Hl|]; [|discriminate]. injection H as <- <-.
    apply np_get_nth in E20; [|lia]. apply np_get_nth in E16; [|lia]. apply np_get_nth in Ef; [|unfold RAW_DATA_FILE_IDX; lia].
    assert (N : forall A (l : list A) k x y, nth_error l k = Some x -> nth k l y = x) by (intros; apply nth_error_nth; auto).
    exists ps, (skipn 98 read), nf, nb. split; [symmetry; apply firstn_skipn|]. split; auto. split.
    + clear. induction ps; cbn [map]; constructor; auto. apply strip_trimmed.
    + change (Z.to_nat 16) with 16%nat in E16. change (Z.to_nat 20) with 20%nat in E20. change (Z.to_nat RAW_DATA_FILE_IDX) with 12%nat in Ef.
      rewrite (N _ _ _ _ _ E16), (N _ _ _ _ _ E20), (N _ _ _ _ _ Ef). split; auto. split; auto. split.
      * destruct (String.eqb file "pipe"); auto. apply mapM_forall2 in Ed. unfold slice_from in Ed. rewrite pyidx_pos in Ed by auto. auto.
      * lia.
  - intros [ps [ds [nf [nb [-> [L [T [E16 [E20 [D Hl]]]]]]]]]].
    assert (P : params = map strip ps).
    { clear - T. induction T; cbn [map]; auto. f_equal; auto. apply trimmed_iff. auto. }
    subst params. unfold split_input, PARAMETER_LENGTH. cbv zeta.
    change 98 with (Z.of_nat 98). rewrite slice_first by (rewrite app_length; lia).
    rewrite firstn_app, (firstn_all2 ps) by lia. replace (98 - List.length ps)%nat with 0%nat by lia. rewrite firstn_O, app_nil_r.
    assert (N : forall k, (k < 98)%nat -> np_get ps (Z.of_nat k) = Ok (nth k ps EmptyString)).
    { intros. apply np_get_nth; [lia|]. rewrite Nat2Z.id. apply nth_error_nth'. lia. }
    change 20 with (Z.of_nat 20). change 16 with (Z.of_nat 16). rewrite !N by lia. cbn [bind]. rewrite E20, E16. cbn [bind].
    assert (M := mapM_np_get _ _ strip ps). rewrite L in M. rewrite py_range_up, M. cbn [bind].
    unfold RAW_DATA_FILE_IDX. change 12 with (Z.of_nat 12).
    assert (Q : np_get (map strip ps) (Z.of_nat 12) = Ok (nth 12 (map strip ps) EmptyString)).
    { apply np_get_nth; [lia|]. rewrite Nat2Z.id. apply nth_error_nth'. rewrite map_length. lia. }
    rewrite Q. cbn [bind]. unfold slice_from. rewrite pyidx_pos by (rewrite app_length; lia).
    rewrite skipn_app, (skipn_all2 ps) by lia. replace (98 - List.length ps)%nat with 0%nat by lia. rewrite skipn_O. cbn [app].
    assert (E : (if String.eqb (nth 12 (map strip ps) EmptyString) "pipe" then mapM tf ds else gen (nth 12 (map strip ps) EmptyString)) = Ok data).
    { destruct (String.eqb _ _); auto. apply mapM_forall2. auto. }
    rewrite E. cbn [bind]. destruct (Z.eqb_spec (Z.of_nat (List.length data)) (nb * nf)); [reflexivity|lia].
Qed.
(*EX*)
Definition C56_lines : list string :=
  map (fun k => (if Nat.eqb k 12 then String "p" (String "i" (String "p" (String "e" (String "010" EmptyString))))
                 else if Nat.eqb k 16 then "2" else "1")%string) (seq 0 100).
Example C56_split_ex :
  match split_input C42_conv (fun s => z <- C42_conv s ;; Ok (Fin (qz z))) (fun _ => Fail (Raised ValueError)) C56_lines with
  | Ok (ps, d) => List.length ps = 98%nat /\ List.length d = 2%nat | Fail _ => False end.
Proof. vm_compute. auto. Qed.
(*XE*)

(** Reading from standard input decides whether data follow by looking for
    the letters pipe anywhere on line 13; splitting compares the whole line.
    With a data file whose path contains these letters, lines after the
    parameters are consumed although the data come from that file. *)
Lemma C56_pipe_refuted_lem :
  exists to_int to_float genfromtxt stdin read rest params data,
    nth 12 stdin EmptyString = "/data/pipes/x.dat"%string /\
    get_input_stdin to_int 200 stdin = Ok (read, rest) /\
    split_input to_int to_float genfromtxt read = Ok (params, data) /\
    genfromtxt "/data/pipes/x.dat"%string = Ok data /\
    List.length stdin = 100%nat /\ rest = [].
Proof.
  exists C42_conv, (fun s => z <- C42_conv s ;; Ok (Fin (qz z))), (fun _ => Ok [NaN; NaN]),
    (map (fun k => (if Nat.eqb k 12 then "/data/pipes/x.dat" else if Nat.eqb k 16 then "2" else "1")%string) (seq 0 100)).
  eexists. exists []. eexists. exists [NaN; NaN].
  split; [vm_compute; reflexivity|]. split; [vm_compute; reflexivity|]. split; [vm_compute; reflexivity|].
  split; [reflexivity|]. split; [rewrite map_length, seq_length; reflexivity|reflexivity].
Qed.
