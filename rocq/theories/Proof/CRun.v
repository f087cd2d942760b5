(** Property lemmas on a whole reconstruction (C74-C79). *)
(*HEAD*)
From Coq Require Import List Arith ZArith QArith Qcanon Bool String.
From Verif Require Import Base.Res Base.QcLib Model.MRecon Model.MTrack Model.MParticles Model.MPreproc Model.MInput Model.MRun
  Spec.TomoSpec Spec.ParticleSpec Spec.InputSpec Spec.PreprocSpec Spec.RunSpec.
Import ListNotations.
Local Open Scope Qc_scope.
(*DAEH*)
From Coq Require Import Lia Arith.
From Verif Require Import Base.ResLemmas Base.QcLemmas Base.Loops Proof.PTomo Proof.PParticles Proof.CParticles Proof.CPreproc Proof.CInput
  Proof.CRecon Proof.PInput Proof.PRun Proof.PRun2.

(** C74.  The image returned by a run is a density: n x n cells for profiles of
    n bins, no negative cell, total one, nothing outside the reconstruction
    area; the axes have their zero at the synchronous particle and the widths
    of a time bin and an energy bin as steps. *)
Lemma C74_image_lem : forall to_int to_float turn_values fit find_limits sin sqrt past lines raw rp pt ts es img,
  run_parts to_int to_float turn_values fit find_limits sin sqrt past lines raw rp = Ok (pt, (ts, es, img)) ->
  let cur := rm_cur (pt_machine pt) in let n := Z.to_nat (p_nbins cur) in
  every_turn (rm_set (pt_machine pt)) (rm_turns (pt_machine pt)) -> near_image n (pt_limits pt) ->
  ts = tab n (fun i => (qn i - p_synch_x cur) * p_dtbin cur) /\
  es = tab n (fun i => (qn i - qn n / qz 2) * ql_dEbin (pt_limits pt)) /\
  rectangular n n img /\ Forall (Forall (fun v => 0 <= v)) img /\ qsum (map qsum img) = 1 /\
  forall a b, (a < n)%nat -> (b < n)%nat -> ~ in_area (pt_limits pt) (Z.of_nat a) (Z.of_nat b) -> cell img a b = 0.
Proof.
  intros ti tf tv ft fl sin sqrt past lines raw rp pt ts es img E cur n ET NI. assert (II := run_near _ _ _ _ _ _ _ _ _ _ _ _ _ E ET NI).
  destruct (run_ok _ _ _ _ _ _ _ _ _ _ _ _ _ _ _ E ET II) as (np & k & s & p & c & keep & _ & M & _ & _ & _ & _ & _ & _ & _ & _ & _ & _ &
    _ & _ & _ & _ & _ & _ & _ & T1 & T2 & R & P & S & _ & Z).
  assert (n = k) by (unfold n, cur; rewrite (mo_nbins _ _ _ _ M); apply Nat2Z.id). rewrite H in *. auto 10.
Qed.

(** C74.  The synchronous particle and the bin width used.  With the bin width,
    the rebinning factor and the position of the synchronous particle of the
    file: the bins are wider by the factor; a position that is not negative is
    used, in the new bins; a negative one is replaced by the result of the fit
    to the profiles. *)
Lemma C74_synchronous_lem : forall to_int to_float turn_values fit find_limits sin sqrt past lines raw rp pt image,
  run_parts to_int to_float turn_values fit find_limits sin sqrt past lines raw rp = Ok (pt, image) ->
  let m := pt_machine pt in let cur := rm_cur m in
  exists f x dt, documented to_int to_float lines (rm_set m) f /\
    im_synch_part_x (rm_set m) = Fin x /\ tf_dtbin f = Fin dt /\
    let factor := qz (f_rebin (tf_frames f)) in
    0 < factor /\ p_dtbin cur = dt * factor /\
    (0 <= x -> p_synch_x cur = x / factor) /\
    (x < 0 -> exists before low up, fit (rm_set m) (rm_turns m) before (pt_waterfall pt) = Ok (p_synch_x cur, low, up) /\
       p_synch_x before = x / factor /\ p_nprofiles before = p_nprofiles cur /\ p_nbins before = p_nbins cur /\
       p_dtbin before = p_dtbin cur /\ p_synch_y before = p_synch_y cur /\ p_beam_ref before = p_beam_ref cur).
Proof.
  intros ti tfl tvs fit fl sin sqrt past lines raw rp pt image E. unfold run_parts in E.
  apply bind_ok in E. destruct E as [[m wf] [E1 E]]. apply bind_ok in E. destruct E as [idx [_ E]].
  apply bind_ok in E. destruct E as [[] [_ E]].
  apply bind_ok in E. destruct E as [[[L dphi] den] [_ E]].
  apply bind_ok in E. destruct E as [[x y] [_ E]].
  apply bind_ok in E. destruct E as [t [_ E]].
  apply bind_ok in E. destruct E as [niter [_ E]].
  apply bind_ok in E. destruct E as [[[[w dis] rr] calls] [_ E]].
  apply bind_ok in E. destruct E as [im' [_ E]]. injection E as <- ->. cbn [pt_machine pt_waterfall]. clear - E1.
  rename E1 into E. unfold read_machine in E.
  destruct (txt_input_to_machine _ _ _ lines) as [[im tf]|] eqn:E1; [|discriminate]. cbn [bind] in E.
  apply C42_lines_lem in E1. destruct E1 as (_ & D & A & _).
  destruct (tvs im) as [tv|] eqn:E2; [|discriminate]. cbn [bind] in E.
  destruct (to_waterfall (tf_frames tf) raw) as [wf0|] eqn:E3; [|discriminate]. cbn [bind] in E.
  destruct (finite (tf_dtbin tf)) as [dt|] eqn:Fd; [|discriminate]. cbn [bind] in E.
  destruct (finite (im_synch_part_x im)) as [sx|] eqn:Fx; [|discriminate]. cbn [bind] in E.
  destruct (not_none (im_beam_ref_frame im) TypeError) as [br|]; [|discriminate]. cbn [bind] in E.
  assert (RB : (0 < Z.to_nat (f_rebin (tf_frames tf)))%nat).
  { unfold to_waterfall in E3. destruct (negb _); [discriminate|].
    destruct (assert_frame_inputs_iff (tf_frames tf)) as [[OK _]|[_ X]]; [|rewrite X in E3; discriminate].
    unfold frames_ok in OK. lia. }
  destruct (C39_cells_lem _ _ _ _ E3) as (R & P1 & P2 & _). clear E3.
  set (n := Z.to_nat (f_nprofs (tf_frames tf))) in *. set (m0 := Z.to_nat (f_nbins (tf_frames tf))) in *.
  assert (Hn : (0 < n)%nat) by lia. rewrite (cols_rect _ _ _ _ R Hn) in E.
  match type of E with bind ?a _ = _ => destruct a as [pf|] eqn:E4; [|discriminate] end. cbn [bind] in E.
  destruct (raw_profiles n m0 _ _ _ _ _ R Hn ltac:(lia) RB E4) as (b & o & k & _ & _ & Ro & Hk & Np & ->). clear E4.
  cbn [pf_waterfall pf_machine not_none bind p_synch_x p_nprofiles p_beam_ref] in E, Np.
  assert (Q : qn (Z.to_nat (f_rebin (tf_frames tf))) = qz (f_rebin (tf_frames tf))) by (unfold qn, qz; rewrite Z2Nat.id by lia; reflexivity).
  rewrite Q in E. set (fa := qz (f_rebin (tf_frames tf))) in *.
  assert (Pf : 0 < fa). { rewrite <- Q. apply qn_pos. auto. }
  match type of E with bind ?a _ = _ => destruct a as [pm|] eqn:E5; [|discriminate] end. cbn [bind] in E.
  injection E as <- <-. cbn [rm_set rm_cur rm_turns]. exists tf, sx, dt.
  split; auto. split; [apply finite_fin in Fx; auto|]. split; [apply finite_fin in Fd; auto|]. cbv zeta. fold fa. split; auto.
  assert (Pi : 0 < / fa) by (apply Qcinv_pos; auto).
  destruct (qltb (sx / fa) 0) eqn:G.
  - apply bind_ok in E5. destruct E5 as [[[x lo] up] [F E5]]. injection E5 as <-. cbn. split; auto.
    split; [|intros _; eexists; exists lo, up; split; [exact F|cbn; auto 10]].
    intros H. exfalso. apply qltb_true in G. apply (Qclt_not_le _ _ G). apply Qcdiv_nonneg; auto.
  - injection E5 as <-. cbn. split; auto. split; auto. intros H. exfalso.
    assert (sx / fa < 0). { unfold Qcdiv. rewrite <- (Qcmult_0_l (/ fa)). apply Qcmult_lt_compat_r; auto. }
    apply qltb_true in H0. congruence.
Qed.

(** C74.  What the image is made of.  The particles start at the points of the
    grid of the area at the profile to be reconstructed.  Those that stay
    inside the profiles at every profile are used, with the truncated
    positions of the tracking as coordinates.  The cells of the image are the
    shares in the total weight of the particles that started there, with the
    weights found by Tomography.run. *)
Lemma C74_particles_lem : forall to_int to_float turn_values fit find_limits sin sqrt past lines raw rp pt ts es img,
  run_parts to_int to_float turn_values fit find_limits sin sqrt past lines raw rp = Ok (pt, (ts, es, img)) ->
  let m := pt_machine pt in let cur := rm_cur m in let L := pt_limits pt in let w := pt_weight pt in
  let n := Z.to_nat (p_nbins cur) in let nprofs := Z.to_nat (im_nprofiles (rm_set m)) in
  every_turn (rm_set m) (rm_turns m) -> near_image n L ->
  exists s p c keep,
    let at_profile := position sin past s (rm_turns m) cur L nprofs p in
    settings (rm_set m) s /\ profile_number nprofs (pt_idx pt) p /\
    (rp = Some (pt_idx pt) \/ rp = None /\ im_filmstart (rm_set m) = Some (pt_idx pt)) /\
    starting_points L (n_snpt s) c /\ stay_inside nprofs n at_profile c keep /\ keep <> [] /\
    t_xp (pt_tomo pt) = Some (map (fun k => tab nprofs (fun q => qtrunc (fst (at_profile q (nth k c (0, 0)))))) keep) /\
    t_yp (pt_tomo pt) = Some (map (fun k => tab nprofs (fun q => qtrunc (snd (at_profile q (nth k c (0, 0)))))) keep) /\
    (exists niter rec calls, im_niter (rm_set m) = Some niter /\ MRecon.run sqrt (pt_tomo pt) niter = Ok (w, pt_discr pt, rec, calls)) /\
    List.length w = List.length keep /\ Forall (fun v => 0 <= v) w /\ 0 < qsum w /\
    forall a b, (a < n)%nat -> (b < n)%nat -> cell img a b =
      sumn (List.length keep) (fun i => if in_cell (Z.of_nat a) (Z.of_nat b) (nth (nth i keep 0%nat) c (0, 0)) then nth i w 0 else 0) / qsum w.
Proof.
  intros ti tf tv ft fl sin sqrt past lines raw rp pt ts es img E m cur L w n nprofs ET NI. assert (II := run_near _ _ _ _ _ _ _ _ _ _ _ _ _ E ET NI).
  destruct (run_ok _ _ _ _ _ _ _ _ _ _ _ _ _ _ _ E ET II) as (np & k & s & p & c & keep & _ & M & S & PN & RP & Hp & FL & SP & SI & K & FIX & RC &
    _ & TX & TY & RUN & LW & W1 & W2 & T1 & T2 & R & P & S1 & C & Z).
  assert (n = k) by (unfold n, cur, m; rewrite (mo_nbins _ _ _ _ M); apply Nat2Z.id).
  assert (nprofs = np) by (unfold nprofs, m; rewrite (mo_set _ _ _ _ M); apply Nat2Z.id).
  clearbody n nprofs. subst n nprofs. exists s, p, c, keep. cbv zeta.
  do 12 (split; [first [assumption | exact TX | exact TY | exact SI]|]). assumption.
Qed.

(*EX*)
(** A small run: three profiles of twenty bins, two turns between them. *)
Definition C74_digit (s : string) : res Z :=
  match String.index 0 s "0123456789ABCDEFGHIJKLMN" with
  | Some k => if Nat.eqb (String.length s) 1 then Ok (Z.of_nat k) else Fail (Raised ValueError)
  | None => Fail (Raised ValueError) end.
Definition C74_float (s : string) : res pyfloat := z <- C74_digit s ;; Ok (Fin (qz z)).
Definition C74_file : list string :=
  map (fun k => match k with 16 => "3" | 18 => "0" | 20 => "K" | 26 => "0" | 28 => "0" | 39 => "A" | 24 => "2" | 49 => "2" | 45 => "2" | 73 => "0" | 91 => "0"
                        | _ => "1" end)%nat%string (seq 0 98).
Definition C74_turns (m : imachine) : res tvals :=
  match im_dturns m with
  | Some d => let n := Z.to_nat (d * (im_nprofiles m - 1) + 1) in
      if (d * (im_nprofiles m - 1) + 1 <? 0)%Z then Fail (Raised ValueError)
      else Ok (TVals (repeat (Q2Qc (1#8)) n) (repeat 0 n) (repeat 0 n) (repeat 0 n) (repeat (Q2Qc (1#8)) n) (repeat 1 n))
  | None => Fail (Raised TypeError) end.
Definition C74_limits (m : imachine) (tv : tvals) (cur : pmachine) : res qlimits :=
  if (p_nbins cur =? 20)%Z then Ok (QLimits (qz (-10)) 1 9 11 (repeat 8%Z 20) (repeat 12%Z 20)) else Fail (Raised ValueError).
Definition C74_raw : list Qc :=
  map qz (repeat 1 8 ++ [2;5;4;2] ++ repeat 1 8 ++ repeat 1 8 ++ [3;5;4;1] ++ repeat 1 8 ++ repeat 1 8 ++ [2;6;3;2] ++ repeat 1 8)%Z.
Definition C74_fit (m : imachine) (tv : tvals) (cur : pmachine) (wf : list (list Qc)) : res (Qc * Qc * Qc) := Ok (qz 10, 0, 0).
Notation C74_run rp := (run_parts C74_digit C74_float C74_turns C74_fit C74_limits (fun x => x) (fun x => x) 0 C74_file C74_raw rp).
Lemma C74_every_turn : forall m tv, C74_turns m = Ok tv -> every_turn m tv.
Proof.
  intros m tv E d l D I. unfold C74_turns in E. rewrite D in E. cbv zeta in E. destruct (Z.ltb_spec (d * (im_nprofiles m - 1) + 1) 0); [discriminate|].
  injection E as <-. cbn in I.
  repeat (destruct I as [<-|I]; [rewrite repeat_length, Z2Nat.id by assumption; reflexivity|]). contradiction.
Qed.
Lemma C74_near : forall m tv cur L, C74_limits m tv cur = Ok L -> near_image (Z.to_nat (p_nbins cur)) L.
Proof.
  intros m tv cur L E. unfold C74_limits in E. destruct (Z.eqb_spec (p_nbins cur) 20) as [->|]; [|discriminate]. injection E as <-.
  change (Z.to_nat 20) with 20%nat. split; [reflexivity|]. split; [reflexivity|]. split; [repeat constructor|]. split; [split; discriminate|]. split; [discriminate|].
  split; [|exists 0%nat; split; [repeat constructor|reflexivity]]. intros i Hi. cbn [ql_jmin ql_jmax].
  do 20 (destruct i as [|i]; [split; discriminate|]). exfalso. apply (Nat.nlt_0_r i). do 20 apply Nat.succ_lt_mono. exact Hi.
Qed.
Lemma C74_run_of : forall ti tf tv ft fl sin sqrt past lines raw rp r, run_parts ti tf tv ft fl sin sqrt past lines raw rp = Ok r ->
  run ti tf tv ft fl sin sqrt past lines raw rp = Ok (snd r).
Proof. intros ti tf tv ft fl sin sqrt past lines raw rp [a b] E. unfold run. rewrite E. reflexivity. Qed.
Example C74_image_ex : exists pt ts es img, C74_run None = Ok (pt, (ts, es, img)) /\
  every_turn (rm_set (pt_machine pt)) (rm_turns (pt_machine pt)) /\
  near_image (Z.to_nat (p_nbins (rm_cur (pt_machine pt)))) (pt_limits pt) /\
  List.length (pt_weight pt) = 12%nat /\ qltb 0 (cell img 9 9) = true /\ qltb (cell img 9 8) (cell img 9 9) = true.
Proof.
  assert (Q : match C74_run None with
    | Ok (pt, (ts, es, img)) => (Nat.eqb (List.length (pt_weight pt)) 12 && qltb 0 (cell img 9 9) && qltb (cell img 9 8) (cell img 9 9) &&
        match C74_turns (rm_set (pt_machine pt)) with Ok tv => true | _ => false end)%bool
    | _ => false end = true) by (vm_compute; reflexivity).
  assert (Q2 : match C74_run None with Ok (pt, (ts, es, img)) => C74_turns (rm_set (pt_machine pt)) = Ok (rm_turns (pt_machine pt)) /\
      C74_limits (rm_set (pt_machine pt)) (rm_turns (pt_machine pt)) (rm_cur (pt_machine pt)) = Ok (pt_limits pt) | _ => False end)
    by (vm_compute; split; reflexivity).
  destruct (C74_run None) as [[pt [[ts es] img]]|e]; [|discriminate Q].
  exists pt, ts, es, img. split; [reflexivity|]. apply andb_prop in Q. destruct Q as [Q _]. apply andb_prop in Q. destruct Q as [Q Q3]. apply andb_prop in Q. destruct Q as [Q4 Q5].
  apply Nat.eqb_eq in Q4. destruct Q2 as [T L]. split; [exact (C74_every_turn _ _ T)|]. split; [exact (C74_near _ _ _ _ L)|]. auto.
Qed.
(*XE*)

(** C75.  A constant offset of the raw data has no effect on a run. *)
Lemma C75_offset_lem : forall to_int to_float turn_values fit find_limits sin sqrt past lines raw rp c,
  run to_int to_float turn_values fit find_limits sin sqrt past lines (map (fun v => v + c) raw) rp =
  run to_int to_float turn_values fit find_limits sin sqrt past lines raw rp.
Proof.
  intros. unfold run, run_parts. replace (read_machine to_int to_float turn_values fit lines (map (fun v => v + c) raw))
    with (read_machine to_int to_float turn_values fit lines raw); [reflexivity|].
  unfold read_machine. destruct (txt_input_to_machine _ _ _ lines) as [[im tf]|]; [|reflexivity]. cbn [bind].
  destruct (turn_values im) as [tv|]; [|reflexivity]. cbn [bind]. rewrite to_waterfall_map.
  destruct (to_waterfall (tf_frames tf) raw) as [wf|]; [|reflexivity]. cbn [bind].
  destruct (finite (tf_dtbin tf)) as [dt|]; [|reflexivity]. cbn [bind].
  destruct (finite (im_synch_part_x im)) as [sx|]; [|reflexivity]. cbn [bind].
  destruct (not_none (im_beam_ref_frame im) TypeError) as [br|]; [|reflexivity]. cbn [bind]. cbv zeta.
  rewrite cols_map, C40_invariant_lem. reflexivity.
Qed.

(*EX*)
(** Other raw data, the same image. *)
Example C75_offset_ex : map (fun v => v + qz 7) C74_raw <> C74_raw /\
  exists img, run C74_digit C74_float C74_turns C74_fit C74_limits (fun x => x) (fun x => x) 0 C74_file (map (fun v => v + qz 7) C74_raw) None = Ok img.
Proof.
  split; [intros H; apply (f_equal (fun l => qeqb (hd 0 l) 1)) in H; vm_compute in H; discriminate H|].
  destruct C74_image_ex as (pt & ts & es & img & E & _). exists (ts, es, img).
  rewrite C75_offset_lem. exact (C74_run_of _ _ _ _ _ _ _ _ _ _ _ _ E).
Qed.
(*XE*)

(** C76.  Multiplying all raw data by a positive number has no effect on a
    run, if it has none on the fit of the synchronous particle (C72_scale). *)
Lemma C76_scale_lem : forall to_int to_float turn_values fit find_limits sin sqrt past lines raw rp a, 0 < a ->
  (forall m tv cur wf, fit m tv cur (map (map (Qcmult a)) wf) = fit m tv cur wf) ->
  run to_int to_float turn_values fit find_limits sin sqrt past lines (map (Qcmult a) raw) rp =
  run to_int to_float turn_values fit find_limits sin sqrt past lines raw rp.
Proof.
  intros ti tfl tvs fit fl sin sqrt past lines raw rp a Ha Hfit.
  assert (R : read_machine ti tfl tvs fit lines (map (Qcmult a) raw) =
     (' (m, wf) <- read_machine ti tfl tvs fit lines raw ;; Ok (m, map (map (Qcmult a)) wf))).
  { unfold read_machine. destruct (txt_input_to_machine _ _ _ lines) as [[im tf]|]; [|reflexivity]. cbn [bind].
    destruct (tvs im) as [tv|]; [|reflexivity]. cbn [bind]. rewrite to_waterfall_map.
    destruct (to_waterfall (tf_frames tf) raw) as [wf|]; [|reflexivity]. cbn [bind].
    destruct (finite (tf_dtbin tf)) as [dt|]; [|reflexivity]. cbn [bind].
    destruct (finite (im_synch_part_x im)) as [sx|]; [|reflexivity]. cbn [bind].
    destruct (not_none (im_beam_ref_frame im) TypeError) as [br|]; [|reflexivity]. cbn [bind]. cbv zeta.
    rewrite cols_map, (raw_profiles_sc a Ha).
    match goal with |- context [raw_data_to_profiles wf ?n ?pm ?r dt] => destruct (raw_data_to_profiles wf n pm r dt) as [pf|]; [|reflexivity] end.
    cbn [bind pf_machine pf_waterfall]. destruct (pf_waterfall pf) as [[k w]|]; [|reflexivity]. cbn [option_map not_none bind fst snd].
    destruct (qltb (p_synch_x (pf_machine pf)) 0); [|reflexivity]. rewrite Hfit. destruct (fit im tv (pf_machine pf) w) as [[[x y] z]|]; reflexivity. }
  unfold run, run_parts. rewrite R. destruct (read_machine ti tfl tvs fit lines raw) as [[m wf]|]; [|reflexivity]. cbn [bind].
  match goal with |- bind (bind ?i _) _ = _ => destruct i as [idx|]; [|reflexivity] end. cbn [bind].
  destruct (new_tracking m); [|reflexivity]. cbn [bind].
  destruct (track_auto fl sin past m idx) as [[[L dphi] den]|]; [|reflexivity]. cbn [bind].
  destruct (prepared m L dphi den) as [[x y]|]; [|reflexivity]. cbn [bind].
  assert (T : new_tomography (map (map (Qcmult a)) wf) x y = new_tomography wf x y).
  { unfold new_tomography. rewrite cols_map, map_length. apply C26_scale_invariant_lem. apply same_profile_sc. auto. }
  rewrite T. destruct (new_tomography wf x y) as [t|]; [|reflexivity]. cbn [bind].
  destruct (not_none (im_niter (rm_set m)) TypeError) as [ni|]; [|reflexivity]. cbn [bind].
  destruct (MRecon.run sqrt t ni) as [[[[w d] r] cl]|]; [|reflexivity]. cbn [bind].
  destruct (final_image m (ql_dEbin L) x y w idx); reflexivity.
Qed.

(*EX*)
Example C76_scale_ex : exists img,
  run C74_digit C74_float C74_turns C74_fit C74_limits (fun x => x) (fun x => x) 0 C74_file (map (Qcmult (qz 3)) C74_raw) None = Ok img.
Proof.
  destruct C74_image_ex as (pt & ts & es & img & E & _). exists (ts, es, img).
  rewrite C76_scale_lem by reflexivity. exact (C74_run_of _ _ _ _ _ _ _ _ _ _ _ _ E).
Qed.
(*XE*)

Lemma skipn_skipn_plus : forall a b (l : list string), skipn b (skipn a l) = skipn (a + b) l.
Proof.
  induction a; intros b l; [reflexivity|]. destruct l; cbn [skipn Nat.add]; [destruct b; reflexivity|apply IHa].
Qed.

Lemma replace_flag_get : forall lines s k, List.length lines = 98%nat -> (0 <= k < 98)%Z -> k <> 91%Z ->
  np_get (map strip (replace_flag lines s)) k = np_get (map strip lines) k.
Proof.
  intros lines s k L Hk N. rewrite !np_get_map. f_equal. unfold np_get, replace_flag. cbv zeta.
  assert (LR : List.length (firstn 91 lines ++ s :: skipn 92 lines) = 98%nat).
  { rewrite app_length. cbn [List.length]. rewrite firstn_length, skipn_length. lia. }
  rewrite LR, L. destruct (Z.ltb_spec k 0); [lia|]. destruct (Z.ltb_spec k 0); [lia|]. destruct (Z.leb_spec (Z.of_nat 98) k); [lia|]. cbn [orb].
  unfold get. destruct (Z.ltb_spec k 0); [lia|].
  assert (E : nth_error (firstn 91 lines ++ s :: skipn 92 lines) (Z.to_nat k) = nth_error lines (Z.to_nat k)); [|rewrite E; reflexivity].
  rewrite <- (firstn_skipn 91 lines) at 3. assert (L1 : List.length (firstn 91 lines) = 91%nat) by (rewrite firstn_length; lia).
  destruct (Nat.ltb_spec (Z.to_nat k) 91).
  - rewrite !nth_error_app1 by lia. auto.
  - rewrite !nth_error_app2 by lia. rewrite L1. destruct (skipn 91 lines) as [|x l] eqn:SK.
    { apply (f_equal (@List.length string)) in SK. rewrite skipn_length in SK. simpl in SK. lia. }
    assert (X : skipn 92 lines = l) by (clear - SK; change l with (skipn 1 (x :: l)); rewrite <- SK; symmetry; apply (skipn_skipn_plus 91 1)). rewrite X.
    destruct (Z.to_nat k - 91)%nat eqn:Y; [lia|]. reflexivity.
Qed.

Lemma replace_flag_91 : forall lines s, List.length lines = 98%nat -> np_get (map strip (replace_flag lines s)) 91 = Ok (strip s).
Proof.
  intros lines s L. rewrite np_get_map. unfold np_get, replace_flag. cbv zeta.
  assert (L1 : List.length (firstn 91 lines) = 91%nat) by (rewrite firstn_length; lia).
  assert (LR : List.length (firstn 91 lines ++ s :: skipn 92 lines) = 98%nat).
  { rewrite app_length. cbn [List.length]. rewrite firstn_length, skipn_length. lia. }
  rewrite LR. cbn -[firstn skipn]. unfold get. cbn -[firstn skipn nth_error Z.to_nat]. rewrite nth_error_app2 by lia.
  rewrite L1. reflexivity.
Qed.

Ltac rd_step := match goal with
    | |- bind (bind (bind (np_get ?a ?k) ?f) _) _ = _ => destruct (bind (np_get a k) f); cbn [bind]; [|reflexivity]
    | |- bind (bind (np_get ?a ?k) ?f) _ = _ => destruct (bind (np_get a k) f); cbn [bind]; [|reflexivity]
    | |- bind (np_get ?a ?k) _ = _ => destruct (np_get a k); cbn [bind]; [|reflexivity] end.

Lemma read_flag : forall to_int to_float vals lines s z z',
  (forall im b, vals (with_self_field im b) = vals im) ->
  np_get (map strip lines) 91 = Ok z -> (exists v, to_int z = Ok v) -> to_int (strip s) = Ok z' ->
  txt_input_to_machine to_int to_float vals (replace_flag lines s) =
  (' (im, tf) <- txt_input_to_machine to_int to_float vals lines ;; Ok (with_self_field im (to_bool z'), tf)).
Proof.
  intros ti tf vals lines s z z' Hv Hz [v Hi] Hs.
  destruct (Nat.eq_dec (List.length lines) 98) as [L|L].
  2:{ unfold txt_input_to_machine. unfold PARAMETER_LENGTH.
      assert (List.length (replace_flag lines s) <> 98%nat).
      { unfold replace_flag. rewrite app_length. cbn [List.length]. rewrite firstn_length, skipn_length.
        destruct (Nat.le_gt_cases (List.length lines) 91); [|lia].
        exfalso. clear - Hz H. unfold np_get in Hz. rewrite map_length in Hz. cbv zeta in Hz. change (91 <? 0)%Z with false in Hz.
        cbv iota in Hz. destruct (Z.leb_spec (Z.of_nat (List.length lines)) 91); [|lia]. discriminate Hz. }
      destruct (Z.eqb_spec (Z.of_nat (List.length lines)) 98); [lia|]. destruct (Z.eqb_spec (Z.of_nat (List.length (replace_flag lines s))) 98); [lia|].
      reflexivity. }
  assert (LR : List.length (replace_flag lines s) = 98%nat).
  { unfold replace_flag. rewrite app_length. cbn [List.length]. rewrite firstn_length, skipn_length. lia. }
  unfold txt_input_to_machine, min_max_dt. rewrite L, LR. change (negb (Z.of_nat 98 =? PARAMETER_LENGTH)%Z) with false. cbv iota zeta.
  assert (G := fun k => replace_flag_get lines s k L).
  repeat (rewrite G by (clear; lia)). rewrite replace_flag_91 by auto. repeat (rewrite G by (clear; lia)). rewrite Hz. cbn [bind]. rewrite Hi, Hs. cbn [bind].
  clear G L LR Hz.
  repeat rd_step. cbv zeta.
  match goal with |- bind (assert_machine_input ?m1) _ = bind (bind (assert_machine_input ?m2) _) _ =>
    change (assert_machine_input m1) with (assert_machine_input m2);
    change (vals m1) with (vals (with_self_field m2 (to_bool z'))); rewrite (Hv m2) end.
  destruct (assert_machine_input _); [|reflexivity]. cbn [bind]. destruct (vals _); reflexivity.
Qed.

(** C77.  Refuted: the self-field flag of the input does not switch on the
    self-fields.  Line 92 of the parameters, as long as it is a number, has no
    effect on a run. *)
Lemma C77_self_field_refuted_lem : forall to_int to_float turn_values fit find_limits sin sqrt past lines raw rp line line',
  nth_error lines 91 = Some line -> (exists z, to_int (strip line) = Ok z) -> (exists z, to_int (strip line') = Ok z) ->
  (forall m b, turn_values (with_self_field m b) = turn_values m) ->
  (forall m b tv cur wf, fit (with_self_field m b) tv cur wf = fit m tv cur wf) ->
  (forall m b tv cur, find_limits (with_self_field m b) tv cur = find_limits m tv cur) ->
  run to_int to_float turn_values fit find_limits sin sqrt past (replace_flag lines line') raw rp =
  run to_int to_float turn_values fit find_limits sin sqrt past lines raw rp.
Proof.
  intros ti tfl tvs fit fl sin sqrt past lines raw rp line line' Hl Hz [z' Hz'] Htv Hfit Hfl.
  assert (HL : np_get (map strip lines) 91 = Ok (strip line)).
  { rewrite np_get_map. assert (91 < List.length lines)%nat by (apply nth_error_Some; rewrite Hl; discriminate).
    unfold np_get. cbv zeta. change (91 <? 0)%Z with false. cbv iota. destruct (Z.leb_spec (Z.of_nat (List.length lines)) 91); [lia|].
    change (91 <? 0)%Z with false. cbn [orb]. unfold get. change (91 <? 0)%Z with false. change (Z.to_nat 91) with 91%nat. rewrite Hl. reflexivity. }
  set (b := to_bool z'). set (ws m := RMachine (with_self_field (rm_set m) b) (rm_turns m) (rm_cur m)).
  assert (R : read_machine ti tfl tvs fit (replace_flag lines line') raw =
     (' (m, wf) <- read_machine ti tfl tvs fit lines raw ;; Ok (ws m, wf))).
  { unfold read_machine.
    rewrite (read_flag ti tfl (fun m => _ <- tvs m ;; Ok tt) lines line' (strip line) z'); auto. 2:{ intros. rewrite Htv. reflexivity. }
    destruct (txt_input_to_machine _ _ _ lines) as [[im tf]|]; [|reflexivity]. cbn [bind]. rewrite Htv.
    destruct (tvs im) as [tv|]; [|reflexivity]. cbn [bind].
    destruct (to_waterfall (tf_frames tf) raw) as [wf|]; [|reflexivity]. cbn [bind].
    destruct (finite (tf_dtbin tf)) as [dt|]; [|reflexivity]. cbn [bind].
    change (im_synch_part_x (with_self_field im (to_bool z'))) with (im_synch_part_x im).
    destruct (finite (im_synch_part_x im)) as [sx|]; [|reflexivity]. cbn [bind].
    change (im_beam_ref_frame (with_self_field im (to_bool z'))) with (im_beam_ref_frame im).
    destruct (not_none (im_beam_ref_frame im) TypeError) as [br|]; [|reflexivity]. cbn [bind]. cbv zeta.
    change (im_nprofiles (with_self_field im (to_bool z'))) with (im_nprofiles im).
    change (im_nbins (with_self_field im (to_bool z'))) with (im_nbins im).
    match goal with |- context [raw_data_to_profiles wf ?n ?pm ?r dt] => destruct (raw_data_to_profiles wf n pm r dt) as [pf|]; [|reflexivity] end.
    cbn [bind]. destruct (pf_waterfall pf) as [[k w]|]; [|reflexivity]. cbn [not_none bind].
    destruct (qltb (p_synch_x (pf_machine pf)) 0); [|reflexivity]. rewrite Hfit. destruct (fit im tv (pf_machine pf) w) as [[[x y] zz]|]; reflexivity. }
  unfold run, run_parts. rewrite R. destruct (read_machine ti tfl tvs fit lines raw) as [[m wf]|]; [|reflexivity]. cbn [bind].
  change (im_filmstart (rm_set (ws m))) with (im_filmstart (rm_set m)).
  match goal with |- bind (bind ?i _) _ = _ => destruct i as [idx|]; [|reflexivity] end. cbn [bind].
  change (new_tracking (ws m)) with (new_tracking m).
  destruct (new_tracking m); [|reflexivity]. cbn [bind].
  assert (T : track_auto fl sin past (ws m) idx = track_auto fl sin past m idx).
  { unfold track_auto. cbn [ws rm_set rm_turns rm_cur]. rewrite Hfl. reflexivity. }
  rewrite T. destruct (track_auto fl sin past m idx) as [[[L dphi] den]|]; [|reflexivity]. cbn [bind].
  change (prepared (ws m) L dphi den) with (prepared m L dphi den).
  destruct (prepared m L dphi den) as [[x y]|]; [|reflexivity]. cbn [bind].
  destruct (new_tomography wf x y) as [t|]; [|reflexivity]. cbn [bind].
  change (im_niter (rm_set (ws m))) with (im_niter (rm_set m)).
  destruct (not_none (im_niter (rm_set m)) TypeError) as [ni|]; [|reflexivity]. cbn [bind].
  destruct (MRecon.run sqrt t ni) as [[[[w d] r] cl]|]; [|reflexivity]. cbn [bind].
  change (final_image (ws m) (ql_dEbin L) x y w idx) with (final_image m (ql_dEbin L) x y w idx).
  destruct (final_image m (ql_dEbin L) x y w idx); reflexivity.
Qed.

(*EX*)
Example C77_self_field_ex : exists img, nth_error C74_file 91 = Some "0"%string /\
  run C74_digit C74_float C74_turns C74_fit C74_limits (fun x => x) (fun x => x) 0 (replace_flag C74_file "1") C74_raw None = Ok img.
Proof.
  destruct C74_image_ex as (pt & ts & es & img & E & _). exists (ts, es, img). split; [reflexivity|].
  apply C74_run_of in E.
  assert (H := C77_self_field_refuted_lem C74_digit C74_float C74_turns C74_fit C74_limits (fun x => x) (fun x => x) 0 C74_file C74_raw None "0" "1").
  etransitivity; [apply H|exact E]; try reflexivity; eexists; reflexivity.
Qed.
(*XE*)

Lemma bad_safe : forall A (r : res A), no_bad_access r <-> safe r.
Proof. intros A [x|e]; unfold no_bad_access; simpl; [split; auto; split; discriminate|]. destruct e; split; auto; try tauto; try (intros [? ?]; congruence); intros; split; congruence. Qed.

(** C78.  No input makes a run read or write outside an array or loop for
    ever, if its functions on one value do not and the values at each turn and
    the limits of the area have their shapes. *)
Lemma C78_no_bad_access_lem : forall to_int to_float turn_values fit find_limits sin sqrt past,
  (forall s, no_bad_access (to_int s : res Z)) -> (forall s, no_bad_access (to_float s : res pyfloat)) ->
  (forall m, no_bad_access (turn_values m)) -> (forall m tv cur wf, no_bad_access (fit m tv cur wf)) ->
  (forall m tv cur, no_bad_access (find_limits m tv cur)) ->
  (forall m tv, turn_values m = Ok tv -> every_turn m tv) ->
  (forall m tv cur L, find_limits m tv cur = Ok L -> near_image (Z.to_nat (p_nbins cur)) L) ->
  forall lines raw rp, no_bad_access (run to_int to_float turn_values fit find_limits sin sqrt past lines raw rp).
Proof.
  intros ti tf tv ft fl sin sqrt past H1 H2 H3 H4 H5 H6 H7 lines raw rp. apply bad_safe. unfold run. apply safe_bind.
  - apply safe_run; auto; intros; apply bad_safe; auto.
  - intros [pt im] _. exact I.
Qed.

(*EX*)
(** The hypotheses hold for the small run. *)
Example C78_no_bad_access_ex : forall lines raw rp,
  no_bad_access (run C74_digit C74_float C74_turns C74_fit C74_limits (fun x => x) (fun x => x) 0 lines raw rp).
Proof.
  assert (D : forall s, no_bad_access (C74_digit s)).
  { intros s. unfold C74_digit, no_bad_access. destruct (index _ _ _); [destruct (Nat.eqb _ _)|]; split; discriminate. }
  apply C78_no_bad_access_lem; eauto using C74_every_turn, C74_near.
  - intros s. specialize (D s). unfold C74_float. destruct (C74_digit s); cbn [bind]; [split; discriminate|]. destruct D. split; congruence.
  - intros m. unfold C74_turns. destruct (im_dturns m); [|split; discriminate]. cbv zeta. destruct (_ <? 0)%Z; split; discriminate.
  - intros. split; discriminate.
  - intros. unfold C74_limits. destruct (_ =? _)%Z; split; discriminate.
Qed.
(*XE*)

(** C79.  The functions of the module of shortcuts, called one after the
    other, do the same as a run. *)
Lemma C79_shortcuts_lem : forall to_int to_float turn_values fit find_limits sin sqrt past lines raw rp,
  run to_int to_float turn_values fit find_limits sin sqrt past lines raw rp =
  (' (m, wf) <- read_machine to_int to_float turn_values fit lines raw ;;
   idx <- match rp with None => not_none (im_filmstart (rm_set m)) TypeError | Some i => Ok i end ;;
   ' (lim, x, y) <- shortcut_track find_limits sin past m (Some idx) ;;
   niter <- (_ <- new_tomography wf x y ;; not_none (im_niter (rm_set m)) TypeError) ;;
   ' (_, weight) <- shortcut_tomogram sqrt wf x y niter ;;
   final_image m (ql_dEbin lim) x y weight idx).
Proof.
  intros ti tfl tvs fit fl sin sqrt past lines raw rp. unfold run, run_parts, shortcut_track, shortcut_tomogram.
  destruct (read_machine ti tfl tvs fit lines raw) as [[m wf]|]; [|reflexivity]. cbn [bind].
  match goal with |- bind (bind ?i _) _ = _ => destruct i as [idx|]; [|reflexivity] end. cbn [bind].
  destruct (new_tracking m); [|reflexivity]. cbn [bind].
  destruct (track_auto fl sin past m idx) as [[[L dphi] den]|]; [|reflexivity]. cbn [bind].
  destruct (prepared m L dphi den) as [[x y]|]; [|reflexivity]. cbn [bind].
  destruct (new_tomography wf x y) as [t|]; [|reflexivity]. cbn [bind].
  destruct (not_none (im_niter (rm_set m)) TypeError) as [ni|]; [|reflexivity]. cbn [bind].
  destruct (MRecon.run sqrt t ni) as [[[[w d] r] cl]|]; [|reflexivity]. cbn [bind].
  destruct (final_image m (ql_dEbin L) x y w idx); reflexivity.
Qed.

(*EX*)
Example C79_shortcuts_ex :
  match read_machine C74_digit C74_float C74_turns C74_fit C74_file C74_raw with
  | Ok (m, wf) => match shortcut_track C74_limits (fun x => x) 0 m (Some 0%Z) with
      | Ok (lim, x, y) => match shortcut_tomogram (fun x => x) wf x y 2 with Ok (t, w) => List.length w = 12%nat | _ => False end
      | _ => False end
  | _ => False end.
Proof. vm_compute. reflexivity. Qed.
(*XE*)

(** C79.  Refuted: the default argument of the shortcut for tracking.  It is
    never accepted. *)
Lemma C79_default_refuted_lem : forall find_limits sin past m r, shortcut_track find_limits sin past m None <> Ok r.
Proof. intros. unfold shortcut_track. destruct (new_tracking m); discriminate. Qed.

(** C80.  Without a number of a profile a run reconstructs the first profile
    of the film. *)
Lemma C80_default_lem : forall to_int to_float turn_values fit find_limits sin sqrt past lines raw m wf f,
  read_machine to_int to_float turn_values fit lines raw = Ok (m, wf) -> im_filmstart (rm_set m) = Some f ->
  run to_int to_float turn_values fit find_limits sin sqrt past lines raw None =
  run to_int to_float turn_values fit find_limits sin sqrt past lines raw (Some f).
Proof. intros ti tf tv ft fl sin sqrt past lines raw m wf f E F. unfold run, run_parts. rewrite E. cbn [bind]. rewrite F. reflexivity. Qed.

(*EX*)
Example C80_default_ex :
  match read_machine C74_digit C74_float C74_turns C74_fit C74_file C74_raw with
  | Ok (m, wf) => im_filmstart (rm_set m) = Some 0%Z
  | _ => False end.
Proof. vm_compute. reflexivity. Qed.
(*XE*)

(** C80.  A profile may be counted from the end: with n profiles, p - n is the
    same as p. *)
Lemma C80_from_the_end_lem : forall to_int to_float turn_values fit find_limits sin sqrt past lines raw p pt image,
  run_parts to_int to_float turn_values fit find_limits sin sqrt past lines raw (Some (Z.of_nat p)) = Ok (pt, image) ->
  let m := pt_machine pt in
  every_turn (rm_set m) (rm_turns m) -> near_image (Z.to_nat (p_nbins (rm_cur m))) (pt_limits pt) ->
  run to_int to_float turn_values fit find_limits sin sqrt past lines raw (Some (Z.of_nat p - im_nprofiles (rm_set m))%Z) = Ok image.
Proof.
  intros ti tf tvs ft fl sin sqrt past lines raw p pt image E. cbv zeta. intros ET NI. assert (II := run_near _ _ _ _ _ _ _ _ _ _ _ _ _ E ET NI). unfold run_parts in E.
  apply bind_ok in E. destruct E as [[m wf] [E1 E]]. cbn [bind] in E.
  apply bind_ok in E. destruct E as [[] [E3 E]].
  apply bind_ok in E. destruct E as [[[L dphi] den] [E4 E]].
  apply bind_ok in E. destruct E as [[x y] [E5 E]].
  apply bind_ok in E. destruct E as [t [E6 E]].
  apply bind_ok in E. destruct E as [niter [E7 E]].
  apply bind_ok in E. destruct E as [[[[w dis] rr] calls] [E8 E]].
  apply bind_ok in E. destruct E as [im [E9 E]]. injection E as <- ->.
  cbn [pt_machine pt_limits] in *.
  destruct (read_machine_ok ti tf tvs ft fl sin sqrt _ _ _ _ E1) as (_ & _ & n & k & M).
  rewrite (mo_nbins _ _ _ _ M), Nat2Z.id in II.
  destruct (coords_ok fl sin sqrt past _ _ _ _ _ _ _ _ _ _ M ET II E4 E5) as (s & p' & c & keep & S & Hd & Hs & Hp & PN & FL & SP & AR & SI & K1 & FIX &
    Ex' & Ey' & KP & Rx & Ry & CX & CY & IX & IY).
  assert (p' = p) by (destruct PN as [PL [PE|PE]]; lia). subst p'.
  assert (PN' : profile_number n (Z.of_nat p - Z.of_nat n) p) by (split; [lia|auto]).
  rewrite (mo_set _ _ _ _ M). unfold run, run_parts. rewrite E1. cbn [bind]. rewrite E3. cbn [bind].
  assert (T : track_auto fl sin past m (Z.of_nat p - Z.of_nat n) = track_auto fl sin past m (Z.of_nat p)).
  { unfold track_auto. destruct (not_none (im_dturns (rm_set m)) TypeError) as [a|]; [|reflexivity]. cbn [bind].
    assert (TC : track_checks (p_nprofiles (rm_cur m)) a (Z.of_nat p - Z.of_nat n) 0 = track_checks (p_nprofiles (rm_cur m)) a (Z.of_nat p) 0).
    { unfold track_checks, assert_index_ok. rewrite (mo_nprofs _ _ _ _ M).
      destruct (Z.ltb_spec (Z.of_nat p - Z.of_nat n) 0); [|lia]. destruct (Z.ltb_spec (Z.of_nat p) 0); [lia|]. cbn [negb].
      replace (Z.of_nat n + (Z.of_nat p - Z.of_nat n))%Z with (Z.of_nat p) by lia.
      destruct (Z.ltb_spec (Z.of_nat p) 0); [lia|]. destruct (Z.leb_spec (Z.of_nat n) (Z.of_nat p)); [lia|]. reflexivity. }
    rewrite TC. reflexivity. }
  rewrite T, E4. cbn [bind]. rewrite E5. cbn [bind]. rewrite E6. cbn [bind]. rewrite E7. cbn [bind]. rewrite E8. cbn [bind].
  assert (F : final_image m (ql_dEbin L) x y w (Z.of_nat p - Z.of_nat n) = final_image m (ql_dEbin L) x y w (Z.of_nat p)).
  { unfold final_image. rewrite !(np_col sin sqrt past _ _ _ _ _ Rx PN'), !(np_col sin sqrt past _ _ _ _ _ Ry PN'), !(np_col sin sqrt past _ _ _ _ _ Rx PN), !(np_col sin sqrt past _ _ _ _ _ Ry PN). reflexivity. }
  rewrite F, E9. reflexivity.
Qed.

(*EX*)
Example C80_from_the_end_ex :
  match C74_run (Some 1%Z) with
  | Ok (pt, image) => im_nprofiles (rm_set (pt_machine pt)) = 3%Z /\ qltb 0 (cell (snd image) 10 9) = true
  | _ => False end.
Proof. vm_compute. split; reflexivity. Qed.
(*XE*)

(** C80.  Refuted: every profile can be reconstructed.  The last one cannot. *)
Lemma C80_last_refuted_lem : forall to_int to_float turn_values fit find_limits sin sqrt past lines raw r,
  run to_int to_float turn_values fit find_limits sin sqrt past lines raw (Some (-1)%Z) <> Ok r.
Proof.
  intros ti tf tvs ft fl sin sqrt past lines raw r E. unfold run, run_parts in E.
  apply bind_ok in E. destruct E as [pt' [E _]].
  apply bind_ok in E. destruct E as [[m wf] [E1 E]]. cbn [bind] in E.
  apply bind_ok in E. destruct E as [[] [E3 E]].
  apply bind_ok in E. destruct E as [[[L dphi] den] [E4 E]]. clear E. unfold track_auto in E4.
  apply bind_ok in E4. destruct E4 as [d [D E4]]. apply bind_ok in E4. destruct E4 as [p [T _]].
  unfold track_checks in T. apply bind_ok in T. destruct T as [q [A T]]. unfold assert_index_ok in A. change (-1 <? 0)%Z with true in A. cbn [negb] in A.
  destruct (Z.ltb_spec (p_nprofiles (rm_cur m) + -1) 0); [discriminate|]. injection A as <-.
  destruct (Z.abs 0 <? d)%Z; [|discriminate]. cbn [negb] in T.
  destruct (Z.ltb_spec (d * (p_nprofiles (rm_cur m) + -1) + 0) (d * (p_nprofiles (rm_cur m) - 1))); [lia|discriminate].
Qed.

(** C80.  The reconstruction area does not depend on the profile to be
    reconstructed (it is computed for the first profile of the film). *)
Lemma C80_area_lem : forall to_int to_float turn_values fit find_limits sin sqrt past lines raw p q r r',
  run_parts to_int to_float turn_values fit find_limits sin sqrt past lines raw p = Ok r ->
  run_parts to_int to_float turn_values fit find_limits sin sqrt past lines raw q = Ok r' ->
  pt_limits (fst r) = pt_limits (fst r').
Proof.
  assert (H : forall to_int to_float turn_values fit find_limits sin sqrt past lines raw p r,
    run_parts to_int to_float turn_values fit find_limits sin sqrt past lines raw p = Ok r ->
    exists m wf, read_machine to_int to_float turn_values fit lines raw = Ok (m, wf) /\     find_limits (rm_set m) (rm_turns m) (rm_cur m) = Ok (pt_limits (fst r))).
  { intros ti tf tvs ft fl sin sqrt past lines raw p r E. unfold run_parts in E.
    apply bind_ok in E. destruct E as [[m wf] [E1 E]].
    apply bind_ok in E. destruct E as [idx [E2 E]].
    apply bind_ok in E. destruct E as [[] [E3 E]].
    apply bind_ok in E. destruct E as [[[L dphi] den] [E4 E]].
    apply bind_ok in E. destruct E as [[x y] [E5 E]].
    apply bind_ok in E. destruct E as [t [E6 E]].
    apply bind_ok in E. destruct E as [niter [E7 E]].
    apply bind_ok in E. destruct E as [[[[w dis] rr] calls] [E8 E]].
    apply bind_ok in E. destruct E as [im [E9 E]]. injection E as <-. exists m, wf. split; auto. cbn [fst pt_limits].
    unfold track_auto in E4. apply bind_ok in E4. destruct E4 as [d [_ E4]]. apply bind_ok in E4. destruct E4 as [pp [_ E4]].
    apply bind_ok in E4. destruct E4 as [l [EL E4]].
    apply bind_ok in E4. destruct E4 as [sn [_ E4]]. apply bind_ok in E4. destruct E4 as [cm [_ E4]].
    apply bind_ok in E4. destruct E4 as [[dp de] [_ E4]]. apply bind_ok in E4. destruct E4 as [tm [_ E4]].
    apply bind_ok in E4. destruct E4 as [st [_ E4]]. injection E4 as <- _ _. exact EL. }
  intros ti tf tvs ft fl sin sqrt past lines raw p q r r' A B.
  destruct (H _ _ _ _ _ _ _ _ _ _ _ _ A) as (m & wf & R & L). destruct (H _ _ _ _ _ _ _ _ _ _ _ _ B) as (m' & wf' & R' & L').
  rewrite R in R'. injection R' as <- <-. congruence.
Qed.

(*EX*)
Example C80_area_ex : exists r r', C74_run (Some 0%Z) = Ok r /\ C74_run (Some 1%Z) = Ok r'.
Proof.
  assert (Q : match C74_run (Some 0%Z) with Ok _ => true | _ => false end = true) by (vm_compute; reflexivity).
  assert (Q' : match C74_run (Some 1%Z) with Ok _ => true | _ => false end = true) by (vm_compute; reflexivity).
  destruct (C74_run (Some 0%Z)) as [r|]; [|discriminate Q]. destruct (C74_run (Some 1%Z)) as [r'|]; [|discriminate Q'].
  exists r, r'. split; reflexivity.
Qed.
(*XE*)
