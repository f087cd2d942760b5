(** Proofs on the self-fields of a Profiles object and their use in tracking. *)
(*HEAD*)
From Coq Require Import Reals List ZArith Bool Lia Lra.
From Verif Require Import Base.Res Model.MObjects Spec.ObjectSpec.
Import ListNotations.
Local Open Scope R_scope.
(*DAEH*)
From Verif Require Import Base.ResLemmas.

Section Facts.
Context {M P F : Type} (nprofiles : M -> nat) (set_nbins : M -> nat -> M) (standard : list (list R) -> list (list R))
  (wrap : M -> res P) (field : M -> list (list R) -> P -> R -> res F).
Notation calc := (calc_self_fields standard wrap field).
Notation stp := (do_step nprofiles set_nbins standard wrap field).
Notation sts := (steps nprofiles set_nbins standard wrap field).
Implicit Types p : fprofiles M P F.

Lemma check_spec : forall p w, (shape w = shape (fp_waterfall p) /\ check_filtered M P F p w = Ok w) \/
  (shape w <> shape (fp_waterfall p) /\ check_filtered M P F p w = Fail (Raised FilteredProfilesError)).
Proof.
  intros p w. unfold check_filtered. destruct (shape w) as [a b], (shape (fp_waterfall p)) as [c d]. cbn [fst snd].
  destruct (Nat.eqb_spec a c), (Nat.eqb_spec b d); cbn; [left|right|right|right]; split; auto; congruence.
Qed.
Lemma calc_cases : forall p a,
  (fp_charge p = None /\ calc p a = (p, Fail (Raised ProfileChargeNotCalculated))) \/
  (exists w f, fields_of standard wrap field p a w f /\
     calc p a = (FProfiles (fp_m p) (fp_waterfall p) (fp_charge p) (Some (filtered standard a (fp_waterfall p))) (Some w) (Some f), Ok tt)) \/
  (exists p' e, calc p a = (p', Fail e) /\ fp_m p' = fp_m p /\ fp_waterfall p' = fp_waterfall p /\ fp_charge p' = fp_charge p /\ fp_vself p' = fp_vself p /\
     (fp_wrap p' = fp_wrap p \/ exists w, wrap (fp_m p) = Ok w /\ fp_wrap p' = Some w)).
Proof.
  intros p a. unfold calc_self_fields. destruct (fp_charge p) as [c|] eqn:C; [right|left; auto]. cbv zeta.
  assert (Fin : forall w, w = filtered standard a (fp_waterfall p) -> let r :=
    match wrap (fp_m (set_ds M P F p w)) with
    | Ok ph => match field (fp_m (FProfiles (fp_m (set_ds M P F p w)) (fp_waterfall (set_ds M P F p w)) (fp_charge (set_ds M P F p w)) (fp_ds (set_ds M P F p w)) (Some ph) (fp_vself (set_ds M P F p w)))) w ph c with
      | Ok f => (FProfiles (fp_m p) (fp_waterfall p) (fp_charge p) (Some w) (Some ph) (Some f), Ok tt)
      | Fail e => (FProfiles (fp_m p) (fp_waterfall p) (fp_charge p) (Some w) (Some ph) (fp_vself p), Fail e) end
    | Fail e => (set_ds M P F p w, Fail e) end in
    (exists w f, fields_of standard wrap field p a w f /\
     r = (FProfiles (fp_m p) (fp_waterfall p) (Some c) (Some (filtered standard a (fp_waterfall p))) (Some w) (Some f), Ok tt)) \/
    (exists p' e, r = (p', Fail e) /\ fp_m p' = fp_m p /\ fp_waterfall p' = fp_waterfall p /\ fp_charge p' = Some c /\ fp_vself p' = fp_vself p /\
     (fp_wrap p' = fp_wrap p \/ exists w, wrap (fp_m p) = Ok w /\ fp_wrap p' = Some w))).
  { intros w Ew. cbn [set_ds fp_m fp_waterfall fp_charge fp_ds fp_vself]. destruct (wrap (fp_m p)) as [ph|e] eqn:W.
    - destruct (field (fp_m p) w ph c) as [f|e] eqn:Ef.
      + left. exists ph, f. subst w. split; [exists c; auto|]. rewrite C. reflexivity.
      + right. eexists. exists e. split; [reflexivity|]. cbn. eauto 10.
    - right. eexists. exists e. split; [reflexivity|]. cbn. auto 10. }
  destruct a as [w|f|]; cbn [filtered] in Fin.
  - destruct (check_spec p w) as [[_ ->]|[_ ->]]; [apply (Fin w eq_refl)|]. right. exists p. eexists. split; [reflexivity|]. auto 10.
  - destruct (check_spec p (f (fp_waterfall p))) as [[_ ->]|[_ ->]]; [apply (Fin _ eq_refl)|]. right. eexists. eexists. split; [reflexivity|]. cbn. auto 10.
  - apply (Fin _ eq_refl).
Qed.
Lemma calc_ok : forall p a, snd (calc p a) = Ok tt -> exists w f, fields_of standard wrap field p a w f /\
  fst (calc p a) = FProfiles (fp_m p) (fp_waterfall p) (fp_charge p) (Some (filtered standard a (fp_waterfall p))) (Some w) (Some f).
Proof.
  intros p a H. destruct (calc_cases p a) as [[_ E]|[(w & f & G & E)|(p' & e & E & _)]]; rewrite E in *; try discriminate. exists w, f. auto.
Qed.
Lemma set_keep : forall p w, let p' := fst (set_waterfall nprofiles set_nbins p w) in fp_wrap p' = fp_wrap p /\ fp_vself p' = fp_vself p.
Proof. intros p w. unfold set_waterfall. destruct (Nat.eqb _ _); [|auto]. cbv zeta. destruct (Req_EM_T _ 0); auto. Qed.

Lemma sts_snoc : forall p l a, sts p (l ++ [a]) = stp (sts p l) a.
Proof. intros. unfold steps. rewrite fold_left_app. reflexivity. Qed.
Lemma sts_app : forall p l l2, sts p (l ++ l2) = fold_left stp l2 (sts p l).
Proof. intros. unfold steps. apply fold_left_app. Qed.
Lemma calculated_snoc : forall p l a, fields_calculated nprofiles set_nbins standard wrap field p (l ++ [a]) <->
  fields_calculated nprofiles set_nbins standard wrap field p l \/ (exists b, a = CalcFields b /\ snd (calc (fst (sts p l)) b) = Ok tt).
Proof.
  intros. split.
  - intros (l1 & b & l2 & E & H). destruct l2 as [|d l2 _] using rev_ind.
    + apply app_inj_tail in E. destruct E as [<- ->]. right. eauto.
    + left. change (l ++ [a] = l1 ++ (CalcFields b :: l2) ++ [d])%list in E. rewrite app_assoc in E. apply app_inj_tail in E. destruct E as [-> _].
      exists l1, b, l2. auto.
  - intros [(l1 & b & l2 & -> & H)|(b & -> & H)].
    + exists l1, b, (l2 ++ [a])%list. rewrite <- app_assoc. auto.
    + exists l, b, []. auto.
Qed.
(** The last successful calculation gave the fields of the object. *)
Lemma object_inv : forall p l, no_fields p -> let q := fst (sts p l) in
  (fields_calculated nprofiles set_nbins standard wrap field p l <-> fp_vself q <> None) /\ (fp_vself q <> None -> fp_wrap q <> None) /\
  (forall f, fp_vself q = Some f -> exists l1 a l2 w, l = (l1 ++ CalcFields a :: l2)%list /\ fields_of standard wrap field (fst (sts p l1)) a w f).
Proof.
  intros p l (N1 & N2 & N3). cbv zeta. induction l as [|a l (I1 & I2 & I3)] using rev_ind.
  - cbn. rewrite N3. split; [split; [intros (l1 & b & l2 & E & _); destruct l1; discriminate|congruence]|]. split; [congruence|discriminate].
  - rewrite calculated_snoc, sts_snoc. destruct (sts p l) as [q t] eqn:Q. cbn [fst] in I1, I2, I3.
    assert (App : forall f, (exists l1 a l2 w, l = (l1 ++ CalcFields a :: l2)%list /\ fields_of standard wrap field (fst (sts p l1)) a w f) ->
      exists l1 a0 l2 w, (l ++ [a] = l1 ++ CalcFields a0 :: l2)%list /\ fields_of standard wrap field (fst (sts p l1)) a0 w f).
    { intros f (l1 & b & l2 & w & -> & G). exists l1, b, (l2 ++ [a])%list, w. rewrite <- app_assoc. auto. }
    assert (Same : forall q' : fprofiles M P F, fp_vself q' = fp_vself q -> (fp_vself q <> None -> fp_wrap q' <> None) -> (forall b, a <> CalcFields b) ->
      (fields_calculated nprofiles set_nbins standard wrap field p l \/ (exists b, a = CalcFields b /\ snd (calc q b) = Ok tt) <-> fp_vself q' <> None) /\
      (fp_vself q' <> None -> fp_wrap q' <> None) /\
      (forall f, fp_vself q' = Some f -> exists l1 a0 l2 w, (l ++ [a] = l1 ++ CalcFields a0 :: l2)%list /\ fields_of standard wrap field (fst (sts p l1)) a0 w f)).
    { intros q' E1 E2 Na. rewrite E1. split; [|split; [auto|intros f Hf; apply App, I3; auto]].
      rewrite <- I1. split; [intros [H|(b & H & _)]; [auto|exfalso; apply (Na b); auto]|auto]. }
    destruct a as [w|c|m|b| |c]; cbn [do_step fst].
    + destruct (set_keep q w) as [S1 S2]. apply Same; [auto|rewrite S1; auto|discriminate].
    + apply Same; [auto|auto|discriminate].
    + apply Same; [auto|auto|discriminate].
    + destruct (calc_cases q b) as [[_ E]|[(w & f & G & E)|(p' & e & E & _ & _ & _ & V & W)]]; rewrite E; cbn [fst].
      * split; [|split; [auto|intros f Hf; apply App, I3; auto]]. rewrite <- I1. split; [intros [H|(d & H & G)]; [auto|]|auto].
        injection H as <-. rewrite E in G. discriminate.
      * cbn [fp_vself fp_wrap]. split; [split; [discriminate|intros _; right; exists b; rewrite E; auto]|]. split; [discriminate|]. intros g Hg. injection Hg as <-.
        exists l, b, [], w. rewrite Q. auto.
      * rewrite V. split; [|split; [|intros f Hf; apply App, I3; auto]].
        -- rewrite <- I1. split; [intros [H|(d & H & G)]; [auto|]|auto]. injection H as <-. rewrite E in G. discriminate.
        -- destruct W as [->|(w & _ & ->)]; [auto|discriminate].
    + apply Same; [auto|auto|discriminate].
    + apply Same; [auto|auto|discriminate].
Qed.
(** The fields used are those the object had when they were enabled. *)
Lemma tracker_inv : forall p l, let t := snd (sts p l) in
  (tk_flag t = false -> tk_wrap t = None /\ tk_vself t = None) /\
  (tk_flag t = true -> exists l1 l2 w f, l = (l1 ++ EnableFields :: l2)%list /\ fp_wrap (fst (sts p l1)) = Some w /\ fp_vself (fst (sts p l1)) = Some f /\
     tk_wrap t = Some w /\ tk_vself t = Some f).
Proof.
  intros p l. cbv zeta. induction l as [|a l [I1 I2]] using rev_ind; [cbn; split; [auto|discriminate]|].
  rewrite sts_snoc. destruct (sts p l) as [q t] eqn:Q. cbn [snd] in I1, I2.
  assert (App : tk_flag t = true -> exists l1 l2 w f, (l ++ [a] = l1 ++ EnableFields :: l2)%list /\ fp_wrap (fst (sts p l1)) = Some w /\ fp_vself (fst (sts p l1)) = Some f /\
     tk_wrap t = Some w /\ tk_vself t = Some f).
  { intros H. destruct (I2 H) as (l1 & l2 & w & f & -> & G). exists l1, (l2 ++ [a])%list, w, f. rewrite <- app_assoc. auto. }
  destruct a as [w|c|m|b| |c]; cbn [do_step snd]; try (split; [exact I1|exact App]).
  - unfold enable_self_fields. destruct (fp_wrap q) as [w|] eqn:W; [destruct (fp_vself q) as [f|] eqn:V|]; cbn [fst]; try (split; [exact I1|exact App]).
    split; [discriminate|]. intros _. exists l, [], w, f. rewrite Q. auto.
  - unfold enable_fortran_output. destruct c; cbn [fst]; [|split; [exact I1|exact App]]. split; [exact I1|exact App].
Qed.
End Facts.

(** C96.  Self-fields can be enabled for tracking exactly when they have been
    calculated at some point; otherwise it is refused and nothing changes. *)
Lemma C96_enabled_iff_lem : forall M P F nprofiles set_nbins standard wrap field (p : fprofiles M P F) l t, no_fields p ->
  let q := fst (steps nprofiles set_nbins standard wrap field p l) in
  (fields_calculated nprofiles set_nbins standard wrap field p l -> snd (enable_self_fields t q) = Ok tt) /\
  (~ fields_calculated nprofiles set_nbins standard wrap field p l -> enable_self_fields t q = (t, Fail (Raised SelfFieldTrackingError))).
Proof.
  intros M P F nprofiles set_nbins standard wrap field p l t N q. destruct (object_inv nprofiles set_nbins standard wrap field p l N) as (I1 & I2 & _).
  fold q in I1, I2. unfold enable_self_fields. split.
  - intros H. apply I1 in H. assert (W := I2 H). destruct (fp_wrap q), (fp_vself q); try reflexivity; congruence.
  - intros H. destruct (fp_vself q) as [f|] eqn:V; [exfalso; apply H, I1; discriminate|]. destruct (fp_wrap q); reflexivity.
Qed.

(** C96.  Fields enabled directly after their calculation are those of the
    profiles, the charge and the machine at that time. *)
Lemma C96_current_partial_lem : forall M P F nprofiles set_nbins standard wrap field (p : fprofiles M P F) l a,
  let q := fst (steps nprofiles set_nbins standard wrap field p l) in
  let t := snd (steps nprofiles set_nbins standard wrap field p (l ++ [CalcFields a; EnableFields])) in
  snd (calc_self_fields standard wrap field q a) = Ok tt ->
  tk_flag t = true /\ exists w f, tk_wrap t = Some w /\ tk_vself t = Some f /\ fields_of standard wrap field q a w f.
Proof.
  intros M P F nprofiles set_nbins standard wrap field p l a q t H.
  assert (E : t = fst (enable_self_fields (snd (steps nprofiles set_nbins standard wrap field p l)) (fst (calc_self_fields standard wrap field q a)))).
  { unfold t, q. rewrite sts_app. destruct (steps nprofiles set_nbins standard wrap field p l) as [q0 t0]. reflexivity. }
  destruct (calc_ok standard wrap field q a H) as (w & f & G & Ec). rewrite E, Ec. cbn. split; auto. exists w, f. auto.
Qed.

(** C96.  Whatever was done before: self-fields used in tracking were
    calculated by a call of calc_self_fields, from the profiles, charge and
    machine of that time. *)
Lemma C96_origin_lem : forall M P F nprofiles set_nbins standard wrap field (p : fprofiles M P F) l, no_fields p ->
  let t := snd (steps nprofiles set_nbins standard wrap field p l) in
  (tk_flag t = false -> tk_vself t = None) /\
  (tk_flag t = true -> exists l1 a l2 w f, l = (l1 ++ CalcFields a :: l2)%list /\ tk_vself t = Some f /\
     fields_of standard wrap field (fst (steps nprofiles set_nbins standard wrap field p l1)) a w f).
Proof.
  intros M P F nprofiles set_nbins standard wrap field p l N t. destruct (tracker_inv nprofiles set_nbins standard wrap field p l) as [I1 I2].
  fold t in I1, I2. split; [intros H; apply I1; auto|]. intros H. destruct (I2 H) as (l1 & l2 & w & f & -> & _ & V & _ & Tv).
  destruct (object_inv nprofiles set_nbins standard wrap field p l1 N) as (_ & _ & I3). destruct (I3 f V) as (k1 & a & k2 & w' & -> & G).
  exists k1, a, (k2 ++ EnableFields :: l2)%list, w', f. rewrite <- app_assoc. auto.
Qed.

(** C96.  Refused calculations: without a charge, or with given profiles of
    another shape, the object stays as it was. *)
Lemma C96_refused_lem : forall M P F standard wrap field (p : fprofiles M P F) a,
  (fp_charge p = None -> calc_self_fields standard wrap field p a = (p, Fail (Raised ProfileChargeNotCalculated))) /\
  (forall w, fp_charge p <> None -> shape w <> shape (fp_waterfall p) ->
     calc_self_fields standard wrap field p (Manual w) = (p, Fail (Raised FilteredProfilesError))).
Proof.
  intros M P F standard wrap field p a. unfold calc_self_fields. split; [intros ->; auto|]. intros w C S. destruct (fp_charge p); [|congruence].
  destruct (check_spec p w) as [[E _]|[_ ->]]; [contradiction|reflexivity].
Qed.

(** C96.  Nothing disables self-fields or the Fortran output again. *)
Lemma C96_never_disabled_lem : forall M P F nprofiles set_nbins standard wrap field (p : fprofiles M P F) l1 l2,
  let t1 := snd (steps nprofiles set_nbins standard wrap field p l1) in
  let t2 := snd (steps nprofiles set_nbins standard wrap field p (l1 ++ l2)) in
  (tk_flag t1 = true -> tk_flag t2 = true) /\ (tk_ftn t1 <> None -> tk_ftn t2 <> None).
Proof.
  intros M P F nprofiles set_nbins standard wrap field p l1 l2. cbv zeta. induction l2 as [|a l2 IH] using rev_ind; [rewrite app_nil_r; auto|].
  rewrite app_assoc, sts_snoc. destruct (steps nprofiles set_nbins standard wrap field p (l1 ++ l2)) as [q t]. cbn [snd] in IH.
  destruct a as [w|c|m|b| |c]; cbn [do_step snd]; auto.
  - unfold enable_self_fields. destruct (fp_wrap q); [destruct (fp_vself q)|]; cbn; auto. split; [auto|apply IH].
  - unfold enable_fortran_output. destruct c; cbn; auto. split; [apply IH|discriminate].
Qed.

(** C96.  Whatever is done with the objects, the stored profiles are never
    negative: an accepted waterfall is stored with its negative values replaced
    by 0, and no other step changes them. *)
Lemma C96_never_negative_lem : forall M P F nprofiles set_nbins standard wrap field (p : fprofiles M P F) l,
  never_negative (fp_waterfall p) ->
  let q := fst (steps nprofiles set_nbins standard wrap field p l) in
  never_negative (fp_waterfall q) /\
  (forall w, snd (set_waterfall nprofiles set_nbins q w) = Ok tt -> fp_waterfall (fst (set_waterfall nprofiles set_nbins q w)) = map (map (Rmax 0)) w) /\
  (forall a, (forall w, a <> SetWaterfall w) -> fp_waterfall (fst (steps nprofiles set_nbins standard wrap field p (l ++ [a]))) = fp_waterfall q).
Proof.
  assert (Clip : forall w, clip0 w = map (map (Rmax 0)) w).
  { intros w. unfold clip0. apply map_ext. intros r. apply map_ext. intros x. destruct (Rlt_dec x 0); [rewrite Rmax_left|rewrite Rmax_right]; lra. }
  assert (Pos : forall w, never_negative (map (map (Rmax 0)) w)).
  { intros w r Hr x Hx. apply in_map_iff in Hr. destruct Hr as (s & <- & _). apply in_map_iff in Hx. destruct Hx as (y & <- & _). apply Rmax_l. }
  intros M P F nprofiles set_nbins standard wrap field p l N. cbv zeta.
  assert (Other : forall l a, (forall w, a <> SetWaterfall w) -> fp_waterfall (fst (steps nprofiles set_nbins standard wrap field p (l ++ [a]))) =
    fp_waterfall (fst (steps nprofiles set_nbins standard wrap field p l))).
  { clear l. intros l a Na. rewrite sts_snoc. destruct (steps nprofiles set_nbins standard wrap field p l) as [q t].
    destruct a as [w|c|m|b| |c]; cbn [do_step fst]; try reflexivity; [exfalso; apply (Na w); reflexivity|].
    destruct (calc_cases standard wrap field q b) as [[_ E]|[(w & f & G & E)|(p' & e & E & _ & W & _)]]; rewrite E; auto. }
  split; [|split; [|intros a Na; apply Other; exact Na]].
  - induction l as [|a l IH] using rev_ind; [exact N|]. assert (D : (exists w, a = SetWaterfall w) \/ forall w, a <> SetWaterfall w).
    { destruct a; [left; eauto|right; discriminate..]. }
    destruct D as [[w ->]|D]; [|rewrite Other by exact D; exact IH]. rewrite sts_snoc.
    destruct (steps nprofiles set_nbins standard wrap field p l) as [q t]. cbn [do_step fst] in *. unfold set_waterfall.
    destruct (Nat.eqb _ _); [|exact IH]. cbv zeta. rewrite Clip. destruct (Req_EM_T _ 0); apply Pos.
  - intros w. unfold set_waterfall. destruct (Nat.eqb _ _); [|discriminate]. cbv zeta. rewrite Clip. destruct (Req_EM_T _ 0); [discriminate|reflexivity].
Qed.

(** C96.  Refuted: other profiles or another machine after the calculation.
    The fields of the old ones are enabled without notice. *)
Lemma C96_stale_refuted_lem : forall M P F nprofiles set_nbins standard wrap field (p : fprofiles M P F) l a w' m',
  let q := fst (steps nprofiles set_nbins standard wrap field p l) in
  let s := steps nprofiles set_nbins standard wrap field p (l ++ [CalcFields a; SetWaterfall w'; SetMachine m'; EnableFields]) in
  snd (calc_self_fields standard wrap field q a) = Ok tt ->
  fp_m (fst s) = m' /\ tk_flag (snd s) = true /\
  exists w f, tk_wrap (snd s) = Some w /\ tk_vself (snd s) = Some f /\ fields_of standard wrap field q a w f.
Proof.
  intros M P F nprofiles set_nbins standard wrap field p l a w' m' q s H.
  set (c := fst (calc_self_fields standard wrap field q a)). set (c2 := fst (set_waterfall nprofiles set_nbins c w')).
  set (c3 := FProfiles m' (fp_waterfall c2) (fp_charge c2) (fp_ds c2) (fp_wrap c2) (fp_vself c2)).
  assert (E : s = (c3, fst (enable_self_fields (snd (steps nprofiles set_nbins standard wrap field p l)) c3))).
  { unfold s, c3, c2, c, q. rewrite sts_app. destruct (steps nprofiles set_nbins standard wrap field p l) as [q0 t0]. reflexivity. }
  destruct (calc_ok standard wrap field q a H) as (w & f & G & Ec). fold c in Ec.
  destruct (set_keep nprofiles set_nbins c w') as [S1 S2]. fold c2 in S1, S2. rewrite Ec in S1, S2. cbn in S1, S2.
  rewrite E. cbn [fst snd]. split; [reflexivity|]. unfold c3, enable_self_fields. cbn [fp_wrap fp_vself]. rewrite S1, S2. cbn. split; auto. exists w, f. auto.
Qed.

(** C96.  Refuted: a filter whose result has another shape is refused, but its
    result has replaced the filtered profiles of the object. *)
Lemma C96_filter_refuted_lem : forall M P F standard wrap field (p : fprofiles M P F) f, fp_charge p <> None ->
  shape (f (fp_waterfall p)) <> shape (fp_waterfall p) ->
  let r := calc_self_fields standard wrap field p (Filter f) in
  snd r = Fail (Raised FilteredProfilesError) /\ fp_ds (fst r) = Some (f (fp_waterfall p)) /\ fp_vself (fst r) = fp_vself p.
Proof.
  intros M P F standard wrap field p f C S. unfold calc_self_fields. destruct (fp_charge p); [|congruence]. cbv zeta.
  destruct (check_spec p (f (fp_waterfall p))) as [[E _]|[_ ->]]; [contradiction|cbn; auto].
Qed.

(** C96.  Refuted: a calculation that fails after the window was found.  The
    new window is enabled together with the old fields. *)
Lemma C96_window_refuted_lem : forall M P F nprofiles set_nbins standard wrap field (p : fprofiles M P F) l a m' b c w' e,
  let q := fst (steps nprofiles set_nbins standard wrap field p l) in
  let s := steps nprofiles set_nbins standard wrap field p (l ++ [CalcFields a; SetMachine m'; CalcFields b; EnableFields]) in
  snd (calc_self_fields standard wrap field q a) = Ok tt -> fp_charge q = Some c ->
  shape (filtered standard b (fp_waterfall q)) = shape (fp_waterfall q) ->
  wrap m' = Ok w' -> field m' (filtered standard b (fp_waterfall q)) w' c = Fail e ->
  tk_flag (snd s) = true /\ tk_wrap (snd s) = Some w' /\
  exists w f, tk_vself (snd s) = Some f /\ fields_of standard wrap field q a w f.
Proof.
  intros M P F nprofiles set_nbins standard wrap field p l a m' b c w' e q s H C S W E'.
  destruct (calc_ok standard wrap field q a H) as (w & f & G & Ec).
  set (c1 := FProfiles m' (fp_waterfall q) (fp_charge q) (Some (filtered standard a (fp_waterfall q))) (Some w) (Some f)).
  assert (E : s = (fst (calc_self_fields standard wrap field c1 b), fst (enable_self_fields (snd (steps nprofiles set_nbins standard wrap field p l)) (fst (calc_self_fields standard wrap field c1 b))))).
  { unfold s. rewrite sts_app. unfold c1, q in *. destruct (steps nprofiles set_nbins standard wrap field p l) as [q0 t0]. cbn [fold_left do_step fst snd] in *. rewrite Ec. reflexivity. }
  assert (E2 : fst (calc_self_fields standard wrap field c1 b) = FProfiles m' (fp_waterfall q) (fp_charge q) (Some (filtered standard b (fp_waterfall q))) (Some w') (Some f)).
  { unfold calc_self_fields, c1. cbn [fp_charge]. rewrite C. cbv zeta.
    destruct b as [v|g|]; cbn [filtered] in *.
    - destruct (check_spec c1 v) as [[_ X]|[X _]]; [|contradiction]. unfold c1 in X. rewrite C in X. rewrite X. cbn. rewrite W, E'. reflexivity.
    - destruct (check_spec c1 (g (fp_waterfall q))) as [[_ X]|[X _]]; [|contradiction]. unfold c1 in X. rewrite C in X. cbn [fp_waterfall]. rewrite X. cbn. rewrite W, E'. reflexivity.
    - cbn. rewrite W, E'. reflexivity. }
  rewrite E, E2. cbn. split; auto. split; auto. exists w, f. auto.
Qed.

(*EX*)
(** One bin, two profiles; the fields are the sum of the first column times the
    charge. *)
Example C96_ex : let wrap := fun m : nat => Ok m in
  let field := fun (m : nat) (w : list (list R)) (_ : nat) (c : R) =>
    match m, w with O, [[x]; [y]] => Ok (c * (x + y)) | _, _ => Fail (Raised IndexError) end in
  exists p, new_profiles (fun _ => 2%nat) (fun m _ => m) O [[1]; [-1]] (Some 2) = Ok p /\ no_fields p /\ fp_waterfall p = [[1]; [0]] /\ never_negative (fp_waterfall p) /\
    snd (calc_self_fields (fun w => w) wrap field p Standard) = Ok tt /\
    (exists f, shape (f (fp_waterfall p)) <> shape (fp_waterfall p)) /\
    wrap 1%nat = Ok 1%nat /\ field 1%nat (filtered (fun w => w) Standard (fp_waterfall p)) 1%nat 2 = Fail (Raised IndexError).
Proof.
  eexists. unfold new_profiles, set_waterfall. cbn [fp_m shape fst length Nat.eqb clip0 map].
  destruct (Rlt_dec 1 0); [exfalso; lra|]. destruct (Rlt_dec (-1) 0); [|exfalso; lra]. cbn [sum_abs fold_right].
  rewrite Rabs_R0, Rabs_R1. destruct (Req_EM_T _ 0); [exfalso; lra|]. cbn. split; [reflexivity|]. split; [repeat split|]. split; [reflexivity|]. split; [intros rw [<-|[<-|[]]] x [<-|[]]; lra|]. split; [reflexivity|].
  split; [exists (fun _ => []); cbn; discriminate|]. auto.
Qed.
(*XE*)
