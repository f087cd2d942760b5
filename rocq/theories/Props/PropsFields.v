(** Theorems on self-fields of profiles and trackers (C96).
    Statements only: each theorem is closed by the lemma of the same name in
    Proof/CFields.v.  Written by tools/mkprops.py. *)
From Coq Require Import Reals List ZArith Bool Lia Lra.
From Verif Require Import Base.Res Model.MObjects Spec.ObjectSpec.
Import ListNotations.
Local Open Scope R_scope.
From Verif Require Import Proof.CFields.

(** C96.  Self-fields can be enabled for tracking exactly when they have been
    calculated at some point; otherwise it is refused and nothing changes. *)
Theorem C96_enabled_iff : forall M P F nprofiles set_nbins standard wrap field (p : fprofiles M P F) l t, no_fields p ->
  let q := fst (steps nprofiles set_nbins standard wrap field p l) in
  (fields_calculated nprofiles set_nbins standard wrap field p l -> snd (enable_self_fields t q) = Ok tt) /\
  (~ fields_calculated nprofiles set_nbins standard wrap field p l -> enable_self_fields t q = (t, Fail (Raised SelfFieldTrackingError))).
Proof. exact C96_enabled_iff_lem. Qed.
Print Assumptions C96_enabled_iff.

(** C96.  Fields enabled directly after their calculation are those of the
    profiles, the charge and the machine at that time. *)
Theorem C96_current_partial : forall M P F nprofiles set_nbins standard wrap field (p : fprofiles M P F) l a,
  let q := fst (steps nprofiles set_nbins standard wrap field p l) in
  let t := snd (steps nprofiles set_nbins standard wrap field p (l ++ [CalcFields a; EnableFields])) in
  snd (calc_self_fields standard wrap field q a) = Ok tt ->
  tk_flag t = true /\ exists w f, tk_wrap t = Some w /\ tk_vself t = Some f /\ fields_of standard wrap field q a w f.
Proof. exact C96_current_partial_lem. Qed.
Print Assumptions C96_current_partial.

(** C96.  Whatever was done before: self-fields used in tracking were
    calculated by a call of calc_self_fields, from the profiles, charge and
    machine of that time. *)
Theorem C96_origin : forall M P F nprofiles set_nbins standard wrap field (p : fprofiles M P F) l, no_fields p ->
  let t := snd (steps nprofiles set_nbins standard wrap field p l) in
  (tk_flag t = false -> tk_vself t = None) /\
  (tk_flag t = true -> exists l1 a l2 w f, l = (l1 ++ CalcFields a :: l2)%list /\ tk_vself t = Some f /\
     fields_of standard wrap field (fst (steps nprofiles set_nbins standard wrap field p l1)) a w f).
Proof. exact C96_origin_lem. Qed.
Print Assumptions C96_origin.

(** C96.  Refused calculations: without a charge, or with given profiles of
    another shape, the object stays as it was. *)
Theorem C96_refused : forall M P F standard wrap field (p : fprofiles M P F) a,
  (fp_charge p = None -> calc_self_fields standard wrap field p a = (p, Fail (Raised ProfileChargeNotCalculated))) /\
  (forall w, fp_charge p <> None -> shape w <> shape (fp_waterfall p) ->
     calc_self_fields standard wrap field p (Manual w) = (p, Fail (Raised FilteredProfilesError))).
Proof. exact C96_refused_lem. Qed.
Print Assumptions C96_refused.

(** C96.  Nothing disables self-fields or the Fortran output again. *)
Theorem C96_never_disabled : forall M P F nprofiles set_nbins standard wrap field (p : fprofiles M P F) l1 l2,
  let t1 := snd (steps nprofiles set_nbins standard wrap field p l1) in
  let t2 := snd (steps nprofiles set_nbins standard wrap field p (l1 ++ l2)) in
  (tk_flag t1 = true -> tk_flag t2 = true) /\ (tk_ftn t1 <> None -> tk_ftn t2 <> None).
Proof. exact C96_never_disabled_lem. Qed.
Print Assumptions C96_never_disabled.

(** C96.  Whatever is done with the objects, the stored profiles are never
    negative: an accepted waterfall is stored with its negative values replaced
    by 0, and no other step changes them. *)
Theorem C96_never_negative : forall M P F nprofiles set_nbins standard wrap field (p : fprofiles M P F) l,
  never_negative (fp_waterfall p) ->
  let q := fst (steps nprofiles set_nbins standard wrap field p l) in
  never_negative (fp_waterfall q) /\
  (forall w, snd (set_waterfall nprofiles set_nbins q w) = Ok tt -> fp_waterfall (fst (set_waterfall nprofiles set_nbins q w)) = map (map (Rmax 0)) w) /\
  (forall a, (forall w, a <> SetWaterfall w) -> fp_waterfall (fst (steps nprofiles set_nbins standard wrap field p (l ++ [a]))) = fp_waterfall q).
Proof. exact C96_never_negative_lem. Qed.
Print Assumptions C96_never_negative.

(** C96.  Refuted: other profiles or another machine after the calculation.
    The fields of the old ones are enabled without notice. *)
Theorem C96_stale_refuted : forall M P F nprofiles set_nbins standard wrap field (p : fprofiles M P F) l a w' m',
  let q := fst (steps nprofiles set_nbins standard wrap field p l) in
  let s := steps nprofiles set_nbins standard wrap field p (l ++ [CalcFields a; SetWaterfall w'; SetMachine m'; EnableFields]) in
  snd (calc_self_fields standard wrap field q a) = Ok tt ->
  fp_m (fst s) = m' /\ tk_flag (snd s) = true /\
  exists w f, tk_wrap (snd s) = Some w /\ tk_vself (snd s) = Some f /\ fields_of standard wrap field q a w f.
Proof. exact C96_stale_refuted_lem. Qed.
Print Assumptions C96_stale_refuted.

(** C96.  Refuted: a filter whose result has another shape is refused, but its
    result has replaced the filtered profiles of the object. *)
Theorem C96_filter_refuted : forall M P F standard wrap field (p : fprofiles M P F) f, fp_charge p <> None ->
  shape (f (fp_waterfall p)) <> shape (fp_waterfall p) ->
  let r := calc_self_fields standard wrap field p (Filter f) in
  snd r = Fail (Raised FilteredProfilesError) /\ fp_ds (fst r) = Some (f (fp_waterfall p)) /\ fp_vself (fst r) = fp_vself p.
Proof. exact C96_filter_refuted_lem. Qed.
Print Assumptions C96_filter_refuted.

(** C96.  Refuted: a calculation that fails after the window was found.  The
    new window is enabled together with the old fields. *)
Theorem C96_window_refuted : forall M P F nprofiles set_nbins standard wrap field (p : fprofiles M P F) l a m' b c w' e,
  let q := fst (steps nprofiles set_nbins standard wrap field p l) in
  let s := steps nprofiles set_nbins standard wrap field p (l ++ [CalcFields a; SetMachine m'; CalcFields b; EnableFields]) in
  snd (calc_self_fields standard wrap field q a) = Ok tt -> fp_charge q = Some c ->
  shape (filtered standard b (fp_waterfall q)) = shape (fp_waterfall q) ->
  wrap m' = Ok w' -> field m' (filtered standard b (fp_waterfall q)) w' c = Fail e ->
  tk_flag (snd s) = true /\ tk_wrap (snd s) = Some w' /\
  exists w f, tk_vself (snd s) = Some f /\ fields_of standard wrap field q a w f.
Proof. exact C96_window_refuted_lem. Qed.
Print Assumptions C96_window_refuted.

(** One bin, two profiles; the fields are the sum of the first column times the
    charge. *)
Example C96_ex : let wrap := fun m : nat => Ok m in
  let field := fun (m : nat) (w : list (list R)) (_ : nat) (c : R) =>
    match m, w with O, [[x]; [y]] => Ok (c * (x + y)) | _, _ => Fail (Raised IndexError) end in
  exists p, new_profiles (fun _ => 2%nat) (fun m _ => m) O [[1]; [-1]] (Some 2) = Ok p /\ no_fields p /\ fp_waterfall p = [[1]; [0]] /\ never_negative (fp_waterfall p) /\
    snd (calc_self_fields (fun w => w) wrap field p Standard) = Ok tt /\
    (exists f, shape (f (fp_waterfall p)) <> shape (fp_waterfall p)) /\
    wrap 1%nat = Ok 1%nat /\ field 1%nat (filtered (fun w => w) Standard (fp_waterfall p)) 1%nat 2 = Fail (Raised IndexError).
Proof.
  eexists. unfold new_profiles, set_waterfall. cbn [fp_m shape fst length Nat.eqb clip0 map].
  destruct (Rlt_dec 1 0); [exfalso; lra|]. destruct (Rlt_dec (-1) 0); [|exfalso; lra]. cbn [sum_abs fold_right].
  rewrite Rabs_R0, Rabs_R1. destruct (Req_EM_T _ 0); [exfalso; lra|]. cbn. split; [reflexivity|]. split; [repeat split|]. split; [reflexivity|]. split; [intros rw [<-|[<-|[]]] x [<-|[]]; lra|]. split; [reflexivity|].
  split; [exists (fun _ => []); cbn; discriminate|]. auto.
Qed.
