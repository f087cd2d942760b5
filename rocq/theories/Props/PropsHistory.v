(** Theorems on histories of a machine object (C95).
    Statements only: each theorem is closed by the lemma of the same name in
    Proof/CHistory.v.  Written by tools/mkprops.py. *)
From Coq Require Import Reals List ZArith Bool Lia Lra.
From Verif Require Import Base.Res Model.MTrack Model.MMachine Model.MObjects Spec.MachineSpec Spec.ObjectSpec.
Import ListNotations.
Local Open Scope R_scope.
From Verif Require Import Proof.CHistory.

(** C95.  A tracker is made from a machine exactly when its values have been
    calculated at some point and its synchronous particle is not negative. *)
Theorem C95_accepted_iff : forall newton check left m x l, let o := history newton check left m x l in
  (calculated newton check left m x l /\ 0 <= mo_synch_x o -> new_tracker o = Ok tt) /\
  (~ (calculated newton check left m x l /\ 0 <= mo_synch_x o) -> new_tracker o = Fail (Raised MachineParameterError)).
Proof. exact C95_accepted_iff_lem. Qed.
Print Assumptions C95_accepted_iff.

(** C95.  What is tracked directly after a calculation belongs to the settings
    of the machine. *)
Theorem C95_current_partial : forall newton check left m x l,
  let o0 := history newton check left m x l in let o := history newton check left m x (l ++ [Calculate]) in
  snd (calc_values newton check left o0) = Ok tt ->
  mo_set o = mo_set o0 /\ mo_synch_x o = mo_synch_x o0 /\
  exists v, values_at_turns newton (mo_set o) = Ok v /\
    handed o (map (fun _ => rm_phi12 (mo_set o)) (tn_phi0 (tv_turns v))) = Ok (tracking_machine (mo_set o) v).
Proof. exact C95_current_partial_lem. Qed.
Print Assumptions C95_current_partial.

(** C95.  A refused calculation (settings that do not pass the checks) changes
    nothing. *)
Theorem C95_refused : forall newton check left m x l e, check (mo_set (history newton check left m x l)) = Fail e ->
  history newton check left m x (l ++ [Calculate]) = history newton check left m x l.
Proof. exact C95_refused_lem. Qed.
Print Assumptions C95_refused.

(** C95.  Refuted: settings assigned after the calculation.  The arrays tracked
    with are those of the old settings; the charge and the harmonic ratio are
    those of the new ones. *)
Theorem C95_stale_refuted : forall newton check left m x l1 l2, Forall (fun a => a <> Calculate) l2 ->
  snd (calc_values newton check left (history newton check left m x l1)) = Ok tt ->
  let o := history newton check left m x (l1 ++ Calculate :: l2) in
  exists v, values_at_turns newton (mo_set (history newton check left m x l1)) = Ok v /\
    forall p12, handed o p12 = Ok (Machine (map (fun u => u * rm_q (mo_set o)) (tv_vrf1 v)) (map (fun u => u * rm_q (mo_set o)) (tv_vrf2 v))
      (tn_phi0 (tv_turns v)) (tn_deltaE0 (tv_turns v)) (tv_drift_coef v) p12 (rm_h_ratio (mo_set o))).
Proof. exact C95_stale_refuted_lem. Qed.
Print Assumptions C95_stale_refuted.

(** C95.  Refuted: e.g. after the reference frame was changed, other energy
    gains are tracked with than those of the new settings. *)
Theorem C95_frame_refuted : exists newton m m' v', finds_roots newton /\ values_at_turns newton m' = Ok v' /\
  forall check left x x', check m = Ok tt -> 0 <= x' ->
  let o := history newton check left m x [Calculate; Assign m' x'] in
  mo_set o = m' /\ new_tracker o = Ok tt /\
  exists mm, handed o (phi12 (tracking_machine m' v')) = Ok mm /\ deltaE0 mm <> deltaE0 (tracking_machine m' v').
Proof. exact C95_frame_refuted_lem. Qed.
Print Assumptions C95_frame_refuted.

(** C95.  Refuted: a calculation that stops with an exception after new
    settings (no synchronous phase is found).  A tracker is accepted
    nevertheless; it drifts by nothing and kicks with the old voltages. *)
Theorem C95_failed_refuted : forall newton check left m m' x x' v, check m = Ok tt -> check m' = Ok tt -> 0 <= x' ->
  (0 <= (rm_nprofiles m' - 1) * rm_dturns m')%Z ->
  values_at_turns newton m = Ok v -> values_at_turns newton m' = Fail (Raised ValueError) ->
  let o1 := history newton check left m x [Calculate; Assign m' x'] in
  let o := history newton check left m x [Calculate; Assign m' x'; Calculate] in
  snd (calc_values newton check left o1) = Fail (Raised ValueError) /\ new_tracker o = Ok tt /\
  forall p12, exists mm, handed o p12 = Ok mm /\ Forall (fun c => c = 0) (drift_coef mm) /\ rf1v mm = map (fun u => u * rm_q m') (tv_vrf1 v).
Proof. exact C95_failed_refuted_lem. Qed.
Print Assumptions C95_failed_refuted.

(** C95.  Refuted: more profiles (or turns between them) set after the
    calculation.  The tracker is accepted and tracking reads past the end of
    the arrays, whatever the particles. *)
Theorem C95_longer_refuted : forall newton check left m m' x x' v d np p np' rp dt q ph de ftn,
  (0 < d)%nat -> (0 < np)%nat ->
  rm_dturns m = Z.of_nat d -> rm_nprofiles m = Z.of_nat np -> rm_ref_frame m = Z.of_nat p -> rm_nprofiles m' = Z.of_nat np' ->
  check m = Ok tt -> values_at_turns newton m = Ok v -> 0 <= x' ->
  ((rm_nprofiles m - 1) * rm_dturns m < (rm_nprofiles m' - 1) * rm_dturns m')%Z ->
  track_checks (Z.of_nat np') (rm_dturns m') rp dt = Ok q ->
  let o := history newton check left m x [Calculate; Assign m' x'] in
  new_tracker o = Ok tt /\ forall p12, exists mm, handed o p12 = Ok mm /\
    track Rplus Rminus Rmult sin 0 mm np' (rm_dturns m') rp dt ph de ftn = Fail OutOfBounds.
Proof. exact C95_longer_refuted_lem. Qed.
Print Assumptions C95_longer_refuted.

(** The machine of the examples; its values cannot be calculated without
    voltage. *)
Example C95_ex : (exists v, values_at_turns ramp_newton (ramp_machine 1) = Ok v) /\
  values_at_turns ramp_newton (RMachine 1 2 1 1 (4 / c_light) 1 1 (/ (2 * PI)) 1 3 1 2 0 0 0 0 0) = Fail (Raised ValueError) /\
  track_checks 3 1 0 0 = Ok 0%Z.
Proof. exact hist_ex. Qed.
