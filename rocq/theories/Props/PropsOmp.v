(** Theorems on parallel loops (C10).
    Statements only: each theorem is closed by the lemma of the same name in
    Proof/COmp.v.  Written by tools/mkprops.py. *)
From Coq Require Import List ZArith Bool QArith Qcanon Permutation.
From Verif Require Import Base.Res Base.QcLib Model.MRecon Model.MTrack Model.MOmp Spec.OmpSpec.
Import ListNotations.
Local Open Scope nat_scope.
From Verif Require Import Proof.COmp.

(** C10: a parallel loop without data races has one result, that of the loop
    run in index order, whatever the schedule. *)
Theorem C10_race_free : forall T (ps : list (prog T)) m m', race_free ps -> ends ps m m' -> forall l, m' l = run_all ps m l.
Proof. exact C10_race_free_lem. Qed.
Print Assumptions C10_race_free.

(** C10: every parallel loop ends: no execution goes on for ever, and one that
    cannot go on has run all the iterations. *)
Theorem C10_terminates : forall T (ps : list (prog T)) m,
  Acc (fun s' s => step s s') (ps, m) /\
  (forall ps' m', steps (ps, m) (ps', m') -> (forall s, ~ step (ps', m') s) -> ends ps m m') /\
  ends ps m (run_all ps m).
Proof. exact C10_terminates_lem. Qed.
Print Assumptions C10_terminates.

(** C10: tracking.  Whatever the number of threads and the schedule of every
    parallel loop, the coordinates are those of the loops run in index order. *)
Theorem C10_tracking : forall T (add sub mul : T -> T -> T) (sin : T -> T) machine xp0 yp0 denergy0 dphi0
    dturns rec_prof deltaturn nturns nparts ftn s,
  kick_and_drift add sub mul sin machine xp0 yp0 denergy0 dphi0 dturns rec_prof deltaturn nturns nparts ftn = Ok s ->
  exists loops, kick_and_drift_routine add sub mul sin machine dturns rec_prof deltaturn nturns nparts = Ok loops /\
  forall m m', holds_r m Dphi dphi0 -> holds_r m Denergy denergy0 -> holds_rows m Xp xp0 -> holds_rows m Yp yp0 ->
  routine_ends loops m m' ->
  holds_r m' Dphi (dphi s) /\ holds_r m' Denergy (denergy s) /\ holds_rows m' Xp (xp s) /\ holds_rows m' Yp (yp s).
Proof. exact C10_tracking_lem. Qed.
Print Assumptions C10_tracking.

(** C10: the single loops of the tracking (kick and drift are also called by
    themselves, from Python). *)
Theorem C10_drift : forall T (add sub mul : T -> T -> T) coef n (m m' : mem T) ph de ph',
  holds_r m Dphi ph -> holds_r m Denergy de ->
  (drift_up sub mul ph de coef n = Ok ph' /\ ends (drift_up_par sub mul coef n) m m') \/
  (drift_down add mul ph de coef n = Ok ph' /\ ends (drift_down_par add mul coef n) m m') ->
  holds_r m' Dphi ph' /\ only_changes (eq Dphi) m m'.
Proof. exact C10_drift_lem. Qed.
Print Assumptions C10_drift.

Theorem C10_kick : forall T (add sub mul : T -> T -> T) (sin : T -> T) v1 v2 p0 p12 hr acc n (m m' : mem T) ph de de',
  holds_r m Dphi ph -> holds_r m Denergy de ->
  (kick_up add sub mul sin ph de v1 v2 p0 p12 hr n acc = Ok de' /\ ends (kick_up_par add sub mul sin v1 v2 p0 p12 hr acc n) m m') \/
  (kick_down add sub mul sin ph de v1 v2 p0 p12 hr n acc = Ok de' /\ ends (kick_down_par add sub mul sin v1 v2 p0 p12 hr acc n) m m') ->
  holds_r m' Denergy de' /\ only_changes (eq Denergy) m m'.
Proof. exact C10_kick_lem. Qed.
Print Assumptions C10_kick.

(** C10: the back projection and the clipping of the weights (back_project is
    also called by itself, from Python). *)
Theorem C10_back_project : forall npart nprof (m m' : mem Qc) weights points profiles weights',
  holds_r m Weights weights -> holds_i m Points points -> holds_r m Profs profiles ->
  back_project weights points profiles npart nprof = Ok weights' -> ends (back_project_par npart nprof) m m' ->
  holds_r m' Weights weights' /\ only_changes (eq Weights) m m'.
Proof. exact C10_back_project_lem. Qed.
Print Assumptions C10_back_project.

(** C10: the sum that normalize tests is one for every grouping of the rows
    over the threads, the sum of all elements: whether it raises an exception
    does not depend on the schedule. *)
Theorem C10_normalize_sum : forall nprof nbins (m m' : mem Qc) recreated groups,
  holds_r m Rec recreated -> length recreated = nprof * nbins -> ends (normalize_par nprof nbins) m m' ->
  Permutation (concat groups) (seq 0 nprof) ->
  qsum (map (fun g => qsum (map (fun i => m' (R_ Partial (Z.of_nat i))) g)) groups) = qsum recreated.
Proof. exact C10_normalize_sum_lem. Qed.
Print Assumptions C10_normalize_sum.

Theorem C10_normalize : forall nprof nbins (m m' : mem Qc) recreated recreated',
  holds_r m Rec recreated -> normalize recreated nprof nbins = Ok recreated' -> ends (normalize_par nprof nbins) m m' ->
  holds_r m' Rec recreated'.
Proof. exact C10_normalize_lem. Qed.
Print Assumptions C10_normalize.

(** C10, partial: the reconstruction.  If the reciprocals of the particle
    counts are right, every schedule of the loops that follow gives the
    weights, discrepancies and recreated profiles of the loops run in index
    order.  Missing: the loop that computes the reciprocals, which is not
    race-free (C10_reciprocal_refuted). *)
Theorem C10_reconstruct_partial : forall sqrt rec0 xp prof niter nbins npart nprof rparts points s (m m' : mem Qc),
  reconstruct sqrt rec0 xp prof niter nbins npart nprof = Ok s ->
  reciprocal_particles (repeat 0%Qc (nprof * nbins)) xp nbins nprof npart = Ok rparts ->
  create_flat_points xp npart nprof nbins = Ok points ->
  holds_i m Points points -> holds_r m Profs prof -> holds_r m Rparts rparts ->
  holds_r m Weights (repeat 0%Qc npart) -> holds_r m Rec rec0 ->
  holds_r m Discr (repeat 0%Qc (Z.to_nat (niter + 1))) -> holds_r m Diff (repeat 0%Qc (nprof * nbins)) ->
  routine_ends (reconstruct_routine sqrt niter nbins npart nprof) m m' ->
  holds_r m' Weights (r_weights s) /\ holds_r m' Rec (r_rec s) /\ holds_r m' Discr (r_discr s).
Proof. exact C10_reconstruct_partial_lem. Qed.
Print Assumptions C10_reconstruct_partial.

(** C10: the loop that replaces zero counts by ones. *)
Theorem C10_zeros_to_ones : forall n (m m' : mem Qc) counts counts', holds_r m Rparts counts ->
  for_ 0 n (fun i r => x <- get r (Z.of_nat i) ;; if qeqb x 0 then set r (Z.of_nat i) 1%Qc else Ok r) counts = Ok counts' ->
  ends (zeros_to_ones_par n) m m' -> holds_r m' Rparts counts'.
Proof. exact C10_zeros_to_ones_lem. Qed.
Print Assumptions C10_zeros_to_ones.

(** C10, partial: the reciprocals by one thread. *)
Theorem C10_reciprocal_partial : forall mx nprof nbins (m : mem Qc) counts out, holds_r m Rparts counts ->
  for_ 0 nprof (fun i r => for_ 0 nbins (fun j r => x <- get r (Z.of_nat (i * nbins + j)) ;; q <- qdiv mx x ;;
    set r (Z.of_nat (i * nbins + j)) q) r) counts = Ok out ->
  holds_r (run_all (reciprocal_par mx nprof nbins) m) Rparts out.
Proof. exact C10_reciprocal_partial_lem. Qed.
Print Assumptions C10_reciprocal_partial.

(** C10 is false of the reciprocals of the particle counts
    (reciprocal_particles): the index variable is shared by the threads.  Two
    profiles of one bin with two particles each: the reciprocals are 1 and 1,
    or 2 and 2. *)
Theorem C10_reciprocal_refuted : exists m1 m2,
  let m := with_r Rparts [qz 2; qz 2] zero_mem in
  ends (reciprocal_par (qz 2) 2 1) m m1 /\ ends (reciprocal_par (qz 2) 2 1) m m2 /\
  read_r m1 Rparts 2 = [1; 1]%Qc /\ read_r m2 Rparts 2 = [qz 2; qz 2].
Proof. exact C10_reciprocal_refuted_lem. Qed.
Print Assumptions C10_reciprocal_refuted.

Theorem C10_reciprocal_multi_refuted : exists m1 m2,
  let m := with_r Rparts [qz 2; qz 2] zero_mem in
  ends (reciprocal_multi_par (qz 2) 1 2) m m1 /\ ends (reciprocal_multi_par (qz 2) 1 2) m m2 /\
  read_r m1 Rparts 2 = [1; 1]%Qc /\ read_r m2 Rparts 2 = [qz 2; qz 2].
Proof. exact C10_reciprocal_multi_refuted_lem. Qed.
Print Assumptions C10_reciprocal_multi_refuted.

(** C10 is false of the particle counts of several bunches
    (count_particles_in_bin_multi): the bin variable is shared.  One particle,
    bunches at bins 0 and 1: the counts are 1 and 1, or 0 and 2. *)
Theorem C10_count_multi_refuted : exists m1 m2,
  let m := with_i Centers [0; 1]%Z zero_mem in
  ends (count_multi_par 1 1 2 2) m m1 /\ ends (count_multi_par 1 1 2 2) m m2 /\
  read_r m1 Rparts 2 = [1; 1]%Qc /\ read_r m2 Rparts 2 = [0%Qc; qz 2].
Proof. exact C10_count_multi_refuted_lem. Qed.
Print Assumptions C10_count_multi_refuted.

(** C10 is false of the mask of several bunches (create_mask): the bin variable
    is shared.  One particle, inside both bunches: it is in both, or cut from
    the first. *)
Theorem C10_mask_refuted : exists m1 m2,
  let m := with_i Mask [1; 1]%Z (with_i Centers [0; 10]%Z (with_i Cutleft [0; 10]%Z (with_i Cutright [5; 15]%Z zero_mem))) in
  ends (create_mask_par 1 1 2) m m1 /\ ends (create_mask_par 1 1 2) m m2 /\
  read_i m1 Mask 2 = [1; 1]%Z /\ read_i m2 Mask 2 = [0; 1]%Z.
Proof. exact C10_mask_refuted_lem. Qed.
Print Assumptions C10_mask_refuted.

(** C10 is false of the back projection for several bunches
    (back_project_multi): the profiles of one particle are added by different
    threads.  One particle, two profiles with 1 in its bin: the weight is 2, or
    1. *)
Theorem C10_back_project_multi_refuted : exists m1 m2,
  let m := with_i Mask [1]%Z (with_i Points [0; 1]%Z (with_r Profs [1; 1]%Qc zero_mem)) in
  ends (back_project_multi_par 1 2 1) m m1 /\ ends (back_project_multi_par 1 2 1) m m2 /\
  read_r m1 Weights 1 = [qz 2] /\ read_r m2 Weights 1 = [1%Qc].
Proof. exact C10_back_project_multi_refuted_lem. Qed.
Print Assumptions C10_back_project_multi_refuted.

(** C10 is false of the projection for several bunches (project_multi): bunches
    add to the same bin.  Two bunches that share a bin: it gets 2, or 1. *)
Theorem C10_project_multi_refuted : exists m1 m2,
  let m := with_r Weights [1; 1]%Qc zero_mem in
  ends (project_multi_par 1 1 2) m m1 /\ ends (project_multi_par 1 1 2) m m2 /\
  read_r m1 Rec 1 = [qz 2] /\ read_r m2 Rec 1 = [1%Qc].
Proof. exact C10_project_multi_refuted_lem. Qed.
Print Assumptions C10_project_multi_refuted.

(** C10 is false of the discrepancies of the bunches (discrepancy_multi):
    squared_sum is shared. *)
Theorem C10_discrepancy_multi_refuted : forall sqrt : Qc -> Qc, exists m1 m2,
  let m := with_i Cutright [2; 2]%Z (with_r Diff [0; 1]%Qc zero_mem) in
  ends (discrepancy_multi_par sqrt 0 1 2 2) m m1 /\ ends (discrepancy_multi_par sqrt 0 1 2 2) m m2 /\
  read_r m1 DiscrSplit 2 = [sqrt (qz 1 / qz 2); sqrt (qz 2 / qz 2)]%Qc /\
  read_r m2 DiscrSplit 2 = [sqrt (qz 1 / qz 2); sqrt (qz 1 / qz 2)]%Qc.
Proof. exact C10_discrepancy_multi_refuted_lem. Qed.
Print Assumptions C10_discrepancy_multi_refuted.

(** The loops above are race-free, and a race-free loop exists for every
    number of particles. *)
From Verif Require Import Proof.POmp2 Proof.POmp4.
Example C10_race_free_loops : forall npart nprof nbins c, race_free (back_project_par npart nprof) /\ race_free (clip_par npart c) /\
  race_free (normalize_par nprof nbins) /\ race_free (difference_par (nprof * nbins)) /\ race_free (compensate_par nprof nbins) /\
  race_free (zeros_to_ones_par (nprof * nbins)).
Proof.
  intros. repeat split; [apply (bp_race_free Profs); discriminate|apply clip_race_free|apply norm_race_free|apply diff_race_free
    |apply comp_race_free|apply zeros_race_free].
Qed.
(** Two particles, two profiles: the hypotheses of the reconstruction theorem
    hold, and the routine has several loops. *)
Example C10_reconstruct_example : exists s rparts points,
  reconstruct (fun x => x) (repeat 0%Qc 4) [0; 1; 1; 0]%Z [1; 0; 0; 1]%Qc 1%Z 2 2 2 = Ok s /\
  reciprocal_particles (repeat 0%Qc 4) [0; 1; 1; 0]%Z 2 2 2 = Ok rparts /\
  create_flat_points [0; 1; 1; 0]%Z 2 2 2 = Ok points /\
  holds_i (with_i Points points zero_mem) Points points /\
  length (reconstruct_routine (fun x => x) 1 2 2 2) = 13.
Proof.
  eexists _, _, _. repeat split; try (vm_compute; reflexivity).
  apply holds_with_i.
Qed.
(** Two particles tracked over two profiles, one turn apart. *)
Example C10_tracking_example : exists s loops,
  kick_and_drift Z.add Z.sub Z.mul (fun x => x) (Machine [1; 2] [0; 0] [0; 0] [0; 1] [1; 1] [0; 0] 2)%Z
    [[0; 0]; [0; 0]]%Z [[0; 0]; [0; 0]]%Z [1; 2]%Z [5; 7]%Z 1 1 0 1 2 false = Ok s /\
  kick_and_drift_routine Z.add Z.sub Z.mul (fun x => x) (Machine [1; 2] [0; 0] [0; 0] [0; 1] [1; 1] [0; 0] 2)%Z 1 1 0 1 2 = Ok loops /\
  length loops = 5 /\ xp s = [[-3; -4]; [5; 7]]%Z.
Proof. eexists _, _. repeat split; vm_compute; reflexivity. Qed.
