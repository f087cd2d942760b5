(** Property lemmas on the GPU (C60-C63). *)
(*HEAD*)
From Coq Require Import List ZArith QArith Qcanon Bool Lia.
From Verif Require Import Base.Res Base.QcLib Model.MRecon Model.MTrack Model.MOmp Model.MGpu Model.MCupy Spec.TomoSpec Spec.TrackSpec.
Import ListNotations.
Local Open Scope Qc_scope.
(*DAEH*)
From Coq Require Import Arith.
From Verif Require Import Base.ResLemmas Base.QcLemmas Base.Loops Spec.ReconSpec Proof.PRecon Proof.PRecon2 Proof.PHybrid Proof.PTomo
  Proof.PTrack Proof.PGpu Proof.PGpu2 Proof.PGpu3 Proof.PCupy Proof.PCupyTrack.

(*EX*)
(** Example: two profiles of two bins and two particles. *)
Definition gpu_wf : list (list Qc) := [[qz 2; 0]; [qz 3; qz 1]].
Definition gpu_x : coords := CArr2 2 [[0; 0]; [0; 1]].
Definition gpu_t : tomo :=
  match tomography 2 2 gpu_wf gpu_x CNone with Ok t => t | Fail _ => Tomo [] 0 0 None None None end.
Example gpu_t_built : tomography 2 2 gpu_wf gpu_x CNone = Ok gpu_t.
Proof.
  unfold gpu_t. destruct (tomography 2 2 gpu_wf gpu_x CNone) eqn:E; [reflexivity|].
  vm_compute in E. discriminate.
Qed.
Example gpu_t_reachable : reachable gpu_t.
Proof.
  exists 2%nat, 2%nat, gpu_wf, gpu_x, CNone, gpu_t, []. repeat split; try exact gpu_t_built; repeat constructor.
Qed.
Example gpu_t_coords : t_xp gpu_t = Some [[0; 0]; [0; 1]]%Z.
Proof. vm_compute. reflexivity. Qed.
(*XE*)

(** C60.  Reconstruction on the GPU, for any size of the blocks, any contents
    of the device's memory beforehand and any interleaving of the threads of
    every kernel: the weights, the discrepancies and the recreated profiles
    are those of the CPU, and so is the exception if there is one.  In
    particular no thread leaves an array. *)
Lemma C60_same_values_lem : forall sqrt block t xp niter memory r, reachable t -> t_xp t = Some xp -> xp <> [] -> (0 < block)%nat ->
  host_ends (allocated (t_nbins t) (length xp) (t_nprofs t)) (run_gpu sqrt block t niter) memory r ->
  r = match MRecon.run sqrt t (Z.of_nat niter) with
      | Ok (w, d, rec, _) => Ok (w, d, List.concat rec)
      | Fail e => Fail e
      end.
Proof.
  intros sqrt block t xp niter memory r R X Hne Hb H. apply reachable_valid in R.
  unfold run_gpu in H. rewrite X, (xp_flat t xp R X), (wf_flat t R) in H.
  assert (Hn : (0 < length xp)%nat) by (destruct xp; [congruence|cbn; lia]).
  assert (Hp : (0 < t_nprofs t)%nat) by apply R. assert (Hbn : (0 < t_nbins t)%nat) by apply R.
  pose proof (bins_ok t xp R X) as B.
  destruct (cuda_ends _ _ _ _ _ _ B Hp Hbn block Hb Hn niter memory r H) as [[G ->]|(k & Hk & [NG G] & ->)].
  - rewrite (run_ok sqrt t xp R X (Z.of_nat niter) ltac:(lia)) by (rewrite Nat2Z.id; exact G).
    rewrite Nat2Z.id, concat_T. reflexivity.
  - rewrite (run_raises sqrt t xp R X (Z.of_nat niter) k ltac:(lia) ltac:(rewrite Nat2Z.id; exact Hk) NG G). reflexivity.
Qed.

(** C60.  There is a result: every kernel stops, whatever the interleaving, and
    the reconstruction comes to an end. *)
Lemma C60_terminates_lem : forall sqrt block t niter memory nbins npart nprof,
  (forall threads m, Acc (fun s' s => gstep s s') (threads, m)) /\
  exists r, host_ends (allocated nbins npart nprof) (run_gpu sqrt block t niter) memory r.
Proof. intros. split; [intros; apply gstep_wf|apply host_ends_exists]. Qed.

(** C60.  Without coordinates both refuse. *)
Lemma C60_no_coordinates_lem : forall sqrt block t niter memory r nbins npart nprof, t_xp t = None ->
  host_ends (allocated nbins npart nprof) (run_gpu sqrt block t niter) memory r ->
  r = Fail (Raised CoordinateError) /\ MRecon.run sqrt t (Z.of_nat niter) = Fail (Raised CoordinateError).
Proof.
  intros sqrt block t niter memory r nbins npart nprof X H. unfold run_gpu in H. rewrite X in H.
  apply ends_done in H. split; auto. unfold MRecon.run. rewrite X. reflexivity.
Qed.

(*EX*)
(** The hypotheses hold of [gpu_t], and the result is not an exception. *)
Example C60_ex : reachable gpu_t /\ t_xp gpu_t = Some [[0; 0]; [0; 1]]%Z /\
  match MRecon.run (fun x => x) gpu_t 2 with
  | Ok (w, d, rec, _) => Some (map this w, map this d, map this (List.concat rec))
  | Fail _ => None end = Some ([9 # 4; 3 # 4], [1 # 72; 1 # 288; 1 # 4608], [1; 0; 35 # 48; 13 # 48])%Q.
Proof. split; [exact gpu_t_reachable|]. split; [exact gpu_t_coords|]. vm_compute. reflexivity. Qed.
(*XE*)

(** C61.  The object is left with the same weights and discrepancies and the same
    elements in recreated. *)
Lemma C61_same_attributes_partial_lem : forall sqrt block t xp niter memory r c, reachable t -> t_xp t = Some xp -> xp <> [] -> (0 < block)%nat ->
  host_ends (allocated (t_nbins t) (length xp) (t_nprofs t)) (run_gpu sqrt block t niter) memory (Ok r) ->
  MRecon.run sqrt t (Z.of_nat niter) = Ok c ->
  let data a := match a with NDArr _ l => l end in
  o_weight (outcome_gpu r) = o_weight (outcome_cpu t c) /\ o_diff (outcome_gpu r) = o_diff (outcome_cpu t c) /\
  data (o_recreated (outcome_gpu r)) = data (o_recreated (outcome_cpu t c)).
Proof.
  intros sqrt block t xp niter memory r c R X Hne Hb H E. 
  apply C60_same_values_lem in H; auto. rewrite E in H. destruct c as [[[w d] rec] calls]. injection H as ->.
  cbn. auto.
Qed.

(** C61 does not hold as a whole: whenever the reconstruction succeeds,
    recreated has two dimensions after a run on the CPU and one after a run on
    the GPU. *)
Lemma C61_shape_refuted_lem : forall sqrt block t xp niter memory r c, reachable t -> t_xp t = Some xp -> xp <> [] -> (0 < block)%nat ->
  host_ends (allocated (t_nbins t) (length xp) (t_nprofs t)) (run_gpu sqrt block t niter) memory (Ok r) ->
  MRecon.run sqrt t (Z.of_nat niter) = Ok c ->
  let shape a := match a with NDArr s _ => s end in
  shape (o_recreated (outcome_cpu t c)) = [t_nprofs t; t_nbins t] /\
  shape (o_recreated (outcome_gpu r)) = [(t_nprofs t * t_nbins t)%nat].
Proof.
  intros sqrt block t xp niter memory r c R X Hne Hb H E.
  apply C60_same_values_lem in H; auto. apply reachable_valid in R. 
  destruct (run_cases sqrt t xp R X (Z.of_nat niter) ltac:(lia)) as [[_ E']|(k & _ & _ & E')]; rewrite E' in E; [|discriminate].
  injection E as <-. rewrite E', concat_T in H. injection H as ->. cbn. rewrite tab_length. auto.
Qed.

(** C61.  Nor does the GPU call the callback; the CPU calls it once for every
    iteration and once at the end. *)
Lemma C61_callback_refuted_lem : forall sqrt block t xp niter memory r c, reachable t -> t_xp t = Some xp -> xp <> [] -> (0 < block)%nat ->
  host_ends (allocated (t_nbins t) (length xp) (t_nprofs t)) (run_gpu sqrt block t niter) memory (Ok r) ->
  MRecon.run sqrt t (Z.of_nat niter) = Ok c ->
  length (o_calls (outcome_cpu t c)) = S niter /\ o_calls (outcome_gpu r) = [].
Proof.
  intros sqrt block t xp niter memory r c R X Hne Hb H E. apply reachable_valid in R. 
  destruct (run_cases sqrt t xp R X (Z.of_nat niter) ltac:(lia)) as [[_ E']|(k & _ & _ & E')]; rewrite E' in E; [|discriminate].
  injection E as <-. destruct r as [[w d] f]. cbn. split; auto. unfold calls_upto.
  rewrite app_length, map_length, seq_length, Nat2Z.id. cbn. lia.
Qed.
(*EX*)
Example C61_ex : exists memory r c,
  host_ends (allocated (t_nbins gpu_t) 2 (t_nprofs gpu_t)) (run_gpu (fun x => x) 32 gpu_t 2) memory (Ok r) /\
  MRecon.run (fun x => x) gpu_t 2 = Ok c.
Proof.
  destruct (proj2 (C60_terminates_lem (fun x => x) 32 gpu_t 2 (fun l => match l with R_ _ _ => 0 | I_ _ _ => 0%Z end)
    (t_nbins gpu_t) 2 (t_nprofs gpu_t))) as [r H].
  pose proof (C60_same_values_lem _ _ _ _ _ _ _ gpu_t_reachable gpu_t_coords ltac:(discriminate) (Nat.lt_0_succ 31) H) as E.
  change (Z.of_nat 2) with 2%Z in E.
  destruct (MRecon.run (fun x => x) gpu_t 2) as [[[[w d] rec] calls]|e] eqn:R.
  - subst r. do 3 eexists. split; [exact H|reflexivity].
  - vm_compute in R. discriminate.
Qed.
(*XE*)

(** C62.  The reconstruction with CuPy arrays gives the weights, discrepancies and
    recreated profiles of the compiled one, or the same exception, if there are
    at least as many particles as bins. *)
Lemma C62_cupy_partial_lem : forall sqrt t xp niter, reachable t -> t_xp t = Some xp -> xp <> [] -> (t_nbins t <= length xp)%nat ->
  reconstruct_cupy sqrt xp (List.concat (t_waterfall t)) niter (t_nbins t) (length xp) (t_nprofs t) =
  match MRecon.run sqrt t (Z.of_nat niter) with
  | Ok (w, d, rec, _) => Ok (w, d, List.concat rec)
  | Fail e => Fail e
  end.
Proof.
  intros sqrt t xp niter R X Hne Hle. apply reachable_valid in R.
  assert (Hn : (0 < length xp)%nat) by (destruct xp; [congruence|cbn; lia]).
  assert (Hp : (0 < t_nprofs t)%nat) by apply R. assert (Hbn : (0 < t_nbins t)%nat) by apply R.
  pose proof (bins_ok t xp R X) as B.
  assert (XT : xp = xrows (length xp) (t_nprofs t) (bin_of xp)).
  { pose proof (v_xp _ R) as V. rewrite X in V. apply bins_T in V. apply V. }
  rewrite (wf_flat t R). rewrite XT at 1.
  destruct (cupy_cases _ _ _ _ (cell (t_waterfall t)) sqrt B Hp Hbn (cupy_max_enough _ _ _ _ Hle) Hn niter) as [[G ->]|(k & Hk & [NG G] & ->)].
  - rewrite (run_ok sqrt t xp R X (Z.of_nat niter) ltac:(lia)) by (rewrite Nat2Z.id; exact G).
    rewrite Nat2Z.id, concat_T. reflexivity.
  - rewrite (run_raises sqrt t xp R X (Z.of_nat niter) k ltac:(lia) ltac:(rewrite Nat2Z.id; exact Hk) NG G). reflexivity.
Qed.

(** C62 does not hold with fewer particles than bins: the maximum is taken over
    the first bins only, as many as there are particles.  With one particle in
    the second of two bins the compensation is zero and the weight stays as it
    was. *)
Lemma C62_few_particles_refuted_lem : exists t xp, reachable t /\ t_xp t = Some xp /\ xp <> [] /\
  forall sqrt, exists w d rec w' d' rec' calls,
    reconstruct_cupy sqrt xp (List.concat (t_waterfall t)) 1 (t_nbins t) (length xp) (t_nprofs t) = Ok ([w], d, rec) /\
    MRecon.run sqrt t 1 = Ok ([w'], d', rec', calls) /\ w = Q2Qc (3 # 4) /\ w' = Q2Qc (1 # 2).
Proof.
  set (wf := [[qz 1; qz 3]]). set (x := CArr2 1 [[qz 1]]).
  set (t := match tomography 1 2 wf x CNone with Ok t => t | Fail _ => Tomo [] 0 0 None None None end).
  assert (E : tomography 1 2 wf x CNone = Ok t).
  { unfold t. destruct (tomography 1 2 wf x CNone) eqn:E; [reflexivity|]. vm_compute in E. discriminate. }
  exists t, [[1%Z]]. split.
  { exists 1%nat, 2%nat, wf, x, CNone, t, []. repeat split; try exact E; repeat constructor. }
  split; [vm_compute; reflexivity|]. split; [discriminate|].
  intros sqrt. do 7 eexists. split; [|split; [|split]].
  - vm_compute. reflexivity.
  - vm_compute. reflexivity.
  - apply Qc_is_canon. vm_compute. reflexivity.
  - apply Qc_is_canon. vm_compute. reflexivity.
Qed.
(*EX*)
Example C62_ex : reachable gpu_t /\ t_xp gpu_t = Some [[0; 0]; [0; 1]]%Z /\ (t_nbins gpu_t <= 2)%nat /\
  match reconstruct_cupy (fun x => x) [[0; 0]; [0; 1]]%Z (List.concat (t_waterfall gpu_t)) 2 2 2 2 with
  | Ok (w, d, rec) => Some (map this w, map this d, map this rec)
  | Fail _ => None end = Some ([9 # 4; 3 # 4], [1 # 72; 1 # 288; 1 # 4608], [1; 0; 35 # 48; 13 # 48])%Q.
Proof. split; [exact gpu_t_reachable|]. split; [exact gpu_t_coords|]. split; [vm_compute; lia|]. vm_compute. reflexivity. Qed.
(*XE*)

(** C63.  Tracking with CuPy arrays leaves the tables of the compiled routine,
    whenever that one succeeds, for all numbers of turns and profiles and any
    offset of the first turn. *)
Lemma C63_cupy_tracking_lem : forall T (add sub mul : T -> T -> T) (sin : T -> T) m xp0 yp0 denergy0 dphi0
    dturns rec_prof deltaturn nturns ftn s,
  length dphi0 = length denergy0 ->
  length xp0 = length yp0 ->
  Forall (fun row => length row = length dphi0) xp0 -> Forall (fun row => length row = length dphi0) yp0 ->
  kick_and_drift add sub mul sin m xp0 yp0 denergy0 dphi0 dturns rec_prof deltaturn nturns (length dphi0) ftn = Ok s ->
  kick_and_drift_cupy add sub mul sin m xp0 yp0 denergy0 dphi0 dturns rec_prof deltaturn nturns = Ok (xp s, yp s).
Proof.
  intros T add sub mul sin m xp0 yp0 de ph d r delta N ftn s L LX FX FY H.
  eapply (cupy_track add sub mul sin (length ph) (length xp0)); eauto.
  - split; auto. intros q row Hq. rewrite Forall_forall in FX. apply FX. eapply nth_error_In; eauto.
  - split; auto. intros q row Hq. rewrite Forall_forall in FY. apply FY. eapply nth_error_In; eauto.
Qed.
(*EX*)
Example C63_ex : exists s,
  kick_and_drift Z.add Z.sub Z.mul (fun x => x * x)%Z (Machine [1;2;3]%Z [1;1;1]%Z [0;1;2]%Z [1;1;1]%Z [2;1;1]%Z [0;0;0]%Z 2%Z)
    [[0;0];[0;0];[0;0]]%Z [[0;0];[0;0];[0;0]]%Z [2;0]%Z [1;-1]%Z 1 1 0 2 2 false = Ok s /\
  xp s = [[-41;1];[1;-1];[-1;-1]]%Z /\ yp s = [[-21;1];[2;0];[8;6]]%Z.
Proof. eexists. split; [vm_compute; reflexivity|]. vm_compute. split; reflexivity. Qed.
(*XE*)
