(** Theorems on the multi-bunch reconstruction (C33).
    Statements only: each theorem is closed by the lemma of the same name in
    Proof/CMulti.v.  Written by tools/mkprops.py. *)
From Coq Require Import List ZArith QArith Qcanon Bool Lia.
From Verif Require Import Base.Res Base.QcLib Model.MRecon Model.MMulti Spec.ReconSpec Spec.TomoSpec Spec.MultiSpec.
Import ListNotations.
Local Open Scope Qc_scope.
From Verif Require Import Proof.CMulti.

(** Example: one profile of four bins, one particle in bin 0, two bunches
    two bins apart. *)
Definition exm : tomo :=
  match tomography 1 4 [[qz 3; qz 1; qz 3; qz 1]] (CArr2 1 [[0]]) CNone with Ok t => t | Fail _ => Tomo [] 0 0 None None None end.
Example exm_built : tomography 1 4 [[qz 3; qz 1; qz 3; qz 1]] (CArr2 1 [[0]]) CNone = Ok exm.
Proof.
  unfold exm. destruct (tomography 1 4 [[qz 3; qz 1; qz 3; qz 1]] (CArr2 1 [[0]]) CNone) eqn:E; [reflexivity|].
  vm_compute in E. discriminate.
Qed.
Example exm_reachable : reachable exm.
Proof.
  exists 1%nat, 4%nat, [[qz 3; qz 1; qz 3; qz 1]], (CArr2 1 [[0]]), CNone, exm, []. repeat split; try exact exm_built; repeat constructor.
Qed.
Definition exm_sqrt (x : Qc) : Qc := x.
Example exm_good : good_call exm [[0]]%Z [0; 2]%Z [0; 2]%Z [1; 3]%Z 1 (repeat 0 4).
Proof.
  constructor; try exact exm_reachable; try reflexivity; try lia.
  - cbn. lia.
  - intros [|[|c]]; cbn; try lia.
  - repeat constructor; intros; discriminate.
Qed.
Example exm_run : match run_multi exm_sqrt (repeat 0 4) exm [0; 2]%Z [0; 2]%Z [1; 3]%Z 1 with
  | Ok r => Some (map this (mr_weights r), map (map this) (mr_weight_split r), map (map this) (mr_recreated r), mr_calls r)
  | Fail _ => None end =
  Some ([1 # 4; 1 # 4], [[1 # 4]; [1 # 4]], [[1 # 2; 0; 1 # 2; 0]], [(1, 1); (1, 1)]%Z)%Q.
Proof. vm_compute. reflexivity. Qed.

(** C33.  What happens, for any well-formed call: the reconstruction of all
    bunches together is returned if the first bunch keeps a positive weight,
    otherwise RuntimeError is raised.  (The property asks for "some bunch".)
    Nothing outside the arrays is read or written, and the result does not
    depend on the uninitialised memory [split0]. *)
Theorem C33_outcome_partial : forall sqrt split0 t xp centers cutl cutr niter,
  good_call t xp centers cutl cutr niter split0 ->
  match run_multi sqrt split0 t centers cutl cutr niter with
  | Ok r =>
    (forall k, (k <= Z.to_nat niter)%nat -> 0 < bunch_weight t xp centers cutl cutr 0 k) /\
    mr_weights r = tab (length centers * length xp) (weight_after t xp centers cutl cutr (Z.to_nat niter)) /\
    concat (mr_weight_split r) = mr_weights r /\ rectangular (length centers) (length xp) (mr_weight_split r) /\
    mr_recreated r = tab (t_nprofs t) (fun j => tab (t_nbins t) (recreated_by t xp centers cutl cutr (Z.to_nat niter) j)) /\
    mr_diff r = tab (S (Z.to_nat niter)) (fun k =>
      sqrt (mean_square (t_nprofs t) (t_nbins t) (cell (t_waterfall t)) (recreated_by t xp centers cutl cutr k)))
  | Fail e => e = Raised RuntimeError /\
    exists k, (k <= Z.to_nat niter)%nat /\ bunch_weight t xp centers cutl cutr 0 k = 0
  end.
Proof. exact C33_outcome_partial_lem. Qed.
Print Assumptions C33_outcome_partial.

(** C33.  A particle that leaves the cuts of a bunch at some profile gets
    weight zero there; the other weights are not negative; the recreated
    waterfall has non-negative rows with sum one. *)
Theorem C33_cuts : forall sqrt split0 t xp centers cutl cutr niter r,
  good_call t xp centers cutl cutr niter split0 -> run_multi sqrt split0 t centers cutl cutr niter = Ok r ->
  (forall c i, (c < length centers)%nat -> (i < length xp)%nat ->
     0 <= cell (mr_weight_split r) c i /\
     (~ within_cuts t xp centers cutl cutr c i -> cell (mr_weight_split r) c i = 0)) /\
  rectangular (t_nprofs t) (t_nbins t) (mr_recreated r) /\ good_rows (mr_recreated r).
Proof. exact C33_cuts_lem. Qed.
Print Assumptions C33_cuts.

(** C33 is false: with the first bunch empty the call fails although the
    second bunch has weight. *)
Theorem C33_some_bunch_refuted : ~ (forall sqrt split0 t xp centers cutl cutr niter,
  good_call t xp centers cutl cutr niter split0 ->
  (forall k, (k <= Z.to_nat niter)%nat -> exists c, (c < length centers)%nat /\ 0 < bunch_weight t xp centers cutl cutr c k) ->
  exists r, run_multi sqrt split0 t centers cutl cutr niter = Ok r).
Proof. exact C33_some_bunch_refuted_lem. Qed.
Print Assumptions C33_some_bunch_refuted.

(** C33 is false: an ordinary choice of centres makes the code leave its
    arrays. *)
Theorem C33_bounds_refuted : ~ (forall sqrt split0 t xp centers cutl cutr niter,
  reachable t -> t_xp t = Some xp -> length cutl = length centers -> length cutr = length centers ->
  (0 <= niter)%Z -> Z.of_nat (length split0) = ((niter + 1) * Z.of_nat (length centers))%Z ->
  (forall c, (c < length centers)%nat ->
     (0 <= znth cutl c)%Z /\ (znth cutl c < znth cutr c)%Z /\ (znth cutr c < Z.of_nat (t_nbins t))%Z /\
     (znth cutl c <= znth centers c <= znth cutr c)%Z) ->
  run_multi sqrt split0 t centers cutl cutr niter <> Fail OutOfBounds).
Proof. exact C33_bounds_refuted_lem. Qed.
Print Assumptions C33_bounds_refuted.

(** C33.  One bunch with centre 0 and cuts that contain the whole image: run
    of the multi-bunch object gives what run of the single-bunch object
    gives. *)
Theorem C33_one_bunch : forall sqrt split0 t niter l r, reachable t -> (0 <= niter)%Z ->
  Z.of_nat (length split0) = (niter + 1)%Z ->
  (l <= 0)%Z -> (Z.of_nat (t_nbins t) <= r + 1)%Z -> l <> r ->
  match run sqrt t niter with
  | Ok (w, d, rec, calls) =>
    exists m, run_multi sqrt split0 t [0]%Z [l] [r] niter = Ok m /\
      mr_weights m = w /\ mr_weight_split m = [w] /\ mr_diff m = d /\ mr_recreated m = rec /\ mr_calls m = calls
  | Fail e => run_multi sqrt split0 t [0]%Z [l] [r] niter = Fail e
  end.
Proof. exact C33_one_bunch_lem. Qed.
Print Assumptions C33_one_bunch.

(** C33.  The figures run reports per bunch: for bunch c, the squared
    differences strictly between the cuts of the bunches 0..c, taken in the
    flat array (so from the first profile unless the cuts exceed a row),
    divided by nprof * (right - left).  One profile and the first bunch: the
    sum runs over left < b < right. *)
Theorem C33_split_value_partial : forall sqrt split0 t xp centers cutl cutr niter r,
  good_call t xp centers cutl cutr niter split0 -> run_multi sqrt split0 t centers cutl cutr niter = Ok r ->
  rectangular (length centers) (S (Z.to_nat niter)) (mr_diff_split r) /\
  forall c k, (c < length centers)%nat -> (k <= Z.to_nat niter)%nat ->
    cell (mr_diff_split r) c k =
    sqrt (sumn (S c) (fun c' => sumn (t_nprofs t) (fun j => sumn (t_nbins t) (fun b =>
            let d := cell (t_waterfall t) j b - recreated_by t xp centers cutl cutr k j b in
            let i := Z.of_nat (j * t_nbins t + b) in
            if ((i <? znth cutr c') && (znth cutl c' <? i))%Z then d * d else 0)))
          / qz (Z.of_nat (t_nprofs t) * (znth cutr c - znth cutl c))).
Proof. exact C33_split_value_partial_lem. Qed.
Print Assumptions C33_split_value_partial.

(** C33 is false: the figure of a bunch is not the RMS difference inside its
    cuts. *)
Theorem C33_split_refuted : ~ (forall sqrt split0 t xp centers cutl cutr niter r c,
  good_call t xp centers cutl cutr niter split0 -> run_multi sqrt split0 t centers cutl cutr niter = Ok r ->
  (c < length centers)%nat -> (0 <= znth cutl c < znth cutr c)%Z -> (znth cutr c <= Z.of_nat (t_nbins t))%Z ->
  cell (mr_diff_split r) c (Z.to_nat niter) =
    sqrt (square_sum_between (t_nprofs t) (Z.to_nat (znth cutl c)) (Z.to_nat (znth cutr c))
            (fun j b => cell (t_waterfall t) j b - cell (mr_recreated r) j b)
          / qz (Z.of_nat (t_nprofs t) * (znth cutr c - znth cutl c)))).
Proof. exact C33_split_refuted_lem. Qed.
Print Assumptions C33_split_refuted.

(** C33.  The figures of run_hybrid are the RMS differences inside the cuts
    (left included, right not). *)
Theorem C33_hybrid_split : forall sqrt dw nprofs nbins cuts, rectangular nprofs nbins dw -> (0 < nprofs)%nat ->
  Forall (fun c => (0 <= fst c < snd c)%Z /\ (snd c <= Z.of_nat nbins)%Z) cuts ->
  hybrid_discrepancy sqrt dw cuts nprofs =
  Ok (map (fun c => sqrt (square_sum_between nprofs (Z.to_nat (fst c)) (Z.to_nat (snd c)) (cell dw)
                          / qn (nprofs * Z.to_nat (snd c - fst c)))) cuts).
Proof. exact C33_hybrid_split_lem. Qed.
Print Assumptions C33_hybrid_split.

(** C33 is false: run and run_hybrid do not use the same particles.  A
    particle on the edge of a cut counts in run only. *)
Theorem C33_same_particles_refuted : ~ (forall sqrt split0 t xp centers cutl cutr niter r,
  good_call t xp centers cutl cutr niter split0 -> run_multi sqrt split0 t centers cutl cutr niter = Ok r ->
  forall r', run_hybrid_multi sqrt t centers (combine cutl cutr) (Z.to_nat niter) = Ok r' ->
  mr_weights r' = mr_weights r).
Proof. exact C33_same_particles_refuted_lem. Qed.
Print Assumptions C33_same_particles_refuted.

(** C33 is false for run_hybrid: the compensation factors are computed from a
    transposed particle table. *)
Theorem C33_hybrid_count_refuted : ~ (forall xp nprofs nbins, rectangular (length xp) nprofs xp ->
  (0 < length xp)%nat -> (0 < nprofs)%nat ->
  Forall (Forall (fun x => (0 <= x < Z.of_nat nbins)%Z)) xp ->
  hybrid_reciprocal xp [0]%Z nprofs nbins =
  Ok (tab nprofs (fun j => tab nbins (compensation (length xp) nprofs nbins (bin_of xp) j)))).
Proof. exact C33_hybrid_count_refuted_lem. Qed.
Print Assumptions C33_hybrid_count_refuted.

(** C33.  run_hybrid in full, for cuts inside the image and particles that all
    bunches keep inside it: if some weight is left after each of the
    iterations 0..niter, the result holds the weights of the last iteration,
    flat and per bunch, the RMS difference of every iteration, per bunch the
    RMS difference inside its cuts, and the recreated waterfall.  Otherwise it
    raises WaterfallReducedToZero.  The weights are those of the
    specification: compensation factors from the misread table, only particles
    strictly inside the cuts. *)
Theorem C33_hybrid_outcome : forall sqrt t xp centers cutl cutr niter,
  good_hybrid_call t xp centers cutl cutr ->
  let w k := hybrid_weight_after t xp centers cutl cutr k in
  let d k j b := cell (t_waterfall t) j b - hybrid_recreated_by t xp centers cutl cutr k j b in
  let left c := Z.to_nat (znth cutl c) in
  let right c := Z.to_nat (znth cutr c) in
  let tot k := total (length centers * length xp) (w k) in
  ((forall k, (k <= niter)%nat -> 0 < tot k) /\
   exists r, run_hybrid_multi sqrt t centers (combine cutl cutr) niter = Ok r /\
   mr_weights r = tab (length centers * length xp) (w niter) /\
   mr_weight_split r = tab (length centers) (fun c => tab (length xp) (fun i => w niter (c * length xp + i)%nat)) /\
   mr_diff r = tab (S niter) (fun k =>
     sqrt (sumn (t_nprofs t) (fun j => sumn (t_nbins t) (fun b => d k j b * d k j b)) / qn (t_nprofs t * t_nbins t))) /\
   mr_diff_split r = tab (length centers) (fun c => tab (S niter) (fun k =>
     sqrt (square_sum_between (t_nprofs t) (left c) (right c) (d k) / qn (t_nprofs t * (right c - left c))))) /\
   mr_recreated r = tab (t_nprofs t) (fun j => tab (t_nbins t) (hybrid_recreated_by t xp centers cutl cutr niter j)) /\
   mr_calls r = []) \/
  ((exists k, (k <= niter)%nat /\ ~ 0 < tot k) /\
   run_hybrid_multi sqrt t centers (combine cutl cutr) niter = Fail (Raised WaterfallReducedToZero)).
Proof. exact C33_hybrid_outcome_lem. Qed.
Print Assumptions C33_hybrid_outcome.

(** A case with two bunches, both inside their cuts. *)
Definition exh : tomo :=
  match tomography 1 6 [[qz 1; qz 3; qz 1; qz 1; qz 3; qz 1]] (CArr2 1 [[1]]) CNone with Ok t => t | Fail _ => Tomo [] 0 0 None None None end.
Example exh_built : tomography 1 6 [[qz 1; qz 3; qz 1; qz 1; qz 3; qz 1]] (CArr2 1 [[1]]) CNone = Ok exh.
Proof.
  unfold exh. destruct (tomography 1 6 [[qz 1; qz 3; qz 1; qz 1; qz 3; qz 1]] (CArr2 1 [[1]]) CNone) eqn:E; [reflexivity|].
  vm_compute in E. discriminate.
Qed.
Example exh_reachable : reachable exh.
Proof.
  exists 1%nat, 6%nat, [[qz 1; qz 3; qz 1; qz 1; qz 3; qz 1]], (CArr2 1 [[1]]), CNone, exh, [].
  split; [split; repeat constructor|]. split; [repeat constructor|]. split; [constructor|]. split; [constructor|].
  split; [exact exh_built|reflexivity].
Qed.
Example exh_good : good_hybrid_call exh [[1]]%Z [0; 3]%Z [0; 3]%Z [3; 6]%Z.
Proof.
  constructor; try exact exh_reachable; try (vm_compute; reflexivity).
  - assert (E : t_nbins exh = 6%nat) by (vm_compute; reflexivity). rewrite E. clear E.
    intros [|[|c]] Hc; cbn in *; lia.
  - repeat constructor; intros; discriminate.
Qed.
Example exh_run : match run_hybrid_multi exm_sqrt exh [0; 3]%Z [(0, 3); (3, 6)]%Z 1 with
  | Ok r => Some (map (map this) (mr_weight_split r), map this (mr_diff r), map (map this) (mr_diff_split r), map (map this) (mr_recreated r))
  | Fail _ => None end =
  Some ([[1 # 10]; [1 # 10]], [1 # 50; 1 # 50], [[1 # 50; 1 # 50]; [1 # 50; 1 # 50]], [[0; 1 # 2; 0; 0; 1 # 2; 0]])%Q.
Proof. vm_compute. reflexivity. Qed.
