(** Theorems on the symmetries of the reconstruction and on its discrepancies (C97-C102).
    Statements only: each theorem is closed by the lemma of the same name in
    Proof/CSym.v.  Written by tools/mkprops.py. *)
From Coq Require Import List ZArith QArith Qcanon Bool Lia.
From Verif Require Import Base.Res Base.QcLib Model.MRecon Spec.TomoSpec Spec.SymSpec.
Import ListNotations.
Local Open Scope Qc_scope.
From Verif Require Import Proof.CSym.

(** C97.  If a run with n + m iterations succeeds, so does one with n, and its
    discrepancies are the first of the longer run. *)
Theorem C97_prefix_run : forall sqrt t xp n m w' d' r' c', reachable t -> t_xp t = Some xp ->
  run sqrt t (Z.of_nat (n + m)) = Ok (w', d', r', c') ->
  exists w r c, run sqrt t (Z.of_nat n) = Ok (w, firstn (n + 1) d', r, c).
Proof. exact C97_prefix_run_lem. Qed.
Print Assumptions C97_prefix_run.

(** C97.  A run with more iterations than one that raised raises the same. *)
Theorem C97_failure_run : forall sqrt t xp n m e, reachable t -> t_xp t = Some xp ->
  run sqrt t (Z.of_nat n) = Fail e -> run sqrt t (Z.of_nat (n + m)) = Fail e.
Proof. exact C97_failure_run_lem. Qed.
Print Assumptions C97_failure_run.

(** C97 for run_hybrid. *)
Theorem C97_prefix_hybrid : forall sqrt t xp n m w' d' r', reachable t -> t_xp t = Some xp ->
  run_hybrid sqrt t (n + m) = Ok (w', d', r') ->
  exists w r, run_hybrid sqrt t n = Ok (w, firstn (n + 1) d', r).
Proof. exact C97_prefix_hybrid_lem. Qed.
Print Assumptions C97_prefix_hybrid.

Theorem C97_failure_hybrid : forall sqrt t xp n m e, reachable t -> t_xp t = Some xp ->
  run_hybrid sqrt t n = Fail e -> run_hybrid sqrt t (n + m) = Fail e.
Proof. exact C97_failure_hybrid_lem. Qed.
Print Assumptions C97_failure_hybrid.

(** Readable results. *)
Definition diffs (r : res (list Qc * list Qc * list (list Qc) * list (Z * Z))) :=
  match r with Ok (_, d, _, _) => Some (map this d) | Fail _ => None end.
Definition diffs_h (r : res (list Qc * list Qc * list (list Qc))) :=
  match r with Ok (_, d, _) => Some (map this d) | Fail _ => None end.
(** Two profiles of two bins and three particles. *)
Definition sym_t : tomo := built 2 2 [[qz 3; 1]; [1; qz 3]] [[0; 1]; [0; 0]; [0; 1]].
Example sym_t_reachable : reachable sym_t /\ t_xp sym_t = Some [[0; 1]; [0; 0]; [0; 1]]%Z.
Proof.
  split; [|vm_compute; reflexivity].
  apply built_reachable; [split; [reflexivity|repeat constructor]|repeat constructor|vm_compute; reflexivity].
Qed.
Example ex_C97 : diffs (run (fun x => x) sym_t 1) = Some [1 # 32; 145 # 4624]%Q /\
  diffs (run (fun x => x) sym_t 2) = Some [1 # 32; 145 # 4624; 7165 # 226576]%Q /\
  diffs_h (run_hybrid (fun x => x) sym_t 2) = Some [1 # 32; 85 # 2704; 2137 # 67600]%Q.
Proof. split; [|split]; vm_compute; reflexivity. Qed.

(** C98.  Taking the profiles, and the coordinates of the particles at them,
    in another order gives the same weights and discrepancies, and the rows
    of the recreated waterfall in that order. *)
Theorem C98_profile_order_run : forall sqrt p t t' xp xp' niter, reachable t -> reachable t' ->
  t_xp t = Some xp -> t_xp t' = Some xp' -> (0 <= niter)%Z ->
  renumbering (t_nprofs t) p -> profiles_reordered p t t' xp xp' ->
  run sqrt t' niter =
  match run sqrt t niter with
  | Ok (w, d, r, c) => Ok (w, d, tab (t_nprofs t) (fun j => nth (p j) r []), c)
  | Fail e => Fail e
  end.
Proof. exact C98_profile_order_run_lem. Qed.
Print Assumptions C98_profile_order_run.

(** C98 for run_hybrid. *)
Theorem C98_profile_order_hybrid : forall sqrt p t t' xp xp' n, reachable t -> reachable t' ->
  t_xp t = Some xp -> t_xp t' = Some xp' ->
  renumbering (t_nprofs t) p -> profiles_reordered p t t' xp xp' ->
  run_hybrid sqrt t' n =
  match run_hybrid sqrt t n with
  | Ok (w, d, r) => Ok (w, d, tab (t_nprofs t) (fun j => nth (p j) r []))
  | Fail e => Fail e
  end.
Proof. exact C98_profile_order_hybrid_lem. Qed.
Print Assumptions C98_profile_order_hybrid.

(** The two profiles exchanged. *)
Definition swap_t : tomo := built 2 2 [[1; qz 3]; [qz 3; 1]] [[1; 0]; [0; 0]; [1; 0]].
Definition exchange (i : nat) : nat := match i with O => 1%nat | _ => 0%nat end.
Example swap_t_reachable : reachable swap_t /\ t_xp swap_t = Some [[1; 0]; [0; 0]; [1; 0]]%Z.
Proof.
  split; [|vm_compute; reflexivity].
  apply built_reachable; [split; [reflexivity|repeat constructor]|repeat constructor|vm_compute; reflexivity].
Qed.
Example ex_C98 : renumbering 2 exchange /\
  profiles_reordered exchange sym_t swap_t [[0; 1]; [0; 0]; [0; 1]]%Z [[1; 0]; [0; 0]; [1; 0]]%Z /\
  diffs (run (fun x => x) swap_t 2) = diffs (run (fun x => x) sym_t 2).
Proof.
  split; [|split; [|vm_compute; reflexivity]].
  - split; intros [|[|i]]; simpl; try lia. intros [|[|j]]; simpl; lia. intros [|[|j]]; simpl; lia.
  - split; [reflexivity|]. split; [|split; [reflexivity|]].
    + change (length (t_waterfall sym_t)) with 2%nat. intros [|[|j]] H; [reflexivity|reflexivity|lia].
    + change (length (t_waterfall sym_t)) with 2%nat. simpl length.
      intros [|[|[|i]]] [|[|j]] H H'; solve [reflexivity|lia].
Qed.

(** C99.  Renumbering the bins of each profile, in the waterfall and in the
    coordinates, gives the same weights and discrepancies and the same
    recreated waterfall with the bins renumbered. *)
Theorem C99_bin_order_run : forall sqrt q t t' xp xp' niter, reachable t -> reachable t' ->
  t_xp t = Some xp -> t_xp t' = Some xp' -> (0 <= niter)%Z ->
  (forall j, (j < t_nprofs t)%nat -> renumbering (t_nbins t) (q j)) -> bins_renumbered q t t' xp xp' ->
  match run sqrt t niter with
  | Ok (w, d, r, c) => exists r', run sqrt t' niter = Ok (w, d, r', c) /\ rectangular (t_nprofs t) (t_nbins t) r' /\
      forall j b, (j < t_nprofs t)%nat -> (b < t_nbins t)%nat -> cell r' j (q j b) = cell r j b
  | Fail e => run sqrt t' niter = Fail e
  end.
Proof. exact C99_bin_order_run_lem. Qed.
Print Assumptions C99_bin_order_run.

(** C99 for run_hybrid. *)
Theorem C99_bin_order_hybrid : forall sqrt q t t' xp xp' n, reachable t -> reachable t' ->
  t_xp t = Some xp -> t_xp t' = Some xp' ->
  (forall j, (j < t_nprofs t)%nat -> renumbering (t_nbins t) (q j)) -> bins_renumbered q t t' xp xp' ->
  match run_hybrid sqrt t n with
  | Ok (w, d, r) => exists r', run_hybrid sqrt t' n = Ok (w, d, r') /\ rectangular (t_nprofs t) (t_nbins t) r' /\
      forall j b, (j < t_nprofs t)%nat -> (b < t_nbins t)%nat -> cell r' j (q j b) = cell r j b
  | Fail e => run_hybrid sqrt t' n = Fail e
  end.
Proof. exact C99_bin_order_hybrid_lem. Qed.
Print Assumptions C99_bin_order_hybrid.

(** The time axis reversed: bin b becomes bin 1 - b. *)
Definition mirror_t : tomo := built 2 2 [[1; qz 3]; [qz 3; 1]] [[1; 0]; [1; 1]; [1; 0]].
Example mirror_t_reachable : reachable mirror_t /\ t_xp mirror_t = Some [[1; 0]; [1; 1]; [1; 0]]%Z.
Proof.
  split; [|vm_compute; reflexivity].
  apply built_reachable; [split; [reflexivity|repeat constructor]|repeat constructor|vm_compute; reflexivity].
Qed.
Example ex_C99 : (forall j, (j < 2)%nat -> renumbering 2 (fun b => 1 - b)%nat) /\
  bins_renumbered (fun _ b => 1 - b)%nat sym_t mirror_t [[0; 1]; [0; 0]; [0; 1]]%Z [[1; 0]; [1; 1]; [1; 0]]%Z /\
  diffs (run (fun x => x) mirror_t 2) = diffs (run (fun x => x) sym_t 2).
Proof.
  split; [|split; [|vm_compute; reflexivity]].
  - intros j Hj. split; intros; lia.
  - split; [reflexivity|]. split; [reflexivity|]. split; [|split; [reflexivity|]].
    + change (t_nprofs sym_t) with 2%nat. change (t_nbins sym_t) with 2%nat.
      intros [|[|j]] [|[|b]] H H'; solve [lia|apply Qc_is_canon; vm_compute; reflexivity].
    + change (t_nprofs sym_t) with 2%nat. simpl length.
      intros [|[|[|i]]] [|[|j]] H H'; solve [reflexivity|lia].
Qed.

(** C100 for run_hybrid.  With every particle given k times, each copy gets
    the weight of the particle, and everything else is the same. *)
Theorem C100_copies_hybrid : forall sqrt t t' xp k n, reachable t -> reachable t' -> (0 < k)%nat ->
  t_xp t = Some xp -> t_xp t' = Some (copies k xp) -> t_waterfall t' = t_waterfall t ->
  run_hybrid sqrt t' n =
  match run_hybrid sqrt t n with
  | Ok (w, d, r) => Ok (copies k w, d, r)
  | Fail e => Fail e
  end.
Proof. exact C100_copies_hybrid_lem. Qed.
Print Assumptions C100_copies_hybrid.

(** C100 for run without iterations. *)
Theorem C100_copies_run_partial : forall sqrt t t' xp k, reachable t -> reachable t' -> (0 < k)%nat ->
  t_xp t = Some xp -> t_xp t' = Some (copies k xp) -> t_waterfall t' = t_waterfall t ->
  run sqrt t' 0 =
  match run sqrt t 0 with
  | Ok (w, d, r, c) => Ok (copies k w, d, r, c)
  | Fail e => Fail e
  end.
Proof. exact C100_copies_run_partial_lem. Qed.
Print Assumptions C100_copies_run_partial.

(** C100 is false for run: with iterations the recreated waterfall depends on
    how many copies there are, because the waterfall of the iteration before
    is added to a histogram that is larger for more particles. *)
Theorem C100_copies_refuted : exists t t' xp, reachable t /\ reachable t' /\ t_xp t = Some xp /\
  t_xp t' = Some (copies 2 xp) /\ t_waterfall t' = t_waterfall t /\
  forall sqrt, exists w d r c w' d' r' c', run sqrt t 1 = Ok (w, d, r, c) /\ run sqrt t' 1 = Ok (w', d', r', c') /\
    r' <> r.
Proof. exact C100_copies_refuted_lem. Qed.
Print Assumptions C100_copies_refuted.

Definition twice_t : tomo := built 2 2 [[qz 3; 1]; [1; qz 3]] [[0; 1]; [0; 0]; [0; 1]; [0; 1]; [0; 0]; [0; 1]].
Example ex_C100 : t_xp twice_t = Some (copies 2 [[0; 1]; [0; 0]; [0; 1]])%Z /\ t_waterfall twice_t = t_waterfall sym_t /\
  diffs_h (run_hybrid (fun x => x) twice_t 2) = diffs_h (run_hybrid (fun x => x) sym_t 2) /\
  diffs (run (fun x => x) twice_t 2) <> diffs (run (fun x => x) sym_t 2).
Proof. split; [|split; [|split]]; vm_compute; try reflexivity. discriminate. Qed.

(** C101.  Every discrepancy that run returns is the root of a number between
    zero and two divided by the number of bins, whatever the data. *)
Theorem C101_bounds_run : forall sqrt t xp niter w d r c, reachable t -> t_xp t = Some xp -> (0 <= niter)%Z ->
  run sqrt t niter = Ok (w, d, r, c) ->
  Forall (fun x => exists v, x = sqrt v /\ 0 <= v /\ v <= qn 2 / qn (t_nbins t)) d.
Proof. exact C101_bounds_run_lem. Qed.
Print Assumptions C101_bounds_run.

Theorem C101_bounds_hybrid : forall sqrt t xp n w d r, reachable t -> t_xp t = Some xp ->
  run_hybrid sqrt t n = Ok (w, d, r) ->
  Forall (fun x => exists v, x = sqrt v /\ 0 <= v /\ v <= qn 2 / qn (t_nbins t)) d.
Proof. exact C101_bounds_hybrid_lem. Qed.
Print Assumptions C101_bounds_hybrid.

(** The largest possible value is reached: all measured charge in one bin, all
    particles in the other at one of two profiles. *)
Example ex_C101 : diffs (run (fun x => x) (built 2 2 [[1; 0]; [1; 0]] [[0; 1]; [0; 1]]) 0) = Some [1 # 2]%Q /\
  diffs (run (fun x => x) sym_t 0) = Some [1 # 32]%Q.
Proof. split; vm_compute; reflexivity. Qed.

(** C102 is false: there are data for which each of the first iterations makes
    the discrepancy larger, both in run and in run_hybrid. *)
Theorem C102_never_worse_refuted : exists t, reachable t /\ t_xp t <> None /\ forall sqrt, increasing sqrt ->
  (exists w d0 d1 d2 r c, run sqrt t 2 = Ok (w, [d0; d1; d2], r, c) /\ d0 < d1 /\ d1 < d2) /\
  (exists w d0 d1 d2 r, run_hybrid sqrt t 2 = Ok (w, [d0; d1; d2], r) /\ d0 < d1 /\ d1 < d2).
Proof. exact C102_never_worse_refuted_lem. Qed.
Print Assumptions C102_never_worse_refuted.

(** There are such functions: the identity. *)
Example ex_C102 : increasing (fun x => x).
Proof. intros x y _ H. exact H. Qed.
