(** Theorems on the reconstruction functions kept for older programs (C116).
    Statements only: each theorem is closed by the lemma of the same name in
    Proof/COldCalls.v.  Written by tools/mkprops.py. *)
From Coq Require Import String List ZArith Bool QArith Qcanon.
From Verif Require Import Base.Res Base.QcLib Model.MBind Model.MCalls Model.MOldCalls Spec.ReconSpec Spec.CallsSpec
  Spec.OldCallsSpec.
Import ListNotations.
From Verif Require Import Proof.COldCalls.

(** tomolib_wrappers.back_project, called by position or by name, does what
    libtomo.back_project does by position (C109). *)
Theorem C116_back_project : forall (single : Qc -> Qc) (h : nheap) (lw lf lp : nat) (aw af ap : narr)
    (npart nprof nbins : nat) (bin : nat -> nat -> nat) (w : nat -> Qc) (f : nat -> nat -> Qc)
    (pos : list nval) (kw : list (string * nval)),
  nth_error h lw = Some aw -> nth_error h lf = Some af -> nth_error h lp = Some ap -> lw <> lp ->
  vector npart w (values_of aw) -> table nprof nbins f (values_of ap) ->
  holds_ints af npart nprof (fun i j => j * nbins + bin i j)%nat ->
  (forall i j, (i < npart)%nat -> (j < nprof)%nat -> (bin i j < nbins)%nat) ->
  counts [npart; nprof; nprof * nbins]%nat ->
  passes ["weights"; "flat_points"; "flat_profiles"; "nparts"; "nprofs"]%string
    [VArr lw; VArr lf; VArr lp; VInt (Z.of_nat npart); VInt (Z.of_nat nprof)] pos kw ->
  exists h' l' v,
    old_back_project single h pos kw = Ok (h', l') /\
    result_in h h' lw l' aw F64 v /\ vector npart (fun i => w i + gather nprof bin f i)%Qc v.
Proof. exact C116_back_project_lem. Qed.
Print Assumptions C116_back_project.

(** The numbers by name, in another order. *)
Example C116_back_project_ex :
  q_show (old_back_project (fun x => x) q_heap [VArr 5; VArr 4; VArr 6]
    [("nprofs", VInt 2); ("nparts", VInt 3)]%string) 6 =
  Some (5%nat, Some ([3]%nat, F64, [3; 2; 2]%Q), Some ([4]%nat, F64, [1; 0; 0; 1]%Q)) /\
  passes ["weights"; "flat_points"; "flat_profiles"; "nparts"; "nprofs"]%string
    [VArr 5; VArr 4; VArr 6; VInt 3; VInt 2] [VArr 5; VArr 4; VArr 6]
    [("nprofs", VInt 2); ("nparts", VInt 3)]%string.
Proof.
  split; [vm_compute; reflexivity|]. exists [VInt 3; VInt 2]. split; [reflexivity|]. apply Permutation.perm_swap.
Qed.

(** tomolib_wrappers.project, in the same way. *)
Theorem C116_project : forall (single : Qc -> Qc) (h : nheap) (lr lf lw : nat) (ar af aw : narr)
    (npart nprof nbins : nat) (bin : nat -> nat -> nat) (w : nat -> Qc) (f : nat -> nat -> Qc)
    (pos : list nval) (kw : list (string * nval)),
  nth_error h lr = Some ar -> nth_error h lf = Some af -> nth_error h lw = Some aw -> lr <> lw ->
  table nprof nbins f (values_of ar) -> vector npart w (values_of aw) ->
  holds_ints af npart nprof (fun i j => j * nbins + bin i j)%nat ->
  (forall i j, (i < npart)%nat -> (j < nprof)%nat -> (bin i j < nbins)%nat) ->
  counts [npart; nprof; nbins; nprof * nbins]%nat ->
  passes ["recreated"; "flat_points"; "weights"; "nparts"; "nprofs"; "nbins"]%string
    [VArr lr; VArr lf; VArr lw; VInt (Z.of_nat npart); VInt (Z.of_nat nprof); VInt (Z.of_nat nbins)] pos kw ->
  exists h' l' v,
    old_project single h pos kw = Ok (h', l') /\
    result_in h h' lr l' ar F64 v /\ table nprof nbins (fun j b => f j b + histogram npart bin w j b)%Qc v.
Proof. exact C116_project_lem. Qed.
Print Assumptions C116_project.

Example C116_project_ex :
  q_show (old_project (fun x => x) q_heap []
    [("weights", VArr 5); ("recreated", VArr 3); ("flat_points", VArr 4); ("nparts", VInt 3); ("nbins", VInt 2);
     ("nprofs", VInt 2)]%string) 3 =
  Some (8%nat, Some ([2; 2]%nat, F64, [2; 1; 1; 2]%Q), Some ([2; 2]%nat, F32, [0; 0; 0; 0]%Q)).
Proof. vm_compute. reflexivity. Qed.

(** tomolib_wrappers.reconstruct, in the same way (C110). *)
Theorem C116_reconstruct : forall (single sqrt : Qc -> Qc) (h : nheap) (lx lp : nat) (ax ap : narr) (d : dtype)
    (niter npart nprof nbins : nat) (bin : nat -> nat -> nat) (f : nat -> nat -> Qc) (verbose : bool)
    (pos : list nval) (kw : list (string * nval)),
  nth_error h lx = Some ax -> nth_error h lp = Some ap -> precision_for d ap ax ->
  holds_ints ax npart nprof bin -> table nprof nbins f (values_of ap) ->
  (forall i j, (i < npart)%nat -> (j < nprof)%nat -> (bin i j < nbins)%nat) ->
  counts [niter; nbins; npart; nprof] ->
  passes ["xp"; "waterfall"; "niter"; "nbins"; "npart"; "nprof"; "verbose"]%string
    [VArr lx; VArr lp; VInt (Z.of_nat niter); VInt (Z.of_nat nbins); VInt (Z.of_nat npart);
     VInt (Z.of_nat nprof); VBool verbose] pos kw ->
  let call := old_reconstruct single sqrt h pos kw in
  ((forall k, (k <= niter)%nat -> 0 < total npart (weights_after npart nprof nbins bin f true k))%Qc /\
   exists h' lw ld lr vw vd vr,
    call = Ok (h', (lw, ld, lr)) /\
    (forall k b, nth_error h k = Some b -> nth_error h' k = Some b) /\
    (List.length h <= lw)%nat /\ (List.length h <= ld)%nat /\ (List.length h <= lr)%nat /\
    lw <> ld /\ lw <> lr /\ ld <> lr /\
    nth_error h' lw = Some (NArr [npart] true (Floats d vw)) /\
    nth_error h' ld = Some (NArr [niter + 1]%nat true (Floats d vd)) /\
    nth_error h' lr = Some (NArr [nprof; nbins] true (Floats d vr)) /\
    vector npart (weights_after npart nprof nbins bin f true niter) vw /\
    vector (niter + 1)
      (fun k => sqrt (mean_square nprof nbins f (recreated_after npart nprof nbins bin f true k))) vd /\
    table nprof nbins (recreated_after npart nprof nbins bin f true niter) vr) \/
  ((exists k, (k <= niter)%nat /\
     forall i, (i < npart)%nat -> weights_after npart nprof nbins bin f true k i = 0%Qc) /\
   call = Fail (Raised RuntimeError)).
Proof. exact C116_reconstruct_lem. Qed.
Print Assumptions C116_reconstruct.

Example C116_reconstruct_ex :
  q_show3 (old_reconstruct (fun x => x) (fun x => x) q_heap [VArr 0; VArr 7]
      [("niter", VInt 0); ("npart", VInt 3); ("nprof", VInt 2); ("nbins", VInt 2); ("verbose", VBool true)]%string) =
  Some (Some ([3]%nat, F32, [2; 1; 1]%Q), Some ([1]%nat, F32, [1 # 16]%Q),
        Some ([2; 2]%nat, F32, [3 # 4; 1 # 4; 1 # 4; 3 # 4]%Q)).
Proof. vm_compute. reflexivity. Qed.

(** The functions that the warning of the kept ones names do not have the same
    signature: a call with a number (for project also the waterfall) by the name
    of the kept function raises a TypeError. *)
Theorem C116_moved_refuted : forall (single sqrt : Qc -> Qc) (h : nheap) (pos : list nval)
    (kw : list (string * nval)),
  (names_one ["nparts"; "nprofs"]%string kw -> call_back_project single h pos kw = Fail (Raised TypeError)) /\
  (names_one ["recreated"; "nparts"; "nprofs"; "nbins"]%string kw ->
     call_project single h pos kw = Fail (Raised TypeError)) /\
  (names_one ["niter"; "nbins"; "npart"; "nprof"]%string kw ->
     call_reconstruct single sqrt h pos kw = Fail (Raised TypeError)).
Proof. exact C116_moved_refuted_lem. Qed.
Print Assumptions C116_moved_refuted.

(** A call that the kept function takes. *)
Example C116_moved_ex :
  let kw := [("nprofs", VInt 2); ("nparts", VInt 3)]%string in
  names_one ["nparts"; "nprofs"]%string kw /\
  call_back_project (fun x => x) q_heap [VArr 5; VArr 4; VArr 6] kw = Fail (Raised TypeError) /\
  exists r, old_back_project (fun x => x) q_heap [VArr 5; VArr 4; VArr 6] kw = Ok r.
Proof.
  split; [exists "nparts"%string, (VInt 3); split; [left; reflexivity|right; left; reflexivity]|].
  split; [reflexivity|]. eexists. vm_compute. reflexivity.
Qed.
