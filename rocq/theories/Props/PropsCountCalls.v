(** Theorems on calls of the compiled counting routine for several bunches (C114).
    Statements only: each theorem is closed by the lemma of the same name in
    Proof/CCountCalls.v.  Written by tools/mkprops.py. *)
From Coq Require Import String List ZArith Bool QArith Qcanon.
From Verif Require Import Base.Res Base.QcLib Model.MBind Model.MCalls Model.MCountCalls Spec.CallsSpec
  Spec.CountCallsSpec.
Import ListNotations.
From Verif Require Import Proof.CCountCalls.

(** count_particles_in_bins_multi adds to every counter the number of pairs of a
    bunch and a particle in its bin, for arrays of any type and layout.  It works
    in single precision only if all three arrays are of the exact types, returns
    the array given if that has the type worked in, and changes no other. *)
Theorem C114_counts : forall (single : Qc -> Qc) (h : nheap) (lp lx lc : nat) (ap ax ac : narr) (d : dtype)
    (npart nprof nbins nbunch : nat) (x : nat -> nat -> Z) (centre : nat -> Z) (xs cs : list Z)
    (f : nat -> nat -> Qc),
  nth_error h lp = Some ap -> nth_error h lx = Some ax -> nth_error h lc = Some ac -> count_precision d ap ax ac ->
  has_ints ax xs -> table npart nprof x xs -> has_ints ac cs -> vector nbunch centre cs ->
  table nprof nbins f (values_of ap) ->
  (forall c i j, (c < nbunch)%nat -> (i < npart)%nat -> (j < nprof)%nat ->
     (0 <= x i j + centre c < Z.of_nat nbins)%Z) ->
  counts [npart; nprof; nbins; nbunch] ->
  exists h' l' v,
    call_count_multi single h [VArr lp; VArr lx; VArr lc; VInt (Z.of_nat nprof); VInt (Z.of_nat npart);
      VInt (Z.of_nat nbins); VInt (Z.of_nat nbunch)] [] = Ok (h', l') /\
    result_in h h' lp l' ap d v /\
    table nprof nbins (fun j b => f j b + qn (copies_in nbunch npart x centre j b))%Qc v.
Proof. exact C114_counts_lem. Qed.
Print Assumptions C114_counts.

(** Three particles in two bunches, two bins apart. *)
Example C114_counts_ex :
  q_show (call_count_multi (fun x => x) k_heap [VArr 3; VArr 0; VArr 1; VInt 2; VInt 3; VInt 4; VInt 2]%Z []) 3 =
  Some (3%nat, Some ([2; 4]%nat, F32, [2; 1; 2; 1; 1; 2; 1; 2]%Q), Some ([2; 4]%nat, F32, [2; 1; 2; 1; 1; 2; 1; 2]%Q)).
Proof. vm_compute. reflexivity. Qed.
Example C114_hypotheses_ex :
  has_ints (NArr [3; 2]%nat true (Int32 [0; 1; 1; 1; 0; 0]%Z)) [0; 1; 1; 1; 0; 0]%Z /\
  table 3 2 (fun i j => nth (i * 2 + j) [0; 1; 1; 1; 0; 0]%Z 0%Z) [0; 1; 1; 1; 0; 0]%Z /\
  vector 2 (fun c => nth c [0; 2]%Z 0%Z) [0; 2]%Z /\
  forall c i j, (c < 2)%nat -> (i < 3)%nat -> (j < 2)%nat ->
    (0 <= nth (i * 2 + j) [0; 1; 1; 1; 0; 0] 0 + nth c [0; 2] 0 < 4)%Z.
Proof.
  split. { split; [left; reflexivity|]. repeat (constructor; [split; [discriminate|reflexivity]|]). constructor. }
  split.
  { split; [reflexivity|]. intros i j A B.
    do 3 (destruct i as [|i]; [do 2 (destruct j as [|j]; [reflexivity|]); do 2 apply le_S_n in B; inversion B|]).
    do 3 apply le_S_n in A. inversion A. }
  split.
  { split; [reflexivity|]. intros i A. do 2 (destruct i as [|i]; [reflexivity|]). do 2 apply le_S_n in A. inversion A. }
  intros c i j C A B.
  do 2 (destruct c as [|c]; [
    do 3 (destruct i as [|i]; [
      do 2 (destruct j as [|j]; [split; [discriminate|reflexivity]|]); do 2 apply le_S_n in B; inversion B|]);
    do 3 apply le_S_n in A; inversion A|]).
  do 2 apply le_S_n in C. inversion C.
Qed.

(** Counters in single precision are not updated when the positions or the
    centres are not a contiguous array of 32-bit integers, such as a list of
    centres: the result is a new array of doubles. *)
Theorem C114_single_refuted : forall (single : Qc -> Qc) (h : nheap) (lp lx lc : nat) (ap ax ac : narr)
    (npart nprof nbins nbunch : nat) (x : nat -> nat -> Z) (centre : nat -> Z) (xs cs : list Z)
    (f : nat -> nat -> Qc),
  nth_error h lp = Some ap -> nth_error h lx = Some ax -> nth_error h lc = Some ac ->
  floats_of F32 ap -> ~ (ints_of ax /\ ints_of ac) ->
  has_ints ax xs -> table npart nprof x xs -> has_ints ac cs -> vector nbunch centre cs ->
  table nprof nbins f (values_of ap) ->
  (forall c i j, (c < nbunch)%nat -> (i < npart)%nat -> (j < nprof)%nat ->
     (0 <= x i j + centre c < Z.of_nat nbins)%Z) ->
  counts [npart; nprof; nbins; nbunch] ->
  exists h' l' v,
    call_count_multi single h [VArr lp; VArr lx; VArr lc; VInt (Z.of_nat nprof); VInt (Z.of_nat npart);
      VInt (Z.of_nat nbins); VInt (Z.of_nat nbunch)] [] = Ok (h', l') /\
    l' <> lp /\ nth_error h' lp = Some ap /\ nth_error h' l' = Some (NArr (n_shape ap) true (Floats F64 v)).
Proof. exact C114_single_refuted_lem. Qed.
Print Assumptions C114_single_refuted.

(** The centres as a list. *)
Example C114_single_ex :
  q_show (call_count_multi (fun x => x) k_heap [VArr 3; VArr 0; VArr 2; VInt 2; VInt 3; VInt 4; VInt 2]%Z []) 3 =
  Some (4%nat, Some ([2; 4]%nat, F64, [2; 1; 2; 1; 1; 2; 1; 2]%Q), Some ([2; 4]%nat, F32, [0; 0; 0; 0; 0; 0; 0; 0]%Q)).
Proof. vm_compute. reflexivity. Qed.

(** Called with the numbers of particles and profiles by name it leaves the
    array when there are more particles than profiles. *)
Theorem C114_keywords_refuted : forall (single : Qc -> Qc) (h : nheap) (lp lx lc : nat) (ap ax ac : narr) (d : dtype)
    (npart nprof nbins nbunch : nat) (x : nat -> nat -> Z) (centre : nat -> Z) (xs cs : list Z)
    (f : nat -> nat -> Qc),
  nth_error h lp = Some ap -> nth_error h lx = Some ax -> nth_error h lc = Some ac -> count_precision d ap ax ac ->
  has_ints ax xs -> table npart nprof x xs -> has_ints ac cs -> vector nbunch centre cs ->
  table nprof nbins f (values_of ap) ->
  (forall c i j, (c < nbunch)%nat -> (i < npart)%nat -> (j < nprof)%nat ->
     (0 <= x i j + centre c < Z.of_nat nbins)%Z) ->
  counts [npart; nprof; nbins; nbunch] -> (1 <= nbunch)%nat -> (1 <= nprof < npart)%nat ->
  call_count_multi single h [VArr lp; VArr lx; VArr lc]
    [("n_particles"%string, VInt (Z.of_nat npart)); ("n_profiles"%string, VInt (Z.of_nat nprof));
     ("n_bins"%string, VInt (Z.of_nat nbins)); ("n_centers"%string, VInt (Z.of_nat nbunch))] = Fail OutOfBounds.
Proof. exact C114_keywords_refuted_lem. Qed.
Print Assumptions C114_keywords_refuted.

Example C114_keywords_ex :
  call_count_multi (fun x => x) k_heap [VArr 3; VArr 0; VArr 1]
    [("n_particles"%string, VInt 3); ("n_profiles"%string, VInt 2); ("n_bins"%string, VInt 4);
     ("n_centers"%string, VInt 2)] = Fail OutOfBounds.
Proof. vm_compute. reflexivity. Qed.
