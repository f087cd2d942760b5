(** Theorems on phase-space images made from arrays (C112).
    Statements only: each theorem is closed by the lemma of the same name in
    Proof/CImageCalls.v.  Written by tools/mkprops.py. *)
From Coq Require Import List ZArith Bool QArith Qcanon.
From Verif Require Import Base.Res Base.QcLib Model.MBind Model.MCalls Model.MImageCalls
  Spec.CallsSpec Spec.TomoCallsSpec Spec.ImageCallsSpec.
Import ListNotations.
From Verif Require Import Proof.CImageCalls.

(** make_phase_space makes a new array of shape (bins, bins) with the weight of
    the particles in every cell, for coordinates and weights of any type and
    layout, and changes no array.  It works in single precision only if all three
    arrays are of the exact types and contiguous. *)
Theorem C112_image : forall (single : Qc -> Qc) (h : nheap) (lx ly lw : nat) (ax ay aw : narr) (d : dtype)
    (n nb : nat) (x y : nat -> nat) (w : nat -> Qc),
  nth_error h lx = Some ax -> nth_error h ly = Some ay -> nth_error h lw = Some aw ->
  image_precision d aw ax ay -> line_of ax n x -> line_of ay n y -> vector n w (values_of aw) ->
  (forall i, (i < n)%nat -> (x i < nb)%nat) -> (forall i, (i < n)%nat -> (y i < nb)%nat) ->
  counts [n; nb * nb]%nat ->
  exists h' l',
    call_make_phase_space single h [VArr lx; VArr ly; VArr lw; VInt (Z.of_nat nb)] [] = Ok (h', l') /\
    new_image h h' l' d nb (weight_in n x y w).
Proof. exact C112_image_lem. Qed.
Print Assumptions C112_image.

(** The energies are 64-bit integers: double precision. *)
Example C112_image_ex :
  q_show (call_make_phase_space (fun x => x) i_heap [VArr 3; VArr 3; VArr 2; VInt 2]%Z []) 2 =
  Some (5%nat, Some ([2; 2]%nat, F32, [3; 0; 0; 1]%Q), Some ([3]%nat, F32, [1; 1; 2]%Q)) /\
  q_show (call_make_phase_space (fun x => x) i_heap [VArr 3; VArr 4; VArr 2; VInt 2]%Z []) 2 =
  Some (7%nat, Some ([2; 2]%nat, F64, [0; 3; 1; 0]%Q), Some ([3]%nat, F32, [1; 1; 2]%Q)).
Proof. vm_compute. split; reflexivity. Qed.

(** The density of data_treatment's phase_space is the weight of the particles in
    every cell at the chosen profile, in a new array; no array changes.  For
    weights that are not in single precision it is in double precision. *)
Theorem C112_density : forall (single : Qc -> Qc) (h : nheap) (lx ly lw : nat) (ax ay aw : narr)
    (n m nb : nat) (x y : nat -> nat -> nat) (w : nat -> Qc) (p : nat) (xcols ycols : bool),
  nth_error h lx = Some ax -> nth_error h ly = Some ay -> nth_error h lw = Some aw ->
  tracks_of ax n m x -> tracks_of ay n m y -> vector n w (values_of aw) -> (p < m)%nat ->
  (forall i, (i < n)%nat -> (x i p < nb)%nat) -> (forall i, (i < n)%nat -> (y i p < nb)%nat) ->
  counts [n; nb * nb]%nat ->
  exists d h' l',
    phase_space_density single h lx ly lw p nb xcols ycols = Ok (h', l') /\
    new_image h h' l' d nb (weight_in n (fun i => x i p) (fun i => y i p) w) /\
    (~ floats_of F32 aw -> d = F64).
Proof. exact C112_density_lem. Qed.
Print Assumptions C112_density.

Example C112_density_ex :
  q_show (phase_space_density (fun x => x) i_heap 0 1 2 1 2 false false) 2 =
  Some (10%nat, Some ([2; 2]%nat, F64, [0; 2; 2; 0]%Q), Some ([3]%nat, F32, [1; 1; 2]%Q)) /\
  tracks_of (NArr [3; 2]%nat true (Int32 [0; 1; 1; 1; 0; 0]%Z)) 3 2 q_bin.
Proof.
  split; [vm_compute; reflexivity|]. split; [reflexivity|]. exists [0; 1; 1; 1; 0; 0]%Z. split; [left; reflexivity|].
  split; [reflexivity|]. intros i j A B.
  do 3 (destruct i as [|i]; [do 2 (destruct j as [|j]; [reflexivity|]); do 2 apply le_S_n in B; inversion B|]).
  do 3 apply le_S_n in A. inversion A.
Qed.

(** With weights in single precision that density is in double precision
    nevertheless, for two or more particles in two or more profiles: the column of
    the positions is not contiguous. *)
Theorem C112_single_refuted : forall (single : Qc -> Qc) (h : nheap) (lx ly lw : nat) (ax ay aw : narr)
    (n m nb : nat) (x y : nat -> nat -> nat) (w : nat -> Qc) (p : nat) (xcols ycols : bool),
  nth_error h lx = Some ax -> nth_error h ly = Some ay -> nth_error h lw = Some aw ->
  tracks_of ax n m x -> tracks_of ay n m y -> vector n w (values_of aw) -> (p < m)%nat ->
  (forall i, (i < n)%nat -> (x i p < nb)%nat) -> (forall i, (i < n)%nat -> (y i p < nb)%nat) ->
  counts [n; nb * nb]%nat -> floats_of F32 aw -> ints_of ax -> (2 <= n)%nat -> (2 <= m)%nat ->
  exists h' l' v,
    phase_space_density single h lx ly lw p nb xcols ycols = Ok (h', l') /\
    nth_error h' l' = Some (NArr [nb; nb] true (Floats F64 v)).
Proof. exact C112_single_refuted_lem. Qed.
Print Assumptions C112_single_refuted.

Example C112_single_ex :
  q_show (phase_space_density (fun x => x) i_heap 0 1 2 0 2 false false) 2 =
  Some (10%nat, Some ([2; 2]%nat, F64, [0; 3; 1; 0]%Q), Some ([3]%nat, F32, [1; 1; 2]%Q)).
Proof. vm_compute. reflexivity. Qed.

(** create_phase_space_image makes a new array of the weights in every cell
    divided by the total weight, in single precision exactly if the weights are a
    contiguous array in single precision, whatever the layout of the coordinates;
    no array changes. *)
Theorem C112_created : forall (single : Qc -> Qc) (h : nheap) (lx ly lw : nat) (ax ay aw : narr) (d : dtype)
    (n m nb : nat) (x y : nat -> nat -> nat) (w : nat -> Qc) (p : nat) (xcols ycols : bool),
  nth_error h lx = Some ax -> nth_error h ly = Some ay -> nth_error h lw = Some aw ->
  (d = F32 /\ floats_of F32 aw \/ d = F64 /\ ~ floats_of F32 aw) ->
  tracks_of ax n m x -> tracks_of ay n m y -> vector n w (values_of aw) -> (p < m)%nat ->
  (forall i, (i < n)%nat -> (x i p < nb)%nat) -> (forall i, (i < n)%nat -> (y i p < nb)%nat) ->
  counts [n; nb * nb]%nat -> (forall i, (i < n)%nat -> (0 <= w i)%Qc) -> (0 < sumn n w)%Qc ->
  exists h' l',
    image_of single h lx ly lw nb p xcols ycols = Ok (h', l') /\
    new_image h h' l' d nb (fun a b => weight_in n (fun i => x i p) (fun i => y i p) w a b / sumn n w)%Qc.
Proof. exact C112_created_lem. Qed.
Print Assumptions C112_created.

Example C112_created_ex :
  q_show (image_of (fun x => x) i_heap 0 1 2 2 0 false false) 2 =
  Some (10%nat, Some ([2; 2]%nat, F32, [0; 3 # 4; 1 # 4; 0]%Q), Some ([3]%nat, F32, [1; 1; 2]%Q)).
Proof. vm_compute. reflexivity. Qed.
