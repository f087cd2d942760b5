(** Theorems on the reference reconstruction with objects that hold arrays (C115).
    Statements only: each theorem is closed by the lemma of the same name in
    Proof/CHybridCalls.v.  Written by tools/mkprops.py. *)
From Coq Require Import List ZArith Bool QArith Qcanon.
From Verif Require Import Base.Res Base.QcLib Model.MBind Model.MRecon Model.MCalls Model.MTomoCalls Model.MHybridCalls
  Spec.CallsSpec Spec.TomoCallsSpec Spec.HybridCallsSpec.
Import ListNotations.
From Verif Require Import Proof.CHybridCalls.

(** Every run_hybrid of the object, whatever other arrays were made in between,
    returns the weights and stores the discrepancies and the recreated waterfall
    of the model without arrays in new arrays of doubles, for arrays of any type
    and layout, and changes no array. *)
Theorem C115_run : forall (single sqrt : Qc -> Qc) (d : dtype) (h : nheap) (lw : nat) (aw : narr) (np nb : nat)
    (rows : bool) (x : option nat) (ax : option narr) (n m : nat) (xrows : bool)
    (t : tomo) (h1 h2 : nheap) (o o2 : tobj) (niter : nat),
  nth_error h lw = Some aw -> two_axes np nb aw -> positions_at h n m x ax -> counts [np; nb; n] ->
  tomography np nb (chunk np nb (in_precision single d aw)) (positions single d n m ax) CNone = Ok t ->
  new_tomo single d h lw rows x xrows = Ok (h1, o) -> kept h1 h2 -> same_input o o2 -> recreated_fits h2 o2 ->
  runs_hybrid_as F64 t niter h2 o2 (run_hybrid sqrt t niter) (run_hybrid_tomo single sqrt h2 o2 niter).
Proof. exact C115_run_lem. Qed.
Print Assumptions C115_run.

Example C115_run_ex :
  y_run F64 false = Some (Some ([3]%nat, F64, [5 # 2; 3 # 4; 3 # 4]%Q),
    Some ([2; 2]%nat, F64, [13 # 16; 3 # 16; 3 # 16; 13 # 16]%Q), Some ([2; 2]%nat, F64, [1; 0; 0; 1]%Q)).
Proof. vm_compute. reflexivity. Qed.

(** The recreated waterfall has the shape asked for there after construction,
    after run, and after run_hybrid. *)
Theorem C115_shape :
  (forall (single : Qc -> Qc) d h lw rows x xrows h1 o,
     new_tomo single d h lw rows x xrows = Ok (h1, o) -> recreated_fits h1 o) /\
  (forall d t niter h o e h' o' l, o_nprofs o = t_nprofs t -> o_nbins o = t_nbins t ->
     runs_as d t niter h o (Ok e) (Ok (h', o', l)) -> recreated_fits h' o') /\
  (forall d t niter h o e h' o' l, o_nprofs o = t_nprofs t -> o_nbins o = t_nbins t ->
     runs_hybrid_as d t niter h o (Ok e) (Ok (h', o', l)) -> recreated_fits h' o').
Proof. exact C115_shape_lem. Qed.
Print Assumptions C115_shape.

Example C115_shape_ex :
  match new_tomo (fun y => y) F32 r_heap 0 true (Some 1%nat) true with
  | Ok (h, o) => q_array h (o_recreated o) = Some ([2; 2]%nat, F32, [0; 0; 0; 0]%Q)
  | Fail _ => False
  end.
Proof. vm_compute. reflexivity. Qed.

(** The results are in double precision also if single precision is selected, for
    every layout. *)
Theorem C115_single_refuted : forall (single sqrt : Qc -> Qc) (h : nheap) (lw : nat) (aw : narr) (np nb : nat)
    (rows : bool) (x : option nat) (ax : option narr) (n m : nat) (xrows : bool)
    (t : tomo) (h1 : nheap) (o : tobj) (niter : nat) (w discr : list Qc) (rec : list (list Qc)),
  nth_error h lw = Some aw -> two_axes np nb aw -> positions_at h n m x ax -> counts [np; nb; n] ->
  tomography np nb (chunk np nb (in_precision single F32 aw)) (positions single F32 n m ax) CNone = Ok t ->
  new_tomo single F32 h lw rows x xrows = Ok (h1, o) -> run_hybrid sqrt t niter = Ok (w, discr, rec) ->
  exists h' o' l s, run_hybrid_tomo single sqrt h1 o niter = Ok (h', o', l) /\
    nth_error h' l = Some (NArr s true (Floats F64 w)).
Proof. exact C115_single_refuted_lem. Qed.
Print Assumptions C115_single_refuted.

Example C115_single_ex :
  y_run F32 true = Some (Some ([3]%nat, F64, [5 # 2; 3 # 4; 3 # 4]%Q),
    Some ([2; 2]%nat, F64, [13 # 16; 3 # 16; 3 # 16; 13 # 16]%Q), Some ([2; 2]%nat, F64, [1; 0; 0; 1]%Q)).
Proof. vm_compute. reflexivity. Qed.
