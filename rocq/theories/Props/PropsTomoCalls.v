(** Theorems on reconstruction objects that hold arrays (C111).
    Statements only: each theorem is closed by the lemma of the same name in
    Proof/CTomoCalls.v.  Written by tools/mkprops.py. *)
From Coq Require Import List ZArith Bool QArith Qcanon.
From Verif Require Import Base.Res Base.QcLib Model.MBind Model.MRecon Model.MCalls Model.MTomoCalls
  Spec.CallsSpec Spec.TomoCallsSpec.
Import ListNotations.
From Verif Require Import Proof.CTomoCalls.

(** The constructor changes no array of the caller and stores the normalised
    waterfall, in the selected precision, and the positions in arrays of its own;
    or it raises what the constructor of the model without arrays raises. *)
Theorem C111_construct : forall (single : Qc -> Qc) (d : dtype) (h : nheap) (lw : nat) (aw : narr) (np nb : nat)
    (rows : bool) (x : option nat) (ax : option narr) (n m : nat) (xrows : bool),
  nth_error h lw = Some aw -> two_axes np nb aw -> positions_at h n m x ax -> counts [nb] ->
  match tomography np nb (chunk np nb (in_precision single d aw)) (positions single d n m ax) CNone with
  | Ok t => exists h' o, new_tomo single d h lw rows x xrows = Ok (h', o) /\ kept h h' /\
      object_of d rows h h' o t
  | Fail e => new_tomo single d h lw rows x xrows = Fail e
  end.
Proof. exact C111_construct_lem. Qed.
Print Assumptions C111_construct.

Example C111_construct_ex :
  match new_tomo (fun y => y) F32 r_heap 0 false (Some 1%nat) true with
  | Ok (h, o) => q_array h (o_waterfall o) = Some ([2; 2]%nat, F32, [1; 0; 0; 1]%Q) /\ o_nparts o = Some 3%nat
  | Fail _ => False
  end.
Proof. vm_compute. split; reflexivity. Qed.

(** Every run of the object, whatever other arrays were made in between, returns
    and stores the results of the model without arrays in three new arrays and
    changes no array.  They are in the precision of the object if the rows of the
    waterfall were in order. *)
Theorem C111_run : forall (single sqrt : Qc -> Qc) (d : dtype) (h : nheap) (lw : nat) (aw : narr) (np nb : nat)
    (rows : bool) (x : option nat) (ax : option narr) (n m : nat) (xrows : bool)
    (t : tomo) (h1 h2 : nheap) (o o2 : tobj) (niter : Z) (verbose : bool) (callback : nval),
  nth_error h lw = Some aw -> two_axes np nb aw -> positions_at h n m x ax -> counts [np; nb; n] ->
  (0 <= niter < 2 ^ 31)%Z ->
  tomography np nb (chunk np nb (in_precision single d aw)) (positions single d n m ax) CNone = Ok t ->
  new_tomo single d h lw rows x xrows = Ok (h1, o) -> kept h1 h2 -> same_input o o2 ->
  runs_as (works_in d rows) t niter h2 o2 (run sqrt t niter) (run_tomo single sqrt h2 o2 niter verbose callback).
Proof. exact C111_run_lem. Qed.
Print Assumptions C111_run.

Example C111_run_ex :
  r_run true = Some (7%nat, Some ([3]%nat, F32, [2; 1; 1]%Q),
    Some ([2; 2]%nat, F32, [3 # 4; 1 # 4; 1 # 4; 3 # 4]%Q)).
Proof. vm_compute. reflexivity. Qed.

(** In single precision, with a waterfall whose rows are not in order in memory
    (a transposed array), the results are in double precision. *)
Theorem C111_layout_refuted : forall (single sqrt : Qc -> Qc) (h : nheap) (lw : nat) (aw : narr) (np nb : nat)
    (x : option nat) (ax : option narr) (n m : nat) (xrows : bool)
    (t : tomo) (h1 : nheap) (o : tobj) (niter : Z) (verbose : bool) (callback : nval)
    (w discr : list Qc) (rec : list (list Qc)) (calls : list (Z * Z)),
  nth_error h lw = Some aw -> two_axes np nb aw -> positions_at h n m x ax -> counts [np; nb; n] ->
  (0 <= niter < 2 ^ 31)%Z ->
  tomography np nb (chunk np nb (in_precision single F32 aw)) (positions single F32 n m ax) CNone = Ok t ->
  new_tomo single F32 h lw false x xrows = Ok (h1, o) -> run sqrt t niter = Ok (w, discr, rec, calls) ->
  exists h' o' l s, run_tomo single sqrt h1 o niter verbose callback = Ok (h', o', l) /\
    nth_error h' l = Some (NArr s true (Floats F64 w)).
Proof. exact C111_layout_refuted_lem. Qed.
Print Assumptions C111_layout_refuted.

Example C111_layout_ex :
  r_run false = Some (8%nat, Some ([3]%nat, F64, [2; 1; 1]%Q),
    Some ([2; 2]%nat, F64, [3 # 4; 1 # 4; 1 # 4; 3 # 4]%Q)).
Proof. vm_compute. reflexivity. Qed.
