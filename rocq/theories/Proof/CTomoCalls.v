(** Proofs about reconstruction objects that hold arrays (C111). *)
(*HEAD*)
From Coq Require Import List ZArith Bool QArith Qcanon.
From Verif Require Import Base.Res Base.QcLib Model.MBind Model.MRecon Model.MCalls Model.MTomoCalls
  Spec.CallsSpec Spec.TomoCallsSpec.
Import ListNotations.
(*DAEH*)
From Verif Require Import Proof.PTomoCalls.

(** The constructor changes no array of the caller and stores the normalised
    waterfall, in the selected precision, and the positions in arrays of its own;
    or it raises what the constructor of the model without arrays raises. *)
Lemma C111_construct_lem : forall (single : Qc -> Qc) (d : dtype) (h : nheap) (lw : nat) (aw : narr) (np nb : nat)
    (rows : bool) (x : option nat) (ax : option narr) (n m : nat) (xrows : bool),
  nth_error h lw = Some aw -> two_axes np nb aw -> positions_at h n m x ax -> counts [nb] ->
  match tomography np nb (chunk np nb (in_precision single d aw)) (positions single d n m ax) CNone with
  | Ok t => exists h' o, new_tomo single d h lw rows x xrows = Ok (h', o) /\ kept h h' /\
      object_of d rows h h' o t
  | Fail e => new_tomo single d h lw rows x xrows = Fail e
  end.
Proof.
  intros single d h lw aw np nb rows x ax n m xrows A B C D.
  assert (P := new_spec single d h lw aw np nb rows x ax n m xrows A B C ltac:(inversion D; auto)).
  destruct (tomography _ _ _ _ _); auto. destruct P as (h' & o & P1 & P2 & P3 & _). eauto.
Qed.
(*EX*)
Example C111_construct_ex :
  match new_tomo (fun y => y) F32 r_heap 0 false (Some 1%nat) true with
  | Ok (h, o) => q_array h (o_waterfall o) = Some ([2; 2]%nat, F32, [1; 0; 0; 1]%Q) /\ o_nparts o = Some 3%nat
  | Fail _ => False
  end.
Proof. vm_compute. split; reflexivity. Qed.
(*XE*)

(** Every run of the object, whatever other arrays were made in between, returns
    and stores the results of the model without arrays in three new arrays and
    changes no array.  They are in the precision of the object if the rows of the
    waterfall were in order. *)
Lemma C111_run_lem : forall (single sqrt : Qc -> Qc) (d : dtype) (h : nheap) (lw : nat) (aw : narr) (np nb : nat)
    (rows : bool) (x : option nat) (ax : option narr) (n m : nat) (xrows : bool)
    (t : tomo) (h1 h2 : nheap) (o o2 : tobj) (niter : Z) (verbose : bool) (callback : nval),
  nth_error h lw = Some aw -> two_axes np nb aw -> positions_at h n m x ax -> counts [np; nb; n] ->
  (0 <= niter < 2 ^ 31)%Z ->
  tomography np nb (chunk np nb (in_precision single d aw)) (positions single d n m ax) CNone = Ok t ->
  new_tomo single d h lw rows x xrows = Ok (h1, o) -> kept h1 h2 -> same_input o o2 ->
  runs_as (works_in d rows) t niter h2 o2 (run sqrt t niter) (run_tomo single sqrt h2 o2 niter verbose callback).
Proof.
  intros single sqrt d h lw aw np nb rows x ax n m xrows t h1 h2 o o2 niter verbose callback A B C D NI T N K I.
  eapply object_runs; eauto.
Qed.
(*EX*)
Example C111_run_ex :
  r_run true = Some (7%nat, Some ([3]%nat, F32, [2; 1; 1]%Q),
    Some ([2; 2]%nat, F32, [3 # 4; 1 # 4; 1 # 4; 3 # 4]%Q)).
Proof. vm_compute. reflexivity. Qed.
(*XE*)

(** In single precision, with a waterfall whose rows are not in order in memory
    (a transposed array), the results are in double precision. *)
Lemma C111_layout_refuted_lem : forall (single sqrt : Qc -> Qc) (h : nheap) (lw : nat) (aw : narr) (np nb : nat)
    (x : option nat) (ax : option narr) (n m : nat) (xrows : bool)
    (t : tomo) (h1 : nheap) (o : tobj) (niter : Z) (verbose : bool) (callback : nval)
    (w discr : list Qc) (rec : list (list Qc)) (calls : list (Z * Z)),
  nth_error h lw = Some aw -> two_axes np nb aw -> positions_at h n m x ax -> counts [np; nb; n] ->
  (0 <= niter < 2 ^ 31)%Z ->
  tomography np nb (chunk np nb (in_precision single F32 aw)) (positions single F32 n m ax) CNone = Ok t ->
  new_tomo single F32 h lw false x xrows = Ok (h1, o) -> run sqrt t niter = Ok (w, discr, rec, calls) ->
  exists h' o' l s, run_tomo single sqrt h1 o niter verbose callback = Ok (h', o', l) /\
    nth_error h' l = Some (NArr s true (Floats F64 w)).
Proof.
  intros single sqrt h lw aw np nb x ax n m xrows t h1 o niter verbose callback w discr rec calls A B C D NI T N R.
  assert (P := object_runs single sqrt F32 h lw aw np nb false x ax n m xrows t h1 h1 o o niter verbose callback
    A B C D NI T N ltac:(unfold kept; auto) ltac:(unfold same_input; auto)).
  unfold runs_as in P. rewrite R in P.
  destruct P as (h' & o' & l & ld & lr & v & k & P1 & _ & _ & _ & _ & _ & _ & _ & _ & _ & _ & _ & P2 & _).
  exists h', o', l, [k]. auto.
Qed.
(*EX*)
Example C111_layout_ex :
  r_run false = Some (8%nat, Some ([3]%nat, F64, [2; 1; 1]%Q),
    Some ([2; 2]%nat, F64, [3 # 4; 1 # 4; 1 # 4; 3 # 4]%Q)).
Proof. vm_compute. reflexivity. Qed.
(*XE*)
