(** Proofs about the reference reconstruction on objects that hold arrays
    (C115). *)
(*HEAD*)
From Coq Require Import List ZArith Bool QArith Qcanon.
From Verif Require Import Base.Res Base.QcLib Model.MBind Model.MRecon Model.MCalls Model.MTomoCalls Model.MHybridCalls
  Spec.CallsSpec Spec.TomoCallsSpec Spec.HybridCallsSpec.
Import ListNotations.
(*DAEH*)
From Coq Require Import Lia.
From Verif Require Import Base.ResLemmas Spec.TomoSpec Proof.PTomo Proof.PCalls2 Proof.PTomoCalls Proof.PHybridCalls.

Lemma hybrid_object_runs : forall (single sqrt : Qc -> Qc) d h lw aw np nb rows x ax n m xrows t h1 h2 o o2 niter,
  nth_error h lw = Some aw -> two_axes np nb aw -> positions_at h n m x ax -> counts [np; nb; n] ->
  tomography np nb (chunk np nb (in_precision single d aw)) (positions single d n m ax) CNone = Ok t ->
  new_tomo single d h lw rows x xrows = Ok (h1, o) -> kept h1 h2 -> same_input o o2 -> recreated_fits h2 o2 ->
  runs_hybrid_as F64 t niter h2 o2 (run_hybrid sqrt t niter) (run_hybrid_tomo single sqrt h2 o2 niter).
Proof.
  intros single sqrt d h lw aw np nb rows x ax n m xrows t h1 h2 o o2 niter A B C D T N K I F.
  assert (D1 := counts_Z np _ D ltac:(cbn; auto)). assert (D2 := counts_Z nb _ D ltac:(cbn; auto)).
  assert (D3 := counts_Z n _ D ltac:(cbn; auto)).
  assert (P := new_spec single d h lw aw np nb rows x ax n m xrows A B C (proj2 D2)).
  rewrite T in P. destruct P as (h' & o' & P1 & P2 & P3 & P4). rewrite N in P1. injection P1 as <- <-.
  assert (O2 := object_moves d rows h h1 h2 o o2 t P3 K I).
  assert (Q : t_nprofs t = np /\ t_nbins t = nb /\ forall k, t_nparts t = Some k -> k = n).
  { unfold tomography in T. destruct (normalize_profiles _); [|discriminate]. cbn [bind] in T.
    destruct ax as [a0|]; cbn [positions] in T.
    - unfold set_xp in T. destruct (negb _); [discriminate|]. destruct (_ || _); [discriminate|].
      cbn in T. injection T as <-. cbn. split; auto. split; auto. intros k E. injection E as <-. apply chunk_length.
    - cbn in T. injection T as <-. cbn. split; auto. split; auto. discriminate. }
  destruct Q as (Q1 & Q2 & Q3).
  assert (V : valid t).
  { eapply tomography_valid; [| | |exact T].
    - apply chunk_rect. rewrite precision_length. apply B.
    - destruct x, ax as [a0|]; cbn in C |- *; try contradiction; auto.
      apply chunk_rect. rewrite precision_length. apply C.
    - exact Logic.I. }
  destruct (t_xp t) as [y|] eqn:TX.
  - apply (hybrid_run_spec single sqrt t o2 n) with (d := d) (rows := rows) (h := h); auto.
    + apply O2.
    + apply O2.
    + rewrite Q1, Q2. exact D.
    + exact (v_rect _ V).
    + rewrite P4. f_equal. apply Q3. exact P4.
  - unfold run_hybrid, run_hybrid_tomo, runs_hybrid_as. rewrite TX.
    destruct O2 as (_ & _ & _ & _ & _ & O6). rewrite TX in O6. destruct (o_xp o2); [contradiction|]. reflexivity.
Qed.

(** Every run_hybrid of the object, whatever other arrays were made in between,
    returns the weights and stores the discrepancies and the recreated waterfall
    of the model without arrays in new arrays of doubles, for arrays of any type
    and layout, and changes no array. *)
Lemma C115_run_lem : forall (single sqrt : Qc -> Qc) (d : dtype) (h : nheap) (lw : nat) (aw : narr) (np nb : nat)
    (rows : bool) (x : option nat) (ax : option narr) (n m : nat) (xrows : bool)
    (t : tomo) (h1 h2 : nheap) (o o2 : tobj) (niter : nat),
  nth_error h lw = Some aw -> two_axes np nb aw -> positions_at h n m x ax -> counts [np; nb; n] ->
  tomography np nb (chunk np nb (in_precision single d aw)) (positions single d n m ax) CNone = Ok t ->
  new_tomo single d h lw rows x xrows = Ok (h1, o) -> kept h1 h2 -> same_input o o2 -> recreated_fits h2 o2 ->
  runs_hybrid_as F64 t niter h2 o2 (run_hybrid sqrt t niter) (run_hybrid_tomo single sqrt h2 o2 niter).
Proof. exact hybrid_object_runs. Qed.
(*EX*)
Example C115_run_ex :
  y_run F64 false = Some (Some ([3]%nat, F64, [5 # 2; 3 # 4; 3 # 4]%Q),
    Some ([2; 2]%nat, F64, [13 # 16; 3 # 16; 3 # 16; 13 # 16]%Q), Some ([2; 2]%nat, F64, [1; 0; 0; 1]%Q)).
Proof. vm_compute. reflexivity. Qed.
(*XE*)

(** The recreated waterfall has the shape asked for there after construction,
    after run, and after run_hybrid. *)
Lemma C115_shape_lem :
  (forall (single : Qc -> Qc) d h lw rows x xrows h1 o,
     new_tomo single d h lw rows x xrows = Ok (h1, o) -> recreated_fits h1 o) /\
  (forall d t niter h o e h' o' l, o_nprofs o = t_nprofs t -> o_nbins o = t_nbins t ->
     runs_as d t niter h o (Ok e) (Ok (h', o', l)) -> recreated_fits h' o') /\
  (forall d t niter h o e h' o' l, o_nprofs o = t_nprofs t -> o_nbins o = t_nbins t ->
     runs_hybrid_as d t niter h o (Ok e) (Ok (h', o', l)) -> recreated_fits h' o').
Proof.
  split; [|split].
  - intros single d h lw rows x xrows h1 o E. unfold new_tomo in E.
    destruct (nth_error h lw) as [a|]; [|discriminate]. cbv zeta in E.
    destruct (n_shape (cast_array single d rows a)) as [|np [|nb [|]]]; try discriminate.
    apply bind_ok in E. destruct E as (wf & _ & E).
    set (c := cast_array single d rows a) in *. set (a1 := NArr [np; nb] rows (Floats d (concat wf))) in *.
    set (a2 := NArr [np; nb] true _) in *.
    rewrite app_length in E. cbn [length] in E. replace (length h + 3 - 2)%nat with (S (length h)) in E by lia.
    assert (R : nth_error (h ++ [c; a1; a2]) (S (S (length h))) = Some a2).
    { rewrite nth_error_app2 by lia. replace (S (S (length h)) - length h)%nat with 2%nat by lia. reflexivity. }
    set (h2 := h ++ [c; a1; a2]) in *.
    destruct x as [lx|]; unfold assign_xp in E.
    + destruct (nth_error h2 lx) as [b|]; [|discriminate]. cbv zeta in E.
      destruct (n_shape (cast_array single d xrows b)) as [|k [|q [|]]]; try discriminate.
      destruct (negb _); [discriminate|]. destruct (_ || _); [discriminate|]. injection E as <- <-.
      exists a2. split; [|reflexivity]. apply kept_app, kept_app. exact R.
    + injection E as <- <-. exists a2. split; [exact R|reflexivity].
  - intros d t niter h o [[[w di] rec] ca] h' o' l N1 N2
      (h3 & o3 & lw & ld & lr & v & n & E & _ & _ & _ & R & _ & _ & _ & _ & _ & _ & _ & _ & _ & Q & _ & S).
    injection E as <- <- <-. destruct S as (_ & S1 & S2 & _).
    exists (NArr [t_nprofs t; t_nbins t] true (Floats d v)). rewrite R, S1, S2, N1, N2. auto.
  - intros d t niter h o [[w di] rec] h' o' l N1 N2
      (h3 & o3 & lw & ld & lr & v & n & E & _ & _ & _ & R & _ & _ & _ & _ & _ & _ & _ & _ & _ & Q & _ & S).
    injection E as <- <- <-. destruct S as (_ & S1 & S2 & _).
    exists (NArr [t_nprofs t; t_nbins t] true (Floats d v)). rewrite R, S1, S2, N1, N2. auto.
Qed.
(*EX*)
Example C115_shape_ex :
  match new_tomo (fun y => y) F32 r_heap 0 true (Some 1%nat) true with
  | Ok (h, o) => q_array h (o_recreated o) = Some ([2; 2]%nat, F32, [0; 0; 0; 0]%Q)
  | Fail _ => False
  end.
Proof. vm_compute. reflexivity. Qed.
(*XE*)

(** The results are in double precision also if single precision is selected, for
    every layout. *)
Lemma C115_single_refuted_lem : forall (single sqrt : Qc -> Qc) (h : nheap) (lw : nat) (aw : narr) (np nb : nat)
    (rows : bool) (x : option nat) (ax : option narr) (n m : nat) (xrows : bool)
    (t : tomo) (h1 : nheap) (o : tobj) (niter : nat) (w discr : list Qc) (rec : list (list Qc)),
  nth_error h lw = Some aw -> two_axes np nb aw -> positions_at h n m x ax -> counts [np; nb; n] ->
  tomography np nb (chunk np nb (in_precision single F32 aw)) (positions single F32 n m ax) CNone = Ok t ->
  new_tomo single F32 h lw rows x xrows = Ok (h1, o) -> run_hybrid sqrt t niter = Ok (w, discr, rec) ->
  exists h' o' l s, run_hybrid_tomo single sqrt h1 o niter = Ok (h', o', l) /\
    nth_error h' l = Some (NArr s true (Floats F64 w)).
Proof.
  intros single sqrt h lw aw np nb rows x ax n m xrows t h1 o niter w discr rec A B C D T N R.
  assert (P := hybrid_object_runs single sqrt F32 h lw aw np nb rows x ax n m xrows t h1 h1 o o niter
    A B C D T N ltac:(unfold kept; auto) ltac:(unfold same_input; auto) (proj1 C115_shape_lem _ _ _ _ _ _ _ _ _ N)).
  unfold runs_hybrid_as in P. rewrite R in P.
  destruct P as (h' & o' & l & ld & lr & v & k & P1 & _ & _ & _ & _ & _ & _ & _ & _ & _ & _ & _ & P2 & _).
  exists h', o', l, [k]. auto.
Qed.
(*EX*)
Example C115_single_ex :
  y_run F32 true = Some (Some ([3]%nat, F64, [5 # 2; 3 # 4; 3 # 4]%Q),
    Some ([2; 2]%nat, F64, [13 # 16; 3 # 16; 3 # 16; 13 # 16]%Q), Some ([2; 2]%nat, F64, [1; 0; 0; 1]%Q)).
Proof. vm_compute. reflexivity. Qed.
(*XE*)
