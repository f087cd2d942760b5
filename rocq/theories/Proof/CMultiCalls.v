(** Proofs about multi-bunch reconstruction objects that hold arrays (C113). *)
(*HEAD*)
From Coq Require Import List ZArith Bool QArith Qcanon.
From Verif Require Import Base.Res Base.QcLib Model.MBind Model.MRecon Model.MMulti Model.MCalls Model.MTomoCalls
  Model.MMultiCalls Spec.CallsSpec Spec.TomoCallsSpec Spec.MultiCallsSpec.
Import ListNotations.
(*DAEH*)
From Verif Require Import Proof.PMultiCalls.

(** Every run of a multi-bunch object, for centres and cuts of any integer type
    and layout (or lists) and whatever other arrays were made in between, changes
    no array and stores the results of the model without arrays in new arrays, or
    fails in the same way.  It works in single precision only if the object does,
    the rows of the waterfall were in order, and centres and cuts are contiguous
    arrays of 32-bit integers. *)
Lemma C113_run_lem : forall (single sqrt : Qc -> Qc) (split0 : list Qc) (d e : dtype) (h : nheap) (lw : nat) (aw : narr)
    (np nb : nat) (rows : bool) (x : option nat) (ax : option narr) (n m : nat) (xrows : bool)
    (t : tomo) (h1 h2 : nheap) (o o2 : tobj) (lc ll lr : nat) (ac al ar : narr) (centers cutl cutr : list Z)
    (niter : Z) (verbose : bool) (callback : nval),
  nth_error h lw = Some aw -> two_axes np nb aw -> positions_at h n m x ax -> counts [np; nb; n; List.length centers] ->
  (0 <= niter < 2 ^ 31)%Z ->
  tomography np nb (chunk np nb (in_precision single d aw)) (positions single d n m ax) CNone = Ok t ->
  new_tomo single d h lw rows x xrows = Ok (h1, o) -> kept h1 h2 -> same_input o o2 ->
  nth_error h2 lc = Some ac -> nth_error h2 ll = Some al -> nth_error h2 lr = Some ar ->
  ints_with ac centers -> ints_with al cutl -> ints_with ar cutr -> multi_precision e d rows ac al ar ->
  runs_multi_as e t (List.length centers) niter h2 o2 (run_multi sqrt split0 t centers cutl cutr niter)
    (run_multi_tomo single sqrt split0 h2 o2 lc ll lr niter verbose callback).
Proof.
  intros single sqrt split0 d e h lw aw np nb rows x ax n m xrows t h1 h2 o o2 lc ll lr ac al ar centers cutl cutr niter
    verbose callback A B C D NI T N K I AC AL AR IC IL IR P.
  exact (multi_object_runs single sqrt split0 d e h lw aw np nb rows x ax n m xrows t h1 h2 o o2 lc ll lr
    ac al ar centers cutl cutr niter verbose callback A B C D NI T N K I AC AL AR IC IL IR P).
Qed.
(*EX*)
Example C113_run_ex :
  u_run 2 3 4 = Some (Some ([2]%nat, F32, [1 # 4; 1 # 4]%Q), Some ([1; 4]%nat, F32, [1 # 2; 0; 1 # 2; 0]%Q),
    [[1 # 4]; [1 # 4]]%Q) /\
  ints_with (NArr [2]%nat true (Int32 [1; 3]%Z)) [1; 3]%Z /\
  multi_precision F32 F32 true (NArr [2]%nat true (Int32 [0; 2]%Z)) (NArr [2]%nat true (Int32 [0; 2]%Z))
    (NArr [2]%nat true (Int32 [1; 3]%Z)).
Proof.
  split; [vm_compute; reflexivity|]. split.
  - split; [reflexivity|]. split; [left; reflexivity|]. repeat constructor; discriminate.
  - left. repeat split; eexists; eexists; reflexivity.
Qed.
(*XE*)

(** In single precision, with centres given as a list (or any array that is not a
    contiguous one of 32-bit integers), the results are in double precision. *)
Lemma C113_lists_refuted_lem : forall (single sqrt : Qc -> Qc) (split0 : list Qc) (h : nheap) (lw : nat) (aw : narr)
    (np nb : nat) (rows : bool) (x : option nat) (ax : option narr) (n m : nat) (xrows : bool)
    (t : tomo) (h1 h2 : nheap) (o o2 : tobj) (lc ll lr : nat) (ac al ar : narr) (centers cutl cutr : list Z)
    (niter : Z) (verbose : bool) (callback : nval) (r : mresult),
  nth_error h lw = Some aw -> two_axes np nb aw -> positions_at h n m x ax -> counts [np; nb; n; List.length centers] ->
  (0 <= niter < 2 ^ 31)%Z ->
  tomography np nb (chunk np nb (in_precision single F32 aw)) (positions single F32 n m ax) CNone = Ok t ->
  new_tomo single F32 h lw rows x xrows = Ok (h1, o) -> kept h1 h2 -> same_input o o2 ->
  nth_error h2 lc = Some ac -> nth_error h2 ll = Some al -> nth_error h2 lr = Some ar ->
  ints_with ac centers -> ints_with al cutl -> ints_with ar cutr -> ~ ints_of ac ->
  run_multi sqrt split0 t centers cutl cutr niter = Ok r ->
  exists h' o' u ret s, run_multi_tomo single sqrt split0 h2 o2 lc ll lr niter verbose callback = Ok (h', o', u, ret) /\
    nth_error h' (u_combined u) = Some (NArr s true (Floats F64 (mr_weights r))).
Proof.
  intros single sqrt split0 h lw aw np nb rows x ax n m xrows t h1 h2 o o2 lc ll lr ac al ar centers cutl cutr niter
    verbose callback r A B C D NI T N K I AC AL AR IC IL IR L R.
  assert (P : multi_precision F64 F32 rows ac al ar) by (right; split; auto; intros (_ & _ & Q & _); auto).
  assert (W := multi_object_runs single sqrt split0 F32 F64 h lw aw np nb rows x ax n m xrows t h1 h2 o o2 lc ll lr
    ac al ar centers cutl cutr niter verbose callback A B C D NI T N K I AC AL AR IC IL IR P).
  rewrite R in W. unfold runs_multi_as in W.
  destruct W as (h' & o' & u & ld & lr' & v & k & W1 & _ & _ & _ & _ & _ & _ & _ & _ & _ & _ & _ & _ & W2 & _).
  exists h', o', u, VNone, [k * List.length centers]%nat. auto.
Qed.
(*EX*)
Example C113_lists_ex :
  u_run 5 5 6 = Some (Some ([2]%nat, F64, [1 # 4; 1 # 4]%Q), Some ([1; 4]%nat, F64, [1 # 2; 0; 1 # 2; 0]%Q),
    [[1 # 4]; [1 # 4]]%Q).
Proof. vm_compute. reflexivity. Qed.
(*XE*)

(** The run returns nothing and leaves the attribute weight as it was, in spite of
    its documentation: the weights are in weight_combined. *)
Lemma C113_returned_refuted_lem : forall (single sqrt : Qc -> Qc) (split0 : list Qc) (h : nheap) (o : tobj) (lc ll lr : nat)
    (niter : Z) (verbose : bool) (callback : nval) (h' : nheap) (o' : tobj) (u : multi_out) (ret : nval),
  run_multi_tomo single sqrt split0 h o lc ll lr niter verbose callback = Ok (h', o', u, ret) ->
  ret = VNone /\ o_weight o' = o_weight o.
Proof.
  intros single sqrt split0 h o lc ll lr niter verbose callback h' o' u ret. unfold run_multi_tomo.
  destruct (o_xp o); [|discriminate]. destruct (o_nparts o); [|discriminate].
  destruct (nth_error h lc) as [[[|nc s] c e]|]; try discriminate. cbn [bind].
  destruct (call_reconstruct_multi _ _ _ _ _ _) as [[h0 [[[w d] s0] r]]|]; [|discriminate]. cbn [bind].
  destruct (floats_at h0 s0); [|discriminate]. destruct (floats_at h0 w); [|discriminate]. cbn [bind].
  destruct (transpose _ _ _); [|discriminate]. cbn [bind]. intros E. injection E as _ <- _ <-. auto.
Qed.
(*EX*)
Example C113_returned_ex :
  match new_tomo (fun x => x) F32 u_heap 0 true (Some 1%nat) true with
  | Ok (h, o) =>
      match run_multi_tomo (fun x => x) (fun x => x) (repeat 0%Qc 4) h o 2 3 4 1 false VNone with
      | Ok (h, o, u, r) => r = VNone /\ o_weight o = None
      | Fail _ => False
      end
  | Fail _ => False
  end.
Proof. vm_compute. split; reflexivity. Qed.
(*XE*)
