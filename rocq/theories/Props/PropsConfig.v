(** Theorems on the switches for device and precision (C51).
    Statements only: each theorem is closed by the lemma of the same name in
    Proof/CConfig.v.  Written by tools/mkprops.py. *)
From Coq Require Import List ZArith Bool String Ascii Lia.
From Verif Require Import Model.MConfig Spec.ConfigSpec.
Import ListNotations.
From Verif Require Import Proof.CConfig.

(** After any history of calls, failing ones included, the names of the module
    are those of the selected device, and the module's own. *)
Theorem C51_names : forall np cp own h,
  apart np cp own ->
  names_of np cp own (selected (run_calls np cp h (at_import np own))) (run_calls np cp h (at_import np own)).
Proof. exact C51_names_lem. Qed.
Print Assumptions C51_names.

(** A call that raises nothing selects what it names; one that raises leaves the
    device selected before, and so does a negative device number.  The precision
    is the one asked for, even when the call raises.  use_cpu never raises. *)
Theorem C51_selects : forall np cp own h w a,
  let c := run_calls np cp h (at_import np own) in
  let o := do_call np cp w a c in
  match a with
  | UseCpu => snd o = None /\ selected (fst o) = CPU /\ c_prec (fst o) = c_prec c
  | UseGpu id =>
      c_prec (fst o) = c_prec c /\
      (snd o = None -> (0 <= id)%Z -> selected (fst o) = GPU) /\
      (snd o <> None \/ (id < 0)%Z -> selected (fst o) = selected c)
  | SetPrecision p => c_prec (fst o) = p /\ selected (fst o) = selected c
  end.
Proof. exact C51_selects_lem. Qed.
Print Assumptions C51_selects.

(** The kernels in use have the selected precision after every history in which
    each change of precision succeeds and is made while the GPU is selected or
    before it is first asked for. *)
Theorem C51_precision_partial : forall np cp own h,
  steady np cp (at_import np own) h -> kernels_match (run_calls np cp h (at_import np own)).
Proof. exact C51_precision_partial_lem. Qed.
Print Assumptions C51_precision_partial.

(** Whatever the history, the kernels for tracking and for reconstruction have
    one and the same precision, and belong to the device loaded. *)
Theorem C51_same_kernels : forall np cp own h,
  let c := run_calls np cp h (at_import np own) in
  c_kd c = c_rec c /\
  (c_gpu c = true -> exists i p, c_dev c = Some (GpuDev i true (Some p)) /\ c_kd c = Some p).
Proof. exact C51_same_kernels_lem. Qed.
Print Assumptions C51_same_kernels.

(** Setting the precision while the GPU is selected loads the kernels of that
    precision, whatever happened before. *)
Theorem C51_reload : forall np cp own h w p,
  let c := run_calls np cp h (at_import np own) in
  c_gpu c = true -> snd (set_precision w p c) = None -> kernels_match (fst (set_precision w p c)).
Proof. exact C51_reload_lem. Qed.
Print Assumptions C51_reload.

(** Once a device has been opened, it stays the device, whatever number later
    calls of use_gpu name. *)
Theorem C51_first_device : forall np cp own h h' d,
  c_dev (run_calls np cp h (at_import np own)) = Some d ->
  exists d', c_dev (run_calls np cp (h ++ h') (at_import np own)) = Some d' /\ g_id d' = g_id d.
Proof. exact C51_first_device_lem. Qed.
Print Assumptions C51_first_device.

(** If all calls of use_gpu name one device, it is the device opened. *)
Theorem C51_device_partial : forall np cp own h i d,
  (forall w id, In (w, UseGpu id) h -> (0 <= id)%Z -> id = i) ->
  c_dev (run_calls np cp h (at_import np own)) = Some d -> g_id d = i.
Proof. exact C51_device_partial_lem. Qed.
Print Assumptions C51_device_partial.

(** After a use_gpu that fails on the device or on the kernels, no later call of
    use_gpu can succeed, even if the cause has gone; the CPU stays selected. *)
Theorem C51_stuck : forall np cp own h w id e h' w' id',
  let c := run_calls np cp h (at_import np own) in
  snd (use_gpu cp w id c) = Some e -> e <> ImportError -> (0 <= id')%Z ->
  let c' := run_calls np cp h' (fst (use_gpu cp w id c)) in
  snd (use_gpu cp w' id' c') <> None /\ c_gpu c' = false.
Proof. exact C51_stuck_lem. Qed.
Print Assumptions C51_stuck.

(** The arrays the program hands over are on the selected device and of the
    precision asked for by the last call that named one. *)
Theorem C51_cast : forall np cp own h,
  cast (run_calls np cp h (at_import np own)) =
    (selected (run_calls np cp h (at_import np own)), asked_prec h Double).
Proof. exact C51_cast_lem. Qed.
Print Assumptions C51_cast.

(** The full claim fails: a precision chosen on the CPU after the GPU has been
    used is not the precision of the kernels used next. *)
Theorem C51_precision_refuted : forall np cp own,
  exists h, Forall (fun x => fst x = working) h /\ ~ kernels_match (run_calls np cp h (at_import np own)).
Proof. exact C51_precision_refuted_lem. Qed.
Print Assumptions C51_precision_refuted.

(** Nor when a change of precision raises: the arrays have the new precision and
    the kernels the old one. *)
Theorem C51_failed_change_refuted : forall np cp own,
  exists w, snd (set_precision w Single (run_calls np cp [(working, UseGpu 0%Z)] (at_import np own))) <> None /\
  ~ kernels_match (fst (set_precision w Single (run_calls np cp [(working, UseGpu 0%Z)] (at_import np own)))).
Proof. exact C51_failed_change_refuted_lem. Qed.
Print Assumptions C51_failed_change_refuted.

(** And the device used is not the one named: asking for device 1 after device
    0 succeeds and leaves device 0. *)
Theorem C51_device_refuted : forall np cp own,
  let c := run_calls np cp [(working, UseGpu 0%Z)] (at_import np own) in
  snd (use_gpu cp working 1 c) = None /\
  exists d, c_dev (fst (use_gpu cp working 1 c)) = Some d /\ g_id d = 0%Z.
Proof. exact C51_device_refuted_lem. Qed.
Print Assumptions C51_device_refuted.

(** Names that are apart, and the device switched twice. *)
Example names_apart : apart ex_np ex_cp ex_own.
Proof.
  intros s d I P. unfold provides in P. cbn in I.
  destruct I as [<-|[<-|[<-|[<-|[]]]]]; destruct d; cbn in P; intuition discriminate.
Qed.
Example names_switched :
  let c := run_calls ex_np ex_cp [(working, UseGpu 0%Z)] (at_import ex_np ex_own) in
  c_globals c "fuse"%string = Some (Fun GPU) /\ c_globals c "vectorize"%string = None /\
  c_globals c "kick_and_drift"%string = Some (Fun GPU) /\ c_globals c "cast"%string = Some Own.
Proof. repeat split. Qed.
(** A history that is steady, and changes the precision. *)
Example steady_history :
  steady ex_np ex_cp (at_import ex_np ex_own)
    [(working, SetPrecision Single); (working, UseGpu 0%Z); (working, SetPrecision Double); (working, UseCpu); (working, UseGpu 1%Z)].
Proof.
  intros h1 w p h2 E.
  destruct h1 as [|x1 h1]; [injection E as <- <- _; cbn; auto|injection E as <- E].
  destruct h1 as [|x2 h1]; [discriminate|injection E as <- E].
  destruct h1 as [|x3 h1]; [injection E as <- <- _; cbn; auto|injection E as <- E].
  destruct h1 as [|x4 h1]; [discriminate|injection E as <- E].
  destruct h1 as [|x5 h1]; [discriminate|injection E as <- E].
  destruct h1; discriminate.
Qed.
(** A failing call: the second device is not there. *)
Example stuck_once :
  snd (use_gpu ex_cp one_device 1 (at_import ex_np ex_own)) = Some CudaError /\
  snd (use_gpu ex_cp one_device 0 (fst (use_gpu ex_cp one_device 1 (at_import ex_np ex_own)))) = Some AttributeError.
Proof. split; reflexivity. Qed.
