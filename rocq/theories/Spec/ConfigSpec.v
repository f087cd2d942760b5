(** What the switches of tomo_config should do, stated without the code. *)
From Coq Require Import List ZArith String Ascii.
From Verif Require Import Model.MConfig.
Import ListNotations.

Definition selected (c : config) : device := if c_gpu c then GPU else CPU.

(** The names a device provides: the four of the package, and the callables of
    numpy (public ones only) or cupy. *)
Definition provides (numpy_names cupy_names : list string) (d : device) (s : string) : Prop :=
  In s ["kick_and_drift"; "reconstruct"; "make_phase_space"; "device"]%string \/
  match d with
  | CPU => In s numpy_names /\ forall r, s <> String "_"%char r
  | GPU => In s cupy_names
  end.

(** The module has the names of the device and its own, and no other. *)
Definition names_of (numpy_names cupy_names own : list string) (d : device) (c : config) : Prop :=
  (forall s, provides numpy_names cupy_names d s -> c_globals c s = Some (Fun d)) /\
  (forall s, ~ provides numpy_names cupy_names d s -> In s own -> c_globals c s = Some Own) /\
  (forall s, ~ provides numpy_names cupy_names d s -> ~ In s own -> c_globals c s = None).

(** The names the module defines itself are provided by no device. *)
Definition apart (numpy_names cupy_names own : list string) : Prop :=
  forall s d, In s own -> ~ provides numpy_names cupy_names d s.

(** The kernels in use have the selected precision. *)
Definition kernels_match (c : config) : Prop :=
  c_gpu c = true -> c_kd c = Some (c_prec c) /\ c_rec c = Some (c_prec c).

(** A history asks for the GPU. *)
Definition asks_gpu (x : world * call) : Prop := exists id, snd x = UseGpu id /\ (0 <= id)%Z.

(** Every change of precision in the history succeeds, and is made while the
    GPU is selected or before it is first asked for. *)
Definition steady (np cp : list string) (c0 : config) (h : list (world * call)) : Prop :=
  forall h1 w p h2, h = h1 ++ (w, SetPrecision p) :: h2 ->
    snd (do_call np cp w (SetPrecision p) (run_calls np cp h1 c0)) = None /\
    (c_gpu (run_calls np cp h1 c0) = true \/ Forall (fun x => ~ asks_gpu x) h1).

(** The precision and the device asked for by the last call that asked. *)
Fixpoint asked_prec (h : list (world * call)) (p : prec) : prec :=
  match h with
  | [] => p
  | (_, SetPrecision q) :: h => asked_prec h q
  | _ :: h => asked_prec h p
  end.

(** An example of a working machine, of one without the CUDA compiler, and of
    one with a single device. *)
Definition working : world := World true (fun _ => true) true.
Definition no_compiler : world := World true (fun _ => true) false.
Definition one_device : world := World true (fun i => (i =? 0)%Z) true.
Definition ex_np : list string := ["sin"; "cos"; "vectorize"; "_add"]%string.
Definition ex_cp : list string := ["sin"; "cos"; "fuse"]%string.
Definition ex_own : list string := ["os"; "np"; "AppConfig"; "cast"]%string.
