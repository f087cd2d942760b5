(** Model of LT/utils/tomo_config.py: the precision and the device selected for
    the calculations, and the names bound in the module.  The GPU is a function
    parameter: which calls of CuPy and of the CUDA compiler succeed. *)
From Coq Require Import List ZArith Bool String Ascii.
Import ListNotations.
Local Open Scope string_scope.

Inductive prec := Single | Double.
Inductive device := CPU | GPU.
(** The exceptions of these calls. *)
Inductive fault := ImportError | CudaError | CudaCompilationException | AttributeError.

(** What a name of the module is bound to: an object of the module itself, or
    the function of that name for the CPU or the GPU ('device' is bound to a
    string). *)
Inductive binding := Own | Fun (d : device).

(** A GPUDev object, 122-178.  Its constructor sets these attributes one after
    the other, and can stop between them: block_size and directory (154-156),
    then the modules with the kernels (161-164). *)
Record gpudev := GpuDev { g_id : Z; g_block_size : bool; g_modules : option prec }.

(** The state: class attributes of AppConfig (6-8) and GPUDev (123), global
    names of the module, and the precision of the kernels that the imported
    modules kick_and_drift_cuda and reconstruct_cuda refer to (None: the module
    is not imported). *)
Record config := Config {
  c_prec : prec; c_gpu : bool; c_active : string -> option binding; c_globals : string -> option binding;
  c_dev : option gpudev; c_kd : option prec; c_rec : option prec }.

(** What the outside world does during a call: CuPy can be imported; the device
    can be used; the compiled kernels are there or can be made. *)
Record world := World { w_cupy : bool; w_device : Z -> bool; w_kernels : bool }.

(** A call leaves a state behind, and may raise. *)
Definition outcome := (config * option fault)%type.

Section Names.
(** The callables of numpy and cupy. *)
Variables numpy_names cupy_names : list string.

Definition inb (s : string) (l : list string) : bool := existsb (String.eqb s) l.
Definition special : list string := ["kick_and_drift"; "reconstruct"; "make_phase_space"; "device"].
Definition private (s : string) : bool := match s with String c _ => Ascii.eqb c "_" | EmptyString => false end.

(** 59-69 and 93-102: the dictionaries. *)
Definition cpu_dict (s : string) : option binding :=
  if inb s special || (inb s numpy_names && negb (private s)) then Some (Fun CPU) else None.
Definition gpu_dict (s : string) : option binding :=
  if inb s special || inb s cupy_names then Some (Fun GPU) else None.

(** 10-16 [__update_active_dict]. *)
Definition update_active (c : config) (new : string -> option binding) : config :=
  Config (c_prec c) (c_gpu c) new
    (fun s => match new s with
              | Some b => Some b
              | None => match c_active c s with Some _ => None | None => c_globals c s end
              end)
    (c_dev c) (c_kd c) (c_rec c).

Definition set_prec (c : config) (p : prec) : config :=
  Config p (c_gpu c) (c_active c) (c_globals c) (c_dev c) (c_kd c) (c_rec c).
Definition set_gpu (c : config) (g : bool) : config :=
  Config (c_prec c) g (c_active c) (c_globals c) (c_dev c) (c_kd c) (c_rec c).
Definition set_dev (c : config) (d : gpudev) : config :=
  Config (c_prec c) (c_gpu c) (c_active c) (c_globals c) (Some d) (c_kd c) (c_rec c).
Definition set_kernels (c : config) (k r : option prec) : config :=
  Config (c_prec c) (c_gpu c) (c_active c) (c_globals c) (c_dev c) k r.

(** Next step, unless an exception has been raised. *)
Definition then_ (o : outcome) (f : config -> outcome) : outcome :=
  match snd o with None => f (fst o) | Some e => o end.

(** 131-164 [GPUDev.__init__]: does nothing if there is an instance.  Otherwise
    the instance is registered first (135). *)
Definition make_dev (w : world) (p : prec) (id : Z) (c : config) : outcome :=
  match c_dev c with
  | Some _ => (c, None)
  | None =>
    let c := set_dev c (GpuDev id false None) in
    if negb (w_cupy w) then (c, Some ImportError)
    else if negb (w_device w id) then (c, Some CudaError)
    else
      let c := set_dev c (GpuDev id true None) in
      if negb (w_kernels w) then (c, Some CudaCompilationException)
      else (set_dev c (GpuDev id true (Some p)), None)
  end.
(** 125-129 [get_gpu_dev]. *)
Definition get_gpu_dev (w : world) (c : config) : outcome := make_dev w Double 0 c.

(** kick_and_drift_cuda.py 17-21 and reconstruct_cuda.py 15-27
    [refresh_kernels]: a missing attribute raises AttributeError. *)
Definition refresh_kd (w : world) (c : config) : outcome :=
  then_ (get_gpu_dev w c) (fun c =>
    match c_dev c with
    | Some (GpuDev _ _ (Some p)) => (set_kernels c (Some p) (c_rec c), None)
    | _ => (c, Some AttributeError)
    end).
Definition refresh_rec (w : world) (c : config) : outcome :=
  then_ (get_gpu_dev w c) (fun c =>
    match c_dev c with
    | Some (GpuDev _ _ (Some p)) => (set_kernels c (c_kd c) (Some p), None)
    | _ => (c, Some AttributeError)
    end).
(** Importing the two modules: nothing if it has been done before; otherwise
    their top level code reads block_size (15 and 13) and calls refresh_kernels
    at the end. *)
Definition has_block_size (w : world) (c : config) : outcome :=
  then_ (get_gpu_dev w c) (fun c =>
    match c_dev c with Some d => (c, if g_block_size d then None else Some AttributeError) | None => (c, Some AttributeError) end).
Definition import_kd (w : world) (c : config) : outcome :=
  match c_kd c with
  | Some _ => (c, None)
  | None => if negb (w_cupy w) then (c, Some ImportError) else then_ (has_block_size w c) (refresh_kd w)
  end.
Definition import_rec (w : world) (c : config) : outcome :=
  match c_rec c with
  | Some _ => (c, None)
  | None => if negb (w_cupy w) then (c, Some ImportError) else then_ (has_block_size w c) (refresh_rec w)
  end.

(** 36-45 [load_modules_and_refresh_kernels] with 107-119 and 166-178. *)
Definition load_modules (w : world) (p : prec) (c : config) : outcome :=
  if negb (w_kernels w) then (c, Some CudaCompilationException)
  else
    then_ (get_gpu_dev w c) (fun c =>
    if negb (w_cupy w) then (c, Some ImportError)
    else match c_dev c with
    | None => (c, Some AttributeError)
    | Some d =>
      if negb (g_block_size d) then (c, Some AttributeError) else
      let c := set_dev c (GpuDev (g_id d) (g_block_size d) (Some p)) in
      then_ (import_kd w c) (fun c =>
      then_ (import_rec w c) (fun c =>
      then_ (refresh_kd w c) (refresh_rec w)))
    end).

(** 24-33 [set_single_precision], [set_double_precision]. *)
Definition set_precision (w : world) (p : prec) (c : config) : outcome :=
  let c := set_prec c p in
  if c_gpu c then load_modules w p c else (c, None).

(** 52-72 [use_cpu]. *)
Definition use_cpu (c : config) : outcome := (set_gpu (update_active c cpu_dict) false, None).

(** 75-104 [use_gpu]. *)
Definition use_gpu (w : world) (id : Z) (c : config) : outcome :=
  if (id <? 0)%Z then (c, None)
  else if negb (w_cupy w) then (c, Some ImportError)
  else
    then_ (make_dev w (c_prec c) id c) (fun c =>
    then_ (import_kd w c) (fun c =>
    then_ (import_rec w c) (fun c =>
      (set_gpu (update_active c gpu_dict) true, None)))).

(** The calls a program can make, and a history of them: the program goes on
    after an exception. *)
Inductive call := UseCpu | UseGpu (id : Z) | SetPrecision (p : prec).
Definition do_call (w : world) (a : call) (c : config) : outcome :=
  match a with UseCpu => use_cpu c | UseGpu id => use_gpu w id c | SetPrecision p => set_precision w p c end.
Definition run_calls (h : list (world * call)) (c : config) : config :=
  fold_left (fun c x => fst (do_call (fst x) (snd x) c)) h c.

(** The module after its import: 6-8, and 228 [AppConfig.use_cpu()]; own: the
    names defined by the module. *)
Definition at_import (own : list string) : config :=
  fst (use_cpu (Config Double false (fun _ => None) (fun s => if inb s own then Some Own else None) None None None)).

(** 186-226 [cast]: the device and the precision of the result. *)
Definition cast (c : config) : device * prec := (if c_gpu c then GPU else CPU, c_prec c).
End Names.
