(** Model of the reconstruction on the GPU: LT/cuda_kernels/reconstruct.cu and
    LT/python_routines/reconstruct_cuda.py, and of its variant with array
    operations, LT/python_routines/reconstruct_cupy.py.

    The threads of a kernel are programs that access the memory of the device;
    their accesses interleave in any order (Model/MOmp.v has the locations).
    The host starts kernels one after the other and waits for each: CuPy uses
    one stream.  Numbers are exact rationals; integers do not overflow.
    xp is the array Xp 0 of integers. *)
From Coq Require Import List ZArith Bool QArith Qcanon.
From Verif Require Import Base.Res Base.QcLib Model.MRecon Model.MOmp.
Import ListNotations.
Local Open Scope Qc_scope.
Local Open Scope nat_scope.

(** ** Threads *)

(** Memory accesses of a thread, in order; [GAdd] is atomicAdd. *)
Inductive gprog :=
| GStop
| GRead (l : loc) (k : val Qc l -> gprog)
| GWrite (l : loc) (v : val Qc l) (p : gprog)
| GAdd (a : arr) (i : Z) (v : Qc) (p : gprog).

(** One access of one thread. *)
Inductive gstep : list gprog * mem Qc -> list gprog * mem Qc -> Prop :=
| gstep_read : forall ps t l k m, nth_error ps t = Some (GRead l k) ->
    gstep (ps, m) (upd ps t (k (m l)), m)
| gstep_write : forall ps t l v p m, nth_error ps t = Some (GWrite l v p) ->
    gstep (ps, m) (upd ps t p, store m l v)
| gstep_add : forall ps t a i v p m, nth_error ps t = Some (GAdd a i v p) ->
    gstep (ps, m) (upd ps t p, store m (R_ a i) (m (R_ a i) + v)%Qc).

Inductive gsteps : list gprog * mem Qc -> list gprog * mem Qc -> Prop :=
| gsteps_refl : forall s, gsteps s s
| gsteps_cons : forall s1 s2 s3, gstep s1 s2 -> gsteps s2 s3 -> gsteps s1 s3.

(** A kernel may end with memory m'. *)
Definition gends (ps : list gprog) (m m' : mem Qc) : Prop :=
  exists ps', gsteps (ps, m) (ps', m') /\ Forall (fun p => p = GStop) ps'.

(** The location a thread accesses next. *)
Definition next (p : gprog) : option loc :=
  match p with
  | GStop => None
  | GRead l _ => Some l
  | GWrite l _ _ => Some l
  | GAdd a i _ _ => Some (R_ a i)
  end.

(** A kernel may get to a point where a thread accesses a location that is not
    allocated. *)
Definition gfault (inside : loc -> bool) (ps : list gprog) (m : mem Qc) : Prop :=
  exists ps' m' t p l, gsteps (ps, m) (ps', m') /\ nth_error ps' t = Some p /\ next p = Some l /\ inside l = false.

(** The threads of a launch: [grid] blocks of [block] threads. *)
Definition launch (grid block : nat) (thread : nat -> nat -> gprog) : list gprog :=
  List.concat (tab grid (fun b => tab block (fun t => thread b t))).

(** int(n / block_size[0] + 1), reconstruct_cuda.py 47, 67, 76, 91, 103, 109,
    120. *)
Definition blocks (n block : nat) : nat := n / block + 1.

(** ** Kernels, reconstruct.cu *)

(** Reading items one after the other and adding them up. *)
Fixpoint gather_sum (idx : list nat) (item : nat -> (Qc -> gprog) -> gprog) (s : Qc) (k : Qc -> gprog) : gprog :=
  match idx with
  | [] => k s
  | x :: r => item x (fun v => gather_sum r item (s + v)%Qc k)
  end.

(** 26-61 [back_project].  A block is one program: its threads only read, up to
    the barrier; cub::BlockReduce is external and modelled by the result it
    documents, the sum of the items of all threads, in thread 0.  [size] is
    BLOCK_SIZE, [src] the array handed over as flat_profiles. *)
Definition items_per_array (size : nat) : nat := 512 / size.
Definition items_per_it (size : nat) : nat := size * items_per_array size.
Definition iterations (size nprof : nat) : nat := (nprof + items_per_it size - 1) / items_per_it size.

(** 47: the indices of iteration i, thread by thread. *)
Definition indices (size i : nat) : list nat :=
  List.concat (tab size (fun t => tab (items_per_array size) (fun j => i * items_per_it size + j * size + t))).

(** 45-52 and 56: one iteration adds to the aggregate. *)
Definition block_sum (src : arr) (size nprof b i : nat) (s : Qc) (k : Qc -> gprog) : gprog :=
  gather_sum (indices size i) (fun index k =>
    if index <? nprof
    then GRead (I_ Points (zi (b * nprof + index))) (fun q => GRead (R_ src q) k)
    else k 0%Qc) s k.

Fixpoint block_sums (src : arr) (size nprof b i n : nat) (s : Qc) (k : Qc -> gprog) : gprog :=
  match n with
  | O => k s
  | S n' => block_sum src size nprof b i s (fun s => block_sums src size nprof b (S i) n' s k)
  end.

Definition back_project_block (src : arr) (size nprof b : nat) : gprog :=
  block_sums src size nprof b 0 (iterations size nprof) 0%Qc (fun aggregate =>
    GRead (R_ Weights (zi b)) (fun w => GWrite (R_ Weights (zi b)) (w + aggregate)%Qc GStop)).

(** 67-78 [project]. *)
Definition project_thread (npart nprof block b t : nat) : gprog :=
  let tid := t + block * b in
  if tid <? npart * nprof then
    GRead (I_ Points (zi tid)) (fun idx =>
    GRead (R_ Weights (zi (tid / nprof))) (fun w =>
    GAdd Rec idx w GStop))
  else GStop.

(** 85-94 [clip], of the weights. *)
Definition clip_thread (length : nat) (clip_val : Qc) (block b t : nat) : gprog :=
  let tid := t + block * b in
  if tid <? length then
    GRead (R_ Weights (zi tid)) (fun x =>
    if qltb x clip_val then GWrite (R_ Weights (zi tid)) clip_val GStop else GStop)
  else GStop.

(** 101-109 [find_difference_profile]: the loop steps by the number of threads,
    so it has at most all_bins rounds. *)
Fixpoint difference_loop (fuel all_bins stride i : nat) : gprog :=
  match fuel with
  | O => GStop
  | S f =>
    if i <? all_bins then
      GRead (R_ Profs (zi i)) (fun p => GRead (R_ Rec (zi i)) (fun r =>
      GWrite (R_ Diff (zi i)) (p - r)%Qc (difference_loop f all_bins stride (i + stride))))
    else GStop
  end.
Definition difference_thread (all_bins grid block b t : nat) : gprog :=
  difference_loop all_bins all_bins (block * grid) (t + block * b).

(** 116-124 [compensate_particle_amount]. *)
Definition compensate_thread (nprof nbins block b t : nat) : gprog :=
  let tid := t + block * b in
  if tid <? nprof * nbins then
    GRead (R_ Diff (zi tid)) (fun x => GRead (R_ Rparts (zi tid)) (fun r =>
    GWrite (R_ Diff (zi tid)) (x * r)%Qc GStop))
  else GStop.

(** 130-142 [count_particles_in_bin]. *)
Definition count_thread (nprof npart nbins block b t : nat) : gprog :=
  let tid := t + block * b in
  if tid <? npart * nprof then
    let j := tid mod nprof in
    GRead (I_ (Xp 0) (zi tid)) (fun bin => GAdd Rparts (zi j * zi nbins + bin) 1%Qc GStop)
  else GStop.

(** 148-161 [calculate_reciprocal]: what is divided by is not zero. *)
Definition reciprocal_thread (nbins nprof : nat) (max_val : Qc) (block b t : nat) : gprog :=
  let tid := t + block * b in
  let divide := GRead (R_ Rparts (zi tid)) (fun x => GWrite (R_ Rparts (zi tid)) (max_val / x)%Qc GStop) in
  if tid <? nprof * nbins then
    GRead (R_ Rparts (zi tid)) (fun x =>
    if qeqb x 0 then GWrite (R_ Rparts (zi tid)) 1%Qc divide else divide)
  else GStop.

(** 168-175 [create_flat_points]. *)
Definition flat_points_thread (npart nprof nbins block b t : nat) : gprog :=
  let tid := t + block * b in
  if tid <? npart * nprof then
    GRead (I_ Points (zi tid)) (fun x =>
    GWrite (I_ Points (zi tid)) (x + zi nbins * zi (tid mod nprof))%Z GStop)
  else GStop.

(** ** The host *)

(** What the host does to the memory of the device.  [Fresh]: cp.empty. *)
Inductive host (A : Type) :=
| Done (r : res A)
| Launch (ps : list gprog) (k : host A)
| Fetch (a : arr) (n : nat) (k : list Qc -> host A)
| Store (a : arr) (l : list Qc) (k : host A)
| FetchI (a : arr) (n : nat) (k : list Z -> host A)
| StoreI (a : arr) (l : list Z) (k : host A)
| Fresh (a : arr) (k : host A).
Arguments Done {A}. Arguments Launch {A}. Arguments Fetch {A}. Arguments Store {A}.
Arguments FetchI {A}. Arguments StoreI {A}. Arguments Fresh {A}.

(** Reading and writing whole arrays. *)
Definition load (m : mem Qc) (a : arr) (n : nat) : list Qc := tab n (fun i => m (R_ a (zi i))).
Definition load_i (m : mem Qc) (a : arr) (n : nat) : list Z := tab n (fun i => m (I_ a (zi i))).
Fixpoint fill_r (m : mem Qc) (a : arr) (i : Z) (l : list Qc) : mem Qc :=
  match l with [] => m | x :: l' => fill_r (store m (R_ a i) x) a (i + 1)%Z l' end.
Fixpoint fill_i (m : mem Qc) (a : arr) (i : Z) (l : list Z) : mem Qc :=
  match l with [] => m | x :: l' => fill_i (store m (I_ a i) x) a (i + 1)%Z l' end.

(** The host program, started with memory m, may end with this result; an
    access outside the arrays is [OutOfBounds]. *)
Inductive host_ends {A} (inside : loc -> bool) : host A -> mem Qc -> res A -> Prop :=
| he_done : forall r m, host_ends inside (Done r) m r
| he_launch : forall ps k m m1 r, gends ps m m1 -> host_ends inside k m1 r -> host_ends inside (Launch ps k) m r
| he_fault : forall ps k m, gfault inside ps m -> host_ends inside (Launch ps k) m (Fail OutOfBounds)
| he_load : forall a n k m r, host_ends inside (k (load m a n)) m r -> host_ends inside (Fetch a n k) m r
| he_store : forall a l k m r, host_ends inside k (fill_r m a 0 l) r -> host_ends inside (Store a l k) m r
| he_load_i : forall a n k m r, host_ends inside (k (load_i m a n)) m r -> host_ends inside (FetchI a n k) m r
| he_store_i : forall a l k m r, host_ends inside k (fill_i m a 0 l) r -> host_ends inside (StoreI a l k) m r
| he_fresh : forall a k m m1 r, (forall l, (forall i, l <> R_ a i) -> m1 l = m l) ->
    host_ends inside k m1 r -> host_ends inside (Fresh a k) m r.

(** A computation on the host that may raise. *)
Definition try {A B} (x : res B) (k : B -> host A) : host A :=
  match x with Ok b => k b | Fail e => Done (Fail e) end.

(** cp.max of a flat array. *)
Definition cp_max (l : list Qc) : res Qc :=
  match l with
  | [] => Fail (Raised ValueError)
  | x :: r => Ok (fold_left qmax r x)
  end.

(** reconstruct_cuda.py 50-60 [normalize] (the same lines in
    reconstruct_cupy.py 25-36): a row whose sum is 0 is divided by zero, which
    gives not-a-number; the exception, checked last, takes precedence. *)
Definition gpu_normalize (rec : list Qc) (nprof nbins : nat) : res (list Qc) :=
  let rows := chunk nprof nbins rec in
  let sums := map qsum rows in
  if qleb (qsum sums) 0 then Fail (Raised RuntimeError)
  else if existsb (fun s => qeqb s 0) sums then Fail NotFinite
  else Ok (List.concat (map (fun row => map (fun x => x / qsum row)%Qc row) rows)).

(** reconstruct_cuda.py 79-84 [discrepancy]. *)
Definition gpu_discrepancy (sqrt : Qc -> Qc) (diff : list Qc) (nprof nbins : nat) : res Qc :=
  q <- qdiv (qsum (map (fun x => x * x)%Qc diff)) (qn (nprof * nbins)) ;;
  Ok (sqrt q).

(** if cp.sum(weights) <= 0: raise RuntimeError. *)
Definition gpu_check (w : list Qc) : res unit :=
  if qleb (qsum w) 0 then Fail (Raised RuntimeError) else Ok tt.

Section Host.
(** [block]: block_size[0], the number of threads in a block. *)
Variables (sqrt : Qc -> Qc) (block nbins npart nprof : nat).
Notation all_bins := (nprof * nbins).
Notation all_points := (npart * nprof).

(** cuda_kernels/__init__.py 5. *)
Definition reduction_block_size : nat := 32.

(** reconstruct_cuda.py 30-38: one block for each particle. *)
Definition back_project_launch (src : arr) : list gprog :=
  launch npart 1 (fun b _ => back_project_block src reduction_block_size nprof b).
(** 41-48. *)
Definition project_launch : list gprog :=
  launch (blocks all_points block) block (project_thread npart nprof block).
(** 62-68. *)
Definition clip_launch : list gprog :=
  launch (blocks npart block) block (clip_thread npart 0%Qc block).
(** 74-76. *)
Definition difference_launch : list gprog :=
  launch (blocks all_bins block) block (difference_thread all_bins (blocks all_bins block) block).
(** 86-92. *)
Definition compensate_launch : list gprog :=
  launch (blocks all_bins block) block (compensate_thread nprof nbins block).
(** 101-103, 107-109, 118-120. *)
Definition count_launch : list gprog :=
  launch (blocks all_points block) block (count_thread nprof npart nbins block).
Definition reciprocal_launch (max_val : Qc) : list gprog :=
  launch (blocks all_bins block) block (reciprocal_thread nbins nprof max_val block).
Definition flat_points_launch : list gprog :=
  launch (blocks all_points block) block (flat_points_thread npart nprof nbins block).

(** 153-156 and 165-168: project, normalise, difference, discrepancy; k gets
    the recreated array and the discrepancy. *)
Definition gpu_compare {A} (k : list Qc -> Qc -> host A) : host A :=
  Launch project_launch (Fetch Rec all_bins (fun rec =>
  try (gpu_normalize rec nprof nbins) (fun rec =>
  Store Rec rec (
  Fresh Diff (
  Launch difference_launch (Fetch Diff all_bins (fun diff =>
  try (gpu_discrepancy sqrt diff nprof nbins) (fun d => k rec d)))))))).

(** 149-162: the remaining iterations [n], number [it] first. *)
Fixpoint gpu_loop {A} (n it : nat) (discr : list Qc) (k : list Qc -> host A) : host A :=
  match n with
  | O => k discr
  | S n' =>
    gpu_compare (fun _ d =>
    try (set discr (zi it) d) (fun discr =>
    Launch compensate_launch (
    Launch (back_project_launch Diff) (
    Launch clip_launch (Fetch Weights npart (fun w =>
    try (gpu_check w) (fun _ => gpu_loop n' (S it) discr k)))))))
  end.

(** 124-173 [reconstruct_cuda], for n_iter >= 0: weights, discr and the flat
    recreated waterfall.  The callback is not called.  At least one particle:
    CUDA refuses a grid of size 0. *)
Definition reconstruct_cuda (xp : list Z) (prof : list Qc) (niter : nat) : host (list Qc * list Qc * list Qc) :=
  StoreI (Xp 0) xp (
  Store Weights (repeat 0%Qc npart) (
  Store Profs prof (
  Store Rec (repeat 0%Qc all_bins) (
  Store Rparts (repeat 0%Qc all_bins) (
  Launch count_launch (Fetch Rparts all_bins (fun counts =>
  try (cp_max counts) (fun max_val =>
  Launch (reciprocal_launch max_val) (
  FetchI (Xp 0) all_points (fun points =>
  StoreI Points points (
  Launch flat_points_launch (
  Launch (back_project_launch Profs) (
  Launch clip_launch (Fetch Weights npart (fun w =>
  try (gpu_check w) (fun _ =>
  gpu_loop niter 0 (repeat 0%Qc (niter + 1)) (fun discr =>
  gpu_compare (fun rec d =>
  try (set discr (zi niter) d) (fun discr =>
  Fetch Weights npart (fun w => Done (Ok (w, discr, rec)))))))))))))))))))))).
End Host.

(** The arrays on the device, reconstruct_cuda.py 128-135 and 73: integers xp
    and flat_points; numbers weights, flat_profiles, flat_rec, diff_prof,
    rparts. *)
Definition allocated (nbins npart nprof : nat) (l : loc) : bool :=
  let within i n := ((0 <=? i) && (i <? zi n))%Z in
  match l with
  | I_ (Xp 0) i => within i (npart * nprof)
  | I_ Points i => within i (npart * nprof)
  | R_ Weights i => within i npart
  | R_ Profs i => within i (nprof * nbins)
  | R_ Rec i => within i (nprof * nbins)
  | R_ Diff i => within i (nprof * nbins)
  | R_ Rparts i => within i (nprof * nbins)
  | _ => false
  end.

(** Tomography.run, tomography.py 359-404, with the GPU switched on. *)
Definition run_gpu (sqrt : Qc -> Qc) (block : nat) (t : tomo) (niter : nat) : host (list Qc * list Qc * list Qc) :=
  match t_xp t with
  | None => Done (Fail (Raised CoordinateError))
  | Some xp => reconstruct_cuda sqrt block (t_nbins t) (length xp) (t_nprofs t)
                 (List.concat xp) (List.concat (t_waterfall t)) niter
  end.

(** ** What Tomography.run leaves behind, tomography.py 399-404 *)

(** An array with its shape. *)
Inductive ndarr := NDArr (shape : list nat) (data : list Qc).

(** The attributes weight, diff and recreated, and the calls of the callback. *)
Record outcome := Outcome {
  o_weight : list Qc; o_diff : list Qc; o_recreated : ndarr; o_calls : list (Z * Z) }.

(** On the CPU: libtomo.cpp 434-442 returns recreated with the shape
    (n_profiles, n_bins). *)
Definition outcome_cpu (t : tomo) (r : list Qc * list Qc * list (list Qc) * list (Z * Z)) : outcome :=
  let '(w, d, rec, calls) := r in
  Outcome w d (NDArr [t_nprofs t; t_nbins t] (List.concat rec)) calls.

(** On the GPU: reconstruct_cuda.py 173 returns flat_rec; the argument callback
    (127) is not used. *)
Definition outcome_gpu (r : list Qc * list Qc * list Qc) : outcome :=
  let '(w, d, rec) := r in Outcome w d (NDArr [length rec] rec) [].

(** ** reconstruct_cupy.py *)

(** cp.take: indices out of range wrap around (CuPy's default mode). *)
Definition cp_take (l : list Qc) (i : Z) : res Qc := get l (Z.modulo i (zi (length l))).

(** 12-17 [back_project]; flat_points has one row for each particle. *)
Definition cupy_back_project (w : list Qc) (fp : list (list Z)) (prof : list Qc) : res (list Qc) :=
  rows <- mapM (mapM (cp_take prof)) fp ;;
  Ok (map (fun p => (qsum (fst p) + snd p)%Qc) (combine rows w)).

(** cp.bincount with weights: the length is the largest value + 1, at least
    [minlength]; a negative value raises. *)
Definition cp_bincount (x : list Z) (w : list Qc) (minlength : nat) : res (list Qc) :=
  if existsb (fun v => (v <? 0)%Z) x then Fail (Raised ValueError)
  else
    let n := Nat.max minlength (list_max (map (fun v => S (Z.to_nat v)) x)) in
    forl (combine x w) (fun p acc => v <- get acc (fst p) ;; set acc (fst p) (v + snd p)%Qc) (repeat 0%Qc n).

(** 19-23 [project]; adding arrays of different lengths raises. *)
Definition cupy_project (rec : list Qc) (fp : list (list Z)) (w : list Qc) (nprof nbins : nat) : res (list Qc) :=
  c <- cp_bincount (List.concat fp) (List.concat (map (fun x => repeat x nprof) w)) (nprof * nbins) ;;
  if Nat.eqb (length c) (length rec) then Ok (map (fun p => (fst p + snd p)%Qc) (combine c rec))
  else Fail (Raised ValueError).

(** 38-41 [clip]. *)
Definition cupy_clip (w : list Qc) (c : Qc) : list Qc := map (fun x => if qltb x c then c else x) w.

(** cp.histogram with the edges 0, 1, .., nbins: the last bin includes its
    right edge; values outside are not counted. *)
Definition cp_histogram (x : list Z) (nbins : nat) : list nat :=
  tab nbins (fun b => length (filter (fun v =>
    (Z.eqb v (zi b) || (Nat.eqb (S b) nbins && Z.eqb v (zi nbins)))%bool) x)).

(** 63-71 [count_particles_in_bin]. *)
Definition cupy_count (xp : list (list Z)) (nprof nbins : nat) : res (list (list Qc)) :=
  mapM (fun j =>
    col <- mapM (fun row => get row (zi j)) xp ;;
    Ok (map qn (cp_histogram col nbins))) (seq 0 nprof).

(** 73-84 [reciprocal_particles]; 59-61 [max_2d]: the largest of the first
    [n_particles] columns. *)
Definition cupy_reciprocal (xp : list (list Z)) (nbins nprof npart : nat) : res (list (list Qc)) :=
  rparts <- cupy_count xp nprof nbins ;;
  mx <- cp_max (List.concat (map (firstn npart) (firstn nprof rparts))) ;;
  mapM (mapM (fun x => qdiv mx (if qeqb x 0 then 1%Qc else x))) rparts.

(** 86-92 [create_flat_points]. *)
Definition cupy_flat_points (xp : list (list Z)) (nprof nbins : nat) : list (list Z) :=
  py_flat_points xp nprof nbins.

(** 124-127 and 137-140: project, normalise, difference, discrepancy: the
    recreated array, the difference and the discrepancy. *)
Definition cupy_compare (sqrt : Qc -> Qc) (fp : list (list Z)) (prof rec w : list Qc) (nprof nbins : nat)
  : res (list Qc * list Qc * Qc) :=
  rec <- cupy_project rec fp w nprof nbins ;;
  rec <- gpu_normalize rec nprof nbins ;;
  let diff := map (fun p => (fst p - snd p)%Qc) (combine prof rec) in
  d <- gpu_discrepancy sqrt diff nprof nbins ;;
  Ok (rec, diff, d).

(** 120-134: one iteration. *)
Definition cupy_iteration (sqrt : Qc -> Qc) (fp : list (list Z)) (prof rparts : list Qc) (nprof nbins : nat)
    (it : nat) (s : list Qc * list Qc * list Qc) : res (list Qc * list Qc * list Qc) :=
  let '(w, rec, discr) := s in
  ' (rec, diff, d) <- cupy_compare sqrt fp prof rec w nprof nbins ;;
  discr <- set discr (zi it) d ;;
  let diff := map (fun p => (fst p * snd p)%Qc) (combine diff rparts) in
  w <- cupy_back_project w fp diff ;;
  let w := cupy_clip w 0 in
  _ <- gpu_check w ;;
  Ok (w, rec, discr).

(** 94-145 [reconstruct_cupy], for n_iter >= 0. *)
Definition reconstruct_cupy (sqrt : Qc -> Qc) (xp : list (list Z)) (prof : list Qc) (niter nbins npart nprof : nat)
  : res (list Qc * list Qc * list Qc) :=
  rparts <- cupy_reciprocal xp nbins nprof npart ;;
  let rparts := List.concat rparts in
  let fp := cupy_flat_points xp nprof nbins in
  w <- cupy_back_project (repeat 0%Qc npart) fp prof ;;
  let w := cupy_clip w 0 in
  _ <- gpu_check w ;;
  ' (w, rec, discr) <- for_ 0 niter (cupy_iteration sqrt fp prof rparts nprof nbins)
     (w, repeat 0%Qc (nprof * nbins), repeat 0%Qc (niter + 1)) ;;
  ' (rec, _, d) <- cupy_compare sqrt fp prof rec w nprof nbins ;;
  discr <- set discr (zi niter) d ;;
  Ok (w, discr, rec).
