(** Model of the OpenMP loops of LT/cpp_routines/kick_and_drift.cpp and
    LT/cpp_routines/reconstruct.cpp: the iterations of a parallel loop are
    programs that access one shared memory, and their accesses interleave in
    any order.

    A team of threads runs the iterations in some order, several of them one
    after the other in one thread: these are some of the interleavings of the
    iterations, so a theorem about all interleavings covers every number of
    threads and every OpenMP schedule.  Accesses are atomic and sequentially
    consistent: for loops without data races C++ promises just this.  A loop
    with a data race has undefined behaviour in C++, so a bad interleaving is
    the least that can happen.  Numbers are exact: rounding is not modelled. *)
From Coq Require Import List ZArith Bool QArith Qcanon.
From Verif Require Import Base.Res Base.QcLib Model.MRecon Model.MTrack.
Import ListNotations.
Local Open Scope Z_scope.

(** The shared arrays, and the variables declared outside a parallel loop and
    not made private (SharedIdx, SharedBin, SharedSum).  Partial i is the
    private copy of a reduction variable used by iteration i. *)
Inductive arr :=
| Dphi | Denergy | Xp (profile : Z) | Yp (profile : Z)
| Weights | Points | Profs | Rec | Diff | Rparts | Discr | Partial
| Mask | XpRound | Centers | Cutleft | Cutright | DiscrSplit
| SharedIdx | SharedBin | SharedSum.

(** A memory location: element i of an array of numbers, or of integers. *)
Inductive loc := R_ (a : arr) (i : Z) | I_ (a : arr) (i : Z).

Definition arr_eq_dec (a b : arr) : {a = b} + {a <> b}.
Proof. decide equality; apply Z.eq_dec. Defined.
Definition loc_eq_dec (a b : loc) : {a = b} + {a <> b}.
Proof. decide equality; try apply Z.eq_dec; apply arr_eq_dec. Defined.

Section Omp.
Context {T : Type}.

Definition val (l : loc) : Type := match l with R_ _ _ => T | I_ _ _ => Z end.
Definition mem := forall l, val l.

Definition store (m : mem) (l : loc) (v : val l) : mem := fun l' =>
  match loc_eq_dec l l' with
  | left e => match e in _ = x return val x with eq_refl => v end
  | right _ => m l'
  end.

(** A program: memory accesses in order. *)
Inductive prog :=
| Stop
| Read (l : loc) (k : val l -> prog)
| Write (l : loc) (v : val l) (p : prog).

(** The program run alone. *)
Fixpoint run (p : prog) (m : mem) : mem :=
  match p with
  | Stop => m
  | Read l k => run (k (m l)) m
  | Write l v p => run p (store m l v)
  end.

(** The iterations one after the other, in index order. *)
Definition run_all (ps : list prog) (m : mem) : mem := fold_left (fun m p => run p m) ps m.

(** One access of one of the programs. *)
Inductive step : list prog * mem -> list prog * mem -> Prop :=
| step_read : forall ps i l k m, nth_error ps i = Some (Read l k) ->
    step (ps, m) (upd ps i (k (m l)), m)
| step_write : forall ps i l v p m, nth_error ps i = Some (Write l v p) ->
    step (ps, m) (upd ps i p, store m l v).

Inductive steps : list prog * mem -> list prog * mem -> Prop :=
| steps_refl : forall s, steps s s
| steps_cons : forall s1 s2 s3, step s1 s2 -> steps s2 s3 -> steps s1 s3.

(** A parallel loop may end with memory m'. *)
Definition ends (ps : list prog) (m m' : mem) : Prop :=
  exists ps', steps (ps, m) (ps', m') /\ Forall (fun p => p = Stop) ps'.

(** A routine: parallel loops one after the other (there is a barrier at the
    end of each).  Code outside parallel loops is a loop of one program. *)
Inductive routine_ends : list (list prog) -> mem -> mem -> Prop :=
| re_nil : forall m, routine_ends [] m m
| re_cons : forall ps rs m m1 m', ends ps m m1 -> routine_ends rs m1 m' -> routine_ends (ps :: rs) m m'.

(** Loops inside an iteration; s is a private variable. *)
Fixpoint ploop {S : Type} (i n : nat) (body : nat -> S -> (S -> prog) -> prog) (s : S) (k : S -> prog) : prog :=
  match n with
  | O => k s
  | Datatypes.S n' => body i s (fun s' => ploop (Datatypes.S i) n' body s' k)
  end.

(** #pragma omp parallel for over i < n. *)
Definition par (n : nat) (body : nat -> prog) : list prog := map body (seq 0 n).

(** ** kick_and_drift.cpp *)
Variables (add sub mul : T -> T -> T) (sin : T -> T).

(** kick_and_drift.cpp 35-42 (kick_up), 56-63 (kick_down), 75-77 (drift_up),
    86-88 (drift_down). *)
Definition kick_up_par (v1 v2 p0 p12 hr acc : T) (nparts : nat) : list prog :=
  par nparts (fun i => Read (R_ Dphi (zi i)) (fun x => Read (R_ Denergy (zi i)) (fun e =>
    Write (R_ Denergy (zi i)) (add e (kick_term add sub mul sin v1 v2 p0 p12 hr acc x)) Stop))).
Definition kick_down_par (v1 v2 p0 p12 hr acc : T) (nparts : nat) : list prog :=
  par nparts (fun i => Read (R_ Dphi (zi i)) (fun x => Read (R_ Denergy (zi i)) (fun e =>
    Write (R_ Denergy (zi i)) (sub e (kick_term add sub mul sin v1 v2 p0 p12 hr acc x)) Stop))).
Definition drift_up_par (coef : T) (nparts : nat) : list prog :=
  par nparts (fun i => Read (R_ Dphi (zi i)) (fun x => Read (R_ Denergy (zi i)) (fun e =>
    Write (R_ Dphi (zi i)) (sub x (mul coef e)) Stop))).
Definition drift_down_par (coef : T) (nparts : nat) : list prog :=
  par nparts (fun i => Read (R_ Dphi (zi i)) (fun x => Read (R_ Denergy (zi i)) (fun e =>
    Write (R_ Dphi (zi i)) (add x (mul coef e)) Stop))).

(** kick_and_drift.cpp 139-143, 158-162, 196-200: a row of the output tables. *)
Definition store_par (p : Z) (nparts : nat) : list prog :=
  par nparts (fun i => Read (R_ Dphi (zi i)) (fun x => Write (R_ (Xp p) (zi i)) x
    (Read (R_ Denergy (zi i)) (fun e => Write (R_ (Yp p) (zi i)) e Stop)))).
(** kick_and_drift.cpp 179-183: back to the coordinates of the start profile. *)
Definition restore_par (p : Z) (nparts : nat) : list prog :=
  par nparts (fun i => Read (R_ (Xp p) (zi i)) (fun x => Write (R_ Dphi (zi i)) x
    (Read (R_ (Yp p) (zi i)) (fun e => Write (R_ Denergy (zi i)) e Stop)))).

(** The parallel loops of the whole routine, kick_and_drift.cpp 115-211, in the
    order in which they are reached. *)
Fixpoint up_routine (fuel : nat) (m : machine T) (dturns nturns : Z) (nparts : nat) (turn profile : Z)
  : res (list (list prog)) :=
  if turn <? nturns then
    match fuel with
    | O => Fail OutOfFuel
    | S f =>
      coef <- get (drift_coef m) turn ;;
      let t := turn + 1 in
      v1 <- get (rf1v m) t ;; v2 <- get (rf2v m) t ;; p0 <- get (phi0 m) t ;;
      p12 <- get (phi12 m) t ;; acc <- get (deltaE0 m) t ;;
      hit <- on_profile t dturns ;;
      let p := if hit : bool then profile + 1 else profile in
      rest <- up_routine f m dturns nturns nparts t p ;;
      Ok (drift_up_par coef nparts :: kick_up_par v1 v2 p0 p12 (hratio m) acc nparts
          :: (if hit then [store_par p nparts] else []) ++ rest)
    end
  else Ok [].

Fixpoint down_routine (fuel : nat) (m : machine T) (dturns : Z) (nparts : nat) (turn profile : Z)
  : res (list (list prog)) :=
  if 0 <? turn then
    match fuel with
    | O => Fail OutOfFuel
    | S f =>
      v1 <- get (rf1v m) turn ;; v2 <- get (rf2v m) turn ;; p0 <- get (phi0 m) turn ;;
      p12 <- get (phi12 m) turn ;; acc <- get (deltaE0 m) turn ;;
      let t := turn - 1 in
      coef <- get (drift_coef m) t ;;
      hit <- on_profile t dturns ;;
      let p := if hit : bool then profile - 1 else profile in
      rest <- down_routine f m dturns nparts t p ;;
      Ok (kick_down_par v1 v2 p0 p12 (hratio m) acc nparts :: drift_down_par coef nparts
          :: (if hit then [store_par p nparts] else []) ++ rest)
    end
  else Ok [].

Definition kick_and_drift_routine (m : machine T) (dturns rec_prof deltaturn nturns : Z) (nparts : nat)
  : res (list (list prog)) :=
  let prof := if deltaturn <? 0 then rec_prof - 1 else rec_prof in
  let t := rec_prof * dturns + deltaturn in
  up <- up_routine (Z.to_nat (nturns - t)) m dturns nturns nparts t prof ;;
  if 0 <? rec_prof then
    down <- down_routine (Z.to_nat (rec_prof * dturns)) m dturns nparts (rec_prof * dturns) rec_prof ;;
    Ok (store_par prof nparts :: up ++ restore_par rec_prof nparts :: down)
  else Ok (store_par prof nparts :: up).
End Omp.
Arguments val : clear implicits.
Arguments mem : clear implicits.
Arguments prog : clear implicits.

(** ** reconstruct.cpp *)
Local Open Scope Qc_scope.

(** 25-28: back_project. *)
Definition back_project_par (npart nprof : nat) : list (prog Qc) :=
  par npart (fun i => ploop 0 nprof (fun j _ k =>
    Read (I_ Points (zi (i * nprof + j))) (fun q => Read (R_ Profs q) (fun v =>
    Read (R_ Weights (zi i)) (fun x => Write (R_ Weights (zi i)) (x + v) (k tt))))) tt (fun _ => Stop)).
(** The same loop reading the difference of the profiles (the second call). *)
Definition back_project_diff_par (npart nprof : nat) : list (prog Qc) :=
  par npart (fun i => ploop 0 nprof (fun j _ k =>
    Read (I_ Points (zi (i * nprof + j))) (fun q => Read (R_ Diff q) (fun v =>
    Read (R_ Weights (zi i)) (fun x => Write (R_ Weights (zi i)) (x + v) (k tt))))) tt (fun _ => Stop)).
(** 111-114: clip of the weights. *)
Definition clip_par (n : nat) (c : Qc) : list (prog Qc) :=
  par n (fun i => Read (R_ Weights (zi i)) (fun x => if qltb x c then Write (R_ Weights (zi i)) c Stop else Stop)).
(** 92-101: normalize; sum_waterfall is a reduction variable. *)
Definition normalize_par (nprof nbins : nat) : list (prog Qc) :=
  par nprof (fun i =>
    ploop 0 nbins (fun j s k => Read (R_ Rec (zi (i * nbins + j))) (fun x => k (s + x))) 0 (fun s =>
    ploop 0 nbins (fun j _ k => Read (R_ Rec (zi (i * nbins + j))) (fun x =>
      Write (R_ Rec (zi (i * nbins + j))) (x / s) (k tt))) tt (fun _ =>
    Write (R_ Partial (zi i)) s Stop))).
(** 129-133: find_difference_profile. *)
Definition difference_par (all_bins : nat) : list (prog Qc) :=
  par all_bins (fun i => Read (R_ Profs (zi i)) (fun p => Read (R_ Rec (zi i)) (fun r =>
    Write (R_ Diff (zi i)) (p - r) Stop))).
(** 181-186: compensate_particle_amount; idx is declared inside the loop. *)
Definition compensate_par (nprof nbins : nat) : list (prog Qc) :=
  par nprof (fun i => ploop 0 nbins (fun j _ k =>
    Read (R_ Diff (zi (i * nbins + j))) (fun x => Read (R_ Rparts (zi (i * nbins + j))) (fun r =>
    Write (R_ Diff (zi (i * nbins + j))) (x * r) (k tt)))) tt (fun _ => Stop)).
(** 270-273, 301-304: zeros to ones. *)
Definition zeros_to_ones_par (n : nat) : list (prog Qc) :=
  par n (fun i => Read (R_ Rparts (zi i)) (fun x => if qeqb x 0 then Write (R_ Rparts (zi i)) 1 Stop else Stop)).

(** 276-282: the reciprocal.  idx is declared outside the loop: one variable
    for all threads.  It is read for each use. *)
Definition reciprocal_par (mx : Qc) (nprof nbins : nat) : list (prog Qc) :=
  par nprof (fun i => ploop 0 nbins (fun j _ k =>
    Write (I_ SharedIdx 0) (zi (i * nbins + j))
    (Read (I_ SharedIdx 0) (fun idx => Read (R_ Rparts idx) (fun x =>
    Read (I_ SharedIdx 0) (fun idx' => Write (R_ Rparts idx') (mx / x) (k tt)))))) tt (fun _ => Stop)).
(** 307-313: collapse(2). *)
Definition reciprocal_multi_par (mx : Qc) (nprof nbins : nat) : list (prog Qc) :=
  par (nprof * nbins) (fun n =>
    Write (I_ SharedIdx 0) (zi n)
    (Read (I_ SharedIdx 0) (fun idx => Read (R_ Rparts idx) (fun x =>
    Read (I_ SharedIdx 0) (fun idx' => Write (R_ Rparts idx') (mx / x) Stop))))).
(** 243-252: count_particles_in_bin_multi; bin is shared, and bunches add to
    the same counters. *)
Definition count_multi_par (nprof npart nbins ncenters : nat) : list (prog Qc) :=
  par ncenters (fun c => ploop 0 npart (fun j _ k => ploop 0 nprof (fun i _ k =>
    Read (I_ XpRound (zi (j * nprof + i))) (fun x => Read (I_ Centers (zi c)) (fun ce =>
    Write (I_ SharedBin 0) (x + ce)%Z
    (Read (I_ SharedBin 0) (fun b => Read (R_ Rparts (b + zi i * zi nbins)) (fun v =>
    Write (R_ Rparts (b + zi i * zi nbins)) (v + 1) (k tt))))))) tt k) tt (fun _ => Stop)).
(** 340-351: create_mask, collapse(3); bin is shared.  Booleans are 0 and 1. *)
Definition create_mask_par (npart nprof ncenter : nat) : list (prog Qc) :=
  flat_map (fun c => flat_map (fun i => map (fun j =>
    Read (I_ XpRound (zi (i * nprof + j))) (fun x => Read (I_ Centers (zi c)) (fun ce =>
    Write (I_ SharedBin 0) (x + ce)%Z
    (Read (I_ SharedBin 0) (fun b => Read (I_ Cutleft (zi c)) (fun l =>
    if (b <? l)%Z then Write (I_ Mask (zi (i + c * npart))) 0%Z Stop
    else Read (I_ SharedBin 0) (fun b' => Read (I_ Cutright (zi c)) (fun r =>
    if (r <? b')%Z then Write (I_ Mask (zi (i + c * npart))) 0%Z Stop else Stop))))))))
    (seq 0 nprof)) (seq 0 npart)) (seq 0 ncenter).
(** 40-51: back_project_multi, collapse(3): the iterations over j add to the
    same weight. *)
Definition back_project_multi_par (npart nprof ncenter : nat) : list (prog Qc) :=
  flat_map (fun c => flat_map (fun i => map (fun j =>
    Read (I_ Mask (zi (i + c * npart))) (fun b => if (b =? 0)%Z then Stop else
    Read (I_ Points (zi (i * nprof + j))) (fun q => Read (I_ Centers (zi c)) (fun ce =>
    Read (R_ Profs (q + ce)) (fun v => Read (R_ Weights (zi (i + c * npart))) (fun x =>
    Write (R_ Weights (zi (i + c * npart))) (x + v) Stop))))))
    (seq 0 nprof)) (seq 0 npart)) (seq 0 ncenter).
(** 75-86: project_multi: the bunches add to the same array. *)
Definition project_multi_par (npart nprof ncenter : nat) : list (prog Qc) :=
  par ncenter (fun c => ploop 0 npart (fun i _ k => ploop 0 nprof (fun j _ k =>
    Read (I_ Points (zi (i * nprof + j))) (fun q => Read (I_ Centers (zi c)) (fun ce =>
    Read (R_ Weights (zi (i + c * npart))) (fun w => Read (R_ Rec (q + ce)) (fun x =>
    Write (R_ Rec (q + ce)) (x + w) (k tt)))))) tt k) tt (fun _ => Stop)).
(** 161-172: discrepancy_multi: squared_sum is shared. *)
Definition discrepancy_multi_par (sqrt : Qc -> Qc) (it nprof nbins ncenter : nat) : list (prog Qc) :=
  par ncenter (fun c => ploop 0 (nprof * nbins) (fun i _ k =>
    Read (I_ Cutright (zi c)) (fun r => Read (I_ Cutleft (zi c)) (fun l =>
    if ((zi i <? r) && (l <? zi i))%Z then
      Read (R_ Diff (zi i)) (fun x => Read (R_ SharedSum 0) (fun s => Write (R_ SharedSum 0) (s + x * x) (k tt)))
    else k tt))) tt (fun _ =>
    Read (R_ SharedSum 0) (fun s => Read (I_ Cutright (zi c)) (fun r => Read (I_ Cutleft (zi c)) (fun l =>
    Write (R_ DiscrSplit (zi (it * ncenter + c))) (sqrt (s / qz (zi nprof * (r - l)))) Stop))))).

(** The code between parallel loops, run by one thread.  54-62: project. *)
Definition project_seq (npart nprof : nat) : prog Qc :=
  ploop 0 npart (fun i _ k => ploop 0 nprof (fun j _ k =>
    Read (I_ Points (zi (i * nprof + j))) (fun q => Read (R_ Weights (zi i)) (fun w =>
    Read (R_ Rec q) (fun x => Write (R_ Rec q) (x + w) (k tt))))) tt k) tt (fun _ => Stop).
(** 136-148 and 408: discrepancy, stored. *)
Definition discrepancy_seq (sqrt : Qc -> Qc) (it : Z) (nprof nbins : nat) : prog Qc :=
  ploop 0 (nprof * nbins) (fun i s k => Read (R_ Diff (zi i)) (fun x => k (s + x * x))) 0 (fun s =>
    Write (R_ Discr it) (sqrt (s / qn (nprof * nbins))) Stop).

(** reconstruct.cpp 391-432: reconstruct, after the counting of the particles.
    The checks of sums read only; a run in which they raise is not modelled
    here. *)
Definition iteration_routine (sqrt : Qc -> Qc) (nbins npart nprof : nat) (it : nat) : list (list (prog Qc)) :=
  [[project_seq npart nprof]; normalize_par nprof nbins; difference_par (nprof * nbins);
   [discrepancy_seq sqrt (zi it) nprof nbins]; compensate_par nprof nbins;
   back_project_diff_par npart nprof; clip_par npart 0].
Definition reconstruct_routine (sqrt : Qc -> Qc) (niter : Z) (nbins npart nprof : nat) : list (list (prog Qc)) :=
  [back_project_par npart nprof; clip_par npart 0] ++
  flat_map (iteration_routine sqrt nbins npart nprof) (seq 0 (Z.to_nat niter)) ++
  [[project_seq npart nprof]; normalize_par nprof nbins; difference_par (nprof * nbins);
   [discrepancy_seq sqrt niter nprof nbins]].
