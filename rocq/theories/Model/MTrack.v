(** Model of particle tracking without self-fields.
    LT/cpp_routines/kick_and_drift.cpp, LT/cpp_routines/libtomo.cpp,
    LT/tracking/tracking.py, LT/python_routines/kick_and_drift_cuda.py,
    LT/cuda_kernels/kick_and_drift.cu.

    The model is polymorphic in the number type [T] and its operations, so it
    covers double, float and exact arithmetic alike.  C++ [int] is [Z]. *)
From Coq Require Import List ZArith Bool.
From Verif Require Import Base.Res.
Import ListNotations.
Local Open Scope Z_scope.

(** Per-turn machine arrays handed to the tracking routine
    (kick_and_drift.cpp 120-126, tracking.py 186-190, 207-211). *)
Record machine (T : Type) := Machine {
  rf1v : list T; rf2v : list T; phi0 : list T; deltaE0 : list T;
  drift_coef : list T; phi12 : list T; hratio : T }.
Arguments Machine {T}.
Arguments rf1v {T}. Arguments rf2v {T}. Arguments phi0 {T}. Arguments deltaE0 {T}.
Arguments drift_coef {T}. Arguments phi12 {T}. Arguments hratio {T}.

(** Local variables of [kick_and_drift] (kick_and_drift.cpp 116-146):
    coordinate arrays, output tables (one row per profile), [profile], [turn],
    [progress]; [calls] is the list of callback calls made so far (oldest
    first) and [prints] the profile pairs written to stdout when [ftn_out]. *)
Record tstate (T : Type) := TState {
  dphi : list T; denergy : list T;
  xp : list (list T); yp : list (list T);
  profile : Z; turn : Z; progress : Z;
  calls : list (Z * Z); prints : list (Z * Z) }.
Arguments TState {T}.
Arguments dphi {T}. Arguments denergy {T}. Arguments xp {T}. Arguments yp {T}.
Arguments profile {T}. Arguments turn {T}. Arguments progress {T}.
Arguments calls {T}. Arguments prints {T}.

Section Track.
Context {T : Type} (add sub mul : T -> T -> T) (sin : T -> T).

(** The energy increment of kick_and_drift.cpp 38-39 and 59-60:
    rfv1*sin(dphi+phi0) + rfv2*sin(hratio*(dphi+phi0-phi12)) - acc_kick. *)
Definition kick_term (v1 v2 p0 p12 hr acc ph : T) : T :=
  sub (add (mul v1 (sin (add ph p0)))
           (mul v2 (sin (mul hr (sub (add ph p0) p12))))) acc.

(** kick_and_drift.cpp 24-43 [kick_up]: loop over particles. *)
Definition kick_up (ph : list T) (de : list T) (v1 v2 p0 p12 hr : T) (nparts : nat) (acc : T)
  : res (list T) :=
  for_ 0 nparts (fun i de =>
    x <- get ph (Z.of_nat i) ;;
    e <- get de (Z.of_nat i) ;;
    set de (Z.of_nat i) (add e (kick_term v1 v2 p0 p12 hr acc x))) de.

(** kick_and_drift.cpp 45-64 [kick_down]. *)
Definition kick_down (ph : list T) (de : list T) (v1 v2 p0 p12 hr : T) (nparts : nat) (acc : T)
  : res (list T) :=
  for_ 0 nparts (fun i de =>
    x <- get ph (Z.of_nat i) ;;
    e <- get de (Z.of_nat i) ;;
    set de (Z.of_nat i) (sub e (kick_term v1 v2 p0 p12 hr acc x))) de.

(** kick_and_drift.cpp 70-78 [drift_up]. *)
Definition drift_up (ph : list T) (de : list T) (coef : T) (nparts : nat) : res (list T) :=
  for_ 0 nparts (fun i ph =>
    x <- get ph (Z.of_nat i) ;;
    e <- get de (Z.of_nat i) ;;
    set ph (Z.of_nat i) (sub x (mul coef e))) ph.

(** kick_and_drift.cpp 80-89 [drift_down]. *)
Definition drift_down (ph : list T) (de : list T) (coef : T) (nparts : nat) : res (list T) :=
  for_ 0 nparts (fun i ph =>
    x <- get ph (Z.of_nat i) ;;
    e <- get de (Z.of_nat i) ;;
    set ph (Z.of_nat i) (add x (mul coef e))) ph.

(** The copy loops of kick_and_drift.cpp 140-143, 159-162, 180-183, 197-200,
    for one of the two arrays: dst[i] = src[i]. *)
Definition copy_loop (src dst : list T) (nparts : nat) : res (list T) :=
  for_ 0 nparts (fun i dst =>
    x <- get src (Z.of_nat i) ;; set dst (Z.of_nat i) x) dst.

(** tab[profile][i] = src[i] for all particles. *)
Definition store_row (tab : list (list T)) (prof : Z) (src : list T) (nparts : nat)
  : res (list (list T)) :=
  row <- get tab prof ;;
  row' <- copy_loop src row nparts ;;
  set tab prof row'.

(** C++ turn % dturns == 0 (remainder truncated towards zero; dturns = 0 is
    a division by zero). *)
Definition on_profile (t dturns : Z) : res bool :=
  if dturns =? 0 then Fail NotFinite else Ok (Z.rem t dturns =? 0).

(** One pass of the upward while loop, kick_and_drift.cpp 149-170. *)
Definition up_step (m : machine T) (dturns rec_prof total : Z) (nparts : nat) (ftn : bool)
    (s : tstate T) : res (tstate T) :=
  coef <- get (drift_coef m) (turn s) ;;
  ph <- drift_up (dphi s) (denergy s) coef nparts ;;
  let t := turn s + 1 in
  v1 <- get (rf1v m) t ;; v2 <- get (rf2v m) t ;; p0 <- get (phi0 m) t ;;
  p12 <- get (phi12 m) t ;; acc <- get (deltaE0 m) t ;;
  de <- kick_up ph (denergy s) v1 v2 p0 p12 (hratio m) nparts acc ;;
  hit <- on_profile t dturns ;;
  let pg := progress s + 1 in
  let cb := calls s ++ [(pg, total)] in
  if hit then
    let p := profile s + 1 in
    xp' <- store_row (xp s) p ph nparts ;;
    yp' <- store_row (yp s) p de nparts ;;
    Ok (TState ph de xp' yp' p t pg cb
          (if ftn then prints s ++ [(rec_prof + 1, p + 1)] else prints s))
  else Ok (TState ph de (xp s) (yp s) (profile s) t pg cb (prints s)).

(** while (turn < nturns), kick_and_drift.cpp 148-171. *)
Fixpoint up_loop (fuel : nat) (m : machine T) (dturns rec_prof nturns : Z) (nparts : nat)
    (ftn : bool) (s : tstate T) : res (tstate T) :=
  if turn s <? nturns then
    match fuel with
    | O => Fail OutOfFuel
    | S f => s' <- up_step m dturns rec_prof nturns nparts ftn s ;;
             up_loop f m dturns rec_prof nturns nparts ftn s'
    end
  else Ok s.

(** One pass of the downward while loop, kick_and_drift.cpp 187-208. *)
Definition down_step (m : machine T) (dturns rec_prof total : Z) (nparts : nat) (ftn : bool)
    (s : tstate T) : res (tstate T) :=
  v1 <- get (rf1v m) (turn s) ;; v2 <- get (rf2v m) (turn s) ;; p0 <- get (phi0 m) (turn s) ;;
  p12 <- get (phi12 m) (turn s) ;; acc <- get (deltaE0 m) (turn s) ;;
  de <- kick_down (dphi s) (denergy s) v1 v2 p0 p12 (hratio m) nparts acc ;;
  let t := turn s - 1 in
  coef <- get (drift_coef m) t ;;
  ph <- drift_down (dphi s) de coef nparts ;;
  hit <- on_profile t dturns ;;
  let pg := progress s + 1 in
  let cb := calls s ++ [(pg, total)] in
  if hit then
    let p := profile s - 1 in
    xp' <- store_row (xp s) p ph nparts ;;
    yp' <- store_row (yp s) p de nparts ;;
    Ok (TState ph de xp' yp' p t pg cb
          (if ftn then prints s ++ [(rec_prof + 1, p + 1)] else prints s))
  else Ok (TState ph de (xp s) (yp s) (profile s) t pg cb (prints s)).

(** while (turn > 0), kick_and_drift.cpp 186-209. *)
Fixpoint down_loop (fuel : nat) (m : machine T) (dturns rec_prof total : Z) (nparts : nat)
    (ftn : bool) (s : tstate T) : res (tstate T) :=
  if 0 <? turn s then
    match fuel with
    | O => Fail OutOfFuel
    | S f => s' <- down_step m dturns rec_prof total nparts ftn s ;;
             down_loop f m dturns rec_prof total nparts ftn s'
    end
  else Ok s.

(** [kick_and_drift], kick_and_drift.cpp 115-211. *)
Definition kick_and_drift (m : machine T) (xp0 yp0 : list (list T)) (de ph : list T)
    (dturns rec_prof deltaturn nturns : Z) (nparts : nat) (ftn : bool) : res (tstate T) :=
  let prof := if deltaturn <? 0 then rec_prof - 1 else rec_prof in
  let t := rec_prof * dturns + deltaturn in
  x0 <- store_row xp0 prof ph nparts ;;
  y0 <- store_row yp0 prof de nparts ;;
  s1 <- up_loop (Z.to_nat (nturns - t)) m dturns rec_prof nturns nparts ftn
          (TState ph de x0 y0 prof t 0 [] []) ;;
  if 0 <? rec_prof then
    rx <- get (xp s1) rec_prof ;;
    ry <- get (yp s1) rec_prof ;;
    ph' <- copy_loop rx (dphi s1) nparts ;;
    de' <- copy_loop ry (denergy s1) nparts ;;
    down_loop (Z.to_nat (rec_prof * dturns)) m dturns rec_prof nturns nparts ftn
      (TState ph' de' (xp s1) (yp s1) rec_prof (rec_prof * dturns) (progress s1)
         (calls s1) (prints s1))
  else Ok (TState (dphi s1) (denergy s1) (xp s1) (yp s1) rec_prof (rec_prof * dturns)
             (progress s1) (calls s1) (prints s1)).

(** libtomo.cpp 194-226 [wrapper_kick_and_drift_scalar]: phi12 given as one
    number is expanded to an array of [nturns] elements. *)
Definition scalar_machine (v1 v2 p0 dE co : list T) (p12 hr : T) (nturns : Z) : machine T :=
  Machine v1 v2 p0 dE co (repeat p12 (Z.to_nat nturns)) hr.

(** kick_and_drift_cuda.py 55: the GPU version expands to [nturns+1]. *)
Definition scalar_machine_gpu (v1 v2 p0 dE co : list T) (p12 hr : T) (nturns : Z) : machine T :=
  Machine v1 v2 p0 dE co (repeat p12 (Z.to_nat (nturns + 1))) hr.

(** ** The hybrid Python/C++ version, tracking.py 216-314 *)

(** Python list/array indexing: negative indices count from the end. *)
Definition pyset {A} (l : list A) (i : Z) (v : A) : res (list A) :=
  let n := Z.of_nat (length l) in
  let j := if i <? 0 then i + n else i in
  if (j <? 0) || (n <=? j) then Fail (Raised IndexError)
  else Ok (upd l (Z.to_nat j) v).

Record hstate := HState {
  h_dphi : list T; h_denergy : list T;
  h_xp : list (list T); h_yp : list (list T); h_profile : Z; h_turn : Z }.

(** tracking.py 275-289: one pass of the upward loop.  libtomo.drift/kick:
    libtomo.cpp 82-160 ([phi12] is one number there). *)
Definition h_up_step (m : machine T) (p12 : T) (dturns : Z) (s : hstate) : res hstate :=
  let nparts := length (h_denergy s) in
  coef <- get (drift_coef m) (h_turn s) ;;
  ph <- drift_up (h_dphi s) (h_denergy s) coef nparts ;;
  let t := h_turn s + 1 in
  v1 <- get (rf1v m) t ;; v2 <- get (rf2v m) t ;; p0 <- get (phi0 m) t ;;
  acc <- get (deltaE0 m) t ;;
  de <- kick_up ph (h_denergy s) v1 v2 p0 p12 (hratio m) nparts acc ;;
  if dturns =? 0 then Fail (Raised ZeroDivisionError) else
  if Z.modulo t dturns =? 0 then
    let p := h_profile s + 1 in
    xp' <- pyset (h_xp s) p ph ;;
    yp' <- pyset (h_yp s) p de ;;
    Ok (HState ph de xp' yp' p t)
  else Ok (HState ph de (h_xp s) (h_yp s) (h_profile s) t).

Fixpoint h_up_loop (fuel : nat) (m : machine T) (p12 : T) (dturns nturns : Z) (s : hstate)
  : res hstate :=
  if h_turn s <? nturns then
    match fuel with
    | O => Fail OutOfFuel
    | S f => s' <- h_up_step m p12 dturns s ;; h_up_loop f m p12 dturns nturns s'
    end
  else Ok s.

(** tracking.py 298-312. *)
Definition h_down_step (m : machine T) (p12 : T) (dturns : Z) (s : hstate) : res hstate :=
  let nparts := length (h_denergy s) in
  v1 <- get (rf1v m) (h_turn s) ;; v2 <- get (rf2v m) (h_turn s) ;;
  p0 <- get (phi0 m) (h_turn s) ;; acc <- get (deltaE0 m) (h_turn s) ;;
  de <- kick_down (h_dphi s) (h_denergy s) v1 v2 p0 p12 (hratio m) nparts acc ;;
  let t := h_turn s - 1 in
  coef <- get (drift_coef m) t ;;
  ph <- drift_down (h_dphi s) de coef nparts ;;
  if dturns =? 0 then Fail (Raised ZeroDivisionError) else
  if Z.modulo t dturns =? 0 then
    let p := h_profile s - 1 in
    xp' <- pyset (h_xp s) p ph ;;
    yp' <- pyset (h_yp s) p de ;;
    Ok (HState ph de xp' yp' p t)
  else Ok (HState ph de (h_xp s) (h_yp s) (h_profile s) t).

Fixpoint h_down_loop (fuel : nat) (m : machine T) (p12 : T) (dturns : Z) (s : hstate)
  : res hstate :=
  if 0 <? h_turn s then
    match fuel with
    | O => Fail OutOfFuel
    | S f => s' <- h_down_step m p12 dturns s ;; h_down_loop f m p12 dturns s'
    end
  else Ok s.

(** tracking.py 252-314.  [zero]: the element of np.zeros. *)
Definition hybrid_kick_and_drift (zero : T) (m : machine T) (p12 : T) (nprofiles : nat)
    (de ph : list T) (dturns rec_prof deltaturn nturns : Z)
  : res (list (list T) * list (list T)) :=
  let z := repeat (repeat zero (length de)) nprofiles in
  '(x0, y0) <- (if deltaturn =? 0
                then a <- pyset z rec_prof ph ;; b <- pyset z rec_prof de ;; Ok (a, b)
                else Ok (z, z)) ;;
  let rec_turn := rec_prof * dturns + deltaturn in
  let prof := if deltaturn <? 0 then rec_prof - 1 else rec_prof in
  s1 <- h_up_loop (Z.to_nat (nturns - rec_turn)) m p12 dturns nturns
          (HState ph de x0 y0 prof rec_turn) ;;
  s2 <- h_down_loop (Z.to_nat rec_turn) m p12 dturns
          (HState ph de (h_xp s1) (h_yp s1) rec_prof rec_turn) ;;
  Ok (h_xp s2, h_yp s2).

(** ** The GPU version, kick_and_drift_cuda.py 39-83, kick_and_drift.cu 134-217 *)

(** One thread of [kick_drift_up_turns] (kick_and_drift.cu 158-172): the
    writes of the thread, in order, as (profile, phase, energy). *)
Fixpoint gpu_up (fuel : nat) (m : machine T) (dturns nturns : Z) (t prof : Z) (x e : T)
  : res (list (Z * (T * T))) :=
  if t <? nturns then
    match fuel with
    | O => Fail OutOfFuel
    | S f =>
      coef <- get (drift_coef m) t ;;
      let x' := sub x (mul coef e) in
      let t' := t + 1 in
      v1 <- get (rf1v m) t' ;; v2 <- get (rf2v m) t' ;; p0 <- get (phi0 m) t' ;;
      p12 <- get (phi12 m) t' ;; acc <- get (deltaE0 m) t' ;;
      let e' := add e (kick_term v1 v2 p0 p12 (hratio m) acc x') in
      hit <- on_profile t' dturns ;;
      if hit then
        r <- gpu_up f m dturns nturns t' (prof + 1) x' e' ;;
        Ok ((prof + 1, (x', e')) :: r)
      else gpu_up f m dturns nturns t' prof x' e'
    end
  else Ok [].

(** One thread of [kick_drift_down_turns] (kick_and_drift.cu 202-215). *)
Fixpoint gpu_down (fuel : nat) (m : machine T) (dturns : Z) (t prof : Z) (x e : T)
  : res (list (Z * (T * T))) :=
  if 0 <? t then
    match fuel with
    | O => Fail OutOfFuel
    | S f =>
      v1 <- get (rf1v m) t ;; v2 <- get (rf2v m) t ;; p0 <- get (phi0 m) t ;;
      p12 <- get (phi12 m) t ;; acc <- get (deltaE0 m) t ;;
      let e' := sub e (kick_term v1 v2 p0 p12 (hratio m) acc x) in
      let t' := t - 1 in
      coef <- get (drift_coef m) t' ;;
      let x' := add x (mul coef e') in
      hit <- on_profile t' dturns ;;
      if hit then
        r <- gpu_down f m dturns t' (prof - 1) x' e' ;;
        Ok ((prof - 1, (x', e')) :: r)
      else gpu_down f m dturns t' prof x' e'
    end
  else Ok [].

(** A thread writes to the flat device arrays at nr_particles*profile + tid. *)
Definition apply_writes (nparts : nat) (tid : nat) (ws : list (Z * (T * T)))
    (a : list T * list T) : res (list T * list T) :=
  forl ws (fun w a =>
    let i := Z.of_nat nparts * fst w + Z.of_nat tid in
    x' <- set (fst a) i (fst (snd w)) ;;
    y' <- set (snd a) i (snd (snd w)) ;;
    Ok (x', y')) a.

(** A launch: the threads of the grid, in the order given by [sched] (threads
    only share the output arrays, which none of them reads; so an order of
    whole threads is enough).  Threads with tid >= nr_particles do nothing. *)
Definition gpu_launch (nparts : nat) (sched : list nat)
    (thread : nat -> res (list (Z * (T * T)))) (a : list T * list T) : res (list T * list T) :=
  forl sched (fun tid a =>
    if Nat.ltb tid nparts then ws <- thread tid ;; apply_writes nparts tid ws a
    else Ok a) a.

(** xp[profile] = copy(src): a row of the (nprofiles, nparts) array. *)
Definition gpu_store_row (a : list T) (prof : Z) (src : list T) (nparts : nat) : res (list T) :=
  for_ 0 nparts (fun i a =>
    x <- get src (Z.of_nat i) ;; set a (Z.of_nat nparts * prof + Z.of_nat i) x) a.

Definition gpu_load_row (a : list T) (prof : Z) (nparts : nat) : res (list T) :=
  mapM (fun i => get a (Z.of_nat nparts * prof + Z.of_nat i)) (seq 0 nparts).

(** kick_and_drift_cuda.py 39-83.  [sched1], [sched2]: thread orders of the
    two launches. *)
Definition gpu_kick_and_drift (m : machine T) (xp0 yp0 : list T) (de ph : list T)
    (dturns rec_prof deltaturn nturns : Z) (nparts : nat) (sched1 sched2 : list nat)
  : res (list T * list T) :=
  let prof := if deltaturn <? 0 then rec_prof - 1 else rec_prof in
  let t := rec_prof * dturns + deltaturn in
  x0 <- gpu_store_row xp0 prof ph nparts ;;
  y0 <- gpu_store_row yp0 prof de nparts ;;
  a1 <- gpu_launch nparts sched1 (fun tid =>
          x <- get ph (Z.of_nat tid) ;; e <- get de (Z.of_nat tid) ;;
          gpu_up (Z.to_nat (nturns - t)) m dturns nturns t prof x e) (x0, y0) ;;
  if 0 <? rec_prof then
    ph' <- gpu_load_row (fst a1) rec_prof nparts ;;
    de' <- gpu_load_row (snd a1) rec_prof nparts ;;
    gpu_launch nparts sched2 (fun tid =>
          x <- get ph' (Z.of_nat tid) ;; e <- get de' (Z.of_nat tid) ;;
          gpu_down (Z.to_nat (rec_prof * dturns)) m dturns (rec_prof * dturns) rec_prof x e) a1
  else Ok a1.

(** The grid of the launch: int(nparts / block + 1) blocks of [block] threads
    (kick_and_drift_cuda.py 29). *)
Definition grid_threads (nparts block : nat) : nat := (nparts / block + 1) * block.

End Track.

(** ** Argument checks of [Tracking.track] *)

(** assertions.py 644-684 [assert_index_ok]. *)
Definition assert_index_ok (index limit : Z) (wrap_around : bool) : res Z :=
  if index <? 0 then
    if negb wrap_around then Fail (Raised NegativeIndexError)
    else if limit + index <? 0 then Fail (Raised IndexError)
    else Ok (limit + index)
  else if limit <=? index then Fail (Raised IndexError)
  else Ok index.

(** tracking.py 141-160: the checks at the start of [track]; returns the
    normalised profile index. *)
Definition track_checks (nprofiles dturns recprof deltaturn : Z) : res Z :=
  p <- assert_index_ok recprof nprofiles true ;;
  if negb (Z.abs deltaturn <? dturns) then Fail (Raised ValueError)
  else if negb (dturns * p + deltaturn <? dturns * (nprofiles - 1)) then Fail (Raised ValueError)
  else if negb (0 <=? dturns * p + deltaturn) then Fail (Raised ValueError)
  else Ok p.

(** [Tracking.track] with a user distribution and without self-fields
    (tracking.py 141-160, 175-184, 200-214), CPU back end, phi12 given as an
    array. *)
Definition track {T} (add sub mul : T -> T -> T) (sin : T -> T) (zero : T) (m : machine T)
    (nprofiles : nat) (dturns recprof deltaturn : Z) (ph de : list T) (ftn : bool)
  : res (tstate T) :=
  p <- track_checks (Z.of_nat nprofiles) dturns recprof deltaturn ;;
  let nparts := length ph in
  let z := repeat (repeat zero nparts) nprofiles in
  kick_and_drift add sub mul sin m z z de ph dturns p deltaturn
    (dturns * (Z.of_nat nprofiles - 1)) nparts ftn.
