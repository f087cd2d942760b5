(** Model of calls into the compiled routines for a single turn,
    [libtomo.kick] and [libtomo.drift], and of the routine
    [Tracking.kick_and_drift] that calls them turn by turn, on the arrays of the
    caller.  LT/cpp_routines/libtomo.cpp 42-160 and 543-550,
    LT/tracking/tracking.py 216-314.

    Arrays, Python values and the loading of arguments are those of
    Model/MBind.v; the loops over the particles those of Model/MTrack.v.  The
    compiled routines exist in double precision only. *)
From Coq Require Import List ZArith Bool.
From Verif Require Import Base.Res Model.MTrack Model.MBind.
Import ListNotations.
Local Open Scope Z_scope.

Section Steps.
Context {T : Type} (add sub mul : dtype -> T -> T -> T) (sin : dtype -> T -> T)
        (single : T -> T) (ofZ : Z -> T) (zero : T).

Notation heap := (heap T).
Notation pyval := (pyval T).

(** pybind11: a function with one version; first without, then with conversion
    of the arguments. *)
Definition load_args (ts : list ty) (h : heap) (vs : list pyval) : option (heap * list (cval T)) :=
  match load_all single ofZ false ts h vs with
  | Some r => Some r
  | None => load_all single ofZ true ts h vs
  end.

(** libtomo.cpp 548-550: denergy, dphi, drift_coef, npart, turn, up. *)
Definition drift_params : list ty := repeat (TArr F64) 3 ++ [TInt; TInt; TBool].

(** libtomo.cpp 115-160 [wrapper_drift], [wrapper_drift_up],
    [wrapper_drift_down]: a call libtomo.drift(vs...) with all six arguments.
    drift_coef(turn) is not checked.  The array dphi is changed in place and
    returned. *)
Definition call_drift (h : heap) (vs : list pyval) : res (heap * loc) :=
  match load_args drift_params h vs with
  | Some (h, [CArr de; CArr ph; CArr co; CInt n; CInt t; CBool up]) =>
      c <- vec_at h co ;;
      coef <- get c t ;;
      x <- vec_at h ph ;; e <- vec_at h de ;;
      x' <- (if up then drift_up (sub F64) (mul F64) x e coef (Z.to_nat n)
             else drift_down (add F64) (mul F64) x e coef (Z.to_nat n)) ;;
      Ok (put h ph (Vec x'), ph)
  | _ => Fail (Raised TypeError)
  end.

(** libtomo.cpp 543-546: machine, denergy, dphi, rfv1, rfv2, npart, turn, up. *)
Definition kick_params : list ty := TObj :: repeat (TArr F64) 4 ++ [TInt; TInt; TBool].

(** libtomo.cpp 42-112 [wrapper_kick], [wrapper_kick_up], [wrapper_kick_down].
    phi12 and h_ratio of the machine are converted to a float.  The elements of
    the turn are not checked.  The array denergy is changed in place and
    returned. *)
Definition call_kick (h : heap) (vs : list pyval) : res (heap * loc) :=
  match load_args kick_params h vs with
  | Some (h, [CObj o; CArr de; CArr ph; CArr v1; CArr v2; CInt n; CInt t; CBool up]) =>
      match o with
      | PObj (MObj p0 dE _ mp12 mhr _) =>
          p12 <- py_float single ofZ h mp12 ;;
          hr <- py_float single ofZ h mhr ;;
          v1 <- vec_at h v1 ;; v2 <- vec_at h v2 ;;
          v1 <- get v1 t ;; v2 <- get v2 t ;; p0 <- get p0 t ;; acc <- get dE t ;;
          x <- vec_at h ph ;; e <- vec_at h de ;;
          e' <- (if up then kick_up (add F64) (sub F64) (mul F64) (sin F64) x e v1 v2 p0 p12 hr (Z.to_nat n) acc
                 else kick_down (add F64) (sub F64) (mul F64) (sin F64) x e v1 v2 p0 p12 hr (Z.to_nat n) acc) ;;
          Ok (put h de (Vec e'), de)
      | _ => Fail (Raised AttributeError)
      end
  | _ => Fail (Raised TypeError)
  end.

(** Local variables of [Tracking.kick_and_drift]: the arrays that exist, the
    arrays called dphi and denergy, the two tables, profile and turn. *)
Record pstate := PState {
  p_heap : heap; p_dphi : loc; p_denergy : loc;
  p_xp : list (list T); p_yp : list (list T); p_profile : Z; p_turn : Z }.

(** What the routine is given besides the particles: the machine object, its
    array drift_coef, and the two arrays of voltages. *)
Record setting := Setting { g_machine : mobj T; g_drift : loc; g_rf1 : loc; g_rf2 : loc }.

(** tracking.py 284-289 and 306-312: at a profile the coordinates are copied
    into the tables. *)
Definition keep (dturns : Z) (next : Z) (t : Z) (h : heap) (ph de : loc) (s : pstate) : res pstate :=
  if dturns =? 0 then Fail (Raised ZeroDivisionError) else
  if Z.modulo t dturns =? 0 then
    x <- vec_at h ph ;; y <- vec_at h de ;;
    xp' <- pyset (p_xp s) next x ;;
    yp' <- pyset (p_yp s) next y ;;
    Ok (PState h ph de xp' yp' next t)
  else Ok (PState h ph de (p_xp s) (p_yp s) (p_profile s) t).

(** tracking.py 275-289. *)
Definition p_up_step (g : setting) (nparts : nat) (dturns : Z) (s : pstate) : res pstate :=
  '(h, ph) <- call_drift (p_heap s)
     [PArr (p_denergy s); PArr (p_dphi s); PArr (g_drift g); PInt (Z.of_nat nparts);
      PInt (p_turn s); PBool true] ;;
  let t := p_turn s + 1 in
  '(h, de) <- call_kick h
     [PObj (g_machine g); PArr (p_denergy s); PArr ph; PArr (g_rf1 g); PArr (g_rf2 g);
      PInt (Z.of_nat nparts); PInt t; PBool true] ;;
  keep dturns (p_profile s + 1) t h ph de s.

Fixpoint p_up_loop (fuel : nat) (g : setting) (nparts : nat) (dturns nturns : Z) (s : pstate)
  : res pstate :=
  if p_turn s <? nturns then
    match fuel with
    | O => Fail OutOfFuel
    | S f => s' <- p_up_step g nparts dturns s ;; p_up_loop f g nparts dturns nturns s'
    end
  else Ok s.

(** tracking.py 298-312. *)
Definition p_down_step (g : setting) (nparts : nat) (dturns : Z) (s : pstate) : res pstate :=
  '(h, de) <- call_kick (p_heap s)
     [PObj (g_machine g); PArr (p_denergy s); PArr (p_dphi s); PArr (g_rf1 g); PArr (g_rf2 g);
      PInt (Z.of_nat nparts); PInt (p_turn s); PBool false] ;;
  let t := p_turn s - 1 in
  '(h, ph) <- call_drift h
     [PArr de; PArr (p_dphi s); PArr (g_drift g); PInt (Z.of_nat nparts); PInt t; PBool false] ;;
  keep dturns (p_profile s - 1) t h ph de s.

Fixpoint p_down_loop (fuel : nat) (g : setting) (nparts : nat) (dturns : Z) (s : pstate)
  : res pstate :=
  if 0 <? p_turn s then
    match fuel with
    | O => Fail OutOfFuel
    | S f => s' <- p_down_step g nparts dturns s ;; p_down_loop f g nparts dturns s'
    end
  else Ok s.

(** np.copy of a one-dimensional array: a new contiguous array of the same
    type. *)
Definition np_copy (h : heap) (l : loc) : res (heap * loc) :=
  match nth_error h l with
  | Some a => Ok (alloc h (Arr (adt a) true (adat a)))
  | None => Fail OutOfBounds
  end.

(** tracking.py 252-314; [nturns] is the attribute of the tracker.  The copies
    put into the tables are values here. *)
Definition track_by_turns (g : setting) (nprofiles : nat) (de ph : loc)
    (dturns rec_prof deltaturn nturns : Z) (h : heap)
  : res (heap * (list (list T) * list (list T))) :=
  e <- vec_at h de ;;
  x <- vec_at h ph ;;
  let nparts := length e in
  let z := repeat (repeat zero nparts) nprofiles in
  '(h, iph) <- np_copy h ph ;;
  '(h, ide) <- np_copy h de ;;
  '(x0, y0) <- (if deltaturn =? 0
                then a <- pyset z rec_prof x ;; b <- pyset z rec_prof e ;; Ok (a, b)
                else Ok (z, z)) ;;
  let rec_turn := rec_prof * dturns + deltaturn in
  let prof := if deltaturn <? 0 then rec_prof - 1 else rec_prof in
  s1 <- p_up_loop (Z.to_nat (nturns - rec_turn)) g nparts dturns nturns
          (PState h ph de x0 y0 prof rec_turn) ;;
  '(h, ph2) <- np_copy (p_heap s1) iph ;;
  '(h, de2) <- np_copy h ide ;;
  s2 <- p_down_loop (Z.to_nat rec_turn) g nparts dturns
          (PState h ph2 de2 (p_xp s1) (p_yp s1) rec_prof rec_turn) ;;
  Ok (p_heap s2, (p_xp s2, p_yp s2)).

End Steps.
Arguments pstate T : clear implicits.
Arguments setting T : clear implicits.
