(** LT/python_routines/kick_and_drift_cupy.py: tracking with CuPy arrays.
    The machine's phi12 is the array built on line 80. *)
From Coq Require Import List ZArith Bool.
From Verif Require Import Base.Res Model.MParticles Model.MTrack.
Import ListNotations.
Local Open Scope Z_scope.

Section Cupy.
Context {T : Type} (add sub mul : T -> T -> T) (sin : T -> T).

(** An operation on two arrays.  CuPy refuses arrays of different lengths.
    Simplified: it accepts a length of one, which is not modelled. *)
Definition cp_zip (f : T -> T -> T) (a b : list T) : res (list T) :=
  if Nat.eqb (length a) (length b) then Ok (map (fun p => f (fst p) (snd p)) (combine a b))
  else Fail (Raised ValueError).

(** tab[profile] = cp.copy(row). *)
Definition cp_set_row (tab : list (list T)) (p : Z) (row : list T) : res (list (list T)) :=
  old <- np_get tab p ;;
  if Nat.eqb (length old) (length row) then pyset tab p row else Fail (Raised ValueError).

(** 41-46 [kick_drift_up_simultaneously]. *)
Definition cp_up (ph de : list T) (co v1 v2 p0 p12 hr acc : T) : res (list T * list T) :=
  ph <- cp_zip (fun x e => sub x (mul co e)) ph de ;;
  de <- cp_zip (fun x e => add e (kick_term add sub mul sin v1 v2 p0 p12 hr acc x)) ph de ;;
  Ok (ph, de).

(** 48-53 [kick_drift_down_simultaneously]. *)
Definition cp_down (ph de : list T) (co v1 v2 p0 p12 hr acc : T) : res (list T * list T) :=
  de <- cp_zip (fun x e => sub e (kick_term add sub mul sin v1 v2 p0 p12 hr acc x)) ph de ;;
  ph <- cp_zip (fun x e => add x (mul co e)) ph de ;;
  Ok (ph, de).

(** turn % dturns == 0. *)
Definition cp_hit (t dturns : Z) : res bool :=
  if dturns =? 0 then Fail (Raised ZeroDivisionError) else Ok (Z.modulo t dturns =? 0).

Record cstate := CState { c_dphi : list T; c_denergy : list T; c_xp : list (list T); c_yp : list (list T); c_profile : Z; c_turn : Z }.

(** 94-104: one pass of the upward loop. *)
Definition cp_up_step (m : machine T) (dturns : Z) (s : cstate) : res cstate :=
  let t := c_turn s + 1 in
  co <- np_get (drift_coef m) (t - 1) ;;
  v1 <- np_get (rf1v m) t ;; v2 <- np_get (rf2v m) t ;; p0 <- np_get (phi0 m) t ;;
  p12 <- np_get (phi12 m) t ;; acc <- np_get (deltaE0 m) t ;;
  ' (ph, de) <- cp_up (c_dphi s) (c_denergy s) co v1 v2 p0 p12 (hratio m) acc ;;
  hit <- cp_hit t dturns ;;
  if hit then
    let p := c_profile s + 1 in
    xp <- cp_set_row (c_xp s) p ph ;;
    yp <- cp_set_row (c_yp s) p de ;;
    Ok (CState ph de xp yp p t)
  else Ok (CState ph de (c_xp s) (c_yp s) (c_profile s) t).

Fixpoint cp_up_loop (fuel : nat) (m : machine T) (dturns nturns : Z) (s : cstate) : res cstate :=
  if c_turn s <? nturns then
    match fuel with
    | O => Fail OutOfFuel
    | S f => s' <- cp_up_step m dturns s ;; cp_up_loop f m dturns nturns s'
    end
  else Ok s.

(** 115-123: one pass of the downward loop. *)
Definition cp_down_step (m : machine T) (dturns : Z) (s : cstate) : res cstate :=
  let t := c_turn s in
  co <- np_get (drift_coef m) (t - 1) ;;
  v1 <- np_get (rf1v m) t ;; v2 <- np_get (rf2v m) t ;; p0 <- np_get (phi0 m) t ;;
  p12 <- np_get (phi12 m) t ;; acc <- np_get (deltaE0 m) t ;;
  ' (ph, de) <- cp_down (c_dphi s) (c_denergy s) co v1 v2 p0 p12 (hratio m) acc ;;
  let t := t - 1 in
  hit <- cp_hit t dturns ;;
  if hit then
    let p := c_profile s - 1 in
    xp <- cp_set_row (c_xp s) p ph ;;
    yp <- cp_set_row (c_yp s) p de ;;
    Ok (CState ph de xp yp p t)
  else Ok (CState ph de (c_xp s) (c_yp s) (c_profile s) t).

Fixpoint cp_down_loop (fuel : nat) (m : machine T) (dturns : Z) (s : cstate) : res cstate :=
  if 0 <? c_turn s then
    match fuel with
    | O => Fail OutOfFuel
    | S f => s' <- cp_down_step m dturns s ;; cp_down_loop f m dturns s'
    end
  else Ok s.

(** 55-123 [kick_and_drift_cupy].  The routine returns None; its result is what
    it leaves in [xp] and [yp]. *)
Definition kick_and_drift_cupy (m : machine T) (xp yp : list (list T)) (de ph : list T)
    (dturns rec_prof deltaturn nturns : Z) : res (list (list T) * list (list T)) :=
  let prof := if deltaturn <? 0 then rec_prof - 1 else rec_prof in
  let t := rec_prof * dturns + deltaturn in
  xp <- cp_set_row xp prof ph ;;
  yp <- cp_set_row yp prof de ;;
  s <- cp_up_loop (Z.to_nat (nturns - t)) m dturns nturns (CState ph de xp yp prof t) ;;
  if 0 <? rec_prof then
    ph <- np_get (c_xp s) rec_prof ;;
    de <- np_get (c_yp s) rec_prof ;;
    s <- cp_down_loop (Z.to_nat (rec_prof * dturns)) m dturns
           (CState ph de (c_xp s) (c_yp s) rec_prof (rec_prof * dturns)) ;;
    Ok (c_xp s, c_yp s)
  else Ok (c_xp s, c_yp s).
End Cupy.
