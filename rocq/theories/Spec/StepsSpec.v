(** What a caller of the routines for single turns expects.  Definitions only. *)
From Coq Require Import List ZArith Bool.
From Verif Require Import Base.Res Model.MTrack Model.MBind Model.MSteps Spec.BindSpec Spec.TrackSpec.
Import ListNotations.
Local Open Scope Z_scope.

Section StepsSpec.
Context {T : Type} (add sub mul : T -> T -> T) (sin : T -> T).

(** The array at [l] is one of doubles in contiguous memory. *)
Definition plain (h : heap T) (l : loc) : Prop := exists d, nth_error h l = Some (Arr F64 true d).

(** The phases after a drift with coefficient [c], forwards or backwards. *)
Definition drifted (up : bool) (c : T) (x e : list T) : list T :=
  map (fun p => if up then sub (fst p) (mul c (snd p)) else add (fst p) (mul c (snd p))) (combine x e).

(** The energies after the cavities, forwards or backwards: voltages [v1] and
    [v2], synchronous phase [p0], phase [p12] and ratio [hr] of the second
    system, energy [acc] of the synchronous particle. *)
Definition kicked (up : bool) (v1 v2 p0 p12 hr acc : T) (x e : list T) : list T :=
  map (fun p =>
    let gain := sub (add (mul v1 (sin (add (fst p) p0)))
                         (mul v2 (sin (mul hr (sub (add (fst p) p0) p12))))) acc in
    if up then add (snd p) gain else sub (snd p) gain) (combine x e).

(** A call returns the array at [l'] with the elements [v]: the given array [l]
    itself if it is plain, else a new one.  No other array changes. *)
Definition returns_in (h h' : heap T) (l l' : loc) (v : list T) : Prop :=
  vec_at h' l' = Ok v /\ (plain h l -> l' = l) /\ (~ plain h l -> (length h <= l')%nat) /\
  (forall k a, nth_error h k = Some a -> k <> l' -> nth_error h' k = Some a).

(** The machine object and arrays given to the turn by turn routine hold the
    parameters [F] for turns 0 to [nturns], and phi12 is one number. *)
Definition describes (single : T -> T) (ofZ : Z -> T) (h : heap T) (g : setting T) (F : params T)
    (nturns : nat) : Prop :=
  exists m co mp12 mhr dt p12,
    g_machine g = MObj (phi0 m) (deltaE0 m) co mp12 mhr dt /\
    vec_at h (g_drift g) = Ok (drift_coef m) /\
    vec_at h (g_rf1 g) = Ok (rf1v m) /\ vec_at h (g_rf2 g) = Ok (rf2v m) /\
    number_in single ofZ F64 mp12 p12 /\ number_in single ofZ F64 mhr (hr F) /\
    holds m F nturns /\ (forall t, (t <= nturns)%nat -> ph12 F t = p12).

(** The arrays of phases and energies are two different ones, and neither is
    the array of drift coefficients or one of the arrays of voltages. *)
Definition apart (g : setting T) (ph de : loc) : Prop :=
  ph <> de /\ forall k, In k [g_drift g; g_rf1 g; g_rf2 g] -> k <> ph /\ k <> de.
End StepsSpec.

(** Whole numbers, with the identity for the sine, for the examples. *)
Definition z_drift := call_drift (fun _ => Z.add) (fun _ => Z.sub) (fun _ => Z.mul) (fun x => x) (fun z => z).
Definition z_kick :=
  call_kick (fun _ => Z.add) (fun _ => Z.sub) (fun _ => Z.mul) (fun _ x => x) (fun x => x) (fun z => z).
Definition z_turns :=
  track_by_turns (fun _ => Z.add) (fun _ => Z.sub) (fun _ => Z.mul) (fun _ x => x) (fun x => x) (fun z => z) 0.
Definition z_F : params Z := Params (fun _ => 1) (fun _ => 0) (fun _ => 0) (fun _ => 0) (fun _ => 0) (fun _ => 1) 1.
(** Arrays: energies, phases in single precision, coefficients, two voltages,
    phases in double precision. *)
Definition z_heap : heap Z :=
  [Arr F64 true (Vec [2; -1]); Arr F32 true (Vec [5; 7]); Arr F64 true (Vec [1; 1; 1]);
   Arr F64 true (Vec [1; 1; 1]); Arr F64 true (Vec [0; 0; 0]); Arr F64 true (Vec [5; 7])].
Definition z_setting (p12 : pyval Z) : setting Z :=
  Setting (MObj [0; 0; 0] [0; 0; 0] [1; 1; 1] p12 (PInt 1) 2) 2%nat 3%nat 4%nat.
