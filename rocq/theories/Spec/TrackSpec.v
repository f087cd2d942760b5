(** What one machine turn does to one particle, and where a particle is after
    travelling from one turn to another.  Independent of the tracking loops. *)
From Coq Require Import List Arith.
From Verif Require Import Model.MTrack.
Import ListNotations.

(** Machine parameters as functions of the turn number. *)
Record params (T : Type) := Params {
  v1 : nat -> T; v2 : nat -> T; ph0 : nat -> T; ph12 : nat -> T;
  dE : nat -> T; coef : nat -> T; hr : T }.
Arguments Params {T}.
Arguments v1 {T}. Arguments v2 {T}. Arguments ph0 {T}. Arguments ph12 {T}.
Arguments dE {T}. Arguments coef {T}. Arguments hr {T}.

(** The arrays of [m] hold the parameters [F] for turns 0..nturns. *)
Definition holds {T} (m : machine T) (F : params T) (nturns : nat) : Prop :=
  hratio m = hr F /\
  (forall t, t <= nturns ->
     nth_error (rf1v m) t = Some (v1 F t) /\
     nth_error (rf2v m) t = Some (v2 F t) /\
     nth_error (MTrack.phi0 m) t = Some (ph0 F t) /\
     nth_error (MTrack.phi12 m) t = Some (ph12 F t) /\
     nth_error (deltaE0 m) t = Some (dE F t) /\
     nth_error (drift_coef m) t = Some (coef F t)).

Section Spec.
Context {T : Type} (add sub mul : T -> T -> T) (sin : T -> T) (F : params T).

(** Energy given by the cavities at turn [t] to a particle with phase offset
    [x], minus the energy given to the synchronous particle. *)
Definition gain (t : nat) (x : T) : T :=
  sub (add (mul (v1 F t) (sin (add x (ph0 F t))))
           (mul (v2 F t) (sin (mul (hr F) (sub (add x (ph0 F t)) (ph12 F t))))))
      (dE F t).

(** From turn [t] to turn [t+1]: drift, then kick. *)
Definition forward (t : nat) (s : T * T) : T * T :=
  let x := sub (fst s) (mul (coef F t) (snd s)) in
  (x, add (snd s) (gain (S t) x)).

(** From turn [t+1] to turn [t]: undo the kick, then undo the drift. *)
Definition backward (t : nat) (s : T * T) : T * T :=
  let e := sub (snd s) (gain (S t) (fst s)) in
  (add (fst s) (mul (coef F t) e), e).

(** [n] turns forward, starting at turn [t]. *)
Fixpoint ups (n t : nat) (s : T * T) : T * T :=
  match n with O => s | S n' => ups n' (S t) (forward t s) end.

(** [n] turns backward, ending at turn [t]. *)
Fixpoint downs (n t : nat) (s : T * T) : T * T :=
  match n with O => s | S n' => backward t (downs n' (S t) s) end.

(** The state at turn [b] of a particle that is in state [s] at turn [a]. *)
Definition travel (a b : nat) (s : T * T) : T * T :=
  if a <=? b then ups (b - a) a s else downs (a - b) b s.

End Spec.

(** Row [q] of a pair of tables holds the coordinates [l]. *)
Definition row_is {T} (xp yp : list (list T)) (q : nat) (l : list (T * T)) : Prop :=
  nth_error xp q = Some (map fst l) /\ nth_error yp q = Some (map snd l).
