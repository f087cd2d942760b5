(** Results of computations: failures are values. *)
From Coq Require Import List ZArith Bool Lia.
Import ListNotations.

(** Exceptions raised by the Python and C++ code
    (LT/exceptions.py and built-in exceptions). *)
Inductive exn : Type :=
| ValueError | IndexError | NegativeIndexError | TypeError | KeyError
| UnboundLocalError | ZeroDivisionError
| InputError | MachineParameterError | SpaceChargeParameterError
| RawDataImportError | WaterfallError | WaterfallReducedToZero
| CoordinateError | CoordinateImportError | XPOutOfImageWidthError
| InvalidParticleError | EnergyLimitsError | PhaseLimitsError
| ArrayLengthError | UnequalArrayShapes | EnergyBinningError
| ProfileChargeNotCalculated | SelfFieldTrackingError | PhaseSpaceReducedToZeroes
| RuntimeError | AssertionError | InvalidProfileError | MachineError | AttributeError
| OutOfRange | FilteredProfilesError.

(** Why a computation failed.  [OutOfBounds]: a C++ array access outside the
    array.  [NotFinite]: a division by zero (the floating-point code would go
    on with an infinity or a not-a-number).  [OutOfFuel]: a modelled [while]
    loop did not end within its bound (theorems show this never happens).
    [IntOverflow]: a C++ int computation left the range of int (undefined
    behaviour; only Model/MInt.v looks for it).
    [Raised e]: the code raised exception [e]. *)
Inductive err : Type :=
| OutOfBounds | NotFinite | OutOfFuel | IntOverflow | Raised (e : exn).

Inductive res (A : Type) : Type :=
| Ok (a : A)
| Fail (e : err).
Arguments Ok {A} a.
Arguments Fail {A} e.

Definition bind {A B} (x : res A) (f : A -> res B) : res B :=
  match x with Ok a => f a | Fail e => Fail e end.

Declare Scope res_scope.
Delimit Scope res_scope with res.
Notation "x <- e ;; f" := (bind e (fun x => f))
  (at level 61, e at next level, right associativity) : res_scope.
Notation "' p <- e ;; f" := (bind e (fun x => match x with p => f end))
  (at level 61, p pattern, e at next level, right associativity) : res_scope.
Open Scope res_scope.

Definition guard (b : bool) (e : err) : res unit := if b then Ok tt else Fail e.

Definition is_ok {A} (x : res A) : bool := match x with Ok _ => true | Fail _ => false end.

(** [for_ i n body s]: the loop  for (k = i; k < i+n; k++) s = body k s. *)
Fixpoint for_ {S : Type} (i n : nat) (body : nat -> S -> res S) (s : S) : res S :=
  match n with
  | O => Ok s
  | S n' => s' <- body i s ;; for_ (Datatypes.S i) n' body s'
  end.

(** Loop over a list of values, in order. *)
Fixpoint forl {A S : Type} (l : list A) (body : A -> S -> res S) (s : S) : res S :=
  match l with
  | [] => Ok s
  | a :: l' => s' <- body a s ;; forl l' body s'
  end.

(** Sequence a list of results: the first failure wins. *)
Fixpoint sequence {A} (l : list (res A)) : res (list A) :=
  match l with
  | [] => Ok []
  | x :: l' => a <- x ;; r <- sequence l' ;; Ok (a :: r)
  end.

Definition mapM {A B} (f : A -> res B) (l : list A) : res (list B) :=
  sequence (map f l).

(** Bounds-checked array access.  Indices are [Z]: C++ and Python compute them
    with signed integers. *)
Definition get {A} (l : list A) (i : Z) : res A :=
  if (i <? 0)%Z then Fail OutOfBounds
  else match nth_error l (Z.to_nat i) with
       | Some a => Ok a
       | None => Fail OutOfBounds
       end.

Fixpoint upd {A} (l : list A) (i : nat) (v : A) : list A :=
  match l, i with
  | [], _ => []
  | _ :: l', O => v :: l'
  | x :: l', S i' => x :: upd l' i' v
  end.

Definition set {A} (l : list A) (i : Z) (v : A) : res (list A) :=
  if ((i <? 0) || (Z.of_nat (length l) <=? i))%Z then Fail OutOfBounds
  else Ok (upd l (Z.to_nat i) v).
