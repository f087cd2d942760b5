(** Model of the functions for a single turn kept for older programs:
    LT/cpp_routines/tomolib_wrappers.py 31-115 [kick], [drift].  Each passes its
    arguments by position to the compiled routine of the same name
    (Model/MSteps.v).  The logged warning is left out. *)
From Coq Require Import String List ZArith Bool.
From Verif Require Import Base.Res Model.MTrack Model.MBind Model.MSteps.
Import ListNotations.

(** Python: the value given to a parameter by name. *)
Fixpoint keyword {V} (s : string) (kw : list (string * V)) : option V :=
  match kw with
  | [] => None
  | (n, v) :: kw => if String.eqb n s then Some v else keyword s kw
  end.

(** Python: the parameters that are not given by position, by name or else by
    default. *)
Fixpoint fill {V} (names : list string) (defaults kw : list (string * V)) : option (list V) :=
  match names with
  | [] => Some []
  | n :: names =>
      match keyword n kw, keyword n defaults, fill names defaults kw with
      | Some v, _, Some vs | None, Some v, Some vs => Some (v :: vs)
      | _, _, _ => None
      end
  end.

(** Python: the values of the parameters of a call.  Too many arguments, a
    parameter given twice and an unknown name are refused. *)
Definition parameters {V} (names : list string) (defaults : list (string * V)) (pos : list V)
    (kw : list (string * V)) : option (list V) :=
  if Nat.ltb (List.length names) (List.length pos) then None else
  let rest := skipn (List.length pos) names in
  if forallb (fun k => existsb (String.eqb (fst k)) rest) kw then
    match fill rest defaults kw with
    | Some vs => Some (pos ++ vs)
    | None => None
    end
  else None.

Section Old.
Context {T : Type} (add sub mul : dtype -> T -> T -> T) (sin : dtype -> T -> T)
        (single : T -> T) (ofZ : Z -> T).

Local Open Scope string_scope.
(** tomolib_wrappers.py 31-33 and 78-79: the default of the last parameter. *)
Definition old_defaults : list (string * pyval T) := [("up", PBool true)].

(** tomolib_wrappers.py 31-33. *)
Definition old_kick_names := ["machine"; "denergy"; "dphi"; "rfv1"; "rfv2"; "npart"; "turn"; "up"].

(** tomolib_wrappers.py 31-75. *)
Definition old_kick (h : heap T) (pos : list (pyval T)) (kw : list (string * pyval T)) : res (heap T * loc) :=
  match parameters old_kick_names old_defaults pos kw with
  | Some [machine; denergy; dphi; rfv1; rfv2; npart; turn; up] =>
      call_kick add sub mul sin single ofZ h [machine; denergy; dphi; rfv1; rfv2; npart; turn; up]
  | _ => Fail (Raised TypeError)
  end.

(** tomolib_wrappers.py 78-79. *)
Definition old_drift_names := ["denergy"; "dphi"; "drift_coef"; "npart"; "turn"; "up"].

(** tomolib_wrappers.py 78-115. *)
Definition old_drift (h : heap T) (pos : list (pyval T)) (kw : list (string * pyval T)) : res (heap T * loc) :=
  match parameters old_drift_names old_defaults pos kw with
  | Some [denergy; dphi; drift_coef; npart; turn; up] =>
      call_drift add sub mul single ofZ h [denergy; dphi; drift_coef; npart; turn; up]
  | _ => Fail (Raised TypeError)
  end.
End Old.
