(** What a call of a Python function by position and by name means.
    Definitions only. *)
From Coq Require Import String List Permutation.
From Verif Require Import Model.MCalls.
Import ListNotations.

(** The call gives the parameters [names] the values [vs]: the first ones by
    position, the others by name in any order. *)
Definition passes {V} (names : list string) (vs : list V) (pos : list V) (kw : list (string * V)) : Prop :=
  exists rest, vs = pos ++ rest /\ Permutation kw (combine (skipn (length pos) names) rest).

(** A keyword of the call is one of [names]. *)
Definition names_one (names : list string) (kw : list (string * nval)) : Prop :=
  exists n v, In n names /\ In (n, v) kw.
