(** Definitions used to state what the density scan does below transition and
    with acceleration. *)
From Coq Require Import Reals List ZArith Bool.
From Verif Require Import Base.Res Model.MArea Spec.AreaSpec.
Import ListNotations.
Local Open Scope R_scope.

(** What numpy does below the first entry of xp, also if xp is not increasing:
    the value is compared with the last entry first, then with the first. *)
Definition clamps_left (interp : R -> list R -> list R -> R) : Prop :=
  forall x xp fp, (0 < length xp)%nat -> length xp = length fp -> x <= nth (length xp - 1) xp 0 -> x < nth 0 xp 0 ->
    interp x xp fp = nth 0 fp 0.

(** The edge of the bucket below transition without acceleration: the
    trajectory through the phases -pi and pi. *)
Definition bucket_edge (m : amachine) (energy eta0 phi : R) : R :=
  sqrt (am_q m * beta2E m energy / (PI * am_h m * eta0) * am_vrf1 m * (1 + cos phi)).
