(** Theorems on the functions for a single turn kept for older programs (C117).
    Statements only: each theorem is closed by the lemma of the same name in
    Proof/COldSteps.v.  Written by tools/mkprops.py. *)
From Coq Require Import String List ZArith Bool.
From Verif Require Import Base.Res Model.MTrack Model.MBind Model.MSteps Model.MOldSteps Spec.BindSpec Spec.StepsSpec
  Spec.TrackSpec Spec.OldCallsSpec.
Import ListNotations.
Local Open Scope Z_scope.
From Verif Require Import Proof.COldSteps.

(** tomolib_wrappers.drift, called by position or by name, drifts the phases as
    libtomo.drift does (C106), forward if the direction is left out. *)
Theorem C117_drift : forall (T : Type) (add sub mul : dtype -> T -> T -> T) (single : T -> T) (ofZ : Z -> T)
    (h : heap T) (de ph co : loc) (e x c : list T) (turn : Z) (coef : T) (up : bool)
    (pos : list (pyval T)) (kw : list (string * pyval T)),
  vec_at h de = Ok e -> vec_at h ph = Ok x -> vec_at h co = Ok c -> length x = length e ->
  get c turn = Ok coef -> an_int (Z.of_nat (length e)) -> an_int turn ->
  let names := ["denergy"; "dphi"; "drift_coef"; "npart"; "turn"]%string in
  let values := [PArr de; PArr ph; PArr co; PInt (Z.of_nat (length e)); PInt turn] in
  passes (names ++ ["up"%string]) (values ++ [PBool up]) pos kw \/ (up = true /\ passes names values pos kw) ->
  exists h' l,
    old_drift add sub mul single ofZ h pos kw = Ok (h', l) /\
    returns_in h h' ph l (drifted (add F64) (sub F64) (mul F64) up coef x e).
Proof. exact C117_drift_lem. Qed.
Print Assumptions C117_drift.

(** The example of C106, with the turn and the number by name. *)
Example C117_drift_ex :
  old_drift (fun _ => Z.add) (fun _ => Z.sub) (fun _ => Z.mul) (fun x => x) (fun z => z) z_heap
    [PArr 0%nat; PArr 1%nat; PArr 2%nat] [("turn", PInt 1); ("npart", PInt 2)]%string
  = Ok (z_heap ++ [Arr F64 true (Vec [3; 8])], 6%nat) /\
  passes ["denergy"; "dphi"; "drift_coef"; "npart"; "turn"]%string
    [PArr 0%nat; PArr 1%nat; PArr 2%nat; PInt 2; PInt 1 : pyval Z]
    [PArr 0%nat; PArr 1%nat; PArr 2%nat] [("turn", PInt 1); ("npart", PInt 2)]%string.
Proof.
  split; [reflexivity|]. exists [PInt 2; PInt 1]. split; [reflexivity|]. apply Permutation.perm_swap.
Qed.

(** tomolib_wrappers.kick, in the same way. *)
Theorem C117_kick : forall (T : Type) (add sub mul : dtype -> T -> T -> T) (sin : dtype -> T -> T)
    (single : T -> T) (ofZ : Z -> T) (h : heap T) (de ph l1 l2 : loc) (e x r1 r2 ps ds co : list T)
    (mp12 mhr : pyval T) (dturns turn : Z) (v1 v2 p0 acc p12 hr : T) (up : bool)
    (pos : list (pyval T)) (kw : list (string * pyval T)),
  vec_at h de = Ok e -> vec_at h ph = Ok x -> vec_at h l1 = Ok r1 -> vec_at h l2 = Ok r2 ->
  length x = length e ->
  get r1 turn = Ok v1 -> get r2 turn = Ok v2 -> get ps turn = Ok p0 -> get ds turn = Ok acc ->
  number_in single ofZ F64 mp12 p12 -> number_in single ofZ F64 mhr hr ->
  an_int (Z.of_nat (length e)) -> an_int turn ->
  let names := ["machine"; "denergy"; "dphi"; "rfv1"; "rfv2"; "npart"; "turn"]%string in
  let values := [PObj (MObj ps ds co mp12 mhr dturns); PArr de; PArr ph; PArr l1; PArr l2;
                 PInt (Z.of_nat (length e)); PInt turn] in
  passes (names ++ ["up"%string]) (values ++ [PBool up]) pos kw \/ (up = true /\ passes names values pos kw) ->
  exists h' l,
    old_kick add sub mul sin single ofZ h pos kw = Ok (h', l) /\
    returns_in h h' de l (kicked (add F64) (sub F64) (mul F64) (sin F64) up v1 v2 p0 p12 hr acc x e).
Proof. exact C117_kick_lem. Qed.
Print Assumptions C117_kick.

Example C117_kick_ex :
  old_kick (fun _ => Z.add) (fun _ => Z.sub) (fun _ => Z.mul) (fun _ x => x) (fun x => x) (fun z => z) z_heap
    [PObj (g_machine (z_setting (PFloat 0))); PArr 0%nat; PArr 1%nat; PArr 3%nat; PArr 4%nat; PInt 2; PInt 1] []
  = Ok (Arr F64 true (Vec [7; 6]) :: tl z_heap ++ [Arr F64 true (Vec [5; 7])], 0%nat).
Proof. reflexivity. Qed.
