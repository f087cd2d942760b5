(** Theorems on the compiled routines for single turns and the routine that calls them (C106-C107).
    Statements only: each theorem is closed by the lemma of the same name in
    Proof/CSteps.v.  Written by tools/mkprops.py. *)
From Coq Require Import List ZArith Bool.
From Verif Require Import Base.Res Model.MTrack Model.MBind Model.MSteps Spec.BindSpec Spec.StepsSpec
  Spec.TrackSpec.
Import ListNotations.
Local Open Scope Z_scope.
From Verif Require Import Proof.CSteps.

(** drift returns the drifted phases: in the given array of phases if it is one
    of doubles in contiguous memory, else in a new one.  No other array
    changes. *)
Theorem C106_drift : forall (T : Type) (add sub mul : dtype -> T -> T -> T) (single : T -> T) (ofZ : Z -> T)
    (h : heap T) (de ph co : loc) (e x c : list T) (turn : Z) (coef : T) (up : bool),
  vec_at h de = Ok e -> vec_at h ph = Ok x -> vec_at h co = Ok c -> length x = length e ->
  get c turn = Ok coef -> an_int (Z.of_nat (length e)) -> an_int turn ->
  exists h' l,
    call_drift add sub mul single ofZ h
      [PArr de; PArr ph; PArr co; PInt (Z.of_nat (length e)); PInt turn; PBool up] = Ok (h', l) /\
    returns_in h h' ph l (drifted (add F64) (sub F64) (mul F64) up coef x e).
Proof. exact C106_drift_lem. Qed.
Print Assumptions C106_drift.

(** Phases in single precision: the result is a new array. *)
Example C106_drift_ex :
  z_drift z_heap [PArr 0%nat; PArr 1%nat; PArr 2%nat; PInt 2; PInt 1; PBool true]
  = Ok (z_heap ++ [Arr F64 true (Vec [3; 8])], 6%nat).
Proof. reflexivity. Qed.

(** kick returns the energies after the cavities in the same way. *)
Theorem C106_kick : forall (T : Type) (add sub mul : dtype -> T -> T -> T) (sin : dtype -> T -> T)
    (single : T -> T) (ofZ : Z -> T) (h : heap T) (de ph l1 l2 : loc) (e x r1 r2 ps ds co : list T)
    (mp12 mhr : pyval T) (dturns turn : Z) (v1 v2 p0 acc p12 hr : T) (up : bool),
  vec_at h de = Ok e -> vec_at h ph = Ok x -> vec_at h l1 = Ok r1 -> vec_at h l2 = Ok r2 ->
  length x = length e ->
  get r1 turn = Ok v1 -> get r2 turn = Ok v2 -> get ps turn = Ok p0 -> get ds turn = Ok acc ->
  number_in single ofZ F64 mp12 p12 -> number_in single ofZ F64 mhr hr ->
  an_int (Z.of_nat (length e)) -> an_int turn ->
  exists h' l,
    call_kick add sub mul sin single ofZ h
      [PObj (MObj ps ds co mp12 mhr dturns); PArr de; PArr ph; PArr l1; PArr l2;
       PInt (Z.of_nat (length e)); PInt turn; PBool up] = Ok (h', l) /\
    returns_in h h' de l (kicked (add F64) (sub F64) (mul F64) (sin F64) up v1 v2 p0 p12 hr acc x e).
Proof. exact C106_kick_lem. Qed.
Print Assumptions C106_kick.

(** Energies in double precision: they are changed in place. *)
Example C106_kick_ex :
  z_kick z_heap [PObj (g_machine (z_setting (PFloat 0))); PArr 0%nat; PArr 1%nat; PArr 3%nat; PArr 4%nat;
    PInt 2; PInt 1; PBool true]
  = Ok (Arr F64 true (Vec [7; 6]) :: tl z_heap ++ [Arr F64 true (Vec [5; 7])], 0%nat).
Proof. reflexivity. Qed.

(** A machine whose phi12 is an array of other than one element is not
    accepted by kick, whatever the other arguments are. *)
Theorem C106_phi12_refuted : forall (T : Type) (add sub mul : dtype -> T -> T -> T) (sin : dtype -> T -> T)
    (single : T -> T) (ofZ : Z -> T) (h : heap T) (vs : list (pyval T)) (ps ds co p : list T) (l : loc)
    (mhr : pyval T) (dturns : Z),
  nth_error vs 0 = Some (PObj (MObj ps ds co (PArr l) mhr dturns)) ->
  vec_at h l = Ok p -> length p <> 1%nat ->
  call_kick add sub mul sin single ofZ h vs = Fail (Raised TypeError).
Proof. exact C106_phi12_refuted_lem. Qed.
Print Assumptions C106_phi12_refuted.

Example C106_phi12_refuted_ex :
  vec_at z_heap 4%nat = Ok [0; 0; 0] /\
  z_kick z_heap [PObj (g_machine (z_setting (PArr 4%nat))); PArr 0%nat; PArr 1%nat; PArr 3%nat; PArr 4%nat;
    PInt 2; PInt 1; PBool true] = Fail (Raised TypeError).
Proof. split; reflexivity. Qed.

(** Row q holds the particles at the turn of profile q.  The arrays that exist
    are as before, except for an array of initial phases or energies that is
    one of doubles in contiguous memory. *)
Theorem C107_partial : forall (T : Type) (add sub mul : dtype -> T -> T -> T) (sin : dtype -> T -> T)
    (single : T -> T) (ofZ : Z -> T) (zero : T) (F : params T) (dturns nprofiles recprof start : nat)
    (deltaturn : Z) (particles : list (T * T)) (h : heap T) (g : setting T) (ph de : loc),
  (0 < dturns)%nat -> (recprof < nprofiles)%nat ->
  Z.of_nat recprof * Z.of_nat dturns + deltaturn = Z.of_nat start ->
  - Z.of_nat dturns < deltaturn <= 0 ->
  describes single ofZ h g F (dturns * (nprofiles - 1)) -> apart g ph de ->
  vec_at h ph = Ok (map fst particles) -> vec_at h de = Ok (map snd particles) ->
  an_int (Z.of_nat (length particles)) -> an_int (Z.of_nat (dturns * (nprofiles - 1))) ->
  exists h' xs ys,
    track_by_turns add sub mul sin single ofZ zero g nprofiles de ph (Z.of_nat dturns) (Z.of_nat recprof) deltaturn
      (Z.of_nat (dturns * (nprofiles - 1))) h = Ok (h', (xs, ys)) /\
    length xs = nprofiles /\ length ys = nprofiles /\
    (forall q, (q < nprofiles)%nat ->
       row_is xs ys q (map (travel (add F64) (sub F64) (mul F64) (sin F64) F start (q * dturns)) particles)) /\
    (forall k b, nth_error h k = Some b ->
       ~ (k = ph /\ plain h ph) -> ~ (k = de /\ plain h de) -> nth_error h' k = Some b).
Proof. exact C107_partial_lem. Qed.
Print Assumptions C107_partial.

(** Phases in single precision are not changed; the energies are. *)
Example C107_partial_ex :
  describes (fun x => x) (fun z => z) z_heap (z_setting (PFloat 0)) z_F 2 /\ apart (z_setting (PFloat 0)) 1%nat 0%nat /\
  match z_turns (z_setting (PFloat 0)) 3 0%nat 1%nat 1 1 0 2 z_heap with
  | Ok (h', r) => r = ([[2; -1]; [5; 7]; [3; 8]], [[-3; -8]; [2; -1]; [5; 7]]) /\
      nth_error h' 1 = Some (Arr F32 true (Vec [5; 7]))
  | Fail _ => False
  end.
Proof.
  split; [|split; [|vm_compute; split; reflexivity]].
  - exists (Machine [1; 1; 1] [0; 0; 0] [0; 0; 0] [0; 0; 0] [1; 1; 1] [0; 0; 0] 1), [1; 1; 1], (PFloat 0), (PInt 1), 2, 0.
    repeat (split; [reflexivity|]). split; [exists F64, 0; split; reflexivity|]. split; [exists F64, 1; split; reflexivity|].
    split; [|reflexivity]. split; [reflexivity|]. intros [|[|[|t]]] H; [repeat split; reflexivity..|]. inversion H as [|? H1]. inversion H1 as [|? H2]. inversion H2.
  - split; [discriminate|]. intros k [<-|[<-|[<-|[]]]]; split; discriminate.
Qed.

(** Initial coordinates given as arrays of doubles in contiguous memory are
    overwritten: after the call they are those at the last turn. *)
Theorem C107_refuted : forall (T : Type) (add sub mul : dtype -> T -> T -> T) (sin : dtype -> T -> T)
    (single : T -> T) (ofZ : Z -> T) (zero : T) (F : params T) (dturns nprofiles recprof start : nat)
    (deltaturn : Z) (particles : list (T * T)) (h : heap T) (g : setting T) (ph de : loc),
  (0 < dturns)%nat -> (recprof < nprofiles)%nat ->
  Z.of_nat recprof * Z.of_nat dturns + deltaturn = Z.of_nat start ->
  - Z.of_nat dturns < deltaturn <= 0 ->
  describes single ofZ h g F (dturns * (nprofiles - 1)) -> apart g ph de ->
  vec_at h ph = Ok (map fst particles) -> vec_at h de = Ok (map snd particles) ->
  an_int (Z.of_nat (length particles)) -> an_int (Z.of_nat (dturns * (nprofiles - 1))) ->
  plain h ph -> plain h de ->
  exists h' r,
    track_by_turns add sub mul sin single ofZ zero g nprofiles de ph (Z.of_nat dturns) (Z.of_nat recprof) deltaturn
      (Z.of_nat (dturns * (nprofiles - 1))) h = Ok (h', r) /\
    let last := map (travel (add F64) (sub F64) (mul F64) (sin F64) F start (dturns * (nprofiles - 1))) particles in
    vec_at h' ph = Ok (map fst last) /\ vec_at h' de = Ok (map snd last).
Proof. exact C107_refuted_lem. Qed.
Print Assumptions C107_refuted.

(** One turn forward from the profile at turn 1: phases 5 and 7 become 3 and
    8. *)
Example C107_refuted_ex :
  plain z_heap 5%nat /\ plain z_heap 0%nat /\
  match z_turns (z_setting (PFloat 0)) 3 0%nat 5%nat 1 1 0 2 z_heap with
  | Ok (h', _) =>
      nth_error z_heap 5 = Some (Arr F64 true (Vec [5; 7])) /\ nth_error h' 5 = Some (Arr F64 true (Vec [3; 8])) /\
      nth_error z_heap 0 = Some (Arr F64 true (Vec [2; -1])) /\ nth_error h' 0 = Some (Arr F64 true (Vec [5; 7]))
  | Fail _ => False
  end.
Proof. split; [eexists; reflexivity|]. split; [eexists; reflexivity|]. vm_compute. repeat split; reflexivity. Qed.

(** With phi12 given as an array of other than one element the routine stops
    with a TypeError at the first turn forward. *)
Theorem C107_phi12_refuted : forall (T : Type) (add sub mul : dtype -> T -> T -> T) (sin : dtype -> T -> T)
    (single : T -> T) (ofZ : Z -> T) (zero : T) (dturns recprof start : Z) (nprofiles : nat) (nturns : Z)
    (e x c p : list T) (coef : T) (ps ds co : list T) (l : loc) (mhr : pyval T) (dt : Z)
    (h : heap T) (ph de ldrift lrf1 lrf2 : loc),
  0 <= recprof < Z.of_nat nprofiles -> start = recprof * dturns -> start < nturns ->
  vec_at h ph = Ok x -> vec_at h de = Ok e -> length x = length e ->
  vec_at h ldrift = Ok c -> get c start = Ok coef ->
  vec_at h l = Ok p -> length p <> 1%nat -> l <> ph ->
  an_int (Z.of_nat (length e)) -> an_int start ->
  track_by_turns add sub mul sin single ofZ zero
    (Setting (MObj ps ds co (PArr l) mhr dt) ldrift lrf1 lrf2) nprofiles de ph dturns recprof 0 nturns h
  = Fail (Raised TypeError).
Proof. exact C107_phi12_refuted_lem. Qed.
Print Assumptions C107_phi12_refuted.

Example C107_phi12_refuted_ex :
  vec_at z_heap 4%nat = Ok [0; 0; 0] /\
  z_turns (z_setting (PArr 4%nat)) 3 0%nat 1%nat 1 1 0 2 z_heap = Fail (Raised TypeError).
Proof. split; reflexivity. Qed.
