(** Proofs about the compiled routines for single turns and the tracking routine
    that calls them (C106-C107). *)
(*HEAD*)
From Coq Require Import List ZArith Bool.
From Verif Require Import Base.Res Model.MTrack Model.MBind Model.MSteps Spec.BindSpec Spec.StepsSpec
  Spec.TrackSpec.
Import ListNotations.
Local Open Scope Z_scope.
(*DAEH*)
From Coq Require Import Lia.
From Verif Require Import Proof.PBind Proof.PSteps Proof.PSteps2 Proof.PSteps3.

(** drift returns the drifted phases: in the given array of phases if it is one
    of doubles in contiguous memory, else in a new one.  No other array
    changes. *)
Lemma C106_drift_lem : forall (T : Type) (add sub mul : dtype -> T -> T -> T) (single : T -> T) (ofZ : Z -> T)
    (h : heap T) (de ph co : loc) (e x c : list T) (turn : Z) (coef : T) (up : bool),
  vec_at h de = Ok e -> vec_at h ph = Ok x -> vec_at h co = Ok c -> length x = length e ->
  get c turn = Ok coef -> an_int (Z.of_nat (length e)) -> an_int turn ->
  exists h' l,
    call_drift add sub mul single ofZ h
      [PArr de; PArr ph; PArr co; PInt (Z.of_nat (length e)); PInt turn; PBool up] = Ok (h', l) /\
    returns_in h h' ph l (drifted (add F64) (sub F64) (mul F64) up coef x e).
Proof.
  intros T add sub mul single ofZ h de ph co e x c t coef up A B C D E F G.
  destruct (drift_call add sub mul (fun _ y => y) single ofZ (ofZ 0) h de ph co e x c t coef up A B C D E F G) as (h' & l & H & R & _). eauto.
Qed.
(*EX*)
(** Phases in single precision: the result is a new array. *)
Example C106_drift_ex :
  z_drift z_heap [PArr 0%nat; PArr 1%nat; PArr 2%nat; PInt 2; PInt 1; PBool true]
  = Ok (z_heap ++ [Arr F64 true (Vec [3; 8])], 6%nat).
Proof. reflexivity. Qed.
(*XE*)

(** kick returns the energies after the cavities in the same way. *)
Lemma C106_kick_lem : forall (T : Type) (add sub mul : dtype -> T -> T -> T) (sin : dtype -> T -> T)
    (single : T -> T) (ofZ : Z -> T) (h : heap T) (de ph l1 l2 : loc) (e x r1 r2 ps ds co : list T)
    (mp12 mhr : pyval T) (dturns turn : Z) (v1 v2 p0 acc p12 hr : T) (up : bool),
  vec_at h de = Ok e -> vec_at h ph = Ok x -> vec_at h l1 = Ok r1 -> vec_at h l2 = Ok r2 ->
  length x = length e ->
  get r1 turn = Ok v1 -> get r2 turn = Ok v2 -> get ps turn = Ok p0 -> get ds turn = Ok acc ->
  number_in single ofZ F64 mp12 p12 -> number_in single ofZ F64 mhr hr ->
  an_int (Z.of_nat (length e)) -> an_int turn ->
  exists h' l,
    call_kick add sub mul sin single ofZ h
      [PObj (MObj ps ds co mp12 mhr dturns); PArr de; PArr ph; PArr l1; PArr l2;
       PInt (Z.of_nat (length e)); PInt turn; PBool up] = Ok (h', l) /\
    returns_in h h' de l (kicked (add F64) (sub F64) (mul F64) (sin F64) up v1 v2 p0 p12 hr acc x e).
Proof.
  intros T add sub mul sin single ofZ h de ph l1 l2 e x r1 r2 ps ds co mp mh dt t v1 v2 p0 acc p12 hr up A B C D E F G H I J K L M.
  destruct (kick_call add sub mul sin single ofZ (ofZ 0) h de ph l1 l2 e x r1 r2 ps ds co mp mh dt t v1 v2 p0 acc p12 hr up A B C D E F G H I J K L M) as (h' & l & Q & R & _). eauto.
Qed.
(*EX*)
(** Energies in double precision: they are changed in place. *)
Example C106_kick_ex :
  z_kick z_heap [PObj (g_machine (z_setting (PFloat 0))); PArr 0%nat; PArr 1%nat; PArr 3%nat; PArr 4%nat;
    PInt 2; PInt 1; PBool true]
  = Ok (Arr F64 true (Vec [7; 6]) :: tl z_heap ++ [Arr F64 true (Vec [5; 7])], 0%nat).
Proof. reflexivity. Qed.
(*XE*)

(** A machine whose phi12 is an array of other than one element is not
    accepted by kick, whatever the other arguments are. *)
Lemma C106_phi12_refuted_lem : forall (T : Type) (add sub mul : dtype -> T -> T -> T) (sin : dtype -> T -> T)
    (single : T -> T) (ofZ : Z -> T) (h : heap T) (vs : list (pyval T)) (ps ds co p : list T) (l : loc)
    (mhr : pyval T) (dturns : Z),
  nth_error vs 0 = Some (PObj (MObj ps ds co (PArr l) mhr dturns)) ->
  vec_at h l = Ok p -> length p <> 1%nat ->
  call_kick add sub mul sin single ofZ h vs = Fail (Raised TypeError).
Proof.
  intros T add sub mul sin single ofZ h vs ps ds co p l mh dt A B C.
  exact (kick_array add sub mul sin single ofZ (ofZ 0) h vs ps ds co l p mh dt A B C).
Qed.
(*EX*)
Example C106_phi12_refuted_ex :
  vec_at z_heap 4%nat = Ok [0; 0; 0] /\
  z_kick z_heap [PObj (g_machine (z_setting (PArr 4%nat))); PArr 0%nat; PArr 1%nat; PArr 3%nat; PArr 4%nat;
    PInt 2; PInt 1; PBool true] = Fail (Raised TypeError).
Proof. split; reflexivity. Qed.
(*XE*)

(** Row q holds the particles at the turn of profile q.  The arrays that exist
    are as before, except for an array of initial phases or energies that is
    one of doubles in contiguous memory. *)
Lemma C107_partial_lem : forall (T : Type) (add sub mul : dtype -> T -> T -> T) (sin : dtype -> T -> T)
    (single : T -> T) (ofZ : Z -> T) (zero : T) (F : params T) (dturns nprofiles recprof start : nat)
    (deltaturn : Z) (particles : list (T * T)) (h : heap T) (g : setting T) (ph de : loc),
  (0 < dturns)%nat -> (recprof < nprofiles)%nat ->
  Z.of_nat recprof * Z.of_nat dturns + deltaturn = Z.of_nat start ->
  - Z.of_nat dturns < deltaturn <= 0 ->
  describes single ofZ h g F (dturns * (nprofiles - 1)) -> apart g ph de ->
  vec_at h ph = Ok (map fst particles) -> vec_at h de = Ok (map snd particles) ->
  an_int (Z.of_nat (length particles)) -> an_int (Z.of_nat (dturns * (nprofiles - 1))) ->
  exists h' xs ys,
    track_by_turns add sub mul sin single ofZ zero g nprofiles de ph (Z.of_nat dturns) (Z.of_nat recprof) deltaturn
      (Z.of_nat (dturns * (nprofiles - 1))) h = Ok (h', (xs, ys)) /\
    length xs = nprofiles /\ length ys = nprofiles /\
    (forall q, (q < nprofiles)%nat ->
       row_is xs ys q (map (travel (add F64) (sub F64) (mul F64) (sin F64) F start (q * dturns)) particles)) /\
    (forall k b, nth_error h k = Some b ->
       ~ (k = ph /\ plain h ph) -> ~ (k = de /\ plain h de) -> nth_error h' k = Some b).
Proof.
  intros T add sub mul sin single ofZ zero F d np p a delta l h g ph de H1 H2 H3 H4 H5 H6 H7 H8 H9 H10.
  destruct (turns_ok add sub mul sin single ofZ zero F d np p a delta l h g ph de H1 H2 H3 H4 H5 H6 H7 H8 H9 H10)
    as (h' & xs & ys & A & B & C & D & E & _). exists h', xs, ys. auto 9.
Qed.
(*EX*)
(** Phases in single precision are not changed; the energies are. *)
Example C107_partial_ex :
  describes (fun x => x) (fun z => z) z_heap (z_setting (PFloat 0)) z_F 2 /\ apart (z_setting (PFloat 0)) 1%nat 0%nat /\
  match z_turns (z_setting (PFloat 0)) 3 0%nat 1%nat 1 1 0 2 z_heap with
  | Ok (h', r) => r = ([[2; -1]; [5; 7]; [3; 8]], [[-3; -8]; [2; -1]; [5; 7]]) /\
      nth_error h' 1 = Some (Arr F32 true (Vec [5; 7]))
  | Fail _ => False
  end.
Proof.
  split; [|split; [|vm_compute; split; reflexivity]].
  - exists (Machine [1; 1; 1] [0; 0; 0] [0; 0; 0] [0; 0; 0] [1; 1; 1] [0; 0; 0] 1), [1; 1; 1], (PFloat 0), (PInt 1), 2, 0.
    repeat (split; [reflexivity|]). split; [exists F64, 0; split; reflexivity|]. split; [exists F64, 1; split; reflexivity|].
    split; [|reflexivity]. split; [reflexivity|]. intros [|[|[|t]]] H; [repeat split; reflexivity..|]. inversion H as [|? H1]. inversion H1 as [|? H2]. inversion H2.
  - split; [discriminate|]. intros k [<-|[<-|[<-|[]]]]; split; discriminate.
Qed.
(*XE*)

(** Initial coordinates given as arrays of doubles in contiguous memory are
    overwritten: after the call they are those at the last turn. *)
Lemma C107_refuted_lem : forall (T : Type) (add sub mul : dtype -> T -> T -> T) (sin : dtype -> T -> T)
    (single : T -> T) (ofZ : Z -> T) (zero : T) (F : params T) (dturns nprofiles recprof start : nat)
    (deltaturn : Z) (particles : list (T * T)) (h : heap T) (g : setting T) (ph de : loc),
  (0 < dturns)%nat -> (recprof < nprofiles)%nat ->
  Z.of_nat recprof * Z.of_nat dturns + deltaturn = Z.of_nat start ->
  - Z.of_nat dturns < deltaturn <= 0 ->
  describes single ofZ h g F (dturns * (nprofiles - 1)) -> apart g ph de ->
  vec_at h ph = Ok (map fst particles) -> vec_at h de = Ok (map snd particles) ->
  an_int (Z.of_nat (length particles)) -> an_int (Z.of_nat (dturns * (nprofiles - 1))) ->
  plain h ph -> plain h de ->
  exists h' r,
    track_by_turns add sub mul sin single ofZ zero g nprofiles de ph (Z.of_nat dturns) (Z.of_nat recprof) deltaturn
      (Z.of_nat (dturns * (nprofiles - 1))) h = Ok (h', r) /\
    let last := map (travel (add F64) (sub F64) (mul F64) (sin F64) F start (dturns * (nprofiles - 1))) particles in
    vec_at h' ph = Ok (map fst last) /\ vec_at h' de = Ok (map snd last).
Proof.
  intros T add sub mul sin single ofZ zero F d np p a delta l h g ph de H1 H2 H3 H4 H5 H6 H7 H8 H9 H10 P1 P2.
  destruct (turns_ok add sub mul sin single ofZ zero F d np p a delta l h g ph de H1 H2 H3 H4 H5 H6 H7 H8 H9 H10)
    as (h' & xs & ys & A & B & C & D & E & G1 & G2). exists h', (xs, ys). split; [exact A|]. cbv zeta. split; [apply G1, P1|apply G2, P2].
Qed.
(*EX*)
(** One turn forward from the profile at turn 1: phases 5 and 7 become 3 and
    8. *)
Example C107_refuted_ex :
  plain z_heap 5%nat /\ plain z_heap 0%nat /\
  match z_turns (z_setting (PFloat 0)) 3 0%nat 5%nat 1 1 0 2 z_heap with
  | Ok (h', _) =>
      nth_error z_heap 5 = Some (Arr F64 true (Vec [5; 7])) /\ nth_error h' 5 = Some (Arr F64 true (Vec [3; 8])) /\
      nth_error z_heap 0 = Some (Arr F64 true (Vec [2; -1])) /\ nth_error h' 0 = Some (Arr F64 true (Vec [5; 7]))
  | Fail _ => False
  end.
Proof. split; [eexists; reflexivity|]. split; [eexists; reflexivity|]. vm_compute. repeat split; reflexivity. Qed.
(*XE*)

(** With phi12 given as an array of other than one element the routine stops
    with a TypeError at the first turn forward. *)
Lemma C107_phi12_refuted_lem : forall (T : Type) (add sub mul : dtype -> T -> T -> T) (sin : dtype -> T -> T)
    (single : T -> T) (ofZ : Z -> T) (zero : T) (dturns recprof start : Z) (nprofiles : nat) (nturns : Z)
    (e x c p : list T) (coef : T) (ps ds co : list T) (l : loc) (mhr : pyval T) (dt : Z)
    (h : heap T) (ph de ldrift lrf1 lrf2 : loc),
  0 <= recprof < Z.of_nat nprofiles -> start = recprof * dturns -> start < nturns ->
  vec_at h ph = Ok x -> vec_at h de = Ok e -> length x = length e ->
  vec_at h ldrift = Ok c -> get c start = Ok coef ->
  vec_at h l = Ok p -> length p <> 1%nat -> l <> ph ->
  an_int (Z.of_nat (length e)) -> an_int start ->
  track_by_turns add sub mul sin single ofZ zero
    (Setting (MObj ps ds co (PArr l) mhr dt) ldrift lrf1 lrf2) nprofiles de ph dturns recprof 0 nturns h
  = Fail (Raised TypeError).
Proof.
  intros T add sub mul sin single ofZ zero d rp a np N e x c p coef ps ds co l mh dt h ph de lc l1 l2 R -> St Vp Ve L Vc G Vl Nl Ne I1 I2.
  unfold track_by_turns. rewrite Ve, Vp. cbn [bind]. cbv zeta.
  destruct (np_copy_ok h ph _ Vp) as [c1 [F1 D1]]. rewrite F1. cbn [bind]. cbv iota beta.
  destruct (np_copy_ok (h ++ [c1]) de _ (vec_app _ _ _ _ Ve)) as [c2 [F2 D2]]. rewrite F2. cbn [bind]. cbv iota beta.
  set (h2 := (h ++ [c1]) ++ [c2]). assert (S2 : forall k v, vec_at h k = Ok v -> vec_at h2 k = Ok v) by (intros k v Q; unfold h2; apply vec_app, vec_app, Q).
  assert (Py : forall v : list T, exists r, pyset (repeat (repeat zero (length e)) np) rp v = Ok r).
  { intro v. unfold pyset. rewrite repeat_length. destruct (Z.ltb_spec rp 0); [lia|]. destruct (Z.ltb_spec rp 0); [lia|]. destruct (Z.leb_spec (Z.of_nat np) rp); [lia|]. cbn. eauto. }
  destruct (Py x) as [r1 R1]. destruct (Py e) as [r2 R2]. rewrite Z.eqb_refl, R1. cbn [bind]. rewrite R2. cbn [bind]. cbv iota beta. rewrite Z.add_0_r.
  destruct (Z.to_nat (N - rp * d)) as [|fuel] eqn:E; [lia|]. cbn [p_up_loop p_turn]. destruct (Z.ltb_spec (rp * d) N); [|lia].
  unfold p_up_step. cbn [p_heap p_denergy p_dphi p_turn g_drift g_machine g_rf1 g_rf2].
  destruct (drift_call add sub mul sin single ofZ zero h2 de ph lc e x c (rp * d) coef true (S2 _ _ Ve) (S2 _ _ Vp) (S2 _ _ Vc) L G I1 I2) as (h3 & l3 & E3 & R3 & _ & Le).
  rewrite E3. cbn [bind]. cbv iota beta zeta. rewrite (kick_array add sub mul sin single ofZ zero h3 _ ps ds co l p mh dt); [reflexivity|reflexivity| |exact Nl].
  destruct (vec_of _ _ _ (S2 _ _ Vl)) as [b [Bb Bd]]. unfold vec_at.
  destruct R3 as (_ & R4 & R5 & R6). rewrite (R6 l b Bb), Bd; [reflexivity|].
  destruct (plain_dec h2 ph) as [P|P]; [rewrite (R4 P); exact Ne|]. assert (J := R5 P).
  assert ((l < length h2)%nat) by (apply nth_error_Some; congruence). lia.
Qed.
(*EX*)
Example C107_phi12_refuted_ex :
  vec_at z_heap 4%nat = Ok [0; 0; 0] /\
  z_turns (z_setting (PArr 4%nat)) 3 0%nat 1%nat 1 1 0 2 z_heap = Fail (Raised TypeError).
Proof. split; reflexivity. Qed.
(*XE*)
