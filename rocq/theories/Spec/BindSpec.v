(** What a caller of the compiled tracking routine expects.  Definitions only.
    [single] rounds a double to single precision; the arithmetic depends on the
    precision. *)
From Coq Require Import List ZArith Bool.
From Verif Require Import Base.Res Model.MTrack Model.MBind.
Import ListNotations.
Local Open Scope Z_scope.

Section BindSpec.
Context {T : Type} (add sub mul : dtype -> T -> T -> T) (sin : dtype -> T -> T)
        (single : T -> T) (ofZ : Z -> T) (zero past : T).

(** A C++ int. *)
Definition an_int (z : Z) : Prop := - 2 ^ 31 <= z < 2 ^ 31.

(** All integers that [track] hands to the compiled routine are C++ ints. *)
Definition ints_fit (m : tmachine T) (recprof deltaturn : Z) (nparts : nat) : Prop :=
  an_int (t_dturns m) /\ an_int recprof /\ an_int deltaturn /\
  an_int (t_dturns m * (t_nprofiles m - 1)) /\ an_int (Z.of_nat nparts).

(** A value that is an array refers to one that exists. *)
Definition exists_in (h : heap T) (v : pyval T) : Prop :=
  match v with PArr l => (l < length h)%nat | _ => True end.

(** The number that a Python number stands for in precision [d]. *)
Definition number_in (d : dtype) (v : pyval T) (x : T) : Prop :=
  exists f y, number ofZ v = Some (f, y) /\ x = conv single f d y.

(** What phi12 stands for in precision [d]: a number holds for each of the
    [nturns] turns ([past] is what the memory behind the array holds, see C07);
    an array of at least two elements is one value per turn. *)
Inductive phi12_in (d : dtype) (h : heap T) (nturns : Z) : pyval T -> list T -> Prop :=
| phi12_number v x : number_in d v x -> phi12_in d h nturns v (repeat x (Z.to_nat nturns) ++ [past])
| phi12_array l f c p : nth_error h l = Some (Arr f c (Vec p)) -> (2 <= length p)%nat ->
    phi12_in d h nturns (PArr l) (map (conv single f d) p).

(** The initial coordinates in precision [d]: those of the user, or those of the
    homogeneous distribution. *)
Inductive initial (d : dtype) (h : heap T) : option (loc * loc) -> res (list T * list T) ->
    list T -> list T -> Prop :=
| initial_user a b f c ph g k de homog :
    nth_error h a = Some (Arr f c (Vec ph)) -> nth_error h b = Some (Arr g k (Vec de)) ->
    length ph = length de ->
    initial d h (Some (a, b)) homog (map (conv single f d) ph) (map (conv single g d) de)
| initial_homogeneous ph de :
    initial d h None (Ok (ph, de)) (map (conv single F64 d) ph) (map (conv single F64 d) de).

(** The tracked coordinates: the tracking routine in the arithmetic of the
    precision [d], on tables of zeros, with all machine values converted to that
    precision. *)
Definition tracked_in (d : dtype) (m : tmachine T) (p12 : list T) (hr : T) (ph de : list T)
    (recprof deltaturn : Z) (ftn : bool) : res (tstate T) :=
  let to := map (conv single F64 d) in
  let zeros := repeat (repeat zero (length ph)) (Z.to_nat (t_nprofiles m)) in
  kick_and_drift (add d) (sub d) (mul d) (sin d)
    (Machine (to (map (fun v => mul F64 v (t_q m)) (t_vrf1 m)))
             (to (map (fun v => mul F64 v (t_q m)) (t_vrf2 m)))
             (to (t_phi0 m)) (to (t_deltaE0 m)) (to (t_drift m)) p12 hr)
    zeros zeros de ph (t_dturns m) recprof deltaturn
    (t_dturns m * (t_nprofiles m - 1)) (length ph) ftn.

(** The arrays that [track] returns hold the tracked coordinates, or it fails
    like the tracking routine. *)
Definition returns_tracked (result : res (heap T * tracked)) (expected : res (tstate T)) : Prop :=
  match expected with
  | Fail e => result = Fail e
  | Ok s => exists h' t, result = Ok (h', t) /\
      tab_at h' (ret_xp t) = Ok (xp s) /\ tab_at h' (ret_yp t) = Ok (yp s)
  end.

(** The particles object of the tracker holds the given coordinates. *)
Definition particles_hold (h' : heap T) (t : tracked) (ph de : list T) : Prop :=
  vec_at h' (part_dphi t) = Ok ph /\ vec_at h' (part_denergy t) = Ok de.

(** phi12 and the ratio of harmonics are already in single precision, or are
    Python floats, which the compiled library takes as they are. *)
Definition taken_as_single (h : heap T) (p12 hr : pyval T) : Prop :=
  (exists x, hr = PFloat x) /\
  ((exists x, p12 = PFloat x) \/
   (exists l a, p12 = PArr l /\ nth_error h l = Some a /\ adt a = F32 /\ acontig a = true)).

(** All elements are zero. *)
Definition all_zero (rows : list (list T)) : Prop := Forall (Forall (fun x => x = zero)) rows.

(** No array that existed before has changed. *)
Definition kept (h h' : heap T) : Prop :=
  forall l, (l < length h)%nat -> nth_error h' l = nth_error h l.

(** The table at [l'] holds the numbers of the one at [l], converted. *)
Definition same_numbers (h : heap T) (l : loc) (h' : heap T) (l' : loc) : Prop :=
  exists d a rows, nth_error h l = Some a /\ adat a = Tab rows /\
    tab_at h' l' = Ok (map (map (conv single (adt a) d)) rows).

(** The drift coefficients and the number of turns between profiles given to
    the function kept for older programs. *)
Inductive drift_given (h : heap T) (a : legacy_args T) : list T -> Z -> Prop :=
| drift_of_machine p0 dE co p12 hr dturns :
    l_machine a = Some (MObj p0 dE co p12 hr dturns) -> drift_given h a co dturns
| drift_of_array l f c co dturns :
    l_machine a = None -> l_drift_coef a = Some (PArr l) -> l_dturns a = Some dturns ->
    nth_error h l = Some (Arr f c (Vec co)) -> drift_given h a co dturns.

End BindSpec.

(** *** Concrete cases, in exact arithmetic on integers with sin x = x *)
Definition z_track := track (fun _ => Z.add) (fun _ => Z.sub) (fun _ => Z.mul) (fun _ x => x)
  (fun x => x) (fun z => z) 0 0.
Definition z_tracked_in := tracked_in (fun _ => Z.add) (fun _ => Z.sub) (fun _ => Z.mul)
  (fun _ x => x) (fun x => x) 0.
Definition z_legacy := legacy_kick_and_drift (fun _ => Z.add) (fun _ => Z.sub) (fun _ => Z.mul)
  (fun _ x => x) (fun x => x) (fun z => z) 0.

(** Three profiles, one turn apart, no voltage, a drift coefficient of one. *)
Definition z_machine (p12 hr : pyval Z) : tmachine Z :=
  TMachine [0; 0; 0] [0; 0; 0] 1 [0; 0; 0] [0; 0; 0] [1; 1] p12 hr 1 3.

(** Two particles. *)
Definition z_distribution : res (list Z * list Z) := Ok ([5; 7], [2; -1]).

(** The same machine for the function kept for older programs; the arrays 0 to
    3 are xp, yp, denergy and dphi, 4 and 5 the voltages. *)
Definition z_arrays : heap Z :=
  [Arr F64 true (Tab [[0; 0]; [0; 0]; [0; 0]]); Arr F64 true (Tab [[0; 0]; [0; 0]; [0; 0]]);
   Arr F64 true (Vec [2; -1]); Arr F64 true (Vec [5; 7]);
   Arr F64 true (Vec [0; 0; 0]); Arr F64 true (Vec [0; 0; 0])].
Definition z_object : mobj Z := MObj [0; 0; 0] [0; 0; 0] [1; 1] (PFloat 0) (PFloat 1) 1.
Definition z_legacy_args (nparts : Z) (drift : option (pyval Z)) (o : option (mobj Z)) : legacy_args Z :=
  Legacy (PArr 0%nat) (PArr 1%nat) (PArr 2%nat) (PArr 3%nat) (PArr 4%nat) (PArr 5%nat) 1 2 nparts
    (Some (PArr 4%nat)) (Some (PArr 4%nat)) (Some (PArr 4%nat)) drift (Some (PFloat 0)) (Some (PFloat 1))
    (Some 1) o false.
