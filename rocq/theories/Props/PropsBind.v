(** Theorems on calls into the compiled tracking routine (C103-C105).
    Statements only: each theorem is closed by the lemma of the same name in
    Proof/CBind.v.  Written by tools/mkprops.py. *)
From Coq Require Import List ZArith Bool.
From Verif Require Import Base.Res Model.MTrack Model.MBind Spec.BindSpec.
Import ListNotations.
Local Open Scope Z_scope.
From Verif Require Import Proof.CBind.

(** C103, double precision.  With the CPU and double precision, [track] returns
    the coordinates computed by the tracking routine, for every machine, every
    initial distribution, every kind of number given for phi12 and for the ratio
    of harmonics, and every array of at least two elements given for phi12. *)
Theorem C103_double : forall (T : Type) (add sub mul : dtype -> T -> T -> T) (sin : dtype -> T -> T)
    (single : T -> T) (ofZ : Z -> T) (zero past : T)
    m init homog recprof deltaturn ftn callback h ph de p12 hr,
  initial single F64 h init homog ph de ->
  ints_fit m recprof deltaturn (length ph) ->
  phi12_in single ofZ past F64 h (t_dturns m * (t_nprofiles m - 1)) (t_phi12 m) p12 ->
  number_in single ofZ F64 (t_hratio m) hr ->
  returns_tracked
    (track add sub mul sin single ofZ zero past F64 m init homog recprof deltaturn ftn callback h)
    (tracked_in add sub mul sin single zero F64 m p12 hr ph de recprof deltaturn ftn).
Proof. exact C103_double_lem. Qed.
Print Assumptions C103_double.

(** The integer 1 as ratio of harmonics and phi12 an array: the particles are
    tracked. *)
Example C103_double_ex :
  let h := [Arr F64 true (Vec [0; 0; 0])] in
  phi12_in (fun x => x) (fun z => z) 0 F64 h 2 (PArr 0%nat) [0; 0; 0] /\
  number_in (fun x => x) (fun z => z) F64 (PInt 1) 1 /\
  exists h' t, z_track F64 (z_machine (PArr 0%nat) (PInt 1)) None z_distribution 1 0 false PNone h = Ok (h', t) /\
    tab_at h' (ret_xp t) = Ok [[7; 6]; [5; 7]; [3; 8]].
Proof.
  split; [apply (phi12_array (fun x => x) (fun z => z) 0 F64 [Arr F64 true (Vec [0; 0; 0])] 2 0%nat F64 true
    [0; 0; 0]); [reflexivity|repeat constructor]|].
  split; [exists F64, 1; split; reflexivity|].
  eexists. eexists. split; reflexivity.
Qed.

(** C103, single precision.  The same holds in single precision if the ratio of
    harmonics is a Python float, and phi12 is a Python float or a contiguous
    array of single precision with at least two elements. *)
Theorem C103_single_partial : forall (T : Type) (add sub mul : dtype -> T -> T -> T) (sin : dtype -> T -> T)
    (single : T -> T) (ofZ : Z -> T) (zero past : T)
    m init homog recprof deltaturn ftn callback h ph de p12 hr,
  initial single F32 h init homog ph de ->
  ints_fit m recprof deltaturn (length ph) ->
  phi12_in single ofZ past F32 h (t_dturns m * (t_nprofiles m - 1)) (t_phi12 m) p12 ->
  number_in single ofZ F32 (t_hratio m) hr ->
  taken_as_single h (t_phi12 m) (t_hratio m) ->
  returns_tracked
    (track add sub mul sin single ofZ zero past F32 m init homog recprof deltaturn ftn callback h)
    (tracked_in add sub mul sin single zero F32 m p12 hr ph de recprof deltaturn ftn).
Proof. exact C103_single_partial_lem. Qed.
Print Assumptions C103_single_partial.

Example C103_single_partial_ex :
  taken_as_single [] (PFloat 0) (PFloat 1) /\
  exists h' t, z_track F32 (z_machine (PFloat 0) (PFloat 1)) None z_distribution 1 0 false PNone [] = Ok (h', t) /\
    tab_at h' (ret_xp t) = Ok [[7; 6]; [5; 7]; [3; 8]].
Proof.
  split; [split; [eauto|left; eauto]|]. eexists. eexists. split; reflexivity.
Qed.

(** C103, single precision, all other cases: whenever [track] returns, all
    coordinates it returns are zero. *)
Theorem C103_single_zeros : forall (T : Type) (add sub mul : dtype -> T -> T -> T) (sin : dtype -> T -> T)
    (single : T -> T) (ofZ : Z -> T) (zero past : T)
    m init homog recprof deltaturn ftn callback h h' t,
  exists_in h (t_phi12 m) -> exists_in h (t_hratio m) ->
  ~ taken_as_single h (t_phi12 m) (t_hratio m) ->
  track add sub mul sin single ofZ zero past F32 m init homog recprof deltaturn ftn callback h = Ok (h', t) ->
  (exists rows, tab_at h' (ret_xp t) = Ok rows /\ all_zero zero rows) /\
  (exists rows, tab_at h' (ret_yp t) = Ok rows /\ all_zero zero rows).
Proof. exact C103_single_zeros_lem. Qed.
Print Assumptions C103_single_zeros.

Example C103_single_zeros_ex :
  ~ taken_as_single [] (PFloat 0) (PInt 1) /\
  exists h' t, z_track F32 (z_machine (PFloat 0) (PInt 1)) None z_distribution 1 0 false PNone [] = Ok (h', t).
Proof.
  split; [intros [[x A] _]; discriminate|]. eexists. eexists. reflexivity.
Qed.

(** C103 does not hold in single precision: with the integer 1 as ratio of
    harmonics, and also with an array of doubles for phi12, [track] does not
    return the tracked coordinates. *)
Theorem C103_single_refuted :
  (exists ph de p12 hr,
     initial (fun x => x) F32 [] None z_distribution ph de /\
     ints_fit (z_machine (PFloat 0) (PInt 1)) 1 0 (length ph) /\
     phi12_in (fun x => x) (fun z => z) 0 F32 [] 2 (PFloat 0) p12 /\
     number_in (fun x => x) (fun z => z) F32 (PInt 1) hr /\
     ~ returns_tracked (z_track F32 (z_machine (PFloat 0) (PInt 1)) None z_distribution 1 0 false PNone [])
         (z_tracked_in F32 (z_machine (PFloat 0) (PInt 1)) p12 hr ph de 1 0 false)) /\
  (exists ph de p12 hr h,
     initial (fun x => x) F32 h None z_distribution ph de /\
     ints_fit (z_machine (PArr 0%nat) (PFloat 1)) 1 0 (length ph) /\
     phi12_in (fun x => x) (fun z => z) 0 F32 h 2 (PArr 0%nat) p12 /\
     number_in (fun x => x) (fun z => z) F32 (PFloat 1) hr /\
     ~ returns_tracked (z_track F32 (z_machine (PArr 0%nat) (PFloat 1)) None z_distribution 1 0 false PNone h)
         (z_tracked_in F32 (z_machine (PArr 0%nat) (PFloat 1)) p12 hr ph de 1 0 false)).
Proof. exact C103_single_refuted_lem. Qed.
Print Assumptions C103_single_refuted.

(** C104.  The function kept for older programs tracks nothing: whenever it
    returns, every array of the caller is as before, and the returned tables
    hold the numbers of the tables xp and yp that were passed in. *)
Theorem C104_untracked : forall (T : Type) (add sub mul : dtype -> T -> T -> T) (sin : dtype -> T -> T)
    (single : T -> T) (ofZ : Z -> T) (past : T) a h xl yl h' x y,
  l_xp a = PArr xl -> (xl < length h)%nat -> l_yp a = PArr yl -> (yl < length h)%nat ->
  l_ftn a = false ->
  legacy_kick_and_drift add sub mul sin single ofZ past a h = Ok (h', (x, y)) ->
  kept h h' /\ same_numbers single h xl h' x /\ same_numbers single h yl h' y.
Proof. exact C104_untracked_lem. Qed.
Print Assumptions C104_untracked.

(** Both ways of calling it return. *)
Example C104_untracked_ex :
  z_legacy (z_legacy_args 2 None (Some z_object)) z_arrays = Ok (z_arrays, (0%nat, 1%nat)) /\
  z_legacy (z_legacy_args 2 (Some (PArr 4%nat)) None) z_arrays = Ok (z_arrays, (0%nat, 1%nat)).
Proof. split; vm_compute; reflexivity. Qed.

(** C104.  With more particles than turns it reads drift coefficients outside
    the array it was given and never returns normally. *)
Theorem C104_outside : forall (T : Type) (add sub mul : dtype -> T -> T -> T) (sin : dtype -> T -> T)
    (single : T -> T) (ofZ : Z -> T) (past : T) a h drift dturns r,
  drift_given h a drift dturns -> l_ftn a = false ->
  Z.of_nat (length drift) <= l_rec_prof a * dturns + l_nturns a < l_nparts a ->
  legacy_kick_and_drift add sub mul sin single ofZ past a h <> Ok r.
Proof. exact C104_outside_lem. Qed.
Print Assumptions C104_outside.

Example C104_outside_ex :
  drift_given z_arrays (z_legacy_args 100 None (Some z_object)) [1; 1] 1 /\
  z_legacy (z_legacy_args 100 None (Some z_object)) z_arrays = Fail OutOfBounds.
Proof. split; [eapply drift_of_machine; reflexivity|vm_compute; reflexivity]. Qed.

(** C104.  Without a machine and with one of the seven machine arguments missing
    it raises an input error. *)
Theorem C104_missing : forall (T : Type) (add sub mul : dtype -> T -> T -> T) (sin : dtype -> T -> T)
    (single : T -> T) (ofZ : Z -> T) (past : T) a h,
  l_machine a = None ->
  l_phi0 a = None \/ l_deltaE0 a = None \/ l_omega_rev0 a = None \/ l_drift_coef a = None \/
  l_phi12 a = None \/ l_h_ratio a = None \/ l_dturns a = None ->
  legacy_kick_and_drift add sub mul sin single ofZ past a h = Fail (Raised InputError).
Proof. exact C104_missing_lem. Qed.
Print Assumptions C104_missing.

Example C104_missing_ex :
  z_legacy (z_legacy_args 2 None None) z_arrays = Fail (Raised InputError).
Proof. vm_compute. reflexivity. Qed.

(** C104 does not hold: the function returns tables of zeros where [track]
    finds the coordinates of the two particles. *)
Theorem C104_refuted :
  (exists h', z_legacy (z_legacy_args 2 None (Some z_object)) z_arrays = Ok (h', (0%nat, 1%nat)) /\
     tab_at h' 0%nat = Ok [[0; 0]; [0; 0]; [0; 0]]) /\
  (exists h' t, z_track F64 (z_machine (PFloat 0) (PFloat 1)) None z_distribution 1 0 false PNone [] =
     Ok (h', t) /\ tab_at h' (ret_xp t) = Ok [[7; 6]; [5; 7]; [3; 8]]).
Proof. exact C104_refuted_lem. Qed.
Print Assumptions C104_refuted.

(** C105.  [track] changes no array that existed before, in particular neither
    the initial distribution given by the user nor the arrays of the machine. *)
Theorem C105_arguments : forall (T : Type) (add sub mul : dtype -> T -> T -> T) (sin : dtype -> T -> T)
    (single : T -> T) (ofZ : Z -> T) (zero past : T)
    prec m init homog recprof deltaturn ftn callback h h' t,
  track add sub mul sin single ofZ zero past prec m init homog recprof deltaturn ftn callback h = Ok (h', t) ->
  kept h h'.
Proof. exact C105_arguments_lem. Qed.
Print Assumptions C105_arguments.

(** C105.  Afterwards [init_dphi] and [init_denergy] of the tracker hold the
    initial distribution. *)
Theorem C105_initial : forall (T : Type) (add sub mul : dtype -> T -> T -> T) (sin : dtype -> T -> T)
    (single : T -> T) (ofZ : Z -> T) (zero past : T)
    prec m init homog recprof deltaturn ftn callback h ph de h' t,
  initial single prec h init homog ph de ->
  track add sub mul sin single ofZ zero past prec m init homog recprof deltaturn ftn callback h = Ok (h', t) ->
  vec_at h' (init_dphi t) = Ok ph /\ vec_at h' (init_denergy t) = Ok de.
Proof. exact C105_initial_lem. Qed.
Print Assumptions C105_initial.

(** With a distribution given by the user. *)
Example C105_initial_ex :
  let h := [Arr F64 true (Vec [5; 7]); Arr F64 true (Vec [2; -1])] in
  initial (fun x => x) F64 h (Some (0%nat, 1%nat)) z_distribution [5; 7] [2; -1] /\
  exists h' t, z_track F64 (z_machine (PFloat 0) (PFloat 1)) (Some (0%nat, 1%nat)) z_distribution 1 0 false
    PNone h = Ok (h', t) /\ nth_error h' 0 = Some (Arr F64 true (Vec [5; 7])) /\
    vec_at h' (init_dphi t) = Ok [5; 7].
Proof.
  split; [apply (initial_user (fun x => x) F64 [Arr F64 true (Vec [5; 7]); Arr F64 true (Vec [2; -1])]
     0%nat 1%nat F64 true [5; 7] F64 true [2; -1]); reflexivity|].
  eexists. eexists. split; [|split]; vm_compute; reflexivity.
Qed.

(** C105.  The particles object of the tracker then holds the last coordinates
    of the tracking routine instead (double precision). *)
Theorem C105_particles : forall (T : Type) (add sub mul : dtype -> T -> T -> T) (sin : dtype -> T -> T)
    (single : T -> T) (ofZ : Z -> T) (zero past : T)
    m init homog recprof deltaturn ftn callback h ph de p12 hr h' t,
  initial single F64 h init homog ph de ->
  ints_fit m recprof deltaturn (length ph) ->
  phi12_in single ofZ past F64 h (t_dturns m * (t_nprofiles m - 1)) (t_phi12 m) p12 ->
  number_in single ofZ F64 (t_hratio m) hr ->
  track add sub mul sin single ofZ zero past F64 m init homog recprof deltaturn ftn callback h = Ok (h', t) ->
  exists s, tracked_in add sub mul sin single zero F64 m p12 hr ph de recprof deltaturn ftn = Ok s /\
    particles_hold h' t (dphi s) (denergy s).
Proof. exact C105_particles_lem. Qed.
Print Assumptions C105_particles.

(** C105 does not hold for the particles object: it no longer holds the initial
    distribution. *)
Theorem C105_particles_refuted :
  exists ph de h' t,
    initial (fun x => x) F64 [] None z_distribution ph de /\
    z_track F64 (z_machine (PFloat 0) (PFloat 1)) None z_distribution 1 0 false PNone [] = Ok (h', t) /\
    particles_hold h' t [7; 6] [2; -1] /\ ~ particles_hold h' t ph de.
Proof. exact C105_particles_refuted_lem. Qed.
Print Assumptions C105_particles_refuted.
