(** Theorems on 32-bit integers (C89-C91).
    Statements only: each theorem is closed by the lemma of the same name in
    Proof/CInt.v.  Written by tools/mkprops.py. *)
From Coq Require Import List ZArith QArith Qcanon Bool Lia.
From Verif Require Import Base.Res Base.QcLib Model.MRecon Model.MTrack Model.MImage Model.MInt Spec.TomoSpec Spec.IntSpec.
Import ListNotations.
Local Open Scope Z_scope.
From Verif Require Import Proof.CInt.

(** C89.  If the arguments and the numbers of array elements fit into an int,
    the reconstruction with C++ ints is the reconstruction with integers of
    the other theorems. *)
Theorem C89_same : forall sqrt t xp niter, reachable t -> t_xp t = Some xp ->
  arguments_fit (length xp) (t_nprofs t) (t_nbins t) niter -> arrays_fit (length xp) (t_nprofs t) (t_nbins t) niter ->
  run_int sqrt t niter = run sqrt t niter.
Proof. exact C89_same_lem. Qed.
Print Assumptions C89_same.

(** C89.  Arguments that do not fit are refused. *)
Theorem C89_refused : forall sqrt t xp niter, reachable t -> t_xp t = Some xp ->
  ~ arguments_fit (length xp) (t_nprofs t) (t_nbins t) niter -> run_int sqrt t niter = Fail (Raised TypeError).
Proof. exact C89_refused_lem. Qed.
Print Assumptions C89_refused.

(** C89.  If the arguments fit but a number of array elements does not, the
    reconstruction is undefined behaviour, whatever the data. *)
Theorem C89_overflow : forall sqrt t xp niter, reachable t -> t_xp t = Some xp ->
  arguments_fit (length xp) (t_nprofs t) (t_nbins t) niter -> ~ arrays_fit (length xp) (t_nprofs t) (t_nbins t) niter ->
  overflows (run_int sqrt t niter).
Proof. exact C89_overflow_lem. Qed.
Print Assumptions C89_overflow.

(** C89.  Objects of all sizes exist. *)
Theorem C89_objects : forall npart nprof nbins, (0 < nprof)%nat -> (0 < nbins)%nat -> exists t xp, reachable t /\ t_xp t = Some xp /\
  length xp = npart /\ t_nprofs t = nprof /\ t_nbins t = nbins.
Proof. exact C89_objects_lem. Qed.
Print Assumptions C89_objects.

(** C89.  So the claim for all inputs is refuted: such objects exist for all
    sizes, e.g. for 2^24 particles and 2^7 profiles. *)
Theorem C89_refuted : forall sqrt npart nprof nbins niter, (0 < nprof)%nat -> (0 < nbins)%nat ->
  arguments_fit npart nprof nbins niter -> ~ arrays_fit npart nprof nbins niter ->
  exists t xp, reachable t /\ t_xp t = Some xp /\ length xp = npart /\ t_nprofs t = nprof /\ t_nbins t = nbins /\ overflows (run_int sqrt t niter).
Proof. exact C89_refuted_lem. Qed.
Print Assumptions C89_refuted.

Example C89_sizes : arguments_fit (Z.to_nat (2 ^ 24)) (Z.to_nat (2 ^ 7)) 200 20 /\ ~ arrays_fit (Z.to_nat (2 ^ 24)) (Z.to_nat (2 ^ 7)) 200 20 /\
  arguments_fit (Z.to_nat (2 ^ 20)) (Z.to_nat (2 ^ 7)) 200 20 /\ arrays_fit (Z.to_nat (2 ^ 20)) (Z.to_nat (2 ^ 7)) 200 20.
Proof.
  unfold arguments_fit, arrays_fit, int32. rewrite !Z2Nat.id by (apply Z.pow_nonneg; discriminate).
  change (2 ^ 24)%Z with 16777216%Z. change (2 ^ 20)%Z with 1048576%Z. change (2 ^ 7)%Z with 128%Z. change (2 ^ 31)%Z with 2147483648%Z. lia.
Qed.

(** C90.  The tracking with C++ ints is the tracking with integers as long as
    the number of turns with one more profile and the number of stored
    coordinates before the last profile fit into an int. *)
Theorem C90_same : forall T (add sub mul : T -> T -> T) sin zero m nprofiles dturns recprof deltaturn ph de ftn,
  int32 (dturns * Z.of_nat nprofiles) -> int32 (Z.of_nat (length ph)) -> int32 (Z.of_nat nprofiles) ->
  int32 ((Z.of_nat nprofiles - 1) * Z.of_nat (length ph)) ->
  track_int add sub mul sin zero m nprofiles dturns recprof deltaturn ph de ftn =
  track add sub mul sin zero m nprofiles dturns recprof deltaturn ph de ftn.
Proof. exact C90_same_lem. Qed.
Print Assumptions C90_same.

(** C90.  More turns or more particles than an int counts are refused with a
    TypeError, for every distribution and every machine. *)
Theorem C90_refused : forall T (add sub mul : T -> T -> T) sin zero m nprofiles dturns p ph de ftn,
  0 < dturns -> (p + 1 < nprofiles)%nat ->
  ~ (int32 (dturns * (Z.of_nat nprofiles - 1)) /\ int32 (Z.of_nat (length ph))) ->
  track_int add sub mul sin zero m nprofiles dturns (Z.of_nat p) 0 ph de ftn = Fail (Raised TypeError).
Proof. exact C90_refused_lem. Qed.
Print Assumptions C90_refused.

(** C90.  With too many particles for the number of profiles it is undefined
    behaviour, for every distribution and every machine: the claim for all
    inputs is refuted. *)
Theorem C90_refuted : forall T (add sub mul : T -> T -> T) sin zero m nprofiles dturns p ph de ftn,
  int32 (dturns * Z.of_nat nprofiles) -> int32 (Z.of_nat (length ph)) -> int32 (Z.of_nat nprofiles) -> 0 < dturns ->
  (p + 1 < nprofiles)%nat -> ~ int32 ((Z.of_nat nprofiles - 1) * Z.of_nat (length ph)) ->
  overflows (track_int add sub mul sin zero m nprofiles dturns (Z.of_nat p) 0 ph de ftn).
Proof. exact C90_refuted_lem. Qed.
Print Assumptions C90_refuted.

(** 2^24 particles, 1000 turns: 100 profiles fit, 200 do not. *)
Example C90_sizes : let n := Z.to_nat (2 ^ 24) in
  (int32 (10 * Z.of_nat 100) /\ int32 (Z.of_nat n) /\ int32 (Z.of_nat 100) /\ int32 ((Z.of_nat 100 - 1) * Z.of_nat n)) /\
  (int32 (10 * Z.of_nat 200) /\ int32 (Z.of_nat n) /\ int32 (Z.of_nat 200) /\ (3 + 1 < 200)%nat /\ ~ int32 ((Z.of_nat 200 - 1) * Z.of_nat n)).
Proof.
  cbv zeta. unfold int32. rewrite !Z2Nat.id by (apply Z.pow_nonneg; discriminate).
  change (2 ^ 24)%Z with 16777216%Z. change (2 ^ 31)%Z with 2147483648%Z. lia.
Qed.
(** A million turns between 3000 profiles are refused. *)
Example C90_turns : (2 + 1 < 3000)%nat /\ ~ (int32 (1000000 * (Z.of_nat 3000 - 1)) /\ int32 (Z.of_nat 5)).
Proof. unfold int32. change (2 ^ 31)%Z with 2147483648%Z. lia. Qed.

(** C91.  For coordinates inside the image, the image computed with C++ ints is
    the one of the other theorems if the numbers of pixels and particles fit
    into an int. *)
Theorem C91_same : forall xp yp weight nbins, inside nbins xp -> inside nbins yp ->
  int32 (Z.of_nat nbins * Z.of_nat nbins) -> int32 (Z.of_nat (length xp)) ->
  wrapper_make_phase_space_int xp yp weight nbins = wrapper_make_phase_space xp yp weight nbins.
Proof. exact C91_same_lem. Qed.
Print Assumptions C91_same.

(** C91.  An image with more pixels than an int counts, i.e. with 46341 bins or
    more, is undefined behaviour. *)
Theorem C91_refuted : forall xp yp weight nbins, int32 (Z.of_nat nbins) ->
  46341 <= Z.of_nat nbins -> overflows (wrapper_make_phase_space_int xp yp weight nbins).
Proof. exact C91_refuted_lem. Qed.
Print Assumptions C91_refuted.

(** C91.  A first particle far to the right is not reported: its index
    overflows, where integers would give the exception of C34. *)
Theorem C91_far_refuted : forall x y xp yp weight nbins, int32 (Z.of_nat nbins * Z.of_nat nbins) -> int32 (Z.of_nat (length (x :: xp))) ->
  int32 x -> int32 y -> 0 <= y -> 2 ^ 31 <= x * Z.of_nat nbins ->
  overflows (wrapper_make_phase_space_int (x :: xp) (y :: yp) weight nbins) /\
  wrapper_make_phase_space (x :: xp) (y :: yp) weight nbins = Fail (Raised OutOfRange).
Proof. exact C91_far_refuted_lem. Qed.
Print Assumptions C91_far_refuted.

(** C91.  A multiple of 2^32 particles gives a blank image: their number becomes
    the int 0. *)
Theorem C91_many_refuted : forall xp yp weight nbins k, int32 (Z.of_nat nbins) -> int32 (Z.of_nat nbins * Z.of_nat nbins) ->
  Z.of_nat (length xp) = k * 2 ^ 32 ->
  wrapper_make_phase_space_int xp yp weight nbins = Ok (repeat (repeat 0%Qc nbins) nbins).
Proof. exact C91_many_refuted_lem. Qed.
Print Assumptions C91_many_refuted.

Example C91_nonvacuous : inside 3 [0; 2; 1]%Z /\ inside 3 [1; 1; 0]%Z /\ int32 (Z.of_nat 3 * Z.of_nat 3) /\
  int32 1500000000 /\ (2 ^ 31 <= 1500000000 * Z.of_nat 3)%Z /\
  wrapper_make_phase_space_int [0; 2; 1]%Z [1; 1; 0]%Z [1; Q2Qc 2; 1]%Qc 3 = Ok [[0; 1; 0]; [1; 0; 0]; [0; Q2Qc 2; 0]]%Qc.
Proof.
  split; [repeat constructor; discriminate|]. split; [repeat constructor; discriminate|]. split; [split; [discriminate|reflexivity]|].
  split; [split; [discriminate|reflexivity]|]. split; [discriminate|]. vm_compute. reflexivity.
Qed.
