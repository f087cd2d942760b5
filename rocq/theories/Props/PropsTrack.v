(** Properties of particle tracking: C01-C09, C44.
    Statements only: each theorem is closed by the lemma of the same name in
    Proof/CTrack.v.  Written by tools/mkprops.py. *)
From Coq Require Import List ZArith Bool Lia Arith Permutation.
From Verif Require Import Base.Res Model.MTrack Spec.TrackSpec.
Import ListNotations.
From Verif Require Import Proof.CTrack.

(** A machine used in the examples: 3 profiles, 2 turns apart, integer
    arithmetic, a made-up sine routine. *)
Definition ex_machine : machine Z :=
  Machine [1;2;3;4;5]%Z [1;0;2;0;1]%Z [0;1;0;1;0]%Z [1;1;2;2;3]%Z [1;2;1;2;1]%Z [0;1;2;1;0]%Z 2%Z.
Definition ex_params : params Z :=
  let g (l : list Z) := fun t => nth t l 0%Z in
  Params (g [1;2;3;4;5]%Z) (g [1;0;2;0;1]%Z) (g [0;1;0;1;0]%Z) (g [0;1;2;1;0]%Z)
         (g [1;1;2;2;3]%Z) (g [1;2;1;2;1]%Z) 2%Z.
Definition ex_sin (x : Z) : Z := (x * x - 1)%Z.
Definition ex_track := track Z.add Z.sub Z.mul ex_sin 0%Z ex_machine 3 2.
Definition tables {T} (r : res (tstate T)) : option (list (list T) * list (list T)) :=
  match r with Ok s => Some (xp s, yp s) | Fail _ => None end.
Definition call_list {T} (r : res (tstate T)) : option (list (Z * Z)) :=
  match r with Ok s => Some (calls s) | Fail _ => None end.

Example ex_machine_holds : holds ex_machine ex_params (2 * (3 - 1)).
Proof.
  split; [reflexivity|]. intros t Ht.
  do 5 (destruct t as [|t]; [repeat split|]). exfalso. lia.
Qed.

(** C01.  Row q of both tables of [track] is the state of the particles at
    machine turn q*d when they are given at profile p; every row is filled.
    [r] is the index as given by the caller (p, or p - nprofiles). *)
Theorem C01_track_rows : forall T (add sub mul : T -> T -> T) sin zero F m np d p r ph de ftn,
  0 < d -> S p < np -> (r = Z.of_nat p \/ r = Z.of_nat p - Z.of_nat np)%Z ->
  holds m F (d * (np - 1)) -> length ph = length de ->
  exists s, track add sub mul sin zero m np (Z.of_nat d) r 0 ph de ftn = Ok s /\
    length (xp s) = np /\ length (yp s) = np /\
    forall q, q < np ->
      row_is (xp s) (yp s) q (map (travel add sub mul sin F (p * d) (q * d)) (combine ph de)).
Proof. exact C01_track_rows_lem. Qed.
Print Assumptions C01_track_rows.

(** C01 for the routine behind [track] (libtomo.kick_and_drift), where every
    profile, the last one included, can be the start. *)
Theorem C01_routine_rows : forall T (add sub mul : T -> T -> T) sin F m np d p ph de ftn x0 y0,
  0 < d -> p < np ->
  holds m F (d * (np - 1)) -> length ph = length de ->
  length x0 = np -> length y0 = np ->
  (forall r, In r x0 -> length r = length ph) -> (forall r, In r y0 -> length r = length ph) ->
  exists s, kick_and_drift add sub mul sin m x0 y0 de ph (Z.of_nat d) (Z.of_nat p) 0
      (Z.of_nat (d * (np - 1))) (length ph) ftn = Ok s /\
    length (xp s) = np /\ length (yp s) = np /\
    forall q, q < np ->
      row_is (xp s) (yp s) q (map (travel add sub mul sin F (p * d) (q * d)) (combine ph de)).
Proof. exact C01_routine_rows_lem. Qed.
Print Assumptions C01_routine_rows.

Example C01_ex : tables (ex_track 1 0 [1;-1]%Z [2;0]%Z false) =
  Some ([[-10;-37194];[1;-1];[7;11]], [[-7;-37057];[2;0];[428;1074]])%Z.
Proof. vm_compute. reflexivity. Qed.

(** C02.  In arithmetic where subtraction undoes addition and back, taking any
    row q of a result as initial distribution at profile q gives back both
    tables.  Any sine routine. *)
Theorem C02_start_independent : forall T (add sub mul : T -> T -> T) sin F m np d p q ph de ftn x0 y0 s,
  (forall a b, sub (add a b) b = a) -> (forall a b, add (sub a b) b = a) ->
  0 < d -> p < np -> q < np ->
  holds m F (d * (np - 1)) -> length ph = length de ->
  length x0 = np -> length y0 = np ->
  (forall r, In r x0 -> length r = length ph) -> (forall r, In r y0 -> length r = length ph) ->
  kick_and_drift add sub mul sin m x0 y0 de ph (Z.of_nat d) (Z.of_nat p) 0
      (Z.of_nat (d * (np - 1))) (length ph) ftn = Ok s ->
  exists phq deq s', nth_error (xp s) q = Some phq /\ nth_error (yp s) q = Some deq /\
    kick_and_drift add sub mul sin m x0 y0 deq phq (Z.of_nat d) (Z.of_nat q) 0
      (Z.of_nat (d * (np - 1))) (length ph) ftn = Ok s' /\
    xp s' = xp s /\ yp s' = yp s.
Proof. exact C02_start_independent_lem. Qed.
Print Assumptions C02_start_independent.

(** C02 for [track] itself, for all start profiles it accepts. *)
Theorem C02_track_start_independent : forall T (add sub mul : T -> T -> T) sin zero F m np d p q ph de ftn s,
  (forall a b, sub (add a b) b = a) -> (forall a b, add (sub a b) b = a) ->
  0 < d -> S p < np -> S q < np ->
  holds m F (d * (np - 1)) -> length ph = length de ->
  track add sub mul sin zero m np (Z.of_nat d) (Z.of_nat p) 0 ph de ftn = Ok s ->
  exists phq deq s', nth_error (xp s) q = Some phq /\ nth_error (yp s) q = Some deq /\
    track add sub mul sin zero m np (Z.of_nat d) (Z.of_nat q) 0 phq deq ftn = Ok s' /\
    xp s' = xp s /\ yp s' = yp s.
Proof. exact C02_track_start_independent_lem. Qed.
Print Assumptions C02_track_start_independent.

(** C02, one turn: the backward turn undoes the forward turn and vice versa. *)
Theorem C02_one_turn : forall T (add sub mul : T -> T -> T) sin F t s,
  (forall a b, sub (add a b) b = a) -> (forall a b, add (sub a b) b = a) ->
  backward add sub mul sin F t (forward add sub mul sin F t s) = s /\
  forward add sub mul sin F t (backward add sub mul sin F t s) = s.
Proof. exact C02_one_turn_lem. Qed.
Print Assumptions C02_one_turn.

Example C02_ex : (forall a b, a + b - b = a)%Z /\ (forall a b, a - b + b = a)%Z /\
  tables (ex_track 0 0 [-10;-37194]%Z [-7;-37057]%Z false) = tables (ex_track 1 0 [1;-1]%Z [2;0]%Z false).
Proof. split; [|split]; try (intros; lia). vm_compute. reflexivity. Qed.

(** C03 fails: the last profile, by either of its two indices, is rejected
    for every number of profiles and every number of turns between them. *)
Theorem C03_last_profile_refuted : forall T (add sub mul : T -> T -> T) sin zero m np d ph de ftn,
  0 < np -> 0 < d ->
  track add sub mul sin zero m np (Z.of_nat d) (Z.of_nat np - 1) 0 ph de ftn = Fail (Raised ValueError) /\
  track add sub mul sin zero m np (Z.of_nat d) (-1) 0 ph de ftn = Fail (Raised ValueError).
Proof. exact C03_last_profile_refuted_lem. Qed.
Print Assumptions C03_last_profile_refuted.

(** C03, what holds: with deltaturn 0 the accepted indices are exactly those
    of [-nprofiles, nprofiles) that do not name the last profile; every other
    index is rejected by an exception. *)
Theorem C03_accepted_partial : forall T (add sub mul : T -> T -> T) sin zero F m np d r ph de ftn,
  0 < d -> holds m F (d * (np - 1)) -> length ph = length de ->
  ((exists s, track add sub mul sin zero m np (Z.of_nat d) r 0 ph de ftn = Ok s) <->
     (- Z.of_nat np <= r < Z.of_nat np /\ r <> Z.of_nat np - 1 /\ r <> -1)%Z) /\
  ((~ exists s, track add sub mul sin zero m np (Z.of_nat d) r 0 ph de ftn = Ok s) ->
     exists e, track add sub mul sin zero m np (Z.of_nat d) r 0 ph de ftn = Fail (Raised e)).
Proof. exact C03_accepted_partial_lem. Qed.
Print Assumptions C03_accepted_partial.

(** C03 with deltaturn: accepted exactly when the index is in range, the
    offset is smaller than the profile distance and the start turn is a turn
    before the last profile. *)
Theorem C03_accepted_deltaturn_partial : forall T (add sub mul : T -> T -> T) sin zero F m np d r delta ph de ftn,
  0 < d -> holds m F (d * (np - 1)) -> length ph = length de ->
  let p := (if r <? 0 then r + Z.of_nat np else r)%Z in
  (exists s, track add sub mul sin zero m np (Z.of_nat d) r delta ph de ftn = Ok s) <->
  (- Z.of_nat np <= r < Z.of_nat np /\ Z.abs delta < Z.of_nat d /\
   0 <= Z.of_nat d * p + delta < Z.of_nat d * (Z.of_nat np - 1))%Z.
Proof. exact C03_accepted_deltaturn_partial_lem. Qed.
Print Assumptions C03_accepted_deltaturn_partial.

Example C03_ex : is_ok (ex_track 1 0 [1]%Z [2]%Z false) = true /\
  is_ok (ex_track (-3) 0 [1]%Z [2]%Z false) = true /\
  ex_track 2 0 [1]%Z [2]%Z false = Fail (Raised ValueError) /\
  ex_track (-4) 0 [1]%Z [2]%Z false = Fail (Raised IndexError) /\
  is_ok (ex_track 2 (-1) [1]%Z [2]%Z false) = true.
Proof. vm_compute. repeat split. Qed.

(** C04 for deltaturn <= 0: row q is the state at turn q*d of particles given
    at turn p*d+deltaturn. *)
Theorem C04_deltaturn_partial : forall T (add sub mul : T -> T -> T) sin zero F m np d p delta a ph de ftn s,
  (forall a b, sub (add a b) b = a) -> (forall a b, add (sub a b) b = a) ->
  0 < d -> (0 <= p)%Z -> (delta <= 0)%Z -> Z.of_nat a = (p * Z.of_nat d + delta)%Z ->
  holds m F (d * (np - 1)) -> length ph = length de ->
  track add sub mul sin zero m np (Z.of_nat d) p delta ph de ftn = Ok s ->
  length (xp s) = np /\ length (yp s) = np /\
  forall q, q < np ->
    row_is (xp s) (yp s) q (map (travel add sub mul sin F a (q * d)) (combine ph de)).
Proof. exact C04_deltaturn_partial_lem. Qed.
Print Assumptions C04_deltaturn_partial.

(** C04 for every accepted deltaturn: the rows after the start profile are
    right, in any arithmetic. *)
Theorem C04_later_rows_partial : forall T (add sub mul : T -> T -> T) sin zero F m np d p delta a ph de ftn s,
  0 < d -> (0 <= p)%Z -> Z.of_nat a = (p * Z.of_nat d + delta)%Z ->
  holds m F (d * (np - 1)) -> length ph = length de ->
  track add sub mul sin zero m np (Z.of_nat d) p delta ph de ftn = Ok s ->
  forall q, (p < Z.of_nat q)%Z -> q < np ->
    row_is (xp s) (yp s) q (map (travel add sub mul sin F a (q * d)) (combine ph de)).
Proof. exact C04_later_rows_partial_lem. Qed.
Print Assumptions C04_later_rows_partial.

(** C04 fails for every accepted deltaturn > 0: row p is the given
    distribution itself, which lives deltaturn turns later, and the rows
    before it are computed as if the distribution lived at profile p. *)
Theorem C04_positive_deltaturn_rows : forall T (add sub mul : T -> T -> T) sin zero F m np d p delta ph de ftn s,
  0 < d -> (0 <= p)%Z -> (0 < delta)%Z ->
  holds m F (d * (np - 1)) -> length ph = length de ->
  track add sub mul sin zero m np (Z.of_nat d) p delta ph de ftn = Ok s ->
  forall q, (Z.of_nat q <= p)%Z ->
    row_is (xp s) (yp s) q
      (map (travel add sub mul sin F (Z.to_nat p * d) (q * d)) (combine ph de)).
Proof. exact C04_positive_deltaturn_rows_lem. Qed.
Print Assumptions C04_positive_deltaturn_rows.

(** C04 refuted: one machine without voltage, where a particle of energy 1
    started half way between profiles 0 and 1 has phase 0 at turn 1 but is
    reported with phase 0 at turn 0 as well.  True of every sine routine. *)
Theorem C04_positive_deltaturn_refuted : forall sin : Z -> Z,
  exists (m : machine Z) F np d p delta a s,
    holds m F (d * (np - 1)) /\ 0 < d /\ Z.of_nat a = (Z.of_nat p * Z.of_nat d + delta)%Z /\
    track Z.add Z.sub Z.mul sin 0%Z m np (Z.of_nat d) (Z.of_nat p) delta [0%Z] [1%Z] false = Ok s /\
    ~ row_is (xp s) (yp s) p (map (travel Z.add Z.sub Z.mul sin F a (p * d)) [(0, 1)%Z]).
Proof. exact C04_positive_deltaturn_refuted_lem. Qed.
Print Assumptions C04_positive_deltaturn_refuted.

Example C04_ex : tables (ex_track 1 (-1) [1;-1]%Z [2;0]%Z false) =
  tables (ex_track 1 0 [-3;-1]%Z [222;68]%Z false).
Proof. vm_compute. reflexivity. Qed.

(** C05.  The hybrid version returns the tables of the C++ routine, for
    deltaturn 0 in any arithmetic (floating point included). *)
Theorem C05_hybrid_eq_cpp_partial : forall T (add sub mul : T -> T -> T) sin zero F m p12 np d p ph de x0 y0 ftn s,
  0 < d -> p < np -> holds m F (d * (np - 1)) -> (forall v, In v (phi12 m) -> v = p12) ->
  length ph = length de -> length x0 = np -> length y0 = np ->
  (forall r, In r x0 -> length r = length ph) -> (forall r, In r y0 -> length r = length ph) ->
  kick_and_drift add sub mul sin m x0 y0 de ph (Z.of_nat d) (Z.of_nat p) 0
      (Z.of_nat (d * (np - 1))) (length ph) ftn = Ok s ->
  hybrid_kick_and_drift add sub mul sin zero m p12 np de ph (Z.of_nat d) (Z.of_nat p) 0
      (Z.of_nat (d * (np - 1))) = Ok (xp s, yp s).
Proof. exact C05_hybrid_eq_cpp_partial_lem. Qed.
Print Assumptions C05_hybrid_eq_cpp_partial.

(** C05 for -dturns < deltaturn <= 0, when subtraction undoes addition. *)
Theorem C05_hybrid_eq_cpp_deltaturn_partial : forall T (add sub mul : T -> T -> T) sin zero F m p12 np d p delta a ph de ftn s,
  (forall a b, sub (add a b) b = a) -> (forall a b, add (sub a b) b = a) ->
  0 < d -> p < np -> (delta <= 0)%Z -> Z.of_nat a = (Z.of_nat p * Z.of_nat d + delta)%Z ->
  holds m F (d * (np - 1)) -> (forall v, In v (phi12 m) -> v = p12) ->
  length ph = length de ->
  track add sub mul sin zero m np (Z.of_nat d) (Z.of_nat p) delta ph de ftn = Ok s ->
  hybrid_kick_and_drift add sub mul sin zero m p12 np de ph (Z.of_nat d) (Z.of_nat p) delta
      (Z.of_nat (d * (np - 1))) = Ok (xp s, yp s).
Proof. exact C05_hybrid_eq_cpp_deltaturn_partial_lem. Qed.
Print Assumptions C05_hybrid_eq_cpp_deltaturn_partial.

(** C05 refuted for deltaturn > 0: both versions run and differ.  True of
    every sine routine. *)
Theorem C05_hybrid_positive_deltaturn_refuted : forall sin : Z -> Z,
  exists (m : machine Z) np d p delta ph de s r,
    track Z.add Z.sub Z.mul sin 0%Z m np d p delta ph de false = Ok s /\
    hybrid_kick_and_drift Z.add Z.sub Z.mul sin 0%Z m 0%Z np de ph d p delta (d * (Z.of_nat np - 1)) = Ok r /\
    r <> (xp s, yp s).
Proof. exact C05_hybrid_positive_deltaturn_refuted_lem. Qed.
Print Assumptions C05_hybrid_positive_deltaturn_refuted.

Example C05_ex :
  let m := Machine [1;2;3;4;5]%Z [1;0;2;0;1]%Z [0;1;0;1;0]%Z [1;1;2;2;3]%Z [1;2;1;2;1]%Z [7;7;7;7;7]%Z 2%Z in
  tables (track Z.add Z.sub Z.mul ex_sin 0%Z m 3 2 1 0 [1;-1]%Z [2;0]%Z false) =
  match hybrid_kick_and_drift Z.add Z.sub Z.mul ex_sin 0%Z m 7%Z 3 [2;0]%Z [1;-1]%Z 2 1 0 4 with
  | Ok r => Some r | Fail _ => None end.
Proof. vm_compute. reflexivity. Qed.

(** C06.  Whatever the order in which the threads of the two launches run,
    the GPU arrays are the CPU tables, row after row.  The grid has
    (nparts/block+1)*block threads. *)
Theorem C06_gpu_eq_cpu : forall T (add sub mul : T -> T -> T) sin F m np d p delta a ph de x0 y0 ftn block sched1 sched2 s,
  0 < d -> 0 < block -> p < np -> holds m F (d * (np - 1)) ->
  Z.of_nat a = (Z.of_nat p * Z.of_nat d + delta)%Z -> a <= d * (np - 1) ->
  (Z.abs delta < Z.of_nat d)%Z ->
  length ph = length de -> length x0 = np -> length y0 = np ->
  (forall r, In r x0 -> length r = length ph) -> (forall r, In r y0 -> length r = length ph) ->
  Permutation sched1 (seq 0 (grid_threads (length ph) block)) ->
  Permutation sched2 (seq 0 (grid_threads (length ph) block)) ->
  kick_and_drift add sub mul sin m x0 y0 de ph (Z.of_nat d) (Z.of_nat p) delta
      (Z.of_nat (d * (np - 1))) (length ph) ftn = Ok s ->
  gpu_kick_and_drift add sub mul sin m (concat x0) (concat y0) de ph (Z.of_nat d) (Z.of_nat p) delta
      (Z.of_nat (d * (np - 1))) (length ph) sched1 sched2 = Ok (concat (xp s), concat (yp s)).
Proof. exact C06_gpu_eq_cpu_lem. Qed.
Print Assumptions C06_gpu_eq_cpu.

Example C06_ex :
  gpu_kick_and_drift Z.add Z.sub Z.mul ex_sin ex_machine (repeat 0 6)%Z (repeat 0 6)%Z [2;0]%Z [1;-1]%Z 2 1 0 4 2
     (rev (seq 0 (grid_threads 2 4))) (seq 0 (grid_threads 2 4)) =
  Ok ([-10;-37194;1;-1;7;11], [-7;-37057;2;0;428;1074])%Z.
Proof. vm_compute. reflexivity. Qed.

(** C07.  With phi12 an array, and all machine arrays of nturns+1 elements,
    the routine neither leaves an array nor fails in any other way. *)
Theorem C07_in_bounds : forall T (add sub mul : T -> T -> T) sin m np d p delta ph de ftn x0 y0,
  0 < d -> p < np -> (Z.abs delta < Z.of_nat d)%Z ->
  (0 <= Z.of_nat p * Z.of_nat d + delta <= Z.of_nat (d * (np - 1)))%Z ->
  (forall l, In l [rf1v m; rf2v m; phi0 m; deltaE0 m; drift_coef m; phi12 m] ->
     length l = S (d * (np - 1))) ->
  length ph = length de -> length x0 = np -> length y0 = np ->
  (forall r, In r x0 -> length r = length ph) -> (forall r, In r y0 -> length r = length ph) ->
  exists s, kick_and_drift add sub mul sin m x0 y0 de ph (Z.of_nat d) (Z.of_nat p) delta
      (Z.of_nat (d * (np - 1))) (length ph) ftn = Ok s.
Proof. exact C07_in_bounds_lem. Qed.
Print Assumptions C07_in_bounds.

(** C07 fails for phi12 given as one number: the expanded array is one short
    and the last turn reads behind it, for every machine, every size and
    every start profile but the last. *)
Theorem C07_scalar_phi12_refuted : forall T (add sub mul : T -> T -> T) sin v1 v2 p0 dE co p12 h d np p ph de x0 y0 ftn,
  0 < d -> S p < np -> length ph = length de ->
  length x0 = np -> length y0 = np ->
  (forall r, In r x0 -> length r = length ph) -> (forall r, In r y0 -> length r = length ph) ->
  (forall l, In l [v1; v2; p0; dE; co] -> length l = S (d * (np - 1))) ->
  kick_and_drift add sub mul sin (scalar_machine v1 v2 p0 dE co p12 h (Z.of_nat (d * (np - 1))))
    x0 y0 de ph (Z.of_nat d) (Z.of_nat p) 0 (Z.of_nat (d * (np - 1))) (length ph) ftn
  = Fail OutOfBounds.
Proof. exact C07_scalar_phi12_refuted_lem. Qed.
Print Assumptions C07_scalar_phi12_refuted.

(** C07: the GPU version expands the number to nturns+1 elements, which is
    enough. *)
Theorem C07_scalar_phi12_gpu : forall T (add sub mul : T -> T -> T) sin v1 v2 p0 dE co p12 h d np p ph de x0 y0 ftn,
  0 < d -> p < np -> length ph = length de ->
  length x0 = np -> length y0 = np ->
  (forall r, In r x0 -> length r = length ph) -> (forall r, In r y0 -> length r = length ph) ->
  (forall l, In l [v1; v2; p0; dE; co] -> length l = S (d * (np - 1))) ->
  exists s, kick_and_drift add sub mul sin (scalar_machine_gpu v1 v2 p0 dE co p12 h (Z.of_nat (d * (np - 1))))
    x0 y0 de ph (Z.of_nat d) (Z.of_nat p) 0 (Z.of_nat (d * (np - 1))) (length ph) ftn = Ok s.
Proof. exact C07_scalar_phi12_gpu_lem. Qed.
Print Assumptions C07_scalar_phi12_gpu.

Example C07_ex : is_ok (kick_and_drift Z.add Z.sub Z.mul ex_sin ex_machine
   (repeat [0;0]%Z 3) (repeat [0;0]%Z 3) [2;0]%Z [1;-1]%Z 2 2 (-1) 4 2 false) = true.
Proof. vm_compute. reflexivity. Qed.

(** C08.  With deltaturn 0 the callback gets (1,N), (2,N), ..., (N,N) where N
    is the number of turns. *)
Theorem C08_callback_partial : forall T (add sub mul : T -> T -> T) sin zero F m np d r ph de ftn s,
  0 < d -> holds m F (d * (np - 1)) -> length ph = length de ->
  track add sub mul sin zero m np (Z.of_nat d) r 0 ph de ftn = Ok s ->
  calls s = map (fun i => (Z.of_nat i, Z.of_nat (d * (np - 1)))) (seq 1 (d * (np - 1))).
Proof. exact C08_callback_partial_lem. Qed.
Print Assumptions C08_callback_partial.

(** C08 for every deltaturn: the calls are (1,N), (2,N), ..., (N-deltaturn,N):
    each turn once, in order; but the last call reports completion only for
    deltaturn 0 (see the refutation). *)
Theorem C08_callback_deltaturn_partial : forall T (add sub mul : T -> T -> T) sin zero F m np d r delta ph de ftn s,
  0 < d -> holds m F (d * (np - 1)) -> length ph = length de ->
  track add sub mul sin zero m np (Z.of_nat d) r delta ph de ftn = Ok s ->
  calls s = map (fun i => (Z.of_nat i, Z.of_nat (d * (np - 1))))
                (seq 1 (Z.to_nat (Z.of_nat (d * (np - 1)) - delta))).
Proof. exact C08_callback_deltaturn_partial_lem. Qed.
Print Assumptions C08_callback_deltaturn_partial.

(** C08 fails for every accepted deltaturn other than 0: the last call never
    is (N,N). *)
Theorem C08_callback_deltaturn_refuted : forall T (add sub mul : T -> T -> T) sin zero F m np d r delta ph de ftn s x,
  0 < d -> holds m F (d * (np - 1)) -> length ph = length de -> delta <> 0%Z ->
  track add sub mul sin zero m np (Z.of_nat d) r delta ph de ftn = Ok s ->
  last (calls s) x <> (Z.of_nat (d * (np - 1)), Z.of_nat (d * (np - 1))).
Proof. exact C08_callback_deltaturn_refuted_lem. Qed.
Print Assumptions C08_callback_deltaturn_refuted.

Example C08_ex : call_list (ex_track 1 0 [1]%Z [2]%Z false) = Some [(1,4);(2,4);(3,4);(4,4)]%Z /\
  call_list (ex_track 1 1 [1]%Z [2]%Z false) = Some [(1,4);(2,4);(3,4)]%Z.
Proof. vm_compute. split; reflexivity. Qed.

(** C09.  Two runs on the same machine: wherever the same initial coordinates
    occur, at whatever positions of whatever lists, the table columns agree. *)
Theorem C09_particles_independent : forall T (add sub mul : T -> T -> T) sin zero F m np d r delta
    ph1 de1 ph2 de2 f1 f2 s1 s2,
  0 < d -> holds m F (d * (np - 1)) -> length ph1 = length de1 -> length ph2 = length de2 ->
  track add sub mul sin zero m np (Z.of_nat d) r delta ph1 de1 f1 = Ok s1 ->
  track add sub mul sin zero m np (Z.of_nat d) r delta ph2 de2 f2 = Ok s2 ->
  forall i j, nth_error ph1 i = nth_error ph2 j -> nth_error de1 i = nth_error de2 j ->
  forall q rx1 rx2 ry1 ry2,
    nth_error (xp s1) q = Some rx1 -> nth_error (xp s2) q = Some rx2 ->
    nth_error (yp s1) q = Some ry1 -> nth_error (yp s2) q = Some ry2 ->
    nth_error rx1 i = nth_error rx2 j /\ nth_error ry1 i = nth_error ry2 j.
Proof. exact C09_particles_independent_lem. Qed.
Print Assumptions C09_particles_independent.

(** C09, permutations: reordering the particles reorders the columns. *)
Theorem C09_permuted : forall T (add sub mul : T -> T -> T) sin zero F m np d r delta
    (perm : list nat) ph1 de1 ph2 de2 f1 f2 s1,
  0 < d -> holds m F (d * (np - 1)) -> length ph1 = length de1 -> length ph2 = length de2 ->
  length perm = length ph2 ->
  (forall k i, nth_error perm k = Some i -> nth_error ph2 k = nth_error ph1 i /\ nth_error de2 k = nth_error de1 i) ->
  track add sub mul sin zero m np (Z.of_nat d) r delta ph1 de1 f1 = Ok s1 ->
  exists s2, track add sub mul sin zero m np (Z.of_nat d) r delta ph2 de2 f2 = Ok s2 /\
    forall q k i rx1 rx2 ry1 ry2, nth_error perm k = Some i ->
    nth_error (xp s1) q = Some rx1 -> nth_error (xp s2) q = Some rx2 ->
    nth_error (yp s1) q = Some ry1 -> nth_error (yp s2) q = Some ry2 ->
    nth_error rx2 k = nth_error rx1 i /\ nth_error ry2 k = nth_error ry1 i.
Proof. exact C09_permuted_lem. Qed.
Print Assumptions C09_permuted.

Example C09_ex : tables (ex_track 1 0 [-1;1;5]%Z [0;2;3]%Z false) =
  Some ([[-37194;-10;-144051];[-1;1;5];[11;7;-64]], [[-37057;-7;-143782];[0;2;3];[1074;428;36888]])%Z.
Proof. vm_compute. reflexivity. Qed.

(** C44.  Index checking with wrap-around: accepts exactly [-limit, limit) and
    returns the equivalent non-negative index; anything else is IndexError. *)
Theorem C44_index_wrap : forall i limit,
  ((- limit <= i < limit)%Z ->
     exists j, assert_index_ok i limit true = Ok j /\ (0 <= j < limit)%Z /\
               (j = i \/ j = i + limit)%Z) /\
  (~ (- limit <= i < limit)%Z -> assert_index_ok i limit true = Fail (Raised IndexError)).
Proof. exact C44_index_wrap_lem. Qed.
Print Assumptions C44_index_wrap.

(** C44 without wrap-around. *)
Theorem C44_index_nowrap : forall i limit,
  ((0 <= i < limit)%Z -> assert_index_ok i limit false = Ok i) /\
  ((i < 0)%Z -> assert_index_ok i limit false = Fail (Raised NegativeIndexError)) /\
  ((0 <= i)%Z -> (limit <= i)%Z -> assert_index_ok i limit false = Fail (Raised IndexError)).
Proof. exact C44_index_nowrap_lem. Qed.
Print Assumptions C44_index_nowrap.

Example C44_ex : assert_index_ok (-2) 5 true = Ok 3%Z /\ assert_index_ok 4 5 true = Ok 4%Z /\
  assert_index_ok 5 5 true = Fail (Raised IndexError) /\ assert_index_ok (-6) 5 true = Fail (Raised IndexError).
Proof. repeat split. Qed.
