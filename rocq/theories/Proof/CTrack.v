(** Property lemmas on tracking (C01-C09, C44). *)
(*HEAD*)
From Coq Require Import List ZArith Bool Lia Arith Permutation.
From Verif Require Import Base.Res Model.MTrack Spec.TrackSpec.
Import ListNotations.
(*DAEH*)
From Coq Require Import ZifyBool ZifyNat.
From Verif Require Import Base.ResLemmas Proof.PTrack Proof.PTrack2 Proof.PTrackHybrid Proof.PTrackGpu.

(*EX*)
(** A machine used in the examples: 3 profiles, 2 turns apart, integer
    arithmetic, a made-up sine routine. *)
Definition ex_machine : machine Z :=
  Machine [1;2;3;4;5]%Z [1;0;2;0;1]%Z [0;1;0;1;0]%Z [1;1;2;2;3]%Z [1;2;1;2;1]%Z [0;1;2;1;0]%Z 2%Z.
Definition ex_params : params Z :=
  let g (l : list Z) := fun t => nth t l 0%Z in
  Params (g [1;2;3;4;5]%Z) (g [1;0;2;0;1]%Z) (g [0;1;0;1;0]%Z) (g [0;1;2;1;0]%Z)
         (g [1;1;2;2;3]%Z) (g [1;2;1;2;1]%Z) 2%Z.
Definition ex_sin (x : Z) : Z := (x * x - 1)%Z.
Definition ex_track := track Z.add Z.sub Z.mul ex_sin 0%Z ex_machine 3 2.
Definition tables {T} (r : res (tstate T)) : option (list (list T) * list (list T)) :=
  match r with Ok s => Some (xp s, yp s) | Fail _ => None end.
Definition call_list {T} (r : res (tstate T)) : option (list (Z * Z)) :=
  match r with Ok s => Some (calls s) | Fail _ => None end.

Example ex_machine_holds : holds ex_machine ex_params (2 * (3 - 1)).
Proof.
  split; [reflexivity|]. intros t Ht.
  do 5 (destruct t as [|t]; [repeat split|]). exfalso. lia.
Qed.
(*XE*)

(** C01.  Row q of both tables of [track] is the state of the particles at
    machine turn q*d when they are given at profile p; every row is filled.
    [r] is the index as given by the caller (p, or p - nprofiles). *)
Lemma C01_track_rows_lem : forall T (add sub mul : T -> T -> T) sin zero F m np d p r ph de ftn,
  0 < d -> S p < np -> (r = Z.of_nat p \/ r = Z.of_nat p - Z.of_nat np)%Z ->
  holds m F (d * (np - 1)) -> length ph = length de ->
  exists s, track add sub mul sin zero m np (Z.of_nat d) r 0 ph de ftn = Ok s /\
    length (xp s) = np /\ length (yp s) = np /\
    forall q, q < np ->
      row_is (xp s) (yp s) q (map (travel add sub mul sin F (p * d) (q * d)) (combine ph de)).
Proof.
  intros T add sub mul sin zero F m np d p r ph de ftn Hd Hp Hr Hm Hl.
  assert (Hc : track_checks (Z.of_nat np) (Z.of_nat d) r 0 = Ok (Z.of_nat p)).
  { apply track_checks_ok. destruct (Z.ltb_spec r 0); repeat split; nia. }
  destruct (track_ok add sub mul sin zero F m np d r 0 (Z.of_nat p) ph de ftn Hd Hm Hl Hc)
    as (s & a & E & Ha & _ & _ & Sx & Sy & Hrows & _).
  assert (a = p * d) by lia. subst a.
  exists s. split; [auto|]. split; [apply Sx|]. split; [apply Sy|].
  intros q Hq. specialize (Hrows q Hq). rewrite Nat2Z.id in Hrows.
  rewrite row_spec_zero in Hrows by auto. exact Hrows.
Qed.

(** C01 for the routine behind [track] (libtomo.kick_and_drift), where every
    profile, the last one included, can be the start. *)
Lemma C01_routine_rows_lem : forall T (add sub mul : T -> T -> T) sin F m np d p ph de ftn x0 y0,
  0 < d -> p < np ->
  holds m F (d * (np - 1)) -> length ph = length de ->
  length x0 = np -> length y0 = np ->
  (forall r, In r x0 -> length r = length ph) -> (forall r, In r y0 -> length r = length ph) ->
  exists s, kick_and_drift add sub mul sin m x0 y0 de ph (Z.of_nat d) (Z.of_nat p) 0
      (Z.of_nat (d * (np - 1))) (length ph) ftn = Ok s /\
    length (xp s) = np /\ length (yp s) = np /\
    forall q, q < np ->
      row_is (xp s) (yp s) q (map (travel add sub mul sin F (p * d) (q * d)) (combine ph de)).
Proof.
  intros T add sub mul sin F m np d p ph de ftn x0 y0 Hd Hp Hm Hl Lx Ly Hx Hy.
  destruct (kick_and_drift_ok add sub mul sin F m d np (length ph) Hd ltac:(lia)
      (d * (np - 1)) eq_refl (d * (np - 1)) Hm (p * d) p (combine ph de) 0 ftn x0 y0)
    as (s & E & Sx & Sy & Hrows & _); auto; try lia; try nia.
  { rewrite combine_length. lia. }
  { split; auto. intros q r Hq. apply Hx. eapply nth_error_In; eauto. }
  { split; auto. intros q r Hq. apply Hy. eapply nth_error_In; eauto. }
  rewrite map_fst_combine, map_snd_combine in E by auto.
  exists s. split; [auto|]. split; [apply Sx|]. split; [apply Sy|].
  intros q Hq. specialize (Hrows q Hq). rewrite row_spec_zero in Hrows by auto. exact Hrows.
Qed.

(*EX*)
Example C01_ex : tables (ex_track 1 0 [1;-1]%Z [2;0]%Z false) =
  Some ([[-10;-37194];[1;-1];[7;11]], [[-7;-37057];[2;0];[428;1074]])%Z.
Proof. vm_compute. reflexivity. Qed.
(*XE*)

Lemma row_eq_ext : forall A (t1 t2 : list A) n, length t1 = n -> length t2 = n ->
  (forall q, q < n -> nth_error t1 q = nth_error t2 q) -> t1 = t2.
Proof.
  intros. apply nth_error_ext_len; [congruence|]. intros. apply H1. lia.
Qed.

(** C02.  In arithmetic where subtraction undoes addition and back, taking any
    row q of a result as initial distribution at profile q gives back both
    tables.  Any sine routine. *)
Lemma C02_start_independent_lem : forall T (add sub mul : T -> T -> T) sin F m np d p q ph de ftn x0 y0 s,
  (forall a b, sub (add a b) b = a) -> (forall a b, add (sub a b) b = a) ->
  0 < d -> p < np -> q < np ->
  holds m F (d * (np - 1)) -> length ph = length de ->
  length x0 = np -> length y0 = np ->
  (forall r, In r x0 -> length r = length ph) -> (forall r, In r y0 -> length r = length ph) ->
  kick_and_drift add sub mul sin m x0 y0 de ph (Z.of_nat d) (Z.of_nat p) 0
      (Z.of_nat (d * (np - 1))) (length ph) ftn = Ok s ->
  exists phq deq s', nth_error (xp s) q = Some phq /\ nth_error (yp s) q = Some deq /\
    kick_and_drift add sub mul sin m x0 y0 deq phq (Z.of_nat d) (Z.of_nat q) 0
      (Z.of_nat (d * (np - 1))) (length ph) ftn = Ok s' /\
    xp s' = xp s /\ yp s' = yp s.
Proof.
  intros T add sub mul sin F m np d p q ph de ftn x0 y0 s L1 L2 Hd Hp Hq Hm Hl Lx Ly Hx Hy E.
  destruct (C01_routine_rows_lem T add sub mul sin F m np d p ph de ftn x0 y0 Hd Hp Hm Hl Lx Ly Hx Hy)
    as (s1 & E1 & X1 & Y1 & R1).
  rewrite E in E1. inversion E1; subst s1. clear E1.
  set (lq := map (travel add sub mul sin F (p * d) (q * d)) (combine ph de)) in *.
  assert (Lq : length lq = length ph).
  { unfold lq. rewrite map_length, combine_length. lia. }
  destruct (R1 q Hq) as [Rx Ry]. fold lq in Rx, Ry.
  destruct (C01_routine_rows_lem T add sub mul sin F m np d q (map fst lq) (map snd lq) ftn x0 y0 Hd Hq Hm)
    as (s2 & E2 & X2 & Y2 & R2); auto; try (rewrite !map_length; auto).
  { rewrite Lq. auto. }
  { rewrite Lq. auto. }
  rewrite map_length, Lq in E2.
  exists (map fst lq), (map snd lq), s2. do 3 (split; [auto|]).
  assert (HH : forall i, i < np -> nth_error (xp s2) i = nth_error (xp s) i /\
                               nth_error (yp s2) i = nth_error (yp s) i).
  { intros i Hi. destruct (R2 i Hi) as [A B]. destruct (R1 i Hi) as [A' B'].
    rewrite A, B, A', B', combine_fst_snd.
    assert (HE : map (travel add sub mul sin F (q * d) (i * d)) lq =
                 map (travel add sub mul sin F (p * d) (i * d)) (combine ph de)).
    { unfold lq. rewrite map_map. apply map_ext. intros. apply travel_trans; auto. }
    rewrite HE. auto. }
  split; eapply row_eq_ext; eauto; intros; apply HH; auto.
Qed.

(** C02 for [track] itself, for all start profiles it accepts. *)
Lemma C02_track_start_independent_lem : forall T (add sub mul : T -> T -> T) sin zero F m np d p q ph de ftn s,
  (forall a b, sub (add a b) b = a) -> (forall a b, add (sub a b) b = a) ->
  0 < d -> S p < np -> S q < np ->
  holds m F (d * (np - 1)) -> length ph = length de ->
  track add sub mul sin zero m np (Z.of_nat d) (Z.of_nat p) 0 ph de ftn = Ok s ->
  exists phq deq s', nth_error (xp s) q = Some phq /\ nth_error (yp s) q = Some deq /\
    track add sub mul sin zero m np (Z.of_nat d) (Z.of_nat q) 0 phq deq ftn = Ok s' /\
    xp s' = xp s /\ yp s' = yp s.
Proof.
  intros T add sub mul sin zero F m np d p q ph de ftn s L1 L2 Hd Hp Hq Hm Hl E.
  destruct (C01_track_rows_lem T add sub mul sin zero F m np d p (Z.of_nat p) ph de ftn Hd Hp ltac:(auto) Hm Hl)
    as (s1 & E1 & X1 & Y1 & R1).
  rewrite E in E1. inversion E1; subst s1. clear E1.
  set (lq := map (travel add sub mul sin F (p * d) (q * d)) (combine ph de)) in *.
  destruct (R1 q ltac:(lia)) as [Rx Ry]. fold lq in Rx, Ry.
  destruct (C01_track_rows_lem T add sub mul sin zero F m np d q (Z.of_nat q) (map fst lq) (map snd lq) ftn Hd Hq ltac:(auto) Hm)
    as (s2 & E2 & X2 & Y2 & R2); [rewrite !map_length; auto|].
  exists (map fst lq), (map snd lq), s2. do 3 (split; [auto|]).
  assert (HH : forall i, i < np -> nth_error (xp s2) i = nth_error (xp s) i /\
                               nth_error (yp s2) i = nth_error (yp s) i).
  { intros i Hi. destruct (R2 i Hi) as [A B]. destruct (R1 i Hi) as [A' B'].
    rewrite A, B, A', B', combine_fst_snd.
    assert (HE : map (travel add sub mul sin F (q * d) (i * d)) lq =
                 map (travel add sub mul sin F (p * d) (i * d)) (combine ph de)).
    { unfold lq. rewrite map_map. apply map_ext. intros. apply travel_trans; auto. }
    rewrite HE. auto. }
  split; eapply row_eq_ext; eauto; intros; apply HH; auto.
Qed.

(** C02, one turn: the backward turn undoes the forward turn and vice versa. *)
Lemma C02_one_turn_lem : forall T (add sub mul : T -> T -> T) sin F t s,
  (forall a b, sub (add a b) b = a) -> (forall a b, add (sub a b) b = a) ->
  backward add sub mul sin F t (forward add sub mul sin F t s) = s /\
  forward add sub mul sin F t (backward add sub mul sin F t s) = s.
Proof. intros. split; [apply back_forward|apply forward_back]; auto. Qed.

(*EX*)
Example C02_ex : (forall a b, a + b - b = a)%Z /\ (forall a b, a - b + b = a)%Z /\
  tables (ex_track 0 0 [-10;-37194]%Z [-7;-37057]%Z false) = tables (ex_track 1 0 [1;-1]%Z [2;0]%Z false).
Proof. split; [|split]; try (intros; lia). vm_compute. reflexivity. Qed.
(*XE*)

(** C03 fails: the last profile, by either of its two indices, is rejected
    for every number of profiles and every number of turns between them. *)
Lemma C03_last_profile_refuted_lem : forall T (add sub mul : T -> T -> T) sin zero m np d ph de ftn,
  0 < np -> 0 < d ->
  track add sub mul sin zero m np (Z.of_nat d) (Z.of_nat np - 1) 0 ph de ftn = Fail (Raised ValueError) /\
  track add sub mul sin zero m np (Z.of_nat d) (-1) 0 ph de ftn = Fail (Raised ValueError).
Proof.
  intros T add sub mul sin zero m np d ph de ftn Hnp Hd.
  assert (H : forall r, (r = Z.of_nat np - 1 \/ r = -1)%Z ->
    track_checks (Z.of_nat np) (Z.of_nat d) r 0 = Fail (Raised ValueError)).
  { intros r Hr. unfold track_checks. rewrite assert_index_ok_wrap.
    destruct (Z.leb_spec (- Z.of_nat np) r); [|lia].
    destruct (Z.ltb_spec r (Z.of_nat np)); [|lia]. cbn [andb bind].
    assert ((if r <? 0 then r + Z.of_nat np else r) = Z.of_nat np - 1)%Z as ->
      by (destruct (Z.ltb_spec r 0); lia).
    destruct (Z.ltb_spec (Z.abs 0) (Z.of_nat d)); cbn [negb]; [|lia].
    destruct (Z.ltb_spec (Z.of_nat d * (Z.of_nat np - 1) + 0) (Z.of_nat d * (Z.of_nat np - 1))); cbn [negb]; [lia|].
    reflexivity. }
  unfold track. rewrite !H by auto. split; reflexivity.
Qed.

(** C03, what holds: with deltaturn 0 the accepted indices are exactly those
    of [-nprofiles, nprofiles) that do not name the last profile; every other
    index is rejected by an exception. *)
Lemma C03_accepted_partial_lem : forall T (add sub mul : T -> T -> T) sin zero F m np d r ph de ftn,
  0 < d -> holds m F (d * (np - 1)) -> length ph = length de ->
  ((exists s, track add sub mul sin zero m np (Z.of_nat d) r 0 ph de ftn = Ok s) <->
     (- Z.of_nat np <= r < Z.of_nat np /\ r <> Z.of_nat np - 1 /\ r <> -1)%Z) /\
  ((~ exists s, track add sub mul sin zero m np (Z.of_nat d) r 0 ph de ftn = Ok s) ->
     exists e, track add sub mul sin zero m np (Z.of_nat d) r 0 ph de ftn = Fail (Raised e)).
Proof.
  intros T add sub mul sin zero F m np d r ph de ftn Hd Hm Hl.
  assert (Hdich : (exists p, track_checks (Z.of_nat np) (Z.of_nat d) r 0 = Ok p) \/
                  (exists e, track_checks (Z.of_nat np) (Z.of_nat d) r 0 = Fail (Raised e))).
  { unfold track_checks. rewrite assert_index_ok_wrap.
    destruct ((- Z.of_nat np <=? r) && (r <? Z.of_nat np))%Z; cbn [bind]; [|right; eauto].
    destruct (negb _); [right; eauto|]. destruct (negb _); [right; eauto|].
    destruct (negb _); [right; eauto|]. left; eauto. }
  split.
  - split.
    + intros [s E]. unfold track in E. apply bind_ok in E. destruct E as [p [E _]].
      apply track_checks_ok in E. destruct E as (A & B & C & D).
      subst p. destruct (Z.ltb_spec r 0); nia.
    + intros H.
      assert (Hc : track_checks (Z.of_nat np) (Z.of_nat d) r 0 = Ok (if r <? 0 then r + Z.of_nat np else r)%Z).
      { apply track_checks_ok. destruct (Z.ltb_spec r 0); repeat split; nia. }
      destruct (track_ok add sub mul sin zero F m np d r 0 _ ph de ftn Hd Hm Hl Hc) as (s & a & E & _).
      eauto.
  - intros H. destruct Hdich as [[p Hc]|[e He]].
    + exfalso. apply H.
      destruct (track_ok add sub mul sin zero F m np d r 0 _ ph de ftn Hd Hm Hl Hc) as (s & a & E & _). eauto.
    + exists e. unfold track. rewrite He. reflexivity.
Qed.

(** C03 with deltaturn: accepted exactly when the index is in range, the
    offset is smaller than the profile distance and the start turn is a turn
    before the last profile. *)
Lemma C03_accepted_deltaturn_partial_lem : forall T (add sub mul : T -> T -> T) sin zero F m np d r delta ph de ftn,
  0 < d -> holds m F (d * (np - 1)) -> length ph = length de ->
  let p := (if r <? 0 then r + Z.of_nat np else r)%Z in
  (exists s, track add sub mul sin zero m np (Z.of_nat d) r delta ph de ftn = Ok s) <->
  (- Z.of_nat np <= r < Z.of_nat np /\ Z.abs delta < Z.of_nat d /\
   0 <= Z.of_nat d * p + delta < Z.of_nat d * (Z.of_nat np - 1))%Z.
Proof.
  intros T add sub mul sin zero F m np d r delta ph de ftn Hd Hm Hl p. split.
  - intros [s E]. unfold track in E. apply bind_ok in E. destruct E as [p' [E _]].
    apply track_checks_ok in E. destruct E as (A & B & C & D). subst p'. auto.
  - intros (A & B & C).
    assert (Hc : track_checks (Z.of_nat np) (Z.of_nat d) r delta = Ok p).
    { apply track_checks_ok. auto. }
    destruct (track_ok add sub mul sin zero F m np d r delta _ ph de ftn Hd Hm Hl Hc) as (s & a & E & _).
    eauto.
Qed.

(*EX*)
Example C03_ex : is_ok (ex_track 1 0 [1]%Z [2]%Z false) = true /\
  is_ok (ex_track (-3) 0 [1]%Z [2]%Z false) = true /\
  ex_track 2 0 [1]%Z [2]%Z false = Fail (Raised ValueError) /\
  ex_track (-4) 0 [1]%Z [2]%Z false = Fail (Raised IndexError) /\
  is_ok (ex_track 2 (-1) [1]%Z [2]%Z false) = true.
Proof. vm_compute. repeat split. Qed.
(*XE*)

(** C04 for deltaturn <= 0: row q is the state at turn q*d of particles given
    at turn p*d+deltaturn. *)
Lemma C04_deltaturn_partial_lem : forall T (add sub mul : T -> T -> T) sin zero F m np d p delta a ph de ftn s,
  (forall a b, sub (add a b) b = a) -> (forall a b, add (sub a b) b = a) ->
  0 < d -> (0 <= p)%Z -> (delta <= 0)%Z -> Z.of_nat a = (p * Z.of_nat d + delta)%Z ->
  holds m F (d * (np - 1)) -> length ph = length de ->
  track add sub mul sin zero m np (Z.of_nat d) p delta ph de ftn = Ok s ->
  length (xp s) = np /\ length (yp s) = np /\
  forall q, q < np ->
    row_is (xp s) (yp s) q (map (travel add sub mul sin F a (q * d)) (combine ph de)).
Proof.
  intros T add sub mul sin zero F m np d p delta a ph de ftn s L1 L2 Hd Hp Hdl Ha Hm Hl E.
  pose proof E as E'. unfold track in E'. apply bind_ok in E'. destruct E' as [p' [Ec _]].
  destruct (track_ok add sub mul sin zero F m np d p delta p' ph de ftn Hd Hm Hl Ec)
    as (s1 & a1 & E1 & Ha1 & _ & Hp' & Sx & Sy & Hrows & _).
  apply track_checks_ok in Ec. destruct Ec as (_ & Hpp & _).
  destruct (Z.ltb_spec p 0); [lia|]. subst p'.
  rewrite E in E1. inversion E1; subst s1. assert (a1 = a) by lia. subst a1.
  split; [apply Sx|]. split; [apply Sy|]. intros q Hq. specialize (Hrows q Hq).
  rewrite row_spec_travel in Hrows; auto. nia.
Qed.

(** C04 for every accepted deltaturn: the rows after the start profile are
    right, in any arithmetic. *)
Lemma C04_later_rows_partial_lem : forall T (add sub mul : T -> T -> T) sin zero F m np d p delta a ph de ftn s,
  0 < d -> (0 <= p)%Z -> Z.of_nat a = (p * Z.of_nat d + delta)%Z ->
  holds m F (d * (np - 1)) -> length ph = length de ->
  track add sub mul sin zero m np (Z.of_nat d) p delta ph de ftn = Ok s ->
  forall q, (p < Z.of_nat q)%Z -> q < np ->
    row_is (xp s) (yp s) q (map (travel add sub mul sin F a (q * d)) (combine ph de)).
Proof.
  intros T add sub mul sin zero F m np d p delta a ph de ftn s Hd Hp Ha Hm Hl E q Hpq Hq.
  pose proof E as E'. unfold track in E'. apply bind_ok in E'. destruct E' as [p' [Ec _]].
  destruct (track_ok add sub mul sin zero F m np d p delta p' ph de ftn Hd Hm Hl Ec)
    as (s1 & a1 & E1 & Ha1 & Hlt & Hp' & Sx & Sy & Hrows & _).
  apply track_checks_ok in Ec. destruct Ec as (_ & Hpp & Hab & _).
  destruct (Z.ltb_spec p 0); [lia|]. subst p'.
  rewrite E in E1. inversion E1; subst s1. assert (a1 = a) by lia. subst a1.
  specialize (Hrows q Hq). unfold row_spec in Hrows.
  destruct (Nat.ltb_spec (Z.to_nat p) q); [|lia].
  erewrite map_ext; [exact Hrows|]. intros u. rewrite travel_up; [reflexivity|]. nia.
Qed.

(** C04 fails for every accepted deltaturn > 0: row p is the given
    distribution itself, which lives deltaturn turns later, and the rows
    before it are computed as if the distribution lived at profile p. *)
Lemma C04_positive_deltaturn_rows_lem : forall T (add sub mul : T -> T -> T) sin zero F m np d p delta ph de ftn s,
  0 < d -> (0 <= p)%Z -> (0 < delta)%Z ->
  holds m F (d * (np - 1)) -> length ph = length de ->
  track add sub mul sin zero m np (Z.of_nat d) p delta ph de ftn = Ok s ->
  forall q, (Z.of_nat q <= p)%Z ->
    row_is (xp s) (yp s) q
      (map (travel add sub mul sin F (Z.to_nat p * d) (q * d)) (combine ph de)).
Proof.
  intros T add sub mul sin zero F m np d p delta ph de ftn s Hd Hp Hdl Hm Hl E q Hpq.
  pose proof E as E'. unfold track in E'. apply bind_ok in E'. destruct E' as [p' [Ec _]].
  destruct (track_ok add sub mul sin zero F m np d p delta p' ph de ftn Hd Hm Hl Ec)
    as (s1 & a1 & E1 & Ha1 & Hlt & Hp' & Sx & Sy & Hrows & _).
  apply track_checks_ok in Ec. destruct Ec as (_ & Hpp & Hab & _).
  destruct (Z.ltb_spec p 0); [lia|]. subst p'.
  rewrite E in E1. inversion E1; subst s1.
  specialize (Hrows q ltac:(lia)). unfold row_spec, pivot in Hrows.
  destruct (Nat.ltb_spec (Z.to_nat p) q); [lia|].
  destruct (Nat.ltb_spec a1 (Z.to_nat p * d)); [nia|].
  erewrite map_ext; [exact Hrows|]. intros u. rewrite travel_down; [reflexivity|]. nia.
Qed.

(** C04 refuted: one machine without voltage, where a particle of energy 1
    started half way between profiles 0 and 1 has phase 0 at turn 1 but is
    reported with phase 0 at turn 0 as well.  True of every sine routine. *)
Lemma C04_positive_deltaturn_refuted_lem : forall sin : Z -> Z,
  exists (m : machine Z) F np d p delta a s,
    holds m F (d * (np - 1)) /\ 0 < d /\ Z.of_nat a = (Z.of_nat p * Z.of_nat d + delta)%Z /\
    track Z.add Z.sub Z.mul sin 0%Z m np (Z.of_nat d) (Z.of_nat p) delta [0%Z] [1%Z] false = Ok s /\
    ~ row_is (xp s) (yp s) p (map (travel Z.add Z.sub Z.mul sin F a (p * d)) [(0, 1)%Z]).
Proof.
  intros sin.
  exists (Machine [0;0;0]%Z [0;0;0]%Z [0;0;0]%Z [0;0;0]%Z [1;1;1]%Z [0;0;0]%Z 1%Z).
  exists (Params (fun _ => 0%Z) (fun _ => 0%Z) (fun _ => 0%Z) (fun _ => 0%Z) (fun _ => 0%Z) (fun _ => 1%Z) 1%Z).
  exists 2, 2, 0, 1%Z, 1.
  eexists. split; [|split; [|split; [|split]]].
  - split; [reflexivity|]. intros t Ht. do 3 (destruct t as [|t]; [repeat split|]). exfalso; simpl in Ht; lia.
  - lia.
  - reflexivity.
  - vm_compute. reflexivity.
  - intros [H _]. vm_compute in H. discriminate.
Qed.

(*EX*)
Example C04_ex : tables (ex_track 1 (-1) [1;-1]%Z [2;0]%Z false) =
  tables (ex_track 1 0 [-3;-1]%Z [222;68]%Z false).
Proof. vm_compute. reflexivity. Qed.
(*XE*)

Lemma p12_get : forall T (m : machine T) p12, (forall v, In v (phi12 m) -> v = p12) ->
  forall t v, get (phi12 m) t = Ok v -> v = p12.
Proof.
  intros T m p12 H t v E. apply H. apply get_ok_inv in E. destruct E as (_ & E & _).
  eapply nth_error_In; eauto.
Qed.

(** C05.  The hybrid version returns the tables of the C++ routine, for
    deltaturn 0 in any arithmetic (floating point included). *)
Lemma C05_hybrid_eq_cpp_partial_lem : forall T (add sub mul : T -> T -> T) sin zero F m p12 np d p ph de x0 y0 ftn s,
  0 < d -> p < np -> holds m F (d * (np - 1)) -> (forall v, In v (phi12 m) -> v = p12) ->
  length ph = length de -> length x0 = np -> length y0 = np ->
  (forall r, In r x0 -> length r = length ph) -> (forall r, In r y0 -> length r = length ph) ->
  kick_and_drift add sub mul sin m x0 y0 de ph (Z.of_nat d) (Z.of_nat p) 0
      (Z.of_nat (d * (np - 1))) (length ph) ftn = Ok s ->
  hybrid_kick_and_drift add sub mul sin zero m p12 np de ph (Z.of_nat d) (Z.of_nat p) 0
      (Z.of_nat (d * (np - 1))) = Ok (xp s, yp s).
Proof.
  intros T add sub mul sin zero F m p12 np d p ph de x0 y0 ftn s Hd Hp Hm H12 Hl Lx Ly Hx Hy E.
  destruct (C01_routine_rows_lem T add sub mul sin F m np d p ph de ftn x0 y0 Hd Hp Hm Hl Lx Ly Hx Hy)
    as (s1 & E1 & X1 & Y1 & R1).
  rewrite E in E1. inversion E1; subst s1. clear E1.
  destruct (hybrid_ok add sub mul sin m p12 d np (length ph) (p12_get T m p12 H12) F Hd ltac:(lia) Hm
     zero (p * d) p (combine ph de) 0) as (xs & ys & E2 & X2 & Y2 & R2); auto; try lia.
  { rewrite combine_length. lia. }
  rewrite map_fst_combine, map_snd_combine in E2 by auto.
  rewrite E2. f_equal. f_equal; eapply row_eq_ext; eauto; intros i Hi;
    destruct (R1 i Hi) as [A B]; destruct (R2 i Hi) as [A' B']; congruence.
Qed.

(** C05 for -dturns < deltaturn <= 0, when subtraction undoes addition. *)
Lemma C05_hybrid_eq_cpp_deltaturn_partial_lem : forall T (add sub mul : T -> T -> T) sin zero F m p12 np d p delta a ph de ftn s,
  (forall a b, sub (add a b) b = a) -> (forall a b, add (sub a b) b = a) ->
  0 < d -> p < np -> (delta <= 0)%Z -> Z.of_nat a = (Z.of_nat p * Z.of_nat d + delta)%Z ->
  holds m F (d * (np - 1)) -> (forall v, In v (phi12 m) -> v = p12) ->
  length ph = length de ->
  track add sub mul sin zero m np (Z.of_nat d) (Z.of_nat p) delta ph de ftn = Ok s ->
  hybrid_kick_and_drift add sub mul sin zero m p12 np de ph (Z.of_nat d) (Z.of_nat p) delta
      (Z.of_nat (d * (np - 1))) = Ok (xp s, yp s).
Proof.
  intros T add sub mul sin zero F m p12 np d p delta a ph de ftn s L1 L2 Hd Hp Hdl Ha Hm H12 Hl E.
  destruct (C04_deltaturn_partial_lem T add sub mul sin zero F m np d (Z.of_nat p) delta a ph de ftn s
     L1 L2 Hd ltac:(lia) Hdl ltac:(lia) Hm Hl E) as (X1 & Y1 & R1).
  pose proof E as E'. unfold track in E'. apply bind_ok in E'. destruct E' as [p' [Ec _]].
  apply track_checks_ok in Ec. destruct Ec as (_ & _ & Hab & _).
  destruct (hybrid_ok add sub mul sin m p12 d np (length ph) (p12_get T m p12 H12) F Hd ltac:(lia) Hm
     zero a p (combine ph de) delta) as (xs & ys & E2 & X2 & Y2 & R2); auto; try lia.
  { rewrite combine_length. lia. }
  rewrite map_fst_combine, map_snd_combine in E2 by auto.
  rewrite E2. f_equal. f_equal; eapply row_eq_ext; eauto; intros i Hi;
    destruct (R1 i Hi) as [A B]; destruct (R2 i Hi) as [A' B']; congruence.
Qed.

(** C05 refuted for deltaturn > 0: both versions run and differ.  True of
    every sine routine. *)
Lemma C05_hybrid_positive_deltaturn_refuted_lem : forall sin : Z -> Z,
  exists (m : machine Z) np d p delta ph de s r,
    track Z.add Z.sub Z.mul sin 0%Z m np d p delta ph de false = Ok s /\
    hybrid_kick_and_drift Z.add Z.sub Z.mul sin 0%Z m 0%Z np de ph d p delta (d * (Z.of_nat np - 1)) = Ok r /\
    r <> (xp s, yp s).
Proof.
  intros sin.
  exists (Machine [0;0;0]%Z [0;0;0]%Z [0;0;0]%Z [0;0;0]%Z [1;1;1]%Z [0;0;0]%Z 1%Z), 2, 2%Z, 0%Z, 1%Z, [0%Z], [1%Z].
  do 2 eexists. split; [vm_compute; reflexivity|]. split; [vm_compute; reflexivity|].
  vm_compute. discriminate.
Qed.

(*EX*)
Example C05_ex :
  let m := Machine [1;2;3;4;5]%Z [1;0;2;0;1]%Z [0;1;0;1;0]%Z [1;1;2;2;3]%Z [1;2;1;2;1]%Z [7;7;7;7;7]%Z 2%Z in
  tables (track Z.add Z.sub Z.mul ex_sin 0%Z m 3 2 1 0 [1;-1]%Z [2;0]%Z false) =
  match hybrid_kick_and_drift Z.add Z.sub Z.mul ex_sin 0%Z m 7%Z 3 [2;0]%Z [1;-1]%Z 2 1 0 4 with
  | Ok r => Some r | Fail _ => None end.
Proof. vm_compute. reflexivity. Qed.
(*XE*)

(** C06.  Whatever the order in which the threads of the two launches run,
    the GPU arrays are the CPU tables, row after row.  The grid has
    (nparts/block+1)*block threads. *)
Lemma C06_gpu_eq_cpu_lem : forall T (add sub mul : T -> T -> T) sin F m np d p delta a ph de x0 y0 ftn block sched1 sched2 s,
  0 < d -> 0 < block -> p < np -> holds m F (d * (np - 1)) ->
  Z.of_nat a = (Z.of_nat p * Z.of_nat d + delta)%Z -> a <= d * (np - 1) ->
  (Z.abs delta < Z.of_nat d)%Z ->
  length ph = length de -> length x0 = np -> length y0 = np ->
  (forall r, In r x0 -> length r = length ph) -> (forall r, In r y0 -> length r = length ph) ->
  Permutation sched1 (seq 0 (grid_threads (length ph) block)) ->
  Permutation sched2 (seq 0 (grid_threads (length ph) block)) ->
  kick_and_drift add sub mul sin m x0 y0 de ph (Z.of_nat d) (Z.of_nat p) delta
      (Z.of_nat (d * (np - 1))) (length ph) ftn = Ok s ->
  gpu_kick_and_drift add sub mul sin m (concat x0) (concat y0) de ph (Z.of_nat d) (Z.of_nat p) delta
      (Z.of_nat (d * (np - 1))) (length ph) sched1 sched2 = Ok (concat (xp s), concat (yp s)).
Proof.
  intros T add sub mul sin F m np d p delta a ph de x0 y0 ftn block sched1 sched2 s
    Hd Hb Hp Hm Ha HaN Hdl Hl Lx Ly Hx Hy P1 P2 E.
  assert (Hc : length (combine ph de) = length ph) by (rewrite combine_length; lia).
  rewrite <- (map_snd_combine _ _ ph de Hl) in E at 1.
  rewrite <- (map_fst_combine _ _ ph de Hl) in E at 2.
  rewrite <- Hc in E.
  assert (HH := gpu_eq_cpu T add sub mul sin F m d np a p (combine ph de) delta x0 y0 ftn sched1 sched2 s).
  rewrite Hc, map_fst_combine, map_snd_combine in HH by auto.
  apply HH; auto.
  - split; auto. intros q r Hq. apply Hx. eapply nth_error_In; eauto.
  - split; auto. intros q r Hq. apply Hy. eapply nth_error_In; eauto.
  - eapply grid_covers; eauto.
  - eapply grid_covers; eauto.
  - rewrite Hc, map_fst_combine, map_snd_combine in E by auto. exact E.
Qed.

(*EX*)
Example C06_ex :
  gpu_kick_and_drift Z.add Z.sub Z.mul ex_sin ex_machine (repeat 0 6)%Z (repeat 0 6)%Z [2;0]%Z [1;-1]%Z 2 1 0 4 2
     (rev (seq 0 (grid_threads 2 4))) (seq 0 (grid_threads 2 4)) =
  Ok ([-10;-37194;1;-1;7;11], [-7;-37057;2;0;428;1074])%Z.
Proof. vm_compute. reflexivity. Qed.
(*XE*)

(** C07.  With phi12 an array, and all machine arrays of nturns+1 elements,
    the routine neither leaves an array nor fails in any other way. *)
Lemma C07_in_bounds_lem : forall T (add sub mul : T -> T -> T) sin m np d p delta ph de ftn x0 y0,
  0 < d -> p < np -> (Z.abs delta < Z.of_nat d)%Z ->
  (0 <= Z.of_nat p * Z.of_nat d + delta <= Z.of_nat (d * (np - 1)))%Z ->
  (forall l, In l [rf1v m; rf2v m; phi0 m; deltaE0 m; drift_coef m; phi12 m] ->
     length l = S (d * (np - 1))) ->
  length ph = length de -> length x0 = np -> length y0 = np ->
  (forall r, In r x0 -> length r = length ph) -> (forall r, In r y0 -> length r = length ph) ->
  exists s, kick_and_drift add sub mul sin m x0 y0 de ph (Z.of_nat d) (Z.of_nat p) delta
      (Z.of_nat (d * (np - 1))) (length ph) ftn = Ok s.
Proof.
  intros T add sub mul sin m np d p delta ph de ftn x0 y0 Hd Hp Hdl Hst Hlen Hl Lx Ly Hx Hy.
  assert (Hm : holds m (params_of m) (d * (np - 1))).
  { apply holds_params_of. repeat split; apply Hlen; simpl; auto 8. }
  destruct (kick_and_drift_ok add sub mul sin (params_of m) m d np (length ph) Hd ltac:(lia)
      (d * (np - 1)) eq_refl (d * (np - 1)) Hm (Z.to_nat (Z.of_nat p * Z.of_nat d + delta)) p (combine ph de) delta ftn x0 y0)
    as (s & E & _); auto; try lia; try nia.
  { rewrite combine_length. lia. }
  { split; auto. intros q r Hq. apply Hx. eapply nth_error_In; eauto. }
  { split; auto. intros q r Hq. apply Hy. eapply nth_error_In; eauto. }
  rewrite map_fst_combine, map_snd_combine in E by auto. eauto.
Qed.

(** C07 fails for phi12 given as one number: the expanded array is one short
    and the last turn reads behind it, for every machine, every size and
    every start profile but the last. *)
Lemma C07_scalar_phi12_refuted_lem : forall T (add sub mul : T -> T -> T) sin v1 v2 p0 dE co p12 h d np p ph de x0 y0 ftn,
  0 < d -> S p < np -> length ph = length de ->
  length x0 = np -> length y0 = np ->
  (forall r, In r x0 -> length r = length ph) -> (forall r, In r y0 -> length r = length ph) ->
  (forall l, In l [v1; v2; p0; dE; co] -> length l = S (d * (np - 1))) ->
  kick_and_drift add sub mul sin (scalar_machine v1 v2 p0 dE co p12 h (Z.of_nat (d * (np - 1))))
    x0 y0 de ph (Z.of_nat d) (Z.of_nat p) 0 (Z.of_nat (d * (np - 1))) (length ph) ftn
  = Fail OutOfBounds.
Proof.
  intros T add sub mul sin v1 v2 p0 dE co p12 h d np p ph de x0 y0 ftn Hd Hp Hl Lx Ly Hx Hy Hlen.
  apply scalar_out_of_bounds; auto; try lia; try solve [apply Hlen; simpl; auto 8].
  - split; auto. intros q r Hq. apply Hx. eapply nth_error_In; eauto.
  - split; auto. intros q r Hq. apply Hy. eapply nth_error_In; eauto.
Qed.

(** C07: the GPU version expands the number to nturns+1 elements, which is
    enough. *)
Lemma C07_scalar_phi12_gpu_lem : forall T (add sub mul : T -> T -> T) sin v1 v2 p0 dE co p12 h d np p ph de x0 y0 ftn,
  0 < d -> p < np -> length ph = length de ->
  length x0 = np -> length y0 = np ->
  (forall r, In r x0 -> length r = length ph) -> (forall r, In r y0 -> length r = length ph) ->
  (forall l, In l [v1; v2; p0; dE; co] -> length l = S (d * (np - 1))) ->
  exists s, kick_and_drift add sub mul sin (scalar_machine_gpu v1 v2 p0 dE co p12 h (Z.of_nat (d * (np - 1))))
    x0 y0 de ph (Z.of_nat d) (Z.of_nat p) 0 (Z.of_nat (d * (np - 1))) (length ph) ftn = Ok s.
Proof.
  intros T add sub mul sin v1 v2 p0 dE co p12 h d np p ph de x0 y0 ftn Hd Hp Hl Lx Ly Hx Hy Hlen.
  apply C07_in_bounds_lem; auto; try lia; try nia.
  intros l Hin. unfold scalar_machine_gpu in Hin; cbn [In rf1v rf2v phi0 deltaE0 drift_coef phi12] in Hin.
  destruct Hin as [<-|[<-|[<-|[<-|[<-|[<-|[]]]]]]]; try solve [apply Hlen; simpl; auto 8].
  rewrite repeat_length. generalize (d * (np - 1)). intros k. lia.
Qed.

(*EX*)
Example C07_ex : is_ok (kick_and_drift Z.add Z.sub Z.mul ex_sin ex_machine
   (repeat [0;0]%Z 3) (repeat [0;0]%Z 3) [2;0]%Z [1;-1]%Z 2 2 (-1) 4 2 false) = true.
Proof. vm_compute. reflexivity. Qed.
(*XE*)

(** C08.  With deltaturn 0 the callback gets (1,N), (2,N), ..., (N,N) where N
    is the number of turns. *)
Lemma C08_callback_partial_lem : forall T (add sub mul : T -> T -> T) sin zero F m np d r ph de ftn s,
  0 < d -> holds m F (d * (np - 1)) -> length ph = length de ->
  track add sub mul sin zero m np (Z.of_nat d) r 0 ph de ftn = Ok s ->
  calls s = map (fun i => (Z.of_nat i, Z.of_nat (d * (np - 1)))) (seq 1 (d * (np - 1))).
Proof.
  intros T add sub mul sin zero F m np d r ph de ftn s Hd Hm Hl E.
  pose proof E as E'. unfold track in E'. apply bind_ok in E'. destruct E' as [p' [Ec _]].
  destruct (track_ok add sub mul sin zero F m np d r 0 p' ph de ftn Hd Hm Hl Ec)
    as (s1 & a1 & E1 & Ha1 & Hlt & Hp' & Sx & Sy & _ & Hcalls & _).
  rewrite E in E1. inversion E1; subst s1. rewrite Hcalls.
  replace (d * (np - 1) - a1 + Z.to_nat p' * d) with (d * (np - 1)) by lia. reflexivity.
Qed.

(** C08 for every deltaturn: the calls are (1,N), (2,N), ..., (N-deltaturn,N):
    each turn once, in order; but the last call reports completion only for
    deltaturn 0 (see the refutation). *)
Lemma C08_callback_deltaturn_partial_lem : forall T (add sub mul : T -> T -> T) sin zero F m np d r delta ph de ftn s,
  0 < d -> holds m F (d * (np - 1)) -> length ph = length de ->
  track add sub mul sin zero m np (Z.of_nat d) r delta ph de ftn = Ok s ->
  calls s = map (fun i => (Z.of_nat i, Z.of_nat (d * (np - 1))))
                (seq 1 (Z.to_nat (Z.of_nat (d * (np - 1)) - delta))).
Proof.
  intros T add sub mul sin zero F m np d r delta ph de ftn s Hd Hm Hl E.
  pose proof E as E'. unfold track in E'. apply bind_ok in E'. destruct E' as [p' [Ec _]].
  destruct (track_ok add sub mul sin zero F m np d r delta p' ph de ftn Hd Hm Hl Ec)
    as (s1 & a1 & E1 & Ha1 & Hlt & Hp' & Sx & Sy & _ & Hcalls & _).
  rewrite E in E1. inversion E1; subst s1. rewrite Hcalls.
  replace (Z.to_nat (Z.of_nat (d * (np - 1)) - delta)) with (d * (np - 1) - a1 + Z.to_nat p' * d) by nia.
  reflexivity.
Qed.

(** C08 fails for every accepted deltaturn other than 0: the last call never
    is (N,N). *)
Lemma C08_callback_deltaturn_refuted_lem : forall T (add sub mul : T -> T -> T) sin zero F m np d r delta ph de ftn s x,
  0 < d -> holds m F (d * (np - 1)) -> length ph = length de -> delta <> 0%Z ->
  track add sub mul sin zero m np (Z.of_nat d) r delta ph de ftn = Ok s ->
  last (calls s) x <> (Z.of_nat (d * (np - 1)), Z.of_nat (d * (np - 1))).
Proof.
  intros T add sub mul sin zero F m np d r delta ph de ftn s x Hd Hm Hl Hne E.
  rewrite (C08_callback_deltaturn_partial_lem T add sub mul sin zero F m np d r delta ph de ftn s Hd Hm Hl E).
  unfold track in E. apply bind_ok in E. destruct E as [p' [Ec _]].
  apply track_checks_ok in Ec. destruct Ec as (Hr & Hpp & Hab & Hrng).
  assert (Hpos : (0 < Z.of_nat (d * (np - 1)) - delta)%Z).
  { assert (0 <= p')%Z by (destruct (Z.ltb_spec r 0); lia).
    assert (Z.of_nat (d * (np - 1)) = Z.of_nat d * (Z.of_nat np - 1))%Z by nia. nia. }
  set (k := Z.to_nat (Z.of_nat (d * (np - 1)) - delta)).
  assert (Hk : k = S (k - 1)) by lia. rewrite Hk, seq_S, map_app. simpl map at 2.
  rewrite last_last. intros H. inversion H. lia.
Qed.

(*EX*)
Example C08_ex : call_list (ex_track 1 0 [1]%Z [2]%Z false) = Some [(1,4);(2,4);(3,4);(4,4)]%Z /\
  call_list (ex_track 1 1 [1]%Z [2]%Z false) = Some [(1,4);(2,4);(3,4)]%Z.
Proof. vm_compute. split; reflexivity. Qed.
(*XE*)

Lemma nth_error_map_eq : forall A B (f : A -> B) l1 l2 i j,
  nth_error l1 i = nth_error l2 j -> nth_error (map f l1) i = nth_error (map f l2) j.
Proof. intros. rewrite !nth_error_map, H. reflexivity. Qed.

(** C09.  Two runs on the same machine: wherever the same initial coordinates
    occur, at whatever positions of whatever lists, the table columns agree. *)
Lemma C09_particles_independent_lem : forall T (add sub mul : T -> T -> T) sin zero F m np d r delta
    ph1 de1 ph2 de2 f1 f2 s1 s2,
  0 < d -> holds m F (d * (np - 1)) -> length ph1 = length de1 -> length ph2 = length de2 ->
  track add sub mul sin zero m np (Z.of_nat d) r delta ph1 de1 f1 = Ok s1 ->
  track add sub mul sin zero m np (Z.of_nat d) r delta ph2 de2 f2 = Ok s2 ->
  forall i j, nth_error ph1 i = nth_error ph2 j -> nth_error de1 i = nth_error de2 j ->
  forall q rx1 rx2 ry1 ry2,
    nth_error (xp s1) q = Some rx1 -> nth_error (xp s2) q = Some rx2 ->
    nth_error (yp s1) q = Some ry1 -> nth_error (yp s2) q = Some ry2 ->
    nth_error rx1 i = nth_error rx2 j /\ nth_error ry1 i = nth_error ry2 j.
Proof.
  intros T add sub mul sin zero F m np d r delta ph1 de1 ph2 de2 f1 f2 s1 s2 Hd Hm Hl1 Hl2 E1 E2
    i j Hph Hde q rx1 rx2 ry1 ry2 X1 X2 Y1 Y2.
  pose proof E1 as E'. unfold track in E'. apply bind_ok in E'. destruct E' as [p' [Ec _]].
  destruct (track_ok add sub mul sin zero F m np d r delta p' ph1 de1 f1 Hd Hm Hl1 Ec)
    as (t1 & a1 & F1 & Ha1 & _ & _ & Sx1 & _ & R1 & _).
  destruct (track_ok add sub mul sin zero F m np d r delta p' ph2 de2 f2 Hd Hm Hl2 Ec)
    as (t2 & a2 & F2 & Ha2 & _ & _ & _ & _ & R2 & _).
  rewrite E1 in F1. inversion F1; subst t1. rewrite E2 in F2. inversion F2; subst t2.
  assert (a1 = a2) by lia. subst a2.
  assert (Hq : q < np). { apply nth_error_lt in X1. destruct Sx1 as [L _]. lia. }
  destruct (R1 q Hq) as [A1 B1]. destruct (R2 q Hq) as [A2 B2].
  rewrite X1 in A1. rewrite X2 in A2. rewrite Y1 in B1. rewrite Y2 in B2.
  inversion A1; inversion A2; inversion B1; inversion B2.
  assert (Hc : nth_error (combine ph1 de1) i = nth_error (combine ph2 de2) j).
  { rewrite !nth_error_combine, Hph, Hde. reflexivity. }
  assert (Hr : nth_error (row_spec add sub mul sin F d a1 (Z.to_nat p') (combine ph1 de1) q) i =
               nth_error (row_spec add sub mul sin F d a1 (Z.to_nat p') (combine ph2 de2) q) j).
  { unfold row_spec, pivot. destruct (Z.to_nat p' <? q).
    - apply nth_error_map_eq; auto.
    - apply nth_error_map_eq. destruct (a1 <? Z.to_nat p' * d); auto. apply nth_error_map_eq; auto. }
  split; apply nth_error_map_eq; auto.
Qed.

(** C09, permutations: reordering the particles reorders the columns. *)
Lemma C09_permuted_lem : forall T (add sub mul : T -> T -> T) sin zero F m np d r delta
    (perm : list nat) ph1 de1 ph2 de2 f1 f2 s1,
  0 < d -> holds m F (d * (np - 1)) -> length ph1 = length de1 -> length ph2 = length de2 ->
  length perm = length ph2 ->
  (forall k i, nth_error perm k = Some i -> nth_error ph2 k = nth_error ph1 i /\ nth_error de2 k = nth_error de1 i) ->
  track add sub mul sin zero m np (Z.of_nat d) r delta ph1 de1 f1 = Ok s1 ->
  exists s2, track add sub mul sin zero m np (Z.of_nat d) r delta ph2 de2 f2 = Ok s2 /\
    forall q k i rx1 rx2 ry1 ry2, nth_error perm k = Some i ->
    nth_error (xp s1) q = Some rx1 -> nth_error (xp s2) q = Some rx2 ->
    nth_error (yp s1) q = Some ry1 -> nth_error (yp s2) q = Some ry2 ->
    nth_error rx2 k = nth_error rx1 i /\ nth_error ry2 k = nth_error ry1 i.
Proof.
  intros T add sub mul sin zero F m np d r delta perm ph1 de1 ph2 de2 f1 f2 s1 Hd Hm Hl1 Hl2 Hp Hperm E1.
  pose proof E1 as E'. unfold track in E'. apply bind_ok in E'. destruct E' as [p' [Ec _]].
  destruct (track_ok add sub mul sin zero F m np d r delta p' ph2 de2 f2 Hd Hm Hl2 Ec)
    as (t2 & a2 & F2 & _).
  exists t2. split; [auto|]. intros q k i rx1 rx2 ry1 ry2 Hk X1 X2 Y1 Y2.
  destruct (Hperm k i Hk) as [A B].
  eapply (C09_particles_independent_lem T add sub mul sin zero F m np d r delta ph2 de2 ph1 de1 f2 f1); eauto.
Qed.

(*EX*)
Example C09_ex : tables (ex_track 1 0 [-1;1;5]%Z [0;2;3]%Z false) =
  Some ([[-37194;-10;-144051];[-1;1;5];[11;7;-64]], [[-37057;-7;-143782];[0;2;3];[1074;428;36888]])%Z.
Proof. vm_compute. reflexivity. Qed.
(*XE*)

(** C44.  Index checking with wrap-around: accepts exactly [-limit, limit) and
    returns the equivalent non-negative index; anything else is IndexError. *)
Lemma C44_index_wrap_lem : forall i limit,
  ((- limit <= i < limit)%Z ->
     exists j, assert_index_ok i limit true = Ok j /\ (0 <= j < limit)%Z /\
               (j = i \/ j = i + limit)%Z) /\
  (~ (- limit <= i < limit)%Z -> assert_index_ok i limit true = Fail (Raised IndexError)).
Proof.
  intros i limit. rewrite assert_index_ok_wrap.
  destruct (Z.leb_spec (- limit) i), (Z.ltb_spec i limit); cbn [andb]; split; intros; try lia; auto.
  destruct (Z.ltb_spec i 0); eexists; repeat split; try reflexivity; try lia.
Qed.

(** C44 without wrap-around. *)
Lemma C44_index_nowrap_lem : forall i limit,
  ((0 <= i < limit)%Z -> assert_index_ok i limit false = Ok i) /\
  ((i < 0)%Z -> assert_index_ok i limit false = Fail (Raised NegativeIndexError)) /\
  ((0 <= i)%Z -> (limit <= i)%Z -> assert_index_ok i limit false = Fail (Raised IndexError)).
Proof.
  intros i limit. rewrite assert_index_ok_nowrap.
  destruct (Z.ltb_spec i 0), (Z.ltb_spec i limit); repeat split; intros; auto; try lia.
Qed.

(*EX*)
Example C44_ex : assert_index_ok (-2) 5 true = Ok 3%Z /\ assert_index_ok 4 5 true = Ok 4%Z /\
  assert_index_ok 5 5 true = Fail (Raised IndexError) /\ assert_index_ok (-6) 5 true = Fail (Raised IndexError).
Proof. repeat split. Qed.
(*XE*)
