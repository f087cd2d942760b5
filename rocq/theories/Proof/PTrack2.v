(** Consequences of [kick_and_drift_ok]: tables, reversibility, checks of
    [track], the scalar phi12 entry point. *)
From Coq Require Import List ZArith Bool Lia Arith ZifyBool ZifyNat Permutation.
From Verif Require Import Base.Res Base.ResLemmas Model.MTrack Spec.TrackSpec Proof.PTrack.
Import ListNotations.

Section Travel.
Context {T : Type} (add sub mul : T -> T -> T) (sin : T -> T) (F : params T).
Notation forward := (forward add sub mul sin F).
Notation backward := (backward add sub mul sin F).
Notation ups := (ups add sub mul sin F).
Notation downs := (downs add sub mul sin F).
Notation travel := (travel add sub mul sin F).

Lemma travel_up : forall a b s, a <= b -> travel a b s = ups (b - a) a s.
Proof. intros. unfold TrackSpec.travel. destruct (Nat.leb_spec a b); auto; lia. Qed.

Lemma travel_down : forall a b s, b <= a -> travel a b s = downs (a - b) b s.
Proof.
  intros. unfold TrackSpec.travel. destruct (Nat.leb_spec a b); auto.
  assert (a = b) by lia. subst. replace (b - b) with 0 by lia. reflexivity.
Qed.

Lemma travel_refl : forall a s, travel a a s = s.
Proof. intros. rewrite travel_up by lia. replace (a - a) with 0 by lia. reflexivity. Qed.

Hypothesis sub_add : forall a b, sub (add a b) b = a.
Hypothesis add_sub : forall a b, add (sub a b) b = a.

Lemma back_forward : forall t s, backward t (forward t s) = s.
Proof.
  intros t [x e]. unfold TrackSpec.backward, TrackSpec.forward. cbn [fst snd].
  rewrite sub_add, add_sub. reflexivity.
Qed.

Lemma forward_back : forall t s, forward t (backward t s) = s.
Proof.
  intros t [x e]. unfold TrackSpec.backward, TrackSpec.forward. cbn [fst snd].
  rewrite sub_add, add_sub. reflexivity.
Qed.

Lemma downs_ups : forall n t s, downs n t (ups n t s) = s.
Proof.
  induction n; intros; auto.
  change (downs (S n) t (ups (S n) t s)) with (backward t (downs n (S t) (ups n (S t) (forward t s)))).
  rewrite IHn. apply back_forward.
Qed.

Lemma ups_downs : forall n t s, ups n t (downs n t s) = s.
Proof.
  induction n; intros; auto.
  change (ups (S n) t (downs (S n) t s)) with (ups n (S t) (forward t (backward t (downs n (S t) s)))).
  rewrite forward_back. apply IHn.
Qed.

Lemma travel_trans : forall a b c s, travel b c (travel a b s) = travel a c s.
Proof.
  intros a b c s.
  destruct (Nat.le_ge_cases a b) as [Hab|Hab]; destruct (Nat.le_ge_cases b c) as [Hbc|Hbc].
  - rewrite !travel_up by lia. replace (c - a) with ((b - a) + (c - b)) by lia.
    rewrite ups_add. replace (a + (b - a)) with b by lia. reflexivity.
  - rewrite (travel_up a b), (travel_down b c) by lia.
    destruct (Nat.le_ge_cases a c) as [Hac|Hac].
    + rewrite (travel_up a c) by lia.
      replace (b - a) with ((c - a) + (b - c)) by lia.
      rewrite ups_add. replace (a + (c - a)) with c by lia. apply downs_ups.
    + rewrite (travel_down a c) by lia.
      replace (b - c) with ((a - c) + (b - a)) by lia.
      rewrite downs_add. replace (c + (a - c)) with a by lia. rewrite downs_ups. reflexivity.
  - rewrite (travel_down a b), (travel_up b c) by lia.
    destruct (Nat.le_ge_cases a c) as [Hac|Hac].
    + rewrite (travel_up a c) by lia.
      replace (c - b) with ((a - b) + (c - a)) by lia.
      rewrite ups_add. replace (b + (a - b)) with a by lia. rewrite ups_downs. reflexivity.
    + rewrite (travel_down a c) by lia.
      replace (a - b) with ((c - b) + (a - c)) by lia.
      rewrite downs_add. replace (b + (c - b)) with c by lia. apply ups_downs.
  - rewrite !travel_down by lia. replace (a - c) with ((b - c) + (a - b)) by lia.
    rewrite downs_add. replace (c + (b - c)) with b by lia. reflexivity.
Qed.

(** In exact arithmetic the row specification is [travel] when deltaturn <= 0. *)
Lemma row_spec_travel : forall d a p l q,
  0 < d -> a <= p * d ->
  row_spec add sub mul sin F d a p l q = map (travel a (q * d)) l.
Proof.
  intros d a p l q Hd Ha. unfold row_spec.
  destruct (Nat.ltb_spec p q).
  - apply map_ext. intros s. rewrite travel_up by nia. reflexivity.
  - assert (Hp : pivot add sub mul sin F d a p l = map (travel a (p * d)) l).
    { unfold pivot. destruct (Nat.ltb_spec a (p * d)).
      - apply map_ext. intros s. rewrite travel_up by lia. reflexivity.
      - assert (a = p * d) by lia. subst a. rewrite <- (map_id l) at 1.
        apply map_ext. intros; rewrite travel_refl; auto. }
    rewrite Hp, map_map. apply map_ext. intros s.
    rewrite <- travel_down by nia. apply travel_trans.
Qed.
End Travel.

Lemma row_spec_zero : forall T (add sub mul : T -> T -> T) sin F d p l q,
  0 < d ->
  row_spec add sub mul sin F d (p * d) p l q
  = map (travel add sub mul sin F (p * d) (q * d)) l.
Proof.
  intros. unfold row_spec, pivot. rewrite Nat.ltb_irrefl.
  destruct (Nat.ltb_spec p q); apply map_ext; intros.
  - rewrite travel_up by nia. reflexivity.
  - rewrite travel_down by nia. reflexivity.
Qed.

(** Parameters read from arrays of equal length. *)
Definition arrays_ok {T} (m : machine T) (n : nat) : Prop :=
  length (rf1v m) = n /\ length (rf2v m) = n /\ length (phi0 m) = n /\
  length (deltaE0 m) = n /\ length (drift_coef m) = n /\ length (phi12 m) = n.

Definition params_of {T} (m : machine T) : params T :=
  let g (l : list T) := fun t => nth t l (hratio m) in
  Params (g (rf1v m)) (g (rf2v m)) (g (phi0 m)) (g (phi12 m)) (g (deltaE0 m))
         (g (drift_coef m)) (hratio m).

Lemma nth_error_nth_lt : forall A (l : list A) n d, n < length l -> nth_error l n = Some (nth n l d).
Proof.
  intros. symmetry. destruct (nth_error_ex _ l n H) as [a Ha].
  rewrite Ha. f_equal. apply nth_error_nth; auto.
Qed.

Lemma holds_params_of : forall T (m : machine T) n, arrays_ok m (S n) -> holds m (params_of m) n.
Proof.
  intros T m n (A&B&C&D&E&G). split; [reflexivity|].
  intros t Ht. cbn. repeat split; apply nth_error_nth_lt; lia.
Qed.

Lemma shaped_repeat : forall T (z : T) np n, shaped (repeat (repeat z n) np) np n.
Proof.
  intros. split; [apply repeat_length|].
  intros q r H. apply nth_error_In, repeat_spec in H. subst. apply repeat_length.
Qed.

(** ** [assert_index_ok] *)
Lemma assert_index_ok_wrap : forall i limit,
  assert_index_ok i limit true =
    if ((- limit <=? i) && (i <? limit))%Z then Ok (if i <? 0 then i + limit else i)%Z
    else Fail (Raised IndexError).
Proof.
  intros. unfold assert_index_ok.
  destruct (Z.ltb_spec i 0), (Z.ltb_spec (limit + i) 0), (Z.leb_spec limit i),
    (Z.leb_spec (-limit) i), (Z.ltb_spec i limit); cbn [negb andb]; try lia; try reflexivity.
  f_equal. lia.
Qed.

Lemma assert_index_ok_nowrap : forall i limit,
  assert_index_ok i limit false =
    if (i <? 0)%Z then Fail (Raised NegativeIndexError)
    else if (i <? limit)%Z then Ok i else Fail (Raised IndexError).
Proof.
  intros. unfold assert_index_ok.
  destruct (Z.ltb_spec i 0), (Z.leb_spec limit i), (Z.ltb_spec i limit); simpl; try lia; reflexivity.
Qed.

(** The checks of [track], as one condition. *)
Lemma track_checks_ok : forall np d r delta p,
  track_checks np d r delta = Ok p <->
  ((- np <= r < np) /\ p = (if r <? 0 then r + np else r) /\
   Z.abs delta < d /\ 0 <= d * p + delta < d * (np - 1))%Z.
Proof.
  intros. unfold track_checks. rewrite assert_index_ok_wrap.
  destruct (Z.leb_spec (-np) r), (Z.ltb_spec r np); cbn [andb bind];
    try (split; [discriminate|intros; lia]).
  set (p' := (if r <? 0 then r + np else r)%Z).
  destruct (Z.ltb_spec (Z.abs delta) d); cbn [negb]; try (split; [discriminate|intros; lia]).
  destruct (Z.ltb_spec (d * p' + delta) (d * (np - 1))); cbn [negb].
  2:{ split; [discriminate|]. intros (_ & -> & _ & Hx). lia. }
  destruct (Z.leb_spec 0 (d * p' + delta)); cbn [negb].
  - split; intros H4; [inversion H4; subst p; repeat split; auto; lia|]. destruct H4 as (_ & -> & _). reflexivity.
  - split; [discriminate|]. intros (_ & -> & _ & Hx). lia.
Qed.

Section TrackTheorems.
Context {T : Type} (add sub mul : T -> T -> T) (sin : T -> T) (zero : T).

(** Everything [track] does when its checks pass. *)
Theorem track_ok : forall F m np d r delta p ph de ftn,
  0 < d -> holds m F (d * (np - 1)) -> length ph = length de ->
  track_checks (Z.of_nat np) (Z.of_nat d) r delta = Ok p ->
  exists s a,
    track add sub mul sin zero m np (Z.of_nat d) r delta ph de ftn = Ok s /\
    Z.of_nat a = (p * Z.of_nat d + delta)%Z /\ a < d * (np - 1) /\
    (0 <= p < Z.of_nat np)%Z /\
    shaped (xp s) np (length ph) /\ shaped (yp s) np (length ph) /\
    (forall q, q < np -> row_is (xp s) (yp s) q
        (row_spec add sub mul sin F d a (Z.to_nat p) (combine ph de) q)) /\
    calls s = map (fun i => (Z.of_nat i, Z.of_nat (d * (np - 1))))
                  (seq 1 (d * (np - 1) - a + Z.to_nat p * d)) /\
    prints s = (if ftn then
        map (fun q => (p + 1, Z.of_nat q + 1)%Z) (seq (S (a / d)) (np - 1 - a / d)) ++
        map (fun i => (p + 1, p - Z.of_nat i + 1)%Z) (seq 1 (Z.to_nat p))
      else []).
Proof.
  intros F m np d r delta p ph de ftn Hd Hm Hlen Hc.
  unfold track. rewrite Hc. cbn [bind].
  apply track_checks_ok in Hc. destruct Hc as (Hr & Hp & Hdl & Hturn).
  assert (Hp0 : (0 <= p < Z.of_nat np)%Z) by (subst p; destruct (Z.ltb_spec r 0); lia).
  set (a := Z.to_nat (p * Z.of_nat d + delta)).
  assert (Ha : Z.of_nat a = (p * Z.of_nat d + delta)%Z) by (unfold a; lia).
  assert (HN : (Z.of_nat d * (Z.of_nat np - 1))%Z = Z.of_nat (d * (np - 1))) by nia.
  destruct (kick_and_drift_ok add sub mul sin F m d np (length ph) Hd ltac:(lia)
      (d * (np - 1)) eq_refl (d * (np - 1)) Hm a (Z.to_nat p) (combine ph de) delta ftn
      (repeat (repeat zero (length ph)) np) (repeat (repeat zero (length ph)) np))
    as (s & E & Sx & Sy & Hrows & Hcalls & Hprints); auto; try lia; try apply shaped_repeat.
  { rewrite combine_length. lia. }
  rewrite map_fst_combine, map_snd_combine in E by auto.
  rewrite HN. rewrite (Z2Nat.id p) in E by lia. rewrite E.
  exists s, a. split; [reflexivity|]. split; [auto|]. split; [nia|]. split; [auto|].
  split; [auto|]. split; [auto|]. split; [auto|]. split; [auto|].
  rewrite Hprints. replace (Z.of_nat (Z.to_nat p)) with p by lia. reflexivity.
Qed.

End TrackTheorems.

(** ** The scalar phi12 entry point reads one element too many. *)
Section Scalar.
Context {T : Type} (add sub mul : T -> T -> T) (sin : T -> T).

Lemma up_loop_fails : forall F m d np n a p l ftn x0 y0 c0 pr0 pg0,
  0 < d -> 0 < np ->
  holds m F (d * (np - 1) - 1) ->
  length l = n ->
  get (phi12 m) (Z.of_nat (d * (np - 1))) = Fail OutOfBounds ->
  (exists c1 c2 c3, get (rf1v m) (Z.of_nat (d * (np - 1))) = Ok c1 /\
     get (rf2v m) (Z.of_nat (d * (np - 1))) = Ok c2 /\
     get (phi0 m) (Z.of_nat (d * (np - 1))) = Ok c3) ->
  forall k t s, t + k = d * (np - 1) -> 0 < k -> a <= t ->
  up_inv add sub mul sin F d np n (d * (np - 1)) a p l ftn x0 y0 c0 pr0 pg0 t s ->
  up_loop add sub mul sin k m (Z.of_nat d) (Z.of_nat p) (Z.of_nat (d * (np - 1))) n ftn s
  = Fail OutOfBounds.
Proof.
  intros F m d np n a p l ftn x0 y0 c0 pr0 pg0 Hd Hnp Hm Hl Hbad (c1 & c2 & c3 & G1 & G2 & G3).
  set (N := d * (np - 1)) in *.
  induction k as [|k IH]; intros t s Hk Hpos Ha Hinv; [lia|].
  cbn [up_loop].
  assert (Ht : turn s = Z.of_nat t) by apply Hinv. rewrite Ht.
  destruct (Z.ltb_spec (Z.of_nat t) (Z.of_nat N)); [|lia].
  destruct k.
  - assert (S t = N) by lia.
    destruct Hm as [Hh Hm]. destruct (Hm t ltac:(lia)) as (_&_&_&_&_&Gc).
    destruct Hinv as (Hph & Hde & _).
    unfold up_step. rewrite Ht. rewrite (get_nat _ _ _ _ Gc). cbn [bind].
    rewrite Hph, Hde. rewrite drift_up_ok by (rewrite ?map_length; auto). cbn [bind].
    replace (Z.of_nat t + 1)%Z with (Z.of_nat N) by lia.
    rewrite G1, G2, G3. cbn [bind]. rewrite Hbad. reflexivity.
  - destruct (up_step_inv add sub mul sin F m d np n Hd Hnp N ltac:(reflexivity) (N - 1) Hm a p l ftn
      x0 y0 c0 pr0 pg0 Hl t s ltac:(lia) ltac:(lia) Hinv) as [s1 [E1 H1]].
    rewrite E1. cbn [bind]. apply (IH (S t) s1); auto; lia.
Qed.

(** With phi12 expanded to [nturns] elements the routine always runs out of
    the array, from every start profile. *)
Theorem scalar_out_of_bounds : forall v1 v2 p0 dE co p12 h d np p ph de x0 y0 ftn,
  0 < d -> p + 1 < np -> length ph = length de ->
  shaped x0 np (length ph) -> shaped y0 np (length ph) ->
  let N := d * (np - 1) in
  length v1 = S N -> length v2 = S N -> length p0 = S N -> length dE = S N -> length co = S N ->
  kick_and_drift add sub mul sin (scalar_machine v1 v2 p0 dE co p12 h (Z.of_nat N))
    x0 y0 de ph (Z.of_nat d) (Z.of_nat p) 0 (Z.of_nat N) (length ph) ftn
  = Fail OutOfBounds.
Proof.
  intros v1 v2 p0 dE co p12 h d np p ph de x0 y0 ftn Hd Hp Hlen Hx Hy N L1 L2 L3 L4 L5.
  set (m := scalar_machine v1 v2 p0 dE co p12 h (Z.of_nat N)).
  assert (HN0 : 0 < N) by (unfold N; nia).
  assert (Hm : holds m (params_of m) (N - 1)).
  { split; [reflexivity|]. intros t Ht. cbn.
    repeat split; apply nth_error_nth_lt; try lia. rewrite repeat_length. lia. }
  unfold kick_and_drift. rewrite Z.ltb_irrefl. rewrite Z.add_0_r.
  destruct (store_row_ok add sub mul sin x0 np (length ph) p ph Hx ltac:(lia) eq_refl) as [Ex Sx].
  destruct (store_row_ok add sub mul sin y0 np (length ph) p de Hy ltac:(lia) ltac:(lia)) as [Ey Sy].
  rewrite Ex. cbn [bind]. rewrite Ey. cbn [bind].
  replace (Z.of_nat p * Z.of_nat d)%Z with (Z.of_nat (p * d)) by lia.
  assert (Hlt : p * d < N) by (unfold N; nia).
  replace (Z.to_nat (Z.of_nat N - Z.of_nat (p * d))) with (N - p * d) by lia.
  assert (Hbad : get (phi12 m) (Z.of_nat N) = Fail OutOfBounds).
  { unfold m, scalar_machine, get. cbn [phi12].
    destruct (Z.ltb_spec (Z.of_nat N) 0); [lia|].
    rewrite !Nat2Z.id. rewrite (proj2 (nth_error_None _ _)); [reflexivity|].
    rewrite repeat_length. lia. }
  assert (Hgood : exists c1 c2 c3, get (rf1v m) (Z.of_nat N) = Ok c1 /\
     get (rf2v m) (Z.of_nat N) = Ok c2 /\ get (phi0 m) (Z.of_nat N) = Ok c3).
  { cbn. do 3 eexists. repeat split; apply get_nat; apply (nth_error_nth_lt _ _ _ p12); lia. }
  rewrite (up_loop_fails (params_of m) m d np (length ph) (p * d) p (combine ph de) ftn
     (upd x0 p ph) (upd y0 p de) [] [] 0 Hd ltac:(lia) Hm ltac:(rewrite combine_length; lia) Hbad Hgood
     (N - p * d) (p * d)); auto; try (fold N; lia).
  - unfold up_inv; cbn [dphi denergy xp yp profile turn progress calls prints].
    replace (p * d - p * d) with 0 by lia.
    assert (Hdd : p * d / d = p) by (apply Nat.div_mul; lia). rewrite Hdd.
    replace (p - p) with 0 by lia.
    assert (Hid : map (ups add sub mul sin (params_of m) 0 (p * d)) (combine ph de) = combine ph de)
      by apply map_id.
    rewrite Hid, map_fst_combine, map_snd_combine by auto.
    unfold up_calls, up_prints. simpl.
    repeat split; auto; try apply Sx; try apply Sy; try (destruct ftn; reflexivity);
    intros q; destruct (Nat.ltb_spec p q), (Nat.leb_spec q p); simpl; auto; lia.
Qed.
End Scalar.
