(** The hybrid Python/C++ tracking (tracking.py 216-314). *)
From Coq Require Import List ZArith Bool Lia Arith ZifyBool ZifyNat.
From Verif Require Import Base.Res Base.ResLemmas Model.MTrack Spec.TrackSpec Proof.PTrack Proof.PTrack2.
Import ListNotations.

Section Hybrid.
Context {T : Type} (add sub mul : T -> T -> T) (sin : T -> T).

Definition hs (s : tstate T) : hstate :=
  HState (dphi s) (denergy s) (xp s) (yp s) (profile s) (turn s).

Lemma store_row_pyset : forall (tab tab' : list (list T)) np n p src,
  shaped tab np n -> length src = n ->
  store_row tab p src n = Ok tab' -> pyset tab p src = Ok tab'.
Proof.
  intros tab tab' np n p src Hs Hl E. unfold store_row in E.
  apply bind_ok in E. destruct E as [row [Eg E]].
  apply get_ok_inv in Eg. destruct Eg as (H0 & Hn & Hlt).
  rewrite (copy_loop_ok add sub mul sin src row n) in E; auto.
  2:{ destruct Hs as [_ Hr]. eapply Hr; eauto. }
  cbn [bind] in E. rewrite set_Z in E by lia. inversion E; subst tab'.
  unfold pyset. destruct (Z.ltb_spec p 0); [lia|].
  destruct (Z.leb_spec (Z.of_nat (length tab)) p); [lia|]. simpl.
  destruct (Z.ltb_spec p 0); [lia|]. reflexivity.
Qed.

Lemma on_profile_mod : forall t d b, (0 <= t)%Z -> (0 < d)%Z ->
  on_profile t d = Ok b -> (d =? 0)%Z = false /\ (Z.modulo t d =? 0)%Z = b.
Proof.
  intros t d b Ht Hd. unfold on_profile. destruct (Z.eqb_spec d 0); [lia|].
  intros H. inversion H. split; auto. rewrite Z.rem_mod_nonneg by lia. reflexivity.
Qed.

Lemma for_len : forall A (body : nat -> list A -> res (list A)) n i l l',
  (forall k x y, body k x = Ok y -> length y = length x) ->
  for_ i n body l = Ok l' -> length l' = length l.
Proof.
  induction n; simpl; intros i l l' Hb E.
  - inversion E; auto.
  - apply bind_ok in E. destruct E as [l1 [E1 E2]].
    rewrite (IHn _ _ _ Hb E2). eauto.
Qed.

Ltac blen := let EE := fresh "EE" in intros ? ? ? EE; repeat (apply bind_ok in EE; destruct EE as [? [_ EE]]);
  apply set_ok_inv in EE; destruct EE as [_ ->]; apply upd_length.

Variables (m : machine T) (p12 : T) (d np n : nat).
Hypothesis Hp12 : forall t v, get (phi12 m) t = Ok v -> v = p12.

Lemma h_up_step_sim : forall s s' rp tot ftn,
  0 < d -> (0 <= turn s)%Z -> length (dphi s) = n -> length (denergy s) = n ->
  shaped (xp s) np n -> shaped (yp s) np n ->
  up_step add sub mul sin m (Z.of_nat d) rp tot n ftn s = Ok s' ->
  h_up_step add sub mul sin m p12 (Z.of_nat d) (hs s) = Ok (hs s').
Proof.
  intros s s' rp tot ftn Hd Ht Hl1 Hl2 Sx Sy E. unfold up_step in E. unfold h_up_step.
  cbn [hs h_dphi h_denergy h_xp h_yp h_profile h_turn]. rewrite Hl2.
  apply bind_ok in E; destruct E as [co [E0 E]]; rewrite E0; cbn [bind].
  apply bind_ok in E; destruct E as [ph [E1 E]]; rewrite E1; cbn [bind].
  apply bind_ok in E; destruct E as [a1 [Ea1 E]]; rewrite Ea1; cbn [bind].
  apply bind_ok in E; destruct E as [a2 [Ea2 E]]; rewrite Ea2; cbn [bind].
  apply bind_ok in E; destruct E as [a3 [Ea3 E]]; rewrite Ea3; cbn [bind].
  apply bind_ok in E; destruct E as [a4 [Ea4 E]].
  apply bind_ok in E; destruct E as [a5 [Ea5 E]]; rewrite Ea5; cbn [bind].
  apply Hp12 in Ea4; subst a4.
  apply bind_ok in E; destruct E as [de [E2 E]]; rewrite E2; cbn [bind].
  apply bind_ok in E; destruct E as [hit [E3 E]].
  apply on_profile_mod in E3; try lia. destruct E3 as [-> ->].
  assert (Hph : length ph = n) by (rewrite <- Hl1; eapply for_len; [|exact E1]; blen).
  assert (Hde : length de = n) by (rewrite <- Hl2; eapply for_len; [|exact E2]; blen).
  destruct hit.
  - apply bind_ok in E; destruct E as [x' [Ex E]].
    apply bind_ok in E; destruct E as [y' [Ey E]].
    rewrite (store_row_pyset _ _ _ _ _ _ Sx Hph Ex). cbn [bind].
    rewrite (store_row_pyset _ _ _ _ _ _ Sy Hde Ey). cbn [bind].
    inversion E. reflexivity.
  - inversion E. reflexivity.
Qed.

Lemma h_down_step_sim : forall s s' rp tot ftn,
  0 < d -> (0 < turn s)%Z -> length (dphi s) = n -> length (denergy s) = n ->
  shaped (xp s) np n -> shaped (yp s) np n ->
  down_step add sub mul sin m (Z.of_nat d) rp tot n ftn s = Ok s' ->
  h_down_step add sub mul sin m p12 (Z.of_nat d) (hs s) = Ok (hs s').
Proof.
  intros s s' rp tot ftn Hd Ht Hl1 Hl2 Sx Sy E. unfold down_step in E. unfold h_down_step.
  cbn [hs h_dphi h_denergy h_xp h_yp h_profile h_turn]. rewrite Hl2.
  apply bind_ok in E; destruct E as [a1 [Ea1 E]]; rewrite Ea1; cbn [bind].
  apply bind_ok in E; destruct E as [a2 [Ea2 E]]; rewrite Ea2; cbn [bind].
  apply bind_ok in E; destruct E as [a3 [Ea3 E]]; rewrite Ea3; cbn [bind].
  apply bind_ok in E; destruct E as [a4 [Ea4 E]].
  apply bind_ok in E; destruct E as [a5 [Ea5 E]]; rewrite Ea5; cbn [bind].
  apply Hp12 in Ea4; subst a4.
  apply bind_ok in E; destruct E as [de [E2 E]]; rewrite E2; cbn [bind].
  apply bind_ok in E; destruct E as [co [E0 E]]; rewrite E0; cbn [bind].
  apply bind_ok in E; destruct E as [ph [E1 E]]; rewrite E1; cbn [bind].
  apply bind_ok in E; destruct E as [hit [E3 E]].
  apply on_profile_mod in E3; try lia. destruct E3 as [-> ->].
  assert (Hph : length ph = n) by (rewrite <- Hl1; eapply for_len; [|exact E1]; blen).
  assert (Hde : length de = n) by (rewrite <- Hl2; eapply for_len; [|exact E2]; blen).
  destruct hit.
  - apply bind_ok in E; destruct E as [x' [Ex E]].
    apply bind_ok in E; destruct E as [y' [Ey E]].
    rewrite (store_row_pyset _ _ _ _ _ _ Sx Hph Ex). cbn [bind].
    rewrite (store_row_pyset _ _ _ _ _ _ Sy Hde Ey). cbn [bind].
    inversion E. reflexivity.
  - inversion E. reflexivity.
Qed.

Variable F : params T.
Hypothesis Hd : 0 < d.
Hypothesis Hnp : 0 < np.
Let N := d * (np - 1).
Hypothesis Hm : holds m F N.

Lemma h_up_loop_inv : forall a p l x0 y0 k t s,
  length l = n ->
  t + k = N -> a <= t ->
  up_inv add sub mul sin F d np n N a p l false x0 y0 [] [] 0 t s ->
  exists s', h_up_loop add sub mul sin k m p12 (Z.of_nat d) (Z.of_nat N) (hs s) = Ok (hs s')
    /\ up_inv add sub mul sin F d np n N a p l false x0 y0 [] [] 0 N s'.
Proof.
  induction k; intros t s Hl E Ha Hinv; cbn [h_up_loop];
    assert (Ht : turn s = Z.of_nat t) by apply Hinv;
    cbn [hs h_turn]; rewrite Ht.
  - assert (t = N) by lia. subst t. rewrite Z.ltb_irrefl. exists s. split; [unfold hs; rewrite Ht; reflexivity|auto].
  - destruct (Z.ltb_spec (Z.of_nat t) (Z.of_nat N)); [|lia].
    destruct (up_step_inv add sub mul sin F m d np n Hd Hnp N eq_refl N Hm a p l false x0 y0
       [] [] 0 Hl t s ltac:(lia) ltac:(lia) Hinv) as [s1 [E1 H1]].
    assert (Hinv' := Hinv).
    destruct Hinv' as (Hph & Hde & Sx & Sy & _).
    rewrite (h_up_step_sim s s1 _ _ _ Hd ltac:(lia) ltac:(rewrite Hph, !map_length; auto)
       ltac:(rewrite Hde, !map_length; auto) Sx Sy E1).
    cbn [bind]. apply (IHk (S t) s1); auto; lia.
Qed.

Lemma h_down_loop_inv : forall p l x0 y0 b t s,
  length l = n -> p < np -> ceil_div b d = p -> b <= N ->
  t <= b ->
  down_inv add sub mul sin F d np n N p l false x0 y0 [] [] 0 b t s ->
  exists s', h_down_loop add sub mul sin t m p12 (Z.of_nat d) (hs s) = Ok (hs s')
    /\ down_inv add sub mul sin F d np n N p l false x0 y0 [] [] 0 b 0 s'.
Proof.
  induction t; intros s Hl Hp Hb HbN Ht Hinv; cbn [h_down_loop];
    assert (Htt : turn s = Z.of_nat _) by apply Hinv;
    cbn [hs h_turn]; rewrite Htt.
  - simpl. exists s. split; [unfold hs; rewrite Htt; reflexivity|auto].
  - destruct (Z.ltb_spec 0 (Z.of_nat (S t))); [|lia].
    destruct (down_step_inv add sub mul sin F m d np n Hd Hnp N eq_refl N Hm p l false x0 y0
       [] [] 0 Hl Hp b Hb t s ltac:(lia) ltac:(lia) Hinv) as [s1 [E1 H1]].
    assert (Hinv' := Hinv).
    destruct Hinv' as (Hph & Hde & Sx & Sy & _).
    rewrite (h_down_step_sim s s1 _ _ _ Hd ltac:(lia) ltac:(rewrite Hph, !map_length; auto)
       ltac:(rewrite Hde, !map_length; auto) Sx Sy E1).
    cbn [bind]. apply (IHt s1); auto; lia.
Qed.

(** For deltaturn <= 0 the hybrid routine computes every row by travelling
    directly from the start turn. *)
Theorem hybrid_ok : forall zero a p l delta,
  p < np -> (Z.of_nat p * Z.of_nat d + delta = Z.of_nat a)%Z ->
  (- Z.of_nat d < delta <= 0)%Z -> length l = n ->
  exists xs ys, hybrid_kick_and_drift add sub mul sin zero m p12 np (map snd l) (map fst l)
      (Z.of_nat d) (Z.of_nat p) delta (Z.of_nat N) = Ok (xs, ys) /\
    length xs = np /\ length ys = np /\
    forall q, q < np ->
      row_is xs ys q (map (travel add sub mul sin F a (q * d)) l).
Proof.
  intros zero a p l delta Hp Ha Hdelta Hl.
  assert (HpN : p * d <= N) by (unfold N; nia).
  unfold hybrid_kick_and_drift. rewrite map_length, Hl.
  set (z := repeat (repeat zero n) np).
  assert (Sz : shaped z np n) by apply shaped_repeat.
  set (x0 := if (delta =? 0)%Z then upd z p (map fst l) else z).
  set (y0 := if (delta =? 0)%Z then upd z p (map snd l) else z).
  assert (Sx : shaped x0 np n /\ shaped y0 np n).
  { unfold x0, y0. destruct (delta =? 0)%Z; auto.
    split; (eapply (store_row_ok add sub mul sin); eauto; rewrite map_length; auto). }
  destruct Sx as [Sx Sy].
  assert (Hzl : length z = np) by apply Sz.
  assert (Einit : (if (delta =? 0)%Z
                then a <- pyset z (Z.of_nat p) (map fst l) ;;
                     b <- pyset z (Z.of_nat p) (map snd l) ;; Ok (a, b)
                else Ok (z, z)) = Ok (x0, y0)).
  { unfold x0, y0. destruct (delta =? 0)%Z; auto.
    unfold pyset. rewrite Hzl.
    destruct (Z.ltb_spec (Z.of_nat p) 0); [lia|].
    destruct (Z.ltb_spec (Z.of_nat p) 0); [lia|].
    destruct (Z.leb_spec (Z.of_nat np) (Z.of_nat p)); [lia|].
    simpl. rewrite Nat2Z.id. reflexivity. }
  rewrite Einit. cbn [bind]. rewrite Ha.
  assert (Hstart : (if (delta <? 0)%Z then (Z.of_nat p - 1)%Z else Z.of_nat p) = Z.of_nat (a / d)).
  { destruct (Z.ltb_spec delta 0).
    - assert (0 < p) by nia.
      rewrite (div_unique a d (p - 1)); [lia|auto|].
      assert (Z.of_nat ((p - 1) * d) = Z.of_nat p * Z.of_nat d - Z.of_nat d)%Z by nia. lia.
    - rewrite (div_unique a d p); auto.
      assert (Z.of_nat (p * d) = Z.of_nat p * Z.of_nat d)%Z by nia. lia. }
  rewrite Hstart.
  assert (Hapd : a <= p * d) by nia.
  replace (Z.to_nat (Z.of_nat N - Z.of_nat a)) with (N - a) by lia.
  set (s0 := TState (map fst l) (map snd l) x0 y0 (Z.of_nat (a/d)) (Z.of_nat a) 0 [] []).
  destruct (h_up_loop_inv a p l x0 y0 (N - a) a s0 Hl ltac:(lia) ltac:(lia)) as [s1 [E1 H1]].
  { unfold up_inv, s0; cbn [dphi denergy xp yp profile turn progress calls prints].
    replace (a - a) with 0 by lia. replace (a/d - a/d) with 0 by lia.
    assert (Hid : map (ups add sub mul sin F 0 a) l = l) by apply map_id.
    rewrite Hid. unfold up_calls, up_prints. simpl.
    repeat split; auto; try apply Sx; try apply Sy; try lia;
    intros q; destruct (Nat.ltb_spec (a/d) q), (Nat.leb_spec q (a/d)); simpl; auto; lia. }
  change (HState (map fst l) (map snd l) x0 y0 (Z.of_nat (a / d)) (Z.of_nat a)) with (hs s0).
  rewrite E1. cbn [bind].
  assert (HND : N / d = np - 1).
  { unfold N. rewrite Nat.mul_comm. apply Nat.div_mul. lia. }
  destruct H1 as (Hph & Hde & Hsx & Hsy & Hx & Hy & _).
  rewrite HND in *.
  assert (Hc : ceil_div a d = p).
  { apply ceil_div_unique; auto. nia. }
  set (s2 := TState (map fst l) (map snd l) (xp s1) (yp s1) (Z.of_nat p) (Z.of_nat a) 0 [] []).
  destruct (h_down_loop_inv p l (xp s1) (yp s1) a a s2 Hl Hp Hc ltac:(lia) ltac:(lia)) as [s3 [E3 H3]].
  { unfold down_inv, s2; cbn [dphi denergy xp yp profile turn progress calls prints].
    rewrite Hc. replace (a - a) with 0 by lia. replace (p - p) with 0 by lia.
    assert (Hid : map (downs add sub mul sin F 0 a) l = l) by apply map_id.
    rewrite Hid. unfold down_calls, down_prints. simpl.
    repeat split; auto; try apply Hsx; try apply Hsy;
      intros q; destruct (Nat.leb_spec p q), (Nat.ltb_spec q p); simpl; auto; lia. }
  change (HState (map fst l) (map snd l) (h_xp (hs s1)) (h_yp (hs s1)) (Z.of_nat p) (Z.of_nat a))
    with (hs s2).
  rewrite Nat2Z.id. rewrite E3. cbn [bind].
  destruct H3 as (_ & _ & Hsx3 & Hsy3 & Hx3 & Hy3 & _).
  exists (xp s3), (yp s3). split; [reflexivity|].
  split; [apply Hsx3|]. split; [apply Hsy3|].
  assert (Hc0 : ceil_div 0 d = 0) by (apply ceil_div_unique; auto; lia).
  rewrite Hc0 in *.
  intros q Hq. unfold row_is. rewrite Hx3, Hy3, Hx, Hy.
  simpl (0 <=? q). simpl (true && _).
  destruct (Nat.ltb_spec q p) as [Hqp|Hqp].
  - assert (HE : map (travel add sub mul sin F a (q * d)) l = map (downs add sub mul sin F (a - q * d) (q * d)) l).
    { apply map_ext. intros u. apply travel_down.
      pose proof (ceil_div_spec a d Hd). rewrite Hc in *. nia. }
    rewrite HE. auto.
  - assert (HE : map (travel add sub mul sin F a (q * d)) l = map (ups add sub mul sin F (q * d - a) a) l).
    { apply map_ext. intros u. apply travel_up. nia. }
    rewrite HE.
    destruct (Nat.ltb_spec (a / d) q) as [Haq|Haq].
    + destruct (Nat.leb_spec q (np - 1)); [|lia]. auto.
    + simpl (_ && _). assert (q = p /\ delta = 0%Z).
      { destruct (Z.ltb_spec delta 0); lia. }
      destruct H as [-> ->]. assert (a = p * d) by lia.
      unfold x0, y0. simpl (0 =? 0)%Z. cbv iota.
      rewrite !nth_error_upd by lia. rewrite Nat.eqb_refl.
      replace (p * d - a) with 0 by lia.
      assert (Hid : map (ups add sub mul sin F 0 a) l = l) by apply map_id.
      rewrite Hid. auto.
Qed.
End Hybrid.
