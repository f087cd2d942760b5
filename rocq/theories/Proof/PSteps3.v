(** The turn by turn routine on the arrays of the caller. *)
From Coq Require Import List ZArith Bool Lia.
From Verif Require Import Base.Res Base.ResLemmas Model.MTrack Model.MBind Model.MSteps
  Spec.BindSpec Spec.StepsSpec Spec.TrackSpec Proof.PTrack Proof.PTrackHybrid Proof.PBind Proof.PSteps Proof.PSteps2.
Import ListNotations.
Local Open Scope Z_scope.

Section Coords.
Context {T : Type} (add sub mul : T -> T -> T) (sin : T -> T) (F : params T) (m : machine T) (p12 : T) (N : nat).
Hypothesis Hm : holds m F N.
Hypothesis Hp : forall t, (t <= N)%nat -> ph12 F t = p12.

Lemma up_coords dturns fuel : forall s s' (L : list (T * T)) t, h_dphi s = map fst L -> h_denergy s = map snd L ->
  h_turn s = Z.of_nat t -> (t <= N)%nat -> h_up_loop add sub mul sin fuel m p12 dturns (Z.of_nat N) s = Ok s' ->
  h_dphi s' = map fst (map (ups add sub mul sin F (N - t) t) L) /\ h_denergy s' = map snd (map (ups add sub mul sin F (N - t) t) L).
Proof.
  induction fuel as [|fuel IH]; intros s s' L t A B C D H; cbn [h_up_loop] in H; rewrite C in H;
    destruct (Z.ltb_spec (Z.of_nat t) (Z.of_nat N)) as [E|E]; try discriminate.
  1,3: injection H as <-; replace (N - t)%nat with 0%nat by lia;
    assert (I : map (ups add sub mul sin F 0 t) L = L) by apply map_id; rewrite I; auto.
  apply bind_ok in H. destruct H as [s1 [E1 H]]. unfold h_up_step in E1. rewrite A, B, C in E1.
  destruct Hm as [Hr Ht]. destruct (Ht t ltac:(lia)) as (_ & _ & _ & _ & _ & G6). destruct (Ht (S t) ltac:(lia)) as (G1 & G2 & G3 & G4 & G5 & _).
  rewrite (get_nat _ _ _ _ G6) in E1. cbn [bind] in E1. rewrite map_length in E1. rewrite (drift_up_ok add sub mul sin L _ _ eq_refl) in E1. cbn [bind] in E1. cbv zeta in E1.
  replace (Z.of_nat t + 1) with (Z.of_nat (S t)) in E1 by lia.
  rewrite (get_nat _ _ _ _ G1), (get_nat _ _ _ _ G2), (get_nat _ _ _ _ G3), (get_nat _ _ _ _ G5) in E1. cbn [bind] in E1.
  rewrite (kick_up_ok add sub mul sin L (fun s => sub (fst s) (mul (coef F t) (snd s)))) in E1 by reflexivity. cbn [bind] in E1.
  assert (K : h_dphi s1 = map fst (map (forward add sub mul sin F t) L) /\ h_denergy s1 = map snd (map (forward add sub mul sin F t) L) /\ h_turn s1 = Z.of_nat (S t)).
  { assert (K1 : map (fun s => sub (fst s) (mul (coef F t) (snd s))) L = map fst (map (forward add sub mul sin F t) L)) by (rewrite map_map; reflexivity).
    assert (K2 : map (fun s => add (snd s) (kick_term add sub mul sin (v1 F (S t)) (v2 F (S t)) (ph0 F (S t)) p12 (hratio m) (dE F (S t)) (sub (fst s) (mul (coef F t) (snd s))))) L = map snd (map (forward add sub mul sin F t) L)).
    { rewrite map_map. apply map_ext. intros [x e]. unfold forward, gain, kick_term. cbn. rewrite Hr, (Hp (S t)) by lia. reflexivity. }
    rewrite <- K1, <- K2. destruct (dturns =? 0); [discriminate|]. destruct (_ mod dturns =? 0).
    - apply bind_ok in E1. destruct E1 as [xs [Ex E1]]. apply bind_ok in E1. destruct E1 as [ys [Ey E1]]. injection E1 as <-. cbn. auto.
    - injection E1 as <-. cbn. auto. }
  destruct K as (K1 & K2 & K3). destruct (IH s1 s' _ (S t) K1 K2 K3 ltac:(lia) H) as [J1 J2].
  assert (J : map (ups add sub mul sin F (N - S t) (S t)) (map (forward add sub mul sin F t) L) = map (ups add sub mul sin F (N - t) t) L).
  { rewrite map_map. replace (N - t)%nat with (S (N - S t)) by lia. reflexivity. }
  rewrite J in J1, J2. auto.
Qed.
End Coords.

Section Routine.
Context {T : Type} (add sub mul : dtype -> T -> T -> T) (sin : dtype -> T -> T)
        (single : T -> T) (ofZ : Z -> T) (zero : T).
Notation track := (track_by_turns add sub mul sin single ofZ zero).

Lemma np_copy_ok (h : heap T) l v : vec_at h l = Ok v ->
  exists a, np_copy h l = Ok (h ++ [a], length h) /\ adat a = Vec v.
Proof.
  intro E. destruct (vec_of _ _ _ E) as [a [A D]]. unfold np_copy. rewrite A. unfold alloc. eexists. split; [reflexivity|]. cbn. exact D.
Qed.
Lemma vec_app (h X : heap T) l v : vec_at h l = Ok v -> vec_at (h ++ X) l = Ok v.
Proof. intro E. destruct (vec_of _ _ _ E) as [a [A D]]. unfold vec_at. rewrite nth_error_app1, A, D by (apply nth_error_Some; congruence). reflexivity. Qed.
Lemma vec_last (h : heap T) a v : adat a = Vec v -> vec_at (h ++ [a]) (length h) = Ok v.
Proof. intro E. unfold vec_at. rewrite nth_error_app2, Nat.sub_diag by lia. cbn. rewrite E. reflexivity. Qed.
Lemma plain_app (h X : heap T) l : (l < length h)%nat -> (plain (h ++ X) l <-> plain h l).
Proof. intro L. unfold plain. rewrite nth_error_app1 by exact L. tauto. Qed.
Lemma cell_start (h : heap T) l v : vec_at h l = Ok v -> cell h l h l v.
Proof. intro E. split; [exact E|]. split; [lia|]. destruct (plain_dec h l) as [P|P]; [left|right]; auto. Qed.

Lemma inv_start n (h : heap T) lp le (x e : list T) xs ys q t : vec_at h lp = Ok x -> vec_at h le = Ok e -> lp <> le -> length x = n -> length e = n ->
  inv n h lp le (PState h lp le xs ys q t) (HState x e xs ys q t).
Proof.
  intros A B N L1 L2. unfold inv. cbn. split; [apply cell_start, A|]. split; [apply cell_start, B|]. split; [exact N|]. split; [intros k a E _ _; exact E|]. auto 9.
Qed.

Theorem turns_ok (F : params T) (d np p a : nat) delta (l : list (T * T)) (h : heap T) g ph de :
  (0 < d)%nat -> (p < np)%nat -> Z.of_nat p * Z.of_nat d + delta = Z.of_nat a -> - Z.of_nat d < delta <= 0 ->
  describes single ofZ h g F (d * (np - 1)) -> apart g ph de ->
  vec_at h ph = Ok (map fst l) -> vec_at h de = Ok (map snd l) ->
  an_int (Z.of_nat (length l)) -> an_int (Z.of_nat (d * (np - 1))) ->
  exists h' xs ys,
    track g np de ph (Z.of_nat d) (Z.of_nat p) delta (Z.of_nat (d * (np - 1))) h = Ok (h', (xs, ys)) /\
    length xs = np /\ length ys = np /\
    (forall q, (q < np)%nat -> row_is xs ys q (map (travel (add F64) (sub F64) (mul F64) (sin F64) F a (q * d)) l)) /\
    (forall k b, nth_error h k = Some b -> ~ (k = ph /\ plain h ph) -> ~ (k = de /\ plain h de) -> nth_error h' k = Some b) /\
    (plain h ph -> vec_at h' ph = Ok (map fst (map (travel (add F64) (sub F64) (mul F64) (sin F64) F a (d * (np - 1))) l))) /\
    (plain h de -> vec_at h' de = Ok (map snd (map (travel (add F64) (sub F64) (mul F64) (sin F64) F a (d * (np - 1))) l))).
Proof.
  intros Hd Hpn Ha Hdl (m & co & mp & mh & dt & p12 & Gm & Gd & G1 & G2 & Gp & Gh & Hm & Hc) (Ne & Ap) Vp Ve In IN.
  set (N := (d * (np - 1))%nat) in *.
  set (m' := Machine (rf1v m) (rf2v m) (phi0 m) (deltaE0 m) (drift_coef m) (repeat p12 (S N)) (hratio m)).
  assert (Hm' : holds m' F N).
  { destruct Hm as [A B]. split; [exact A|]. intros t Ht. destruct (B t Ht) as (B1 & B2 & B3 & _ & B5 & B6). cbn.
    repeat split; auto. rewrite Hc by lia. change (p12 :: repeat p12 N) with (repeat p12 (S N)).
    destruct (nth_error (repeat p12 (S N)) t) as [y|] eqn:E; [|apply nth_error_None in E; rewrite repeat_length in E; lia].
    apply nth_error_In, repeat_spec in E. congruence. }
  assert (Hq : forall t v, get (phi12 m') t = Ok v -> v = p12).
  { intros t v E. apply get_ok_inv in E. destruct E as (_ & E & _). apply nth_error_In, repeat_spec in E. exact E. }
  destruct (hybrid_ok (add F64) (sub F64) (mul F64) (sin F64) m' p12 d np (length l) Hq F Hd ltac:(lia) Hm' zero a p l delta Hpn Ha Hdl eq_refl)
    as (xs & ys & E & Lx & Ly & R).
  fold N in E. unfold hybrid_kick_and_drift in E.
  apply bind_ok in E. destruct E as [[x0 y0] [E0 E]]. rewrite Ha in E.
  apply bind_ok in E. destruct E as [k1 [E1 E]]. apply bind_ok in E. destruct E as [k2 [E2 E]].
  assert (aN : (a <= N)%nat) by (unfold N; nia).
  assert (KK := fun A B C => up_coords (add F64) (sub F64) (mul F64) (sin F64) F m' p12 N Hm' Hc _ _ _ _ l a A B C aN E1).
  destruct (KK eq_refl eq_refl eq_refl) as [K1 K2]. clear KK.
  assert (Tr : map (travel (add F64) (sub F64) (mul F64) (sin F64) F a N) l = map (ups (add F64) (sub F64) (mul F64) (sin F64) F (N - a) a) l).
  { apply map_ext. intro u. unfold travel. destruct (Nat.leb_spec a N); [reflexivity|lia]. }
  rewrite <- Tr in K1, K2.
  assert (Bp := vec_lt _ _ _ Vp). assert (Be := vec_lt _ _ _ Ve).
  destruct (np_copy_ok h ph _ Vp) as [c1 [F1 D1]].
  destruct (np_copy_ok (h ++ [c1]) de _ (vec_app _ _ _ _ Ve)) as [c2 [F2 D2]].
  set (h2 := (h ++ [c1]) ++ [c2]) in *.
  assert (L2 : length h2 = S (S (length h))) by (unfold h2; rewrite !app_length; cbn; lia).
  assert (S2 : forall k v, vec_at h k = Ok v -> vec_at h2 k = Ok v) by (intros k v Q; unfold h2; apply vec_app, vec_app, Q).
  assert (P2 : forall k, (k < length h)%nat -> (plain h2 k <-> plain h k)).
  { intros k Q. unfold h2. rewrite plain_app, plain_app by (rewrite ?app_length; cbn; lia). tauto. }
  assert (Xp : ~ List.In (g_drift g) [ph; de] /\ ~ List.In (g_rf1 g) [ph; de] /\ ~ List.In (g_rf2 g) [ph; de]).
  { repeat split; intros [Q|[Q|[]]]; (destruct (Ap (g_drift g) ltac:(cbn; auto)); destruct (Ap (g_rf1 g) ltac:(cbn; auto)); destruct (Ap (g_rf2 g) ltac:(cbn; auto)); congruence). }
  destruct Xp as (X1 & X2 & X3).
  assert (Gh' : number_in single ofZ F64 mh (hratio m')) by (cbn; rewrite (proj1 Hm); exact Gh).
  destruct (up_loop_sim add sub mul sin single ofZ zero m' p12 g co mp mh dt (length l) Gm Gp Gh' In h2 ph de ltac:(lia) ltac:(lia) Ne
     (S2 _ _ Gd) (S2 _ _ G1) (S2 _ _ G2) X1 X2 X3 _ _ _ IN
     _ _ _ (inv_start (length l) h2 ph de (map fst l) (map snd l) x0 y0 (if delta <? 0 then Z.of_nat p - 1 else Z.of_nat p) (Z.of_nat a)
       (S2 _ _ Vp) (S2 _ _ Ve) Ne (map_length _ _) (map_length _ _)) ltac:(cbn; lia) E1)
    as (s1 & U1 & (C1 & C2 & _ & O1 & Y1 & Y2 & _)).
  set (h3 := p_heap s1) in *.
  assert (N1 : nth_error h2 (length h) = Some c1).
  { unfold h2. rewrite nth_error_app1, nth_error_app2, Nat.sub_diag by (rewrite ?app_length; cbn; lia). reflexivity. }
  assert (N2 : nth_error h2 (length (h ++ [c1])) = Some c2) by (unfold h2; rewrite nth_error_app2, Nat.sub_diag by lia; reflexivity).
  assert (L1 : length (h ++ [c1]) = S (length h)) by (rewrite app_length; cbn; lia).
  assert (N1' := O1 _ _ N1 ltac:(lia) ltac:(lia)). assert (N2' := O1 _ _ N2 ltac:(lia) ltac:(lia)).
  destruct (np_copy_ok h3 (length h) (map fst l)) as [c3 [F3 D3]]; [unfold vec_at; rewrite N1', D1; reflexivity|].
  destruct (np_copy_ok (h3 ++ [c3]) (length (h ++ [c1])) (map snd l)) as [c4 [F4 D4]]; [apply vec_app; unfold vec_at; rewrite N2', D2; reflexivity|].
  set (h5 := (h3 ++ [c3]) ++ [c4]) in *.
  assert (L3 : length (h3 ++ [c3]) = S (length h3)) by (rewrite app_length; cbn; lia).
  assert (L5 : length h5 = S (S (length h3))) by (unfold h5; rewrite !app_length; cbn; lia).
  assert (L23 : (length h2 <= length h3)%nat) by apply C1.
  assert (S5 : forall k v, vec_at h3 k = Ok v -> vec_at h5 k = Ok v) by (intros k v Q; unfold h5; apply vec_app, vec_app, Q).
  assert (ST : forall k v, vec_at h k = Ok v -> ~ List.In k [ph; de] -> vec_at h5 k = Ok v /\ (k < length h3)%nat).
  { intros k v Q1 Q2. assert (Q3 := static h2 ph de h3 k v O1 (S2 _ _ Q1) Q2). split; [apply S5, Q3|exact (vec_lt _ _ _ Q3)]. }
  destruct (ST _ _ Gd X1) as [T1 B1]. destruct (ST _ _ G1 X2) as [T2 B2]. destruct (ST _ _ G2 X3) as [T3 B3].
  assert (Vp5 : vec_at h5 (length h3) = Ok (map fst l)) by (unfold h5; apply vec_app, vec_last, D3).
  assert (Ve5 : vec_at h5 (length (h3 ++ [c3])) = Ok (map snd l)) by (unfold h5; apply vec_last, D4).
  assert (Ne5 : length h3 <> length (h3 ++ [c3])) by lia.
  destruct (down_loop_sim add sub mul sin single ofZ zero m' p12 g co mp mh dt (length l) Gm Gp Gh' In h5 (length h3) (length (h3 ++ [c3])) ltac:(lia) ltac:(lia) Ne5
     T1 T2 T3 ltac:(intros [Q|[Q|[]]]; lia) ltac:(intros [Q|[Q|[]]]; lia) ltac:(intros [Q|[Q|[]]]; lia) _ _
     _ _ _ (inv_start (length l) h5 (length h3) (length (h3 ++ [c3])) (map fst l) (map snd l) (h_xp k1) (h_yp k1) (Z.of_nat p) (Z.of_nat a)
       Vp5 Ve5 Ne5 (map_length _ _) (map_length _ _)) ltac:(unfold an_int in IN; cbn; lia) E2)
    as (s2 & U2 & (_ & _ & _ & O2 & Y3 & Y4 & _)).
  injection E as Ex Ey.
  assert (Keep : forall k b, nth_error h3 k = Some b -> nth_error (p_heap s2) k = Some b).
  { intros k b Q. assert (Qk : (k < length h3)%nat) by (apply nth_error_Some; congruence). apply O2; [|lia|lia].
    unfold h5. rewrite !nth_error_app1 by (rewrite ?app_length; cbn; lia). exact Q. }
  assert (Old : forall k b, nth_error h k = Some b -> nth_error h2 k = Some b /\ (k < length h)%nat).
  { intros k b Q. assert (Qk : (k < length h)%nat) by (apply nth_error_Some; congruence). split; [|exact Qk].
    unfold h2. rewrite !nth_error_app1 by (rewrite ?app_length; cbn; lia). exact Q. }
  exists (p_heap s2), xs, ys. split; [|split; [exact Lx|split; [exact Ly|split; [exact R|split; [|split]]]]].
  - unfold track_by_turns. rewrite Ve, Vp. cbn [bind]. cbv zeta. rewrite F1. cbn [bind]. cbv iota beta. rewrite F2. cbn [bind]. cbv iota beta.
    fold h2. rewrite Ha, E0. cbn [bind]. cbv iota beta. rewrite map_length in *. rewrite U1. cbn [bind].
    fold h3. rewrite F3. cbn [bind]. cbv iota beta. rewrite F4. cbn [bind]. cbv iota beta. fold h5. rewrite Y1, Y2, U2. cbn [bind]. rewrite Y3, Y4, Ex, Ey. reflexivity.
  - intros k b Q Q1 Q2. destruct (Old k b Q) as [Q3 Qk]. apply Keep.
    destruct (Nat.eq_dec k ph) as [->|Jp]; [|destruct (Nat.eq_dec k de) as [->|Je]].
    + destruct C1 as (_ & _ & [(Pl & _)|(_ & Z & _)]); [exfalso; apply Q1; split; [reflexivity|apply P2; auto]|rewrite Z; exact Q3].
    + destruct C2 as (_ & _ & [(Pl & _)|(_ & Z & _)]); [exfalso; apply Q2; split; [reflexivity|apply P2; auto]|rewrite Z; exact Q3].
    + apply O1; auto.
  - intro Pl. destruct C1 as (V & _ & [(_ & Z & _)|(Z & _)]); [|exfalso; apply Z, P2; auto].
    rewrite Z, K1 in V. destruct (vec_of _ _ _ V) as [b [Bb Bd]]. unfold vec_at. fold h3 in Bb. rewrite (Keep _ _ Bb), Bd. reflexivity.
  - intro Pl. destruct C2 as (V & _ & [(_ & Z & _)|(Z & _)]); [|exfalso; apply Z, P2; auto].
    rewrite Z, K2 in V. destruct (vec_of _ _ _ V) as [b [Bb Bd]]. unfold vec_at. fold h3 in Bb. rewrite (Keep _ _ Bb), Bd. reflexivity.
Qed.
End Routine.
