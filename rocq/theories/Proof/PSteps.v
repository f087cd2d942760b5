(** Lemmas on calls of the routines for single turns. *)
From Coq Require Import List ZArith Bool Lia.
From Verif Require Import Base.Res Base.ResLemmas Model.MTrack Model.MBind Model.MSteps
  Spec.BindSpec Spec.StepsSpec Spec.TrackSpec Proof.PTrack Proof.PBind.
Import ListNotations.
Local Open Scope Z_scope.

Section Facts.
Context {T : Type} (add sub mul : dtype -> T -> T -> T) (sin : dtype -> T -> T)
        (single : T -> T) (ofZ : Z -> T) (zero : T).
Notation load := (load single ofZ).
Notation load_all := (load_all single ofZ).
Notation load_args := (load_args single ofZ).
Notation drift := (call_drift add sub mul single ofZ).
Notation kick := (call_kick add sub mul sin single ofZ).

Lemma load_mono t (h : heap T) v r : load false t h v = Some r -> load true t h v = Some r.
Proof.
  destruct t; cbn [MBind.load]; intro H; auto.
  - destruct v; try (destruct (number ofZ _) as [[? ?]|]; discriminate). destruct (nth_error h l); [|discriminate].
    destruct (_ && _); [exact H|discriminate].
  - destruct v; try exact H; try discriminate; try (destruct (number ofZ _) as [[? ?]|]; discriminate).
  - destruct v; try exact H; discriminate.
Qed.
Lemma load_all_mono ts : forall (h : heap T) vs r, load_all false ts h vs = Some r -> load_all true ts h vs = Some r.
Proof.
  induction ts as [|t ts IH]; intros h [|v vs] r; cbn [MBind.load_all]; auto.
  destruct (load false t h v) as [[h1 c]|] eqn:E; [|discriminate]. rewrite (load_mono _ _ _ _ E).
  destruct (load_all false ts h1 vs) as [[h2 cs]|] eqn:F; [|discriminate]. rewrite (IH _ _ _ F). auto.
Qed.
Lemma load_args_true ts (h : heap T) vs : load_args ts h vs = load_all true ts h vs.
Proof. unfold MSteps.load_args. destruct (load_all false ts h vs) eqn:E; [rewrite (load_all_mono _ _ _ _ E)|]; reflexivity. Qed.

Definition ext (h h' : heap T) : Prop := (forall k a, nth_error h k = Some a -> nth_error h' k = Some a) /\ (length h <= length h')%nat.
Lemma ext_refl h : ext h h.
Proof. split; auto. Qed.
Lemma ext_trans a b c : ext a b -> ext b c -> ext a c.
Proof. intros [A1 A2] [B1 B2]. split; [auto|lia]. Qed.
Lemma ext_app (h x : heap T) : ext h (h ++ x).
Proof.
  split; [|rewrite app_length; lia]. intros k a H. rewrite nth_error_app1; auto. apply nth_error_Some. congruence.
Qed.
Lemma conv_data_64 f (d : data T) : conv_data single f F64 d = d.
Proof.
  assert (C : forall x, conv single f F64 x = x) by (destruct f; reflexivity).
  destruct d; cbn; f_equal; [rewrite <- (map_id l) at 2; apply map_ext, C|].
  rewrite <- (map_id rows) at 2. apply map_ext. intro r. rewrite <- (map_id r) at 2. apply map_ext, C.
Qed.

Lemma plain_dec (h : heap T) l : plain h l \/ ~ plain h l.
Proof.
  unfold plain. destruct (nth_error h l) as [[[|] [|] d]|]; [left; eauto|right..]; intros [d' E]; discriminate.
Qed.
(** Loading an array of numbers as an array of doubles. *)
Lemma load_one (h : heap T) l a : nth_error h l = Some a ->
  exists h' l', load true (TArr F64) h (PArr l) = Some (h', CArr l') /\ ext h h' /\
    nth_error h' l' = Some (Arr F64 true (adat a)) /\ (plain h l -> l' = l) /\ (~ plain h l -> (length h <= l')%nat).
Proof.
  intro E. cbn [MBind.load]. rewrite E. destruct a as [d c x]. cbn [adt acontig adat].
  destruct (dtype_eqb d F64 && c) eqn:B.
  - destruct d, c; try discriminate. exists h, l. split; [reflexivity|]. split; [apply ext_refl|]. split; [exact E|]. split; [auto|].
    intro N. exfalso. apply N. exists x. exact E.
  - unfold alloc. eexists _, _. split; [reflexivity|]. split; [apply ext_app|].
    split; [rewrite nth_error_app2, Nat.sub_diag by lia; cbn; rewrite conv_data_64; reflexivity|].
    split; [|lia]. intros [y F]. rewrite E in F. injection F as -> -> ->. discriminate.
Qed.
Lemma load_int z (h : heap T) : an_int z -> load true TInt h (PInt z) = Some (h, CInt z).
Proof. intros [A B]. cbn [MBind.load]. destruct (Z.leb_spec (- 2 ^ 31) z); [|lia]. destruct (Z.ltb_spec z (2 ^ 31)); [reflexivity|lia]. Qed.
Lemma vec_of (h : heap T) l v : vec_at h l = Ok v -> exists a, nth_error h l = Some a /\ adat a = Vec v.
Proof. apply vec_at_inv. Qed.
Lemma of_vec (h : heap T) l v c d : nth_error h l = Some (Arr d c (Vec v)) -> vec_at h l = Ok v.
Proof. intro E. unfold vec_at. rewrite E. reflexivity. Qed.
Lemma get_Z {A} (l : list A) t x : nth_error l (Z.to_nat t) = Some x -> 0 <= t -> get l t = Ok x.
Proof. intros E H. unfold get. destruct (Z.ltb_spec t 0); [lia|]. rewrite E. reflexivity. Qed.

Lemma drift_vals (up : bool) (coef : T) (x e : list T) n : length x = length e -> n = length e ->
  (if up then drift_up (sub F64) (mul F64) x e coef n else drift_down (add F64) (mul F64) x e coef n) =
  Ok (drifted (add F64) (sub F64) (mul F64) up coef x e).
Proof.
  intros L ->. unfold drifted. assert (E1 : map fst (combine x e) = x /\ map snd (combine x e) = e).
  { clear coef. revert e L. induction x as [|a x IH]; intros [|b e] L; try discriminate; [auto|]. injection L as L.
    destruct (IH e L) as [A B]. cbn. rewrite A, B. auto. }
  destruct E1 as [E1 E2]. assert (N : length (combine x e) = length e) by (rewrite combine_length; lia).
  destruct up.
  - assert (K := drift_up_ok (add F64) (sub F64) (mul F64) (sin F64) (combine x e) coef (length e) N). rewrite E1, E2 in K. exact K.
  - assert (K := drift_down_ok (add F64) (sub F64) (mul F64) (sin F64) (combine x e) coef (length e) N). rewrite E1, E2 in K. exact K.
Qed.
Lemma kick_vals (up : bool) (v1 v2 p0 p12 hr acc : T) (x e : list T) n : length x = length e -> n = length e ->
  (if up then kick_up (add F64) (sub F64) (mul F64) (sin F64) x e v1 v2 p0 p12 hr n acc
   else kick_down (add F64) (sub F64) (mul F64) (sin F64) x e v1 v2 p0 p12 hr n acc) =
  Ok (kicked (add F64) (sub F64) (mul F64) (sin F64) up v1 v2 p0 p12 hr acc x e).
Proof.
  intros L ->. unfold kicked. assert (E1 : map fst (combine x e) = x /\ map snd (combine x e) = e).
  { revert e L. induction x as [|a x IH]; intros [|b e] L; try discriminate; [auto|]. injection L as L.
    destruct (IH e L) as [A B]. cbn. rewrite A, B. auto. }
  destruct E1 as [E1 E2]. assert (N : length (combine x e) = length e) by (rewrite combine_length; lia).
  destruct up.
  - assert (K := kick_up_ok (add F64) (sub F64) (mul F64) (sin F64) (combine x e) fst v1 v2 p0 p12 hr (length e) acc N). rewrite E1, E2 in K. exact K.
  - assert (K := kick_down_ok (add F64) (sub F64) (mul F64) (sin F64) (combine x e) fst v1 v2 p0 p12 hr (length e) acc N). rewrite E1, E2 in K. exact K.
Qed.

(** The write into the loaded array. *)
Lemma written (h h1 h3 : heap T) l l' x v : ext h h1 -> ext h1 h3 ->
  nth_error h1 l' = Some (Arr F64 true (Vec x)) -> (plain h l -> l' = l) -> (~ plain h l -> (length h <= l')%nat) ->
  returns_in h (put h3 l' (Vec v)) l l' v /\ nth_error (put h3 l' (Vec v)) l' = Some (Arr F64 true (Vec v)) /\ (length h <= length (put h3 l' (Vec v)))%nat.
Proof.
  intros E1 E3 N P1 P2. assert (Hit : nth_error (put h3 l' (Vec v)) l' = Some (Arr F64 true (Vec v))).
  { rewrite (put_hit h3 l' (Arr F64 true (Vec x))); [reflexivity|]. apply E3, N. }
  split; [|split; [exact Hit|rewrite put_len; destruct E1, E3; lia]]. split; [exact (of_vec _ _ _ _ _ Hit)|]. split; [exact P1|]. split; [exact P2|].
  intros k a Ha Hk. rewrite put_miss by auto. apply E3, E1, Ha.
Qed.

Lemma drift_call (h : heap T) le lp lc e x c t coef up :
  vec_at h le = Ok e -> vec_at h lp = Ok x -> vec_at h lc = Ok c -> length x = length e -> get c t = Ok coef ->
  an_int (Z.of_nat (length e)) -> an_int t ->
  exists h' l', drift h [PArr le; PArr lp; PArr lc; PInt (Z.of_nat (length e)); PInt t; PBool up] = Ok (h', l') /\
    returns_in h h' lp l' (drifted (add F64) (sub F64) (mul F64) up coef x e) /\
    nth_error h' l' = Some (Arr F64 true (Vec (drifted (add F64) (sub F64) (mul F64) up coef x e))) /\ (length h <= length h')%nat.
Proof.
  intros He Hp Hc L G In It. destruct (vec_of _ _ _ He) as [ae [Ae De]]. destruct (vec_of _ _ _ Hp) as [ap [Ap Dp]]. destruct (vec_of _ _ _ Hc) as [ac [Ac Dc]].
  destruct (load_one h le ae Ae) as (h1 & l1 & L1 & X1 & N1 & _).
  destruct (load_one h1 lp ap (proj1 X1 _ _ Ap)) as (h2 & l2 & L2 & X2 & N2 & P2 & Q2).
  destruct (load_one h2 lc ac (proj1 X2 _ _ (proj1 X1 _ _ Ac))) as (h3 & l3 & L3 & X3 & N3 & _).
  assert (Pl : plain h1 lp <-> plain h lp).
  { unfold plain. rewrite Ap, (proj1 X1 _ _ Ap). tauto. }
  destruct (written h h2 h3 lp l2 x (drifted (add F64) (sub F64) (mul F64) up coef x e)) as (W1 & W2 & W3).
  { exact (ext_trans _ _ _ X1 X2). } { exact X3. } { rewrite N2, Dp. reflexivity. } { intro P. apply P2, Pl, P. }
  { intro P. assert (K : (length h1 <= l2)%nat) by (apply Q2; rewrite Pl; exact P). destruct X1. lia. }
  exists (put h3 l2 (Vec (drifted (add F64) (sub F64) (mul F64) up coef x e))), l2. split; [|auto].
  unfold call_drift. rewrite load_args_true. unfold drift_params. cbn [repeat app MBind.load_all].
  rewrite L1, L2, L3, !load_int by assumption. cbn [MBind.load].
  assert (V1 : vec_at h3 l1 = Ok e). { apply (of_vec _ _ _ true F64). apply X3, X2. rewrite N1, De. reflexivity. }
  assert (V2 : vec_at h3 l2 = Ok x). { apply (of_vec _ _ _ true F64). apply X3. rewrite N2, Dp. reflexivity. }
  assert (V3 : vec_at h3 l3 = Ok c). { apply (of_vec _ _ _ true F64). rewrite N3, Dc. reflexivity. }
  rewrite V3. cbn [bind]. rewrite G. cbn [bind]. rewrite V2. cbn [bind]. rewrite V1. cbn [bind].
  rewrite (drift_vals up coef x e) by (rewrite ?Nat2Z.id; auto). reflexivity.
Qed.

Lemma py_float_number (h : heap T) v x : number_in single ofZ F64 v x -> py_float single ofZ h v = Ok x.
Proof.
  intros (f & y & N & ->). unfold py_float. cbn [MBind.load].
  destruct v; cbn [number] in N; try discriminate; injection N as <- <-; reflexivity.
Qed.

Lemma kick_call (h : heap T) le lp l1 l2 e x r1 r2 ps ds co mp mh dt t v1 v2 p0 acc p12 hr up :
  vec_at h le = Ok e -> vec_at h lp = Ok x -> vec_at h l1 = Ok r1 -> vec_at h l2 = Ok r2 -> length x = length e ->
  get r1 t = Ok v1 -> get r2 t = Ok v2 -> get ps t = Ok p0 -> get ds t = Ok acc ->
  number_in single ofZ F64 mp p12 -> number_in single ofZ F64 mh hr ->
  an_int (Z.of_nat (length e)) -> an_int t ->
  exists h' l', kick h [PObj (MObj ps ds co mp mh dt); PArr le; PArr lp; PArr l1; PArr l2; PInt (Z.of_nat (length e)); PInt t; PBool up] = Ok (h', l') /\
    returns_in h h' le l' (kicked (add F64) (sub F64) (mul F64) (sin F64) up v1 v2 p0 p12 hr acc x e) /\
    nth_error h' l' = Some (Arr F64 true (Vec (kicked (add F64) (sub F64) (mul F64) (sin F64) up v1 v2 p0 p12 hr acc x e))) /\ (length h <= length h')%nat.
Proof.
  intros He Hp H1 H2 L G1 G2 G3 G4 M1 M2 In It.
  destruct (vec_of _ _ _ He) as [ae [Ae De]]. destruct (vec_of _ _ _ Hp) as [ap [Ap Dp]]. destruct (vec_of _ _ _ H1) as [a1 [A1 D1]]. destruct (vec_of _ _ _ H2) as [a2 [A2 D2]].
  destruct (load_one h le ae Ae) as (h1 & k1 & L1 & X1 & N1 & P1 & Q1).
  destruct (load_one h1 lp ap (proj1 X1 _ _ Ap)) as (h2 & k2 & L2 & X2 & N2 & _).
  assert (X12 := ext_trans _ _ _ X1 X2).
  destruct (load_one h2 l1 a1 (proj1 X12 _ _ A1)) as (h3 & k3 & L3 & X3 & N3 & _).
  assert (X13 := ext_trans _ _ _ X12 X3).
  destruct (load_one h3 l2 a2 (proj1 X13 _ _ A2)) as (h4 & k4 & L4 & X4 & N4 & _).
  assert (X24 := ext_trans _ _ _ X3 X4). assert (X14 := ext_trans _ _ _ X2 X24).
  set (v := kicked (add F64) (sub F64) (mul F64) (sin F64) up v1 v2 p0 p12 hr acc x e).
  destruct (written h h1 h4 le k1 e v) as (W1 & W2 & W3); [exact X1|exact X14|rewrite N1, De; reflexivity|exact P1|exact Q1|].
  exists (put h4 k1 (Vec v)), k1. split; [|auto].
  unfold call_kick. rewrite load_args_true. unfold kick_params. cbn [repeat app MBind.load_all].
  change (load true TObj h (PObj (MObj ps ds co mp mh dt))) with (Some (h, @CObj T (PObj (MObj ps ds co mp mh dt)))). cbv iota beta.
  rewrite L1, L2, L3, L4, !load_int by assumption. cbn [MBind.load].
  assert (V1 : vec_at h4 k1 = Ok e). { apply (of_vec _ _ _ true F64). apply X14. rewrite N1, De. reflexivity. }
  assert (V2 : vec_at h4 k2 = Ok x). { apply (of_vec _ _ _ true F64). apply X24. rewrite N2, Dp. reflexivity. }
  assert (V3 : vec_at h4 k3 = Ok r1). { apply (of_vec _ _ _ true F64). apply X4. rewrite N3, D1. reflexivity. }
  assert (V4 : vec_at h4 k4 = Ok r2). { apply (of_vec _ _ _ true F64). rewrite N4, D2. reflexivity. }
  rewrite (py_float_number _ _ _ M1), (py_float_number _ _ _ M2). cbn [bind]. rewrite V3, V4. cbn [bind]. rewrite G1, G2, G3, G4. cbn [bind]. rewrite V2, V1. cbn [bind].
  rewrite (kick_vals up v1 v2 p0 p12 hr acc x e) by (rewrite ?Nat2Z.id; auto). reflexivity.
Qed.

(** phi12 given as an array is not a number. *)
Lemma kick_array (h : heap T) vs ps ds co l p mh dt : nth_error vs 0 = Some (PObj (MObj ps ds co (PArr l) mh dt)) ->
  vec_at h l = Ok p -> length p <> 1%nat -> kick h vs = Fail (Raised TypeError).
Proof.
  intros V P N. unfold call_kick. destruct (load_args kick_params h vs) as [[h' cs]|] eqn:E; [|reflexivity].
  rewrite load_args_true in E. destruct vs as [|v vs]; [discriminate|]. injection V as ->.
  apply load_all_cons in E. destruct E as (h1 & c1 & r1 & E1 & E2 & ->). cbn [MBind.load] in E1. injection E1 as <- <-.
  destruct (load_all_extends single ofZ _ _ _ _ _ _ E2) as [X ->].
  assert (F : py_float single ofZ (h ++ X) (PArr l) = Fail (Raised TypeError)).
  { unfold py_float. cbn [MBind.load]. destruct (vec_of _ _ _ P) as [a [A D]]. rewrite (proj1 (ext_app h X) _ _ A), D.
    cbn [the_element]. destruct p as [|y [|z p]]; try reflexivity. exfalso. apply N. reflexivity. }
  do 7 (destruct r1 as [|c r1]; [reflexivity|]; destruct c; try reflexivity). destruct r1; [|reflexivity]. rewrite F. reflexivity.
Qed.
End Facts.
