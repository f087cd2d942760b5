(** Proofs about the tracking loops. *)
From Coq Require Import List ZArith Bool Lia Arith ZifyBool ZifyNat.
From Verif Require Import Base.Res Base.ResLemmas Model.MTrack Spec.TrackSpec.
Import ListNotations.

Ltac Zify.zify_post_hook ::= Z.to_euclidean_division_equations.

(** ** Division facts *)
Lemma div_succ_hit : forall t d, 0 < d -> (S t) mod d = 0 -> S t / d = S (t / d).
Proof.
  intros t d Hd Hm.
  pose proof (Nat.div_mod (S t) d ltac:(lia)) as E. rewrite Hm in E.
  pose proof (Nat.div_mod t d ltac:(lia)) as E2.
  pose proof (Nat.mod_upper_bound t d ltac:(lia)).
  set (q := S t / d) in *. set (r := t / d) in *. set (m := t mod d) in *.
  assert (q <> 0) by (intro; subst q; nia). nia.
Qed.

Lemma div_succ_miss : forall t d, 0 < d -> (S t) mod d <> 0 -> S t / d = t / d.
Proof.
  intros t d Hd Hm.
  pose proof (Nat.div_mod (S t) d ltac:(lia)) as E.
  pose proof (Nat.div_mod t d ltac:(lia)) as E2.
  pose proof (Nat.mod_upper_bound t d ltac:(lia)).
  pose proof (Nat.mod_upper_bound (S t) d ltac:(lia)).
  set (q := S t / d) in *. set (r := t / d) in *. set (m := t mod d) in *.
  set (m' := S t mod d) in *. nia.
Qed.

Lemma mod0_mul : forall t d, 0 < d -> t mod d = 0 -> t = t / d * d.
Proof. intros. pose proof (Nat.div_mod t d ltac:(lia)). nia. Qed.

(** Number of profiles at or after turn [t]: ceil(t/d). *)
Definition ceil_div (t d : nat) : nat := (t + (d - 1)) / d.

Lemma ceil_div_spec : forall t d, 0 < d -> t <= ceil_div t d * d < t + d.
Proof.
  intros. unfold ceil_div.
  pose proof (Nat.div_mod (t + (d-1)) d ltac:(lia)).
  pose proof (Nat.mod_upper_bound (t + (d-1)) d ltac:(lia)).
  set (q := (t + (d-1)) / d) in *. set (m := (t + (d-1)) mod d) in *. nia.
Qed.

Lemma ceil_div_unique : forall t d q, 0 < d -> t <= q * d < t + d -> ceil_div t d = q.
Proof. intros. pose proof (ceil_div_spec t d H). nia. Qed.

Lemma div_unique : forall t d q, 0 < d -> q * d <= t < q * d + d -> t / d = q.
Proof. intros. symmetry. apply Nat.div_unique with (t - q * d); lia. Qed.

Lemma div_spec : forall t d, 0 < d -> t / d * d <= t < t / d * d + d.
Proof.
  intros. pose proof (Nat.div_mod t d ltac:(lia)).
  pose proof (Nat.mod_upper_bound t d ltac:(lia)). nia.
Qed.

Lemma on_profile_nat : forall t d, 0 < d ->
  on_profile (Z.of_nat t) (Z.of_nat d) = Ok (Nat.eqb (t mod d) 0).
Proof.
  intros. unfold on_profile. destruct (Z.eqb_spec (Z.of_nat d) 0); [lia|].
  rewrite Z.rem_mod_nonneg by lia. rewrite <- Nat2Z.inj_mod. f_equal.
  destruct (Nat.eqb_spec (t mod d) 0), (Z.eqb_spec (Z.of_nat (t mod d)) 0); auto; lia.
Qed.

Section PTrack.
Context {T : Type} (add sub mul : T -> T -> T) (sin : T -> T).

Notation kick_term := (kick_term add sub mul sin).
Notation kick_up := (kick_up add sub mul sin).
Notation kick_down := (kick_down add sub mul sin).
Notation drift_up := (drift_up sub mul).
Notation drift_down := (drift_down add mul).

(** ** Element-wise loops *)
Lemma map_pointwise : forall A B C (f : A -> B) (l : list A) (g : list C) (h : C -> B),
  length l = length g ->
  (forall k a c, nth_error l k = Some a -> nth_error g k = Some c -> f a = h c) ->
  map f l = map h g.
Proof.
  induction l; destruct g; simpl; intros; auto; try lia.
  f_equal; [apply (H0 0); auto|]. apply IHl; auto. intros k. apply (H0 (S k)).
Qed.

Lemma loop_pairs_fst : forall (f : T -> T -> T) (l : list (T * T)),
  for_ 0 (length l) (fun i ph =>
    x <- get ph (Z.of_nat i) ;; e <- get (map snd l) (Z.of_nat i) ;;
    set ph (Z.of_nat i) (f x e)) (map fst l)
  = Ok (map (fun s => f (fst s) (snd s)) l).
Proof.
  intros f l.
  destruct (for_elementwise T (fun k a => match nth_error l k with Some s => f a (snd s) | None => a end)
    (fun i ph => x <- get ph (Z.of_nat i) ;; e <- get (map snd l) (Z.of_nat i) ;;
      set ph (Z.of_nat i) (f x e)) (map fst l)) as [l' [E [HL HN]]].
  - intros k l' a Hk Hl Ha. rewrite map_length in *.
    rewrite (get_nat _ l' k a Ha). simpl.
    destruct (nth_error_ex _ l k Hk) as [s Hs].
    erewrite get_nat; [|apply map_nth_error; eauto]. simpl.
    rewrite set_nat by lia. rewrite Hs. reflexivity.
  - rewrite map_length in *. rewrite E. f_equal.
    apply nth_error_ext_len; [rewrite map_length; lia|].
    intros i Hi. rewrite HL in Hi. destruct (nth_error_ex _ l i Hi) as [s Hs].
    rewrite (HN i (fst s)) by (apply map_nth_error; auto).
    rewrite Hs. symmetry. rewrite (map_nth_error _ i l Hs). reflexivity.
Qed.

Lemma loop_pairs_snd : forall (g : T -> T -> T) (l : list (T * T)) (ph : list T),
  length ph = length l ->
  for_ 0 (length l) (fun i de =>
    x <- get ph (Z.of_nat i) ;; e <- get de (Z.of_nat i) ;;
    set de (Z.of_nat i) (g x e)) (map snd l)
  = Ok (map (fun s => g (fst s) (snd s)) (combine ph (map snd l))).
Proof.
  intros g l ph Hlen.
  destruct (for_elementwise T (fun k a => match nth_error ph k with Some x => g x a | None => a end)
    (fun i de => x <- get ph (Z.of_nat i) ;; e <- get de (Z.of_nat i) ;;
      set de (Z.of_nat i) (g x e)) (map snd l)) as [l' [E [HL HN]]].
  - intros k l' a Hk Hl Ha. rewrite map_length in *.
    destruct (nth_error_ex _ ph k ltac:(lia)) as [x Hx].
    rewrite (get_nat _ ph k x Hx). simpl.
    rewrite (get_nat _ l' k a Ha). simpl.
    rewrite set_nat by lia. rewrite Hx. reflexivity.
  - rewrite map_length in *. rewrite E. f_equal.
    apply nth_error_ext_len; [rewrite map_length, combine_length, map_length; lia|].
    intros i Hi. rewrite HL in Hi.
    destruct (nth_error_ex _ l i Hi) as [s Hs].
    destruct (nth_error_ex _ ph i ltac:(lia)) as [x Hx].
    rewrite (HN i (snd s)) by (apply map_nth_error; auto).
    rewrite Hx. symmetry.
    erewrite map_nth_error.
    2:{ rewrite nth_error_combine, Hx, (map_nth_error _ i l Hs). reflexivity. }
    reflexivity.
Qed.

Lemma drift_up_ok : forall l c k, length l = k ->
  drift_up (map fst l) (map snd l) c k
  = Ok (map (fun s => sub (fst s) (mul c (snd s))) l).
Proof. intros; subst. apply (loop_pairs_fst (fun x e => sub x (mul c e))). Qed.

Lemma drift_down_ok : forall l c k, length l = k ->
  drift_down (map fst l) (map snd l) c k
  = Ok (map (fun s => add (fst s) (mul c (snd s))) l).
Proof. intros; subst. apply (loop_pairs_fst (fun x e => add x (mul c e))). Qed.

Lemma combine_map_map : forall A B C (f : A -> B) (g : A -> C) l,
  combine (map f l) (map g l) = map (fun a => (f a, g a)) l.
Proof. induction l; simpl; auto. f_equal; auto. Qed.

Lemma kick_up_ok : forall (l : list (T * T)) (f : T * T -> T) a b c d h n k, length l = n ->
  kick_up (map f l) (map snd l) a b c d h n k
  = Ok (map (fun s => add (snd s) (kick_term a b c d h k (f s))) l).
Proof.
  intros; subst. unfold MTrack.kick_up.
  rewrite (loop_pairs_snd (fun x e => add e (kick_term a b c d h k x))) by (rewrite map_length; auto).
  rewrite combine_map_map, map_map. reflexivity.
Qed.

Lemma kick_down_ok : forall (l : list (T * T)) (f : T * T -> T) a b c d h n k, length l = n ->
  kick_down (map f l) (map snd l) a b c d h n k
  = Ok (map (fun s => sub (snd s) (kick_term a b c d h k (f s))) l).
Proof.
  intros; subst. unfold MTrack.kick_down.
  rewrite (loop_pairs_snd (fun x e => sub e (kick_term a b c d h k x))) by (rewrite map_length; auto).
  rewrite combine_map_map, map_map. reflexivity.
Qed.

Lemma copy_loop_ok : forall (src dst : list T) n,
  length src = n -> length dst = n -> copy_loop src dst n = Ok src.
Proof.
  intros src dst n Hs Hd. unfold copy_loop. rewrite <- Hd.
  destruct (for_elementwise T (fun k a => match nth_error src k with Some x => x | None => a end)
    (fun i dst => x <- get src (Z.of_nat i) ;; set dst (Z.of_nat i) x) dst) as [l' [E [HL HN]]].
  - intros k l' a Hk Hl Ha.
    destruct (nth_error_ex _ src k ltac:(lia)) as [x Hx].
    rewrite (get_nat _ src k x Hx). simpl. rewrite set_nat by lia. rewrite Hx. reflexivity.
  - rewrite E. f_equal. apply nth_error_ext_len; [lia|]. intros i Hi.
    destruct (nth_error_ex _ src i ltac:(lia)) as [x Hx].
    destruct (nth_error_ex _ dst i ltac:(lia)) as [y Hy].
    rewrite (HN i y Hy), Hx. reflexivity.
Qed.

(** Tables with [np] rows of [n] entries. *)
Definition shaped (tab : list (list T)) (np n : nat) : Prop :=
  length tab = np /\ forall q r, nth_error tab q = Some r -> length r = n.

Lemma store_row_ok : forall tab np n p src,
  shaped tab np n -> p < np -> length src = n ->
  store_row tab (Z.of_nat p) src n = Ok (upd tab p src) /\ shaped (upd tab p src) np n.
Proof.
  intros tab np n p src [HL HR] Hp Hs.
  destruct (nth_error_ex _ tab p ltac:(lia)) as [r Hr].
  unfold store_row. rewrite (get_nat _ tab p r Hr). simpl.
  rewrite (copy_loop_ok src r n Hs (HR p r Hr)). simpl.
  rewrite set_nat by lia. split; auto.
  split; [rewrite upd_length; auto|].
  intros q r' Hq. rewrite nth_error_upd in Hq by lia.
  destruct (Nat.eqb_spec q p); [inversion Hq; subst; auto|eauto].
Qed.

(** ** Evolution *)
Variable F : params T.
Notation forward := (forward add sub mul sin F).
Notation backward := (backward add sub mul sin F).
Notation ups := (ups add sub mul sin F).
Notation downs := (downs add sub mul sin F).

Lemma ups_snoc : forall n t s, ups (S n) t s = forward (t + n) (ups n t s).
Proof.
  induction n; intros; simpl.
  - rewrite Nat.add_0_r. reflexivity.
  - change (ups n (S (S t)) (forward (S t) (forward t s))) with (ups (S n) (S t) (forward t s)).
    rewrite IHn. f_equal. lia.
Qed.

Lemma ups_add : forall n m t s, ups (n + m) t s = ups m (t + n) (ups n t s).
Proof.
  induction n; intros; simpl.
  - rewrite Nat.add_0_r. reflexivity.
  - rewrite IHn. f_equal. lia.
Qed.

Lemma downs_add : forall n m t s, downs (n + m) t s = downs n t (downs m (t + n) s).
Proof.
  induction n; intros; simpl.
  - rewrite Nat.add_0_r. reflexivity.
  - rewrite IHn. replace (S t + n) with (t + S n) by lia. reflexivity.
Qed.

Lemma kick_term_gain : forall t x,
  kick_term (v1 F t) (v2 F t) (ph0 F t) (ph12 F t) (hr F) (dE F t) x
  = gain add sub mul sin F t x.
Proof. reflexivity. Qed.

Variable m : machine T.
Variables (d np n : nat).
Hypothesis Hd : 0 < d.
Hypothesis Hnp : 0 < np.
Variable N : nat.
Hypothesis HN : N = d * (np - 1).
(** The arrays are valid up to turn [K] (normally [K = N]). *)
Variable K : nat.
Hypothesis Hm : holds m F K.

Lemma hold_at : forall t, t <= K ->
  get (rf1v m) (Z.of_nat t) = Ok (v1 F t) /\
  get (rf2v m) (Z.of_nat t) = Ok (v2 F t) /\
  get (MTrack.phi0 m) (Z.of_nat t) = Ok (ph0 F t) /\
  get (MTrack.phi12 m) (Z.of_nat t) = Ok (ph12 F t) /\
  get (deltaE0 m) (Z.of_nat t) = Ok (dE F t) /\
  get (drift_coef m) (Z.of_nat t) = Ok (coef F t).
Proof.
  intros t Ht. destruct Hm as [_ H]. destruct (H t Ht) as (A&B&C&D&E&G).
  repeat split; apply get_nat; auto.
Qed.

Lemma hold_hr : hratio m = hr F. Proof. apply Hm. Qed.

(** ** Upward pass *)
Section Up.
Variables (a p : nat) (l : list (T * T)) (ftn : bool) (x0 y0 : list (list T))
          (c0 : list (Z * Z)) (pr0 : list (Z * Z)) (pg0 : nat).
Hypothesis Hl : length l = n.

Definition up_calls (k : nat) : list (Z * Z) :=
  map (fun i => (Z.of_nat i, Z.of_nat N)) (seq (S pg0) k).

Definition up_prints (k : nat) : list (Z * Z) :=
  if ftn then map (fun q => (Z.of_nat p + 1, Z.of_nat q + 1)%Z) (seq (S (a / d)) k) else [].

Definition up_inv (t : nat) (s : tstate T) : Prop :=
  dphi s = map fst (map (ups (t - a) a) l) /\
  denergy s = map snd (map (ups (t - a) a) l) /\
  shaped (xp s) np n /\ shaped (yp s) np n /\
  (forall q, nth_error (xp s) q =
     if (a / d <? q) && (q <=? t / d) then Some (map fst (map (ups (q * d - a) a) l)) else nth_error x0 q) /\
  (forall q, nth_error (yp s) q =
     if (a / d <? q) && (q <=? t / d) then Some (map snd (map (ups (q * d - a) a) l)) else nth_error y0 q) /\
  profile s = Z.of_nat (t / d) /\ turn s = Z.of_nat t /\
  progress s = Z.of_nat (pg0 + (t - a)) /\
  calls s = c0 ++ up_calls (t - a) /\
  prints s = pr0 ++ up_prints (t / d - a / d).

Lemma up_step_inv : forall t s,
  a <= t < N -> S t <= K -> up_inv t s ->
  exists s', up_step add sub mul sin m (Z.of_nat d) (Z.of_nat p) (Z.of_nat N) n ftn s = Ok s'
             /\ up_inv (S t) s'.
Proof.
  intros t s Ht HK (Hph & Hde & Hsx & Hsy & Hx & Hy & Hprof & Hturn & Hpg & Hcalls & Hprints).
  destruct (hold_at t ltac:(lia)) as (_&_&_&_&_&Gc).
  destruct (hold_at (S t) ltac:(lia)) as (G1&G2&G3&G4&G5&_).
  set (L := map (ups (t - a) a) l) in *.
  assert (HL : length L = n) by (unfold L; rewrite map_length; auto).
  assert (HL' : map (ups (S t - a) a) l = map (forward t) L).
  { unfold L. rewrite map_map. apply map_ext. intros u.
    replace (S t - a) with (S (t - a)) by lia. rewrite ups_snoc. f_equal. lia. }
  unfold up_step. rewrite Hturn, Gc. cbn [bind].
  rewrite Hph, Hde. rewrite drift_up_ok by auto. cbn [bind].
  replace (Z.of_nat t + 1)%Z with (Z.of_nat (S t)) by lia.
  rewrite G1, G2, G3, G4, G5. cbn [bind].
  rewrite kick_up_ok by auto. cbn [bind].
  rewrite hold_hr.
  assert (E1 : map (fun s0 : T * T => sub (fst s0) (mul (coef F t) (snd s0))) L
               = map fst (map (forward t) L)) by (rewrite map_map; reflexivity).
  assert (E2 : map (fun s0 : T * T => add (snd s0)
       (kick_term (v1 F (S t)) (v2 F (S t)) (ph0 F (S t)) (ph12 F (S t)) (hr F) (dE F (S t))
          (sub (fst s0) (mul (coef F t) (snd s0))))) L
     = map snd (map (forward t) L)) by (rewrite map_map; reflexivity).
  rewrite E1, E2. rewrite on_profile_nat by auto. cbn [bind].
  assert (Hcb : (c0 ++ up_calls (t - a)) ++ [((progress s + 1)%Z, Z.of_nat N)]
                = c0 ++ up_calls (S t - a)).
  { rewrite <- app_assoc. f_equal. unfold up_calls.
    replace (S t - a) with (t - a + 1) by lia. rewrite seq_app, map_app. simpl.
    do 2 f_equal. rewrite Hpg. f_equal. lia. }
  destruct (Nat.eqb_spec (S t mod d) 0) as [Hhit|Hmiss].
  - assert (Hdiv : S t / d = S (t / d)) by (apply div_succ_hit; auto).
    assert (Hq : S t / d * d = S t) by (symmetry; apply mod0_mul; auto).
    assert (Hlt : S (t / d) < np).
    { rewrite Hdiv in Hq. destruct (Nat.lt_ge_cases (S (t/d)) np); auto.
      exfalso. clear Gc G1 G2 G3 G4 G5. nia. }
    rewrite Hprof. replace (Z.of_nat (t / d) + 1)%Z with (Z.of_nat (S (t / d))) by lia.
    destruct (store_row_ok (xp s) np n (S (t / d)) (map fst (map (forward t) L)) Hsx Hlt) as [Ex Sx].
    { rewrite !map_length; auto. }
    destruct (store_row_ok (yp s) np n (S (t / d)) (map snd (map (forward t) L)) Hsy Hlt) as [Ey Sy].
    { rewrite !map_length; auto. }
    rewrite Ex. cbn [bind]. rewrite Ey. cbn [bind].
    eexists. split; [reflexivity|].
    assert (Hxl : length (xp s) = np) by apply Hsx.
    assert (Hyl : length (yp s) = np) by apply Hsy.
    unfold up_inv; cbn [dphi denergy xp yp profile turn progress calls prints].
    rewrite HL', Hdiv.
    assert (Hstep : forall q, ((a / d <? q) && (q <=? S (t / d))) =
        if Nat.eqb q (S (t/d)) then true else (a / d <? q) && (q <=? t / d)).
    { intros q. assert (a / d <= t / d) by (apply Nat.div_le_mono; lia).
      destruct (Nat.eqb_spec q (S (t/d))), (Nat.ltb_spec (a/d) q), (Nat.leb_spec q (S (t/d))),
        (Nat.leb_spec q (t/d)); simpl; auto; lia. }
    repeat split; auto; try (apply Sx); try (apply Sy).
    + intros q. rewrite nth_error_upd by lia. rewrite Hstep.
      destruct (Nat.eqb_spec q (S (t/d))); [|apply Hx].
      subst q. f_equal. rewrite <- Hdiv, Hq, HL'. reflexivity.
    + intros q. rewrite nth_error_upd by lia. rewrite Hstep.
      destruct (Nat.eqb_spec q (S (t/d))); [|apply Hy].
      subst q. f_equal. rewrite <- Hdiv, Hq, HL'. reflexivity.
    + rewrite Hpg. lia.
    + rewrite Hcalls. exact Hcb.
    + unfold up_prints in *. assert (a / d <= t / d) by (apply Nat.div_le_mono; lia).
      destruct ftn; rewrite Hprints; auto.
      rewrite <- app_assoc. f_equal.
      replace (S (t / d) - a / d) with ((t / d - a / d) + 1) by lia.
      rewrite seq_app, map_app. simpl. do 2 f_equal. f_equal. lia.
  - assert (Hdiv : S t / d = t / d) by (apply div_succ_miss; auto).
    eexists. split; [reflexivity|].
    unfold up_inv; cbn [dphi denergy xp yp profile turn progress calls prints].
    rewrite HL', Hdiv. repeat split; auto; try (apply Hsx); try (apply Hsy).
    + rewrite Hpg. lia.
    + rewrite Hcalls. exact Hcb.
Qed.

Lemma up_loop_inv : forall k t s,
  t + k = N -> N <= K -> a <= t -> up_inv t s ->
  exists s', up_loop add sub mul sin k m (Z.of_nat d) (Z.of_nat p) (Z.of_nat N) n ftn s = Ok s'
             /\ up_inv N s'.
Proof.
  induction k; intros t s E HK Ha Hinv; simpl.
  - assert (t = N) by lia. subst t.
    destruct Hinv as (?&?&?&?&?&?&?&Ht&Hrest). rewrite Ht.
    rewrite Z.ltb_irrefl. exists s. split; auto. repeat split; auto; try apply Hrest; try apply H1; try apply H2.
  - destruct (up_step_inv t s ltac:(lia) ltac:(lia) Hinv) as [s1 [E1 H1]].
    assert (Ht : turn s = Z.of_nat t) by apply Hinv. rewrite Ht.
    destruct (Z.ltb_spec (Z.of_nat t) (Z.of_nat N)); [|lia].
    rewrite E1. cbn [bind]. apply (IHk (S t) s1); auto; lia.
Qed.
End Up.

(** ** Downward pass *)
Section Down.
Variables (p : nat) (l : list (T * T)) (ftn : bool) (x0 y0 : list (list T))
          (c0 : list (Z * Z)) (pr0 : list (Z * Z)) (pg0 : nat).
Hypothesis Hl : length l = n.
Hypothesis Hp : p < np.
(** The turn at which the pass starts. *)
Variable b : nat.
Hypothesis Hb : ceil_div b d = p.

Definition down_calls (k : nat) : list (Z * Z) :=
  map (fun i => (Z.of_nat i, Z.of_nat N)) (seq (S pg0) k).

Definition down_prints (k : nat) : list (Z * Z) :=
  if ftn then map (fun i => (Z.of_nat p + 1, Z.of_nat p - Z.of_nat i + 1)%Z) (seq 1 k) else [].

Definition down_inv (t : nat) (s : tstate T) : Prop :=
  dphi s = map fst (map (downs (b - t) t) l) /\
  denergy s = map snd (map (downs (b - t) t) l) /\
  shaped (xp s) np n /\ shaped (yp s) np n /\
  (forall q, nth_error (xp s) q =
     if (ceil_div t d <=? q) && (q <? p) then Some (map fst (map (downs (b - q * d) (q * d)) l)) else nth_error x0 q) /\
  (forall q, nth_error (yp s) q =
     if (ceil_div t d <=? q) && (q <? p) then Some (map snd (map (downs (b - q * d) (q * d)) l)) else nth_error y0 q) /\
  profile s = Z.of_nat (ceil_div t d) /\ turn s = Z.of_nat t /\
  progress s = Z.of_nat (pg0 + (b - t)) /\
  calls s = c0 ++ down_calls (b - t) /\
  prints s = pr0 ++ down_prints (p - ceil_div t d).

Lemma down_step_inv : forall t s,
  S t <= b -> b <= K -> down_inv (S t) s ->
  exists s', down_step add sub mul sin m (Z.of_nat d) (Z.of_nat p) (Z.of_nat N) n ftn s = Ok s'
             /\ down_inv t s'.
Proof.
  intros t s Ht HK (Hph & Hde & Hsx & Hsy & Hx & Hy & Hprof & Hturn & Hpg & Hcalls & Hprints).
  pose proof (ceil_div_spec b d Hd) as HbS. rewrite Hb in HbS.
  destruct (hold_at t ltac:(lia)) as (_&_&_&_&_&Gc).
  destruct (hold_at (S t) ltac:(lia)) as (G1&G2&G3&G4&G5&_).
  set (L := map (downs (b - S t) (S t)) l) in *.
  assert (HL : length L = n) by (unfold L; rewrite map_length; auto).
  assert (HL' : map (downs (b - t) t) l = map (backward t) L).
  { unfold L. rewrite map_map. apply map_ext. intros u.
    replace (b - t) with (S (b - S t)) by lia. reflexivity. }
  unfold down_step. rewrite Hturn, G1, G2, G3, G4, G5. cbn [bind].
  rewrite Hph, Hde. rewrite kick_down_ok by auto. cbn [bind].
  replace (Z.of_nat (S t) - 1)%Z with (Z.of_nat t) by lia.
  rewrite Gc. cbn [bind]. rewrite hold_hr.
  set (e' := fun s0 : T * T => sub (snd s0)
       (kick_term (v1 F (S t)) (v2 F (S t)) (ph0 F (S t)) (ph12 F (S t)) (hr F) (dE F (S t)) (fst s0))).
  assert (E2 : map e' L = map snd (map (backward t) L)) by (rewrite map_map; reflexivity).
  assert (E3 : map fst L = map fst (map (fun s0 => (fst s0, e' s0)) L)) by (rewrite map_map; reflexivity).
  assert (E4 : map e' L = map snd (map (fun s0 => (fst s0, e' s0)) L)) by (rewrite map_map; reflexivity).
  rewrite E3, E4.
  rewrite drift_down_ok by (rewrite map_length; auto). cbn [bind].
  rewrite <- E4, E2. rewrite map_map. cbn [fst snd].
  assert (E5 : map (fun x : T * T => add (fst x) (mul (coef F t) (e' x))) L
               = map fst (map (backward t) L)) by (rewrite map_map; reflexivity).
  rewrite E5. rewrite on_profile_nat by auto. cbn [bind].
  assert (Hcb : (c0 ++ down_calls (b - S t)) ++ [((progress s + 1)%Z, Z.of_nat N)]
                = c0 ++ down_calls (b - t)).
  { rewrite <- app_assoc. f_equal. unfold down_calls.
    replace (b - t) with (b - S t + 1) by lia. rewrite seq_app, map_app. simpl.
    do 2 f_equal. rewrite Hpg. f_equal. lia. }
  pose proof (ceil_div_spec (S t) d Hd) as Hc.
  destruct (Nat.eqb_spec (t mod d) 0) as [Hhit|Hmiss].
  - assert (Hq : t = t / d * d) by (apply mod0_mul; auto).
    assert (Hdiv : ceil_div (S t) d = S (t / d)) by (apply ceil_div_unique; auto; lia).
    assert (Hdiv' : ceil_div t d = t / d) by (apply ceil_div_unique; auto; lia).
    assert (Hlt : t / d < p).
    { destruct (Nat.lt_ge_cases (t/d) p); auto. exfalso. clear Gc G1 G2 G3 G4 G5. nia. }
    rewrite Hprof, Hdiv. replace (Z.of_nat (S (t / d)) - 1)%Z with (Z.of_nat (t / d)) by lia.
    destruct (store_row_ok (xp s) np n (t / d) (map fst (map (backward t) L)) Hsx ltac:(lia)) as [Ex Sx].
    { rewrite !map_length; auto. }
    destruct (store_row_ok (yp s) np n (t / d) (map snd (map (backward t) L)) Hsy ltac:(lia)) as [Ey Sy].
    { rewrite !map_length; auto. }
    rewrite Ex. cbn [bind]. rewrite Ey. cbn [bind].
    eexists. split; [reflexivity|].
    assert (Hxl : length (xp s) = np) by apply Hsx.
    assert (Hyl : length (yp s) = np) by apply Hsy.
    unfold down_inv; cbn [dphi denergy xp yp profile turn progress calls prints].
    rewrite HL', Hdiv'. rewrite Hdiv in Hx, Hy.
    assert (Hstep : forall q, ((t / d <=? q) && (q <? p)) =
        if Nat.eqb q (t/d) then true else (S (t / d) <=? q) && (q <? p)).
    { intros q.
      destruct (Nat.eqb_spec q (t/d)), (Nat.leb_spec (t/d) q), (Nat.ltb_spec q p),
        (Nat.leb_spec (S (t/d)) q); simpl; auto; lia. }
    repeat split; auto; try (apply Sx); try (apply Sy).
    + intros q. rewrite nth_error_upd by lia. rewrite Hstep.
      destruct (Nat.eqb_spec q (t/d)); [|apply Hx].
      subst q. f_equal. rewrite <- Hq, HL'. reflexivity.
    + intros q. rewrite nth_error_upd by lia. rewrite Hstep.
      destruct (Nat.eqb_spec q (t/d)); [|apply Hy].
      subst q. f_equal. rewrite <- Hq, HL'. reflexivity.
    + rewrite Hpg. lia.
    + rewrite Hcalls. exact Hcb.
    + unfold down_prints in *.
      destruct ftn; rewrite Hprints; auto.
      rewrite <- app_assoc. f_equal. rewrite Hdiv.
      replace (p - t / d) with ((p - S (t / d)) + 1) by lia.
      rewrite seq_app, map_app. simpl. do 2 f_equal. f_equal. lia.
  - assert (Hdiv : ceil_div (S t) d = ceil_div t d).
    { symmetry. apply ceil_div_unique; auto.
      destruct (Nat.eq_dec (ceil_div (S t) d * d) (t + d)); [|lia].
      exfalso. apply Hmiss. 
      assert (t = (ceil_div (S t) d - 1) * d) by (clear Gc G1 G2 G3 G4 G5; nia).
      rewrite H. apply Nat.mod_mul. lia. }
    rewrite Hdiv in *.
    eexists. split; [reflexivity|].
    unfold down_inv; cbn [dphi denergy xp yp profile turn progress calls prints].
    rewrite HL'. repeat split; auto; try (apply Hsx); try (apply Hsy).
    + rewrite Hpg. lia.
    + rewrite Hcalls. exact Hcb.
Qed.

Lemma down_loop_inv : forall t s,
  t <= b -> b <= K -> down_inv t s ->
  exists s', down_loop add sub mul sin t m (Z.of_nat d) (Z.of_nat p) (Z.of_nat N) n ftn s = Ok s'
             /\ down_inv 0 s'.
Proof.
  induction t; intros s Hle HK Hinv; simpl;
    assert (Ht : turn s = Z.of_nat _) by apply Hinv; rewrite Ht.
  - simpl. exists s. split; auto.
  - destruct (down_step_inv t s ltac:(lia) HK Hinv) as [s1 [E1 H1]].
    destruct (Z.ltb_spec 0 (Z.of_nat (S t))); [|lia].
    rewrite E1. cbn [bind]. apply IHt; auto; lia.
Qed.
End Down.

(** ** The whole routine *)

(** Coordinates from which the downward pass starts. *)
Definition pivot (a p : nat) (l : list (T * T)) : list (T * T) :=
  if a <? p * d then map (ups (p * d - a) a) l else l.

(** What row [q] of the result holds. *)
Definition row_spec (a p : nat) (l : list (T * T)) (q : nat) : list (T * T) :=
  if p <? q then map (ups (q * d - a) a) l
  else map (downs (p * d - q * d) (q * d)) (pivot a p l).

Theorem kick_and_drift_ok : forall a p l delta ftn x0 y0,
  K = N -> p < np -> a <= N ->
  (Z.of_nat p * Z.of_nat d + delta = Z.of_nat a)%Z -> (Z.abs delta < Z.of_nat d)%Z ->
  length l = n -> shaped x0 np n -> shaped y0 np n ->
  exists s, kick_and_drift add sub mul sin m x0 y0 (map snd l) (map fst l)
      (Z.of_nat d) (Z.of_nat p) delta (Z.of_nat N) n ftn = Ok s /\
    shaped (xp s) np n /\ shaped (yp s) np n /\
    (forall q, q < np -> row_is (xp s) (yp s) q (row_spec a p l q)) /\
    calls s = map (fun i => (Z.of_nat i, Z.of_nat N)) (seq 1 (N - a + p * d)) /\
    prints s = (if ftn then
        map (fun q => (Z.of_nat p + 1, Z.of_nat q + 1)%Z) (seq (S (a / d)) (np - 1 - a / d)) ++
        map (fun i => (Z.of_nat p + 1, Z.of_nat p - Z.of_nat i + 1)%Z) (seq 1 p)
      else []).
Proof.
  intros a p l delta ftn x0 y0 HKN Hp HaN Ha Hdelta Hl Hx0 Hy0.
  unfold kick_and_drift.
  assert (Hstart : (if (delta <? 0)%Z then (Z.of_nat p - 1)%Z else Z.of_nat p) = Z.of_nat (a / d)).
  { destruct (Z.ltb_spec delta 0).
    - assert (0 < p) by nia.
      rewrite (div_unique a d (p - 1)); [lia|auto|].
      assert (Z.of_nat ((p - 1) * d) = Z.of_nat p * Z.of_nat d - Z.of_nat d)%Z by nia. lia.
    - rewrite (div_unique a d p); auto.
      assert (Z.of_nat (p * d) = Z.of_nat p * Z.of_nat d)%Z by nia. lia. }
  rewrite Hstart, Ha.
  assert (HaD : a / d < np).
  { pose proof (div_spec a d Hd). destruct (Nat.lt_ge_cases (a/d) np); auto. exfalso.
     nia. }
  destruct (store_row_ok x0 np n (a / d) (map fst l) Hx0 HaD) as [Ex Sx]; [rewrite map_length; auto|].
  destruct (store_row_ok y0 np n (a / d) (map snd l) Hy0 HaD) as [Ey Sy]; [rewrite map_length; auto|].
  rewrite Ex. cbn [bind]. rewrite Ey. cbn [bind].
  replace (Z.to_nat (Z.of_nat N - Z.of_nat a)) with (N - a) by lia.
  destruct (up_loop_inv a p l ftn (upd x0 (a/d) (map fst l)) (upd y0 (a/d) (map snd l)) [] [] 0 Hl
     (N - a) a (TState (map fst l) (map snd l) (upd x0 (a/d) (map fst l)) (upd y0 (a/d) (map snd l))
                  (Z.of_nat (a/d)) (Z.of_nat a) 0 [] []) ltac:(lia) ltac:(lia) ltac:(lia)) as [s1 [E1 H1]].
  { unfold up_inv; cbn [dphi denergy xp yp profile turn progress calls prints].
    replace (a - a) with 0 by lia. replace (a/d - a/d) with 0 by lia.
    assert (Hid : map (ups 0 a) l = l) by apply map_id.
    rewrite Hid. unfold up_calls, up_prints. simpl.
    repeat split; auto; try apply Sx; try apply Sy; try (destruct ftn; reflexivity); try lia;
    intros q; destruct (Nat.ltb_spec (a/d) q), (Nat.leb_spec q (a/d)); simpl; auto; lia. }
  rewrite E1. cbn [bind].
  assert (HND : N / d = np - 1).
  { rewrite HN, Nat.mul_comm. apply Nat.div_mul. lia. }
  destruct H1 as (Hph & Hde & Hsx & Hsy & Hx & Hy & Hprof & Hturn & Hpg & Hcalls & Hprints).
  assert (Hx0l : length x0 = np) by apply Hx0. assert (Hy0l : length y0 = np) by apply Hy0.
  rewrite HND in *.
  (* row p after the upward pass *)
  assert (Hpiv : row_is (xp s1) (yp s1) p (pivot a p l)).
  { unfold row_is, pivot. rewrite Hx, Hy.
    destruct (Z.ltb_spec delta 0) as [Hneg|Hpos].
    - assert (Hpd : a < p * d) by nia. destruct (Nat.ltb_spec a (p*d)); [|lia].
      assert (a / d < p) by (assert (Z.of_nat (a/d) = Z.of_nat p - 1)%Z by lia; lia).
      destruct (Nat.ltb_spec (a/d) p); [|lia].
      destruct (Nat.leb_spec p (np - 1)); [|lia]. simpl. auto.
    - assert (Hpd : p * d <= a) by nia. destruct (Nat.ltb_spec a (p*d)); [lia|].
      assert (Hpp : a / d = p) by lia. rewrite Hpp.
      rewrite Nat.ltb_irrefl. simpl.
      rewrite !nth_error_upd by lia. rewrite Nat.eqb_refl. auto. }
  assert (HPn : length (pivot a p l) = n).
  { unfold pivot. destruct (a <? p * d); auto. rewrite map_length; auto. }
  assert (Hup : forall q, p < q < np -> row_is (xp s1) (yp s1) q (map (ups (q * d - a) a) l)).
  { intros q Hq. unfold row_is. rewrite Hx, Hy.
    assert (a / d <= p) by (destruct (delta <? 0)%Z; lia).
    destruct (Nat.ltb_spec (a/d) q); [|lia]. destruct (Nat.leb_spec q (np-1)); [|lia]. auto. }
  destruct (Z.ltb_spec 0 (Z.of_nat p)) as [Hp0|Hp0].
  - destruct Hpiv as [Hpx Hpy].
    rewrite (get_nat _ _ _ _ Hpx), (get_nat _ _ _ _ Hpy). cbn [bind].
    rewrite copy_loop_ok by (try rewrite Hph; rewrite !map_length; auto). cbn [bind].
    rewrite copy_loop_ok by (try rewrite Hde; rewrite !map_length; auto). cbn [bind].
    replace (Z.of_nat p * Z.of_nat d)%Z with (Z.of_nat (p * d)) by lia.
    rewrite Nat2Z.id.
    destruct (down_loop_inv p (pivot a p l) ftn (xp s1) (yp s1) (calls s1) (prints s1) (N - a) HPn Hp (p * d)
       ltac:(apply ceil_div_unique; auto; lia) (p * d)
       (TState (map fst (pivot a p l)) (map snd (pivot a p l)) (xp s1) (yp s1) (Z.of_nat p)
          (Z.of_nat (p * d)) (progress s1) (calls s1) (prints s1)) ltac:(lia) ltac:(nia)) as [s2 [E2 H2]].
    { unfold down_inv; cbn [dphi denergy xp yp profile turn progress calls prints].
      assert (Hc : ceil_div (p * d) d = p) by (apply ceil_div_unique; auto; lia).
      rewrite Hc. replace (p * d - p * d) with 0 by lia. replace (p - p) with 0 by lia.
      assert (Hid : map (downs 0 (p * d)) (pivot a p l) = pivot a p l) by apply map_id.
      rewrite Hid. unfold down_calls, down_prints. simpl.
      rewrite !app_nil_r.
      repeat split; auto; try apply Hsx; try apply Hsy;
        try (destruct ftn; rewrite ?app_nil_r; reflexivity);
        try (rewrite Hpg; lia);
        intros q; destruct (Nat.leb_spec p q), (Nat.ltb_spec q p); simpl; auto; lia. }
    rewrite E2. exists s2. split; auto.
    destruct H2 as (_ & _ & Hsx2 & Hsy2 & Hx2 & Hy2 & _ & _ & _ & Hcalls2 & Hprints2).
    split; [auto|]. split; [auto|].
    assert (Hc0 : ceil_div 0 d = 0) by (apply ceil_div_unique; auto; lia).
    rewrite Hc0 in *.
    split; [|split].
    + intros q Hq. unfold row_is. rewrite Hx2, Hy2. unfold row_spec.
      simpl (0 <=? q). simpl (_ && _).
      destruct (Nat.ltb_spec q p), (Nat.ltb_spec p q); try lia; auto.
      * apply Hup; lia.
      * assert (q = p) by lia. subst q. replace (p * d - p * d) with 0 by lia.
        assert (Hid : map (downs 0 (p * d)) (pivot a p l) = pivot a p l) by apply map_id.
        rewrite Hid. auto.
    + rewrite Hcalls2, Hcalls. unfold up_calls, down_calls. simpl.
      rewrite <- map_app. f_equal.
      replace (p * d - 0) with (p * d) by lia. rewrite <- seq_app. reflexivity.
    + rewrite Hprints2, Hprints. unfold up_prints, down_prints. simpl.
      replace (p - 0) with p by lia. destruct ftn; reflexivity.
  - assert (p = 0) by lia. subst p.
    eexists. split; [reflexivity|]. cbn [dphi denergy xp yp profile turn progress calls prints].
    split; [auto|]. split; [auto|]. split; [|split].
    + intros q Hq. unfold row_spec.
      destruct (Nat.ltb_spec 0 q); [apply Hup; lia|].
      assert (q = 0) by lia. subst q. simpl.
      assert (Hid : map (fun s : T * T => s) (pivot a 0 l) = pivot a 0 l) by apply map_id.
      rewrite Hid. auto.
    + rewrite Hcalls. unfold up_calls. simpl. f_equal. f_equal. lia.
    + rewrite Hprints. unfold up_prints. simpl. destruct ftn; rewrite ?app_nil_r; auto.
Qed.

End PTrack.
