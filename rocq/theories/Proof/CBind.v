(** Proofs about calls into the compiled library (C103-C105). *)
(*HEAD*)
From Coq Require Import List ZArith Bool.
From Verif Require Import Base.Res Model.MTrack Model.MBind Spec.BindSpec.
Import ListNotations.
Local Open Scope Z_scope.
(*DAEH*)
From Coq Require Import Lia.
From Verif Require Import Proof.PBind.

Section L.
Context {T : Type} (add sub mul : dtype -> T -> T -> T) (sin : dtype -> T -> T)
        (single : T -> T) (ofZ : Z -> T) (zero past : T).

Notation call := (call_kick_and_drift add sub mul sin single ofZ past).
Notation body := (body add sub mul sin single ofZ past).
Notation compiled := (compiled add sub mul sin).
Notation load_all := (load_all single ofZ).
Notation legacy := (legacy_kick_and_drift add sub mul sin single ofZ past).

Ltac inv_cons H :=
  let h1 := fresh "h1" in let c1 := fresh "c1" in let r1 := fresh "r1" in let A := fresh "A" in
  apply load_all_cons in H; destruct H as (h1 & c1 & r1 & A & H & ->).

(** The call without deltaturn, machine version. *)
Lemma call_11 h x y de ph v1 v2 o rp a b h' r :
  call h [x; y; de; ph; v1; v2; PObj o; PInt rp; PInt a; PInt b; PBool false] None = Ok (h', r) ->
  exists hF lx ly lde lph w1 w2 p12 hr,
    (exists X, hF = h ++ X) /\ lands single F64 h x hF lx /\ lands single F64 h y hF ly /\
    match o with MObj p0 dE co _ _ dt =>
      compiled F64 hF lx ly lde lph (Machine w1 w2 p0 dE co (expand past p12 b) hr) dt rp a b 0 false
      = Ok (h', r) end.
Proof.
  unfold call_kick_and_drift.
  destruct (dispatch _ _ _ _ _) as [[[v hF] cs]|] eqn:D; [|discriminate].
  apply dispatch_inv in D. destruct D as (c & I & D). unfold try_version in D.
  destruct v as [|d|d].
  2,3: cbn in D; discriminate.
  cbn [fill params length app repeat Nat.ltb Nat.leb Nat.eqb Nat.sub] in D.
  destruct (load_arrs single ofZ c F64 [x; y; de; ph; v1; v2] _ _ _ _ _ D)
    as (ls & r' & h1 & L & -> & D' & [X ->] & F).
  destruct (load_all_extends _ _ _ _ _ _ _ _ D') as [Y EY].
  destruct ls as [|lx [|ly [|lde [|lph [|lv1 [|lv2 [|]]]]]]]; try discriminate.
  inversion F as [|? ? ? ? Fx F1]; subst. inversion F1 as [|? ? ? ? Fy F2]; subst.
  inv_cons D'. cbn in A. injection A as <- <-.
  inv_cons D'. apply load_int in A. destruct A as [-> ->].
  inv_cons D'. apply load_int in A. destruct A as [-> ->].
  inv_cons D'. apply load_int in A. destruct A as [-> ->].
  inv_cons D'. cbn in A. injection A as <- <-.
  inv_cons D'. cbn in A. injection A as <- <-.
  inv_cons D'. cbn in A. injection A as <- <-.
  cbn in D'. injection D' as EE <-.
  cbn [map app]. unfold MBind.body. destruct o as [p0 dE co mp12 mhr dt].
  intro H. inv_bind H. inv_bind H. inv_bind H. inv_bind H.
  exists ((h ++ X) ++ Y), lx, ly, lde, lph, v, v0, v3, v4.
  split; [exists (X ++ Y); now rewrite app_assoc|]. split; [exact Fx|]. split; [exact Fy|exact H].
Qed.

(** The call without deltaturn, the other versions. *)
Lemma call_16 h x y de ph v1 v2 p0 dE co p12 hr dt rp a b h' r :
  call h [x; y; de; ph; v1; v2; p0; dE; co; p12; hr; PInt dt; PInt rp; PInt a; PInt b;
          PBool false] None = Ok (h', r) ->
  exists d hF lx ly lde lph lco m,
    (exists X, hF = h ++ X) /\ lands single d h x hF lx /\ lands single d h y hF ly /\
    lands single d h co hF lco /\ vec_at hF lco = Ok (drift_coef m) /\
    compiled d hF lx ly lde lph m dt rp a b 0 false = Ok (h', r).
Proof.
  unfold call_kick_and_drift.
  destruct (dispatch _ _ _ _ _) as [[[v hF] cs]|] eqn:D; [|discriminate].
  apply dispatch_inv in D. destruct D as (c & I & D). unfold try_version in D.
  destruct v as [|d|d].
  1: cbn in D; discriminate.
  - cbn [fill params length app repeat Nat.ltb Nat.leb Nat.eqb Nat.sub] in D.
    destruct (load_arrs single ofZ c d [x; y; de; ph; v1; v2; p0; dE; co] _ _ _ _ _ D)
      as (ls & r' & h1 & L & -> & D' & [X ->] & F).
    destruct (load_all_extends _ _ _ _ _ _ _ _ D') as [Y EY].
    destruct ls as [|lx [|ly [|lde [|lph [|lv1 [|lv2 [|lp0 [|ldE [|lco [|]]]]]]]]]]; try discriminate.
    inversion F as [|? ? ? ? Fx F1]; subst. inversion F1 as [|? ? ? ? Fy F2]; subst.
    inversion F2 as [|? ? ? ? _ F3]; subst. inversion F3 as [|? ? ? ? _ F4]; subst.
    inversion F4 as [|? ? ? ? _ F5]; subst. inversion F5 as [|? ? ? ? _ F6]; subst.
    inversion F6 as [|? ? ? ? _ F7]; subst. inversion F7 as [|? ? ? ? _ F8]; subst.
    inversion F8 as [|? ? ? ? Fco _]; subst.
    inv_cons D'. apply load_real in A. destruct A as [-> [rp12 ->]].
    inv_cons D'. apply load_real in A. destruct A as [-> [rhr ->]].
    inv_cons D'. apply load_int in A. destruct A as [-> ->].
    inv_cons D'. apply load_int in A. destruct A as [-> ->].
    inv_cons D'. apply load_int in A. destruct A as [-> ->].
    inv_cons D'. apply load_int in A. destruct A as [-> ->].
    inv_cons D'. cbn in A. injection A as <- <-.
    inv_cons D'. cbn in A. injection A as <- <-.
    inv_cons D'. cbn in A. injection A as <- <-.
    cbn in D'. injection D' as EE <-.
    cbn [map app]. unfold MBind.body.
    intro H. inv_bind H. inv_bind H. inv_bind H. inv_bind H. inv_bind H.
    exists d, ((h ++ X) ++ Y), lx, ly, lde, lph, lco,
      (Machine v v0 v3 v4 v5 (expand past rp12 b) rhr).
    split; [exists (X ++ Y); now rewrite app_assoc|].
    split; [exact Fx|]. split; [exact Fy|]. split; [exact Fco|]. split; [exact E3|exact H].
  - cbn [fill params length app repeat Nat.ltb Nat.leb Nat.eqb Nat.sub] in D.
    destruct (load_arrs single ofZ c d [x; y; de; ph; v1; v2; p0; dE; co] _ _ _ _ _ D)
      as (ls & r' & h1 & L & -> & D' & [X ->] & F).
    destruct (load_all_extends _ _ _ _ _ _ _ _ D') as [Y EY].
    destruct ls as [|lx [|ly [|lde [|lph [|lv1 [|lv2 [|lp0 [|ldE [|lco [|]]]]]]]]]]; try discriminate.
    inversion F as [|? ? ? ? Fx F1]; subst. inversion F1 as [|? ? ? ? Fy F2]; subst.
    inversion F2 as [|? ? ? ? _ F3]; subst. inversion F3 as [|? ? ? ? _ F4]; subst.
    inversion F4 as [|? ? ? ? _ F5]; subst. inversion F5 as [|? ? ? ? _ F6]; subst.
    inversion F6 as [|? ? ? ? _ F7]; subst. inversion F7 as [|? ? ? ? _ F8]; subst.
    inversion F8 as [|? ? ? ? Fco _]; subst.
    inv_cons D'. destruct (load_arr _ _ _ _ _ _ _ _ A) as (lp12 & -> & _).
    inv_cons D'. apply load_real in A0. destruct A0 as [-> [rhr ->]].
    inv_cons D'. apply load_int in A0. destruct A0 as [-> ->].
    inv_cons D'. apply load_int in A0. destruct A0 as [-> ->].
    inv_cons D'. apply load_int in A0. destruct A0 as [-> ->].
    inv_cons D'. apply load_int in A0. destruct A0 as [-> ->].
    inv_cons D'. cbn in A0. injection A0 as <- <-.
    inv_cons D'. cbn in A0. injection A0 as <- <-.
    inv_cons D'. cbn in A0. injection A0 as <- <-.
    cbn in D'. injection D' as EE <-.
    cbn [map app]. unfold MBind.body.
    intro H. inv_bind H. inv_bind H. inv_bind H. inv_bind H. inv_bind H. inv_bind H.
    exists d, ((h ++ X) ++ Y), lx, ly, lde, lph, lco,
      (Machine v v0 v3 v4 v5 v6 rhr).
    split; [exists (X ++ Y); now rewrite app_assoc|].
    split; [exact Fx|]. split; [exact Fy|]. split; [exact Fco|]. split; [exact E3|exact H].
Qed.

Lemma lands_same d h hF l l' t : lands single d h (PArr l) hF l' -> (l < length h)%nat ->
  tab_at hF l' = Ok t -> same_numbers single h l hF l'.
Proof.
  intros L V E. destruct (L l eq_refl V) as (a & Ea & k & Ek).
  unfold tab_at in E. rewrite Ek in E. cbn [adat] in E.
  destruct (adat a) as [|rows] eqn:Q; [discriminate|].
  exists d, a, rows. split; [exact Ea|]. split; [exact Q|].
  unfold tab_at. rewrite Ek. reflexivity.
Qed.

Lemma kept_app (h X : heap T) : kept h (h ++ X).
Proof. intros l V. apply nth_error_app1. exact V. Qed.

(** Nothing is tracked. *)
Lemma legacy_nothing a h xl yl h' x y :
  l_xp a = PArr xl -> (xl < length h)%nat -> l_yp a = PArr yl -> (yl < length h)%nat ->
  l_ftn a = false -> legacy a h = Ok (h', (x, y)) ->
  kept h h' /\ same_numbers single h xl h' x /\ same_numbers single h yl h' y.
Proof.
  intros Ex Vx Ey Vy F. unfold legacy_kick_and_drift. rewrite Ex, Ey, F.
  destruct (l_machine a) as [[p0 dE co mp mh dt]|].
  - intro H. apply call_11 in H.
    destruct H as (hF & lx & ly & lde & lph & w1 & w2 & p12 & hr & [X ->] & Lx & Ly & C).
    apply compiled_0 in C. destruct C as (-> & R & [tx Hx] & [ty_ Hy]). injection R as -> ->.
    split; [apply kept_app|]. split; eapply lands_same; eauto.
  - destruct (l_phi0 a); [|discriminate]. destruct (l_deltaE0 a); [|discriminate].
    destruct (l_omega_rev0 a); [|discriminate]. destruct (l_drift_coef a); [|discriminate].
    destruct (l_phi12 a); [|discriminate]. destruct (l_h_ratio a); [|discriminate].
    destruct (l_dturns a); [|discriminate].
    intro H. apply call_16 in H.
    destruct H as (d & hF & lx & ly & lde & lph & lco & m & [X ->] & Lx & Ly & _ & _ & C).
    apply compiled_0 in C. destruct C as (-> & R & [tx Hx] & [ty_ Hy]). injection R as -> ->.
    split; [apply kept_app|]. split; eapply lands_same; eauto.
Qed.

(** Values outside the machine arrays are read. *)
Lemma legacy_outside a h co dt r :
  drift_given h a co dt -> l_ftn a = false ->
  Z.of_nat (length co) <= l_rec_prof a * dt + l_nturns a < l_nparts a ->
  legacy a h <> Ok r.
Proof.
  intros G F B H. destruct r as [h' r]. unfold legacy_kick_and_drift in H. rewrite F in H.
  inversion G as [p0 dE co' p12 hr dt' Em|l f c co' dt' Em Eco Edt El]; subst co' dt'.
  - rewrite Em in H. apply call_11 in H.
    destruct H as (hF & lx & ly & lde & lph & w1 & w2 & q12 & hr' & _ & _ & _ & C).
    apply compiled_reads in C; [|lia]. cbn in C. lia.
  - rewrite Em, Eco, Edt in H.
    destruct (l_phi0 a); [|discriminate]. destruct (l_deltaE0 a); [|discriminate].
    destruct (l_omega_rev0 a); [|discriminate].
    destruct (l_phi12 a); [|discriminate]. destruct (l_h_ratio a); [|discriminate].
    apply call_16 in H.
    destruct H as (d & hF & lx & ly & lde & lph & lco & m & _ & _ & _ & Lc & V & C).
    apply compiled_reads in C; [|lia].
    assert (Vl : (l < length h)%nat) by (apply nth_error_Some; congruence).
    destruct (Lc l eq_refl Vl) as (a' & Ea & k & Ek). rewrite El in Ea. injection Ea as <-.
    unfold vec_at in V. rewrite Ek in V. cbn in V. injection V as V.
    rewrite <- V in C. rewrite map_length in C. lia.
Qed.


(** ** The call made by [track] *)
Notation track := (track add sub mul sin single ofZ zero past).
Notation tracked_in := (tracked_in add sub mul sin single zero).
Notation dispatch := (dispatch single ofZ).
Notation try_version := (try_version single ofZ).
Notation load := (load single ofZ).
Notation conv := (conv single).

(** The integers, the flag and the callback. *)
Definition tail_types : list ty := [TInt; TInt; TInt; TInt; TInt; TBool; TOpt].
Definition tail_args (dt rp dl nt np : Z) (f : bool) (cb : pyval T) : list (pyval T) :=
  [PInt dt; PInt rp; PInt dl; PInt nt; PInt np; PBool f; cb].
Definition in_range (z : Z) : bool := (- 2 ^ 31 <=? z) && (z <? 2 ^ 31).
Definition tail_loaded (dt rp dl nt np : Z) (f : bool) (cb : pyval T) : option (list (cval T)) :=
  if in_range dt && (in_range rp && (in_range dl && (in_range nt && in_range np)))
  then Some [CInt dt; CInt rp; CInt dl; CInt nt; CInt np; CBool f;
             COpt (match cb with PNone => None | _ => Some cb end)]
  else None.

Lemma tail_load c H dt rp dl nt np f cb :
  load_all c tail_types H (tail_args dt rp dl nt np f cb) =
  match tail_loaded dt rp dl nt np f cb with Some r => Some (H, r) | None => None end.
Proof.
  unfold tail_types, tail_args, tail_loaded, in_range. cbn [MBind.load_all MBind.load].
  destruct ((- 2 ^ 31 <=? dt) && (dt <? 2 ^ 31)); [|reflexivity].
  destruct ((- 2 ^ 31 <=? rp) && (rp <? 2 ^ 31)); [|reflexivity].
  destruct ((- 2 ^ 31 <=? dl) && (dl <? 2 ^ 31)); [|reflexivity].
  destruct ((- 2 ^ 31 <=? nt) && (nt <? 2 ^ 31)); [|reflexivity].
  destruct ((- 2 ^ 31 <=? np) && (np <? 2 ^ 31)); [|reflexivity].
  destruct cb; reflexivity.
Qed.

Lemma in_range_int z : an_int z -> in_range z = true.
Proof.
  unfold an_int, in_range. intros [A B]. apply andb_true_intro. split.
  - apply Z.leb_le. exact A.
  - apply Z.ltb_lt. exact B.
Qed.

(** The nine arrays followed by phi12, the ratio and the rest. *)
Definition call_args (ls : list loc) (p12 hr : pyval T) (tl : list (pyval T)) : list (pyval T) :=
  map PArr ls ++ p12 :: hr :: tl.

Lemma scalar_ready c d H ls p12 hr dt rp dl nt np f cb :
  length ls = 9%nat -> Forall (ready d H) ls ->
  load_all c (params (VScalar d)) H (call_args ls p12 hr (tail_args dt rp dl nt np f cb)) =
  prefixed ls (load_all c (TReal d :: TReal d :: tail_types) H
                 (p12 :: hr :: tail_args dt rp dl nt np f cb)).
Proof. intros L F. rewrite <- (load_ready single ofZ c d H _ _ ls F). rewrite L. reflexivity. Qed.

Lemma array_ready c d H ls p12 hr dt rp dl nt np f cb :
  length ls = 9%nat -> Forall (ready d H) ls ->
  load_all c (params (VArray d)) H (call_args ls p12 hr (tail_args dt rp dl nt np f cb)) =
  prefixed ls (load_all c (TArr d :: TReal d :: tail_types) H
                 (p12 :: hr :: tail_args dt rp dl nt np f cb)).
Proof. intros L F. rewrite <- (load_ready single ofZ c d H _ _ ls F). rewrite L. reflexivity. Qed.

Lemma scalar_refused d e H ls p12 hr tl :
  d <> e -> length ls = 9%nat -> Forall (ready d H) ls ->
  load_all false (params (VScalar e)) H (call_args ls p12 hr tl) = None.
Proof.
  intros N L F. destruct ls as [|l ls]; [discriminate|]. inversion F; subst.
  rewrite <- (load_refused single ofZ d e H (TReal e :: TReal e :: tail_types) (p12 :: hr :: tl) l ls)
    by assumption.
  rewrite L. reflexivity.
Qed.

Lemma array_refused d e H ls p12 hr tl :
  d <> e -> length ls = 9%nat -> Forall (ready d H) ls ->
  load_all false (params (VArray e)) H (call_args ls p12 hr tl) = None.
Proof.
  intros N L F. destruct ls as [|l ls]; [discriminate|]. inversion F; subst.
  rewrite <- (load_refused single ofZ d e H (TArr e :: TReal e :: tail_types) (p12 :: hr :: tl) l ls)
    by assumption.
  rewrite L. reflexivity.
Qed.

Lemma scalar_copied d e H ls p12 hr tl :
  d <> e -> length ls = 9%nat -> Forall (ready d H) ls ->
  exists X, length X = 9%nat /\
  load_all true (params (VScalar e)) H (call_args ls p12 hr tl) =
  prefixed (seq (length H) 9)
    (load_all true (TReal e :: TReal e :: tail_types) (H ++ X) (p12 :: hr :: tl)).
Proof.
  intros N L F.
  destruct (load_copied single ofZ d e (TReal e :: TReal e :: tail_types) (p12 :: hr :: tl) N
              ls H [] F) as (X & LX & E).
  rewrite app_nil_r, L in E. exists X. split; [congruence|]. exact E.
Qed.

Lemma array_copied d e H ls p12 hr tl :
  d <> e -> length ls = 9%nat -> Forall (ready d H) ls ->
  exists X, length X = 9%nat /\
  load_all true (params (VArray e)) H (call_args ls p12 hr tl) =
  prefixed (seq (length H) 9)
    (load_all true (TArr e :: TReal e :: tail_types) (H ++ X) (p12 :: hr :: tl)).
Proof.
  intros N L F.
  destruct (load_copied single ofZ d e (TArr e :: TReal e :: tail_types) (p12 :: hr :: tl) N
              ls H [] F) as (X & LX & E).
  rewrite app_nil_r, L in E. exists X. split; [congruence|]. exact E.
Qed.

(** The call of [track]: 17 positional arguments and the callback. *)
Definition track_pos (ls : list loc) (p12 hr : pyval T) (dt rp dl nt np : Z) (f : bool) :=
  map PArr ls ++ [p12; hr; PInt dt; PInt rp; PInt dl; PInt nt; PInt np; PBool f].

Lemma try_track c H ls p12 hr dt rp dl nt np f cb v :
  length ls = 9%nat ->
  try_version c H (track_pos ls p12 hr dt rp dl nt np f) (Some cb) v =
  match v with
  | VMachine => None
  | _ => load_all c (params v) H (call_args ls p12 hr (tail_args dt rp dl nt np f cb))
  end.
Proof.
  intro L. destruct ls as [|l1 [|l2 [|l3 [|l4 [|l5 [|l6 [|l7 [|l8 [|l9 [|]]]]]]]]]]; try discriminate.
  destruct v; reflexivity.
Qed.

(** *** When the library takes everything as it is, or in double precision *)

(** The arguments as loaded by the version of precision [d] on the arrays
    themselves. *)
Definition scalar_args (ls : list loc) (x y : T) (tl : list (cval T)) : list (cval T) :=
  map (@CArr T) ls ++ CReal x :: CReal y :: tl.
Definition array_args (ls : list loc) (l : loc) (y : T) (tl : list (cval T)) : list (cval T) :=
  map (@CArr T) ls ++ CArr l :: CReal y :: tl.

Lemma number_cases v fx : number ofZ v = Some fx ->
  (exists x, v = PFloat x) \/
  (forall c d H, load c (TReal d) H v = if c then Some (H, CReal (conv (fst fx) d (snd fx))) else None)
  /\ (forall d H, load false (TArr d) H v = None).
Proof.
  destruct fx as [g x]. destruct v; cbn; try discriminate.
  - intros [= <- <-]. left. eauto.
  - intros [= <- <-]. right. split; intros; cbn; [destruct c|]; reflexivity.
  - intros [= <- <-]. right. split; intros; cbn; [destruct c|]; reflexivity.
  - intros [= <- <-]. right. split; intros; cbn; [destruct c|]; reflexivity.
Qed.

Lemma float_not_array d H x : load false (TArr d) H (PFloat x) = None.
Proof. reflexivity. Qed.

Section Dispatch.
Context (H : heap T) (ls : list loc) (dt rp dl nt np : Z) (f : bool) (cb : pyval T)
        (tl : list (cval T)).
Hypothesis L9 : length ls = 9%nat.
Hypothesis TL : tail_loaded dt rp dl nt np f cb = Some tl.

Lemma load_two c t1 t2 G v1 v2 h1 c1 h2 c2 :
  load c t1 G v1 = Some (h1, c1) -> load c t2 h1 v2 = Some (h2, c2) ->
  load_all c (t1 :: t2 :: tail_types) G (v1 :: v2 :: tail_args dt rp dl nt np f cb) =
  Some (h2, c1 :: c2 :: tl).
Proof.
  intros A B. cbn [MBind.load_all]. rewrite A, B.
  pose proof (tail_load c h2 dt rp dl nt np f cb) as E. rewrite TL in E. rewrite E. reflexivity.
Qed.

Lemma load_two_1 c t1 t2 G v1 v2 : load c t1 G v1 = None ->
  load_all c (t1 :: t2 :: tail_types) G (v1 :: v2 :: tail_args dt rp dl nt np f cb) = None.
Proof. intro A. cbn [MBind.load_all]. rewrite A. reflexivity. Qed.

Lemma load_two_2 c t1 t2 G v1 v2 h1 c1 :
  load c t1 G v1 = Some (h1, c1) -> load c t2 h1 v2 = None ->
  load_all c (t1 :: t2 :: tail_types) G (v1 :: v2 :: tail_args dt rp dl nt np f cb) = None.
Proof. intros A B. cbn [MBind.load_all]. rewrite A, B. reflexivity. Qed.

(** Python floats: the scalar version of the precision of the arrays. *)
Lemma dispatch_floats d x y :
  Forall (ready d H) ls ->
  dispatch H (track_pos ls (PFloat x) (PFloat y) dt rp dl nt np f) (Some cb) =
  Some (VScalar d, H, scalar_args ls (conv F64 d x) (conv F64 d y) tl).
Proof.
  intro R. unfold MBind.dispatch, first_fit, overloads.
  rewrite !try_track by exact L9.
  assert (S : load_all false (params (VScalar d)) H
     (call_args ls (PFloat x) (PFloat y) (tail_args dt rp dl nt np f cb)) =
     Some (H, scalar_args ls (conv F64 d x) (conv F64 d y) tl)).
  { rewrite scalar_ready by assumption.
    rewrite (load_two false (TReal d) (TReal d) H (PFloat x) (PFloat y) H _ H _ eq_refl eq_refl).
    reflexivity. }
  destruct d.
  - rewrite S. reflexivity.
  - rewrite (scalar_refused F32 F64) by (congruence || assumption). rewrite S. reflexivity.
Qed.

(** A contiguous array of the right type and a Python float. *)
Lemma dispatch_array d l y :
  Forall (ready d H) ls -> ready d H l ->
  dispatch H (track_pos ls (PArr l) (PFloat y) dt rp dl nt np f) (Some cb) =
  Some (VArray d, H, array_args ls l (conv F64 d y) tl).
Proof.
  intros R (a & Ea & Ed & Ec). unfold MBind.dispatch, first_fit, overloads.
  rewrite !try_track by exact L9.
  assert (A : load false (TArr d) H (PArr l) = Some (H, CArr l)).
  { cbn. rewrite Ea, Ed, dtype_eqb_refl, Ec. reflexivity. }
  assert (S : load_all false (params (VArray d)) H
     (call_args ls (PArr l) (PFloat y) (tail_args dt rp dl nt np f cb)) =
     Some (H, array_args ls l (conv F64 d y) tl)).
  { rewrite array_ready by assumption.
    rewrite (load_two false (TArr d) (TReal d) H (PArr l) (PFloat y) H _ H _ A eq_refl).
    reflexivity. }
  assert (N : load_all false (params (VScalar d)) H
     (call_args ls (PArr l) (PFloat y) (tail_args dt rp dl nt np f cb)) = None).
  { rewrite scalar_ready by assumption.
    rewrite (load_two_1 false (TReal d) (TReal d) H (PArr l) (PFloat y) eq_refl). reflexivity. }
  destruct d.
  - rewrite N. rewrite (scalar_refused F64 F32) by (congruence || assumption). rewrite S. reflexivity.
  - rewrite (scalar_refused F32 F64) by (congruence || assumption). rewrite N.
    rewrite (array_refused F32 F64) by (congruence || assumption). rewrite S. reflexivity.
Qed.

(** Numbers of any kind in double precision. *)
Lemma dispatch_numbers v w gx gy :
  Forall (ready F64 H) ls -> number ofZ v = Some gx -> number ofZ w = Some gy ->
  dispatch H (track_pos ls v w dt rp dl nt np f) (Some cb) =
  Some (VScalar F64, H,
        scalar_args ls (conv (fst gx) F64 (snd gx)) (conv (fst gy) F64 (snd gy)) tl).
Proof.
  intros R Ev Ew.
  assert (LT : forall v g G, number ofZ v = Some g ->
            load true (TReal F64) G v = Some (G, CReal (conv (fst g) F64 (snd g)))).
  { intros v0 [g0 x0] G E. destruct v0; cbn in *; try discriminate; injection E as <- <-; reflexivity. }
  assert (AF : forall v g G, number ofZ v = Some g -> load false (TArr F64) G v = None).
  { intros v0 [g0 x0] G E. destruct v0; cbn in *; try discriminate; reflexivity. }
  destruct (number_cases v gx Ev) as [[x ->]|[Pv _]].
  - destruct (number_cases w gy Ew) as [[y ->]|[Pw _]].
    + rewrite (dispatch_floats F64) by exact R. cbn in Ev, Ew.
      injection Ev as <-. injection Ew as <-. reflexivity.
    + unfold MBind.dispatch, first_fit, overloads. rewrite !try_track by exact L9.
      rewrite (scalar_refused F64 F32) by (congruence || assumption).
      rewrite (array_refused F64 F32) by (congruence || assumption).
      rewrite !scalar_ready, !array_ready by assumption.
      rewrite (load_two_2 false (TReal F64) (TReal F64) H (PFloat x) w H _ eq_refl) by (rewrite Pw; reflexivity).
      rewrite (load_two_1 false (TArr F64)) by (apply (AF _ gx); assumption).
      cbn [prefixed].
      rewrite (load_two true _ _ H (PFloat x) w H _ H _ (LT _ _ H Ev) (LT _ _ H Ew)).
      reflexivity.
  - unfold MBind.dispatch, first_fit, overloads. rewrite !try_track by exact L9.
    rewrite (scalar_refused F64 F32) by (congruence || assumption).
    rewrite (array_refused F64 F32) by (congruence || assumption).
    rewrite !scalar_ready, !array_ready by assumption.
    rewrite (load_two_1 false (TReal F64)) by (rewrite Pv; reflexivity).
    rewrite (load_two_1 false (TArr F64)) by (apply (AF _ gx); assumption).
    cbn [prefixed].
    rewrite (load_two true _ _ H v w H _ H _ (LT _ _ H Ev) (LT _ _ H Ew)).
    reflexivity.
Qed.

(** An array of at least two elements in double precision. *)
Lemma dispatch_array_double l g c p w gy :
  Forall (ready F64 H) ls -> nth_error H l = Some (Arr g c (Vec p)) -> (2 <= length p)%nat ->
  number ofZ w = Some gy ->
  exists X l', dispatch H (track_pos ls (PArr l) w dt rp dl nt np f) (Some cb) =
    Some (VArray F64, H ++ X, array_args ls l' (conv (fst gy) F64 (snd gy)) tl) /\
    vec_at (H ++ X) l' = Ok (map (conv g F64) p).
Proof.
  intros R El Lp Ew.
  assert (NE : the_element (Vec p) = None).
  { destruct p as [|? [|]]; cbn in *; try lia; reflexivity. }
  assert (LT : forall G, load true (TReal F64) G w = Some (G, CReal (conv (fst gy) F64 (snd gy)))).
  { intro G. destruct gy as [g0 x0]. destruct w; cbn in *; try discriminate; injection Ew as <- <-; reflexivity. }
  assert (NR : forall d G b, nth_error G l = Some (Arr g c (Vec p)) -> load b (TReal d) G (PArr l) = None).
  { intros d G b E. cbn [MBind.load]. destruct b; [|reflexivity]. rewrite E. cbn [adat]. rewrite NE.
    reflexivity. }
  assert (VR : vec_at H l = Ok p) by (unfold vec_at; rewrite El; reflexivity).
  (* pass 2 *)
  assert (P2 : exists X l', first_fit single ofZ true H (track_pos ls (PArr l) w dt rp dl nt np f)
       (Some cb) overloads =
    Some (VArray F64, H ++ X, array_args ls l' (conv (fst gy) F64 (snd gy)) tl) /\
    vec_at (H ++ X) l' = Ok (map (conv g F64) p)).
  { unfold first_fit, overloads. rewrite !try_track by exact L9.
    rewrite scalar_ready, array_ready by assumption.
    rewrite (load_two_1 true (TReal F64)) by (apply NR; exact El). cbn [prefixed].
    destruct (scalar_copied F64 F32 H ls (PArr l) w (tail_args dt rp dl nt np f cb)) as (X & LX & ->);
      [congruence|exact L9|exact R|].
    rewrite (load_two_1 true (TReal F32)).
    2:{ apply NR. rewrite nth_error_app1; [exact El|]. apply nth_error_Some. congruence. }
    cbn [prefixed].
    destruct (dtype_eqb g F64 && c) eqn:B.
    - exists [], l. rewrite app_nil_r.
      assert (A : load true (TArr F64) H (PArr l) = Some (H, CArr l)).
      { cbn. rewrite El. cbn [adt acontig]. rewrite B. reflexivity. }
      rewrite (load_two true _ _ H (PArr l) w H _ H _ A (LT H)).
      split; [reflexivity|]. apply andb_prop in B. destruct B as [B _]. apply dtype_eqb_eq in B. subst g.
      rewrite map_conv_same. exact VR.
    - exists [Arr F64 true (Vec (map (conv g F64) p))], (length H).
      assert (A : load true (TArr F64) H (PArr l) =
                  Some (H ++ [Arr F64 true (Vec (map (conv g F64) p))], CArr (length H))).
      { cbn. rewrite El. cbn [adt acontig adat]. rewrite B. reflexivity. }
      rewrite (load_two true _ _ H (PArr l) w _ _ _ _ A (LT _)).
      split; [reflexivity|]. unfold vec_at. rewrite nth_error_app2 by lia. rewrite Nat.sub_diag. reflexivity. }
  unfold MBind.dispatch.
  destruct (dtype_eqb g F64 && c) eqn:B.
  - apply andb_prop in B. destruct B as [B Bc]. apply dtype_eqb_eq in B. subst g c.
    destruct (number_cases w gy Ew) as [[y ->]|[Pw _]].
    + exists [], l. rewrite app_nil_r.
      assert (RL : ready F64 H l) by (exists (Arr F64 true (Vec p)); auto).
      pose proof (dispatch_array F64 l y R RL) as D. unfold MBind.dispatch in D. rewrite D.
      cbn in Ew. injection Ew as <-. split; [reflexivity|]. rewrite map_conv_same. exact VR.
    + assert (P1 : first_fit single ofZ false H (track_pos ls (PArr l) w dt rp dl nt np f)
       (Some cb) overloads = None).
      { unfold first_fit, overloads. rewrite !try_track by exact L9.
        rewrite (scalar_refused F64 F32) by (congruence || assumption).
        rewrite (array_refused F64 F32) by (congruence || assumption).
        rewrite scalar_ready, array_ready by assumption.
        rewrite (load_two_1 false (TReal F64)) by (apply NR; exact El).
        assert (A : load false (TArr F64) H (PArr l) = Some (H, CArr l)).
        { cbn. rewrite El. reflexivity. }
        rewrite (load_two_2 false (TArr F64) (TReal F64) H (PArr l) w H _ A) by (rewrite Pw; reflexivity).
        reflexivity. }
      rewrite P1. exact P2.
  - assert (P1 : first_fit single ofZ false H (track_pos ls (PArr l) w dt rp dl nt np f)
       (Some cb) overloads = None).
    { unfold first_fit, overloads. rewrite !try_track by exact L9.
      rewrite (scalar_refused F64 F32) by (congruence || assumption).
      rewrite (array_refused F64 F32) by (congruence || assumption).
      rewrite scalar_ready, array_ready by assumption.
      rewrite (load_two_1 false (TReal F64)) by (apply NR; exact El).
      rewrite (load_two_1 false (TArr F64)).
      2:{ cbn. rewrite El. cbn [adt acontig]. rewrite B. reflexivity. }
      reflexivity. }
    rewrite P1. exact P2.
Qed.

End Dispatch.


(** *** Which arrays a call of [track] works on *)
Lemma load_two_inv c t1 t2 G v1 v2 dt rp dl nt np f cb h' r :
  load_all c (t1 :: t2 :: tail_types) G (v1 :: v2 :: tail_args dt rp dl nt np f cb) = Some (h', r) ->
  exists h1 c1 c2 tl, load c t1 G v1 = Some (h1, c1) /\ load c t2 h1 v2 = Some (h', c2) /\
    tail_loaded dt rp dl nt np f cb = Some tl /\ r = c1 :: c2 :: tl.
Proof.
  intro E. inv_cons E. inv_cons E.
  rewrite tail_load in E. destruct (tail_loaded dt rp dl nt np f cb) as [tl|]; [|discriminate].
  injection E as -> <-. eauto 10.
Qed.

Lemma prefixed_inv ls (o : option (heap T * list (cval T))) h r :
  prefixed ls o = Some (h, r) -> exists r', o = Some (h, r') /\ r = map (@CArr T) ls ++ r'.
Proof. destruct o as [[h0 r0]|]; cbn; [|discriminate]. intros [= <- <-]. eauto. Qed.

Lemma app_extends {A} (H X Y Z : list A) : Z = (H ++ X) ++ Y -> exists W, Z = H ++ W.
Proof. intros ->. exists (X ++ Y). now rewrite app_assoc. Qed.

Lemma dispatch_arrays d H ls p12 hr dt rp dl nt np f cb v H' cs :
  length ls = 9%nat -> Forall (ready d H) ls ->
  dispatch H (track_pos ls p12 hr dt rp dl nt np f) (Some cb) = Some (v, H', cs) ->
  exists ls' rest, (exists X, H' = H ++ X) /\ v <> VMachine /\ cs = map (@CArr T) ls' ++ rest /\
    (ls' = ls \/ ls' = seq (length H) 9).
Proof.
  intros L R D. apply dispatch_inv in D. destruct D as (c & _ & D).
  rewrite try_track in D by exact L.
  assert (DE : forall e, d = e \/ d <> e) by (intro e; destruct d, e; auto; right; discriminate).
  destruct v as [|e|e]; [discriminate| |].
  - destruct (DE e) as [<-|N].
    + rewrite scalar_ready in D by assumption. apply prefixed_inv in D. destruct D as (r' & E & ->).
      apply load_all_extends in E.
      exists ls, r'. split; [exact E|]. split; [discriminate|]. auto.
    + destruct c; [|rewrite (scalar_refused d e) in D by assumption; discriminate].
      destruct (scalar_copied d e H ls p12 hr (tail_args dt rp dl nt np f cb) N L R) as (X & LX & E).
      rewrite E in D. apply prefixed_inv in D. destruct D as (r' & E' & ->).
      apply load_all_extends in E'. destruct E' as [Y ->].
      exists (seq (length H) 9), r'. split; [eapply app_extends; reflexivity|]. split; [discriminate|]. auto.
  - destruct (DE e) as [<-|N].
    + rewrite array_ready in D by assumption. apply prefixed_inv in D. destruct D as (r' & E & ->).
      apply load_all_extends in E.
      exists ls, r'. split; [exact E|]. split; [discriminate|]. auto.
    + destruct c; [|rewrite (array_refused d e) in D by assumption; discriminate].
      destruct (array_copied d e H ls p12 hr (tail_args dt rp dl nt np f cb) N L R) as (X & LX & E).
      rewrite E in D. apply prefixed_inv in D. destruct D as (r' & E' & ->).
      apply load_all_extends in E'. destruct E' as [Y ->].
      exists (seq (length H) 9), r'. split; [eapply app_extends; reflexivity|]. split; [discriminate|]. auto.
Qed.

Lemma real_strict d H v h' c : load false (TReal d) H v = Some (h', c) -> h' = H /\ exists x, v = PFloat x.
Proof. destruct v; cbn; intro E; inversion E; subst; eauto. Qed.

Lemma array_strict d H v h' c : load false (TArr d) H v = Some (h', c) ->
  h' = H /\ exists l a, v = PArr l /\ nth_error H l = Some a /\ adt a = d /\ acontig a = true.
Proof.
  destruct v as [l| | | | | |]; cbn; try discriminate.
  destruct (nth_error H l) as [a|] eqn:E; [|discriminate].
  destruct (dtype_eqb (adt a) d && acontig a) eqn:B; [|discriminate].
  intros [= <- <-]. apply andb_prop in B. destruct B as [B C]. apply dtype_eqb_eq in B.
  split; [reflexivity|]. eauto 10.
Qed.

(** With conversion the precision does not matter for whether a value is taken. *)
Lemma real_transfer d e H X G v h' c : exists_in H v -> load true (TReal d) (H ++ G) v = Some (h', c) ->
  exists c', load true (TReal e) (H ++ X) v = Some (H ++ X, c').
Proof.
  intros V E. destruct v as [l| | | | | |]; cbn in *; try discriminate; eauto.
  rewrite nth_error_app1 in E |- * by exact V.
  destruct (nth_error H l) as [a|]; [|discriminate].
  destruct (the_element (adat a)); [|discriminate]. eauto.
Qed.

Lemma array_transfer d e H X v h' c : exists_in H v -> load true (TArr d) H v = Some (h', c) ->
  exists Y c', load true (TArr e) (H ++ X) v = Some ((H ++ X) ++ Y, c').
Proof.
  intros V E. destruct v as [l| | | | | |]; cbn in *; try discriminate; eauto.
  rewrite nth_error_app1 by exact V.
  destruct (nth_error H l) as [a|]; [|discriminate].
  destruct (dtype_eqb (adt a) e && acontig a); [|eauto].
  exists [], (CArr l). rewrite app_nil_r. reflexivity.
Qed.

Lemma dispatch_copies H ls p12 hr dt rp dl nt np f cb v H' cs :
  length ls = 9%nat -> Forall (ready F32 H) ls -> exists_in H p12 -> exists_in H hr ->
  ~ taken_as_single H p12 hr ->
  dispatch H (track_pos ls p12 hr dt rp dl nt np f) (Some cb) = Some (v, H', cs) ->
  exists rest, (exists X, H' = H ++ X) /\ v <> VMachine /\ cs = map (@CArr T) (seq (length H) 9) ++ rest.
Proof.
  intros L R V1 V2 NT D.
  assert (N32 : F32 <> F64) by discriminate.
  unfold MBind.dispatch in D.
  assert (P1 : first_fit single ofZ false H (track_pos ls p12 hr dt rp dl nt np f)
       (Some cb) overloads = None).
  { unfold first_fit, overloads. rewrite !try_track by exact L.
    rewrite (scalar_refused F32 F64), (array_refused F32 F64) by (discriminate || assumption).
    rewrite scalar_ready, array_ready by assumption.
    destruct (load_all false (TReal F32 :: TReal F32 :: tail_types) H
                (p12 :: hr :: tail_args dt rp dl nt np f cb)) as [[h1 r1]|] eqn:E.
    { exfalso. apply NT. apply load_two_inv in E.
      destruct E as (h2 & c1 & c2 & tl & A & B & _ & _).
      apply real_strict in A. destruct A as [-> [x ->]].
      apply real_strict in B. destruct B as [-> [y ->]].
      split; eauto. }
    cbn [prefixed].
    destruct (load_all false (TArr F32 :: TReal F32 :: tail_types) H
                (p12 :: hr :: tail_args dt rp dl nt np f cb)) as [[h1 r1]|] eqn:E2.
    { exfalso. apply NT. apply load_two_inv in E2.
      destruct E2 as (h2 & c1 & c2 & tl & A & B & _ & _).
      apply array_strict in A. destruct A as [-> (l & a & -> & El & Ed & Ec)].
      apply real_strict in B. destruct B as [-> [y ->]].
      split; [eauto|]. right. eauto 10. }
    reflexivity. }
  rewrite P1 in D. clear P1.
  unfold first_fit, overloads in D. rewrite !try_track in D by exact L.
  destruct (scalar_copied F32 F64 H ls p12 hr (tail_args dt rp dl nt np f cb) N32 L R) as (X & LX & E).
  rewrite E in D. clear E.
  destruct (load_all true (TReal F64 :: TReal F64 :: tail_types) (H ++ X)
              (p12 :: hr :: tail_args dt rp dl nt np f cb)) as [[h1 r1]|] eqn:E.
  { cbn [prefixed] in D. injection D as <- <- <-. apply load_all_extends in E. destruct E as [Y ->].
    exists r1. split; [eapply app_extends; reflexivity|]. split; [discriminate|reflexivity]. }
  cbn [prefixed] in D. rewrite scalar_ready in D by assumption.
  destruct (load_all true (TReal F32 :: TReal F32 :: tail_types) H
              (p12 :: hr :: tail_args dt rp dl nt np f cb)) as [[h2 r2]|] eqn:E2.
  { exfalso. apply load_two_inv in E2. destruct E2 as (h3 & c1 & c2 & tl & A & B & C & _).
    destruct (load_real _ _ _ _ _ _ _ _ A) as [-> _].
    rewrite <- (app_nil_r H) in A, B at 1.
    destruct (real_transfer F32 F64 H X [] p12 _ _ V1 A) as [c1' A'].
    destruct (real_transfer F32 F64 H X [] hr _ _ V2 B) as [c2' B'].
    rewrite (load_two dt rp dl nt np f cb tl C true _ _ (H ++ X) p12 hr _ _ _ _ A' B') in E.
    discriminate. }
  cbn [prefixed] in D. clear E E2.
  destruct (array_copied F32 F64 H ls p12 hr (tail_args dt rp dl nt np f cb) N32 L R) as (X2 & LX2 & E).
  rewrite E in D. clear E.
  destruct (load_all true (TArr F64 :: TReal F64 :: tail_types) (H ++ X2)
              (p12 :: hr :: tail_args dt rp dl nt np f cb)) as [[h1 r1]|] eqn:E.
  { cbn [prefixed] in D. injection D as <- <- <-. apply load_all_extends in E. destruct E as [Y ->].
    exists r1. split; [eapply app_extends; reflexivity|]. split; [discriminate|reflexivity]. }
  cbn [prefixed] in D. rewrite array_ready in D by assumption.
  destruct (load_all true (TArr F32 :: TReal F32 :: tail_types) H
              (p12 :: hr :: tail_args dt rp dl nt np f cb)) as [[h2 r2]|] eqn:E2; [|discriminate].
  exfalso. apply load_two_inv in E2. destruct E2 as (h3 & c1 & c2 & tl & A & B & C & _).
  destruct (load_extends _ _ _ _ _ _ _ _ A) as [G ->].
  destruct (array_transfer F32 F64 H X2 p12 _ _ V1 A) as (Y & c1' & A').
  rewrite <- app_assoc in A'.
  destruct (real_transfer F32 F64 H (X2 ++ Y) G hr _ _ V2 B) as [c2' B'].
  rewrite (load_two dt rp dl nt np f cb tl C true _ _ (H ++ X2) p12 hr _ _ _ _ A' B') in E.
  discriminate.
Qed.

(** The body writes only to the first four arrays. *)
Lemma body_kept v H x y de ph a1 a2 a3 a4 a5 rest h' r :
  v <> VMachine ->
  body v H (map (@CArr T) [x; y; de; ph; a1; a2; a3; a4; a5] ++ rest) = Ok (h', r) ->
  forall k, k <> x -> k <> y -> k <> de -> k <> ph -> nth_error h' k = nth_error H k.
Proof.
  intros NM E. cbn [map app] in E. unfold MBind.body in E. destruct v as [|d|d]; [congruence| |].
  - repeat match type of E with
           | context[match ?e with [] => _ | _ :: _ => _ end] => destruct e; try discriminate E
           | context[match ?e with CArr _ => _ | CReal _ => _ | CInt _ => _ | CBool _ => _
                                 | CObj _ => _ | COpt _ => _ end] => destruct e; try discriminate E
           end.
    inv_bind E. inv_bind E. inv_bind E. inv_bind E. inv_bind E.
    eapply compiled_kept; eauto.
  - repeat match type of E with
           | context[match ?e with [] => _ | _ :: _ => _ end] => destruct e; try discriminate E
           | context[match ?e with CArr _ => _ | CReal _ => _ | CInt _ => _ | CBool _ => _
                                 | CObj _ => _ | COpt _ => _ end] => destruct e; try discriminate E
           end.
    inv_bind E. inv_bind E. inv_bind E. inv_bind E. inv_bind E. inv_bind E.
    eapply compiled_kept; eauto.
Qed.

(** ** [track] *)
Section Track.
Context (d : dtype) (m : tmachine T) (init : option (loc * loc)) (homog : res (list T * list T))
        (rp dl : Z) (f : bool) (cb : pyval T) (h : heap T) (ph de : list T).
Hypothesis CO : coordinates single d init homog h = Ok (ph, de).

Let n := length h.
Let nt := t_dturns m * (t_nprofiles m - 1).
Let zeros := repeat (repeat zero (length ph)) (Z.to_nat (t_nprofiles m)).
Let to := map (conv F64 d).
Let v1 := to (map (fun v => mul F64 v (t_q m)) (t_vrf1 m)).
Let v2 := to (map (fun v => mul F64 v (t_q m)) (t_vrf2 m)).

Definition track_heap : heap T :=
  h ++ [Arr d true (Vec ph); Arr d true (Vec de); Arr d true (Vec ph); Arr d true (Vec de);
        Arr d true (Vec v1); Arr d true (Vec v2); Arr d true (Vec (to (t_phi0 m)));
        Arr d true (Vec (to (t_deltaE0 m))); Arr d true (Vec (to (t_drift m)));
        Arr d true (Tab zeros); Arr d true (Tab zeros)].

Definition track_locs : list loc :=
  [n + 9; n + 10; n + 1; n; n + 4; n + 5; n + 6; n + 7; n + 8]%nat.

Definition track_tracked : tracked := Tracked n (n + 1)%nat (n + 2)%nat (n + 3)%nat (n + 9)%nat (n + 10)%nat.

Lemma track_calls :
  track d m init homog rp dl f cb h =
  ('(h', _) <- call track_heap
      (track_pos track_locs (t_phi12 m) (t_hratio m) (t_dturns m) rp dl nt
         (Z.of_nat (length ph)) f) (Some cb) ;;
   Ok (h', track_tracked)).
Proof.
  unfold MBind.track. rewrite CO. cbn [bind]. unfold cast, alloc. cbv zeta beta iota.
  rewrite !app_length. cbn [length]. rewrite <- !app_assoc. cbn [app].
  rewrite <- !Nat.add_assoc. cbn [Nat.add].
  reflexivity.
Qed.

Lemma track_at k : nth_error track_heap (n + k)%nat =
  nth_error [Arr d true (Vec ph); Arr d true (Vec de); Arr d true (Vec ph); Arr d true (Vec de);
        Arr d true (Vec v1); Arr d true (Vec v2); Arr d true (Vec (to (t_phi0 m)));
        Arr d true (Vec (to (t_deltaE0 m))); Arr d true (Vec (to (t_drift m)));
        Arr d true (Tab zeros); Arr d true (Tab zeros)] k.
Proof.
  unfold track_heap. rewrite nth_error_app2 by (unfold n; lia). f_equal. unfold n. lia.
Qed.

Lemma track_at_0 : nth_error track_heap n = Some (Arr d true (Vec ph)).
Proof. pose proof (track_at 0) as E. rewrite Nat.add_0_r in E. exact E. Qed.

Lemma track_len : length track_heap = (n + 11)%nat.
Proof. unfold track_heap. rewrite app_length. reflexivity. Qed.

Lemma track_ready : Forall (ready d track_heap) track_locs.
Proof.
  unfold track_locs.
  repeat constructor; unfold ready; rewrite ?track_at, ?track_at_0; cbn; eauto 10.
Qed.

Lemma track_old l : (l < length h)%nat -> nth_error track_heap l = nth_error h l.
Proof. intro V. unfold track_heap. apply nth_error_app1. exact V. Qed.

(** The result when the routine works on the arrays themselves. *)
Lemma compiled_track X p12 hr :
  match tracked_in d m p12 hr ph de rp dl f with
  | Fail e => compiled d (track_heap ++ X) (n + 9)%nat (n + 10)%nat (n + 1)%nat n
                (Machine v1 v2 (to (t_phi0 m)) (to (t_deltaE0 m)) (to (t_drift m)) p12 hr)
                (t_dturns m) rp dl nt (Z.of_nat (length ph)) f = Fail e
  | Ok s => exists h', compiled d (track_heap ++ X) (n + 9)%nat (n + 10)%nat (n + 1)%nat n
                (Machine v1 v2 (to (t_phi0 m)) (to (t_deltaE0 m)) (to (t_drift m)) p12 hr)
                (t_dturns m) rp dl nt (Z.of_nat (length ph)) f = Ok (h', ((n + 9)%nat, (n + 10)%nat)) /\
      tab_at h' (n + 9)%nat = Ok (xp s) /\ tab_at h' (n + 10)%nat = Ok (yp s) /\
      vec_at h' (n + 1)%nat = Ok (denergy s) /\ vec_at h' n = Ok (dphi s)
  end.
Proof.
  assert (A : forall k, (k < 11)%nat -> nth_error (track_heap ++ X) (n + k)%nat = nth_error track_heap (n + k)%nat).
  { intros k K. apply nth_error_app1. rewrite track_len. lia. }
  assert (A0 : nth_error (track_heap ++ X) n = Some (Arr d true (Vec ph))).
  { rewrite nth_error_app1; [apply track_at_0|]. rewrite track_len. lia. }
  pose proof (A 1%nat ltac:(lia)) as A1. rewrite track_at in A1. cbn in A1.
  pose proof (A 9%nat ltac:(lia)) as A9. rewrite track_at in A9. cbn in A9.
  pose proof (A 10%nat ltac:(lia)) as A10. rewrite track_at in A10. cbn in A10. clear A.
  unfold MBind.compiled.
  assert (B9 : tab_at (track_heap ++ X) (n + 9)%nat = Ok zeros) by (unfold tab_at; rewrite A9; reflexivity).
  assert (B10 : tab_at (track_heap ++ X) (n + 10)%nat = Ok zeros) by (unfold tab_at; rewrite A10; reflexivity).
  assert (B1 : vec_at (track_heap ++ X) (n + 1)%nat = Ok de) by (unfold vec_at; rewrite A1; reflexivity).
  assert (B0 : vec_at (track_heap ++ X) n = Ok ph) by (unfold vec_at; rewrite A0; reflexivity).
  rewrite B0, B1, B9, B10. cbn [bind].
  rewrite Nat2Z.id. unfold BindSpec.tracked_in. fold to zeros nt. cbv zeta. fold v1 v2.
  destruct (kick_and_drift _ _ _ _ _ _ _ _ _ _ _ _ _ _ _) as [s|e]; cbn [bind]; [|reflexivity].
  eexists. split; [reflexivity|].
  assert (P1 : nth_error (put (track_heap ++ X) (n + 9)%nat (Tab (xp s))) (n + 10)%nat =
               Some (Arr d true (Tab zeros))) by (rewrite put_miss by lia; exact A10).
  assert (P2 : nth_error (put (put (track_heap ++ X) (n + 9)%nat (Tab (xp s))) (n + 10)%nat (Tab (yp s))) (n + 1)%nat =
               Some (Arr d true (Vec de))) by (rewrite !put_miss by lia; exact A1).
  assert (P3 : nth_error (put (put (put (track_heap ++ X) (n + 9)%nat (Tab (xp s))) (n + 10)%nat (Tab (yp s)))
                 (n + 1)%nat (Vec (denergy s))) n =
               Some (Arr d true (Vec ph))) by (rewrite !put_miss by lia; exact A0).
  unfold tab_at, vec_at. repeat split.
  - rewrite !put_miss by lia. rewrite (put_hit _ _ _ _ A9). reflexivity.
  - rewrite !put_miss by lia. rewrite (put_hit _ _ _ _ P1). reflexivity.
  - rewrite !put_miss by lia. rewrite (put_hit _ _ _ _ P2). reflexivity.
  - rewrite (put_hit _ _ _ _ P3). reflexivity.
Qed.

Lemma vec_track X k l : (k < 11)%nat ->
  nth_error [Arr d true (Vec ph); Arr d true (Vec de); Arr d true (Vec ph); Arr d true (Vec de);
        Arr d true (Vec v1); Arr d true (Vec v2); Arr d true (Vec (to (t_phi0 m)));
        Arr d true (Vec (to (t_deltaE0 m))); Arr d true (Vec (to (t_drift m)));
        Arr d true (Tab zeros); Arr d true (Tab zeros)] k = Some (Arr d true (Vec l)) ->
  vec_at (track_heap ++ X) (n + k)%nat = Ok l.
Proof.
  intros K E. unfold vec_at. rewrite nth_error_app1 by (rewrite track_len; lia).
  rewrite track_at, E. reflexivity.
Qed.

Definition full (p12 : list T) (hr : T) : Prop :=
  match tracked_in d m p12 hr ph de rp dl f with
  | Fail e => track d m init homog rp dl f cb h = Fail e
  | Ok s => exists h', track d m init homog rp dl f cb h = Ok (h', track_tracked) /\
      tab_at h' (n + 9)%nat = Ok (xp s) /\ tab_at h' (n + 10)%nat = Ok (yp s) /\
      vec_at h' (n + 1)%nat = Ok (denergy s) /\ vec_at h' n = Ok (dphi s)
  end.

Lemma tail_ok : ints_fit m rp dl (length ph) ->
  exists o, tail_loaded (t_dturns m) rp dl nt (Z.of_nat (length ph)) f cb =
  Some [CInt (t_dturns m); CInt rp; CInt dl; CInt nt; CInt (Z.of_nat (length ph)); CBool f; COpt o].
Proof.
  intros (A & B & C & D & E). unfold tail_loaded. unfold nt.
  rewrite !in_range_int by assumption. cbn [andb]. eauto.
Qed.

Lemma full_scalar x y :
  ints_fit m rp dl (length ph) ->
  (forall tl, tail_loaded (t_dturns m) rp dl nt (Z.of_nat (length ph)) f cb = Some tl ->
   dispatch track_heap (track_pos track_locs (t_phi12 m) (t_hratio m) (t_dturns m) rp dl nt
      (Z.of_nat (length ph)) f) (Some cb) = Some (VScalar d, track_heap, scalar_args track_locs x y tl)) ->
  full (repeat x (Z.to_nat nt) ++ [past]) y.
Proof.
  intros I D. destruct (tail_ok I) as [o E]. specialize (D _ E).
  unfold full. rewrite track_calls. unfold call_kick_and_drift. rewrite D.
  unfold scalar_args, track_locs, MBind.body. cbn [map app].
  pose proof (vec_track []) as VT. pose proof (compiled_track [] (repeat x (Z.to_nat nt) ++ [past]) y) as C.
  rewrite app_nil_r in VT, C.
  rewrite (VT 4%nat v1), (VT 5%nat v2), (VT 6%nat (to (t_phi0 m))), (VT 7%nat (to (t_deltaE0 m))),
    (VT 8%nat (to (t_drift m))) by (lia || reflexivity).
  cbn [bind]. unfold expand.
  destruct (tracked_in d m (repeat x (Z.to_nat nt) ++ [past]) y ph de rp dl f).
  - destruct C as (h' & -> & R). cbn [bind]. exists h'. auto.
  - rewrite C. reflexivity.
Qed.

Lemma full_array X l p y :
  ints_fit m rp dl (length ph) ->
  (forall tl, tail_loaded (t_dturns m) rp dl nt (Z.of_nat (length ph)) f cb = Some tl ->
   dispatch track_heap (track_pos track_locs (t_phi12 m) (t_hratio m) (t_dturns m) rp dl nt
      (Z.of_nat (length ph)) f) (Some cb) = Some (VArray d, track_heap ++ X, array_args track_locs l y tl)) ->
  vec_at (track_heap ++ X) l = Ok p ->
  full p y.
Proof.
  intros I D V. destruct (tail_ok I) as [o E]. specialize (D _ E).
  unfold full. rewrite track_calls. unfold call_kick_and_drift. rewrite D.
  unfold array_args, track_locs, MBind.body. cbn [map app].
  pose proof (vec_track X) as VT. pose proof (compiled_track X p y) as C.
  rewrite (VT 4%nat v1), (VT 5%nat v2), (VT 6%nat (to (t_phi0 m))), (VT 7%nat (to (t_deltaE0 m))),
    (VT 8%nat (to (t_drift m))), V by (lia || reflexivity).
  cbn [bind].
  destruct (tracked_in d m p y ph de rp dl f).
  - destruct C as (h' & -> & R). cbn [bind]. exists h'. auto.
  - rewrite C. reflexivity.
Qed.

(** Taken as they are: Python floats, or an array of the precision and a float. *)
Lemma full_taken x y :
  ints_fit m rp dl (length ph) -> t_phi12 m = PFloat x -> t_hratio m = PFloat y ->
  full (repeat (conv F64 d x) (Z.to_nat nt) ++ [past]) (conv F64 d y).
Proof.
  intros I E1 E2. apply full_scalar; [exact I|]. intros tl E. rewrite E1, E2.
  apply dispatch_floats; [reflexivity|exact E|apply track_ready].
Qed.

Lemma full_taken_array l a p y :
  ints_fit m rp dl (length ph) -> t_phi12 m = PArr l -> t_hratio m = PFloat y ->
  nth_error h l = Some a -> adt a = d -> acontig a = true -> adat a = Vec p ->
  full p (conv F64 d y).
Proof.
  intros I E1 E2 El Ed Ec Ep.
  assert (V : (l < length h)%nat) by (apply nth_error_Some; congruence).
  apply (full_array [] l); [exact I| |].
  - intros tl E. rewrite E1, E2, app_nil_r.
    apply dispatch_array; [reflexivity|exact E|apply track_ready|].
    exists a. rewrite track_old by exact V. auto.
  - rewrite app_nil_r. unfold vec_at. rewrite track_old by exact V. rewrite El, Ep. reflexivity.
Qed.

End Track.

End L.

Section F.
Context {T : Type} (add sub mul : dtype -> T -> T -> T) (sin : dtype -> T -> T)
        (single : T -> T) (ofZ : Z -> T) (zero past : T).
Notation track := (track add sub mul sin single ofZ zero past).
Notation tracked_in := (tracked_in add sub mul sin single zero).

Lemma initial_coordinates d h init homog ph de :
  initial single d h init homog ph de -> coordinates single d init homog h = Ok (ph, de).
Proof.
  intro I. destruct I as [a b f c ph g k de homog Ea Eb L|ph de]; [|reflexivity].
  unfold coordinates. rewrite Ea, Eb, L, Nat.eqb_refl. reflexivity.
Qed.

Lemma coordinates_initial d h init homog r :
  coordinates single d init homog h = Ok r -> exists ph de, r = (ph, de).
Proof. destruct r; eauto. Qed.

(** Double precision. *)
Lemma double_full m init homog rp dl f cb h ph de p12 hr :
  initial single F64 h init homog ph de ->
  ints_fit m rp dl (length ph) ->
  phi12_in single ofZ past F64 h (t_dturns m * (t_nprofiles m - 1)) (t_phi12 m) p12 ->
  number_in single ofZ F64 (t_hratio m) hr ->
  full add sub mul sin single ofZ zero past F64 m init homog rp dl f cb h ph de p12 hr.
Proof.
  intros IN I P (gy & y & Ey & ->). apply initial_coordinates in IN.
  inversion P as [v x N E1 E2|l g c p El Lp E1 E2]; subst.
  - destruct N as (gx & x0 & Ex & ->).
    apply full_scalar; [exact IN|exact I|]. intros tl E.
    rewrite (dispatch_numbers single ofZ _ (track_locs h) _ _ _ _ _ _ _ tl eq_refl E _ _ (gx, x0) (gy, y));
      [reflexivity|apply track_ready|assumption|assumption].
  - assert (V : (l < length h)%nat) by (apply nth_error_Some; congruence).
    destruct (tail_ok m rp dl f cb ph I) as [o TO].
    assert (El' : nth_error (track_heap mul single zero F64 m h ph de) l = Some (Arr g c (Vec p)))
      by (rewrite track_old; assumption).
    destruct (dispatch_array_double single ofZ (track_heap mul single zero F64 m h ph de) (track_locs h)
       (t_dturns m) rp dl (t_dturns m * (t_nprofiles m - 1)) (Z.of_nat (length ph)) f cb _ eq_refl TO
       l g c p (t_hratio m) (gy, y)) as (X & l' & D & VV); [apply track_ready|exact El'|exact Lp|exact Ey|].
    apply (full_array _ _ _ _ _ _ _ _ _ _ _ _ _ _ _ _ _ _ _ IN X l'); [exact I| |exact VV].
    intros tl E. rewrite E in TO. injection TO as ->. rewrite <- E1. exact D.
Qed.

(** Single precision, taken as it is. *)
Lemma single_full m init homog rp dl f cb h ph de p12 hr :
  initial single F32 h init homog ph de ->
  ints_fit m rp dl (length ph) ->
  taken_as_single h (t_phi12 m) (t_hratio m) ->
  phi12_in single ofZ past F32 h (t_dturns m * (t_nprofiles m - 1)) (t_phi12 m) p12 ->
  number_in single ofZ F32 (t_hratio m) hr ->
  full add sub mul sin single ofZ zero past F32 m init homog rp dl f cb h ph de p12 hr.
Proof.
  intros IN I [[y Hy] TK] P (gy & y' & Ey & ->). apply initial_coordinates in IN.
  rewrite Hy in Ey. cbn in Ey. injection Ey as <- <-.
  destruct TK as [[x Hx]|(l & a & Hl & Ea & Ed & Ec)].
  - rewrite Hx in P. inversion P as [v x0 N E1 E2|]; subst.
    destruct N as (gx & x1 & Ex & ->). cbn in Ex. injection Ex as <- <-.
    apply full_taken; assumption.
  - rewrite Hl in P. inversion P as [v x0 N E1 E2|l0 g c p El Lp E1 E2]; subst.
    + destruct N as (gx & x1 & Ex & _). discriminate.
    + rewrite Ea in El. injection El as ->. cbn in Ed. subst g.
      rewrite map_conv_same.
      apply (full_taken_array add sub mul sin single ofZ zero past F32 m init homog rp dl f cb h ph de IN
               l (Arr F32 c (Vec p)) p y); auto.
Qed.

Lemma full_returns d m init homog rp dl f cb h ph de p12 hr :
  full add sub mul sin single ofZ zero past d m init homog rp dl f cb h ph de p12 hr ->
  returns_tracked (track d m init homog rp dl f cb h) (tracked_in d m p12 hr ph de rp dl f).
Proof.
  unfold full, returns_tracked. destruct (tracked_in d m p12 hr ph de rp dl f) as [s|e]; [|auto].
  intros (h' & E & X & Y & _). exists h'. eexists. split; [exact E|]. split; assumption.
Qed.

Lemma full_particles d m init homog rp dl f cb h ph de p12 hr h' t :
  full add sub mul sin single ofZ zero past d m init homog rp dl f cb h ph de p12 hr ->
  track d m init homog rp dl f cb h = Ok (h', t) ->
  exists s, tracked_in d m p12 hr ph de rp dl f = Ok s /\ particles_hold h' t (dphi s) (denergy s).
Proof.
  unfold full. destruct (tracked_in d m p12 hr ph de rp dl f) as [s|e].
  - intros (h2 & E & _ & _ & B & A) E2. rewrite E in E2. injection E2 as <- <-.
    exists s. split; [reflexivity|]. split; [exact A|exact B].
  - intros E E2. congruence.
Qed.

(** The heap after [track]: everything but the four arrays is as before the call. *)
Lemma track_outcome d m init homog rp dl f cb h h' t :
  track d m init homog rp dl f cb h = Ok (h', t) ->
  exists ph de, coordinates single d init homog h = Ok (ph, de) /\ t = track_tracked h /\
  (exists v cs hF r X x y de_ ph_ a1 a2 a3 a4 a5 rest,
    dispatch single ofZ (track_heap mul single zero d m h ph de)
      (track_pos (track_locs h) (t_phi12 m) (t_hratio m) (t_dturns m) rp dl
         (t_dturns m * (t_nprofiles m - 1)) (Z.of_nat (length ph)) f) (Some cb) = Some (v, hF, cs) /\
    hF = track_heap mul single zero d m h ph de ++ X /\
    v <> VMachine /\ cs = map (@CArr T) [x; y; de_; ph_; a1; a2; a3; a4; a5] ++ rest /\
    body add sub mul sin single ofZ past v hF cs = Ok (h', r) /\
    ([x; y; de_; ph_; a1; a2; a3; a4; a5] = track_locs h \/
     [x; y; de_; ph_; a1; a2; a3; a4; a5] = seq (length h + 11) 9)).
Proof.
  intro E. destruct (coordinates single d init homog h) as [[ph de]|e] eqn:CO.
  2:{ unfold MBind.track in E. rewrite CO in E. discriminate. }
  exists ph, de. split; [reflexivity|].
  rewrite (track_calls add sub mul sin single ofZ zero past d m init homog rp dl f cb h ph de CO) in E.
  apply bind_inv in E. destruct E as [[h2 r] [E E2]]. injection E2 as <- <-. split; [reflexivity|].
  unfold call_kick_and_drift in E.
  destruct (dispatch _ _ _ _ _) as [[[v hF] cs]|] eqn:D; [|discriminate].
  destruct (dispatch_arrays single ofZ d _ (track_locs h) _ _ _ _ _ _ _ _ _ _ _ _ eq_refl
              (track_ready mul single zero d m h ph de) D) as (ls' & rest & [X EX] & NV & EC & O).
  rewrite track_len in O.
  assert (L : length ls' = 9%nat) by (destruct O as [-> | ->]; [reflexivity|apply seq_length]).
  destruct ls' as [|x [|y [|de_ [|ph_ [|a1 [|a2 [|a3 [|a4 [|a5 [|]]]]]]]]]]; try discriminate L.
  exists v, cs, hF, r, X, x, y, de_, ph_, a1, a2, a3, a4, a5, rest. auto 10.
Qed.

Lemma track_kept d m init homog rp dl f cb h h' t :
  track d m init homog rp dl f cb h = Ok (h', t) ->
  kept h h' /\ exists ph de, coordinates single d init homog h = Ok (ph, de) /\
    vec_at h' (init_dphi t) = Ok ph /\ vec_at h' (init_denergy t) = Ok de.
Proof.
  intro E. apply track_outcome in E.
  destruct E as (ph & de & CO & -> & v & cs & hF & r & X & x & y & de_ & ph_ & a1 & a2 & a3 & a4 & a5 &
                 rest & D & EF & NV & EC & B & O).
  rewrite EC in B. pose proof (body_kept add sub mul sin single ofZ past _ _ _ _ _ _ _ _ _ _ _ _ _ _ NV B) as K.
  assert (W : x <> (length h + 2)%nat /\ x <> (length h + 3)%nat /\ (length h <= x)%nat /\
              y <> (length h + 2)%nat /\ y <> (length h + 3)%nat /\ (length h <= y)%nat /\
              de_ <> (length h + 2)%nat /\ de_ <> (length h + 3)%nat /\ (length h <= de_)%nat /\
              ph_ <> (length h + 2)%nat /\ ph_ <> (length h + 3)%nat /\ (length h <= ph_)%nat).
  { destruct O as [O|O].
    - unfold track_locs in O. injection O as -> -> -> -> _ _ _ _ _. lia.
    - cbn [seq] in O. injection O as -> -> -> -> _ _ _ _ _. lia. }
  assert (LEN : length (track_heap mul single zero d m h ph de) = (length h + 11)%nat) by apply track_len.
  split.
  - intros l V. rewrite K by lia. rewrite EF. rewrite nth_error_app1 by lia.
    apply track_old. exact V.
  - exists ph, de. split; [exact CO|]. unfold track_tracked. cbn [init_dphi init_denergy].
    unfold vec_at. rewrite !K by lia. rewrite EF. rewrite !nth_error_app1 by lia.
    rewrite !track_at. split; reflexivity.
Qed.

Lemma all_zero_repeat k j : all_zero zero (repeat (repeat zero j) k).
Proof.
  apply Forall_forall. intros r I. apply repeat_spec in I. subst r.
  apply Forall_forall. intros x I. apply repeat_spec in I. exact I.
Qed.

Lemma track_zeros m init homog rp dl f cb h h' t :
  exists_in h (t_phi12 m) -> exists_in h (t_hratio m) ->
  ~ taken_as_single h (t_phi12 m) (t_hratio m) ->
  track F32 m init homog rp dl f cb h = Ok (h', t) ->
  (exists rows, tab_at h' (ret_xp t) = Ok rows /\ all_zero zero rows) /\
  (exists rows, tab_at h' (ret_yp t) = Ok rows /\ all_zero zero rows).
Proof.
  intros V1 V2 NT E. apply track_outcome in E.
  destruct E as (ph & de & CO & -> & v & cs & hF & r & X & x & y & de_ & ph_ & a1 & a2 & a3 & a4 & a5 &
                 rest & D & EF & NV & EC & B & O).
  set (H := track_heap mul single zero F32 m h ph de) in *.
  assert (LEN : length H = (length h + 11)%nat) by apply track_len.
  assert (Q : exists rest', cs = map (@CArr T) (seq (length H) 9) ++ rest').
  { assert (W1 : exists_in H (t_phi12 m)) by (destruct (t_phi12 m); cbn in *; try exact I; lia).
    assert (W2 : exists_in H (t_hratio m)) by (destruct (t_hratio m); cbn in *; try exact I; lia).
    assert (W3 : ~ taken_as_single H (t_phi12 m) (t_hratio m)).
    { intros [A C]. apply NT. split; [exact A|]. destruct C as [C|(l & a & El & Ea & Q)]; [left; exact C|].
      right. exists l, a. split; [exact El|]. split; [|exact Q].
      rewrite <- Ea. symmetry. apply track_old. rewrite El in V1. exact V1. }
    destruct (dispatch_copies single ofZ H (track_locs h) _ _ _ _ _ _ _ _ _ _ _ _ eq_refl
      (track_ready mul single zero F32 m h ph de) W1 W2 W3 D) as (rest' & _ & _ & EC').
    exists rest'. exact EC'. }
  destruct Q as [rest' EC2]. rewrite EC2, LEN in B.
  pose proof (body_kept add sub mul sin single ofZ past _ _ _ _ _ _ _ _ _ _ _ _ _ _ NV B) as K.
  unfold track_tracked. cbn [ret_xp ret_yp]. unfold tab_at.
  rewrite !K by lia. rewrite EF. rewrite !nth_error_app1 by lia. unfold H. rewrite !track_at.
  cbn [nth_error adat].
  split; eexists; (split; [reflexivity|apply all_zero_repeat]).
Qed.

End F.

(** C103, double precision.  With the CPU and double precision, [track] returns
    the coordinates computed by the tracking routine, for every machine, every
    initial distribution, every kind of number given for phi12 and for the ratio
    of harmonics, and every array of at least two elements given for phi12. *)
Lemma C103_double_lem : forall (T : Type) (add sub mul : dtype -> T -> T -> T) (sin : dtype -> T -> T)
    (single : T -> T) (ofZ : Z -> T) (zero past : T)
    m init homog recprof deltaturn ftn callback h ph de p12 hr,
  initial single F64 h init homog ph de ->
  ints_fit m recprof deltaturn (length ph) ->
  phi12_in single ofZ past F64 h (t_dturns m * (t_nprofiles m - 1)) (t_phi12 m) p12 ->
  number_in single ofZ F64 (t_hratio m) hr ->
  returns_tracked
    (track add sub mul sin single ofZ zero past F64 m init homog recprof deltaturn ftn callback h)
    (tracked_in add sub mul sin single zero F64 m p12 hr ph de recprof deltaturn ftn).
Proof. intros. apply full_returns. apply double_full; assumption. Qed.

(*EX*)
(** The integer 1 as ratio of harmonics and phi12 an array: the particles are
    tracked. *)
Example C103_double_ex :
  let h := [Arr F64 true (Vec [0; 0; 0])] in
  phi12_in (fun x => x) (fun z => z) 0 F64 h 2 (PArr 0%nat) [0; 0; 0] /\
  number_in (fun x => x) (fun z => z) F64 (PInt 1) 1 /\
  exists h' t, z_track F64 (z_machine (PArr 0%nat) (PInt 1)) None z_distribution 1 0 false PNone h = Ok (h', t) /\
    tab_at h' (ret_xp t) = Ok [[7; 6]; [5; 7]; [3; 8]].
Proof.
  split; [apply (phi12_array (fun x => x) (fun z => z) 0 F64 [Arr F64 true (Vec [0; 0; 0])] 2 0%nat F64 true
    [0; 0; 0]); [reflexivity|repeat constructor]|].
  split; [exists F64, 1; split; reflexivity|].
  eexists. eexists. split; reflexivity.
Qed.
(*XE*)

(** C103, single precision.  The same holds in single precision if the ratio of
    harmonics is a Python float, and phi12 is a Python float or a contiguous
    array of single precision with at least two elements. *)
Lemma C103_single_partial_lem : forall (T : Type) (add sub mul : dtype -> T -> T -> T) (sin : dtype -> T -> T)
    (single : T -> T) (ofZ : Z -> T) (zero past : T)
    m init homog recprof deltaturn ftn callback h ph de p12 hr,
  initial single F32 h init homog ph de ->
  ints_fit m recprof deltaturn (length ph) ->
  phi12_in single ofZ past F32 h (t_dturns m * (t_nprofiles m - 1)) (t_phi12 m) p12 ->
  number_in single ofZ F32 (t_hratio m) hr ->
  taken_as_single h (t_phi12 m) (t_hratio m) ->
  returns_tracked
    (track add sub mul sin single ofZ zero past F32 m init homog recprof deltaturn ftn callback h)
    (tracked_in add sub mul sin single zero F32 m p12 hr ph de recprof deltaturn ftn).
Proof. intros. apply full_returns. apply single_full; assumption. Qed.

(*EX*)
Example C103_single_partial_ex :
  taken_as_single [] (PFloat 0) (PFloat 1) /\
  exists h' t, z_track F32 (z_machine (PFloat 0) (PFloat 1)) None z_distribution 1 0 false PNone [] = Ok (h', t) /\
    tab_at h' (ret_xp t) = Ok [[7; 6]; [5; 7]; [3; 8]].
Proof.
  split; [split; [eauto|left; eauto]|]. eexists. eexists. split; reflexivity.
Qed.
(*XE*)

(** C103, single precision, all other cases: whenever [track] returns, all
    coordinates it returns are zero. *)
Lemma C103_single_zeros_lem : forall (T : Type) (add sub mul : dtype -> T -> T -> T) (sin : dtype -> T -> T)
    (single : T -> T) (ofZ : Z -> T) (zero past : T)
    m init homog recprof deltaturn ftn callback h h' t,
  exists_in h (t_phi12 m) -> exists_in h (t_hratio m) ->
  ~ taken_as_single h (t_phi12 m) (t_hratio m) ->
  track add sub mul sin single ofZ zero past F32 m init homog recprof deltaturn ftn callback h = Ok (h', t) ->
  (exists rows, tab_at h' (ret_xp t) = Ok rows /\ all_zero zero rows) /\
  (exists rows, tab_at h' (ret_yp t) = Ok rows /\ all_zero zero rows).
Proof. intros. eapply track_zeros; eauto. Qed.

(*EX*)
Example C103_single_zeros_ex :
  ~ taken_as_single [] (PFloat 0) (PInt 1) /\
  exists h' t, z_track F32 (z_machine (PFloat 0) (PInt 1)) None z_distribution 1 0 false PNone [] = Ok (h', t).
Proof.
  split; [intros [[x A] _]; discriminate|]. eexists. eexists. reflexivity.
Qed.
(*XE*)

(** C103 does not hold in single precision: with the integer 1 as ratio of
    harmonics, and also with an array of doubles for phi12, [track] does not
    return the tracked coordinates. *)
Lemma C103_single_refuted_lem :
  (exists ph de p12 hr,
     initial (fun x => x) F32 [] None z_distribution ph de /\
     ints_fit (z_machine (PFloat 0) (PInt 1)) 1 0 (length ph) /\
     phi12_in (fun x => x) (fun z => z) 0 F32 [] 2 (PFloat 0) p12 /\
     number_in (fun x => x) (fun z => z) F32 (PInt 1) hr /\
     ~ returns_tracked (z_track F32 (z_machine (PFloat 0) (PInt 1)) None z_distribution 1 0 false PNone [])
         (z_tracked_in F32 (z_machine (PFloat 0) (PInt 1)) p12 hr ph de 1 0 false)) /\
  (exists ph de p12 hr h,
     initial (fun x => x) F32 h None z_distribution ph de /\
     ints_fit (z_machine (PArr 0%nat) (PFloat 1)) 1 0 (length ph) /\
     phi12_in (fun x => x) (fun z => z) 0 F32 h 2 (PArr 0%nat) p12 /\
     number_in (fun x => x) (fun z => z) F32 (PFloat 1) hr /\
     ~ returns_tracked (z_track F32 (z_machine (PArr 0%nat) (PFloat 1)) None z_distribution 1 0 false PNone h)
         (z_tracked_in F32 (z_machine (PArr 0%nat) (PFloat 1)) p12 hr ph de 1 0 false)).
Proof.
  split.
  - exists [5; 7], [2; -1], [0; 0; 0], 1.
    split; [apply (initial_homogeneous (fun x => x) F32 [] [5; 7] [2; -1])|].
    split; [unfold ints_fit, an_int; cbn; lia|].
    split; [apply (phi12_number (fun x => x) (fun z => z) 0 F32 [] 2 (PFloat 0) 0); exists F64, 0; auto|].
    split; [exists F64, 1; auto|].
    intro R. vm_compute in R. destruct R as (h' & t & E & A & _).
    injection E as <- <-. discriminate A.
  - exists [5; 7], [2; -1], [0; 0; 0], 1, [Arr F64 true (Vec [0; 0; 0])].
    split; [apply (initial_homogeneous (fun x => x) F32 _ [5; 7] [2; -1])|].
    split; [unfold ints_fit, an_int; cbn; lia|].
    split; [apply (phi12_array (fun x => x) (fun z => z) 0 F32 [Arr F64 true (Vec [0; 0; 0])] 2 0%nat F64 true
       [0; 0; 0]); [reflexivity|repeat constructor]|].
    split; [exists F64, 1; auto|].
    intro R. vm_compute in R. destruct R as (h' & t & E & A & _).
    injection E as <- <-. discriminate A.
Qed.

(** C104.  The function kept for older programs tracks nothing: whenever it
    returns, every array of the caller is as before, and the returned tables
    hold the numbers of the tables xp and yp that were passed in. *)
Lemma C104_untracked_lem : forall (T : Type) (add sub mul : dtype -> T -> T -> T) (sin : dtype -> T -> T)
    (single : T -> T) (ofZ : Z -> T) (past : T) a h xl yl h' x y,
  l_xp a = PArr xl -> (xl < length h)%nat -> l_yp a = PArr yl -> (yl < length h)%nat ->
  l_ftn a = false ->
  legacy_kick_and_drift add sub mul sin single ofZ past a h = Ok (h', (x, y)) ->
  kept h h' /\ same_numbers single h xl h' x /\ same_numbers single h yl h' y.
Proof. intros. eapply legacy_nothing; eauto. Qed.

(*EX*)
(** Both ways of calling it return. *)
Example C104_untracked_ex :
  z_legacy (z_legacy_args 2 None (Some z_object)) z_arrays = Ok (z_arrays, (0%nat, 1%nat)) /\
  z_legacy (z_legacy_args 2 (Some (PArr 4%nat)) None) z_arrays = Ok (z_arrays, (0%nat, 1%nat)).
Proof. split; vm_compute; reflexivity. Qed.
(*XE*)

(** C104.  With more particles than turns it reads drift coefficients outside
    the array it was given and never returns normally. *)
Lemma C104_outside_lem : forall (T : Type) (add sub mul : dtype -> T -> T -> T) (sin : dtype -> T -> T)
    (single : T -> T) (ofZ : Z -> T) (past : T) a h drift dturns r,
  drift_given h a drift dturns -> l_ftn a = false ->
  Z.of_nat (length drift) <= l_rec_prof a * dturns + l_nturns a < l_nparts a ->
  legacy_kick_and_drift add sub mul sin single ofZ past a h <> Ok r.
Proof. intros. eapply legacy_outside; eauto. Qed.

(*EX*)
Example C104_outside_ex :
  drift_given z_arrays (z_legacy_args 100 None (Some z_object)) [1; 1] 1 /\
  z_legacy (z_legacy_args 100 None (Some z_object)) z_arrays = Fail OutOfBounds.
Proof. split; [eapply drift_of_machine; reflexivity|vm_compute; reflexivity]. Qed.
(*XE*)

(** C104.  Without a machine and with one of the seven machine arguments missing
    it raises an input error. *)
Lemma C104_missing_lem : forall (T : Type) (add sub mul : dtype -> T -> T -> T) (sin : dtype -> T -> T)
    (single : T -> T) (ofZ : Z -> T) (past : T) a h,
  l_machine a = None ->
  l_phi0 a = None \/ l_deltaE0 a = None \/ l_omega_rev0 a = None \/ l_drift_coef a = None \/
  l_phi12 a = None \/ l_h_ratio a = None \/ l_dturns a = None ->
  legacy_kick_and_drift add sub mul sin single ofZ past a h = Fail (Raised InputError).
Proof.
  intros T add sub mul sin single ofZ past a h E M. unfold legacy_kick_and_drift. rewrite E.
  destruct (l_phi0 a); [|reflexivity]. destruct (l_deltaE0 a); [|reflexivity].
  destruct (l_omega_rev0 a); [|reflexivity]. destruct (l_drift_coef a); [|reflexivity].
  destruct (l_phi12 a); [|reflexivity]. destruct (l_h_ratio a); [|reflexivity].
  destruct (l_dturns a); [|reflexivity].
  exfalso. repeat (destruct M as [M|M]; [discriminate|]). discriminate.
Qed.

(*EX*)
Example C104_missing_ex :
  z_legacy (z_legacy_args 2 None None) z_arrays = Fail (Raised InputError).
Proof. vm_compute. reflexivity. Qed.
(*XE*)

(** C104 does not hold: the function returns tables of zeros where [track]
    finds the coordinates of the two particles. *)
Lemma C104_refuted_lem :
  (exists h', z_legacy (z_legacy_args 2 None (Some z_object)) z_arrays = Ok (h', (0%nat, 1%nat)) /\
     tab_at h' 0%nat = Ok [[0; 0]; [0; 0]; [0; 0]]) /\
  (exists h' t, z_track F64 (z_machine (PFloat 0) (PFloat 1)) None z_distribution 1 0 false PNone [] =
     Ok (h', t) /\ tab_at h' (ret_xp t) = Ok [[7; 6]; [5; 7]; [3; 8]]).
Proof.
  split.
  - exists z_arrays. split; vm_compute; reflexivity.
  - eexists. eexists. split; vm_compute; reflexivity.
Qed.

(** C105.  [track] changes no array that existed before, in particular neither
    the initial distribution given by the user nor the arrays of the machine. *)
Lemma C105_arguments_lem : forall (T : Type) (add sub mul : dtype -> T -> T -> T) (sin : dtype -> T -> T)
    (single : T -> T) (ofZ : Z -> T) (zero past : T)
    prec m init homog recprof deltaturn ftn callback h h' t,
  track add sub mul sin single ofZ zero past prec m init homog recprof deltaturn ftn callback h = Ok (h', t) ->
  kept h h'.
Proof. intros T add sub mul sin single ofZ zero past prec m init homog rp dl f cb h h' t E.
  exact (proj1 (track_kept _ _ _ _ _ _ _ _ _ _ _ _ _ _ _ _ _ _ _ E)). Qed.

(** C105.  Afterwards [init_dphi] and [init_denergy] of the tracker hold the
    initial distribution. *)
Lemma C105_initial_lem : forall (T : Type) (add sub mul : dtype -> T -> T -> T) (sin : dtype -> T -> T)
    (single : T -> T) (ofZ : Z -> T) (zero past : T)
    prec m init homog recprof deltaturn ftn callback h ph de h' t,
  initial single prec h init homog ph de ->
  track add sub mul sin single ofZ zero past prec m init homog recprof deltaturn ftn callback h = Ok (h', t) ->
  vec_at h' (init_dphi t) = Ok ph /\ vec_at h' (init_denergy t) = Ok de.
Proof.
  intros T add sub mul sin single ofZ zero past prec m init homog rp dl f cb h ph de h' t I E.
  apply initial_coordinates in I.
  destruct (track_kept _ _ _ _ _ _ _ _ _ _ _ _ _ _ _ _ _ _ _ E) as [_ (ph' & de' & C & A & B)].
  rewrite I in C. injection C as <- <-. auto.
Qed.

(*EX*)
(** With a distribution given by the user. *)
Example C105_initial_ex :
  let h := [Arr F64 true (Vec [5; 7]); Arr F64 true (Vec [2; -1])] in
  initial (fun x => x) F64 h (Some (0%nat, 1%nat)) z_distribution [5; 7] [2; -1] /\
  exists h' t, z_track F64 (z_machine (PFloat 0) (PFloat 1)) (Some (0%nat, 1%nat)) z_distribution 1 0 false
    PNone h = Ok (h', t) /\ nth_error h' 0 = Some (Arr F64 true (Vec [5; 7])) /\
    vec_at h' (init_dphi t) = Ok [5; 7].
Proof.
  split; [apply (initial_user (fun x => x) F64 [Arr F64 true (Vec [5; 7]); Arr F64 true (Vec [2; -1])]
     0%nat 1%nat F64 true [5; 7] F64 true [2; -1]); reflexivity|].
  eexists. eexists. split; [|split]; vm_compute; reflexivity.
Qed.
(*XE*)

(** C105.  The particles object of the tracker then holds the last coordinates
    of the tracking routine instead (double precision). *)
Lemma C105_particles_lem : forall (T : Type) (add sub mul : dtype -> T -> T -> T) (sin : dtype -> T -> T)
    (single : T -> T) (ofZ : Z -> T) (zero past : T)
    m init homog recprof deltaturn ftn callback h ph de p12 hr h' t,
  initial single F64 h init homog ph de ->
  ints_fit m recprof deltaturn (length ph) ->
  phi12_in single ofZ past F64 h (t_dturns m * (t_nprofiles m - 1)) (t_phi12 m) p12 ->
  number_in single ofZ F64 (t_hratio m) hr ->
  track add sub mul sin single ofZ zero past F64 m init homog recprof deltaturn ftn callback h = Ok (h', t) ->
  exists s, tracked_in add sub mul sin single zero F64 m p12 hr ph de recprof deltaturn ftn = Ok s /\
    particles_hold h' t (dphi s) (denergy s).
Proof. intros. eapply full_particles; eauto. apply double_full; assumption. Qed.

(** C105 does not hold for the particles object: it no longer holds the initial
    distribution. *)
Lemma C105_particles_refuted_lem :
  exists ph de h' t,
    initial (fun x => x) F64 [] None z_distribution ph de /\
    z_track F64 (z_machine (PFloat 0) (PFloat 1)) None z_distribution 1 0 false PNone [] = Ok (h', t) /\
    particles_hold h' t [7; 6] [2; -1] /\ ~ particles_hold h' t ph de.
Proof.
  exists [5; 7], [2; -1]. eexists. eexists.
  split; [apply (initial_homogeneous (fun x => x) F64 [] [5; 7] [2; -1])|].
  split; [vm_compute; reflexivity|]. split; [split; vm_compute; reflexivity|].
  intros [A _]. vm_compute in A. discriminate.
Qed.
