(** The tracking routine with parallel loops. *)
From Coq Require Import List ZArith Bool Lia Arith.
From Verif Require Import Base.Res Base.ResLemmas Model.MTrack Model.MOmp Spec.OmpSpec Proof.POmp Proof.POmp2.
Import ListNotations.

Lemma set_get : forall {A} (l : list A) i v l' j x, set l i v = Ok l' -> get l' j = Ok x -> (j = i /\ x = v) \/ (j <> i /\ get l j = Ok x).
Proof.
  intros A l i v l' j x E G. apply set_ok_inv in E. destruct E as [Hi ->].
  apply get_ok_inv in G. destruct G as (G0 & G & _). destruct (Z.eq_dec j i) as [->|N].
  - left. split; auto. rewrite nth_error_upd_eq in G by lia. congruence.
  - right. split; auto. rewrite nth_error_upd_neq in G by lia. apply get_Z; auto.
Qed.

Section Track.
Context {T : Type}.
Variables (add sub mul : T -> T -> T) (sin : T -> T).
Implicit Types (mm : mem T).

Lemma routine_app : forall (a b : list (list (prog T))) m m', routine_ends (a ++ b) m m' ->
  exists m1, routine_ends a m m1 /\ routine_ends b m1 m'.
Proof.
  induction a as [|p a IH]; intros b m m' H; cbn in H.
  - exists m. split; [constructor|auto].
  - inversion H as [|? ? ? m1 ? E R]; subst. apply IH in R. destruct R as (m2 & R1 & R2). exists m2. split; auto. econstructor; eauto.
Qed.
Lemma routine_cons : forall p (b : list (list (prog T))) m m', routine_ends (p :: b) m m' ->
  exists m1, ends p m m1 /\ routine_ends b m1 m'.
Proof. intros p b m m' H. inversion H; subst. eauto. Qed.
Lemma routine_nil : forall (m m' : mem T), routine_ends [] m m' -> m' = m.
Proof. intros m m' H. inversion H; auto. Qed.

Definition Hold (ph de : list T) (xs ys : list (list T)) (m : mem T) : Prop :=
  holds_r m Dphi ph /\ holds_r m Denergy de /\ holds_rows m Xp xs /\ holds_rows m Yp ys.

Lemma holds_only : forall (P : arr -> Prop) (m m' : mem T) a l, only_changes P m m' -> ~ P a -> holds_r m a l -> holds_r m' a l.
Proof. intros P m m' a l O N H i x G. rewrite O by exact N. auto. Qed.

Lemma Hold_dphi : forall ph de xs ys ph' m m', Hold ph de xs ys m -> Inv1 Dphi m ph' m' -> Hold ph' de xs ys m'.
Proof.
  intros ph de xs ys ph' m m' (H1 & H2 & H3 & H4) [I O]. split; [auto|]. split; [|split].
  - eapply holds_only; eauto. discriminate.
  - intros p row G. eapply holds_only; eauto. discriminate.
  - intros p row G. eapply holds_only; eauto. discriminate.
Qed.
Lemma Hold_denergy : forall ph de xs ys de' m m', Hold ph de xs ys m -> Inv1 Denergy m de' m' -> Hold ph de' xs ys m'.
Proof.
  intros ph de xs ys ph' m m' (H1 & H2 & H3 & H4) [I O]. split; [|split; [auto|split]].
  - eapply holds_only; eauto. discriminate.
  - intros p row G. eapply holds_only; eauto. discriminate.
  - intros p row G. eapply holds_only; eauto. discriminate.
Qed.
Lemma Hold_store : forall ph de xs ys xs' ys' p n m m', Hold ph de xs ys m ->
  store_row xs p ph n = Ok xs' -> store_row ys p de n = Ok ys' -> ends (store_par p n) m m' -> Hold ph de xs' ys' m'.
Proof.
  intros ph de xs ys xs' ys' p n m m' (H1 & H2 & H3 & H4) Ex Ey E.
  unfold store_row in Ex, Ey. apply bind_ok in Ex, Ey. destruct Ex as (rx & Gx & Ex). destruct Ey as (ry & Gy & Ey).
  apply bind_ok in Ex, Ey. destruct Ex as (rx' & Cx & Ex). destruct Ey as (ry' & Cy & Ey).
  assert (I : Inv2 (Xp p) (Yp p) m (rx', ry') m').
  { refine (copy2_ok Dphi Denergy (Xp p) (Yp p) n m m' ph de rx ry rx' ry' _ _ _ _ _ H1 H2 (H3 _ _ Gx) (H4 _ _ Gy) Cx Cy E); discriminate. }
  destruct I as (I1 & I2 & O). cbn [fst snd] in *.
  assert (NN : forall a, a <> Xp p -> a <> Yp p -> ~ (a = Xp p \/ a = Yp p)) by (intros a N1 N2 [C|C]; auto).
  split; [|split; [|split]].
  - eapply holds_only; [exact O| |auto]. apply NN; discriminate.
  - eapply holds_only; [exact O| |auto]. apply NN; discriminate.
  - intros q row G. destruct (set_get _ _ _ _ _ _ Ex G) as [[-> ->]|[N G']]; auto.
    eapply holds_only; [exact O| |auto]. apply NN; [congruence|discriminate].
  - intros q row G. destruct (set_get _ _ _ _ _ _ Ey G) as [[-> ->]|[N G']]; auto.
    eapply holds_only; [exact O| |auto]. apply NN; [discriminate|congruence].
Qed.
Lemma Hold_restore : forall ph de xs ys rx ry ph' de' p n m m', Hold ph de xs ys m ->
  get xs p = Ok rx -> get ys p = Ok ry -> copy_loop rx ph n = Ok ph' -> copy_loop ry de n = Ok de' ->
  ends (restore_par p n) m m' -> Hold ph' de' xs ys m'.
Proof.
  intros ph de xs ys rx ry ph' de' p n m m' (H1 & H2 & H3 & H4) Gx Gy Cx Cy E.
  assert (I : Inv2 Dphi Denergy m (ph', de') m').
  { refine (copy2_ok (Xp p) (Yp p) Dphi Denergy n m m' rx ry ph de ph' de' _ _ _ _ _ (H3 _ _ Gx) (H4 _ _ Gy) H1 H2 Cx Cy E); discriminate. }
  destruct I as (I1 & I2 & O). cbn [fst snd] in *.
  split; [|split; [|split]]; auto.
  - intros q row G. eapply holds_only; [exact O| |auto]. intros [C|C]; discriminate.
  - intros q row G. eapply holds_only; [exact O| |auto]. intros [C|C]; discriminate.
Qed.

Notation Hs s := (Hold (dphi s) (denergy s) (xp s) (yp s)).

Ltac inv1 H := let x := fresh "x" in let E := fresh "E" in apply bind_ok in H; destruct H as (x & E & H).

Lemma up_routine_ok : forall m dturns rec_prof nturns nparts ftn fuel s s',
  up_loop add sub mul sin fuel m dturns rec_prof nturns nparts ftn s = Ok s' ->
  exists rs, up_routine add sub mul sin fuel m dturns nturns nparts (turn s) (profile s) = Ok rs /\
    forall mm mm', Hs s mm -> routine_ends rs mm mm' -> Hs s' mm'.
Proof.
  intros m dturns rec_prof nturns nparts ftn. induction fuel as [|f IH]; intros s s' H; cbn [up_loop up_routine] in *.
  - destruct (turn s <? nturns)%Z; [discriminate|]. injection H as <-. exists []. split; auto.
    intros mm mm' HH R. apply routine_nil in R. subst. auto.
  - destruct (turn s <? nturns)%Z.
    + inv1 H. unfold up_step in E. inv1 E. inv1 E. cbv zeta in E. inv1 E. inv1 E. inv1 E. inv1 E. inv1 E. inv1 E. inv1 E.
      rewrite E0. cbn [bind]. cbv zeta. rewrite E2. cbn [bind]. rewrite E3. cbn [bind]. rewrite E4. cbn [bind].
      rewrite E5. cbn [bind]. rewrite E6. cbn [bind]. rewrite E8. cbn [bind].
      destruct x8.
      * inv1 E. inv1 E. injection E as <-. apply IH in H. cbn [turn profile dphi denergy xp yp] in H.
        destruct H as (rs & R & HR). rewrite R. cbn [bind]. eexists. split; [reflexivity|].
        intros mm mm' HH RE. apply routine_cons in RE. destruct RE as (m1 & R1 & RE).
        apply routine_cons in RE. destruct RE as (m2 & R2 & RE). cbn [app] in RE.
        apply routine_cons in RE. destruct RE as (m3 & R3 & RE). apply (HR m3); auto.
        assert (HH0 := HH). destruct HH as (A1 & A2 & _).
        assert (I1 := drift_up_par_ok _ _ _ _ _ _ _ _ _ A1 A2 E1 R1). assert (HH1 := Hold_dphi _ _ _ _ _ _ _ HH0 I1).
        assert (HH1' := HH1). destruct HH1' as (B1 & B2 & _).
        assert (I2 := kick_up_par_ok _ _ _ _ _ _ _ _ _ _ _ _ _ _ _ _ B1 B2 E7 R2). assert (HH2 := Hold_denergy _ _ _ _ _ _ _ HH1 I2).
        eapply Hold_store; eauto.
      * injection E as <-. apply IH in H. cbn [turn profile dphi denergy xp yp] in H.
        destruct H as (rs & R & HR). rewrite R. cbn [bind]. eexists. split; [reflexivity|].
        intros mm mm' HH RE. apply routine_cons in RE. destruct RE as (m1 & R1 & RE).
        apply routine_cons in RE. destruct RE as (m2 & R2 & RE). cbn [app] in RE. apply (HR m2); auto.
        assert (HH0 := HH). destruct HH as (A1 & A2 & _).
        assert (I1 := drift_up_par_ok _ _ _ _ _ _ _ _ _ A1 A2 E1 R1). assert (HH1 := Hold_dphi _ _ _ _ _ _ _ HH0 I1).
        assert (HH1' := HH1). destruct HH1' as (B1 & B2 & _).
        assert (I2 := kick_up_par_ok _ _ _ _ _ _ _ _ _ _ _ _ _ _ _ _ B1 B2 E7 R2). exact (Hold_denergy _ _ _ _ _ _ _ HH1 I2).
    + injection H as <-. exists []. split; auto. intros mm mm' HH R. apply routine_nil in R. subst. auto.
Qed.

Lemma down_routine_ok : forall m dturns rec_prof total nparts ftn fuel s s',
  down_loop add sub mul sin fuel m dturns rec_prof total nparts ftn s = Ok s' ->
  exists rs, down_routine add sub mul sin fuel m dturns nparts (turn s) (profile s) = Ok rs /\
    forall mm mm', Hs s mm -> routine_ends rs mm mm' -> Hs s' mm'.
Proof.
  intros m dturns rec_prof total nparts ftn. induction fuel as [|f IH]; intros s s' H; cbn [down_loop down_routine] in *.
  - destruct (0 <? turn s)%Z; [discriminate|]. injection H as <-. exists []. split; auto.
    intros mm mm' HH R. apply routine_nil in R. subst. auto.
  - destruct (0 <? turn s)%Z.
    + inv1 H. unfold down_step in E. inv1 E. inv1 E. inv1 E. inv1 E. inv1 E. inv1 E. cbv zeta in E. inv1 E. inv1 E. inv1 E.
      rewrite E0. cbn [bind]. rewrite E1. cbn [bind]. rewrite E2. cbn [bind]. rewrite E3. cbn [bind]. rewrite E4. cbn [bind].
      cbv zeta. rewrite E6. cbn [bind]. rewrite E8. cbn [bind].
      destruct x8.
      * inv1 E. inv1 E. injection E as <-. apply IH in H. cbn [turn profile dphi denergy xp yp] in H.
        destruct H as (rs & R & HR). rewrite R. cbn [bind]. eexists. split; [reflexivity|].
        intros mm mm' HH RE. apply routine_cons in RE. destruct RE as (m1 & R1 & RE).
        apply routine_cons in RE. destruct RE as (m2 & R2 & RE). cbn [app] in RE.
        apply routine_cons in RE. destruct RE as (m3 & R3 & RE). apply (HR m3); auto.
        assert (HH0 := HH). destruct HH as (A1 & A2 & _).
        assert (I1 := kick_down_par_ok _ _ _ _ _ _ _ _ _ _ _ _ _ _ _ _ A1 A2 E5 R1). assert (HH1 := Hold_denergy _ _ _ _ _ _ _ HH0 I1).
        assert (HH1' := HH1). destruct HH1' as (B1 & B2 & _).
        assert (I2 := drift_down_par_ok _ _ _ _ _ _ _ _ _ B1 B2 E7 R2). assert (HH2 := Hold_dphi _ _ _ _ _ _ _ HH1 I2).
        eapply Hold_store; eauto.
      * injection E as <-. apply IH in H. cbn [turn profile dphi denergy xp yp] in H.
        destruct H as (rs & R & HR). rewrite R. cbn [bind]. eexists. split; [reflexivity|].
        intros mm mm' HH RE. apply routine_cons in RE. destruct RE as (m1 & R1 & RE).
        apply routine_cons in RE. destruct RE as (m2 & R2 & RE). cbn [app] in RE. apply (HR m2); auto.
        assert (HH0 := HH). destruct HH as (A1 & A2 & _).
        assert (I1 := kick_down_par_ok _ _ _ _ _ _ _ _ _ _ _ _ _ _ _ _ A1 A2 E5 R1). assert (HH1 := Hold_denergy _ _ _ _ _ _ _ HH0 I1).
        assert (HH1' := HH1). destruct HH1' as (B1 & B2 & _).
        assert (I2 := drift_down_par_ok _ _ _ _ _ _ _ _ _ B1 B2 E7 R2). exact (Hold_dphi _ _ _ _ _ _ _ HH1 I2).
    + injection H as <-. exists []. split; auto. intros mm mm' HH R. apply routine_nil in R. subst. auto.
Qed.

Lemma tracking_ok : forall m xp0 yp0 de ph dturns rec_prof deltaturn nturns nparts ftn s,
  kick_and_drift add sub mul sin m xp0 yp0 de ph dturns rec_prof deltaturn nturns nparts ftn = Ok s ->
  exists rs, kick_and_drift_routine add sub mul sin m dturns rec_prof deltaturn nturns nparts = Ok rs /\
    forall mm mm', Hold ph de xp0 yp0 mm -> routine_ends rs mm mm' -> Hs s mm'.
Proof.
  intros m xp0 yp0 de ph dturns rec_prof deltaturn nturns nparts ftn s H. unfold kick_and_drift, kick_and_drift_routine in *.
  cbv zeta in *. inv1 H. inv1 H. inv1 H. apply up_routine_ok in E1. cbn [turn profile dphi denergy xp yp] in E1.
  destruct E1 as (up & RU & HU). rewrite RU. cbn [bind]. destruct (0 <? rec_prof)%Z.
  - inv1 H. inv1 H. inv1 H. inv1 H. apply down_routine_ok in H. cbn [turn profile dphi denergy xp yp] in H.
    destruct H as (dn & RD & HD). rewrite RD. cbn [bind]. eexists. split; [reflexivity|].
    intros mm mm' HH RE. apply routine_cons in RE. destruct RE as (m1 & R1 & RE). apply routine_app in RE.
    destruct RE as (m2 & R2 & RE). apply routine_cons in RE. destruct RE as (m3 & R3 & RE).
    apply (HD m3); auto. eapply Hold_restore; [|exact E1|exact E2|exact E3|exact E4|exact R3].
    apply (HU m1); auto. eapply Hold_store; eauto.
  - injection H as <-. cbn [dphi denergy xp yp]. eexists. split; [reflexivity|].
    intros mm mm' HH RE. apply routine_cons in RE. destruct RE as (m1 & R1 & RE).
    apply (HU m1); auto. eapply Hold_store; eauto.
Qed.
End Track.
