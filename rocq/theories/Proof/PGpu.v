(** Lemmas on the threads of GPU kernels. *)
From Coq Require Import List ZArith Bool Lia Arith QArith Qcanon.
From Verif Require Import Base.Res Base.ResLemmas Base.QcLib Base.QcLemmas Base.Loops Model.MRecon Model.MOmp Model.MGpu
  Proof.POmp.
Import ListNotations.
Local Open Scope Qc_scope.
Local Open Scope nat_scope.

(** The thread run alone; what it adds atomically to a location; whether it
    stays inside. *)
Fixpoint grun (p : gprog) (m : mem Qc) : mem Qc :=
  match p with
  | GStop => m
  | GRead l k => grun (k (m l)) m
  | GWrite l v p => grun p (store m l v)
  | GAdd a i v p => grun p (store m (R_ a i) (m (R_ a i) + v)%Qc)
  end.
Fixpoint added (p : gprog) (m : mem Qc) (l0 : loc) : Qc :=
  match p with
  | GStop => 0%Qc
  | GRead l k => added (k (m l)) m l0
  | GWrite l v p => added p (store m l v) l0
  | GAdd a i v p => ((if loc_eq_dec (R_ a i) l0 then v else 0) + added p (store m (R_ a i) (m (R_ a i) + v)%Qc) l0)%Qc
  end.
Fixpoint safe (inside : loc -> bool) (p : gprog) (m : mem Qc) : Prop :=
  match p with
  | GStop => True
  | GRead l k => inside l = true /\ safe inside (k (m l)) m
  | GWrite l v p => inside l = true /\ safe inside p (store m l v)
  | GAdd a i v p => inside (R_ a i) = true /\ safe inside p (store m (R_ a i) (m (R_ a i) + v)%Qc)
  end.

(** Reads in A only, writes in W only, adds in D only. *)
Fixpoint gwithin (A W D : loc -> Prop) (p : gprog) : Prop :=
  match p with
  | GStop => True
  | GRead l k => A l /\ forall v, gwithin A W D (k v)
  | GWrite l v p => W l /\ gwithin A W D p
  | GAdd a i v p => D (R_ a i) /\ gwithin A W D p
  end.

Section Agree.
Variables A W D : loc -> Prop.
Hypothesis HD : forall l, A l -> ~ D l.

Lemma store_agree : forall (m1 m2 : mem Qc) l v1 v2, (forall l, A l -> m1 l = m2 l) -> (A l -> v1 = v2) ->
  forall l', A l' -> store m1 l v1 l' = store m2 l v2 l'.
Proof.
  intros m1 m2 l v1 v2 E V l' Al. destruct (loc_eq_dec l l') as [<-|N].
  - rewrite !store_eq. auto.
  - rewrite !store_neq by auto. auto.
Qed.
Lemma grun_agree : forall p, gwithin A W D p -> forall m1 m2, (forall l, A l -> m1 l = m2 l) ->
  forall l, A l -> grun p m1 l = grun p m2 l.
Proof.
  induction p as [|l k IH|l v p IH|a i v p IH]; cbn [gwithin grun]; intros H m1 m2 E l' Al'.
  - apply E. auto.
  - rewrite (E l) by apply H. apply IH; auto. apply H.
  - apply IH; auto; [apply H|]. apply store_agree; auto.
  - apply IH; auto; [apply H|]. apply store_agree; auto. intros C. exfalso. apply (HD _ C). apply H.
Qed.
Lemma added_agree : forall p, gwithin A W D p -> forall m1 m2, (forall l, A l -> m1 l = m2 l) ->
  forall l, added p m1 l = added p m2 l.
Proof.
  induction p as [|l k IH|l v p IH|a i v p IH]; cbn [gwithin added]; intros H m1 m2 E l'; auto.
  - rewrite (E l) by apply H. apply IH; auto. apply H.
  - apply IH; auto; [apply H|]. apply store_agree; auto.
  - f_equal. apply IH; auto; [apply H|]. apply store_agree; auto. intros C. exfalso. apply (HD _ C). apply H.
Qed.
Lemma safe_agree : forall inside p, gwithin A W D p -> forall m1 m2, (forall l, A l -> m1 l = m2 l) ->
  safe inside p m1 -> safe inside p m2.
Proof.
  intros inside. induction p as [|l k IH|l v p IH|a i v p IH]; cbn [gwithin safe]; intros H m1 m2 E S; auto.
  - destruct S as [S1 S2]. split; auto. rewrite <- (E l) by apply H. eapply IH; eauto. apply H.
  - destruct S as [S1 S2]. split; auto. eapply IH; [apply H| |exact S2]. apply store_agree; auto.
  - destruct S as [S1 S2]. split; auto. eapply IH; [apply H| |exact S2]. apply store_agree; auto.
    intros C. exfalso. apply (HD _ C). apply H.
Qed.
End Agree.

Definition total_added (ps : list gprog) (m : mem Qc) (l : loc) : Qc :=
  sumn (length ps) (fun t => added (nth t ps GStop) m l).

Section Inv.
Variables (W : nat -> loc -> Prop) (D : loc -> Prop) (inside : loc -> bool) (ps0 : list gprog) (m0 : mem Qc).
Hypothesis Hdis : forall i j l, W i l -> W j l -> i = j.
Hypothesis HWD : forall i l, W i l -> ~ D l.
Let A i l := ~ D l /\ forall j, j <> i -> ~ W j l.

Definition ginv (s : list gprog * mem Qc) : Prop :=
  length (fst s) = length ps0 /\
  (forall i p, nth_error (fst s) i = Some p -> gwithin (A i) (W i) D p) /\
  (forall i p q, nth_error (fst s) i = Some p -> nth_error ps0 i = Some q ->
     forall l, A i l -> grun p (snd s) l = grun q m0 l) /\
  (forall l, ~ D l -> (forall i, i < length ps0 -> ~ W i l) -> snd s l = m0 l) /\
  (forall a i, D (R_ a i) -> (snd s (R_ a i) + total_added (fst s) (snd s) (R_ a i) =
      m0 (R_ a i) + total_added ps0 m0 (R_ a i))%Qc) /\
  (forall i p, nth_error (fst s) i = Some p -> safe inside p (snd s)).

Lemma gWA : forall i l, W i l -> A i l.
Proof. intros i l H. split; [eapply HWD; eauto|]. intros j N C. apply N. eapply Hdis; eauto. Qed.
Lemma gAD : forall i l, A i l -> ~ D l.
Proof. intros i l [H _]. auto. Qed.

(** Thread t goes on to p with memory m', others stay. *)
Lemma total_step : forall ps t p q m m' l, nth_error ps t = Some q ->
  (forall i p, nth_error ps i = Some p -> gwithin (A i) (W i) D p) ->
  (forall i, i <> t -> forall l, A i l -> m' l = m l) ->
  (total_added (upd ps t p) m' l = total_added ps m l - added q m l + added p m' l)%Qc.
Proof.
  intros ps t p q m m' l E Wi S. unfold total_added. rewrite upd_length.
  assert (Ht : t < length ps) by (eapply nth_error_lt; eauto).
  transitivity (sumn (length ps) (fun i => added (nth i ps GStop) m l + (if Nat.eqb i t then added p m' l - added q m l else 0))%Qc).
  - apply sumn_ext. intros i Hi. destruct (Nat.eqb_spec i t) as [->|N].
    + erewrite (nth_error_nth (upd ps t p)) by (apply nth_error_upd_eq; auto).
      erewrite (nth_error_nth ps) by exact E. ring.
    + destruct (nth_error ps i) as [pi|] eqn:Ei; [|apply nth_error_None in Ei; lia].
      erewrite (nth_error_nth (upd ps t p)) by (rewrite nth_error_upd_neq by auto; exact Ei).
      erewrite (nth_error_nth ps) by exact Ei.
      rewrite (added_agree (A i) (W i) D (gAD i) pi (Wi i pi Ei) m' m (S i N)). ring.
  - rewrite sumn_add, sumn_single by auto. ring.
Qed.

Lemma gstep_inv : forall s s', gstep s s' -> ginv s -> ginv s'.
Proof.
  intros s s' H I. destruct I as (L & Wi & R & O & T & S).
  assert (G : forall ps t q p m m', nth_error ps t = Some q -> s = (ps, m) -> s' = (upd ps t p, m') ->
     gwithin (A t) (W t) D p -> (forall l, grun p m' l = grun q m l) ->
     (forall i, i <> t -> forall l, A i l -> m' l = m l) ->
     (forall l, ~ D l -> (forall i, i < length ps0 -> ~ W i l) -> m' l = m l) ->
     (forall a i, D (R_ a i) -> (m' (R_ a i) + added p m' (R_ a i) = m (R_ a i) + added q m (R_ a i))%Qc) ->
     safe inside p m' -> ginv s').
  { intros ps t q p m m' E -> -> Wp Rp Sm Om Tm Sp. cbn [fst snd] in *. unfold ginv. cbn [fst snd].
    assert (Ht : t < length ps) by (eapply nth_error_lt; eauto).
    split; [rewrite upd_length; auto|]. split; [|split; [|split; [|split]]].
    - intros i pi Ei. destruct (Nat.eq_dec i t) as [->|N].
      + rewrite nth_error_upd_eq in Ei by auto. injection Ei as <-. auto.
      + rewrite nth_error_upd_neq in Ei by auto. auto.
    - intros i pi qi Ei Eq l Al. destruct (Nat.eq_dec i t) as [->|N].
      + rewrite nth_error_upd_eq in Ei by auto. injection Ei as <-. rewrite Rp. eapply R; eauto.
      + rewrite nth_error_upd_neq in Ei by auto. rewrite <- (R i pi qi Ei Eq l Al).
        exact (grun_agree (A i) (W i) D (gAD i) pi (Wi i pi Ei) m' m (Sm i N) l Al).
    - intros l ND NW. rewrite Om by auto. apply O; auto.
    - intros a i Da. rewrite (total_step ps t p q m m') by auto.
      rewrite <- (T a i Da). replace (m (R_ a i)) with (m' (R_ a i) + added p m' (R_ a i) - added q m (R_ a i))%Qc by (rewrite Tm by auto; ring).
      ring.
    - intros i pi Ei. destruct (Nat.eq_dec i t) as [->|N].
      + rewrite nth_error_upd_eq in Ei by auto. injection Ei as <-. auto.
      + rewrite nth_error_upd_neq in Ei by auto.
        apply (safe_agree (A i) (W i) D (gAD i) inside pi (Wi i pi Ei) m m'); [|eauto].
        intros l Al. symmetry. eapply Sm; eauto. }
  destruct H as [ps t l k m E|ps t l v p m E|ps t a i v p m E]; cbn [fst snd] in *;
    assert (Wt := Wi _ _ E); assert (St := S _ _ E); cbn [gwithin safe] in Wt, St;
    (eapply G; [exact E|reflexivity|reflexivity|..]).
  - apply Wt.
  - reflexivity.
  - auto.
  - auto.
  - reflexivity.
  - apply St.
  - apply Wt.
  - reflexivity.
  - intros i N l' Al'. apply store_neq. intros <-. destruct Al' as [_ C]. apply (C t); auto. apply Wt.
  - intros l' ND NW. apply store_neq. intros <-. apply (NW t); [|apply Wt]. rewrite <- L. eapply nth_error_lt; eauto.
  - intros a i Da. cbn [added]. rewrite store_neq; [reflexivity|]. intros ->. apply (HWD t _ (proj1 Wt)). auto.
  - apply St.
  - apply Wt.
  - reflexivity.
  - intros j N l' Al'. apply store_neq. intros <-. apply (proj1 Al'). apply Wt.
  - intros l' ND NW. apply store_neq. intros <-. apply ND. apply Wt.
  - intros a' i' Da. cbn [added]. destruct (loc_eq_dec (R_ a i) (R_ a' i')) as [e|N].
    + injection e as <- <-. rewrite store_eq. ring.
    + rewrite store_neq by auto. ring.
  - apply St.
Qed.
Lemma gsteps_inv : forall s s', gsteps s s' -> ginv s -> ginv s'.
Proof. intros s s' H. induction H; auto. intros. apply IHgsteps. eapply gstep_inv; eauto. Qed.

Hypothesis H0 : forall i p, nth_error ps0 i = Some p -> gwithin (A i) (W i) D p.
Hypothesis S0 : forall i p, nth_error ps0 i = Some p -> safe inside p m0.

Lemma ginv_start : ginv (ps0, m0).
Proof.
  unfold ginv. cbn [fst snd]. split; [auto|]. split; [auto|]. split; [intros; congruence|]. split; [auto|].
  split; [auto|]. exact S0.
Qed.

Lemma gends_value : forall m', gends ps0 m0 m' ->
  (forall i p l, nth_error ps0 i = Some p -> W i l -> m' l = grun p m0 l) /\
  (forall l, ~ D l -> (forall i, i < length ps0 -> ~ W i l) -> m' l = m0 l) /\
  (forall a i, D (R_ a i) -> m' (R_ a i) = (m0 (R_ a i) + total_added ps0 m0 (R_ a i))%Qc).
Proof.
  intros m' (ps' & S & F).
  assert (I := gsteps_inv _ _ S ginv_start). destruct I as (L & _ & R & O & T & _). cbn [fst snd] in *.
  split; [|split]; auto.
  - intros i p l E Wl. assert (Hi : i < length ps') by (rewrite L; eapply nth_error_lt; eauto).
    destruct (nth_error ps' i) as [q|] eqn:E'; [|apply nth_error_None in E'; lia].
    assert (q = GStop) by (rewrite Forall_forall in F; apply F; eapply nth_error_In; eauto). subst q.
    apply (R i GStop p E' E l). apply gWA. auto.
  - intros a i Da. rewrite <- (T a i Da). unfold total_added. rewrite sumn_zero; [symmetry; apply Qcplus_0_r|].
    intros t Ht. destruct (nth_error ps' t) as [q|] eqn:E'; [|apply nth_error_None in E'; lia].
    erewrite nth_error_nth by exact E'.
    assert (q = GStop) by (rewrite Forall_forall in F; apply F; eapply nth_error_In; eauto). subst q. reflexivity.
Qed.
Lemma gno_fault : ~ gfault inside ps0 m0.
Proof.
  intros (ps' & m' & t & p & l & S & E & N & O).
  assert (I := gsteps_inv _ _ S ginv_start). destruct I as (_ & _ & _ & _ & _ & F). cbn [fst snd] in F.
  specialize (F t p E). destruct p; cbn [next safe] in *; try discriminate; injection N as <-; destruct F as [F _]; congruence.
Qed.
End Inv.

(** Every kernel can be completed. *)
Lemma gsteps_run : forall p ps i m, nth_error ps i = Some p ->
  gsteps (ps, m) (upd ps i GStop, grun p m).
Proof.
  assert (U : forall (ps : list gprog) i a b, i < length ps -> upd (upd ps i a) i b = upd ps i b).
  { intros ps i a b Hi. apply nth_error_ext. intros j. destruct (Nat.eq_dec i j) as [<-|N].
    - rewrite !nth_error_upd_eq by (rewrite ?upd_length; auto). auto.
    - rewrite !nth_error_upd_neq by auto. auto. }
  induction p as [|l k IH|l v p IH|a j v p IH]; intros ps i m E; cbn [grun]; assert (Hi := nth_error_lt _ _ _ _ E).
  - replace (upd ps i GStop) with ps; [constructor|].
    apply nth_error_ext. intros j. destruct (Nat.eq_dec i j) as [->|N].
    + rewrite nth_error_upd_eq by auto. auto.
    + rewrite nth_error_upd_neq by auto. auto.
  - eapply gsteps_cons. { apply gstep_read. exact E. } rewrite <- (U ps i (k (m l)) GStop Hi).
    apply IH. apply nth_error_upd_eq. auto.
  - eapply gsteps_cons. { apply gstep_write. exact E. } rewrite <- (U ps i p GStop Hi).
    apply IH. apply nth_error_upd_eq. auto.
  - eapply gsteps_cons. { apply gstep_add. exact E. } rewrite <- (U ps i p GStop Hi).
    apply IH. apply nth_error_upd_eq. auto.
Qed.
Lemma gsteps_trans : forall s1 s2 s3, gsteps s1 s2 -> gsteps s2 s3 -> gsteps s1 s3.
Proof. intros s1 s2 s3 H. induction H; intros; auto. econstructor; eauto. Qed.
Lemma gends_exists : forall ps m, exists m', gends ps m m'.
Proof.
  assert (H : forall ps done m, Forall (fun p => p = GStop) done ->
    exists ps' m', gsteps (done ++ ps, m) (ps', m') /\ Forall (fun p => p = GStop) ps').
  { induction ps as [|p ps IH]; intros done m F.
    - exists (done ++ []), m. split; [constructor|]. rewrite app_nil_r. auto.
    - assert (S := gsteps_run p (done ++ p :: ps) (length done) m).
      assert (E : nth_error (done ++ p :: ps) (length done) = Some p) by (rewrite nth_error_app2, Nat.sub_diag by lia; auto).
      specialize (S E).
      replace (upd (done ++ p :: ps) (length done) GStop) with ((done ++ [GStop]) ++ ps) in S.
      + destruct (IH (done ++ [GStop]) (grun p m)) as (ps' & m' & S' & F'). { apply Forall_app. auto. }
        exists ps', m'. split; auto. eapply gsteps_trans; eauto.
      + rewrite <- app_assoc. cbn [app]. clear. induction done; cbn [app length upd]; [reflexivity|]. f_equal. exact IHdone. }
  intros ps m. destruct (H ps [] m) as (ps' & m' & S & F); [constructor|]. exists m', ps'. auto.
Qed.
Lemma host_ends_exists : forall A inside (h : host A) m, exists r, host_ends inside h m r.
Proof.
  intros A inside. induction h as [r|ps k IH|a n k IH|a l k IH|a n k IH|a l k IH|a k IH]; intros m.
  - eexists. constructor.
  - destruct (gends_exists ps m) as (m1 & E). destruct (IH m1) as (r & Hr). exists r. econstructor; eauto.
  - destruct (IH (load m a n) m) as (r & Hr). exists r. constructor. auto.
  - destruct (IH (fill_r m a 0 l)) as (r & Hr). exists r. constructor. auto.
  - destruct (IH (load_i m a n) m) as (r & Hr). exists r. constructor. auto.
  - destruct (IH (fill_i m a 0 l)) as (r & Hr). exists r. constructor. auto.
  - destruct (IH m) as (r & Hr). exists r. econstructor; eauto.
Qed.

(** No kernel runs for ever. *)
Inductive gsub : gprog -> gprog -> Prop :=
| gsub_read : forall l k v, gsub (k v) (GRead l k)
| gsub_write : forall l v p, gsub p (GWrite l v p)
| gsub_add : forall a i v p, gsub p (GAdd a i v p).
Lemma gsub_wf : forall p, Acc gsub p.
Proof.
  assert (SI : forall q p, gsub q p -> match p with GStop => False | GRead l k => exists v, q = k v | GWrite l v p => q = p
    | GAdd _ _ _ p => q = p end).
  { intros q p H. destruct H; eauto. }
  induction p as [|l k IH|l v p IH|a i v p IH]; constructor; intros q Hq; apply SI in Hq.
  - contradiction.
  - destruct Hq as [v ->]. apply IH.
  - subst q. exact IH.
  - subst q. exact IH.
Qed.
Inductive gsub_list : list gprog -> list gprog -> Prop :=
| gsub_nth : forall ps i p q, nth_error ps i = Some p -> gsub q p -> gsub_list (upd ps i q) ps.
Lemma gsub_list_cons : forall p, Acc gsub p -> forall ps, Acc gsub_list ps -> Acc gsub_list (p :: ps).
Proof.
  intros p Hp. induction Hp as [p Hp IHp]. intros ps Hps. induction Hps as [ps Hps IHps].
  constructor. intros qs H. inversion H as [ps' i p' q E Hs E1 E2]; subst. destruct i as [|i]; cbn in E |- *.
  - injection E as <-. apply IHp; auto. constructor. auto.
  - apply IHps. econstructor; eauto.
Qed.
Lemma gsub_list_wf : forall ps, Acc gsub_list ps.
Proof.
  induction ps; [|apply gsub_list_cons; auto using gsub_wf].
  constructor. intros qs H. inversion H as [ps' i p' q E Hs E1 E2]; subst. destruct i; discriminate.
Qed.
Lemma gstep_wf : forall s, Acc (fun s' s => gstep s s') s.
Proof.
  intros [ps m]. revert m. induction (gsub_list_wf ps) as [ps _ IH]. intros m. constructor. intros s' H. inversion H; subst.
  - apply IH. econstructor; eauto. constructor.
  - apply IH. econstructor; eauto. constructor.
  - apply IH. econstructor; eauto. constructor.
Qed.
