(** Lemmas on interleavings. *)
From Coq Require Import List ZArith Bool Lia Arith QArith Qcanon.
From Verif Require Import Base.Res Base.ResLemmas Base.QcLib Base.QcLemmas Model.MRecon Model.MTrack Model.MOmp Spec.OmpSpec.
Import ListNotations.
Local Open Scope nat_scope.

Section Omp.
Context {T : Type}.
Implicit Types (m : mem T) (p : prog T).

Lemma store_eq : forall m l v, store m l v l = v.
Proof.
  intros. unfold store. destruct (loc_eq_dec l l) as [e|n]; [|congruence].
  rewrite (Eqdep_dec.UIP_dec loc_eq_dec e eq_refl). reflexivity.
Qed.
Lemma store_neq : forall m l v l', l <> l' -> store m l v l' = m l'.
Proof. intros. unfold store. destruct (loc_eq_dec l l'); [congruence|auto]. Qed.

(** Memories that agree on what a program may touch. *)
Lemma run_agree : forall (A W : loc -> Prop), (forall l, W l -> A l) ->
  forall p, within A W p -> forall m1 m2, (forall l, A l -> m1 l = m2 l) ->
  forall l, A l -> run p m1 l = run p m2 l.
Proof.
  intros A W HW p H. induction H as [|l k Al Hk IH|l v p Wl Hp IH]; intros m1 m2 E l' Al'; cbn [run].
  - apply E. auto.
  - rewrite (E l Al). apply IH; auto.
  - apply IH; auto. intros l2 Al2. destruct (loc_eq_dec l l2) as [<-|N].
    + rewrite !store_eq. auto.
    + rewrite !store_neq by auto. auto.
Qed.
Lemma run_outside : forall (A W : loc -> Prop) p, within A W p -> forall m l, ~ W l -> run p m l = m l.
Proof.
  intros A W p H. induction H as [|l k Al Hk IH|l v p Wl Hp IH]; intros m l' N; cbn [run]; auto.
  rewrite IH by auto. apply store_neq. intros ->. auto.
Qed.
Lemma within_mono : forall (A W A' W' : loc -> Prop) p, (forall l, A l -> A' l) -> (forall l, W l -> W' l) ->
  within A W p -> within A' W' p.
Proof. intros A W A' W' p HA HW H. induction H; constructor; auto. Qed.

Lemma within_read_inv : forall (A W : loc -> Prop) l (k : val T l -> prog T), within A W (Read l k) -> A l /\ forall v, within A W (k v).
Proof.
  intros A W l k H.
  exact (match H in within _ _ p return match p with Read l k => A l /\ forall v, within A W (k v) | _ => True end with
         | within_stop _ _ => I | within_read _ _ l k Al Hk => conj Al Hk | within_write _ _ _ _ _ _ _ => I end).
Qed.
Lemma within_write_inv : forall (A W : loc -> Prop) l (v : val T l) (p : prog T), within A W (Write l v p) -> W l /\ within A W p.
Proof.
  intros A W l v p H.
  exact (match H in within _ _ p return match p with Write l v p => W l /\ within A W p | _ => True end with
         | within_stop _ _ => I | within_read _ _ _ _ _ _ => I | within_write _ _ l v p Wl Hp => conj Wl Hp end).
Qed.

Lemma steps_trans : forall (s1 s2 s3 : list (prog T) * mem T), steps s1 s2 -> steps s2 s3 -> steps s1 s3.
Proof. intros s1 s2 s3 H. induction H; intros; auto. econstructor; eauto. Qed.

(** The invariant: on the locations thread i may touch, finishing thread i
    alone from here gives what thread i alone gives from the start. *)
Section Inv.
Variables (W : nat -> loc -> Prop) (ps0 : list (prog T)) (m0 : mem T).
Hypothesis Hdis : forall i j l, W i l -> W j l -> i = j.
Let A i l := forall j, j <> i -> ~ W j l.
Definition inv (s : list (prog T) * mem T) : Prop :=
  length (fst s) = length ps0 /\
  (forall i p, nth_error (fst s) i = Some p -> within (A i) (W i) p) /\
  (forall i p q, nth_error (fst s) i = Some p -> nth_error ps0 i = Some q ->
     forall l, A i l -> run p (snd s) l = run q m0 l) /\
  (forall l, (forall i, i < length ps0 -> ~ W i l) -> snd s l = m0 l).

Lemma WA : forall i l, W i l -> A i l.
Proof. intros i l H j N C. apply N. eapply Hdis; eauto. Qed.

Lemma step_inv : forall s s', step s s' -> inv s -> inv s'.
Proof.
  intros s s' H I. destruct I as (L & Wi & R & O). destruct H as [ps i l k m E|ps i l v p m E]; unfold inv; cbn [fst snd] in *.
  - split; [rewrite upd_length; auto|].
    assert (Hi : i < length ps) by (apply nth_error_Some; congruence).
    destruct (within_read_inv _ _ _ _ (Wi i _ E)) as [Al Hk].
    repeat split; auto.
    + intros j q Ej. destruct (Nat.eq_dec j i) as [->|N].
      * rewrite nth_error_upd_eq in Ej by auto. injection Ej as <-. apply Hk.
      * rewrite nth_error_upd_neq in Ej by auto. auto.
    + intros j q q0 Ej Ej0 l2 Al2. destruct (Nat.eq_dec j i) as [->|N].
      * rewrite nth_error_upd_eq in Ej by auto. injection Ej as <-. rewrite <- (R i _ q0 E Ej0 l2 Al2). reflexivity.
      * rewrite nth_error_upd_neq in Ej by auto. eapply R; eauto.
  - split; [rewrite upd_length; auto|].
    assert (Hi : i < length ps) by (apply nth_error_Some; congruence).
    destruct (within_write_inv _ _ _ _ _ (Wi i _ E)) as [Wl Hp].
    repeat split; auto.
    + intros j q Ej. destruct (Nat.eq_dec j i) as [->|N].
      * rewrite nth_error_upd_eq in Ej by auto. injection Ej as <-. auto.
      * rewrite nth_error_upd_neq in Ej by auto. auto.
    + intros j q q0 Ej Ej0 l2 Al2. destruct (Nat.eq_dec j i) as [->|N].
      * rewrite nth_error_upd_eq in Ej by auto. injection Ej as <-. rewrite <- (R i _ q0 E Ej0 l2 Al2). reflexivity.
      * rewrite nth_error_upd_neq in Ej by auto. rewrite <- (R j q q0 Ej Ej0 l2 Al2).
        apply (run_agree (A j) (W j)); auto.
        -- apply WA.
        -- intros l3 Al3. apply store_neq. intros <-. apply (Al3 i); auto.
    + intros l2 H2. rewrite store_neq; auto. intros ->. apply (H2 i); auto. rewrite <- L. auto.
Qed.
Lemma steps_inv : forall s s', steps s s' -> inv s -> inv s'.
Proof. intros s s' H. induction H; auto. intros. apply IHsteps. eapply step_inv; eauto. Qed.
End Inv.

(** The memory a race-free loop ends with. *)
Lemma ends_value : forall (W : nat -> loc -> Prop) ps m m',
  (forall i j l, W i l -> W j l -> i = j) ->
  (forall i p, nth_error ps i = Some p -> within (fun l => forall j, j <> i -> ~ W j l) (W i) p) ->
  ends ps m m' ->
  (forall i p l, nth_error ps i = Some p -> W i l -> m' l = run p m l) /\
  (forall l, (forall i, i < length ps -> ~ W i l) -> m' l = m l).
Proof.
  intros W ps m m' HD HW (ps' & S & F).
  assert (I : inv W ps m (ps', m')).
  { apply (steps_inv W ps m HD _ _ S). repeat split; cbn [fst snd]; auto. intros. congruence. }
  destruct I as (L & _ & R & O). cbn [fst snd] in *. split; auto.
  intros i p l E Wl. assert (Hi : i < length ps') by (rewrite L; apply nth_error_Some; congruence).
  destruct (nth_error ps' i) as [q|] eqn:E'; [|apply nth_error_None in E'; lia].
  assert (q = Stop) by (rewrite Forall_forall in F; apply F; eapply nth_error_In; eauto). subst q.
  apply (R i Stop p E' E l). apply (WA W HD). auto.
Qed.

(** Running one program to its end, from inside a list of programs. *)
Lemma steps_run : forall p ps i m, nth_error ps i = Some p ->
  steps (ps, m) (upd ps i Stop, run p m).
Proof.
  induction p as [|l k IH|l v p IH]; intros ps i m E; cbn [run].
  - replace (upd ps i Stop) with ps; [constructor|].
    apply nth_error_ext. intros j. destruct (Nat.eq_dec i j) as [->|N].
    + rewrite nth_error_upd_eq by (eapply nth_error_lt; eauto). auto.
    + rewrite nth_error_upd_neq by auto. auto.
  - eapply steps_cons. { apply step_read. exact E. }
    assert (Hi : i < length ps) by (eapply nth_error_lt; eauto).
    replace (upd ps i Stop) with (upd (upd ps i (k (m l))) i Stop).
    + apply IH. apply nth_error_upd_eq. auto.
    + apply nth_error_ext. intros j. destruct (Nat.eq_dec i j) as [<-|N].
      * rewrite !nth_error_upd_eq by (rewrite ?upd_length; auto). auto.
      * rewrite !nth_error_upd_neq by auto. auto.
  - eapply steps_cons. { apply step_write. exact E. }
    assert (Hi : i < length ps) by (eapply nth_error_lt; eauto).
    replace (upd ps i Stop) with (upd (upd ps i p) i Stop).
    + apply IH. apply nth_error_upd_eq. auto.
    + apply nth_error_ext. intros j. destruct (Nat.eq_dec i j) as [<-|N].
      * rewrite !nth_error_upd_eq by (rewrite ?upd_length; auto). auto.
      * rewrite !nth_error_upd_neq by auto. auto.
Qed.

Lemma steps_run_all : forall ps done m, Forall (fun p => p = Stop) done ->
  exists ps', steps (done ++ ps, m) (ps', run_all ps m) /\ Forall (fun p => p = Stop) ps'.
Proof.
  induction ps as [|p ps IH]; intros done m F.
  - exists (done ++ []). split; [constructor|]. rewrite app_nil_r. auto.
  - assert (S := steps_run p (done ++ p :: ps) (length done) m).
    assert (E : nth_error (done ++ p :: ps) (length done) = Some p) by (rewrite nth_error_app2, Nat.sub_diag by lia; auto).
    specialize (S E).
    replace (upd (done ++ p :: ps) (length done) Stop) with ((done ++ [Stop]) ++ ps) in S.
    + destruct (IH (done ++ [Stop]) (run p m)) as (ps' & S' & F'). { apply Forall_app. auto. }
      exists ps'. split; auto. eapply steps_trans; eauto.
    + rewrite <- app_assoc. cbn [app]. clear. induction done; cbn [app length upd]; [reflexivity|]. f_equal. exact IHdone.
Qed.
Lemma run_all_ends : forall ps m, ends ps m (run_all ps m).
Proof. intros. destruct (steps_run_all ps [] m) as (ps' & S & F); [constructor|]. exists ps'. auto. Qed.

(** Every execution of a race-free loop ends with the memory of the loop run in
    index order. *)
Lemma race_free_ends : forall ps m m', race_free ps -> ends ps m m' -> forall l, m' l = run_all ps m l.
Proof.
  intros ps m m' (W & HD & HW) E l.
  set (P := fun i l => W i l = true).
  assert (HW' : forall i p, nth_error ps i = Some p -> within (fun l => forall j, j <> i -> ~ P j l) (P i) p).
  { intros i p Ei. eapply within_mono; [| |apply HW; exact Ei]; auto. intros l' H j N C. unfold P in C. rewrite (H j N) in C. discriminate. }
  destruct (ends_value P ps m m' HD HW' E) as [V1 V2].
  destruct (ends_value P ps m _ HD HW' (run_all_ends ps m)) as [U1 U2].
  destruct (existsb (fun i => W i l) (seq 0 (length ps))) eqn:X.
  - apply existsb_exists in X. destruct X as (i & Hi & Wi). apply in_seq in Hi.
    destruct (nth_error ps i) as [p|] eqn:Ei; [|apply nth_error_None in Ei; lia].
    rewrite (V1 i p l Ei Wi), (U1 i p l Ei Wi). reflexivity.
  - assert (N : forall i, i < length ps -> ~ P i l).
    { intros i Hi C. assert (existsb (fun i => W i l) (seq 0 (length ps)) = true); [|congruence].
      apply existsb_exists. exists i. split; auto. apply in_seq. lia. }
    rewrite V2, U2 by auto. reflexivity.
Qed.

(** Every execution can be completed, and none goes on for ever. *)
Lemma ends_exists : forall ps m, exists m', ends ps m m'.
Proof. intros. exists (run_all ps m). apply run_all_ends. Qed.

Inductive sub : prog T -> prog T -> Prop :=
| sub_read : forall l k v, sub (k v) (Read l k)
| sub_write : forall l v p, sub p (Write l v p).
Lemma sub_wf : forall p, Acc sub p.
Proof.
  assert (SI : forall q p, sub q p -> match p with Stop => False | Read l k => exists v, q = k v | Write l v p => q = p end).
  { intros q p H. destruct H; eauto. }
  induction p as [|l k IH|l v p IH]; constructor; intros q Hq; apply SI in Hq.
  - contradiction.
  - destruct Hq as [v ->]. apply IH.
  - subst q. exact IH.
Qed.
Inductive sub_list : list (prog T) -> list (prog T) -> Prop :=
| sub_nth : forall ps i p q, nth_error ps i = Some p -> sub q p -> sub_list (upd ps i q) ps.
Lemma sub_list_cons : forall p, Acc sub p -> forall ps, Acc sub_list ps -> Acc sub_list (p :: ps).
Proof.
  intros p Hp. induction Hp as [p Hp IHp]. intros ps Hps. induction Hps as [ps Hps IHps].
  constructor. intros qs H. inversion H as [ps' i p' q E Hs E1 E2]; subst. destruct i as [|i]; cbn in E |- *.
  - injection E as <-. apply IHp; auto. constructor. auto.
  - apply IHps. econstructor; eauto.
Qed.
Lemma sub_list_wf : forall ps, Acc sub_list ps.
Proof.
  induction ps; [|apply sub_list_cons; auto using sub_wf].
  constructor. intros qs H. inversion H as [ps' i p' q E Hs E1 E2]; subst. destruct i; discriminate.
Qed.
Lemma step_wf : forall s, Acc (fun s' s : list (prog T) * mem T => step s s') s.
Proof.
  intros [ps m]. revert m. induction (sub_list_wf ps) as [ps _ IH]. intros m. constructor. intros s' H. inversion H; subst.
  - apply IH. econstructor; eauto. constructor.
  - apply IH. econstructor; eauto. constructor.
Qed.
Lemma step_exists : forall ps m, Forall (fun p => p = Stop) ps \/ exists s, step (ps, m) s.
Proof.
  intros. induction ps as [|p ps IH]; auto. destruct p.
  - destruct IH as [IH|[s H]]; [left; constructor; auto|]. right. inversion H as [? i ? ? ? E|? i ? ? ? ? E]; subst.
    + eexists. apply (step_read _ (S i)). exact E.
    + eexists. apply (step_write _ (S i)). exact E.
  - right. eexists. apply (step_read _ 0). reflexivity.
  - right. eexists. apply (step_write _ 0). reflexivity.
Qed.

(** ** Loops in index order and the loops on lists *)

Lemma run_all_for : forall S (Inv : S -> mem T -> Prop) (f : nat -> S -> res S) (body : nat -> prog T) n i s s' m,
  for_ i n f s = Ok s' -> Inv s m ->
  (forall k s s' m, i <= k < i + n -> f k s = Ok s' -> Inv s m -> Inv s' (run (body k) m)) ->
  Inv s' (run_all (map body (seq i n)) m).
Proof.
  intros S Inv f body. induction n; intros i s s' m H I B; cbn in H.
  - injection H as <-. exact I.
  - apply bind_ok in H. destruct H as (s1 & E & H). cbn [seq map]. unfold run_all. cbn [fold_left].
    apply (IHn (Datatypes.S i) s1 s'); auto.
    + eapply B; eauto. lia.
    + intros. eapply B; eauto. lia.
Qed.

(** Inner loops: u is the private variable, s the state of the list loop. *)
Lemma run_ploop : forall S U (Inv : S -> U -> mem T -> Prop) (f : nat -> S -> res S)
    (body : nat -> U -> (U -> prog T) -> prog T) n i s s' u m K,
  for_ i n f s = Ok s' -> Inv s u m ->
  (forall k s s' u m K, i <= k < i + n -> f k s = Ok s' -> Inv s u m -> exists u' m', Inv s' u' m' /\ run (body k u K) m = run (K u') m') ->
  exists u' m', Inv s' u' m' /\ run (ploop i n body u K) m = run (K u') m'.
Proof.
  intros S U Inv f body. induction n; intros i s s' u m K H I B; cbn in H; cbn [ploop].
  - injection H as <-. eauto.
  - apply bind_ok in H. destruct H as (s1 & E & H).
    destruct (B i s s1 u m (fun u' => ploop (Datatypes.S i) n body u' K)) as (u1 & m1 & I1 & R1); auto. { lia. }
    rewrite R1. apply (IHn (Datatypes.S i) s1 s'); auto. intros. eapply B; eauto. lia.
Qed.

Lemma par_nth : forall n (body : nat -> prog T) i p, nth_error (par n body) i = Some p -> i < n /\ p = body i.
Proof.
  intros n body i p E. unfold par in E. assert (Hi : i < n) by (apply nth_error_lt in E; rewrite map_length, seq_length in E; auto).
  split; auto. rewrite nth_error_map in E. rewrite (nth_error_nth' (seq 0 n) 0) in E by (rewrite seq_length; auto).
  rewrite seq_nth in E by auto. injection E as <-. reflexivity.
Qed.

Lemma within_ploop : forall (A W : loc -> Prop) U (body : nat -> U -> (U -> prog T) -> prog T) n i u K,
  (forall u, within A W (K u)) ->
  (forall k u K, i <= k < i + n -> (forall u, within A W (K u)) -> within A W (body k u K)) ->
  within A W (ploop i n body u K).
Proof.
  induction n; intros i u K HK HB; cbn [ploop]; auto.
  apply HB; [lia|]. intros. apply IHn; auto. intros. apply HB; auto. lia.
Qed.

(** Arrays in memory. *)
Lemma holds_r_store : forall m a l i v l', holds_r m a l -> set l i v = Ok l' -> holds_r (store m (R_ a i) v) a l'.
Proof.
  intros m a l i v l' H E j x G. apply set_ok_inv in E. destruct E as [Hi ->].
  apply get_ok_inv in G. destruct G as (G0 & G & _). destruct (Z.eq_dec i j) as [<-|N].
  - rewrite nth_error_upd_eq in G by lia. injection G as <-. apply store_eq.
  - rewrite nth_error_upd_neq in G by lia. rewrite store_neq by congruence. apply H. apply get_Z; auto.
Qed.
Lemma holds_r_other : forall m l0 v a l, holds_r m a l -> (forall i, R_ a i <> l0) -> holds_r (store m l0 v) a l.
Proof. intros m l0 v a l H N i x G. rewrite store_neq by (intros C; apply (N i); auto). auto. Qed.
Lemma holds_r_ext : forall m m' a l, holds_r m a l -> (forall i, m' (R_ a i) = m (R_ a i)) -> holds_r m' a l.
Proof. intros m m' a l H E i x G. rewrite E. auto. Qed.
Lemma holds_i_ext : forall m m' a l, holds_i m a l -> (forall i, m' (I_ a i) = m (I_ a i)) -> holds_i m' a l.
Proof. intros m m' a l H E i x G. rewrite E. auto. Qed.
End Omp.
