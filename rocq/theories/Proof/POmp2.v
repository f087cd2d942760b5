(** The parallel loops one by one. *)
From Coq Require Import List ZArith Bool Lia Arith QArith Qcanon Permutation.
From Verif Require Import Base.Res Base.ResLemmas Base.QcLib Base.QcLemmas Model.MRecon Model.MTrack Model.MOmp Spec.OmpSpec Proof.POmp.
Import ListNotations.
Local Open Scope nat_scope.

Section Loops.
Context {T : Type}.
Implicit Types (m : mem T) (p : prog T).

Lemma race_free_owner : forall n (body : nat -> prog T) (owner : loc -> option nat),
  (forall i, i < n -> within (fun l => owner l = None \/ owner l = Some i) (fun l => owner l = Some i) (body i)) ->
  race_free (par n body).
Proof.
  intros n body owner H. exists (fun i l => match owner l with Some j => Nat.eqb j i | None => false end). split.
  - intros i j l A B. destruct (owner l) as [k|]; [|discriminate]. apply Nat.eqb_eq in A, B. congruence.
  - intros i p E. apply par_nth in E. destruct E as [Hi ->]. eapply within_mono; [| |apply H; exact Hi]; cbv beta.
    + intros l [->| ->]; auto. intros j N. apply Nat.eqb_neq. auto.
    + intros l ->. apply Nat.eqb_refl.
Qed.

Lemma par_result : forall n (body : nat -> prog T) St (Inv : St -> mem T -> Prop) f s s' m m',
  race_free (par n body) -> (forall s m m', Inv s m -> (forall l, m' l = m l) -> Inv s m') ->
  (forall k s s' m, k < n -> f k s = Ok s' -> Inv s m -> Inv s' (run (body k) m)) ->
  ends (par n body) m m' -> for_ 0 n f s = Ok s' -> Inv s m -> Inv s' m'.
Proof.
  intros n body St Inv f s s' m m' RF EX ST E F I.
  apply (EX s' (run_all (par n body) m)); [|apply race_free_ends; auto].
  unfold par. apply (run_all_for _ Inv f body n 0 s s' m F I). intros. eapply ST; eauto. lia.
Qed.

(** One program alone. *)
Lemma single_result : forall p m m', ends [p] m m' -> forall l, m' l = run p m l.
Proof.
  intros p m m' E l. assert (R : race_free [p]).
  { exists (fun i _ => Nat.eqb i 0). split. { intros i j _ A B. apply Nat.eqb_eq in A, B. congruence. }
    intros [|i] q Eq; [|destruct i; discriminate]. injection Eq as <-.
    assert (G : forall q : prog T, within (fun _ => True) (fun _ => True) q) by (induction q; constructor; auto).
    eapply within_mono; [| |apply G]; cbv beta; auto. intros _ _ j N. apply Nat.eqb_neq. auto. }
  rewrite (race_free_ends [p] m m' R E l). reflexivity.
Qed.

(** The iteration that owns an element of array a. *)
Definition own (a : arr) (l : loc) : option nat :=
  match l with R_ b i => if arr_eq_dec a b then Some (Z.to_nat i) else None | I_ _ _ => None end.
Lemma own_eq : forall a i, own a (R_ a (zi i)) = Some i.
Proof. intros. unfold own. destruct (arr_eq_dec a a); [|congruence]. rewrite Nat2Z.id. auto. Qed.
Lemma own_neq : forall a b i, a <> b -> own a (R_ b i) = None.
Proof. intros. unfold own. destruct (arr_eq_dec a b); [congruence|auto]. Qed.

(** The array w at a, everything else as in m0. *)
Definition Inv1 (a : arr) (m0 : mem T) (w : list T) (m : mem T) : Prop := holds_r m a w /\ only_changes (eq a) m0 m.
Lemma Inv1_ext : forall a m0 w m m', Inv1 a m0 w m -> (forall l, m' l = m l) -> Inv1 a m0 w m'.
Proof. intros a m0 w m m' [H O] E. split; [intros i x G; rewrite E; auto|intros l N; rewrite E; auto]. Qed.
Lemma Inv1_store : forall a m0 w m i v w', Inv1 a m0 w m -> set w i v = Ok w' -> Inv1 a m0 w' (store m (R_ a i) v).
Proof.
  intros a m0 w m i v w' [H O] E. split; [eapply holds_r_store; eauto|].
  intros l N. rewrite store_neq; auto. intros <-. apply N. reflexivity.
Qed.
Lemma Inv1_init : forall a m w, holds_r m a w -> Inv1 a m w m.
Proof. intros. split; auto. intros l _. reflexivity. Qed.
Lemma Inv1_get : forall a m0 w m i x, Inv1 a m0 w m -> get w i = Ok x -> m (R_ a i) = x.
Proof. intros a m0 w m i x [H _] G. auto. Qed.
Lemma Inv1_read : forall a m0 w m b l i x, Inv1 a m0 w m -> holds_r m0 b l -> a <> b -> get l i = Ok x -> m (R_ b i) = x.
Proof. intros a m0 w m b l i x [_ O] H N G. rewrite (O (R_ b i)); auto. Qed.
Lemma Inv1_readi : forall a m0 w m b l i x, Inv1 a m0 w m -> holds_i m0 b l -> a <> b -> get l i = Ok x -> m (I_ b i) = x.
Proof. intros a m0 w m b l i x [_ O] H N G. rewrite (O (I_ b i)); auto. Qed.

Ltac wi := repeat first [apply within_stop
  | apply within_read; [first [left; apply own_neq; discriminate | right; apply own_eq]|intros]
  | apply within_write; [apply own_eq|]].
Ltac inv1 H := let x := fresh "x" in let E := fresh "E" in apply bind_ok in H; destruct H as (x & E & H).

(** Two arrays written in the same loop. *)
Definition Inv2 (a b : arr) (m0 : mem T) (w : list T * list T) (m : mem T) : Prop :=
  holds_r m a (fst w) /\ holds_r m b (snd w) /\ only_changes (fun c => c = a \/ c = b) m0 m.
Lemma Inv2_ext : forall a b m0 w m m', Inv2 a b m0 w m -> (forall l, m' l = m l) -> Inv2 a b m0 w m'.
Proof. intros a b m0 w m m' (H & K & O) E. repeat split; [intros i x G|intros i x G|intros l N]; rewrite E; auto. Qed.
Lemma for_pair : forall S1 S2 (f : nat -> S1 -> res S1) (g : nat -> S2 -> res S2) n i a a' b b',
  for_ i n f a = Ok a' -> for_ i n g b = Ok b' ->
  for_ i n (fun k ab => x <- f k (fst ab) ;; y <- g k (snd ab) ;; Ok (x, y)) (a, b) = Ok (a', b').
Proof.
  intros S1 S2 f g. induction n; intros i a a' b b' E F; cbn in *; [congruence|].
  apply bind_ok in E. destruct E as (a1 & E1 & E). apply bind_ok in F. destruct F as (b1 & F1 & F).
  rewrite E1. cbn [bind]. rewrite F1. cbn [bind]. apply IHn; auto.
Qed.
Definition own2 (a b : arr) (l : loc) : option nat := match own a l with Some i => Some i | None => own b l end.
Lemma own2_a : forall a b i, own2 a b (R_ a (zi i)) = Some i.
Proof. intros. unfold own2. rewrite own_eq. auto. Qed.
Lemma own2_b : forall a b i, a <> b -> own2 a b (R_ b (zi i)) = Some i.
Proof. intros. unfold own2. rewrite own_neq by auto. apply own_eq. Qed.
Lemma own2_n : forall a b c i, a <> c -> b <> c -> own2 a b (R_ c i) = None.
Proof. intros. unfold own2. rewrite own_neq by auto. apply own_neq. auto. Qed.

(** dst_a[i] = src_a[i]; dst_b[i] = src_b[i] *)
Lemma copy2_ok : forall (sa sb da db : arr) n m m' la lb wa wb wa' wb',
  da <> db -> da <> sa -> db <> sa -> da <> sb -> db <> sb ->
  holds_r m sa la -> holds_r m sb lb -> holds_r m da wa -> holds_r m db wb ->
  copy_loop la wa n = Ok wa' -> copy_loop lb wb n = Ok wb' ->
  ends (par n (fun i => Read (R_ sa (zi i)) (fun x => Write (R_ da (zi i)) x
    (Read (R_ sb (zi i)) (fun e => Write (R_ db (zi i)) e Stop))))) m m' -> Inv2 da db m (wa', wb') m'.
Proof.
  intros sa sb da db n m m' la lb wa wb wa' wb' N1 N2 N3 N4 N5 H1 H2 H3 H4 F1 F2 E.
  assert (F := for_pair _ _ _ _ _ _ _ _ _ _ F1 F2).
  eapply (par_result n _ _ (Inv2 da db m) _ (wa, wb) (wa', wb') m m'); [| | |exact E|exact F|].
  - apply (race_free_owner _ _ (own2 da db)). intros i Hi.
    apply within_read; [left; apply own2_n; auto|intros]. apply within_write; [apply own2_a|].
    apply within_read; [left; apply own2_n; auto|intros]. apply within_write; [apply own2_b; auto|]. apply within_stop.
  - intros; eapply Inv2_ext; eauto.
  - intros k [s1 s2] s' m1 Hk H (I1 & I2 & O). cbn [fst snd] in *.
    apply bind_ok in H. destruct H as (u & Ha & H). apply bind_ok in H. destruct H as (v & Hb & H). injection H as <-.
    inv1 Ha. inv1 Hb. cbn [run].
    assert (A1 : m1 (R_ sa (zi k)) = x) by (rewrite O; [auto|cbn; intuition congruence]).
    rewrite A1.
    assert (A2 : store m1 (R_ da (zi k)) x (R_ sb (zi k)) = x0).
    { rewrite store_neq by congruence. rewrite O; [auto|cbn; intuition congruence]. }
    rewrite A2.
    split; [|split]; cbn [fst snd].
    + apply holds_r_other; [|congruence]. eapply holds_r_store; eauto.
    + eapply holds_r_store; eauto. apply holds_r_other; [auto|congruence].
    + intros l N. rewrite !store_neq; [auto|intros <-; apply N; cbn; auto|intros <-; apply N; cbn; auto].
  - split; [|split]; cbn [fst snd]; auto. intros l _. reflexivity.
Qed.
Variables (add sub mul : T -> T -> T) (sin : T -> T).

Lemma drift_up_par_ok : forall coef n m m' ph de ph', holds_r m Dphi ph -> holds_r m Denergy de ->
  drift_up sub mul ph de coef n = Ok ph' -> ends (drift_up_par sub mul coef n) m m' -> Inv1 Dphi m ph' m'.
Proof.
  intros coef n m m' ph de ph' HP HE F E.
  eapply (par_result n _ _ (Inv1 Dphi m) _ ph ph' m m'); [| | |exact E|exact F|apply Inv1_init; auto].
  - apply (race_free_owner _ _ (own Dphi)). intros i Hi. wi.
  - intros; eapply Inv1_ext; eauto.
  - intros k s s' m1 Hk H I. cbv beta in H. inv1 H. inv1 H. cbn [run].
    rewrite (Inv1_get _ _ _ _ _ _ I E0), (Inv1_read _ _ _ _ _ _ _ _ I HE ltac:(discriminate) E1). eapply Inv1_store; eauto.
Qed.
Lemma drift_down_par_ok : forall coef n m m' ph de ph', holds_r m Dphi ph -> holds_r m Denergy de ->
  drift_down add mul ph de coef n = Ok ph' -> ends (drift_down_par add mul coef n) m m' -> Inv1 Dphi m ph' m'.
Proof.
  intros coef n m m' ph de ph' HP HE F E.
  eapply (par_result n _ _ (Inv1 Dphi m) _ ph ph' m m'); [| | |exact E|exact F|apply Inv1_init; auto].
  - apply (race_free_owner _ _ (own Dphi)). intros i Hi. wi.
  - intros; eapply Inv1_ext; eauto.
  - intros k s s' m1 Hk H I. cbv beta in H. inv1 H. inv1 H. cbn [run].
    rewrite (Inv1_get _ _ _ _ _ _ I E0), (Inv1_read _ _ _ _ _ _ _ _ I HE ltac:(discriminate) E1). eapply Inv1_store; eauto.
Qed.
Lemma kick_up_par_ok : forall (v1 v2 p0 p12 hr acc : T) n m m' ph de de', holds_r m Dphi ph -> holds_r m Denergy de ->
  kick_up add sub mul sin ph de v1 v2 p0 p12 hr n acc = Ok de' ->
  ends (kick_up_par add sub mul sin v1 v2 p0 p12 hr acc n) m m' -> Inv1 Denergy m de' m'.
Proof.
  intros v1 v2 p0 p12 hr acc n m m' ph de de' HP HE F E.
  eapply (par_result n _ _ (Inv1 Denergy m) _ de de' m m'); [| | |exact E|exact F|apply Inv1_init; auto].
  - apply (race_free_owner _ _ (own Denergy)). intros i Hi. wi.
  - intros; eapply Inv1_ext; eauto.
  - intros k s s' m1 Hk H I. cbv beta in H. inv1 H. inv1 H. cbn [run].
    rewrite (Inv1_get _ _ _ _ _ _ I E1), (Inv1_read _ _ _ _ _ _ _ _ I HP ltac:(discriminate) E0). eapply Inv1_store; eauto.
Qed.
Lemma kick_down_par_ok : forall (v1 v2 p0 p12 hr acc : T) n m m' ph de de', holds_r m Dphi ph -> holds_r m Denergy de ->
  kick_down add sub mul sin ph de v1 v2 p0 p12 hr n acc = Ok de' ->
  ends (kick_down_par add sub mul sin v1 v2 p0 p12 hr acc n) m m' -> Inv1 Denergy m de' m'.
Proof.
  intros v1 v2 p0 p12 hr acc n m m' ph de de' HP HE F E.
  eapply (par_result n _ _ (Inv1 Denergy m) _ de de' m m'); [| | |exact E|exact F|apply Inv1_init; auto].
  - apply (race_free_owner _ _ (own Denergy)). intros i Hi. wi.
  - intros; eapply Inv1_ext; eauto.
  - intros k s s' m1 Hk H I. cbv beta in H. inv1 H. inv1 H. cbn [run].
    rewrite (Inv1_get _ _ _ _ _ _ I E1), (Inv1_read _ _ _ _ _ _ _ _ I HP ltac:(discriminate) E0). eapply Inv1_store; eauto.
Qed.

End Loops.
