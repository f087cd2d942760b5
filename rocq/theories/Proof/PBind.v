(** Lemmas about the model of calls into the compiled library. *)
From Coq Require Import List ZArith Bool Lia.
From Verif Require Import Base.Res Model.MTrack Model.MBind Spec.BindSpec.
Import ListNotations.
Local Open Scope Z_scope.

Lemma dtype_eqb_refl d : dtype_eqb d d = true.
Proof. destruct d; reflexivity. Qed.

Lemma dtype_eqb_eq a b : dtype_eqb a b = true -> a = b.
Proof. destruct a, b; simpl; congruence. Qed.

Lemma dtype_eqb_neq a b : a <> b -> dtype_eqb a b = false.
Proof. destruct a, b; simpl; congruence. Qed.

Lemma upd_same {A} (l : list A) i x : nth_error l i = Some x -> upd l i x = l.
Proof.
  revert i; induction l as [|a l IH]; intros [|i]; simpl; try congruence.
  intro H. rewrite (IH _ H). reflexivity.
Qed.

Lemma upd_len {A} (l : list A) i x : length (upd l i x) = length l.
Proof. revert i; induction l as [|a l IH]; intros [|i]; simpl; auto. Qed.

Lemma upd_hit {A} (l : list A) i x : (i < length l)%nat -> nth_error (upd l i x) i = Some x.
Proof.
  revert i; induction l as [|a l IH]; intros [|i]; simpl; try lia; auto.
  intro H. apply IH. lia.
Qed.

Lemma upd_miss {A} (l : list A) i j x : i <> j -> nth_error (upd l i x) j = nth_error l j.
Proof.
  revert i j; induction l as [|a l IH]; intros [|i] [|j] H; simpl; try reflexivity; try lia.
  apply IH. lia.
Qed.

Lemma Forall2_weaken {A B} (P Q : A -> B -> Prop) l1 l2 :
  (forall a b, P a b -> Q a b) -> Forall2 P l1 l2 -> Forall2 Q l1 l2.
Proof. intros W F. induction F; constructor; auto. Qed.

(** ** The tracking routine with no particles leaves everything as it is *)
Section NoParticles.
Context {T : Type} (add sub mul : T -> T -> T) (sin : T -> T).

Lemma store_row_0 (tb : list (list T)) p src t' :
  store_row tb p src 0 = Ok t' -> t' = tb.
Proof.
  unfold store_row, get. destruct (p <? 0); simpl; [discriminate|].
  destruct (nth_error tb (Z.to_nat p)) eqn:E; simpl; [|discriminate].
  unfold set. destruct ((p <? 0) || (Z.of_nat (length tb) <=? p)); simpl; [discriminate|].
  intros [= <-]. apply upd_same. exact E.
Qed.

(** The four arrays of a state. *)
Definition arrays_of (s : tstate T) := (xp s, yp s, denergy s, dphi s).

Lemma bind_inv {A B} (x : res A) (f : A -> res B) b :
  bind x f = Ok b -> exists a, x = Ok a /\ f a = Ok b.
Proof. destruct x; simpl; [eauto|discriminate]. Qed.

Ltac inv_bind H :=
  let a := fresh "v" in let E := fresh "E" in
  apply bind_inv in H; destruct H as [a [E H]].

Lemma loop_0 {S : Type} (body : nat -> S -> res S) s : for_ 0 0 body s = Ok s.
Proof. reflexivity. Qed.

Lemma up_step_0 m dt rp tot f s s' :
  up_step add sub mul sin m dt rp tot 0 f s = Ok s' -> arrays_of s' = arrays_of s.
Proof.
  unfold up_step, drift_up, kick_up. intro H.
  apply bind_inv in H; destruct H as [co [_ H]].
  rewrite loop_0 in H. cbn [bind] in H. cbv zeta in H.
  apply bind_inv in H; destruct H as [v1 [_ H]]. apply bind_inv in H; destruct H as [v2 [_ H]].
  apply bind_inv in H; destruct H as [p0 [_ H]]. apply bind_inv in H; destruct H as [p1 [_ H]].
  apply bind_inv in H; destruct H as [ac [_ H]].
  rewrite loop_0 in H. cbn [bind] in H. cbv zeta in H.
  apply bind_inv in H; destruct H as [hit [_ H]]. destruct hit.
  - apply bind_inv in H; destruct H as [x [Ex H]]. apply bind_inv in H; destruct H as [y [Ey H]].
    apply store_row_0 in Ex. apply store_row_0 in Ey. subst.
    injection H as <-. reflexivity.
  - injection H as <-. reflexivity.
Qed.

Lemma down_step_0 m dt rp tot f s s' :
  down_step add sub mul sin m dt rp tot 0 f s = Ok s' -> arrays_of s' = arrays_of s.
Proof.
  unfold down_step, drift_down, kick_down. intro H.
  apply bind_inv in H; destruct H as [v1 [_ H]]. apply bind_inv in H; destruct H as [v2 [_ H]].
  apply bind_inv in H; destruct H as [p0 [_ H]]. apply bind_inv in H; destruct H as [p1 [_ H]].
  apply bind_inv in H; destruct H as [ac [_ H]].
  rewrite loop_0 in H. cbn [bind] in H. cbv zeta in H.
  apply bind_inv in H; destruct H as [co [_ H]].
  rewrite loop_0 in H. cbn [bind] in H. cbv zeta in H.
  apply bind_inv in H; destruct H as [hit [_ H]]. destruct hit.
  - apply bind_inv in H; destruct H as [x [Ex H]]. apply bind_inv in H; destruct H as [y [Ey H]].
    apply store_row_0 in Ex. apply store_row_0 in Ey. subst.
    injection H as <-. reflexivity.
  - injection H as <-. reflexivity.
Qed.

Lemma up_loop_0 fuel m dt rp nt f : forall s s',
  up_loop add sub mul sin fuel m dt rp nt 0 f s = Ok s' -> arrays_of s' = arrays_of s.
Proof.
  induction fuel as [|fuel IH]; intros s s'; simpl; destruct (turn s <? nt); try discriminate.
  - intros [= <-]; reflexivity.
  - intro H. inv_bind H. rewrite (IH _ _ H). eapply up_step_0; eauto.
  - intros [= <-]; reflexivity.
Qed.

Lemma down_loop_0 fuel m dt rp nt f : forall s s',
  down_loop add sub mul sin fuel m dt rp nt 0 f s = Ok s' -> arrays_of s' = arrays_of s.
Proof.
  induction fuel as [|fuel IH]; intros s s'; simpl; destruct (0 <? turn s); try discriminate.
  - intros [= <-]; reflexivity.
  - intro H. inv_bind H. rewrite (IH _ _ H). eapply down_step_0; eauto.
  - intros [= <-]; reflexivity.
Qed.

Lemma kick_and_drift_0 m x y de ph dt rp dl nt f s :
  kick_and_drift add sub mul sin m x y de ph dt rp dl nt 0 f = Ok s ->
  xp s = x /\ yp s = y /\ denergy s = de /\ dphi s = ph.
Proof.
  unfold kick_and_drift. intro H.
  inv_bind H. inv_bind H. inv_bind H.
  apply store_row_0 in E. apply store_row_0 in E0. subst v v0.
  apply up_loop_0 in E1. unfold arrays_of in E1. simpl in E1. injection E1 as F1 F2 F3 F4.
  destruct (0 <? rp).
  - apply bind_inv in H; destruct H as [rx [_ H]]. apply bind_inv in H; destruct H as [ry [_ H]].
    unfold copy_loop in H. rewrite !loop_0 in H. cbn [bind] in H.
    apply down_loop_0 in H. unfold arrays_of in H. simpl in H.
    injection H as A B C D. rewrite A, B, C, D. auto.
  - injection H as <-. simpl. auto.
Qed.

(** The upward loop reads the drift coefficient of the turn it starts from. *)
Lemma kick_and_drift_reads m x y de ph dt rp dl nt np f s :
  kick_and_drift add sub mul sin m x y de ph dt rp dl nt np f = Ok s ->
  rp * dt + dl < nt -> rp * dt + dl < Z.of_nat (length (drift_coef m)).
Proof.
  unfold kick_and_drift. intros H L.
  inv_bind H. inv_bind H. inv_bind H.
  clear - E1 L.
  destruct (Z.to_nat (nt - (rp * dt + dl))) eqn:N; [lia|]. simpl in E1.
  destruct (rp * dt + dl <? nt) eqn:C; [|apply Z.ltb_ge in C; lia].
  inv_bind E1. unfold up_step in E. inv_bind E. simpl in E0.
  unfold get in E0. destruct (rp * dt + dl <? 0) eqn:G; [discriminate|].
  destruct (nth_error (drift_coef m) (Z.to_nat (rp * dt + dl))) eqn:Q; [|discriminate].
  assert (nth_error (drift_coef m) (Z.to_nat (rp * dt + dl)) <> None) as W by congruence.
  apply nth_error_Some in W. apply Z.ltb_ge in G. lia.
Qed.

End NoParticles.

Ltac inv_bind H :=
  let a := fresh "v" in let E := fresh "E" in
  apply bind_inv in H; destruct H as [a [E H]].

(** ** Loading of arguments *)
Section Bind.
Context {T : Type} (add sub mul : dtype -> T -> T -> T) (sin : dtype -> T -> T)
        (single : T -> T) (ofZ : Z -> T) (zero : T).

Notation load := (load single ofZ).
Notation load_all := (load_all single ofZ).
Notation conv := (conv single).
Notation conv_data := (conv_data single).

Lemma conv_same d x : conv d d x = x.
Proof. destruct d; reflexivity. Qed.

Lemma map_conv_same d l : map (conv d d) l = l.
Proof. rewrite <- (map_id l) at 2. apply map_ext, conv_same. Qed.

Lemma conv_data_same d x : conv_data d d x = x.
Proof.
  destruct x; simpl; f_equal; [apply map_conv_same|].
  rewrite <- (map_id rows) at 2. apply map_ext, map_conv_same.
Qed.

(** Loading only adds arrays. *)
Lemma load_extends c t h v h' r : load c t h v = Some (h', r) -> exists X, h' = h ++ X.
Proof.
  intro H.
  assert (G : h' = h \/ exists a, h' = h ++ [a]).
  { destruct t; simpl in H.
    - destruct v; simpl in H;
        repeat match type of H with
               | context[match ?e with _ => _ end] => destruct e
               end; inversion H; subst; eauto.
    - destruct v; simpl in H;
        repeat match type of H with
               | context[match ?e with _ => _ end] => destruct e
               end; inversion H; subst; eauto.
    - destruct v; simpl in H; try discriminate;
        repeat match type of H with
               | context[if ?e then _ else _] => destruct e
               end; inversion H; subst; eauto.
    - destruct v; simpl in H; try discriminate;
        repeat match type of H with
               | context[if ?e then _ else _] => destruct e
               end; inversion H; subst; eauto.
    - inversion H; subst; eauto.
    - destruct v; inversion H; subst; eauto. }
  destruct G as [-> | [a ->]]; [exists []; now rewrite app_nil_r | exists [a]; reflexivity].
Qed.

Lemma load_all_extends c ts : forall h vs h' r,
  load_all c ts h vs = Some (h', r) -> exists X, h' = h ++ X.
Proof.
  induction ts as [|t ts IH]; intros h [|v vs] h' r H; simpl in H; try discriminate.
  - inversion H; subst. exists []. now rewrite app_nil_r.
  - destruct (load c t h v) as [[h1 c1]|] eqn:E; [|discriminate].
    destruct (load_all c ts h1 vs) as [[h2 cs]|] eqn:E2; [|discriminate].
    inversion H; subst.
    apply load_extends in E. apply IH in E2. destruct E as [X ->]. destruct E2 as [Y ->].
    exists (X ++ Y). now rewrite app_assoc.
Qed.

Lemma load_all_cons c t ts h v vs h' r :
  load_all c (t :: ts) h (v :: vs) = Some (h', r) ->
  exists h1 c1 r1, load c t h v = Some (h1, c1) /\ load_all c ts h1 vs = Some (h', r1) /\
                   r = c1 :: r1.
Proof.
  simpl. destruct (load c t h v) as [[h1 c1]|] eqn:E; [|discriminate].
  destruct (load_all c ts h1 vs) as [[h2 cs]|] eqn:E2; [|discriminate].
  intros [= <- <-]. exists h1, c1, cs. auto.
Qed.

(** What an array argument is afterwards. *)
Lemma load_arr c d h v h' r :
  load c (TArr d) h v = Some (h', r) ->
  exists l', r = CArr l' /\ (l' < length h')%nat /\
    (forall l, v = PArr l -> exists a, nth_error h l = Some a /\
       exists k, nth_error h' l' = Some (Arr d k (conv_data (adt a) d (adat a)))).
Proof.
  intro H. simpl in H. destruct v as [l| | | | | |].
  - destruct (nth_error h l) as [a|] eqn:E; [|discriminate].
    destruct (dtype_eqb (adt a) d && acontig a) eqn:B.
    + inversion H; subst. exists l. repeat split.
      * apply nth_error_Some. congruence.
      * intros l0 [= <-]. exists a. split; [exact E|]. exists (acontig a).
        apply andb_prop in B. destruct B as [B _]. apply dtype_eqb_eq in B. subst d.
        rewrite conv_data_same. rewrite E. destruct a; reflexivity.
    + destruct c; [|discriminate]. inversion H; subst. exists (length h). repeat split.
      * rewrite app_length. simpl. lia.
      * intros l0 [= <-]. exists a. split; [exact E|]. exists true.
        rewrite nth_error_app2 by lia. rewrite Nat.sub_diag. reflexivity.
  - simpl in H. destruct c; [|discriminate]. inversion H; subst. exists (length h).
    repeat split; [rewrite app_length; simpl; lia|discriminate].
  - simpl in H. destruct c; [|discriminate]. inversion H; subst. exists (length h).
    repeat split; [rewrite app_length; simpl; lia|discriminate].
  - simpl in H. destruct c; [|discriminate]. inversion H; subst. exists (length h).
    repeat split; [rewrite app_length; simpl; lia|discriminate].
  - simpl in H. destruct c; [|discriminate]. inversion H; subst. exists (length h).
    repeat split; [rewrite app_length; simpl; lia|discriminate].
  - discriminate.
  - discriminate.
Qed.

(** ** Writing in place *)
Lemma put_len (h : heap T) l d : length (put h l d) = length h.
Proof. unfold put. destruct (nth_error h l); [apply upd_len|reflexivity]. Qed.

Lemma put_miss (h : heap T) l d k : l <> k -> nth_error (put h l d) k = nth_error h k.
Proof. intro N. unfold put. destruct (nth_error h l); [apply upd_miss; auto|reflexivity]. Qed.

Lemma put_hit (h : heap T) l a d :
  nth_error h l = Some a -> nth_error (put h l d) l = Some (Arr (adt a) (acontig a) d).
Proof.
  intro E. unfold put. rewrite E. apply upd_hit. apply nth_error_Some. congruence.
Qed.

Lemma put_same (h : heap T) l a : nth_error h l = Some a -> put h l (adat a) = h.
Proof. intro E. unfold put. rewrite E. apply upd_same. rewrite E. destruct a; reflexivity. Qed.

Lemma vec_at_inv (h : heap T) l v : vec_at h l = Ok v ->
  exists a, nth_error h l = Some a /\ adat a = Vec v.
Proof.
  unfold vec_at. destruct (nth_error h l) as [a|]; [|discriminate].
  destruct (adat a) eqn:E; [|discriminate]. intros [= <-]. eauto.
Qed.

Lemma tab_at_inv (h : heap T) l v : tab_at h l = Ok v ->
  exists a, nth_error h l = Some a /\ adat a = Tab v.
Proof.
  unfold tab_at. destruct (nth_error h l) as [a|]; [|discriminate].
  destruct (adat a) eqn:E; [discriminate|]. intros [= <-]. eauto.
Qed.

Lemma put_tab (h : heap T) l v : tab_at h l = Ok v -> put h l (Tab v) = h.
Proof. intro H. apply tab_at_inv in H. destruct H as (a & E & <-). apply put_same. exact E. Qed.

Lemma put_vec (h : heap T) l v : vec_at h l = Ok v -> put h l (Vec v) = h.
Proof. intro H. apply vec_at_inv in H. destruct H as (a & E & <-). apply put_same. exact E. Qed.

Notation compiled := (compiled add sub mul sin).

(** With no particles the arrays stay as they are. *)
Lemma compiled_0 d h x y de ph m dt rp dl nt f h' r :
  compiled d h x y de ph m dt rp dl nt 0 f = Ok (h', r) ->
  h' = h /\ r = (x, y) /\ (exists tx, tab_at h x = Ok tx) /\ (exists ty_, tab_at h y = Ok ty_).
Proof.
  unfold MBind.compiled. intro H.
  inv_bind H. inv_bind H. inv_bind H. inv_bind H. inv_bind H.
  apply kick_and_drift_0 in E3. destruct E3 as (A & B & C & D).
  injection H as <- <-. rewrite A, B, C, D.
  rewrite (put_tab h x v E), (put_tab h y v0 E0), (put_vec h de v1 E1), (put_vec h ph v2 E2).
  split; [reflexivity|]. split; [reflexivity|]. split; eauto.
Qed.

Lemma compiled_reads d h x y de ph m dt rp dl nt np f r :
  compiled d h x y de ph m dt rp dl nt np f = Ok r ->
  rp * dt + dl < nt -> rp * dt + dl < Z.of_nat (length (drift_coef m)).
Proof.
  unfold MBind.compiled. intro H.
  inv_bind H. inv_bind H. inv_bind H. inv_bind H. inv_bind H.
  eapply kick_and_drift_reads; eauto.
Qed.

(** Only the four arrays are written. *)
Lemma compiled_kept d h x y de ph m dt rp dl nt np f h' r :
  compiled d h x y de ph m dt rp dl nt np f = Ok (h', r) ->
  forall k, k <> x -> k <> y -> k <> de -> k <> ph -> nth_error h' k = nth_error h k.
Proof.
  unfold MBind.compiled. intro H.
  inv_bind H. inv_bind H. inv_bind H. inv_bind H. inv_bind H.
  injection H as <- <-. intros k A B C D.
  rewrite !put_miss by congruence. reflexivity.
Qed.

(** ** Shapes of loaded arguments *)
Lemma load_real c d h v h' r :
  load c (TReal d) h v = Some (h', r) -> h' = h /\ exists x, r = CReal x.
Proof.
  simpl. destruct v as [l| | | | | |]; simpl;
    repeat match goal with
           | |- context[match ?e with _ => _ end] => destruct e
           end; intro H; inversion H; subst; eauto.
Qed.

Lemma load_int c h z h' r :
  load c TInt h (PInt z) = Some (h', r) -> h' = h /\ r = CInt z.
Proof.
  cbn [MBind.load]. destruct ((- 2 ^ 31 <=? z) && (z <? 2 ^ 31)); [|discriminate].
  intros [= <- <-]; auto.
Qed.

Definition lands (d : dtype) (h : heap T) (v : pyval T) (hF : heap T) (l' : loc) : Prop :=
  forall l, v = PArr l -> (l < length h)%nat -> exists a, nth_error h l = Some a /\
    exists k, nth_error hF l' = Some (Arr d k (conv_data (adt a) d (adat a))).

Lemma load_arrs c d : forall vs h ts vs' hF r,
  load_all c (repeat (TArr d) (length vs) ++ ts) h (vs ++ vs') = Some (hF, r) ->
  exists ls r' h1, length ls = length vs /\ r = map (@CArr T) ls ++ r' /\
    load_all c ts h1 vs' = Some (hF, r') /\ (exists X, h1 = h ++ X) /\
    Forall2 (fun v l' => lands d h v hF l') vs ls.
Proof.
  induction vs as [|v vs IH]; intros h ts vs' hF r H.
  - exists [], r, h. simpl in *. repeat split; auto. exists []. now rewrite app_nil_r.
  - cbn [length repeat app] in H. apply load_all_cons in H.
    destruct H as (h1 & c1 & r1 & A & B & ->).
    destruct (load_arr _ _ _ _ _ _ A) as (l' & -> & L & P).
    destruct (load_extends _ _ _ _ _ _ A) as [X ->].
    destruct (load_all_extends _ _ _ _ _ _ B) as [Y EY].
    destruct (IH _ _ _ _ _ B) as (ls & r' & h2 & Q1 & -> & Q2 & [Z Q3] & Q4).
    exists (l' :: ls), r', h2. repeat split.
    + simpl. congruence.
    + exact Q2.
    + exists (X ++ Z). rewrite Q3. now rewrite app_assoc.
    + constructor.
      * intros l -> Hl. destruct (P l eq_refl) as (a & Ea & k & Ek). exists a. split; [exact Ea|].
        exists k. rewrite EY. rewrite nth_error_app1; [exact Ek|exact L].
      * eapply Forall2_weaken; [|exact Q4]. intros v0 l0 G l -> Hl.
        destruct (G l eq_refl) as (a & Ea & K); [rewrite app_length; lia|].
        exists a. split; [|exact K]. rewrite nth_error_app1 in Ea by exact Hl. exact Ea.
Qed.

Notation try_version := (try_version single ofZ).
Notation first_fit := (first_fit single ofZ).
Notation dispatch := (dispatch single ofZ).

Lemma first_fit_inv c h pos cb vs v h' cs :
  first_fit c h pos cb vs = Some (v, h', cs) ->
  In v vs /\ try_version c h pos cb v = Some (h', cs).
Proof.
  induction vs as [|w vs IH]; simpl; [discriminate|].
  destruct (try_version c h pos cb w) as [[h1 c1]|] eqn:E.
  - intros [= <- <- <-]. auto.
  - intro H. destruct (IH H). auto.
Qed.

Lemma dispatch_inv h pos cb v h' cs :
  dispatch h pos cb = Some (v, h', cs) ->
  exists c, In v overloads /\ try_version c h pos cb v = Some (h', cs).
Proof.
  unfold MBind.dispatch. destruct (first_fit false h pos cb overloads) as [[[v1 h1] c1]|] eqn:E.
  - intros [= -> -> ->]. exists false. apply first_fit_inv. exact E.
  - intro H. exists true. apply first_fit_inv. exact H.
Qed.

(** ** Arrays that are ready to be used without a copy *)
Definition ready (d : dtype) (H : heap T) (l : loc) : Prop :=
  exists a, nth_error H l = Some a /\ adt a = d /\ acontig a = true.

Lemma ready_app d H X l : ready d H l -> ready d (H ++ X) l.
Proof.
  intros (a & E & P). exists a. split; [|exact P].
  rewrite nth_error_app1; [exact E|]. apply nth_error_Some. congruence.
Qed.

Definition prefixed (ls : list loc) (o : option (heap T * list (cval T))) :=
  match o with None => None | Some (h, r) => Some (h, map (@CArr T) ls ++ r) end.

Lemma load_ready c d H ts vs : forall ls, Forall (ready d H) ls ->
  load_all c (repeat (TArr d) (length ls) ++ ts) H (map PArr ls ++ vs) =
  prefixed ls (load_all c ts H vs).
Proof.
  induction 1 as [|l ls (a & E & <- & C) F IH].
  - simpl. destruct (load_all c ts H vs) as [[? ?]|]; reflexivity.
  - cbn [length repeat app map MBind.load_all MBind.load].
    rewrite E, dtype_eqb_refl, C. cbn [andb]. rewrite IH.
    destruct (load_all c ts H vs) as [[? ?]|]; reflexivity.
Qed.

Lemma load_refused d e H ts vs l ls : d <> e -> ready d H l ->
  load_all false (repeat (TArr e) (length (l :: ls)) ++ ts) H (map PArr (l :: ls) ++ vs) = None.
Proof.
  intros N (a & E & <- & C). cbn [length repeat app map MBind.load_all MBind.load].
  rewrite E, (dtype_eqb_neq _ _ N). reflexivity.
Qed.

Lemma load_copied d e ts vs : d <> e -> forall ls H Y, Forall (ready d H) ls ->
  exists X, length X = length ls /\
  load_all true (repeat (TArr e) (length ls) ++ ts) (H ++ Y) (map PArr ls ++ vs) =
  prefixed (seq (length (H ++ Y)) (length ls)) (load_all true ts ((H ++ Y) ++ X) vs).
Proof.
  intro N. induction ls as [|l ls IH]; intros H Y F.
  - exists []. split; [reflexivity|]. simpl. rewrite app_nil_r.
    destruct (load_all true ts (H ++ Y) vs) as [[? ?]|]; reflexivity.
  - inversion F as [|? ? R F']; subst.
    destruct (ready_app d H Y l R) as (a & E & Ed & C).
    set (b := Arr e true (conv_data (adt a) e (adat a))).
    destruct (IH H (Y ++ [b]) F') as (X & LX & EX). exists (b :: X). split; [simpl; congruence|].
    cbn [length repeat app map MBind.load_all MBind.load seq].
    rewrite E. rewrite Ed, (dtype_eqb_neq _ _ N). cbn [andb alloc]. rewrite <- Ed. fold b.
    rewrite <- app_assoc. rewrite EX.
    replace (length (H ++ Y ++ [b])) with (S (length (H ++ Y))) by (rewrite !app_length; simpl; lia).
    replace ((H ++ Y ++ [b]) ++ X) with ((H ++ Y) ++ b :: X)
      by (rewrite <- !app_assoc; reflexivity).
    destruct (load_all true ts ((H ++ Y) ++ b :: X) vs) as [[? ?]|]; reflexivity.
Qed.

End Bind.
