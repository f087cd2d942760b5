(** kick_and_drift_cupy follows the C++ routine step by step. *)
From Coq Require Import List ZArith Bool Lia Arith.
From Verif Require Import Base.Res Base.ResLemmas Model.MParticles Model.MTrack Model.MCupy Proof.PTrack Proof.PParticles.
Import ListNotations.
Local Open Scope Z_scope.

Lemma np_get_get : forall A (l : list A) i x, get l i = Ok x -> np_get l i = Ok x.
Proof.
  intros A l i x H. apply get_ok_inv in H. destruct H as (H0 & H & _).
  replace i with (Z.of_nat (Z.to_nat i)) by lia. apply np_get_ok. auto.
Qed.
Lemma cp_hit_profile : forall t d b, on_profile t d = Ok b -> cp_hit t d = Ok b.
Proof.
  intros t d b H. unfold on_profile in H. unfold cp_hit. destruct (Z.eqb_spec d 0); [discriminate|].
  rewrite <- H. f_equal. destruct (Z.eqb_spec (Z.rem t d) 0) as [E|E]; destruct (Z.eqb_spec (t mod d) 0) as [E'|E']; auto; exfalso.
  - apply E'. apply Z.mod_divide; auto. apply Z.rem_divide; auto.
  - apply E. apply Z.rem_divide; auto. apply Z.mod_divide; auto.
Qed.

Section Sim.
Context {T : Type} (add sub mul : T -> T -> T) (sin : T -> T).
Variable n np : nat.
Notation shaped := (fun tab => @shaped T tab np n).

Lemma cp_zip_fst : forall (f : T -> T -> T) ph de r, length ph = n -> length de = n ->
  for_ 0 n (fun i ph => x <- get ph (Z.of_nat i) ;; e <- get de (Z.of_nat i) ;; set ph (Z.of_nat i) (f x e)) ph = Ok r ->
  cp_zip f ph de = Ok r /\ length r = n.
Proof.
  intros f ph de r Hp Hd H. assert (Hl : length ph = length de) by lia.
  assert (Hc : length (combine ph de) = n) by (rewrite combine_length; lia).
  pose proof (loop_pairs_fst add sub mul sin f (combine ph de)) as E.
  rewrite Hc, map_fst_combine, map_snd_combine in E by auto. rewrite E in H. injection H as <-.
  unfold cp_zip. rewrite Hl, Nat.eqb_refl. split; auto. rewrite map_length. auto.
Qed.
Lemma cp_zip_snd : forall (f : T -> T -> T) ph de r, length ph = n -> length de = n ->
  for_ 0 n (fun i de => x <- get ph (Z.of_nat i) ;; e <- get de (Z.of_nat i) ;; set de (Z.of_nat i) (f x e)) de = Ok r ->
  cp_zip f ph de = Ok r /\ length r = n.
Proof.
  intros f ph de r Hp Hd H. assert (Hl : length ph = length de) by lia.
  assert (Hc : length (combine ph de) = n) by (rewrite combine_length; lia).
  pose proof (loop_pairs_snd add sub mul sin f (combine ph de) ph ltac:(lia)) as E.
  rewrite Hc, map_snd_combine in E by auto. rewrite E in H. injection H as <-.
  unfold cp_zip. rewrite Hl, Nat.eqb_refl. split; auto. rewrite map_length. auto.
Qed.
Lemma cp_set_row_store : forall tab p src tab', shaped tab -> length src = n -> store_row tab p src n = Ok tab' ->
  cp_set_row tab p src = Ok tab' /\ shaped tab'.
Proof.
  intros tab p src tab' S L H. pose proof H as H'. unfold store_row in H'. apply bind_ok in H'. destruct H' as (row & G & _).
  pose proof G as G'. apply get_ok_inv in G'. destruct G' as (P & N & Q).
  assert (LT : (Z.to_nat p < np)%nat) by (destruct S as [S _]; lia).
  destruct (store_row_ok add sub mul sin tab np n (Z.to_nat p) src S LT L) as [E S'].
  rewrite Z2Nat.id in E by auto. rewrite E in H. injection H as <-. split; auto.
  unfold cp_set_row. rewrite (np_get_get _ _ _ _ G). cbn [bind].
  rewrite (proj2 S _ _ N), L, Nat.eqb_refl. unfold pyset.
  destruct (Z.ltb_spec p 0); [lia|]. destruct (Z.ltb_spec p 0); [lia|].
  destruct (Z.leb_spec (Z.of_nat (length tab)) p); [lia|]. reflexivity.
Qed.

(** The CuPy state of a C++ state. *)
Definition view (s : tstate T) : cstate := CState (dphi s) (denergy s) (xp s) (yp s) (profile s) (turn s).
Definition fits (s : tstate T) : Prop := length (dphi s) = n /\ length (denergy s) = n /\ shaped (xp s) /\ shaped (yp s).

Lemma up_step_view : forall m d r tot ftn s s', fits s -> up_step add sub mul sin m d r tot n ftn s = Ok s' ->
  cp_up_step add sub mul sin m d (view s) = Ok (view s') /\ fits s'.
Proof.
  intros m d r tot ftn s s' (Lp & Ld & Sx & Sy) H. unfold up_step in H.
  apply bind_ok in H. destruct H as (co & Gc & H). apply bind_ok in H. destruct H as (ph & Ep & H).
  apply bind_ok in H. destruct H as (v1 & G1 & H). apply bind_ok in H. destruct H as (v2 & G2 & H).
  apply bind_ok in H. destruct H as (p0 & G3 & H). apply bind_ok in H. destruct H as (p12 & G4 & H).
  apply bind_ok in H. destruct H as (acc & G5 & H). apply bind_ok in H. destruct H as (de & Ed & H).
  apply bind_ok in H. destruct H as (hit & Hh & H).
  unfold cp_up_step, view. cbn [c_turn c_dphi c_denergy c_xp c_yp c_profile].
  replace (turn s + 1 - 1) with (turn s) by lia.
  rewrite (np_get_get _ _ _ _ Gc), (np_get_get _ _ _ _ G1), (np_get_get _ _ _ _ G2), (np_get_get _ _ _ _ G3),
    (np_get_get _ _ _ _ G4), (np_get_get _ _ _ _ G5). cbn [bind].
  unfold drift_up in Ep. destruct (cp_zip_fst (fun x e => sub x (mul co e)) _ _ _ Lp Ld Ep) as [E1 L1].
  unfold kick_up in Ed.
  destruct (cp_zip_snd (fun x e => add e (kick_term add sub mul sin v1 v2 p0 p12 (hratio m) acc x)) _ _ _ L1 Ld Ed) as [E2 L2].
  unfold cp_up. rewrite E1. cbn [bind]. rewrite E2. cbn [bind]. rewrite (cp_hit_profile _ _ _ Hh). cbn [bind].
  destruct hit.
  - apply bind_ok in H. destruct H as (xp' & Ex & H). apply bind_ok in H. destruct H as (yp' & Ey & H).
    injection H as <-. destruct (cp_set_row_store _ _ _ _ Sx L1 Ex) as [E3 S3].
    destruct (cp_set_row_store _ _ _ _ Sy L2 Ey) as [E4 S4].
    rewrite E3. cbn [bind]. rewrite E4. cbn [bind]. split; [reflexivity|]. repeat split; cbn; auto; try apply S3; try apply S4.
  - injection H as <-. split; [reflexivity|]. repeat split; cbn; auto; try apply Sx; try apply Sy.
Qed.
Lemma up_loop_view : forall f m d r N ftn s s', fits s -> up_loop add sub mul sin f m d r N n ftn s = Ok s' ->
  cp_up_loop add sub mul sin f m d N (view s) = Ok (view s') /\ fits s'.
Proof.
  induction f as [|f IH]; intros m d r N ftn s s' Fs H; cbn [up_loop cp_up_loop] in *;
    change (c_turn (view s)) with (turn s); destruct (turn s <? N).
  - discriminate.
  - injection H as <-. auto.
  - apply bind_ok in H. destruct H as (s1 & E & H). destruct (up_step_view _ _ _ _ _ _ _ Fs E) as [E1 F1].
    rewrite E1. cbn [bind]. eapply IH; eauto.
  - injection H as <-. auto.
Qed.

Lemma down_step_view : forall m d r tot ftn s s', fits s -> down_step add sub mul sin m d r tot n ftn s = Ok s' ->
  cp_down_step add sub mul sin m d (view s) = Ok (view s') /\ fits s'.
Proof.
  intros m d r tot ftn s s' (Lp & Ld & Sx & Sy) H. unfold down_step in H.
  apply bind_ok in H. destruct H as (v1 & G1 & H). apply bind_ok in H. destruct H as (v2 & G2 & H).
  apply bind_ok in H. destruct H as (p0 & G3 & H). apply bind_ok in H. destruct H as (p12 & G4 & H).
  apply bind_ok in H. destruct H as (acc & G5 & H). apply bind_ok in H. destruct H as (de & Ed & H).
  apply bind_ok in H. destruct H as (co & Gc & H). apply bind_ok in H. destruct H as (ph & Ep & H).
  apply bind_ok in H. destruct H as (hit & Hh & H).
  unfold cp_down_step, view. cbn [c_turn c_dphi c_denergy c_xp c_yp c_profile].
  rewrite (np_get_get _ _ _ _ Gc), (np_get_get _ _ _ _ G1), (np_get_get _ _ _ _ G2), (np_get_get _ _ _ _ G3),
    (np_get_get _ _ _ _ G4), (np_get_get _ _ _ _ G5). cbn [bind].
  unfold kick_down in Ed.
  destruct (cp_zip_snd (fun x e => sub e (kick_term add sub mul sin v1 v2 p0 p12 (hratio m) acc x)) _ _ _ Lp Ld Ed) as [E2 L2].
  unfold drift_down in Ep. destruct (cp_zip_fst (fun x e => add x (mul co e)) _ _ _ Lp L2 Ep) as [E1 L1].
  unfold cp_down. rewrite E2. cbn [bind]. rewrite E1. cbn [bind]. rewrite (cp_hit_profile _ _ _ Hh). cbn [bind].
  destruct hit.
  - apply bind_ok in H. destruct H as (xp' & Ex & H). apply bind_ok in H. destruct H as (yp' & Ey & H).
    injection H as <-. destruct (cp_set_row_store _ _ _ _ Sx L1 Ex) as [E3 S3].
    destruct (cp_set_row_store _ _ _ _ Sy L2 Ey) as [E4 S4].
    rewrite E3. cbn [bind]. rewrite E4. cbn [bind]. split; [reflexivity|]. repeat split; cbn; auto; try apply S3; try apply S4.
  - injection H as <-. split; [reflexivity|]. repeat split; cbn; auto; try apply Sx; try apply Sy.
Qed.
Lemma down_loop_view : forall f m d r N ftn s s', fits s -> down_loop add sub mul sin f m d r N n ftn s = Ok s' ->
  cp_down_loop add sub mul sin f m d (view s) = Ok (view s') /\ fits s'.
Proof.
  induction f as [|f IH]; intros m d r N ftn s s' Fs H; cbn [down_loop cp_down_loop] in *;
    change (c_turn (view s)) with (turn s); destruct (0 <? turn s).
  - discriminate.
  - injection H as <-. auto.
  - apply bind_ok in H. destruct H as (s1 & E & H). destruct (down_step_view _ _ _ _ _ _ _ Fs E) as [E1 F1].
    rewrite E1. cbn [bind]. eapply IH; eauto.
  - injection H as <-. auto.
Qed.

Theorem cupy_track : forall m x0 y0 de ph d r delta N ftn s, length ph = n -> length de = n -> shaped x0 -> shaped y0 ->
  kick_and_drift add sub mul sin m x0 y0 de ph d r delta N n ftn = Ok s ->
  kick_and_drift_cupy add sub mul sin m x0 y0 de ph d r delta N = Ok (xp s, yp s).
Proof.
  intros m x0 y0 de ph d r delta N ftn s Lp Ld Sx Sy H. unfold kick_and_drift in H. cbv zeta in H.
  unfold kick_and_drift_cupy. cbv zeta. set (pf := if delta <? 0 then r - 1 else r) in *.
  apply bind_ok in H. destruct H as (x1 & E1 & H). apply bind_ok in H. destruct H as (y1 & E2 & H).
  destruct (cp_set_row_store _ _ _ _ Sx Lp E1) as [C1 S1]. destruct (cp_set_row_store _ _ _ _ Sy Ld E2) as [C2 S2].
  rewrite C1. cbn [bind]. rewrite C2. cbn [bind].
  apply bind_ok in H. destruct H as (s1 & E3 & H).
  apply up_loop_view in E3; [|repeat split; cbn; auto; try apply S1; try apply S2]. destruct E3 as [C3 F3].
  change (view (TState ph de x1 y1 pf (r * d + delta) 0 [] [])) with (CState ph de x1 y1 pf (r * d + delta)) in C3.
  rewrite C3. cbn [bind]. destruct (0 <? r) eqn:R.
  2:{ injection H as <-. reflexivity. }
  destruct F3 as (La & Lb & Sa & Sb).
  apply bind_ok in H. destruct H as (rx & G1 & H). apply bind_ok in H. destruct H as (ry & G2 & H).
  pose proof (get_ok_inv _ _ _ _ G1) as (_ & N1 & _). pose proof (get_ok_inv _ _ _ _ G2) as (_ & N2 & _).
  pose proof (proj2 Sa _ _ N1) as L1. pose proof (proj2 Sb _ _ N2) as L2.
  rewrite (copy_loop_ok add sub mul sin rx (dphi s1) n L1 La), (copy_loop_ok add sub mul sin ry (denergy s1) n L2 Lb) in H. cbn [bind] in H.
  apply down_loop_view in H; [|repeat split; cbn; auto; try apply Sa; try apply Sb]. destruct H as [C4 _].
  change (c_xp (view s1)) with (xp s1). change (c_yp (view s1)) with (yp s1).
  rewrite (np_get_get _ _ _ _ G1), (np_get_get _ _ _ _ G2). cbn [bind].
  unfold view at 1 in C4. cbn [dphi denergy xp yp profile turn] in C4. rewrite C4. reflexivity.
Qed.
End Sim.
