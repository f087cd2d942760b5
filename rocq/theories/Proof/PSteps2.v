(** The loops over the turns on the arrays of the caller. *)
From Coq Require Import List ZArith Bool Lia.
From Verif Require Import Base.Res Base.ResLemmas Model.MTrack Model.MBind Model.MSteps
  Spec.BindSpec Spec.StepsSpec Spec.TrackSpec Proof.PTrack Proof.PBind Proof.PSteps.
Import ListNotations.
Local Open Scope Z_scope.

Section Loop.
Context {T : Type} (add sub mul : dtype -> T -> T -> T) (sin : dtype -> T -> T)
        (single : T -> T) (ofZ : Z -> T) (zero : T).
Variables (m : machine T) (p12 : T) (g : setting T) (co : list T) (mp mh : pyval T) (dt : Z) (n : nat).
Hypothesis Gm : g_machine g = MObj (phi0 m) (deltaE0 m) co mp mh dt.
Hypothesis Gp : number_in single ofZ F64 mp p12.
Hypothesis Gh : number_in single ofZ F64 mh (hratio m).
Hypothesis Gn : an_int (Z.of_nat n).
Variables (h0 : heap T) (lp0 le0 : loc).
Hypothesis Hp0 : (lp0 < length h0)%nat.
Hypothesis He0 : (le0 < length h0)%nat.
Hypothesis Hne : lp0 <> le0.

(** The caller's array [l0] and the array [l] that now has its name. *)
Definition cell (l0 : loc) (h : heap T) (l : loc) (v : list T) : Prop :=
  vec_at h l = Ok v /\ (length h0 <= length h)%nat /\
  ((plain h0 l0 /\ l = l0 /\ plain h l0) \/
   (~ plain h0 l0 /\ nth_error h l0 = nth_error h0 l0 /\ (l = l0 \/ ((length h0 <= l)%nat /\ plain h l)))).

Lemma cell_where l0 h l v : cell l0 h l v -> l = l0 \/ (length h0 <= l)%nat.
Proof. intros (_ & _ & [(_ & A & _)|(_ & _ & [A|[A _]])]); auto. Qed.
Lemma vec_lt (h : heap T) l v : vec_at h l = Ok v -> (l < length h)%nat.
Proof. intro E. destruct (vec_of _ _ _ E) as [a [A _]]. apply nth_error_Some. congruence. Qed.

Lemma cell_moves l0 h h' l l' v v' : (l0 < length h0)%nat -> cell l0 h l v -> returns_in h h' l l' v' ->
  nth_error h' l' = Some (Arr F64 true (Vec v')) -> (length h <= length h')%nat -> cell l0 h' l' v'.
Proof.
  intros B (C1 & C2 & C3) (R1 & R2 & R3 & R4) N L. split; [exact R1|]. split; [lia|].
  destruct C3 as [(A1 & -> & A3)|(A1 & A2 & A3)].
  - left. rewrite (R2 A3) in *. split; auto. split; auto. eexists. exact N.
  - right. split; [exact A1|]. destruct A3 as [->|[A3 A4]].
    + assert (Q : ~ plain h l0) by (unfold plain in *; rewrite A2; exact A1). assert (K := R3 Q).
      split; [|right; split; [lia|eexists; exact N]]. destruct (nth_error h0 l0) as [a|] eqn:E; [|apply nth_error_None in E; lia].
      rewrite (R4 l0 a A2) by lia. reflexivity.
    + rewrite (R2 A4) in *. split; [|right; split; [lia|eexists; exact N]].
      destruct (nth_error h0 l0) as [a|] eqn:E; [|apply nth_error_None in E; lia]. rewrite (R4 l0 a A2) by lia. reflexivity.
Qed.

(** An array of the caller, or one in use, that is not the one written. *)
Lemma target_new (h h' : heap T) (l l' : loc) (v' : list T) (k : loc) : returns_in h h' l l' v' -> (k < length h)%nat -> k <> l -> k <> l'.
Proof.
  intros (R1 & R2 & R3 & R4) K N. destruct (plain_dec h l) as [P|P]; [rewrite (R2 P); exact N|]. assert (J := R3 P). lia.
Qed.
Lemma cell_stays l0 k0 h h' l l' k v v' w : (k0 < length h0)%nat -> l0 <> k0 -> l <> k ->
  cell l0 h l v -> cell k0 h k w -> returns_in h h' l l' v' -> (length h <= length h')%nat -> cell k0 h' k w /\ l' <> k.
Proof.
  intros B N1 N2 Cl (D1 & D2 & D3) R L. assert (K := vec_lt _ _ _ D1).
  assert (Nk : k <> l') by (apply (target_new h h' l l' v' k R K); auto).
  assert (Nk0 : k0 <> l').
  { apply (target_new h h' l l' v' k0 R); [lia|]. intro E. destruct (cell_where _ _ _ _ Cl) as [F|F]; [congruence|lia]. }
  destruct R as (R1 & R2 & R3 & R4).
  split; [|auto]. split; [|split; [lia|]].
  - destruct (vec_of _ _ _ D1) as [a [A D]]. unfold vec_at. rewrite (R4 k a A Nk), D. reflexivity.
  - destruct D3 as [(A1 & -> & [d A3])|(A1 & A2 & A3)].
    + left. split; auto. split; auto. exists d. apply R4; auto.
    + right. split; auto. split.
      * destruct (nth_error h0 k0) as [a|] eqn:E; [|apply nth_error_None in E; lia]. apply R4; auto.
      * destruct A3 as [A3|[A3 [d A4]]]; [auto|right]. split; [exact A3|]. exists d. apply R4; auto.
Qed.

(** The caller's other arrays. *)
Definition others (h : heap T) : Prop := forall k a, nth_error h0 k = Some a -> k <> lp0 -> k <> le0 -> nth_error h k = Some a.
Lemma others_stay l0 h h' l l' v v' : (l0 = lp0 \/ l0 = le0) -> others h -> cell l0 h l v -> returns_in h h' l l' v' -> others h'.
Proof.
  intros L O C R k a E N1 N2. assert (H := O k a E N1 N2).
  assert (Bk : (k < length h0)%nat) by (apply nth_error_Some; congruence).
  assert (Nk : k <> l').
  { apply (target_new h h' l l' v' k R); [apply nth_error_Some; congruence|]. intro F. destruct (cell_where _ _ _ _ C) as [G|G]; [destruct L; congruence|lia]. }
  destruct R as (_ & _ & _ & R4). apply R4; auto.
Qed.

Hypothesis Gd : vec_at h0 (g_drift g) = Ok (drift_coef m).
Hypothesis G1 : vec_at h0 (g_rf1 g) = Ok (rf1v m).
Hypothesis G2 : vec_at h0 (g_rf2 g) = Ok (rf2v m).
Hypothesis Nd : ~ In (g_drift g) [lp0; le0].
Hypothesis N1 : ~ In (g_rf1 g) [lp0; le0].
Hypothesis N2 : ~ In (g_rf2 g) [lp0; le0].

Lemma static h k v : others h -> vec_at h0 k = Ok v -> ~ In k [lp0; le0] -> vec_at h k = Ok v.
Proof.
  intros O E N. destruct (vec_of _ _ _ E) as [a [A D]]. unfold vec_at. rewrite (O k a A), D; [reflexivity|..]; intro F; apply N; subst; cbn; auto.
Qed.

Definition inv (s : pstate T) (k : hstate) : Prop :=
  cell lp0 (p_heap s) (p_dphi s) (h_dphi k) /\ cell le0 (p_heap s) (p_denergy s) (h_denergy k) /\
  p_dphi s <> p_denergy s /\ others (p_heap s) /\
  p_xp s = h_xp k /\ p_yp s = h_yp k /\ p_profile s = h_profile k /\ p_turn s = h_turn k /\
  length (h_dphi k) = n /\ length (h_denergy k) = n.

Lemma get_nonneg {A} (l : list A) t x : get l t = Ok x -> 0 <= t.
Proof. unfold get. destruct (Z.ltb_spec t 0); [discriminate|auto]. Qed.
Lemma drifted_length up c x e : length x = length e -> length (drifted (add F64) (sub F64) (mul F64) up c x e) = length e.
Proof. intro L. unfold drifted. rewrite map_length, combine_length. lia. Qed.
Lemma kicked_length up a b c d e0 f x e : length x = length e -> length (kicked (add F64) (sub F64) (mul F64) (sin F64) up a b c d e0 f x e) = length e.
Proof. intro L. unfold kicked. rewrite map_length, combine_length. lia. Qed.

Lemma up_sim s k k' dturns : inv s k -> h_up_step (add F64) (sub F64) (mul F64) (sin F64) m p12 dturns k = Ok k' -> an_int (h_turn k + 1) ->
  exists s', p_up_step add sub mul sin single ofZ g n dturns s = Ok s' /\ inv s' k' /\ h_turn k' = h_turn k + 1.
Proof.
  intros (C1 & C2 & Nn & O & X & Y & P & Tn & L1 & L2) H It. unfold h_up_step in H. rewrite L2 in H.
  apply bind_ok in H. destruct H as [coef [Ec H]]. assert (T0 := get_nonneg _ _ _ Ec).
  apply bind_ok in H. destruct H as [ph [Ep H]].
  apply bind_ok in H. destruct H as [v1 [Ev1 H]]. apply bind_ok in H. destruct H as [v2 [Ev2 H]].
  apply bind_ok in H. destruct H as [p0 [Ep0 H]]. apply bind_ok in H. destruct H as [acc [Ea H]].
  apply bind_ok in H. destruct H as [de [Ee H]].
  assert (LL : length (h_dphi k) = length (h_denergy k)) by lia.
  assert (Dv := drift_vals add sub mul sin single ofZ true coef (h_dphi k) (h_denergy k) n LL ltac:(lia)). cbn [orb] in Dv. rewrite Ep in Dv. injection Dv as Dv.
  assert (Lph : length ph = n) by (rewrite Dv, drifted_length; auto).
  assert (Kv := kick_vals add sub mul sin single ofZ true v1 v2 p0 p12 (hratio m) acc ph (h_denergy k) n ltac:(lia) ltac:(lia)). rewrite Ee in Kv. injection Kv as Kv.
  assert (Lde : length de = n) by (rewrite Kv, kicked_length; lia).
  destruct (drift_call add sub mul sin single ofZ zero (p_heap s) (p_denergy s) (p_dphi s) (g_drift g) (h_denergy k) (h_dphi k) (drift_coef m) (h_turn k) coef true)
    as (h1 & l1 & E1 & R1 & A1 & B1); [apply C2|apply C1|exact (static _ _ _ O Gd Nd)|exact LL|exact Ec|rewrite L2; exact Gn|unfold an_int in *; lia|].
  rewrite <- Dv in R1, A1. assert (C1' := cell_moves lp0 _ _ _ _ _ _ Hp0 C1 R1 A1 B1).
  destruct (cell_stays lp0 le0 _ _ _ _ _ _ _ _ He0 Hne Nn C1 C2 R1 B1) as [C2' Nn']. assert (O' := others_stay lp0 _ _ _ _ _ _ (or_introl eq_refl) O C1 R1).
  destruct (kick_call add sub mul sin single ofZ zero h1 (p_denergy s) l1 (g_rf1 g) (g_rf2 g) (h_denergy k) ph (rf1v m) (rf2v m) (phi0 m) (deltaE0 m) co mp mh dt
     (h_turn k + 1) v1 v2 p0 acc p12 (hratio m) true) as (h2 & l2 & E2 & R2 & A2 & B2);
    [apply C2'|apply C1'|exact (static _ _ _ O' G1 N1)|exact (static _ _ _ O' G2 N2)|lia|exact Ev1|exact Ev2|exact Ep0|exact Ea|exact Gp|exact Gh|rewrite L2; exact Gn|exact It|].
  rewrite <- Kv in R2, A2. assert (C2'' := cell_moves le0 _ _ _ _ _ _ He0 C2' R2 A2 B2).
  destruct (cell_stays le0 lp0 _ _ _ _ _ _ _ _ Hp0 (not_eq_sym Hne) (not_eq_sym Nn') C2' C1' R2 B2) as [C1'' Nn'']. assert (O'' := others_stay le0 _ _ _ _ _ _ (or_intror eq_refl) O' C2' R2).
  unfold p_up_step. rewrite Tn, <- L2, E1, L2. cbn [bind]. cbv iota beta zeta. rewrite Gm, <- L2, E2. cbn [bind]. cbv iota beta zeta. unfold keep.
  destruct (dturns =? 0); [discriminate|]. destruct ((h_turn k + 1) mod dturns =? 0).
  - rewrite (proj1 C1''), (proj1 C2''). cbn [bind]. apply bind_ok in H. destruct H as [xs [Ex H]]. apply bind_ok in H. destruct H as [ys [Ey H]]. injection H as <-.
    rewrite X, P, Ex. cbn [bind]. rewrite Y, Ey. cbn [bind]. eexists. split; [reflexivity|]. split; [|reflexivity].
    unfold inv. cbn. auto 12.
  - injection H as <-. eexists. split; [reflexivity|]. split; [|reflexivity]. unfold inv. cbn. auto 12.
Qed.

Lemma down_sim s k k' dturns : inv s k -> h_down_step (add F64) (sub F64) (mul F64) (sin F64) m p12 dturns k = Ok k' -> an_int (h_turn k) ->
  exists s', p_down_step add sub mul sin single ofZ g n dturns s = Ok s' /\ inv s' k' /\ h_turn k' = h_turn k - 1.
Proof.
  intros (C1 & C2 & Nn & O & X & Y & P & Tn & L1 & L2) H It. unfold h_down_step in H. rewrite L2 in H.
  apply bind_ok in H. destruct H as [v1 [Ev1 H]]. apply bind_ok in H. destruct H as [v2 [Ev2 H]].
  apply bind_ok in H. destruct H as [p0 [Ep0 H]]. apply bind_ok in H. destruct H as [acc [Ea H]].
  apply bind_ok in H. destruct H as [de [Ee H]]. cbv zeta in H.
  apply bind_ok in H. destruct H as [coef [Ec H]]. assert (T0 := get_nonneg _ _ _ Ec).
  apply bind_ok in H. destruct H as [ph [Ep H]].
  assert (LL : length (h_dphi k) = length (h_denergy k)) by lia.
  assert (Kv := kick_vals add sub mul sin single ofZ false v1 v2 p0 p12 (hratio m) acc (h_dphi k) (h_denergy k) n ltac:(lia) ltac:(lia)). rewrite Ee in Kv. injection Kv as Kv.
  assert (Lde : length de = n) by (rewrite Kv, kicked_length; lia).
  assert (Dv := drift_vals add sub mul sin single ofZ false coef (h_dphi k) de n ltac:(lia) ltac:(lia)). rewrite Ep in Dv. injection Dv as Dv.
  assert (Lph : length ph = n) by (rewrite Dv, drifted_length; lia).
  destruct (kick_call add sub mul sin single ofZ zero (p_heap s) (p_denergy s) (p_dphi s) (g_rf1 g) (g_rf2 g) (h_denergy k) (h_dphi k) (rf1v m) (rf2v m) (phi0 m) (deltaE0 m) co mp mh dt
     (h_turn k) v1 v2 p0 acc p12 (hratio m) false) as (h1 & l1 & E1 & R1 & A1 & B1);
    [apply C2|apply C1|exact (static _ _ _ O G1 N1)|exact (static _ _ _ O G2 N2)|lia|exact Ev1|exact Ev2|exact Ep0|exact Ea|exact Gp|exact Gh|rewrite L2; exact Gn|exact It|].
  rewrite <- Kv in R1, A1. assert (C2' := cell_moves le0 _ _ _ _ _ _ He0 C2 R1 A1 B1).
  destruct (cell_stays le0 lp0 _ _ _ _ _ _ _ _ Hp0 (not_eq_sym Hne) (not_eq_sym Nn) C2 C1 R1 B1) as [C1' Nn']. assert (O' := others_stay le0 _ _ _ _ _ _ (or_intror eq_refl) O C2 R1).
  destruct (drift_call add sub mul sin single ofZ zero h1 l1 (p_dphi s) (g_drift g) de (h_dphi k) (drift_coef m) (h_turn k - 1) coef false)
    as (h2 & l2 & E2 & R2 & A2 & B2); [apply C2'|apply C1'|exact (static _ _ _ O' Gd Nd)|lia|exact Ec|rewrite Lde; exact Gn|unfold an_int in *; lia|].
  rewrite <- Dv in R2, A2. assert (C1'' := cell_moves lp0 _ _ _ _ _ _ Hp0 C1' R2 A2 B2).
  destruct (cell_stays lp0 le0 _ _ _ _ _ _ _ _ He0 Hne (not_eq_sym Nn') C1' C2' R2 B2) as [C2'' Nn'']. assert (O'' := others_stay lp0 _ _ _ _ _ _ (or_introl eq_refl) O' C1' R2).
  unfold p_down_step. rewrite L2 in E1. rewrite Lde in E2. rewrite Tn, Gm, E1. cbn [bind]. cbv iota beta zeta. rewrite E2. cbn [bind]. cbv iota beta zeta. unfold keep.
  destruct (dturns =? 0); [discriminate|]. destruct ((h_turn k - 1) mod dturns =? 0).
  - rewrite (proj1 C1''), (proj1 C2''). cbn [bind]. apply bind_ok in H. destruct H as [xs [Ex H]]. apply bind_ok in H. destruct H as [ys [Ey H]]. injection H as <-.
    rewrite X, P, Ex. cbn [bind]. rewrite Y, Ey. cbn [bind]. eexists. split; [reflexivity|]. split; [|reflexivity].
    unfold inv. cbn. auto 12.
  - injection H as <-. eexists. split; [reflexivity|]. split; [|reflexivity]. unfold inv. cbn. auto 12.
Qed.

Lemma up_loop_sim fuel dturns nturns : an_int nturns -> forall s k k', inv s k -> - 2 ^ 31 <= h_turn k ->
  h_up_loop (add F64) (sub F64) (mul F64) (sin F64) fuel m p12 dturns nturns k = Ok k' ->
  exists s', p_up_loop add sub mul sin single ofZ fuel g n dturns nturns s = Ok s' /\ inv s' k'.
Proof.
  intro In. induction fuel as [|fuel IH]; intros s k k' I Lo H; cbn [h_up_loop p_up_loop] in *;
    assert (Tn : p_turn s = h_turn k) by apply I; rewrite Tn; destruct (Z.ltb_spec (h_turn k) nturns); try discriminate.
  - injection H as <-. eauto.
  - apply bind_ok in H. destruct H as [k1 [E1 H]].
    destruct (up_sim s k k1 dturns I E1) as (s1 & F1 & I1 & Tk); [unfold an_int in *; lia|].
    rewrite F1. cbn [bind]. apply (IH s1 k1); auto. lia.
  - injection H as <-. eauto.
Qed.
Lemma down_loop_sim fuel dturns : forall s k k', inv s k -> h_turn k < 2 ^ 31 ->
  h_down_loop (add F64) (sub F64) (mul F64) (sin F64) fuel m p12 dturns k = Ok k' ->
  exists s', p_down_loop add sub mul sin single ofZ fuel g n dturns s = Ok s' /\ inv s' k'.
Proof.
  induction fuel as [|fuel IH]; intros s k k' I Hi H; cbn [h_down_loop p_down_loop] in *;
    assert (Tn : p_turn s = h_turn k) by apply I; rewrite Tn; destruct (Z.ltb_spec 0 (h_turn k)); try discriminate.
  - injection H as <-. eauto.
  - apply bind_ok in H. destruct H as [k1 [E1 H]].
    destruct (down_sim s k k1 dturns I E1) as (s1 & F1 & I1 & Tk); [unfold an_int; lia|].
    rewrite F1. cbn [bind]. apply (IH s1 k1); auto. lia.
  - injection H as <-. eauto.
Qed.
End Loop.
