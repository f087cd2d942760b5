(** Proofs about the functions for a single turn kept for older programs (C117). *)
(*HEAD*)
From Coq Require Import String List ZArith Bool.
From Verif Require Import Base.Res Model.MTrack Model.MBind Model.MSteps Model.MOldSteps Spec.BindSpec Spec.StepsSpec
  Spec.TrackSpec Spec.OldCallsSpec.
Import ListNotations.
Local Open Scope Z_scope.
(*DAEH*)
From Coq Require Import Lia Permutation.
From Verif Require Import Proof.CSteps Proof.COldCalls.

Section Names.
Context {V : Type}.

Fact keyword_in n (v : V) : forall l, NoDup (map fst l) -> In (n, v) l -> keyword n l = Some v.
Proof.
  induction l as [|[m w] l IH]; intros N I; [destruct I|]. cbn [keyword map fst] in *. inversion N; subst.
  destruct (String.eqb_spec m n) as [->|D].
  - destruct I as [E|I]; [inversion E; auto|]. exfalso. apply H1. apply in_map_iff. exists (n, v). auto.
  - destruct I as [E|I]; [inversion E; congruence|]. auto.
Qed.

Fact keyword_out n : forall l : list (string * V), ~ In n (map fst l) -> keyword n l = None.
Proof.
  induction l as [|[m w] l IH]; intros N; cbn [keyword map fst In] in *; auto.
  destruct (String.eqb_spec m n); [subst; exfalso; auto|]. auto.
Qed.

Fact fst_combine' : forall (names : list string) (vs : list V), List.length names = List.length vs ->
  map fst (combine names vs) = names.
Proof. induction names as [|n names IH]; intros [|v vs] L; try discriminate L; cbn; auto. rewrite IH; auto. Qed.

Fact fill_in defaults kw : NoDup (map fst kw) -> forall names (vs : list V) tl tv,
  List.length names = List.length vs -> (forall p, In p (combine names vs) -> In p kw) ->
  fill tl defaults kw = Some tv -> fill (names ++ tl) defaults kw = Some (vs ++ tv).
Proof.
  intros N. induction names as [|n names IH]; intros [|v vs] tl tv L H F; try discriminate L; [exact F|].
  cbn [fill app]. cbn [combine] in H. rewrite (keyword_in n v) by (auto; apply H; left; auto).
  assert (E : fill (names ++ tl) defaults kw = Some (vs ++ tv)).
  { apply IH; auto. intros p I. apply H. right. auto. }
  rewrite E. destruct (keyword n defaults); reflexivity.
Qed.

(** All parameters given, or all but the last, which has a default. *)
Fact passes_parameters names last (vs : list V) def pos kw : NoDup (names ++ [last]) ->
  (passes (names ++ [last]) vs pos kw /\ List.length vs = Datatypes.S (List.length names)) \/
  (exists vs', vs = vs' ++ [def] /\ passes names vs' pos kw /\ List.length vs' = List.length names) ->
  parameters (names ++ [last]) [(last, def)] pos kw = Some vs.
Proof.
  intros N. assert (LN : List.length (names ++ [last]) = Datatypes.S (List.length names))
    by (rewrite app_length; cbn; lia).
  intros [((rest & -> & P) & L)|(vs' & -> & (rest & -> & P) & L)]; unfold parameters; rewrite app_length in L.
  - replace (Nat.ltb _ _) with false by (symmetry; apply Nat.ltb_ge; lia).
    set (r := skipn (List.length pos) (names ++ [last])) in *.
    assert (Lr : List.length r = List.length rest) by (unfold r; rewrite skipn_length; lia).
    assert (Nr : NoDup r) by (apply skipn_nodup; auto).
    assert (Nk : NoDup (map fst kw)).
    { eapply Permutation_NoDup; [apply Permutation_map, Permutation_sym, P|]. rewrite fst_combine'; auto. }
    replace (forallb _ kw) with true.
    + assert (E : fill (r ++ []) [(last, def)] kw = Some (rest ++ [])).
      { apply fill_in; auto. intros p I. eapply Permutation_in; [apply Permutation_sym, P|exact I]. }
      rewrite !app_nil_r in E. rewrite E. reflexivity.
    + symmetry. apply forallb_forall. intros [n v] I. cbn [fst].
      apply existsb_exists. exists n. split; [|apply String.eqb_refl].
      rewrite <- (fst_combine' r rest Lr). change n with (fst (n, v)). apply in_map.
      eapply Permutation_in; [exact P|exact I].
  - replace (Nat.ltb _ _) with false by (symmetry; apply Nat.ltb_ge; lia).
    rewrite skipn_app. replace (List.length pos - List.length names)%nat with 0%nat by lia. cbn [skipn].
    set (r := skipn (List.length pos) names) in *.
    assert (Lr : List.length r = List.length rest) by (unfold r; rewrite skipn_length; lia).
    assert (Nl : ~ In last names) by (apply NoDup_remove_2 in N; rewrite app_nil_r in N; exact N).
    assert (Nr : NoDup r).
    { apply skipn_nodup. apply NoDup_remove_1 in N. rewrite app_nil_r in N. exact N. }
    assert (Nk : NoDup (map fst kw)).
    { eapply Permutation_NoDup; [apply Permutation_map, Permutation_sym, P|]. rewrite fst_combine'; auto. }
    assert (K : forall n, In n (map fst kw) -> In n r).
    { intros n I. rewrite <- (fst_combine' r rest Lr). eapply Permutation_in; [apply Permutation_map, P|exact I]. }
    replace (forallb _ kw) with true.
    + assert (E : fill (r ++ [last]) [(last, def)] kw = Some (rest ++ [def])).
      { apply fill_in; auto; [intros p I; eapply Permutation_in; [apply Permutation_sym, P|exact I]|].
        cbn [fill keyword]. rewrite keyword_out, String.eqb_refl; [reflexivity|].
        intros I. apply K in I. apply Nl. rewrite <- (firstn_skipn (List.length pos) names).
        apply in_or_app. right. exact I. }
      rewrite E, app_assoc. reflexivity.
    + symmetry. apply forallb_forall. intros [n v] I. cbn [fst].
      apply existsb_exists. exists n. split; [|apply String.eqb_refl].
      apply in_or_app. left. apply K. change n with (fst (n, v)). apply in_map. exact I.
Qed.
End Names.

(** tomolib_wrappers.drift, called by position or by name, drifts the phases as
    libtomo.drift does (C106), forward if the direction is left out. *)
Lemma C117_drift_lem : forall (T : Type) (add sub mul : dtype -> T -> T -> T) (single : T -> T) (ofZ : Z -> T)
    (h : heap T) (de ph co : loc) (e x c : list T) (turn : Z) (coef : T) (up : bool)
    (pos : list (pyval T)) (kw : list (string * pyval T)),
  vec_at h de = Ok e -> vec_at h ph = Ok x -> vec_at h co = Ok c -> length x = length e ->
  get c turn = Ok coef -> an_int (Z.of_nat (length e)) -> an_int turn ->
  let names := ["denergy"; "dphi"; "drift_coef"; "npart"; "turn"]%string in
  let values := [PArr de; PArr ph; PArr co; PInt (Z.of_nat (length e)); PInt turn] in
  passes (names ++ ["up"%string]) (values ++ [PBool up]) pos kw \/ (up = true /\ passes names values pos kw) ->
  exists h' l,
    old_drift add sub mul single ofZ h pos kw = Ok (h', l) /\
    returns_in h h' ph l (drifted (add F64) (sub F64) (mul F64) up coef x e).
Proof.
  intros T add sub mul single ofZ h de ph co e x c turn coef up pos kw A B C L G N1 N2 names values P.
  assert (Q : parameters old_drift_names old_defaults pos kw = Some (values ++ [PBool up])).
  { apply (passes_parameters names "up"%string (values ++ [PBool up]) (PBool true) pos kw).
    - unfold names. cbn [app]. distinct.
    - destruct P as [P|[-> P]]; [left; split; [exact P|reflexivity]|].
      right. exists values. split; [reflexivity|]. split; [exact P|reflexivity]. }
  unfold old_drift. rewrite Q. unfold values. cbn [app].
  exact (C106_drift_lem T add sub mul single ofZ h de ph co e x c turn coef up A B C L G N1 N2).
Qed.
(*EX*)
(** The example of C106, with the turn and the number by name. *)
Example C117_drift_ex :
  old_drift (fun _ => Z.add) (fun _ => Z.sub) (fun _ => Z.mul) (fun x => x) (fun z => z) z_heap
    [PArr 0%nat; PArr 1%nat; PArr 2%nat] [("turn", PInt 1); ("npart", PInt 2)]%string
  = Ok (z_heap ++ [Arr F64 true (Vec [3; 8])], 6%nat) /\
  passes ["denergy"; "dphi"; "drift_coef"; "npart"; "turn"]%string
    [PArr 0%nat; PArr 1%nat; PArr 2%nat; PInt 2; PInt 1 : pyval Z]
    [PArr 0%nat; PArr 1%nat; PArr 2%nat] [("turn", PInt 1); ("npart", PInt 2)]%string.
Proof.
  split; [reflexivity|]. exists [PInt 2; PInt 1]. split; [reflexivity|]. apply Permutation.perm_swap.
Qed.
(*XE*)

(** tomolib_wrappers.kick, in the same way. *)
Lemma C117_kick_lem : forall (T : Type) (add sub mul : dtype -> T -> T -> T) (sin : dtype -> T -> T)
    (single : T -> T) (ofZ : Z -> T) (h : heap T) (de ph l1 l2 : loc) (e x r1 r2 ps ds co : list T)
    (mp12 mhr : pyval T) (dturns turn : Z) (v1 v2 p0 acc p12 hr : T) (up : bool)
    (pos : list (pyval T)) (kw : list (string * pyval T)),
  vec_at h de = Ok e -> vec_at h ph = Ok x -> vec_at h l1 = Ok r1 -> vec_at h l2 = Ok r2 ->
  length x = length e ->
  get r1 turn = Ok v1 -> get r2 turn = Ok v2 -> get ps turn = Ok p0 -> get ds turn = Ok acc ->
  number_in single ofZ F64 mp12 p12 -> number_in single ofZ F64 mhr hr ->
  an_int (Z.of_nat (length e)) -> an_int turn ->
  let names := ["machine"; "denergy"; "dphi"; "rfv1"; "rfv2"; "npart"; "turn"]%string in
  let values := [PObj (MObj ps ds co mp12 mhr dturns); PArr de; PArr ph; PArr l1; PArr l2;
                 PInt (Z.of_nat (length e)); PInt turn] in
  passes (names ++ ["up"%string]) (values ++ [PBool up]) pos kw \/ (up = true /\ passes names values pos kw) ->
  exists h' l,
    old_kick add sub mul sin single ofZ h pos kw = Ok (h', l) /\
    returns_in h h' de l (kicked (add F64) (sub F64) (mul F64) (sin F64) up v1 v2 p0 p12 hr acc x e).
Proof.
  intros T add sub mul sin single ofZ h de ph l1 l2 e x r1 r2 ps ds co mp12 mhr dturns turn v1 v2 p0 acc p12 hr up
    pos kw A B C D L G1 G2 G3 G4 N1 N2 N3 N4 names values P.
  assert (Q : parameters old_kick_names old_defaults pos kw = Some (values ++ [PBool up])).
  { apply (passes_parameters names "up"%string (values ++ [PBool up]) (PBool true) pos kw).
    - unfold names. cbn [app]. distinct.
    - destruct P as [P|[-> P]]; [left; split; [exact P|reflexivity]|].
      right. exists values. split; [reflexivity|]. split; [exact P|reflexivity]. }
  unfold old_kick. rewrite Q. unfold values. cbn [app].
  exact (C106_kick_lem T add sub mul sin single ofZ h de ph l1 l2 e x r1 r2 ps ds co mp12 mhr dturns turn
    v1 v2 p0 acc p12 hr up A B C D L G1 G2 G3 G4 N1 N2 N3 N4).
Qed.
(*EX*)
Example C117_kick_ex :
  old_kick (fun _ => Z.add) (fun _ => Z.sub) (fun _ => Z.mul) (fun _ x => x) (fun x => x) (fun z => z) z_heap
    [PObj (g_machine (z_setting (PFloat 0))); PArr 0%nat; PArr 1%nat; PArr 3%nat; PArr 4%nat; PInt 2; PInt 1] []
  = Ok (Arr F64 true (Vec [7; 6]) :: tl z_heap ++ [Arr F64 true (Vec [5; 7])], 0%nat).
Proof. reflexivity. Qed.
(*XE*)
