(** Multi-bunch reconstruction objects that hold arrays. *)
From Coq Require Import List ZArith Bool QArith Qcanon.
From Verif Require Import Base.Res Base.QcLib Model.MBind Model.MRecon Model.MMulti Model.MCalls Model.MTomoCalls
  Model.MMultiCalls Spec.CallsSpec Spec.TomoCallsSpec Spec.MultiCallsSpec.
Import ListNotations.
From Coq Require Import Lia.
From Verif Require Import Base.ResLemmas Base.QcLemmas Proof.PTomo Proof.PCalls Proof.PCalls2 Proof.PCalls3
  Proof.PTomoCalls Proof.PImageCalls.

Section Facts.
Variable single : Qc -> Qc.
Notation given := (given single).

Lemma multi_choose : forall h lx lp ll lr lc ax ap al ar ac n1 n2 n3 n4 n5 vb cb,
  nth_error h lx = Some ax -> nth_error h lp = Some ap -> nth_error h ll = Some al -> nth_error h lr = Some ar ->
  nth_error h lc = Some ac ->
  (0 <= n1 < 2 ^ 31)%Z -> (0 <= n2 < 2 ^ 31)%Z -> (0 <= n3 < 2 ^ 31)%Z -> (0 <= n4 < 2 ^ 31)%Z ->
  (0 <= n5 < 2 ^ 31)%Z ->
  let rest := [VInt n1; VInt n2; VInt n3; VInt n4; VInt n5; VBool vb; cb] in
  let e := if fits (NFloats F32) ap && fits NInts ax && fits NInts al && fits NInts ar && fits NInts ac
           then F32 else F64 in
  exists v h1 x1 p1 l1 r1 c1,
    choose single multi_versions h (VArr lx :: VArr lp :: VArr ll :: VArr lr :: VArr lc :: rest) =
      Some (v, h1, VArr x1 :: VArr p1 :: VArr l1 :: VArr r1 :: VArr c1 :: rest) /\
    match v with O => F64 | _ => F32 end = e /\ kept h h1 /\ (List.length h <= List.length h1)%nat /\
    nth_error h1 x1 = Some (given NInts ax) /\ nth_error h1 p1 = Some (given (NFloats e) ap) /\
    nth_error h1 l1 = Some (given NInts al) /\ nth_error h1 r1 = Some (given NInts ar) /\
    nth_error h1 c1 = Some (given NInts ac).
Proof.
  intros h lx lp ll lr lc ax ap al ar ac n1 n2 n3 n4 n5 vb cb A B C D E N1 N2 N3 N4 N5. cbv zeta.
  set (rest := [VInt n1; VInt n2; VInt n3; VInt n4; VInt n5; VBool vb; cb]).
  assert (L : forall c h', nload_all single c [NInt; NInt; NInt; NInt; NInt; NBool; NOptional] h' rest = Some (h', rest)).
  { intros c h'. unfold rest. cbn [nload_all]. rewrite !load_Z by auto. destruct cb; reflexivity. }
  unfold choose.
  set (R := first_version single true multi_versions h (VArr lx :: VArr lp :: VArr ll :: VArr lr :: VArr lc :: rest)).
  assert (Conv : exists h1 x1 p1 l1 r1 c1,
    R = Some (O, h1, VArr x1 :: VArr p1 :: VArr l1 :: VArr r1 :: VArr c1 :: rest) /\
    kept h h1 /\ (List.length h <= List.length h1)%nat /\
    nth_error h1 x1 = Some (given NInts ax) /\ nth_error h1 p1 = Some (given (NFloats F64) ap) /\
    nth_error h1 l1 = Some (given NInts al) /\ nth_error h1 r1 = Some (given NInts ar) /\
    nth_error h1 c1 = Some (given NInts ac)).
  { unfold R, multi_versions. cbn [first_version].
    set (tail := [NInt; NInt; NInt; NInt; NInt; NBool; NOptional]) in *. clearbody rest tail. cbn [nload_all].
    rewrite (load_ints single _ _ _ A).
    set (ha := put single NInts h ax). assert (KA : kept h ha) by apply kept_put.
    rewrite (load_floats single F64 _ _ _ (KA _ _ B)).
    set (hb := put single (NFloats F64) ha ap). assert (KB : kept ha hb) by apply kept_put.
    rewrite (load_ints single hb _ _ (KB _ _ (KA _ _ C))).
    set (hc := put single NInts hb al). assert (KC : kept hb hc) by apply kept_put.
    rewrite (load_ints single hc _ _ (KC _ _ (KB _ _ (KA _ _ D)))).
    set (hd := put single NInts hc ar). assert (KD : kept hc hd) by apply kept_put.
    rewrite (load_ints single hd _ _ (KD _ _ (KC _ _ (KB _ _ (KA _ _ E))))).
    set (he := put single NInts hd ac). assert (KE : kept hd he) by apply kept_put.
    rewrite L. do 6 eexists. split; [reflexivity|].
    split; [intros k b Q; apply KE, KD, KC, KB, KA; exact Q|].
    split.
    { unfold he, hd, hc, hb, ha. do 4 (eapply Nat.le_trans; [apply put_len|]). apply put_len. }
    split; [apply KE, KD, KC, KB; exact (put_here single _ _ _ _ A)|].
    split; [apply KE, KD, KC; exact (put_here single _ _ _ _ (KA _ _ B))|].
    split; [apply KE, KD; exact (put_here single _ _ _ _ (KB _ _ (KA _ _ C)))|].
    split; [apply KE; exact (put_here single _ _ _ _ (KC _ _ (KB _ _ (KA _ _ D))))|].
    exact (put_here single _ _ _ _ (KD _ _ (KC _ _ (KB _ _ (KA _ _ E))))). }
  clearbody R. unfold multi_versions. cbn [first_version].
  set (tail := [NInt; NInt; NInt; NInt; NInt; NBool; NOptional]) in *. clearbody rest tail. cbn [nload_all].
  rewrite !(exact_ints single _ _ _ A).
  assert (K0 : kept h h) by (intros k b K; exact K).
  assert (G : fits (NFloats F64) ap = true -> fits (NFloats F32) ap = true -> False).
  { intros F G. apply fits_floats in F. apply fits_floats in G. destruct F as (? & ? & ->), G as (? & ? & G). discriminate. }
  assert (Done : forall e, e = F64 -> exists v h1 x1 p1 l1 r1 c1,
    R = Some (v, h1, VArr x1 :: VArr p1 :: VArr l1 :: VArr r1 :: VArr c1 :: rest) /\
    match v with O => F64 | _ => F32 end = e /\ kept h h1 /\ (List.length h <= List.length h1)%nat /\
    nth_error h1 x1 = Some (given NInts ax) /\ nth_error h1 p1 = Some (given (NFloats e) ap) /\
    nth_error h1 l1 = Some (given NInts al) /\ nth_error h1 r1 = Some (given NInts ar) /\
    nth_error h1 c1 = Some (given NInts ac)).
  { intros e ->. destruct Conv as (h1 & x1 & p1 & l1 & r1 & c1 & Q & Q').
    exists O, h1, x1, p1, l1, r1, c1. rewrite Q. auto. }
  destruct (fits NInts ax) eqn:FX; [|apply Done; rewrite andb_false_r; reflexivity].
  rewrite !(exact_floats single _ _ _ _ B).
  destruct (fits NInts al) eqn:FL.
  2: { destruct (fits (NFloats F64) ap), (fits (NFloats F32) ap);
       rewrite ?(exact_ints single _ _ _ C), ?FL; apply Done; rewrite ?andb_false_r; reflexivity. }
  destruct (fits NInts ar) eqn:FR.
  2: { destruct (fits (NFloats F64) ap), (fits (NFloats F32) ap);
       rewrite ?(exact_ints single _ _ _ C), ?FL, ?(exact_ints single _ _ _ D), ?FR; apply Done;
       rewrite ?andb_false_r; reflexivity. }
  destruct (fits NInts ac) eqn:FC.
  2: { destruct (fits (NFloats F64) ap), (fits (NFloats F32) ap);
       rewrite ?(exact_ints single _ _ _ C), ?FL, ?(exact_ints single _ _ _ D), ?FR, ?(exact_ints single _ _ _ E), ?FC;
       apply Done; rewrite ?andb_false_r; reflexivity. }
  rewrite !andb_true_r.
  destruct (fits (NFloats F64) ap) eqn:F64'.
  - destruct (fits (NFloats F32) ap) eqn:F32'; [exfalso; auto|].
    rewrite (exact_ints single _ _ _ C), FL, (exact_ints single _ _ _ D), FR, (exact_ints single _ _ _ E), FC, L.
    exists O, h, lx, lp, ll, lr, lc. unfold PImageCalls.given. rewrite FX, F64', FL, FR, FC. auto 12.
  - destruct (fits (NFloats F32) ap) eqn:F32'; [|apply Done; reflexivity].
    rewrite (exact_ints single _ _ _ C), FL, (exact_ints single _ _ _ D), FR, (exact_ints single _ _ _ E), FC, L.
    exists 1%nat, h, lx, lp, ll, lr, lc. unfold PImageCalls.given. rewrite FX, F32', FL, FR, FC. auto 12.
Qed.

Lemma with_given : forall a v, ints_with a v -> given NInts a = NArr [List.length v] true (Int32 v).
Proof.
  intros [s c e] v (S & E & F). cbn [n_shape n_cells] in *. subst s.
  unfold PImageCalls.given, converted, fits. cbn [n_cells n_contig n_shape]. destruct E as [->| ->].
  - destruct c; reflexivity.
  - cbn [as_ints]. do 2 f_equal. rewrite <- (map_id v) at 2. apply map_ext_in. intros z I.
    rewrite Forall_forall in F. specialize (F z I). unfold wrap32. rewrite Z.mod_small by lia. lia.
Qed.

Lemma multi_run_spec : forall sqrt split0 d e rows h h1 o t lc ll lr ac al ar centers cutl cutr niter verbose cb,
  object_of d rows h h1 o t ->
  match t_xp t with Some y => t_nparts t = Some (length y) | None => True end ->
  nth_error h1 lc = Some ac -> nth_error h1 ll = Some al -> nth_error h1 lr = Some ar ->
  ints_with ac centers -> ints_with al cutl -> ints_with ar cutr -> multi_precision e d rows ac al ar ->
  (0 <= niter < 2 ^ 31)%Z -> counts [t_nprofs t; t_nbins t; length centers] ->
  (forall n, t_nparts t = Some n -> (Z.of_nat n < 2 ^ 31)%Z) ->
  runs_multi_as e t (length centers) niter h1 o (run_multi sqrt split0 t centers cutl cutr niter)
    (run_multi_tomo single sqrt split0 h1 o lc ll lr niter verbose cb).
Proof.
  intros sqrt split0 d e rows h h1 o t lc ll lr ac al ar centers cutl cutr niter verbose cb
    (O1 & O2 & O3 & O4 & O5 & O6) NP AC AL AR IC IL IR P NI C CN.
  unfold run_multi, run_multi_tomo, runs_multi_as.
  destruct (t_xp t) as [x|], (o_xp o) as [lx|] eqn:OX; try contradiction; [|reflexivity].
  destruct O6 as (X1 & X2 & X3). rewrite O3, NP, O1, O2, AC.
  replace (match ac with
    | {| n_shape := nc :: _ |} => Ok nc
    | _ => Fail (Raised TypeError) end) with (Ok (length centers))
    by (destruct ac as [s0 c0 e0]; destruct IC as (S & _); cbn [n_shape] in S; rewrite S; reflexivity).
  cbn [bind].
  assert (C1 := counts_Z (t_nprofs t) _ C ltac:(cbn; auto)). assert (C2 := counts_Z (t_nbins t) _ C ltac:(cbn; auto)).
  assert (C4 := counts_Z (length centers) _ C ltac:(cbn; auto)).
  assert (C3 : (0 <= Z.of_nat (length x) < 2 ^ 31)%Z) by (specialize (CN _ NP); lia).
  set (ax := NArr [length x; t_nprofs t] true (Int32 (concat x))) in *.
  set (ap := NArr [t_nprofs t; t_nbins t] rows (Floats d (concat (t_waterfall t)))) in *.
  unfold call_reconstruct_multi.
  match goal with |- context [arguments multi_names multi_defaults ?l []] =>
    replace (arguments multi_names multi_defaults l []) with (Some l) by reflexivity end.
  destruct (multi_choose h1 lx (o_waterfall o) ll lr lc ax ap al ar ac niter (Z.of_nat (t_nbins t))
    (Z.of_nat (length x)) (Z.of_nat (t_nprofs t)) (Z.of_nat (length centers)) verbose cb X3 O5 AL AR AC NI C2 C3 C1 C4)
    as (v & h2 & x1 & p1 & l1 & r1 & c1 & Q1 & Q2 & Q3 & Q4 & Q5 & Q6 & Q7 & Q8 & Q9).
  assert (PE : (if fits (NFloats F32) ap && fits NInts ax && fits NInts al && fits NInts ar && fits NInts ac
           then F32 else F64) = e).
  { replace (fits NInts ax) with true by reflexivity. destruct P as [(-> & -> & -> & P1 & P2 & P3)|(-> & P)].
    - rewrite (proj2 (fits_ints _) P1), (proj2 (fits_ints _) P2), (proj2 (fits_ints _) P3). reflexivity.
    - destruct (fits (NFloats F32) ap) eqn:F1; [|reflexivity]. destruct (fits NInts al) eqn:F2; [|reflexivity].
      destruct (fits NInts ar) eqn:F3; [|reflexivity]. destruct (fits NInts ac) eqn:F4; [|reflexivity].
      exfalso. apply P. unfold ap, fits in F1. cbn in F1. destruct d; [discriminate|].
      split; auto. split; auto. split; [|split]; apply fits_ints; auto. }
  rewrite PE in *.
  rewrite (with_given _ _ IL) in Q7. rewrite (with_given _ _ IR) in Q8. rewrite (with_given _ _ IC) in Q9.
  assert (PV : floats_at h2 p1 = Ok (concat (t_waterfall t))).
  { unfold floats_at. rewrite Q6. unfold PImageCalls.given. destruct (fits (NFloats e) ap) eqn:F; [reflexivity|].
    unfold converted, ap. cbn [n_cells as_floats]. destruct e.
    - destruct d; cbn; rewrite ?map_id; reflexivity.
    - exfalso. destruct P as [(_ & -> & -> & _)|(Z0 & _)]; discriminate. }
  rewrite Q1, Q2. cbv zeta. rewrite PV. unfold ints_at. rewrite Q5, Q7, Q8, Q9.
  unfold PImageCalls.given, ax, fits. cbn [n_cells n_contig bind]. rewrite !Nat2Z.id.
  destruct (reconstruct_multi sqrt split0 (concat x) centers cutl cutr (concat (t_waterfall t)) niter (t_nbins t)
    (length x) (t_nprofs t) (length centers)) as [s|er]; cbn [bind]; [|reflexivity].
  unfold floats_at.
  rewrite !nth_error_app2 by lia. rewrite Nat.sub_diag. replace (S (S (length h2)) - length h2)%nat with 2%nat by lia.
  cbn [nth_error bind].
  destruct (transpose (Z.to_nat (niter + 1)) (length centers) (chunk (Z.to_nat (niter + 1)) (length centers) (m_split s)))
    as [sp|er]; cbn [bind]; [|reflexivity].
  do 7 eexists. split; [reflexivity|]. cbn [o_weight o_diff o_recreated o_waterfall o_xp o_nparts u_combined
    u_diff_split u_weight_split mr_weights mr_diff mr_recreated mr_diff_split mr_weight_split].
  split. { intros k b Kb. apply kept_app, Q3. exact Kb. }
  split. { unfold same_input. cbn [o_waterfall o_nprofs o_nbins o_xp o_nparts]. repeat split; congruence. }
  do 3 (split; [reflexivity|]). split; [reflexivity|].
  do 6 (split; [lia|]).
  split. { rewrite nth_error_app2 by lia. rewrite Nat.sub_diag. reflexivity. }
  split. { rewrite nth_error_app2 by lia. replace (S (length h2) - length h2)%nat with 1%nat by lia. reflexivity. }
  split. { rewrite nth_error_app2 by lia. replace (S (S (S (length h2))) - length h2)%nat with 3%nat by lia. reflexivity. }
  auto.
Qed.

Lemma multi_object_runs : forall sqrt split0 d e h lw aw np nb rows x ax n m xrows t h1 h2 o o2
    lc ll lr ac al ar centers cutl cutr niter verbose callback,
  nth_error h lw = Some aw -> two_axes np nb aw -> positions_at h n m x ax -> counts [np; nb; n; length centers] ->
  (0 <= niter < 2 ^ 31)%Z ->
  tomography np nb (chunk np nb (in_precision single d aw)) (positions single d n m ax) CNone = Ok t ->
  new_tomo single d h lw rows x xrows = Ok (h1, o) -> kept h1 h2 -> same_input o o2 ->
  nth_error h2 lc = Some ac -> nth_error h2 ll = Some al -> nth_error h2 lr = Some ar ->
  ints_with ac centers -> ints_with al cutl -> ints_with ar cutr -> multi_precision e d rows ac al ar ->
  runs_multi_as e t (length centers) niter h2 o2 (run_multi sqrt split0 t centers cutl cutr niter)
    (run_multi_tomo single sqrt split0 h2 o2 lc ll lr niter verbose callback).
Proof.
  intros sqrt split0 d e h lw aw np nb rows x ax n m xrows t h1 h2 o o2 lc ll lr ac al ar centers cutl cutr niter
    verbose callback A B C D NI T N K I AC AL AR IC IL IR P.
  assert (D1 := counts_Z np _ D ltac:(cbn; auto)). assert (D2 := counts_Z nb _ D ltac:(cbn; auto)).
  assert (D3 := counts_Z n _ D ltac:(cbn; auto)). assert (D4 := counts_Z (length centers) _ D ltac:(cbn; auto)).
  assert (W := new_spec single d h lw aw np nb rows x ax n m xrows A B C (proj2 D2)).
  rewrite T in W. destruct W as (h' & o' & P1 & P2 & P3 & P4). rewrite N in P1. injection P1 as <- <-.
  assert (Q : t_nprofs t = np /\ t_nbins t = nb /\ forall k, t_nparts t = Some k -> k = n).
  { unfold tomography in T. destruct (normalize_profiles _); [|discriminate]. cbn [bind] in T.
    destruct ax as [a0|]; cbn [positions] in T.
    - unfold set_xp in T. destruct (negb _); [discriminate|]. destruct (_ || _); [discriminate|].
      cbn in T. injection T as <-. cbn. split; auto. split; auto. intros k E. injection E as <-. apply chunk_length.
    - cbn in T. injection T as <-. cbn. split; auto. split; auto. discriminate. }
  destruct Q as (Q1 & Q2 & Q3).
  eapply multi_run_spec; eauto.
  - eapply object_moves; eauto.
  - rewrite Q1, Q2. repeat constructor; lia.
  - intros k E. rewrite (Q3 k E). lia.
Qed.
End Facts.
