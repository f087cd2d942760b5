(** Reconstruction objects that hold arrays. *)
From Coq Require Import List ZArith Bool QArith Qcanon.
From Verif Require Import Base.Res Base.QcLib Model.MBind Model.MRecon Model.MCalls Model.MTomoCalls
  Spec.CallsSpec Spec.TomoCallsSpec.
Import ListNotations.
From Coq Require Import Lia.
From Verif Require Import Base.ResLemmas Base.QcLemmas Proof.PTomo Proof.PCalls Proof.PCalls2 Proof.PCalls3.

Lemma skipn_skipn : forall A (l : list A) a b, skipn a (skipn b l) = skipn (b + a) l.
Proof.
  induction l; intros a' b; [rewrite !skipn_nil; auto|]. destruct b; auto. cbn [skipn Nat.add]. apply IHl.
Qed.

Lemma chunk_S : forall A n m (l : list A), chunk (S n) m l = firstn m l :: chunk n m (skipn m l).
Proof.
  intros. unfold chunk, tab. cbn [seq map]. f_equal. rewrite <- seq_shift, map_map.
  apply map_ext. intros i. f_equal. cbn [Nat.mul]. symmetry. apply skipn_skipn.
Qed.

Lemma concat_chunk : forall A n m (l : list A), length l = (n * m)%nat -> concat (chunk n m l) = l.
Proof.
  induction n; intros m l L.
  - destruct l; [reflexivity|discriminate].
  - rewrite chunk_S. cbn [concat]. rewrite IHn by (rewrite skipn_length; lia). apply firstn_skipn.
Qed.

Lemma existsb_concat : forall A (f : A -> bool) ll, existsb (existsb f) ll = existsb f (concat ll).
Proof. induction ll; auto. cbn [existsb concat]. rewrite existsb_app, IHll. auto. Qed.

Lemma chunk_length : forall A n m (l : list A), length (chunk n m l) = n.
Proof. intros. unfold chunk. apply tab_length. Qed.

Section Facts.
Variable single : Qc -> Qc.

Lemma as_floats_precision : forall d a, as_floats single d (n_cells a) = in_precision single d a.
Proof.
  intros d a. unfold as_floats, in_precision, values_of.
  destruct (n_cells a) as [[]| |], d; auto; try apply map_id; rewrite map_map; auto.
Qed.

Lemma precision_length : forall d a, length (in_precision single d a) = length (values_of a).
Proof.
  intros d a. unfold in_precision, values_of. destruct (n_cells a) as [[]| |], d; auto; rewrite ?map_length; auto.
Qed.

Lemma cast_again : forall d rows a,
  as_floats single d (n_cells (cast_array single d rows a)) = in_precision single d a.
Proof.
  intros. unfold cast_array. cbn [n_cells]. rewrite as_floats_precision. destruct d; cbn [as_floats]; auto. apply map_id.
Qed.

Lemma kept_app : forall h l, kept h (h ++ l).
Proof.
  intros h l k a H. rewrite nth_error_app1; auto. apply nth_error_Some. congruence.
Qed.

Lemma ints_small : forall nb v, (Z.of_nat nb < 2 ^ 31)%Z ->
  existsb (fun x => qltb x 0) v || existsb (fun x => qleb (qn nb) x) v = false ->
  map (fun x => wrap32 (qtrunc x)) v = map qtrunc v.
Proof.
  intros nb v N H. apply orb_false_elim in H. destruct H as [H1 H2]. apply map_ext_in. intros x I.
  destruct (qltb_spec x 0) as [L|L].
  { rewrite (proj2 (existsb_exists _ _)) in H1; [discriminate|]. exists x. split; auto.
    destruct (qltb_spec x 0); auto. exfalso; qclra. }
  destruct (qleb_spec (qn nb) x) as [M|M].
  { rewrite (proj2 (existsb_exists _ _)) in H2; [discriminate|]. exists x. split; auto.
    destruct (qleb_spec (qn nb) x); auto. exfalso; qclra. }
  assert (R := qtrunc_range x nb ltac:(qclra) ltac:(qclra)).
  unfold wrap32. rewrite Z.mod_small by lia. lia.
Qed.

Lemma assign_spec : forall d h h1 o t rows lx ax n m,
  object_of d rows h h1 o t -> t_xp t = None -> (length h <= length h1)%nat -> (Z.of_nat (t_nbins t) < 2 ^ 31)%Z ->
  nth_error h1 lx = Some ax -> two_axes n m ax ->
  forall xrows,
  match set_xp t (CArr2 m (chunk n m (in_precision single d ax))) with
  | (_, Some e) => assign_xp single d h1 o xrows (Some lx) = Fail (Raised e)
  | (t', None) => exists h' o', assign_xp single d h1 o xrows (Some lx) = Ok (h', o') /\ kept h1 h' /\
      object_of d rows h h' o' t' /\ t_nparts t' = Some n
  end.
Proof.
  intros d h h1 o t rows lx ax n m (O1 & O2 & O3 & O4 & O5 & O6) X LE N A (S & L) xrows.
  unfold set_xp, assign_xp. rewrite A. cbv zeta. rewrite cast_again.
  replace (n_shape (cast_array single d xrows ax)) with [n; m] by (symmetry; exact S).
  rewrite !existsb_concat. rewrite !concat_chunk by (rewrite precision_length; auto). rewrite O1, O2.
  destruct (Nat.eqb_spec m (t_nprofs t)) as [->|E]; cbn [negb]; [|reflexivity].
  set (v := in_precision single d ax) in *.
  destruct (existsb (fun x => qltb x 0) v || existsb (fun x => qleb (qn (t_nbins t)) x) v) eqn:B; [reflexivity|].
  unfold cast_array. cbn [n_cells as_ints]. rewrite as_floats_precision. fold v.
  rewrite (ints_small (t_nbins t) v N B).
  do 2 eexists. split; [reflexivity|]. split; [intros k b K; apply kept_app, kept_app; exact K|].
  assert (CT : concat (to_int (chunk n (t_nprofs t) v)) = map qtrunc v).
  { unfold to_int. rewrite <- concat_map, concat_chunk; auto. unfold v. rewrite precision_length. auto. }
  assert (LT : length (to_int (chunk n (t_nprofs t) v)) = n).
  { unfold to_int. rewrite map_length, chunk_length. auto. }
  unfold object_of, put_nparts, put_xp.
  cbn [o_nprofs o_nbins o_nparts o_waterfall o_xp t_nprofs t_nbins t_nparts t_waterfall t_xp].
  rewrite chunk_length, CT, LT.
  split; [|auto]. split; auto. split; auto. split; auto. split; auto.
  split. { apply kept_app, kept_app. exact O5. }
  assert (W : (o_waterfall o < length h1)%nat) by (apply nth_error_Some; congruence).
  rewrite app_length. cbn [length]. split; [lia|]. split; [lia|].
  rewrite nth_error_app2 by (rewrite app_length; cbn [length]; lia). rewrite app_length. cbn [length].
  rewrite Nat.sub_diag. reflexivity.
Qed.

Lemma new_spec : forall d h lw aw np nb rows x ax n m xrows,
  nth_error h lw = Some aw -> two_axes np nb aw ->
  positions_at h n m x ax ->
  (Z.of_nat nb < 2 ^ 31)%Z ->
  match tomography np nb (chunk np nb (in_precision single d aw)) (positions single d n m ax) CNone with
  | Ok t => exists h' o, new_tomo single d h lw rows x xrows = Ok (h', o) /\ kept h h' /\ object_of d rows h h' o t /\
      match t_xp t with Some y => t_nparts t = Some (length y) | None => True end
  | Fail e => new_tomo single d h lw rows x xrows = Fail e
  end.
Proof.
  intros d h lw aw np nb rows x ax n m xrows A (SH & L) XS N.
  unfold tomography, new_tomo. rewrite A. cbv zeta. rewrite cast_again.
  replace (n_shape (cast_array single d rows aw)) with [np; nb] by (symmetry; exact SH).
  destruct (normalize_profiles (clip_rows (chunk np nb (in_precision single d aw)))) as [wf|e]; cbn [bind]; [|reflexivity].
  set (c := cast_array single d rows aw). set (a1 := NArr [np; nb] rows (Floats d (concat wf))).
  set (a2 := NArr [np; nb] true _).
  rewrite app_length. cbn [length]. replace (length h + 3 - 2)%nat with (S (length h)) by lia.
  assert (K := kept_app h [c; a1; a2]). set (h1 := h ++ [c; a1; a2]) in *.
  set (o := TObj (Datatypes.S (length h)) np nb None None (Datatypes.S (Datatypes.S (length h))) None None).
  set (t := Tomo wf np nb None None None).
  assert (O : object_of d rows h h1 o t).
  { unfold object_of, o, t. cbn [o_nprofs o_nbins o_nparts o_waterfall o_xp t_nprofs t_nbins t_nparts t_waterfall t_xp].
    repeat split; auto. unfold h1. rewrite nth_error_app2 by lia.
    replace (Datatypes.S (length h) - length h)%nat with 1%nat by lia. reflexivity. }
  unfold positions_at in XS. destruct x as [lx|], ax as [ax|]; try contradiction; cbn [positions].
  - destruct XS as [XA XS].
    assert (P := assign_spec d h h1 o t rows lx ax n m O eq_refl
      ltac:(unfold h1; rewrite app_length; lia) N (K _ _ XA) XS xrows).
    destruct (set_xp t _) as [t' [e|]] eqn:E.
    + unfold lift_exn. cbn [snd bind]. exact P.
    + unfold lift_exn. cbn [snd fst bind set_yp]. destruct P as (h' & o' & P1 & P2 & P3 & P4).
      exists h', o'. split; auto. split; [intros q b Q; apply P2, K; exact Q|].
      split; [exact P3|].
      destruct P3 as (_ & _ & _ & _ & _ & P3). unfold put_yp. cbn [t_xp t_nparts].
      unfold set_xp in E. destruct (negb _); [discriminate|]. destruct (_ || _); [discriminate|].
      injection E as <-. cbn. unfold to_int. rewrite map_length. reflexivity.
  - unfold lift_exn. cbn [set_xp snd fst bind set_yp assign_xp].
    do 2 eexists. split; [reflexivity|]. split; [exact K|]. split; [|auto]. exact O.
Qed.

Lemma run_spec : forall sqrt d rows h h1 o t niter verbose cb,
  object_of d rows h h1 o t ->
  match t_xp t with Some y => t_nparts t = Some (length y) | None => True end ->
  (0 <= niter < 2 ^ 31)%Z -> counts [t_nprofs t; t_nbins t] ->
  (forall n, t_nparts t = Some n -> (Z.of_nat n < 2 ^ 31)%Z) ->
  runs_as (works_in d rows) t niter h1 o (run sqrt t niter) (run_tomo single sqrt h1 o niter verbose cb).
Proof.
  intros sqrt d rows h h1 o t niter verbose cb (O1 & O2 & O3 & O4 & O5 & O6) NP NI C CN.
  unfold run, run_tomo, runs_as.
  destruct (t_xp t) as [x|], (o_xp o) as [lx|] eqn:OX; try contradiction; [|reflexivity].
  destruct O6 as (X1 & X2 & X3). rewrite O3, NP, O1, O2.
  assert (C1 := counts_Z (t_nprofs t) _ C ltac:(cbn; auto)). assert (C2 := counts_Z (t_nbins t) _ C ltac:(cbn; auto)).
  assert (C3 : (0 <= Z.of_nat (length x) < 2 ^ 31)%Z) by (specialize (CN _ NP); lia).
  unfold call_reconstruct.
  replace (arguments reconstruct_names reconstruct_defaults _ []) with
    (Some [VArr lx; VArr (o_waterfall o); VInt niter; VInt (Z.of_nat (t_nbins t)); VInt (Z.of_nat (length x));
         VInt (Z.of_nat (t_nprofs t)); VBool verbose; cb]) by reflexivity.
  set (ax := NArr [length x; t_nprofs t] true (Int32 (concat x))) in *.
  set (ap := NArr [t_nprofs t; t_nbins t] rows (Floats d (concat (t_waterfall t)))) in *.
  assert (P : precision_for (works_in d rows) ap ax).
  { unfold precision_for, works_in, ap, ax, floats_of, ints_of. destruct rows, d.
    - right. split; auto. intros [(s & v & E) _]. discriminate.
    - left. eauto 8.
    - right. split; auto. intros [(s & v & E) _]. discriminate.
    - right. split; auto. intros [(s & v & E) _]. discriminate. }
  assert (E := rec_choose single h1 lx (o_waterfall o) ax ap (works_in d rows) niter (Z.of_nat (t_nbins t))
    (Z.of_nat (length x)) (Z.of_nat (t_nprofs t)) verbose cb X3 O5 P NI C2 C3 C1).
  assert (Q : exists v h2 x1 l1, choose single reconstruct_versions h1
      [VArr lx; VArr (o_waterfall o); VInt niter; VInt (Z.of_nat (t_nbins t)); VInt (Z.of_nat (length x));
       VInt (Z.of_nat (t_nprofs t)); VBool verbose; cb] =
      Some (v, h2, [VArr x1; VArr l1; VInt niter; VInt (Z.of_nat (t_nbins t)); VInt (Z.of_nat (length x));
       VInt (Z.of_nat (t_nprofs t)); VBool verbose; cb]) /\
      match v with O => F64 | _ => F32 end = works_in d rows /\
      ints_at h2 x1 = Ok (concat x) /\ floats_at h2 l1 = Ok (concat (t_waterfall t)) /\
      (length h1 <= length h2)%nat /\ kept h1 h2).
  { destruct (works_in d rows) eqn:W; do 4 eexists; (split; [exact E|]); (split; [reflexivity|]).
    - split. { apply ints_at_old. unfold put, loc. cbn [fits ax n_cells n_contig]. unfold ints_at. rewrite X3. auto. }
      split. { rewrite floats_double by (apply put_old; exact O5). reflexivity. }
      split; [eapply Nat.le_trans; apply put_len|]. intros k b Kb. apply put_old, put_old. exact Kb.
    - split. { unfold ints_at. rewrite X3. auto. }
      split. { unfold floats_at. rewrite O5. auto. }
      split; auto. intros k b Kb. exact Kb. }
  destruct Q as (v & h2 & x1 & l1 & Q1 & Q2 & Q3 & Q4 & Q5 & Q6).
  rewrite Q1, Q2. cbv zeta. rewrite Q3. cbn [bind]. rewrite Q4. cbn [bind]. rewrite !Nat2Z.id.
  destruct (reconstruct sqrt _ (concat x) (concat (t_waterfall t)) niter (t_nbins t) (length x) (t_nprofs t))
    as [s|e]; cbn [bind]; [|reflexivity].
  do 7 eexists. split; [reflexivity|]. cbn [o_weight o_diff o_recreated o_waterfall o_xp o_nparts].
  split. { intros k b Kb. apply kept_app, Q6. exact Kb. }
  do 3 (split; [reflexivity|]). split; [reflexivity|].
  do 6 (split; [lia|]).
  split. { rewrite nth_error_app2 by lia. rewrite Nat.sub_diag. reflexivity. }
  split. { rewrite nth_error_app2 by lia. replace (S (length h2) - length h2)%nat with 1%nat by lia. reflexivity. }
  split. { rewrite nth_error_app2 by lia. replace (S (S (length h2)) - length h2)%nat with 2%nat by lia. reflexivity. }
  split; [reflexivity|]. unfold same_input. cbn [o_waterfall o_nprofs o_nbins o_xp o_nparts]. repeat split; congruence.
Qed.

Lemma object_moves : forall d rows h h1 h2 o o2 t, object_of d rows h h1 o t -> kept h1 h2 -> same_input o o2 ->
  object_of d rows h h2 o2 t.
Proof.
  intros d rows h h1 h2 o o2 t (O1 & O2 & O3 & O4 & O5 & O6) K (I1 & I2 & I3 & I4 & I5).
  unfold object_of. rewrite I1, I2, I3, I4, I5. repeat (split; auto).
  destruct (t_xp t), (o_xp o); auto. destruct O6 as (X1 & X2 & X3). auto.
Qed.

Lemma object_runs : forall sqrt d h lw aw np nb rows x ax n m xrows t h1 h2 o o2 niter verbose callback,
  nth_error h lw = Some aw -> two_axes np nb aw -> positions_at h n m x ax -> counts [np; nb; n] ->
  (0 <= niter < 2 ^ 31)%Z ->
  tomography np nb (chunk np nb (in_precision single d aw)) (positions single d n m ax) CNone = Ok t ->
  new_tomo single d h lw rows x xrows = Ok (h1, o) -> kept h1 h2 -> same_input o o2 ->
  runs_as (works_in d rows) t niter h2 o2 (run sqrt t niter) (run_tomo single sqrt h2 o2 niter verbose callback).
Proof.
  intros sqrt d h lw aw np nb rows x ax n m xrows t h1 h2 o o2 niter verbose callback A B C D NI T N K I.
  assert (D1 := counts_Z np _ D ltac:(cbn; auto)). assert (D2 := counts_Z nb _ D ltac:(cbn; auto)).
  assert (D3 := counts_Z n _ D ltac:(cbn; auto)).
  assert (P := new_spec d h lw aw np nb rows x ax n m xrows A B C (proj2 D2)).
  rewrite T in P. destruct P as (h' & o' & P1 & P2 & P3 & P4). rewrite N in P1. injection P1 as <- <-.
  assert (Q : t_nprofs t = np /\ t_nbins t = nb /\ forall k, t_nparts t = Some k -> k = n).
  { unfold tomography in T. destruct (normalize_profiles _); [|discriminate]. cbn [bind] in T.
    destruct ax as [a0|]; cbn [positions] in T.
    - unfold set_xp in T. destruct (negb _); [discriminate|]. destruct (_ || _); [discriminate|].
      cbn in T. injection T as <-. cbn. split; auto. split; auto. intros k E. injection E as <-. apply chunk_length.
    - cbn in T. injection T as <-. cbn. split; auto. split; auto. discriminate. }
  destruct Q as (Q1 & Q2 & Q3).
  eapply run_spec; eauto.
  - eapply object_moves; eauto.
  - rewrite Q1, Q2. repeat constructor; lia.
  - intros k E. rewrite (Q3 k E). lia.
Qed.
End Facts.
