(** Property lemmas on 32-bit integers (C89-C91). *)
(*HEAD*)
From Coq Require Import List ZArith QArith Qcanon Bool Lia.
From Verif Require Import Base.Res Base.QcLib Model.MRecon Model.MTrack Model.MImage Model.MInt Spec.TomoSpec Spec.IntSpec.
Import ListNotations.
Local Open Scope Z_scope.
(*DAEH*)
From Verif Require Import Base.ResLemmas Base.QcLemmas Base.Loops Proof.PTomo Proof.PHybrid Proof.PTrack Proof.PInt Proof.PInt2.

Lemma int32_iff z : int32 z <-> -2147483648 <= z <= 2147483647.
Proof. unfold int32. change (2 ^ 31) with 2147483648. lia. Qed.
Lemma in_int_dec z : (in_int z = true /\ int32 z) \/ (in_int z = false /\ ~ int32 z).
Proof.
  rewrite int32_iff. destruct (Z_le_dec (-2147483648) z), (Z_le_dec z 2147483647).
  - left. rewrite in_int_true by lia. lia.
  - right. rewrite in_int_false by lia. lia.
  - right. rewrite in_int_false by lia. lia.
  - right. rewrite in_int_false by lia. lia.
Qed.

(** C89.  If the arguments and the numbers of array elements fit into an int,
    the reconstruction with C++ ints is the reconstruction with integers of
    the other theorems. *)
Lemma C89_same_lem : forall sqrt t xp niter, reachable t -> t_xp t = Some xp ->
  arguments_fit (length xp) (t_nprofs t) (t_nbins t) niter -> arrays_fit (length xp) (t_nprofs t) (t_nbins t) niter ->
  run_int sqrt t niter = run sqrt t niter.
Proof.
  intros sqrt t xp niter R X (A1 & A2 & A3 & A4) (B1 & B2 & B3). rewrite int32_iff in *.
  apply reachable_valid in R. pose proof (v_xp _ R) as V. rewrite X in V. destruct V as [_ V].
  unfold run_int, run. rewrite X. rewrite reconstruct_same; auto; try lia.
  apply Forall_concat. exact V.
Qed.

(** C89.  Arguments that do not fit are refused. *)
Lemma C89_refused_lem : forall sqrt t xp niter, reachable t -> t_xp t = Some xp ->
  ~ arguments_fit (length xp) (t_nprofs t) (t_nbins t) niter -> run_int sqrt t niter = Fail (Raised TypeError).
Proof.
  intros sqrt t xp niter R X A. unfold run_int. rewrite X. unfold wrapper_reconstruct_int, int_arg.
  destruct (in_int_dec niter) as [[-> H1]|[-> H1]]; cbn [bind]; [|reflexivity].
  destruct (in_int_dec (Z.of_nat (t_nbins t))) as [[-> H2]|[-> H2]]; cbn [bind]; [|reflexivity].
  destruct (in_int_dec (Z.of_nat (length xp))) as [[-> H3]|[-> H3]]; cbn [bind]; [|reflexivity].
  destruct (in_int_dec (Z.of_nat (t_nprofs t))) as [[-> H4]|[-> H4]]; cbn [bind]; [|reflexivity].
  destruct A. exact (conj H1 (conj H2 (conj H3 H4))).
Qed.

Lemma overflow_arrays sqrt xp prof niter nbins npart nprof : arguments_fit npart nprof nbins niter -> ~ arrays_fit npart nprof nbins niter ->
  wrapper_reconstruct_int sqrt xp prof niter nbins npart nprof = Fail IntOverflow.
Proof.
  intros (A1 & A2 & A3 & A4) B. unfold wrapper_reconstruct_int, int_arg. rewrite int32_iff in *. rewrite !in_int_true by lia. cbn [bind].
  unfold iadd, imul, c_int. destruct (in_int_dec (niter + 1)) as [[-> H1]|[-> H1]]; cbn [bind]; [|reflexivity].
  destruct (in_int_dec (Z.of_nat nprof * Z.of_nat nbins)) as [[E2 H2]|[E2 H2]]; rewrite E2; cbn [bind]; [|reflexivity].
  unfold reconstruct_int, imul, c_int. rewrite E2. cbn [bind].
  destruct (in_int_dec (Z.of_nat npart * Z.of_nat nprof)) as [[E3 H3]|[E3 H3]]; rewrite E3; cbn [bind]; [|reflexivity].
  destruct B. exact (conj H1 (conj H2 H3)).
Qed.

(** C89.  If the arguments fit but a number of array elements does not, the
    reconstruction is undefined behaviour, whatever the data. *)
Lemma C89_overflow_lem : forall sqrt t xp niter, reachable t -> t_xp t = Some xp ->
  arguments_fit (length xp) (t_nprofs t) (t_nbins t) niter -> ~ arrays_fit (length xp) (t_nprofs t) (t_nbins t) niter ->
  overflows (run_int sqrt t niter).
Proof. intros. unfold overflows, run_int. rewrite H0. rewrite overflow_arrays by auto. reflexivity. Qed.

Lemma map_repeat A B (f : A -> B) x n : map f (repeat x n) = repeat (f x) n.
Proof. induction n; simpl; auto. rewrite IHn. auto. Qed.
Lemma existsb_repeat A (f : A -> bool) x n : f x = false -> existsb f (repeat x n) = false.
Proof. intros. induction n; simpl; auto. rewrite H, IHn. auto. Qed.
Lemma qsum_repeat x n : qsum (repeat x n) = (qn n * x)%Qc.
Proof. induction n; simpl repeat; [rewrite qn_0; cbn [qsum]; ring|]. cbn [qsum]. rewrite IHn, qn_S. ring. Qed.
Lemma mapM_ok A B (f : A -> res B) (g : A -> B) l : (forall x, In x l -> f x = Ok (g x)) -> mapM f l = Ok (map g l).
Proof.
  unfold mapM. induction l; intros H; simpl; auto. rewrite H by (left; auto). cbn [bind]. rewrite IHl by (intros; apply H; right; auto). reflexivity.
Qed.
Lemma example_exists npart nprof nbins : (0 < nprof)%nat -> (0 < nbins)%nat -> exists t xp, reachable t /\ t_xp t = Some xp /\
  length xp = npart /\ t_nprofs t = nprof /\ t_nbins t = nbins.
Proof.
  intros Hp Hb. set (wf := repeat (repeat 1%Qc nbins) nprof). set (x := CArr2 nprof (repeat (repeat 0%Qc nprof) npart)).
  assert (Q : forall n, (0 < n)%nat -> (qn n <> 0)%Qc).
  { intros n Hn E. apply (proj1 (qn_inj n 0)) in E. lia. }
  assert (E : exists wf', normalize_profiles (clip_rows wf) = Ok wf').
  { replace (clip_rows wf) with wf.
    2:{ unfold clip_rows, wf. rewrite map_repeat. f_equal. rewrite map_repeat. f_equal. }
    unfold normalize_profiles. assert (G : existsb (existsb (fun x => negb (qeqb x 0))) wf = true).
    { unfold wf. destruct nprof as [|n]; [lia|]. destruct nbins as [|k]; [lia|]. reflexivity. }
    rewrite G. cbn [negb]. eexists. apply (mapM_ok _ _ _ (fun row => map (fun x => (x / qsum row)%Qc) row)).
    intros row Hr. apply repeat_spec in Hr. subst row. apply mapM_ok. intros y Hy. unfold qdiv.
    rewrite qsum_repeat. destruct (qeqb_spec (qn nbins * 1)%Qc 0%Qc) as [Z|Z]; [|reflexivity].
    exfalso. apply (Q nbins Hb). rewrite <- Z. ring. }
  destruct E as [wf' E].
  assert (X : forall t, t_nprofs t = nprof -> t_nbins t = nbins -> exists t', set_xp t x = (t', None) /\ t_nprofs t' = nprof /\ t_nbins t' = nbins /\ t_xp t' = Some (to_int (repeat (repeat 0%Qc nprof) npart))).
  { intros t T1 T2. unfold set_xp, x. rewrite T1, T2, Nat.eqb_refl. cbn [negb].
    replace (existsb (existsb (fun x => qltb x 0)) (repeat (repeat 0%Qc nprof) npart)) with false.
    2:{ symmetry. apply existsb_repeat. apply existsb_repeat. reflexivity. }
    replace (existsb (existsb (fun x => qleb (qn nbins) x)) (repeat (repeat 0%Qc nprof) npart)) with false.
    2:{ symmetry. apply existsb_repeat. apply existsb_repeat. destruct (qleb_spec (qn nbins) 0%Qc) as [L|L]; auto. change 0%Qc with (qn 0) in L. apply (proj1 (qn_le _ _)) in L. lia. }
    cbn [orb]. eexists. split; [reflexivity|]. simpl. auto. }
  destruct (X (Tomo wf' nprof nbins None None None) eq_refl eq_refl) as (t' & S1 & S2 & S3 & S4).
  set (t2 := put_yp t' None). exists t2, (to_int (repeat (repeat 0%Qc nprof) npart)).
  split; [|split; [exact S4|split; [unfold to_int; rewrite map_length, repeat_length; auto|split; [exact S2|exact S3]]]].
  exists nprof, nbins, wf, x, CNone, t2, []. split; [|split; [|split; [exact I|split; [constructor|split; [|reflexivity]]]]].
  - split; [apply repeat_length|]. apply Forall_forall. intros r Hr. apply repeat_spec in Hr. subst. apply repeat_length.
  - apply Forall_forall. intros r Hr. apply repeat_spec in Hr. subst. apply repeat_length.
  - unfold tomography. rewrite E. cbn [bind]. rewrite S1. reflexivity.
Qed.

(** C89.  Objects of all sizes exist. *)
Lemma C89_objects_lem : forall npart nprof nbins, (0 < nprof)%nat -> (0 < nbins)%nat -> exists t xp, reachable t /\ t_xp t = Some xp /\
  length xp = npart /\ t_nprofs t = nprof /\ t_nbins t = nbins.
Proof. exact example_exists. Qed.

(** C89.  So the claim for all inputs is refuted: such objects exist for all
    sizes, e.g. for 2^24 particles and 2^7 profiles. *)
Lemma C89_refuted_lem : forall sqrt npart nprof nbins niter, (0 < nprof)%nat -> (0 < nbins)%nat ->
  arguments_fit npart nprof nbins niter -> ~ arrays_fit npart nprof nbins niter ->
  exists t xp, reachable t /\ t_xp t = Some xp /\ length xp = npart /\ t_nprofs t = nprof /\ t_nbins t = nbins /\ overflows (run_int sqrt t niter).
Proof.
  intros. destruct (example_exists npart nprof nbins H H0) as (t & xp & R & X & L & P & B). exists t, xp.
  repeat (split; auto). apply C89_overflow_lem with xp; subst; auto.
Qed.
(*EX*)
Example C89_sizes : arguments_fit (Z.to_nat (2 ^ 24)) (Z.to_nat (2 ^ 7)) 200 20 /\ ~ arrays_fit (Z.to_nat (2 ^ 24)) (Z.to_nat (2 ^ 7)) 200 20 /\
  arguments_fit (Z.to_nat (2 ^ 20)) (Z.to_nat (2 ^ 7)) 200 20 /\ arrays_fit (Z.to_nat (2 ^ 20)) (Z.to_nat (2 ^ 7)) 200 20.
Proof.
  unfold arguments_fit, arrays_fit, int32. rewrite !Z2Nat.id by (apply Z.pow_nonneg; discriminate).
  change (2 ^ 24)%Z with 16777216%Z. change (2 ^ 20)%Z with 1048576%Z. change (2 ^ 7)%Z with 128%Z. change (2 ^ 31)%Z with 2147483648%Z. lia.
Qed.
(*XE*)

(** C90.  The tracking with C++ ints is the tracking with integers as long as
    the number of turns with one more profile and the number of stored
    coordinates before the last profile fit into an int. *)
Lemma C90_same_lem : forall T (add sub mul : T -> T -> T) sin zero m nprofiles dturns recprof deltaturn ph de ftn,
  int32 (dturns * Z.of_nat nprofiles) -> int32 (Z.of_nat (length ph)) -> int32 (Z.of_nat nprofiles) ->
  int32 ((Z.of_nat nprofiles - 1) * Z.of_nat (length ph)) ->
  track_int add sub mul sin zero m nprofiles dturns recprof deltaturn ph de ftn =
  track add sub mul sin zero m nprofiles dturns recprof deltaturn ph de ftn.
Proof.
  intros T add sub mul sin zero m nprofiles dturns recprof deltaturn ph de ftn H1 H2 H3 H4. rewrite int32_iff in *.
  unfold track_int, track. destruct (track_checks (Z.of_nat nprofiles) dturns recprof deltaturn) as [p|] eqn:C; [|reflexivity]. cbn [bind]. cbv zeta.
  assert (P : 0 <= p < Z.of_nat nprofiles /\ Z.abs deltaturn < dturns /\ 0 <= dturns * p + deltaturn < dturns * (Z.of_nat nprofiles - 1)).
  { unfold track_checks in C. apply bind_ok in C. destruct C as [q [A C]].
    destruct (Z.ltb_spec (Z.abs deltaturn) dturns); [cbn [negb] in C|discriminate].
    destruct (Z.ltb_spec (dturns * q + deltaturn) (dturns * (Z.of_nat nprofiles - 1))); [cbn [negb] in C|discriminate].
    destruct (Z.leb_spec 0 (dturns * q + deltaturn)); [cbn [negb] in C|discriminate]. inversion C; subst q.
    assert (0 <= p < Z.of_nat nprofiles); [|lia]. unfold assert_index_ok in A.
    destruct (Z.ltb_spec recprof 0); cbn [negb] in A.
    - destruct (Z.ltb_spec (Z.of_nat nprofiles + recprof) 0); [discriminate|]. inversion A; lia.
    - destruct (Z.leb_spec (Z.of_nat nprofiles) recprof); [discriminate|]. inversion A; lia. }
  destruct P as (P1 & P2 & P3). assert (dturns <= dturns * Z.of_nat nprofiles) by nia. assert (p * dturns <= dturns * (Z.of_nat nprofiles - 1)) by nia.
  unfold wrapper_kick_and_drift_int, int_arg. rewrite !in_int_true by nia. cbn [bind]. rewrite repeat_length, narrow_id by lia.
  rewrite row_pointers_ok by lia. cbn [bind]. rewrite Nat2Z.id, firstn_all2 by (rewrite repeat_length; lia).
  apply kick_and_drift_same; try lia.
Qed.

(** C90.  More turns or more particles than an int counts are refused with a
    TypeError, for every distribution and every machine. *)
Lemma C90_refused_lem : forall T (add sub mul : T -> T -> T) sin zero m nprofiles dturns p ph de ftn,
  0 < dturns -> (p + 1 < nprofiles)%nat ->
  ~ (int32 (dturns * (Z.of_nat nprofiles - 1)) /\ int32 (Z.of_nat (length ph))) ->
  track_int add sub mul sin zero m nprofiles dturns (Z.of_nat p) 0 ph de ftn = Fail (Raised TypeError).
Proof.
  intros T add sub mul sin zero m nprofiles dturns p ph de ftn Hd Hp H4. rewrite !int32_iff in *.
  unfold track_int. assert (C : track_checks (Z.of_nat nprofiles) dturns (Z.of_nat p) 0 = Ok (Z.of_nat p)).
  { unfold track_checks, assert_index_ok. destruct (Z.ltb_spec (Z.of_nat p) 0); [lia|]. destruct (Z.leb_spec (Z.of_nat nprofiles) (Z.of_nat p)); [lia|]. cbn [bind].
    destruct (Z.ltb_spec (Z.abs 0) dturns); [|simpl in *; lia]. cbn [negb].
    destruct (Z.ltb_spec (dturns * Z.of_nat p + 0) (dturns * (Z.of_nat nprofiles - 1))); [|nia]. cbn [negb].
    destruct (Z.leb_spec 0 (dturns * Z.of_nat p + 0)); [reflexivity|nia]. }
  rewrite C. cbn [bind]. cbv zeta. unfold wrapper_kick_and_drift_int, int_arg.
  destruct (in_int dturns); [cbn [bind]|reflexivity]. destruct (in_int (Z.of_nat p)); [cbn [bind]|reflexivity].
  destruct (in_int 0); [cbn [bind]|reflexivity].
  destruct (in_int (dturns * (Z.of_nat nprofiles - 1))) eqn:A; [cbn [bind]|reflexivity].
  destruct (in_int (Z.of_nat (length ph))) eqn:B; [cbn [bind]|reflexivity].
  exfalso. apply H4. unfold in_int, int_min, int_max in A, B. lia.
Qed.

(** C90.  With too many particles for the number of profiles it is undefined
    behaviour, for every distribution and every machine: the claim for all
    inputs is refuted. *)
Lemma C90_refuted_lem : forall T (add sub mul : T -> T -> T) sin zero m nprofiles dturns p ph de ftn,
  int32 (dturns * Z.of_nat nprofiles) -> int32 (Z.of_nat (length ph)) -> int32 (Z.of_nat nprofiles) -> 0 < dturns ->
  (p + 1 < nprofiles)%nat -> ~ int32 ((Z.of_nat nprofiles - 1) * Z.of_nat (length ph)) ->
  overflows (track_int add sub mul sin zero m nprofiles dturns (Z.of_nat p) 0 ph de ftn).
Proof.
  intros T add sub mul sin zero m nprofiles dturns p ph de ftn H1 H2 H3 Hd Hp H4. rewrite int32_iff in *. unfold overflows.
  unfold track_int. assert (C : track_checks (Z.of_nat nprofiles) dturns (Z.of_nat p) 0 = Ok (Z.of_nat p)).
  { unfold track_checks, assert_index_ok. destruct (Z.ltb_spec (Z.of_nat p) 0); [lia|]. destruct (Z.leb_spec (Z.of_nat nprofiles) (Z.of_nat p)); [lia|]. cbn [bind].
    destruct (Z.ltb_spec (Z.abs 0) dturns); [|simpl in *; lia]. cbn [negb].
    destruct (Z.ltb_spec (dturns * Z.of_nat p + 0) (dturns * (Z.of_nat nprofiles - 1))); [|nia]. cbn [negb].
    destruct (Z.leb_spec 0 (dturns * Z.of_nat p + 0)); [reflexivity|nia]. }
  rewrite C. cbn [bind]. cbv zeta. assert (dturns <= dturns * Z.of_nat nprofiles) by nia. unfold wrapper_kick_and_drift_int, int_arg. rewrite !in_int_true by nia. cbn [bind]. rewrite repeat_length, narrow_id by lia.
  rewrite row_pointers_out by nia. reflexivity.
Qed.
(*EX*)
(** 2^24 particles, 1000 turns: 100 profiles fit, 200 do not. *)
Example C90_sizes : let n := Z.to_nat (2 ^ 24) in
  (int32 (10 * Z.of_nat 100) /\ int32 (Z.of_nat n) /\ int32 (Z.of_nat 100) /\ int32 ((Z.of_nat 100 - 1) * Z.of_nat n)) /\
  (int32 (10 * Z.of_nat 200) /\ int32 (Z.of_nat n) /\ int32 (Z.of_nat 200) /\ (3 + 1 < 200)%nat /\ ~ int32 ((Z.of_nat 200 - 1) * Z.of_nat n)).
Proof.
  cbv zeta. unfold int32. rewrite !Z2Nat.id by (apply Z.pow_nonneg; discriminate).
  change (2 ^ 24)%Z with 16777216%Z. change (2 ^ 31)%Z with 2147483648%Z. lia.
Qed.
(** A million turns between 3000 profiles are refused. *)
Example C90_turns : (2 + 1 < 3000)%nat /\ ~ (int32 (1000000 * (Z.of_nat 3000 - 1)) /\ int32 (Z.of_nat 5)).
Proof. unfold int32. change (2 ^ 31)%Z with 2147483648%Z. lia. Qed.
(*XE*)

(** C91.  For coordinates inside the image, the image computed with C++ ints is
    the one of the other theorems if the numbers of pixels and particles fit
    into an int. *)
Lemma C91_same_lem : forall xp yp weight nbins, inside nbins xp -> inside nbins yp ->
  int32 (Z.of_nat nbins * Z.of_nat nbins) -> int32 (Z.of_nat (length xp)) ->
  wrapper_make_phase_space_int xp yp weight nbins = wrapper_make_phase_space xp yp weight nbins.
Proof. intros xp yp weight nbins Hx Hy H1 H2. rewrite int32_iff in *. apply image_same; auto; lia. Qed.

(** C91.  An image with more pixels than an int counts, i.e. with 46341 bins or
    more, is undefined behaviour. *)
Lemma C91_refuted_lem : forall xp yp weight nbins, int32 (Z.of_nat nbins) ->
  46341 <= Z.of_nat nbins -> overflows (wrapper_make_phase_space_int xp yp weight nbins).
Proof.
  intros xp yp weight nbins H1 H2. rewrite int32_iff in *. unfold overflows, wrapper_make_phase_space_int, int_arg. rewrite in_int_true by lia. cbn [bind].
  unfold make_phase_space_int, imul. rewrite c_int_out by nia. reflexivity.
Qed.

(** C91.  A first particle far to the right is not reported: its index
    overflows, where integers would give the exception of C34. *)
Lemma C91_far_refuted_lem : forall x y xp yp weight nbins, int32 (Z.of_nat nbins * Z.of_nat nbins) -> int32 (Z.of_nat (length (x :: xp))) ->
  int32 x -> int32 y -> 0 <= y -> 2 ^ 31 <= x * Z.of_nat nbins ->
  overflows (wrapper_make_phase_space_int (x :: xp) (y :: yp) weight nbins) /\
  wrapper_make_phase_space (x :: xp) (y :: yp) weight nbins = Fail (Raised OutOfRange).
Proof.
  intros x y xp yp weight nbins H1 H2 Hx Hy Hy0 H. change (2 ^ 31) with 2147483648 in H. rewrite int32_iff in *. split.
  - unfold overflows, wrapper_make_phase_space_int, int_arg. rewrite in_int_true by nia. cbn [bind]. rewrite narrow_id by lia.
    unfold make_phase_space_int, imul. rewrite !c_int_ok by lia. cbn [bind]. rewrite Nat2Z.id.
    change (length (x :: xp)) with (S (length xp)). cbn [for_]. change (get (y :: yp) (Z.of_nat 0)) with (Ok y). change (get (x :: xp) (Z.of_nat 0)) with (Ok x). cbn [bind].
    rewrite c_int_out by lia. reflexivity.
  - unfold wrapper_make_phase_space, make_phase_space. change (length (x :: xp)) with (S (length xp)). cbn [for_].
    change (get (y :: yp) (Z.of_nat 0)) with (Ok y). change (get (x :: xp) (Z.of_nat 0)) with (Ok x). cbn [bind]. cbv zeta.
    destruct (Z.leb_spec (Z.of_nat (nbins * nbins)) (y + x * Z.of_nat nbins)); [reflexivity|lia].
Qed.

(** C91.  A multiple of 2^32 particles gives a blank image: their number becomes
    the int 0. *)
Lemma C91_many_refuted_lem : forall xp yp weight nbins k, int32 (Z.of_nat nbins) -> int32 (Z.of_nat nbins * Z.of_nat nbins) ->
  Z.of_nat (length xp) = k * 2 ^ 32 ->
  wrapper_make_phase_space_int xp yp weight nbins = Ok (repeat (repeat 0%Qc nbins) nbins).
Proof.
  intros xp yp weight nbins k H0 H1 H. rewrite int32_iff in *. unfold wrapper_make_phase_space_int, int_arg. rewrite in_int_true by lia. cbn [bind].
  assert (N : narrow (Z.of_nat (length xp)) = 0).
  { unfold narrow. rewrite H. change (2 ^ 32) with 4294967296. rewrite Z.add_comm, Z.mod_add by lia. reflexivity. }
  rewrite N. unfold make_phase_space_int, imul. rewrite !c_int_ok by lia. cbn [bind]. simpl (Z.to_nat 0). cbn [for_ bind].
  f_equal. rewrite <- Nat2Z.inj_mul, Nat2Z.id. rewrite !repeat_tab.
  change (tab (nbins * nbins) (fun _ => 0%Qc)) with (tab (nbins * nbins) (fl nbins (fun _ _ => 0%Qc))). rewrite chunk_tab. reflexivity.
Qed.
(*EX*)
Example C91_nonvacuous : inside 3 [0; 2; 1]%Z /\ inside 3 [1; 1; 0]%Z /\ int32 (Z.of_nat 3 * Z.of_nat 3) /\
  int32 1500000000 /\ (2 ^ 31 <= 1500000000 * Z.of_nat 3)%Z /\
  wrapper_make_phase_space_int [0; 2; 1]%Z [1; 1; 0]%Z [1; Q2Qc 2; 1]%Qc 3 = Ok [[0; 1; 0]; [1; 0; 0]; [0; Q2Qc 2; 0]]%Qc.
Proof.
  split; [repeat constructor; discriminate|]. split; [repeat constructor; discriminate|]. split; [split; [discriminate|reflexivity]|].
  split; [split; [discriminate|reflexivity]|]. split; [discriminate|]. vm_compute. reflexivity.
Qed.
(*XE*)
