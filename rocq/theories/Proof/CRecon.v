(** Property lemmas on the reconstruction (C18-C32). *)
(*HEAD*)
From Coq Require Import List ZArith QArith Qcanon Bool Lia.
From Verif Require Import Base.Res Base.QcLib Model.MRecon Spec.ReconSpec Spec.TomoSpec.
Import ListNotations.
Local Open Scope Qc_scope.
(*DAEH*)
From Coq Require Import Arith.
From Verif Require Import Base.ResLemmas Base.QcLemmas Base.Loops Proof.PRecon Proof.PRecon2 Proof.PRecon3
  Proof.PHybrid Proof.PTomo.

(*EX*)
(** Example: two profiles of two bins, two particles; the second particle
    leaves the measured region at the second profile. *)
Definition ex_wf : list (list Qc) := [[qz 2; 0]; [qz 3; qz (-1)]].
Definition ex_x : coords := CArr2 2 [[0; 0]; [0; 1]].
Definition ex_t : tomo :=
  match tomography 2 2 ex_wf ex_x CNone with Ok t => t | Fail _ => Tomo [] 0 0 None None None end.
Definition ex_sqrt (x : Qc) : Qc := x.

Example ex_t_built : tomography 2 2 ex_wf ex_x CNone = Ok ex_t.
Proof.
  unfold ex_t. destruct (tomography 2 2 ex_wf ex_x CNone) eqn:E; [reflexivity|].
  vm_compute in E. discriminate.
Qed.
Example ex_t_reachable : reachable ex_t.
Proof.
  exists 2%nat, 2%nat, ex_wf, ex_x, CNone, ex_t, []. repeat split; try exact ex_t_built; repeat constructor.
Qed.
Example ex_t_coords : t_xp ex_t = Some [[0; 0]; [0; 1]]%Z.
Proof. vm_compute. reflexivity. Qed.
(** Numbers in a readable form. *)
Definition show (r : res (list Qc * list Qc * list (list Qc) * list (Z * Z))) :=
  match r with
  | Ok (w, d, r, c) => Some (map this w, map this d, map (map this) r, c)
  | Fail _ => None
  end.
Definition showh (r : res (list Qc * list Qc * list (list Qc))) :=
  match r with
  | Ok (w, d, r) => Some (map this w, map this d, map (map this) r)
  | Fail _ => None
  end.
Example ex_run : show (run ex_sqrt ex_t 2) =
  Some ([3; 0], [1 # 18; 1 # 72; 1 # 1152], [[1; 0]; [23 # 24; 1 # 24]],
        [(1, 2); (2, 2); (2, 2)]%Z)%Q.
Proof. vm_compute. reflexivity. Qed.
(*XE*)

(** C18.  Every object a program can hold has a waterfall whose rows have no
    negative value and sum to one.  (Objects with not-a-number values, see the
    refutation below, are not represented.) *)
Lemma C18_rows_normalised_partial_lem : forall t, reachable t ->
  rectangular (t_nprofs t) (t_nbins t) (t_waterfall t) /\ good_rows (t_waterfall t).
Proof. intros t H. apply reachable_valid in H. destruct H. auto. Qed.

Lemma clip_row_sum : forall row, (0 < qsum (map (fun x => if qltb x 0 then 0 else x) row) <-> Exists (fun x => 0 < x) row)
  /\ (qsum (map (fun x => if qltb x 0 then 0 else x) row) = 0 <-> Forall (fun x => x <= 0) row).
Proof.
  induction row as [|x row [IH1 IH2]]; simpl.
  - split; split; intros H; auto; solve [inversion H | exfalso; exact (Qclt_not_eq _ _ H eq_refl)].
  - assert (N : 0 <= qsum (map (fun x => if qltb x 0 then 0 else x) row)).
    { apply qsum_nonneg. intros y Hy. apply in_map_iff in Hy. destruct Hy as [z [<- _]]. apply (pos_nonneg z). }
    set (s := qsum _) in *. destruct (qltb_spec x 0) as [L|L]; split; split; intros H.
    + apply Exists_cons_tl, IH1. qclra.
    + inversion H; subst; [exfalso; qclra|]. apply IH1 in H1. qclra.
    + constructor; [qclra|]. apply IH2. qclra.
    + inversion H; subst. apply IH2 in H3. qclra.
    + destruct (qltb_spec 0 x); [apply Exists_cons_hd; auto|]. apply Exists_cons_tl, IH1. qclra.
    + inversion H; subst; [qclra|]. apply IH1 in H1. qclra.
    + constructor; [qclra|]. apply IH2. qclra.
    + inversion H; subst. apply IH2 in H3. qclra.
Qed.

Lemma any_nonzero : forall wf, existsb (existsb (fun x => negb (qeqb x 0))) (clip_rows wf) = true <->
  Exists (Exists (fun x => 0 < x)) wf.
Proof.
  intros. unfold clip_rows. rewrite existsb_exists, Exists_exists. split.
  - intros [r [Hr E]]. apply in_map_iff in Hr. destruct Hr as [r0 [<- Hr0]]. exists r0. split; auto.
    apply existsb_exists in E. destruct E as [x [Hx E]]. apply in_map_iff in Hx. destruct Hx as [x0 [<- Hx0]].
    apply Exists_exists. exists x0. split; auto. destruct (qltb_spec x0 0); [discriminate|].
    destruct (qeqb_spec x0 0); [discriminate|]. destruct (qltb_spec 0 x0); auto. exfalso. apply H0. apply Qcle_antisym'; auto.
  - intros [r [Hr E]]. exists (map (fun x => if qltb x 0 then 0 else x) r). split.
    + apply (in_map (map (fun x => if qltb x 0 then 0 else x))). auto.
    + apply Exists_exists in E. destruct E as [x [Hx E]]. apply existsb_exists. exists x. split.
      * apply in_map_iff. exists x. split; auto. destruct (qltb_spec x 0); auto. exfalso; qclra.
      * destruct (qeqb_spec x 0); auto. subst. exfalso. exact (Qclt_not_eq _ _ E eq_refl).
Qed.

Lemma normalize_clip_ok : forall wf, Exists (Exists (fun x => 0 < x)) wf ->
  (Forall (fun r => Exists (fun x => 0 < x) r \/ r = []) wf <->
   exists wf', normalize_profiles (clip_rows wf) = Ok wf').
Proof.
  intros wf H. apply any_nonzero in H. unfold normalize_profiles. rewrite H. simpl. clear H.
  split.
  - intros F. exists (map (fun r => map (fun x => x / qsum r) r) (clip_rows wf)). apply mapM_ok_map. intros r Hr.
    unfold clip_rows in Hr. apply in_map_iff in Hr. destruct Hr as [r0 [<- Hr0]].
    rewrite Forall_forall in F. destruct (F _ Hr0) as [P| ->]; [|reflexivity].
    apply clip_row_sum in P. apply mapM_ok_map. intros. apply qdiv_ok. apply Qclt_ne. auto.
  - intros [wf' E]. apply mapM_Forall2 in E. apply Forall_forall. intros r Hr.
    assert (Hr' : In (map (fun x => if qltb x 0 then 0 else x) r) (clip_rows wf)).
    { apply (in_map (map (fun x => if qltb x 0 then 0 else x))). auto. }
    assert (exists r', mapM (fun x => qdiv x (qsum (map (fun x => if qltb x 0 then 0 else x) r)))
              (map (fun x => if qltb x 0 then 0 else x) r) = Ok r') as [r' Er].
    { clear Hr. induction E; [contradiction|]. destruct Hr' as [<-|Hr']; eauto. }
    apply normalize_row in Er.
    + destruct Er as [_ [_ [Hs _]]]. destruct r; [auto|]. left. apply clip_row_sum. apply Hs. discriminate.
    + assert (C := clip_rows_nonneg wf). rewrite Forall_forall in C. auto.
Qed.

(** C18.  When the constructor succeeds or raises, for a waterfall of at least
    one bin: it raises iff no value at all is positive, and yields an object
    iff every profile has a positive value. *)
Lemma C18_constructor_outcome_partial_lem : forall nprofs nbins wf, rectangular nprofs nbins wf -> (0 < nbins)%nat -> (0 < nprofs)%nat ->
  (tomography nprofs nbins wf CNone CNone = Fail (Raised WaterfallReducedToZero) <->
     Forall (Forall (fun x => x <= 0)) wf) /\
  ((exists t, tomography nprofs nbins wf CNone CNone = Ok t) <-> Forall (Exists (fun x => 0 < x)) wf).
Proof.
  intros nprofs nbins wf [L R] Hb Hp.
  assert (D : Forall (Forall (fun x => x <= 0)) wf <-> ~ Exists (Exists (fun x => 0 < x)) wf).
  { rewrite <- Forall_Exists_neg. split; intros F; eapply Forall_impl; try exact F; intros r Hr; simpl in *.
    - rewrite <- Forall_Exists_neg. eapply Forall_impl; [|exact Hr]. simpl. intros a Ha Hn. exfalso. qclra.
    - rewrite <- Forall_Exists_neg in Hr. eapply Forall_impl; [|exact Hr]. simpl. intros a Ha.
      destruct (qltb_spec 0 a); auto. contradiction. }
  assert (NN : forall r, In r wf -> r <> []).
  { intros r Hr ->. rewrite Forall_forall in R. specialize (R _ Hr). simpl in R. lia. }
  unfold tomography. destruct (existsb (existsb (fun x => negb (qeqb x 0))) (clip_rows wf)) eqn:E.
  - assert (E' := proj1 (any_nonzero wf) E). assert (NC := normalize_clip_ok wf E').
    assert (NR : forall e, normalize_profiles (clip_rows wf) <> Fail (Raised e)).
    { unfold normalize_profiles. rewrite E. simpl. intros e.
      assert (M : forall A B (f : A -> res B) l e, mapM f l = Fail (Raised e) -> exists a, In a l /\ f a = Fail (Raised e)).
      { clear. intros A B f l e. unfold mapM. induction l; simpl; intros; [discriminate|].
        destruct (f a) eqn:F; simpl in H.
        - destruct (sequence (map f l)) eqn:G; simpl in H; [discriminate|]. inversion H; subst.
          destruct (IHl eq_refl) as [x [X1 X2]]. exists x. auto.
        - inversion H; subst. exists a. auto. }
      intros H. apply M in H. destruct H as [r [_ H]]. apply M in H. destruct H as [x [_ H]].
      unfold qdiv in H. destruct (qeqb _ 0); discriminate. }
    split; split.
    + intros H. exfalso. destruct (normalize_profiles (clip_rows wf)) as [w|[]] eqn:N; simpl in H; try discriminate.
      exact (NR e eq_refl).
    + intros H. exfalso. apply D in H. contradiction.
    + intros [t H]. destruct (normalize_profiles (clip_rows wf)) as [w|] eqn:N; simpl in H; [|discriminate].
      assert (F := proj2 NC (ex_intro _ w eq_refl)). rewrite Forall_forall in *. intros r Hr.
      destruct (F r Hr) as [?| ->]; auto. exfalso. apply (NN _ Hr). auto.
    + intros F. destruct (proj1 NC) as [w N].
      { eapply Forall_impl; [|exact F]. simpl. auto. }
      rewrite N. simpl. eexists. reflexivity.
  - assert (E' : ~ Exists (Exists (fun x => 0 < x)) wf). { intros X. apply any_nonzero in X. congruence. }
    unfold normalize_profiles. rewrite E. simpl. split; split; intros H; auto.
    + apply D. auto.
    + destruct H as [t H]. discriminate.
    + exfalso. apply E'. destruct wf as [|r wf]; [simpl in L; lia|]. inversion H; subst. constructor. auto.
Qed.

(** C18 is false: with one empty profile among non-empty ones the constructor
    does not raise, it divides by zero. *)
Lemma C18_empty_profile_refuted_lem : ~ (forall nprofs nbins wf, rectangular nprofs nbins wf ->
  (exists t, tomography nprofs nbins wf CNone CNone = Ok t) \/
  (exists e, tomography nprofs nbins wf CNone CNone = Fail (Raised e))).
Proof.
  intros H. destruct (H 2%nat 2%nat [[1; 1]; [0; 0]]) as [[t E]|[e E]].
  - repeat constructor.
  - vm_compute in E. discriminate.
  - vm_compute in E. discriminate.
Qed.
(*EX*)
Example ex_C18_outcome : rectangular 2 2 ex_wf /\ Forall (Exists (fun x => 0 < x)) ex_wf.
Proof. repeat constructor. Qed.
(*XE*)

(** C19.  A setter that raises changes nothing. *)
Lemma C19_failed_assignment_lem : forall t v e,
  (snd (set_xp t v) = Some e -> fst (set_xp t v) = t) /\
  (snd (set_yp t v) = Some e -> fst (set_yp t v) = t).
Proof.
  intros. split; destruct v; simpl; auto; try discriminate.
  - destruct (negb _); auto. destruct (_ || _); simpl; auto; discriminate.
  - destruct (t_xp t); auto. destruct (same_shape _ _ _ _); simpl; auto. discriminate.
Qed.

(** C19.  After any history of assignments, failed or not: nparts is the
    number of rows of xp and all coordinates are inside the image. *)
Lemma C19_history_consistent_lem : forall t, reachable t ->
  t_nparts t = option_map (@length _) (t_xp t) /\ xp_ok (t_nprofs t) (t_nbins t) (t_xp t).
Proof. intros t H. apply reachable_valid in H. destruct H. auto. Qed.

(** C19.  yp keeps the shape of xp under every assignment except a
    successful one to xp. *)
Lemma C19_yp_shape_partial_lem : forall t a, proper (value_of a) ->
  (match a with SetX v => snd (set_xp t v) <> None | SetY _ => True end) ->
  match t_yp t with None => True | Some y => exists x, t_xp t = Some x /\ rectangular (length x) (t_nprofs t) y end ->
  match t_yp (assign t a) with None => True | Some y => exists x, t_xp (assign t a) = Some x /\ rectangular (length x) (t_nprofs (assign t a)) y end.
Proof.
  intros t a P H I. destruct a; simpl in *.
  - destruct (set_xp t v) as [t' [e|]] eqn:E; simpl in *; [|congruence].
    assert (F := proj1 (C19_failed_assignment_lem t v e)). rewrite E in F. simpl in F. rewrite F by auto. exact I.
  - destruct v; simpl; auto. destruct (t_xp t) eqn:Ex; [|cbn [fst]; try rewrite Ex; auto].
    destruct (same_shape _ _ _ _) eqn:S; cbn [fst put_yp t_yp t_xp t_nprofs]; try rewrite Ex; auto.
    unfold same_shape in S. apply andb_true_iff in S. destruct S as [S1 S2].
    apply Nat.eqb_eq in S1. apply Nat.eqb_eq in S2. exists l. split; auto. split.
    + unfold to_int. rewrite map_length. auto.
    + unfold to_int. apply Forall_forall. intros r Hr. apply in_map_iff in Hr. destruct Hr as [r0 [<- Hr0]].
      rewrite map_length. cbn in P. rewrite Forall_forall in P. rewrite (P _ Hr0). auto.
Qed.

(** C19 is false for yp: assigning new x-coordinates keeps the old
    y-coordinates, of another shape. *)
Lemma C19_stale_yp_refuted_lem : ~ (forall t x y, reachable t -> t_xp t = Some x -> t_yp t = Some y ->
  length y = length x).
Proof.
  intros H.
  set (t := history ex_t [SetY ex_x; SetX (CArr2 2 [[0; 0]])]).
  assert (R : reachable t).
  { exists 2%nat, 2%nat, ex_wf, ex_x, CNone, ex_t, [SetY ex_x; SetX (CArr2 2 [[0; 0]])].
    repeat split; try exact ex_t_built; repeat constructor. }
  assert (Ex : t_xp t = Some [[0; 0]]%Z) by (vm_compute; reflexivity).
  assert (Ey : t_yp t = Some [[0; 0]; [0; 1]]%Z) by (vm_compute; reflexivity).
  specialize (H t _ _ R Ex Ey). discriminate.
Qed.
(*EX*)
Example ex_C19_failed : snd (set_xp ex_t (CArr2 2 [[0; qz 2]])) = Some XPOutOfImageWidthError.
Proof. vm_compute. reflexivity. Qed.
(*XE*)

(** C20.  run returns non-negative weights, one per particle, with positive
    sum; it never divides by zero nor leaves its arrays. *)
Lemma C20_weights_lem : forall sqrt t niter, reachable t -> (0 <= niter)%Z ->
  match run sqrt t niter with
  | Ok (w, _, _, _) => Forall (fun x => 0 <= x) w /\ 0 < qsum w /\ Some (length w) = t_nparts t
  | Fail (Raised _) => True
  | Fail _ => False
  end.
Proof.
  intros sqrt t niter R Hn. apply reachable_valid in R. assert (P := v_parts _ R).
  destruct (t_xp t) as [xp|] eqn:X; [|unfold run; rewrite X; auto].
  destruct (run_cases sqrt t xp R X niter Hn) as [[H E]|[k [_ [_ E]]]]; rewrite E; auto.
  split; [|split].
  - apply Forall_forall. intros x Hx. apply in_tab in Hx. destruct Hx as [i [_ <-]]. apply W_nonneg.
  - rewrite <- sumn_qsum. apply H. lia.
  - rewrite tab_length. simpl in P. rewrite P. auto.
Qed.

(** C21.  The recreated waterfall has the shape of the measured one, its rows
    are non-negative and sum to one; diff has niter+1 elements. *)
Lemma C21_recreated_lem : forall sqrt t niter w d r c, reachable t -> (0 <= niter)%Z ->
  run sqrt t niter = Ok (w, d, r, c) ->
  rectangular (t_nprofs t) (t_nbins t) r /\ good_rows r /\ Z.of_nat (length d) = (niter + 1)%Z.
Proof.
  intros sqrt t niter w d r c R Hn E. apply reachable_valid in R.
  destruct (t_xp t) as [xp|] eqn:X; [|unfold run in E; rewrite X in E; discriminate].
  destruct (run_cases sqrt t xp R X niter Hn) as [[H E']|[k [_ [_ E']]]]; rewrite E' in E; inversion E; subst.
  split; [|split].
  - split; [apply tab_length|]. apply Forall_forall. intros x Hx. apply in_tab in Hx. destruct Hx as [i [_ <-]].
    apply tab_length.
  - apply Forall_forall. intros x Hx. apply in_tab in Hx. destruct Hx as [j [Hj <-]]. split.
    + apply Forall_forall. intros x Hx. apply in_tab in Hx. destruct Hx as [b [_ <-]]. apply RA_nonneg.
    + rewrite <- sumn_qsum. apply RA_row_sum; auto. apply bins_ok; auto.
  - rewrite tab_length. lia.
Qed.

(** The same for run_hybrid. *)
Lemma C21_recreated_hybrid_lem : forall sqrt t niter w d r, reachable t ->
  run_hybrid sqrt t niter = Ok (w, d, r) ->
  rectangular (t_nprofs t) (t_nbins t) r /\ good_rows r /\ length d = (niter + 1)%nat /\
  Forall (fun x => 0 <= x) w /\ 0 < qsum w.
Proof.
  intros sqrt t niter w d r R E. apply reachable_valid in R.
  destruct (t_xp t) as [xp|] eqn:X; [|unfold run_hybrid in E; rewrite X in E; discriminate].
  destruct (hybrid_cases sqrt t xp R X niter) as [[H E']|[k [_ [_ E']]]]; rewrite E' in E; inversion E; subst.
  split; [|split; [|split; [|split]]].
  - split; [apply tab_length|]. apply Forall_forall. intros x Hx. apply in_tab in Hx. destruct Hx as [i [_ <-]].
    apply tab_length.
  - apply Forall_forall. intros x Hx. apply in_tab in Hx. destruct Hx as [j [Hj <-]]. split.
    + apply Forall_forall. intros x Hx. apply in_tab in Hx. destruct Hx as [b [_ <-]]. apply RA_nonneg.
    + rewrite <- sumn_qsum. apply RA_row_sum; auto. apply bins_ok; auto.
  - apply tab_length.
  - apply Forall_forall. intros x Hx. apply in_tab in Hx. destruct Hx as [i [_ <-]]. apply W_nonneg.
  - rewrite <- sumn_qsum. apply H. lia.
Qed.

(*EX*)
(** The normalised histogram of a list of weights, as a table. *)
Definition projection_of (t : tomo) (xp : list (list Z)) (w : list Qc) : list (list Qc) :=
  tab (t_nprofs t) (fun j => tab (t_nbins t) (fun b =>
    histogram (length xp) (bin_of xp) (fun i => nth i w 0) j b / qsum w)).
Definition rms_of (sqrt : Qc -> Qc) (t : tomo) (r : list (list Qc)) : Qc :=
  sqrt (mean_square (t_nprofs t) (t_nbins t) (cell (t_waterfall t)) (cell r)).
(*XE*)

Lemma cell_T : forall n m f j b, (j < n)%nat -> (b < m)%nat -> cell (T n m f) j b = f j b.
Proof. intros. unfold cell, T. rewrite nth_tab by auto. rewrite nth_tab by auto. auto. Qed.

Lemma mean_square_ext : forall n m prof R R', (forall j b, (j < n)%nat -> (b < m)%nat -> R j b = R' j b) ->
  mean_square n m prof R = mean_square n m prof R'.
Proof.
  intros. unfold mean_square. f_equal. apply sumn_ext. intros. apply sumn_ext. intros. rewrite H by auto. auto.
Qed.

Lemma projection_tab : forall t xp f,
  projection_of t xp (tab (length xp) f) =
  T (t_nprofs t) (t_nbins t) (fun j b => histogram (length xp) (bin_of xp) f j b / total (length xp) f).
Proof.
  intros. unfold projection_of. apply T_ext. intros. rewrite <- sumn_qsum. f_equal.
  unfold histogram. apply sumn_ext. intros. rewrite nth_tab by auto. reflexivity.
Qed.

(** C22 holds for run with no iteration. *)
Lemma C22_projection_partial_lem : forall sqrt t xp w d r c, reachable t -> t_xp t = Some xp ->
  run sqrt t 0 = Ok (w, d, r, c) ->
  r = projection_of t xp w /\ d = [rms_of sqrt t r].
Proof.
  intros sqrt t xp w d r c R X E. apply reachable_valid in R.
  destruct (run_cases sqrt t xp R X 0 ltac:(lia)) as [[H E']|[k [_ [_ E']]]]; rewrite E' in E; inversion E; subst.
  split.
  - rewrite projection_tab. apply T_ext. intros j b Hj Hb. cbn [Z.to_nat]. apply RA_true_0; auto.
    apply bins_ok; auto.
  - unfold tab at 1. simpl. f_equal. unfold rms, rms_of. f_equal. apply mean_square_ext. intros.
    rewrite cell_T by auto. reflexivity.
Qed.

(** C22 for run_hybrid: true for any number of iterations. *)
Lemma C22_projection_hybrid_lem : forall sqrt t xp niter w d r, reachable t -> t_xp t = Some xp ->
  run_hybrid sqrt t niter = Ok (w, d, r) ->
  r = projection_of t xp w /\ last d 0 = rms_of sqrt t r.
Proof.
  intros sqrt t xp niter w d r R X E. apply reachable_valid in R.
  destruct (hybrid_cases sqrt t xp R X niter) as [[H E']|[k [_ [_ E']]]]; rewrite E' in E; inversion E; subst.
  split.
  - rewrite projection_tab. apply T_ext. intros j b Hj Hb. apply RA_false; auto.
    apply bins_ok; auto.
  - replace (niter + 1)%nat with (S niter) by lia. rewrite tab_S, last_last.
    unfold rms, rms_of. f_equal. apply mean_square_ext. intros.
    rewrite cell_T by auto. reflexivity.
Qed.

(** What run really returns after niter+1 iterations: the recreated waterfall
    r' that run returns for niter iterations is added to the un-normalised
    histogram (of total W) before normalising.  The last diff is its distance
    to the waterfall. *)
Lemma C22_mixture_partial_lem : forall sqrt t xp niter w d r c, reachable t -> t_xp t = Some xp -> (0 <= niter)%Z ->
  run sqrt t (niter + 1) = Ok (w, d, r, c) ->
  exists w' d' r' c', run sqrt t niter = Ok (w', d', r', c') /\ last d 0 = rms_of sqrt t r /\ d = d' ++ [last d 0] /\
  forall j b, (j < t_nprofs t)%nat -> (b < t_nbins t)%nat ->
    cell r j b = (cell r' j b + qsum w * cell (projection_of t xp w) j b) / (1 + qsum w).
Proof.
  intros sqrt t xp niter w d r c R X Hn E. apply reachable_valid in R.
  destruct (run_cases sqrt t xp R X (niter + 1) ltac:(lia)) as [[H E']|[k [_ [_ E']]]]; rewrite E' in E; inversion E; subst.
  assert (En : Z.to_nat (niter + 1) = S (Z.to_nat niter)) by lia. rewrite En in *.
  rewrite (run_ok sqrt t xp R X niter Hn) by (intros; apply H; lia).
  do 4 eexists. split; [reflexivity|]. rewrite (tab_S (S (Z.to_nat niter))), last_last.
  split; [|split; [reflexivity|]].
  - unfold rms, rms_of. f_equal. apply mean_square_ext. intros. rewrite cell_T by auto. reflexivity.
  - intros j b Hj Hb. rewrite projection_tab. rewrite !cell_T by auto.
    rewrite (RA_true_S _ _ _ _ _ (bins_ok t xp R X)); auto.
    rewrite <- sumn_qsum. unfold total. set (s := sumn _ _).
    assert (0 < s) by (apply (H (S (Z.to_nat niter))); lia).
    field. all: repeat split; apply Qclt_ne; auto; qclra.
Qed.

Definition rows_eqb (a b : list (list Qc)) : bool :=
  if list_eq_dec (list_eq_dec Qc_eq_dec) a b then true else false.

(** C22 is false for run with iterations. *)
Lemma C22_projection_refuted_lem : ~ (forall sqrt t xp niter w d r c, reachable t -> t_xp t = Some xp -> (0 <= niter)%Z ->
  run sqrt t niter = Ok (w, d, r, c) -> r = projection_of t xp w).
Proof.
  intros H.
  destruct (run ex_sqrt ex_t 1) as [[[[w d] r] c]|] eqn:E; [|vm_compute in E; discriminate].
  specialize (H ex_sqrt ex_t _ 1%Z w d r c ex_t_reachable ex_t_coords ltac:(lia) E).
  assert (L : match run ex_sqrt ex_t 1 with
              | Ok (w, _, r, _) => rows_eqb r (projection_of ex_t [[0; 0]; [0; 1]]%Z w)
              | _ => true end = false) by (vm_compute; reflexivity).
  rewrite E in L. unfold rows_eqb in L. destruct (list_eq_dec _ _ _); [discriminate|contradiction].
Qed.

(** C23.  run and run_hybrid agree for no iteration, weights and first
    discrepancy agree for one iteration. *)
Lemma C23_agree_partial_lem : forall sqrt t xp, reachable t -> t_xp t = Some xp ->
  (forall w d r, run_hybrid sqrt t 0 = Ok (w, d, r) <-> exists c, run sqrt t 0 = Ok (w, d, r, c)) /\
  (forall w d r, run_hybrid sqrt t 1 = Ok (w, d, r) ->
     exists d' r' c, run sqrt t 1 = Ok (w, d', r', c) /\ nth 0 d' 0 = nth 0 d 0).
Proof.
  intros sqrt t xp R X. apply reachable_valid in R.
  assert (Et : forall k, (k <= 1)%nat -> total (length xp) (weights_after (length xp) (t_nprofs t) (t_nbins t) (bin_of xp) (cell (t_waterfall t)) true k)
     = total (length xp) (weights_after (length xp) (t_nprofs t) (t_nbins t) (bin_of xp) (cell (t_waterfall t)) false k)).
  { intros k Hk. destruct k as [|[|k]]; [reflexivity|reflexivity|lia]. }
  split.
  - intros w d r.
    destruct (hybrid_cases sqrt t xp R X 0) as [[H E]|[k [Hk [Hz E]]]]; rewrite E.
    + rewrite (run_ok sqrt t xp R X 0 ltac:(lia)) by (intros; rewrite Et by (simpl in *; lia); apply H; simpl in *; lia).
      split.
      * intros A. inversion A; subst. eexists. reflexivity.
      * intros [c A]. inversion A; subst. reflexivity.
    + assert (Hk0 : k = 0%nat) by lia. subst k.
      assert (run sqrt t 0 = Fail (Raised RuntimeError)) as ->.
      { apply (run_raises sqrt t xp R X 0 0); try lia. apply total_zero_iff. exact Hz. }
      split; [discriminate|]. intros [c A]. discriminate.
  - intros w d r A.
    destruct (hybrid_cases sqrt t xp R X 1) as [[H E]|[k [Hk [Hz E]]]]; rewrite E in A; inversion A; subst.
    rewrite (run_ok sqrt t xp R X 1 ltac:(lia)) by (intros; rewrite Et by (simpl in *; lia); apply H; simpl in *; lia).
    do 3 eexists. split; reflexivity.
Qed.

(** C23 is false: the recreated waterfalls differ after one iteration, the
    weights after two. *)
Lemma C23_agree_refuted_lem :
  ~ (forall sqrt t niter w d r c w' d' r', reachable t ->
       run sqrt t (Z.of_nat niter) = Ok (w, d, r, c) -> run_hybrid sqrt t niter = Ok (w', d', r') -> r = r') /\
  ~ (forall sqrt t niter w d r c w' d' r', reachable t ->
       run sqrt t (Z.of_nat niter) = Ok (w, d, r, c) -> run_hybrid sqrt t niter = Ok (w', d', r') -> w = w').
Proof.
  split; intros H.
  - destruct (run ex_sqrt ex_t (Z.of_nat 1)) as [[[[w d] r] c]|] eqn:E; [|vm_compute in E; discriminate].
    destruct (run_hybrid ex_sqrt ex_t 1) as [[[w' d'] r']|] eqn:E'; [|vm_compute in E'; discriminate].
    specialize (H ex_sqrt ex_t 1%nat w d r c w' d' r' ex_t_reachable E E'). subst r'.
    assert (L : option_map (fun x => snd (fst x)) (show (run ex_sqrt ex_t (Z.of_nat 1))) <> option_map snd (showh (run_hybrid ex_sqrt ex_t 1)))
      by (vm_compute; discriminate).
    rewrite E, E' in L. apply L. reflexivity.
  - destruct (run ex_sqrt ex_t (Z.of_nat 2)) as [[[[w d] r] c]|] eqn:E; [|vm_compute in E; discriminate].
    destruct (run_hybrid ex_sqrt ex_t 2) as [[[w' d'] r']|] eqn:E'; [|vm_compute in E'; discriminate].
    specialize (H ex_sqrt ex_t 2%nat w d r c w' d' r' ex_t_reachable E E'). subst w'.
    assert (L : option_map (fun x => fst (fst (fst x))) (show (run ex_sqrt ex_t (Z.of_nat 2))) <> option_map (fun x => fst (fst x)) (showh (run_hybrid ex_sqrt ex_t 2)))
      by (vm_compute; discriminate).
    rewrite E, E' in L. apply L. reflexivity.
Qed.
(*EX*)
Example ex_C22_run0 : show (run ex_sqrt ex_t 0) =
  Some ([2; 1], [1 # 18], [[1; 0]; [2 # 3; 1 # 3]], [(0, 0)%Z])%Q.
Proof. vm_compute. reflexivity. Qed.
Example ex_C23_hybrid : showh (run_hybrid ex_sqrt ex_t 1) =
  Some ([8 # 3; 1 # 3], [1 # 18; 1 # 162], [[1; 0]; [8 # 9; 1 # 9]])%Q.
Proof. vm_compute. reflexivity. Qed.
(*XE*)

(** C24.  run fails exactly when the weights of some iteration all vanish,
    and then with RuntimeError; without coordinates it raises
    CoordinateError. *)
Lemma C24_raises_iff_lem : forall sqrt t niter, reachable t -> (0 <= niter)%Z ->
  match t_xp t with
  | None => run sqrt t niter = Fail (Raised CoordinateError)
  | Some xp =>
    (run sqrt t niter = Fail (Raised RuntimeError) <->
     exists k, (k <= Z.to_nat niter)%nat /\ forall i, (i < length xp)%nat ->
       weights_after (length xp) (t_nprofs t) (t_nbins t) (bin_of xp) (cell (t_waterfall t)) true k i = 0) /\
    ((exists e, run sqrt t niter = Fail e) -> run sqrt t niter = Fail (Raised RuntimeError))
  end.
Proof.
  intros sqrt t niter R Hn. apply reachable_valid in R.
  destruct (t_xp t) as [xp|] eqn:X; [|unfold run; rewrite X; auto].
  destruct (run_cases sqrt t xp R X niter Hn) as [[H E]|[k [Hk [Hz E]]]]; rewrite E.
  - split; [split|].
    + discriminate.
    + intros [k [Hk Hz]]. exfalso. apply total_zero_iff in Hz. apply Hz. apply H. auto.
    + intros [e H']. discriminate.
  - split; auto. split; auto. intros _. exists k. auto.
Qed.

(** C24.  It fails at once iff no particle passes through a non-zero bin. *)
Lemma C24_initial_lem : forall sqrt t xp, reachable t -> t_xp t = Some xp ->
  (run sqrt t 0 = Fail (Raised RuntimeError) <->
   forall i j, (i < length xp)%nat -> (j < t_nprofs t)%nat -> cell (t_waterfall t) j (bin_of xp i j) = 0) /\
  (forall niter, (0 <= niter)%Z -> run sqrt t 0 = Fail (Raised RuntimeError) -> run sqrt t niter = Fail (Raised RuntimeError)).
Proof.
  intros sqrt t xp R X. apply reachable_valid in R.
  assert (N : forall j b, (j < t_nprofs t)%nat -> (b < t_nbins t)%nat -> 0 <= cell (t_waterfall t) j b).
  { intros j b Hj Hb. destruct (v_rect _ R) as [L1 L2]. assert (G := v_good _ R). unfold good_rows in G.
    rewrite Forall_forall in G, L2. assert (I : In (nth j (t_waterfall t) []) (t_waterfall t)) by (apply nth_In; lia).
    destruct (G _ I) as [G1 _]. rewrite Forall_forall in G1. apply G1. apply nth_In. rewrite (L2 _ I). auto. }
  assert (I0 := fun i => initial_zero (length xp) (t_nprofs t) (t_nbins t) (bin_of xp) (cell (t_waterfall t)) (bins_ok t xp R X) N true i).
  assert (A : forall niter, (0 <= niter)%Z ->
    (forall i, (i < length xp)%nat -> weights_after (length xp) (t_nprofs t) (t_nbins t) (bin_of xp) (cell (t_waterfall t)) true 0 i = 0) ->
    run sqrt t niter = Fail (Raised RuntimeError)).
  { intros niter Hn Hz. apply (run_raises sqrt t xp R X niter 0); try lia. apply total_zero_iff. auto. }
  assert (B : run sqrt t 0 = Fail (Raised RuntimeError) -> forall i, (i < length xp)%nat ->
    weights_after (length xp) (t_nprofs t) (t_nbins t) (bin_of xp) (cell (t_waterfall t)) true 0 i = 0).
  { intros E. destruct (run_cases sqrt t xp R X 0 ltac:(lia)) as [[_ E']|[k [Hk [Hz _]]]]; [congruence|].
    assert (k = 0%nat) by (simpl in Hk; lia). subst. auto. }
  split; [split|].
  - intros E i j Hi Hj. apply (proj1 (I0 i Hi)); auto.
  - intros Hz. apply A; [lia|]. intros i Hi. apply I0; auto.
  - intros niter Hn E. apply A; auto.
Qed.
(*EX*)
Example ex_C24_unseen : match tomography 2 2 ex_wf (CArr2 2 [[1; 1]]) CNone with
  | Ok t => run ex_sqrt t 5 | Fail e => Fail e end = Fail (Raised RuntimeError).
Proof. vm_compute. reflexivity. Qed.
(*XE*)

Lemma ok_quad : forall A B C D (a a' : A) (b b' : B) (c c' : C) (d d' : D),
  a = a' -> b = b' -> c = c' -> d = d' -> Ok (a, b, c, d) = Ok (a', b', c', d').
Proof. intros. subst. reflexivity. Qed.

(** C25.  Permuting the particles permutes the weights and changes nothing
    else.  [s] is any permutation of the particle numbers. *)
Lemma C25_permutation_lem : forall sqrt t xp niter s, reachable t -> t_xp t = Some xp -> (0 <= niter)%Z ->
  (forall i, (i < length xp)%nat -> (s i < length xp)%nat) ->
  (forall i j, (i < length xp)%nat -> (j < length xp)%nat -> s i = s j -> i = j) ->
  run sqrt (put_xp t (Some (tab (length xp) (fun i => nth (s i) xp [])))) niter =
  match run sqrt t niter with
  | Ok (w, d, r, c) => Ok (tab (length xp) (fun i => nth (s i) w 0), d, r, c)
  | Fail e => Fail e
  end.
Proof.
  intros sqrt t xp niter s R X Hn Hs Hi. apply reachable_valid in R.
  set (xp' := tab (length xp) (fun i => nth (s i) xp [])).
  set (t' := put_xp t (Some xp')).
  assert (L : length xp' = length xp) by apply tab_length.
  assert (V : valid t').
  { assert (P1 := v_parts _ R). assert (P2 := v_xp _ R). rewrite X in P1, P2. destruct R as [R1 R2 R3 R4 _ _].
    constructor; cbn [t' put_xp t_nprofs t_nbins t_waterfall t_xp t_nparts]; auto.
    - rewrite P1. simpl. rewrite L. auto.
    - destruct P2 as [[_ P2] P3]. rewrite Forall_forall in P2, P3. split.
      + split; auto. apply Forall_forall. intros r Hr. apply in_tab in Hr. destruct Hr as [i [Hi' <-]].
        apply P2. apply nth_In. auto.
      + apply Forall_forall. intros r Hr. apply in_tab in Hr. destruct Hr as [i [Hi' <-]].
        apply P3. apply nth_In. auto. }
  assert (X' : t_xp t' = Some xp') by reflexivity.
  assert (B : forall i j, (i < length xp)%nat -> (j < t_nprofs t)%nat -> bin_of xp' i j = bin_of xp (s i) j).
  { intros. unfold bin_of, xp'. rewrite nth_tab by auto. reflexivity. }
  assert (WP := weights_perm (length xp) (t_nprofs t) (t_nbins t) (bin_of xp) (bin_of xp') (cell (t_waterfall t)) s Hs Hi B).
  assert (RP := recreated_perm (length xp) (t_nprofs t) (t_nbins t) (bin_of xp) (bin_of xp') (cell (t_waterfall t)) s Hs Hi B).
  assert (TP := total_perm (length xp) (t_nprofs t) (t_nbins t) (bin_of xp) (bin_of xp') (cell (t_waterfall t)) s Hs Hi B).
  destruct (totals_dec (length xp) (t_nprofs t) (t_nbins t) (bin_of xp) (cell (t_waterfall t)) niter true) as [H|[k [H1 [H2 H3]]]].
  - rewrite (run_ok sqrt t xp R X niter Hn H).
    rewrite (run_ok sqrt t' xp' V X' niter Hn).
    + cbn [t' put_xp t_nprofs t_nbins t_waterfall]. rewrite L. apply ok_quad; [| | |reflexivity].
      * apply tab_ext. intros i Hi'. rewrite nth_tab by auto. apply WP. auto.
      * apply tab_ext. intros k Hk. unfold rms. apply (f_equal sqrt). apply mean_square_ext. intros. apply RP. auto.
      * apply T_ext. intros. apply RP. auto.
    + intros k Hk. cbn [t' put_xp t_nprofs t_nbins t_waterfall]. rewrite L, TP. auto.
  - rewrite (run_raises sqrt t xp R X niter k Hn H1 H2 H3).
    apply (run_raises sqrt t' xp' V X' niter k Hn H1); cbn [t' put_xp t_nprofs t_nbins t_waterfall].
    + rewrite L, TP. auto.
    + intros. rewrite L, TP. auto.
Qed.
(*EX*)
Definition ex_swap (i : nat) : nat := match i with O => 1%nat | _ => 0%nat end.
Example ex_C25 : show (run ex_sqrt (put_xp ex_t (Some (tab 2 (fun i => nth (ex_swap i) [[0; 0]; [0; 1]]%Z [])))) 2) =
  Some ([0; 3], [1 # 18; 1 # 72; 1 # 1152], [[1; 0]; [23 # 24; 1 # 24]],
        [(1, 2); (2, 2); (2, 2)]%Z)%Q.
Proof. vm_compute. reflexivity. Qed.
(** Rows that agree up to a positive factor, ignoring negative values. *)
Definition same_profile (row row' : list Qc) : Prop :=
  exists c, 0 < c /\ Forall2 (fun x y => pos y = c * pos x) row row'.
(*XE*)

Lemma same_profile_clip : forall row row' c, Forall2 (fun x y => pos y = c * pos x) row row' ->
  map pos row' = map (fun x => c * x) (map pos row).
Proof. intros. rewrite map_map. induction H; simpl; auto. rewrite H, IHForall2. reflexivity. Qed.

(** C26.  Scaling each profile by its own positive constant, or replacing
    negative values by other non-positive ones, gives the very same object,
    so everything computed from it is the same. *)
Lemma C26_scale_invariant_lem : forall nprofs nbins wf wf' x y, Forall2 same_profile wf wf' ->
  tomography nprofs nbins wf' x y = tomography nprofs nbins wf x y.
Proof.
  intros nprofs nbins wf wf' x y H. unfold tomography.
  assert (E : normalize_profiles (clip_rows wf') = normalize_profiles (clip_rows wf)); [|rewrite E; reflexivity].
  unfold normalize_profiles, clip_rows.
  change (fun x => if qltb x 0 then 0 else x) with pos.
  assert (Ea : existsb (existsb (fun x => negb (qeqb x 0))) (map (map pos) wf') =
               existsb (existsb (fun x => negb (qeqb x 0))) (map (map pos) wf)).
  { induction H as [|r r' l l' [c [Hc Hr]]]; simpl; auto. rewrite IHForall2. f_equal.
    clear IHForall2 H. induction Hr; simpl; auto. rewrite IHHr. f_equal. rewrite H. f_equal.
    destruct (qeqb_spec (c * pos x0) 0) as [A|A]; destruct (qeqb_spec (pos x0) 0) as [B|B]; auto.
    - apply Qcmul_eq_0 in A. destruct A; [|contradiction]. subst. exfalso. exact (Qclt_not_eq _ _ Hc eq_refl).
    - exfalso. apply A. rewrite B. ring. }
  rewrite Ea. destruct (existsb _ (map (map pos) wf)); simpl; auto.
  clear Ea. unfold mapM. induction H as [|r r' l l' [c [Hc Hr]]]; simpl; auto. rewrite IHForall2. f_equal.
  apply same_profile_clip in Hr. rewrite Hr.
  replace (qsum (map (fun x => c * x) (map pos r))) with (c * qsum (map pos r)).
  2:{ rewrite (qsum_map_scale Qc c (fun x => x)). rewrite map_id. reflexivity. }
  f_equal. rewrite map_map. apply map_ext. intros z. unfold qdiv.
  destruct (qeqb_spec (c * qsum (map pos r)) 0) as [A|A]; destruct (qeqb_spec (qsum (map pos r)) 0) as [B|B]; auto.
  - apply Qcmul_eq_0 in A. destruct A; [|contradiction]. subst. exfalso. exact (Qclt_not_eq _ _ Hc eq_refl).
  - exfalso. apply A. rewrite B. ring.
  - f_equal. field. split; auto. apply Qclt_ne. auto.
Qed.
(*EX*)
Example ex_C26 : Forall2 same_profile ex_wf [[1; qz (-5)]; [qz 6; 0]].
Proof.
  constructor; [|constructor; [|constructor]].
  - exists (qq 1 2). split; [reflexivity|].
    constructor; [apply Qc_is_canon; vm_compute; reflexivity|].
    constructor; [apply Qc_is_canon; vm_compute; reflexivity|constructor].
  - exists (qz 2). split; [reflexivity|].
    constructor; [apply Qc_is_canon; vm_compute; reflexivity|].
    constructor; [apply Qc_is_canon; vm_compute; reflexivity|constructor].
Qed.
(*XE*)

(** C27.  If the projection of the initial weights is the waterfall, run
    returns these weights after any number of iterations, with discrepancy 0
    throughout and the waterfall itself as recreated waterfall. *)
Lemma C27_fixed_point_run_partial_lem : forall sqrt t xp w d c niter, reachable t -> t_xp t = Some xp -> sqrt 0 = 0 -> (0 <= niter)%Z ->
  run sqrt t 0 = Ok (w, d, t_waterfall t, c) ->
  exists c', run sqrt t niter = Ok (w, repeat 0 (S (Z.to_nat niter)), t_waterfall t, c').
Proof.
  intros sqrt t xp w d c niter R X Hs Hn E. apply reachable_valid in R.
  destruct (run_cases sqrt t xp R X 0 ltac:(lia)) as [[H E']|[k [_ [_ E']]]]; rewrite E' in E; [|discriminate].
  injection E as E1 E2 H3 E4. subst w d c. clear E'. cbn [Z.to_nat] in *.
  assert (F0 : forall j b, (j < t_nprofs t)%nat -> (b < t_nbins t)%nat ->
     recreated_after (length xp) (t_nprofs t) (t_nbins t) (bin_of xp) (cell (t_waterfall t)) true 0 j b = cell (t_waterfall t) j b).
  { intros. rewrite <- H3 at 2. rewrite cell_T by auto. reflexivity. }
  assert (F := fixed_true (length xp) (t_nprofs t) (t_nbins t) (bin_of xp) (cell (t_waterfall t)) (bins_ok t xp R X) F0 (H 0%nat ltac:(lia))).
  eexists. rewrite (run_ok sqrt t xp R X niter Hn).
  - f_equal. f_equal. f_equal. f_equal.
    + apply tab_ext. intros. apply F. auto.
    + rewrite repeat_tab. apply tab_ext. intros k Hk. unfold rms.
      rewrite (proj2 (mean_square_zero _ _ _ (v_np _ R) (v_nb _ R) _)); auto. apply F.
    + etransitivity; [|exact H3]. apply T_ext. intros j b Hj Hb. rewrite (proj2 (F _)) by auto. symmetry. apply F0; auto.
  - intros k Hk. specialize (H 0%nat ltac:(lia)).
    replace (total (length xp) (weights_after (length xp) (t_nprofs t) (t_nbins t) (bin_of xp) (cell (t_waterfall t)) true k))
      with (total (length xp) (weights_after (length xp) (t_nprofs t) (t_nbins t) (bin_of xp) (cell (t_waterfall t)) true 0)); auto.
    unfold total. apply sumn_ext. intros. symmetry. apply F. auto.
Qed.

(** C27 for run_hybrid, from any iteration on. *)
Lemma C27_fixed_point_hybrid_lem : forall sqrt t xp w d k niter, reachable t -> t_xp t = Some xp -> (k <= niter)%nat ->
  run_hybrid sqrt t k = Ok (w, d, t_waterfall t) ->
  exists d', run_hybrid sqrt t niter = Ok (w, d', t_waterfall t) /\ forall m, (k <= m <= niter)%nat -> nth_error d' m = Some (sqrt 0).
Proof.
  intros sqrt t xp w d k niter R X Hn E. apply reachable_valid in R.
  destruct (hybrid_cases sqrt t xp R X k) as [[H E']|[m [_ [_ E']]]]; rewrite E' in E; [|discriminate].
  injection E as E1 E2 H3. subst w d. clear E'.
  assert (F0 : forall j b, (j < t_nprofs t)%nat -> (b < t_nbins t)%nat ->
     recreated_after (length xp) (t_nprofs t) (t_nbins t) (bin_of xp) (cell (t_waterfall t)) false k j b = cell (t_waterfall t) j b).
  { intros. rewrite <- H3 at 2. rewrite cell_T by auto. reflexivity. }
  assert (F := fixed_false (length xp) (t_nprofs t) (t_nbins t) (bin_of xp) (cell (t_waterfall t)) (bins_ok t xp R X) k F0).
  eexists. rewrite (hybrid_ok sqrt t xp R X niter).
  - split.
    + f_equal. f_equal. f_equal.
      * apply tab_ext. intros. apply F; auto.
      * etransitivity; [|exact H3]. apply T_ext. intros j b Hj Hb. rewrite (proj2 (F _ Hn)) by auto. symmetry. apply F0; auto.
    + intros m Hm. rewrite nth_error_tab by lia. f_equal. unfold rms.
      rewrite (proj2 (mean_square_zero _ _ _ (v_np _ R) (v_nb _ R) _)); auto. apply F. lia.
  - intros m Hm. destruct (Nat.le_gt_cases m k); [auto|].
    replace (total (length xp) (weights_after (length xp) (t_nprofs t) (t_nbins t) (bin_of xp) (cell (t_waterfall t)) false m))
      with (total (length xp) (weights_after (length xp) (t_nprofs t) (t_nbins t) (bin_of xp) (cell (t_waterfall t)) false k)); auto.
    unfold total. apply sumn_ext. intros. symmetry. apply F; auto. lia.
Qed.

(** C27.  A discrepancy of zero means that the recreated waterfall is the
    measured one (for a square root that vanishes only at zero). *)
Lemma C27_zero_discrepancy_lem : forall sqrt t niter w d r c, reachable t -> (0 <= niter)%Z ->
  (forall x, sqrt x = 0 <-> x = 0) ->
  run sqrt t niter = Ok (w, d, r, c) -> (last d 0 = 0 <-> r = t_waterfall t).
Proof.
  intros sqrt t niter w d r c R Hn Hs E. apply reachable_valid in R.
  destruct (t_xp t) as [xp|] eqn:X; [|unfold run in E; rewrite X in E; discriminate].
  destruct (run_cases sqrt t xp R X niter Hn) as [[H E']|[k [_ [_ E']]]]; rewrite E' in E; inversion E; subst.
  rewrite tab_S, last_last. unfold rms. rewrite Hs, (mean_square_zero _ _ _ (v_np _ R) (v_nb _ R)).
  split.
  - intros F. symmetry. etransitivity; [apply (wf_T _ _ _ (v_rect _ R))|]. apply T_ext. intros. symmetry. auto.
  - intros F j b Hj Hb. rewrite <- F at 2. rewrite cell_T by auto. reflexivity.
Qed.

(** C27 is false for run once iterations have been made: weights whose
    projection is exactly the waterfall are changed by the next iteration. *)
Lemma C27_fixed_point_refuted_lem : ~ (forall sqrt t xp w d r c w' d' r' c' niter, reachable t -> t_xp t = Some xp -> (0 <= niter)%Z ->
  run sqrt t niter = Ok (w, d, r, c) -> projection_of t xp w = t_waterfall t ->
  run sqrt t (niter + 1) = Ok (w', d', r', c') -> w' = w).
Proof.
  intros H.
  destruct (run ex_sqrt ex_t 2) as [[[[w d] r] c]|] eqn:E; [|vm_compute in E; discriminate].
  destruct (run ex_sqrt ex_t (2 + 1)) as [[[[w' d'] r'] c']|] eqn:E'; [|vm_compute in E'; discriminate].
  assert (P : projection_of ex_t [[0; 0]; [0; 1]]%Z w = t_waterfall ex_t).
  { assert (L : match run ex_sqrt ex_t 2 with
              | Ok (w, _, r, _) => rows_eqb (projection_of ex_t [[0; 0]; [0; 1]]%Z w) (t_waterfall ex_t)
              | _ => false end = true) by (vm_compute; reflexivity).
    rewrite E in L. unfold rows_eqb in L. destruct (list_eq_dec _ _ _); [auto|discriminate]. }
  specialize (H ex_sqrt ex_t _ w d r c w' d' r' c' 2%Z ex_t_reachable ex_t_coords ltac:(lia) E P E').
  assert (L : option_map (fun x => fst (fst (fst x))) (show (run ex_sqrt ex_t (2 + 1))) <> option_map (fun x => fst (fst (fst x))) (show (run ex_sqrt ex_t 2)))
    by (vm_compute; discriminate).
  rewrite E, E' in L. apply L. simpl. rewrite H. reflexivity.
Qed.
(*EX*)
(** A waterfall the initial weights reproduce exactly. *)
Example ex_C27 : match tomography 1 2 [[1; qz 3]] (CArr2 1 [[0]; [1]]) CNone with
  | Ok t => (show (run ex_sqrt t 0), map (map this) (t_waterfall t)) | Fail _ => (None, []) end =
  (Some ([1 # 4; 3 # 4], [0], [[1 # 4; 3 # 4]], [(0, 0)%Z]), [[1 # 4; 3 # 4]])%Q.
Proof. vm_compute. reflexivity. Qed.
(*XE*)

(** C28.  A particle that only visits bins with no measured charge has weight
    zero, for run and run_hybrid. *)
Lemma C28_no_charge_lem : forall sqrt t xp niter i, reachable t -> t_xp t = Some xp -> (i < length xp)%nat ->
  (forall j, (j < t_nprofs t)%nat -> cell (t_waterfall t) j (bin_of xp i j) = 0) ->
  (forall w d r c, run sqrt t (Z.of_nat niter) = Ok (w, d, r, c) -> nth_error w i = Some 0) /\
  (forall w d r, run_hybrid sqrt t niter = Ok (w, d, r) -> nth_error w i = Some 0).
Proof.
  intros sqrt t xp niter i R X Hi Hz. apply reachable_valid in R.
  assert (Z := fun keep => empty_particle (length xp) (t_nprofs t) (t_nbins t) (bin_of xp) (cell (t_waterfall t)) keep i Hi Hz).
  split.
  - intros w d r c E. destruct (run_cases sqrt t xp R X (Z.of_nat niter) ltac:(lia)) as [[H E']|[k [_ [_ E']]]]; rewrite E' in E; inversion E; subst.
    rewrite nth_error_tab by auto. rewrite Z; auto.
  - intros w d r E. destruct (hybrid_cases sqrt t xp R X niter) as [[H E']|[k [_ [_ E']]]]; rewrite E' in E; inversion E; subst.
    rewrite nth_error_tab by auto. rewrite Z; auto.
Qed.
(*EX*)
Example ex_C28 : match tomography 2 2 ex_wf (CArr2 2 [[0; 0]; [1; 1]]) CNone with
  | Ok t => show (run ex_sqrt t 1) | Fail _ => None end =
  Some ([2; 0], [0; 0], [[1; 0]; [1; 0]], [(1, 1); (1, 1)]%Z)%Q.
Proof. vm_compute. reflexivity. Qed.
(** Inner product. *)
Definition dot (a b : list Qc) : Qc := qsum (map (fun p => fst p * snd p) (combine a b)).
(*XE*)

Lemma dot_tab : forall n f g, dot (tab n f) (tab n g) = sumn n (fun i => f i * g i).
Proof. intros. unfold dot. rewrite combine_tab, map_tab, <- sumn_qsum. reflexivity. Qed.

(** C29.  For coordinates inside the image: every profile of the
    un-normalised projection sums to the total weight, and the back projection
    is the adjoint of the projection. *)
Lemma C29_adjoint_lem : forall nprofs nbins xp w f, xp_ok nprofs nbins (Some xp) ->
  length w = length xp -> length f = (nprofs * nbins)%nat ->
  exists fp rec g,
    create_flat_points (concat xp) (length xp) nprofs nbins = Ok fp /\
    project (repeat 0 (nprofs * nbins)) fp w (length xp) nprofs = Ok rec /\
    back_project (repeat 0 (length xp)) fp f (length xp) nprofs = Ok g /\
    Forall (fun row => qsum row = qsum w) (chunk nprofs nbins rec) /\
    dot rec f = dot w g.
Proof.
  intros nprofs nbins xp w f X Hw Hf. destruct (bins_T _ _ _ X) as [Ex Hb].
  assert (Hx : concat xp = xpl (length xp) nprofs (bin_of xp)) by (rewrite Ex at 1; apply concat_T).
  rewrite Hx. rewrite create_flat_points_tab.
  assert (Ew : w = tab (length xp) (fun i => nth i w 0)) by (rewrite <- Hw; symmetry; apply tab_nth).
  assert (Ef : f = tab (nprofs * nbins) (fl nbins (fun j b => nth (j * nbins + b) f 0))).
  { rewrite <- (tab_nth f 0) at 1. rewrite Hf. apply tab_ext. intros k Hk.
    destruct (flat_of _ _ _ Hk) as [j [b [Hj [Hb' ->]]]]. rewrite fl_at by auto. reflexivity. }
  set (wf := fun i => nth i w 0) in *. set (ff := fun j b => nth (j * nbins + b) f 0) in *.
  exists (fpl (length xp) nprofs nbins (bin_of xp)).
  exists (tab (nprofs * nbins) (fl nbins (fun j b => 0 + histogram (length xp) (bin_of xp) wf j b))).
  exists (tab (length xp) (fun i => 0 + gather nprofs (bin_of xp) ff i)).
  split; [reflexivity|]. split; [|split; [|split]].
  - rewrite Ew. rewrite repeat_tab.
    change (tab (nprofs * nbins) (fun _ => 0)) with (tab (nprofs * nbins) (fl nbins (fun _ _ => 0))).
    apply project_tab. auto.
  - rewrite Ef. rewrite repeat_tab. apply back_project_tab. auto.
  - rewrite chunk_tab. apply Forall_forall. intros row Hr. apply in_tab in Hr. destruct Hr as [j [Hj <-]].
    rewrite <- sumn_qsum. rewrite Ew, <- sumn_qsum.
    assert (HT := histogram_total (length xp) nprofs nbins (bin_of xp) Hb wf j Hj). unfold total in HT.
    etransitivity; [|exact HT]. apply sumn_ext. intros. ring.
  - rewrite Ew, Ef. rewrite !dot_tab.
    change (fun i => fl nbins (fun j b => 0 + histogram (length xp) (bin_of xp) wf j b) i * fl nbins ff i)
      with (fl nbins (fun j b => (0 + histogram (length xp) (bin_of xp) wf j b) * ff j b)).
    rewrite sumn_fl.
    transitivity (sumn nprofs (fun j => sumn nbins (fun b => ff j b * histogram (length xp) (bin_of xp) wf j b))).
    + apply sumn_ext. intros. apply sumn_ext. intros. ring.
    + rewrite adjoint by auto. apply sumn_ext. intros. ring.
Qed.
(*EX*)
Example ex_C29 : xp_ok 2 2 (Some [[0; 0]; [0; 1]]%Z).
Proof. repeat constructor; vm_compute; congruence. Qed.
(*XE*)

(** C30.  The flat index of particle i at profile j is inside the flattened
    waterfall and addresses cell (j, x); different cells have different
    indices; Python and C++ compute the same indices. *)
Lemma C30_flat_addressing_lem : forall nprofs nbins xp wf, xp_ok nprofs nbins (Some xp) -> rectangular nprofs nbins wf ->
  (0 < nprofs)%nat -> (0 < nbins)%nat ->
  exists fp, create_flat_points (concat xp) (length xp) nprofs nbins = Ok fp /\
    fp = concat (py_flat_points xp nprofs nbins) /\ length fp = (length xp * nprofs)%nat /\
    forall i j, (i < length xp)%nat -> (j < nprofs)%nat ->
      exists k, nth_error fp (i * nprofs + j) = Some (Z.of_nat k) /\ (k < nprofs * nbins)%nat /\
        nth_error (concat wf) k = Some (cell wf j (bin_of xp i j)) /\
        forall i' j' k', (i' < length xp)%nat -> (j' < nprofs)%nat ->
          nth_error fp (i' * nprofs + j') = Some (Z.of_nat k') ->
          (k' = k <-> j' = j /\ bin_of xp i' j' = bin_of xp i j).
Proof.
  intros nprofs nbins xp wf X Hw Hp0 Hb0. destruct (bins_T _ _ _ X) as [Ex Hb].
  assert (Hx : concat xp = xpl (length xp) nprofs (bin_of xp)) by (rewrite Ex at 1; apply concat_T).
  rewrite Hx, create_flat_points_tab. eexists. split; [reflexivity|].
  split; [|split; [apply tab_length|]].
  - rewrite <- (flat_points_T (length xp) nprofs nbins (bin_of xp)) by auto. unfold xrows. rewrite <- Ex. reflexivity.
  - assert (N : forall i j, (i < length xp)%nat -> (j < nprofs)%nat ->
      nth_error (fpl (length xp) nprofs nbins (bin_of xp)) (i * nprofs + j) = Some (Z.of_nat (j * nbins + bin_of xp i j))).
    { intros. unfold fpl. rewrite nth_error_tab by (apply flat_lt; auto). rewrite fl_at by auto. reflexivity. }
    intros i j Hi Hj. exists (j * nbins + bin_of xp i j)%nat.
    split; [apply N; auto|]. split; [apply flat_lt; auto|]. split.
    + rewrite (wf_T _ _ _ Hw) at 1. rewrite concat_T, nth_error_tab by (apply flat_lt; auto). rewrite fl_at by auto. reflexivity.
    + intros i' j' k' Hi' Hj' E. rewrite N in E by auto. inversion E as [E']. apply Nat2Z.inj in E'. subst k'.
      apply flat_eq; auto.
Qed.

(** C31.  The compensation factor of each bin, in the C++ code: (largest bin
    count)/(bin count), empty bins counted as one; at least one when there are
    particles; the Python code gives the same table, transposed. *)
Lemma C31_compensation_lem : forall nprofs nbins xp, xp_ok nprofs nbins (Some xp) ->
  (0 < length xp)%nat -> (0 < nprofs)%nat ->
  exists r rp, reciprocal_particles (repeat 0 (nprofs * nbins)) (concat xp) nbins nprofs (length xp) = Ok r /\
    py_reciprocal nbins nprofs xp = Ok rp /\ length r = (nprofs * nbins)%nat /\
    forall j b, (j < nprofs)%nat -> (b < nbins)%nat ->
      let f := compensation (length xp) nprofs nbins (bin_of xp) j b in
      nth_error r (j * nbins + b) = Some f /\ cell rp b j = f /\ 1 <= f.
Proof.
  intros nprofs nbins xp X Hn Hp. destruct (bins_T _ _ _ X) as [Ex Hb].
  assert (Hnb : (0 < nbins)%nat) by (specialize (Hb 0 0 Hn Hp)%nat; lia).
  assert (Hx : concat xp = xpl (length xp) nprofs (bin_of xp)) by (rewrite Ex at 1; apply concat_T).
  assert (Ep : py_reciprocal nbins nprofs xp = Ok (T nbins nprofs (fun b j => co1 (length xp) nprofs nbins (bin_of xp) j b))).
  { rewrite <- (py_reciprocal_T (length xp) nprofs nbins (bin_of xp)) by auto. unfold xrows. rewrite <- Ex. reflexivity. }
  rewrite Hx, reciprocal_tab, Ep by auto.
  do 2 eexists. split; [reflexivity|]. split; [reflexivity|]. split; [apply tab_length|].
  intros j b Hj Hb'. cbv zeta. split; [|split].
  - rewrite nth_error_tab by (apply flat_lt; auto). rewrite fl_at by auto. reflexivity.
  - rewrite cell_T by auto. apply co1_CO; auto.
  - apply compensation_ge_1; auto.
Qed.
(*EX*)
Example ex_C31 : match reciprocal_particles (repeat 0 4) [0; 0; 0; 1]%Z 2 2 2 with
  | Ok l => map this l | Fail _ => [] end = [1; 2; 2; 2]%Q.
Proof. vm_compute. reflexivity. Qed.
(*XE*)

(** C32.  The callback is called with (1,niter), ..., (niter,niter) and a
    last (niter,niter). *)
Lemma C32_callback_lem : forall sqrt t niter w d r c, reachable t -> (0 <= niter)%Z ->
  run sqrt t niter = Ok (w, d, r, c) ->
  c = map (fun k => (Z.of_nat k, niter)) (seq 1 (Z.to_nat niter)) ++ [(niter, niter)].
Proof.
  intros sqrt t niter w d r c R Hn E. apply reachable_valid in R.
  destruct (t_xp t) as [xp|] eqn:X; [|unfold run in E; rewrite X in E; discriminate].
  destruct (run_cases sqrt t xp R X niter Hn) as [[H E']|[k [_ [_ E']]]]; rewrite E' in E; inversion E; subst.
  f_equal. unfold calls_upto. rewrite <- seq_shift, map_map. apply map_ext. intros. f_equal. lia.
Qed.
