(** Property lemmas on phase-space images (C34, C35). *)
(*HEAD*)
From Coq Require Import List ZArith QArith Qcanon Bool Lia.
From Verif Require Import Base.Res Base.QcLib Model.MRecon Model.MParticles Model.MImage Spec.TomoSpec Spec.ParticleSpec.
Import ListNotations.
Local Open Scope Qc_scope.
(*DAEH*)
From Coq Require Import Arith.
From Verif Require Import Base.ResLemmas Base.QcLemmas Base.Loops Spec.ReconSpec Proof.PRecon Proof.PRecon2 Proof.PHybrid Proof.PTomo Proof.PParticles Proof.CRecon Proof.CParticles.

Lemma get_nth : forall A (l : list A) i d, (i < length l)%nat -> get l (zi i) = Ok (nth i l d).
Proof.
  intros. unfold get. destruct (Z.ltb_spec (Z.of_nat i) 0); [lia|]. rewrite Nat2Z.id, (nth_error_nth' l d) by auto. auto.
Qed.

Section Scatter.
Variables (xp yp : list Z) (w : list Qc) (n : nat).
Hypothesis Ly : length yp = length xp.
Hypothesis Lw : length w = length xp.
Definition ix (i : nat) : Z := (nth i yp 0 + nth i xp 0 * Z.of_nat n)%Z.
Hypothesis IX : forall i, (i < length xp)%nat -> (0 <= ix i < Z.of_nat (n * n))%Z.

Definition scat : list Qc := tab (n * n) (fun k => sumn (length xp) (fun i => if Nat.eqb (Z.to_nat (ix i)) k then nth i w 0 else 0)).

Lemma scat_cpu : make_phase_space xp yp w (length xp) n = Ok scat.
Proof.
  unfold make_phase_space, scat. rewrite repeat_tab.
  rewrite (for_scatter (n * n) (fun _ => 0) (length xp) (fun i => Z.to_nat (ix i)) (fun i => nth i w 0)).
  - f_equal. apply tab_ext. intros. ring.
  - intros i h Hi. rewrite (get_nth _ _ _ 0%Z), (get_nth _ _ _ 0%Z) by lia. cbn [bind].
    fold (ix i). specialize (IX i Hi). change (nth i yp 0 + nth i xp 0 * zi n)%Z with (ix i).
    destruct (Z.leb_spec (Z.of_nat (n * n)) (ix i)); [lia|].
    rewrite (get_nth _ _ _ 0) by lia. cbn [bind].
    remember (Z.to_nat (ix i)) as k eqn:Ek. assert (Ez : ix i = Z.of_nat k) by lia. rewrite Ez, get_tab by lia. cbn [bind]. rewrite set_tab by lia. reflexivity.
Qed.

Lemma scat_gpu : gpu_make_phase_space xp yp w n = Ok (chunk n n scat).
Proof.
  unfold gpu_make_phase_space, scat. rewrite repeat_tab.
  rewrite (for_scatter (n * n) (fun _ => 0) (length xp) (fun i => Z.to_nat (ix i)) (fun i => nth i w 0)).
  - cbn [bind]. f_equal. f_equal. apply tab_ext. intros. ring.
  - intros i h Hi. rewrite (get_nth _ _ _ 0%Z), (get_nth _ _ _ 0%Z) by lia. cbn [bind].
    specialize (IX i Hi). change (nth i yp 0 + nth i xp 0 * zi n)%Z with (ix i).
    rewrite (get_nth _ _ _ 0) by lia. cbn [bind]. rewrite Z.mod_small by lia.
    remember (Z.to_nat (ix i)) as k eqn:Ek. assert (Ez : ix i = Z.of_nat k) by lia. rewrite Ez, get_tab by lia. cbn [bind]. rewrite set_tab by lia. reflexivity.
Qed.

Lemma chunk_scat : chunk n n scat = T n n (fun a b => sumn (length xp) (fun i => if Z.eqb (ix i) (Z.of_nat (a * n + b)) then nth i w 0 else 0)).
Proof.
  clear Ly Lw. rewrite <- chunk_tab. f_equal. unfold scat. apply tab_ext. intros k Hk.
  destruct (flat_of _ _ _ Hk) as [a [b [Ha [Hb ->]]]]. rewrite fl_at by auto. apply sumn_ext. intros i Hi.
  specialize (IX i Hi). destruct (Nat.eqb_spec (Z.to_nat (ix i)) (a * n + b)), (Z.eqb_spec (ix i) (Z.of_nat (a * n + b))); auto; lia.
Qed.
End Scatter.

Lemma rect_of_T : forall A n k (g : nat -> nat -> A), rectangular n k (T n k g).
Proof. intros. split; [apply tab_length|]. apply Forall_forall. intros r Hr. apply in_tab in Hr. destruct Hr as [i [_ <-]]. apply tab_length. Qed.

Lemma in_image_nth : forall n l i, in_image n l -> (i < length l)%nat -> (0 <= nth i l 0 < Z.of_nat n)%Z.
Proof. intros n l i H Hi. unfold in_image in H. rewrite Forall_forall in H. apply H, nth_In. auto. Qed.

Lemma ix_range : forall n xp yp, in_image n xp -> in_image n yp -> length yp = length xp ->
  forall i, (i < length xp)%nat -> (0 <= ix xp yp n i < Z.of_nat (n * n))%Z.
Proof.
  intros. unfold ix. assert (A := in_image_nth _ _ i H H2). assert (B := in_image_nth _ _ i H0 ltac:(lia)). nia.
Qed.

Definition image_T n xp yp w := T n n (weight_at xp yp w).

Lemma chunk_weight_at : forall n xp yp w, in_image n xp -> in_image n yp -> length yp = length xp ->
  chunk n n (scat xp yp w n) = image_T n xp yp w.
Proof.
  intros. rewrite chunk_scat by (auto; apply ix_range; auto). unfold image_T, weight_at. apply T_ext. intros a b Ha Hb.
  apply sumn_ext. intros i Hi. unfold ix.
  assert (A := in_image_nth _ _ i H Hi). assert (B := in_image_nth _ _ i H0 ltac:(lia)).
  destruct (Z.eqb_spec (nth i xp 0%Z) (Z.of_nat a)) as [E1|E1], (Z.eqb_spec (nth i yp 0%Z) (Z.of_nat b)) as [E2|E2]; cbn [andb];
   destruct (Z.eqb_spec (nth i yp 0 + nth i xp 0 * Z.of_nat n)%Z (Z.of_nat (a * n + b))) as [E3|E3]; auto; exfalso; try nia.
  all: assert (E4 : (Z.to_nat (nth i xp 0%Z) * n + Z.to_nat (nth i yp 0%Z))%nat = (a * n + b)%nat) by nia;
    apply flat_eq in E4; try lia.
Qed.

Lemma weight_row : forall n xp yp w a, in_image n yp -> length yp = length xp ->
  sumn n (weight_at xp yp w a) = profile_at xp w a.
Proof.
  intros n xp yp w a H L. unfold weight_at, profile_at. rewrite sumn_swap. apply sumn_ext. intros i Hi.
  assert (B := in_image_nth _ _ i H ltac:(lia)).
  destruct (Z.eqb (nth i xp 0%Z) (Z.of_nat a)); cbn [andb]; [|apply sumn_zero; auto].
  etransitivity; [|apply (sumn_single' n (fun _ => nth i w 0) (Z.to_nat (nth i yp 0%Z))); lia].
  apply sumn_ext. intros b Hb.
  destruct (Z.eqb_spec (nth i yp 0%Z) (Z.of_nat b)), (Nat.eqb_spec (Z.to_nat (nth i yp 0%Z)) b); auto; lia.
Qed.

Lemma profile_total : forall n xp w, in_image n xp -> length w = length xp -> sumn n (profile_at xp w) = qsum w.
Proof.
  intros n xp w H L. unfold profile_at. rewrite sumn_swap. rewrite qsum_sumn, L. apply sumn_ext. intros i Hi.
  assert (B := in_image_nth _ _ i H ltac:(lia)).
  etransitivity; [|apply (sumn_single' n (fun _ => nth i w 0) (Z.to_nat (nth i xp 0%Z))); lia].
  apply sumn_ext. intros b Hb.
  destruct (Z.eqb_spec (nth i xp 0%Z) (Z.of_nat b)), (Nat.eqb_spec (Z.to_nat (nth i xp 0%Z)) b); auto; lia.
Qed.

Lemma image_total : forall n xp yp w, in_image n xp -> in_image n yp -> length yp = length xp -> length w = length xp ->
  qsum (map qsum (image_T n xp yp w)) = qsum w.
Proof.
  intros. unfold image_T. rewrite qsum_T. rewrite <- (profile_total n xp) by auto. apply sumn_ext. intros.
  apply weight_row; auto.
Qed.

(** C34.  For particles inside the image, cell (a,b) of the image is the total
    weight of the particles with x=a and y=b; the GPU version gives the same
    image. *)
Lemma C34_image_partial_lem : forall n xp yp w, in_image n xp -> in_image n yp ->
  length yp = length xp -> length w = length xp ->
  exists img, wrapper_make_phase_space xp yp w n = Ok img /\ gpu_make_phase_space xp yp w n = Ok img /\
    rectangular n n img /\ forall a b, (a < n)%nat -> (b < n)%nat -> cell img a b = weight_at xp yp w a b.
Proof.
  intros n xp yp w Hx Hy Ly Lw. exists (image_T n xp yp w).
  assert (IX := ix_range _ _ _ Hx Hy Ly). split; [|split; [|split]].
  - unfold wrapper_make_phase_space. rewrite scat_cpu by auto. cbn [bind]. rewrite chunk_weight_at; auto.
  - rewrite scat_gpu by auto. rewrite chunk_weight_at; auto.
  - apply rect_of_T.
  - intros. unfold image_T. apply cell_T; auto.
Qed.

(** C34.  The image contains the whole weight, and its rows add up to the
    profile of the weights over x. *)
Lemma C34_conserved_partial_lem : forall n xp yp w, in_image n xp -> in_image n yp ->
  length yp = length xp -> length w = length xp ->
  exists img, wrapper_make_phase_space xp yp w n = Ok img /\ qsum (map qsum img) = qsum w /\
    map qsum img = tab n (profile_at xp w).
Proof.
  intros n xp yp w Hx Hy Ly Lw. exists (image_T n xp yp w).
  assert (IX := ix_range _ _ _ Hx Hy Ly). split; [|split].
  - unfold wrapper_make_phase_space. rewrite scat_cpu by auto. cbn [bind]. rewrite chunk_weight_at; auto.
  - apply image_total; auto.
  - unfold image_T, T. rewrite map_tab. apply tab_ext. intros a Ha. rewrite <- sumn_qsum.
    apply weight_row; auto.
Qed.

(** What is computed when only the combined index y + x*n is inside the
    array: the weight goes to the cell with that index. *)
Lemma C34_spill_partial_lem : forall n xp yp w, length yp = length xp -> length w = length xp ->
  (forall i, (i < length xp)%nat -> (0 <= nth i yp 0 + nth i xp 0 * Z.of_nat n < Z.of_nat (n * n))%Z) ->
  exists img, wrapper_make_phase_space xp yp w n = Ok img /\ forall a b, (a < n)%nat -> (b < n)%nat ->
    cell img a b = sumn (length xp) (fun i =>
      if (nth i yp 0 + nth i xp 0 * Z.of_nat n =? Z.of_nat a * Z.of_nat n + Z.of_nat b)%Z then nth i w 0 else 0).
Proof.
  intros n xp yp w Ly Lw IX. unfold wrapper_make_phase_space. rewrite scat_cpu by auto. cbn [bind].
  eexists. split; [reflexivity|]. intros a b Ha Hb. rewrite chunk_scat by auto. rewrite cell_T by auto.
  apply sumn_ext. intros i Hi. unfold ix. replace (Z.of_nat (a * n + b)) with (Z.of_nat a * Z.of_nat n + Z.of_nat b)%Z by lia. auto.
Qed.

(** C34 is false for particles above the image: not reported but put into the
    next column. *)
Lemma C34_outside_refuted_lem : ~ (forall n xp yp w, in_image n xp -> ~ in_image n yp ->
  length yp = length xp -> length w = length xp -> exists e, wrapper_make_phase_space xp yp w n = Fail (Raised e)).
Proof.
  intros H. destruct (H 2%nat [0]%Z [2]%Z [1]) as [e E]; auto.
  - repeat constructor; lia.
  - intros F. inversion F. lia.
  - vm_compute in E. discriminate.
Qed.

(** C34: particles below the image make the C++ routine write before the
    array. *)
Lemma C34_negative_refuted_lem : ~ (forall n xp yp w, in_image n xp ->
  length yp = length xp -> length w = length xp -> wrapper_make_phase_space xp yp w n <> Fail OutOfBounds).
Proof.
  intros H. apply (H 2%nat [0]%Z [-1]%Z [1]); auto.
  - repeat constructor; lia.
Qed.

(*EX*)
Example ex_C34 : match wrapper_make_phase_space [0; 1; 0]%Z [1; 0; 1]%Z [qz 2; qz 3; qz 5] 2 with
  | Ok img => map (map this) img = [[0; 7]; [3; 0]]%Q | Fail _ => False end.
Proof. vm_compute. reflexivity. Qed.
(*XE*)

Lemma column_ok : forall n m (t : list (list Z)) p, rectangular n m t -> (p < m)%nat ->
  column t p = Ok (map (fun r => nth p r 0%Z) t).
Proof.
  intros n m t p [L R] Hp. unfold column. apply mapM_ok_map. intros r Hr. rewrite Forall_forall in R.
  apply get_nth. rewrite (R _ Hr). auto.
Qed.

Lemma weight_at_nonneg : forall xp yp w a b, Forall (fun x => 0 <= x) w -> length w = length xp -> 0 <= weight_at xp yp w a b.
Proof.
  intros. unfold weight_at. apply sumn_nonneg. intros i Hi. rewrite Forall_forall in H.
  assert (0 <= nth i w 0) by (apply H, nth_In; lia). destruct (_ && _)%bool; auto. apply Qcle_refl.
Qed.

Lemma pos_ge : forall x, x <= pos x.
Proof. intros. unfold pos. destruct (qltb_spec x 0); qclra. Qed.

Lemma create_image_gen : forall xp yp w npart nprofs nbins p,
  rectangular npart nprofs xp -> rectangular npart nprofs yp -> length w = npart -> (p < nprofs)%nat ->
  in_image nbins (map (fun r => nth p r 0%Z) xp) -> in_image nbins (map (fun r => nth p r 0%Z) yp) ->
  let g := fun a b => pos (weight_at (map (fun r => nth p r 0%Z) xp) (map (fun r => nth p r 0%Z) yp) w a b) in
  create_phase_space_image xp yp w nbins p =
    mapM (mapM (fun v => qdiv v (sumn nbins (fun a => sumn nbins (g a))))) (T nbins nbins g).
Proof.
  intros xp yp w npart nprofs nbins p Rx Ry Lw Hp Ix Iy. unfold create_phase_space_image.
  rewrite (column_ok _ _ _ _ Rx Hp), (column_ok _ _ _ _ Ry Hp). cbn [bind].
  set (x := map (fun r => nth p r 0%Z) xp) in *. set (y := map (fun r => nth p r 0%Z) yp) in *.
  assert (Lx : length x = npart) by (unfold x; rewrite map_length; apply Rx).
  assert (Ly : length y = length x) by (unfold y; rewrite map_length, Lx; apply Ry).
  unfold wrapper_make_phase_space. rewrite scat_cpu; [|lia|lia|apply ix_range; auto]. cbn [bind].
  rewrite chunk_weight_at by auto. unfold image_T, clip_rows. change (fun x => if qltb x 0 then 0 else x) with pos.
  rewrite map_T, qsum_T. reflexivity.
Qed.

(** C35.  From weights with positive sum and particles inside the image, the
    image has no negative value and sums to one; without negative weights its
    cells are the cell weights divided by the total weight. *)
Lemma C35_image_lem : forall xp yp w npart nprofs nbins p,
  rectangular npart nprofs xp -> rectangular npart nprofs yp -> length w = npart -> (p < nprofs)%nat ->
  in_image nbins (map (fun r => nth p r 0%Z) xp) -> in_image nbins (map (fun r => nth p r 0%Z) yp) ->
  0 < qsum w ->
  exists img, create_phase_space_image xp yp w nbins p = Ok img /\ rectangular nbins nbins img /\
    Forall (Forall (fun v => 0 <= v)) img /\ qsum (map qsum img) = 1 /\
    (Forall (fun x => 0 <= x) w -> forall a b, (a < nbins)%nat -> (b < nbins)%nat ->
      cell img a b = weight_at (map (fun r => nth p r 0%Z) xp) (map (fun r => nth p r 0%Z) yp) w a b / qsum w).
Proof.
  intros xp yp w npart nprofs nbins p Rx Ry Lw Hp Ix Iy Pw.
  rewrite (create_image_gen xp yp w npart nprofs) by auto.
  set (x := map (fun r => nth p r 0%Z) xp) in *. set (y := map (fun r => nth p r 0%Z) yp) in *.
  assert (Lx : length x = npart) by (unfold x; rewrite map_length; apply Rx).
  assert (Ly : length y = length x) by (unfold y; rewrite map_length, Lx; apply Ry).
  set (g := fun a b => pos (weight_at x y w a b)).
  set (s := sumn nbins (fun a => sumn nbins (g a))).
  assert (I := image_total nbins x y w Ix Iy Ly ltac:(lia)). unfold image_T in I. rewrite qsum_T in I.
  assert (Ps : 0 < s).
  { eapply Qclt_le_trans; [exact Pw|]. rewrite <- I. unfold s. apply sumn_le. intros a Ha. apply sumn_le. intros b Hb.
    unfold g. apply pos_ge. }
  assert (NZ : s <> 0) by (apply Qclt_ne; auto).
  exists (T nbins nbins (fun a b => g a b / s)). split; [|split; [|split; [|split]]].
  - unfold T. apply mapM_tab. intros a Ha. apply mapM_tab. intros b Hb. apply qdiv_ok. auto.
  - apply rect_of_T.
  - apply Forall_forall. intros r Hr. apply in_tab in Hr. destruct Hr as [a [_ <-]].
    apply Forall_forall. intros v Hv. apply in_tab in Hv. destruct Hv as [b [_ <-]].
    apply Qcdiv_nonneg; auto. apply pos_nonneg.
  - rewrite qsum_T.
    rewrite (sumn_ext nbins _ (fun a => sumn nbins (g a) / s)) by (intros; apply sumn_div).
    rewrite sumn_div. fold s. unfold Qcdiv. apply Qcmult_inv_r. auto.
  - intros Nw a b Ha Hb. rewrite cell_T by auto.
    assert (G : forall a b, g a b = weight_at x y w a b) by (intros; apply pos_id, weight_at_nonneg; auto; lia).
    rewrite G. f_equal. rewrite <- I. unfold s. apply sumn_ext. intros. apply sumn_ext. intros. apply G.
Qed.

(** C35.  In particular the image of a reconstruction, at any profile at which
    the energy coordinates are inside the image. *)
Lemma C35_after_run_lem : forall sqrt t niter xp yp w d r c p, reachable t -> (0 <= niter)%Z ->
  run sqrt t niter = Ok (w, d, r, c) -> t_xp t = Some xp -> t_yp t = Some yp ->
  rectangular (length xp) (t_nprofs t) yp -> (p < t_nprofs t)%nat ->
  in_image (t_nbins t) (map (fun r => nth p r 0%Z) yp) ->
  exists img, create_phase_space_image xp yp w (t_nbins t) p = Ok img /\
    rectangular (t_nbins t) (t_nbins t) img /\ Forall (Forall (fun v => 0 <= v)) img /\ qsum (map qsum img) = 1.
Proof.
  intros sqrt t niter xp yp w d r c p R Hn E X Y Ry Hp Iy.
  assert (W := C20_weights_lem sqrt t niter R Hn). rewrite E in W. destruct W as (Nw & Pw & Lw).
  apply reachable_valid in R. assert (VX := v_xp _ R). rewrite X in VX. destruct VX as [Rx Fx].
  assert (NP := v_parts _ R).  rewrite X in NP. rewrite NP in Lw. simpl in Lw. injection Lw as Lw.
  destruct (C35_image_lem xp yp w (length xp) (t_nprofs t) (t_nbins t) p) as (img & A & B & C & D & _); auto.
  - unfold in_image. apply Forall_forall. intros z Hz. apply in_map_iff in Hz. destruct Hz as [row [<- Hr]].
    rewrite Forall_forall in Fx. specialize (Fx _ Hr). rewrite Forall_forall in Fx. apply Fx, nth_In.
    destruct Rx as [_ Rx]. rewrite Forall_forall in Rx. rewrite (Rx _ Hr). auto.
  - exists img. auto.
Qed.

(** C35.  Weights that are all zero make the image not-a-number (division by
    the zero sum). *)
Lemma C35_zero_refuted_lem : ~ (forall xp yp w npart nprofs nbins p,
  rectangular npart nprofs xp -> rectangular npart nprofs yp -> length w = npart -> (p < nprofs)%nat ->
  in_image nbins (map (fun r => nth p r 0%Z) xp) -> in_image nbins (map (fun r => nth p r 0%Z) yp) ->
  Forall (fun x => 0 <= x) w -> create_phase_space_image xp yp w nbins p <> Fail NotFinite).
Proof.
  intros H. apply (H [[0]]%Z [[0]]%Z [0] 1%nat 1%nat 1%nat 0%nat);
    [split; repeat constructor|split; repeat constructor|reflexivity|lia| | | |vm_compute; reflexivity].
  - constructor; [simpl; lia|constructor].
  - constructor; [simpl; lia|constructor].
  - constructor; [apply Qcle_refl|constructor].
Qed.

(** The caller's density array is changed by density_to_macro. *)
Lemma C35_density_to_macro_refuted_lem : ~ (forall density threshold density' prob,
  density_to_macro_prob density threshold = Ok (density', prob) -> density' = density).
Proof.
  intros H. destruct (density_to_macro_prob [[1; qz 3]] (qq 1 2)) as [[d p]|] eqn:E; [|vm_compute in E; discriminate].
  assert (D := H _ _ _ _ E). subst d. apply (f_equal (fun r => match r with Ok (d, _) => map (map this) d | Fail _ => [] end)) in E.
  vm_compute in E. discriminate.
Qed.

(*EX*)
Example ex_C35 : match create_phase_space_image [[0; 1]; [1; 1]]%Z [[1; 0]; [0; 1]]%Z [1; qz 3] 2 0 with
  | Ok img => map (map this) img = [[0; 1 # 4]; [3 # 4; 0]]%Q | Fail _ => False end.
Proof. vm_compute. reflexivity. Qed.
(*XE*)
