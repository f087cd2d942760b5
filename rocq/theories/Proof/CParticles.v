(** Property lemmas on particles (C14-C17). *)
(*HEAD*)
From Coq Require Import List ZArith QArith Qcanon Bool Lia.
From Verif Require Import Base.Res Base.QcLib Model.MRecon Model.MParticles Spec.TomoSpec Spec.ParticleSpec.
Import ListNotations.
Local Open Scope Qc_scope.
(*DAEH*)
From Coq Require Import Arith.
From Verif Require Import Base.ResLemmas Base.QcLemmas Base.Loops Proof.PRecon Proof.PHybrid Proof.PTomo Proof.PParticles.

(** C14.  Without not-a-number coordinates, filter_lost returns exactly the
    particles inside the image at every profile, in their order, with their
    own energies, and the number of the others; it raises
    InvalidParticleError exactly when no particle is left. *)
Lemma C14_filter_lost_partial_lem : forall B n m w xp (yp : list (list B)),
  rectangular n m xp -> rectangular n m yp -> (0 < n)%nat -> Forall (Forall not_nan) xp ->
  exists keep, survivors w m xp keep /\
  match filter_lost xp yp m m w with
  | Ok (xp', yp', lost) => keep <> [] /\ Forall2 (picked keep) xp xp' /\ Forall2 (picked keep) yp yp' /\
                           (lost + length keep = m)%nat
  | Fail e => e = Raised InvalidParticleError /\ keep = []
  end.
Proof.
  intros B n m w xp yp Rx Ry Hn F. exists (keepers w xp m). split; [eapply keepers_survivors; eauto|].
  apply (filter_lost_gen w B n m xp yp Rx Ry Hn).
Qed.

(** C14 is false with not-a-number coordinates: the particle is kept. *)
Lemma C14_nan_refuted_lem : ~ (forall n m w xp (yp : list (list num)) xp' yp' lost,
  rectangular n m xp -> rectangular n m yp -> (0 < n)%nat ->
  filter_lost xp yp m m w = Ok (xp', yp', lost) -> Forall (Forall (inside w)) xp').
Proof.
  intros H. specialize (H 1%nat 1%nat 4%Z [[NNaN]] [[NNaN]] [[NNaN]] [[NNaN]] 0%nat).
  assert (F : Forall (Forall (inside 4)) [[NNaN]]).
  { apply H; try reflexivity; try lia; split; repeat constructor. }
  inversion F. inversion H2. contradiction.
Qed.

(*EX*)
(** Two profiles, three particles; the second leaves at the second profile. *)
Definition ex_xp : list (list num) := [[Num 1; Num (qq 5 2); Num 0]; [Num (qq 7 2); Num (qz 4); Num 0]].
Definition ex_yp : list (list num) := [[Num 1; Num (qz 2); Num (qz 3)]; [Num 1; Num 1; Num (qq 1 2)]].
Example ex_C14 : filter_lost ex_xp ex_yp 3 3 4 =
  Ok ([[Num 1; Num 0]; [Num (qq 7 2); Num 0]], [[Num 1; Num (qz 3)]; [Num 1; Num (qq 1 2)]], 1%nat).
Proof. vm_compute. reflexivity. Qed.
Example ex_C14_all_lost : filter_lost [[Num (qz 4)]] [[Num 0]] 1 1 4 = Fail (Raised InvalidParticleError).
Proof. reflexivity. Qed.
(*XE*)

Lemma Forall2_length : forall A B (R : A -> B -> Prop) l l', Forall2 R l l' -> length l = length l'.
Proof. intros A B R l l' F. induction F; simpl; auto. Qed.
Lemma Forall2_nth_error_inv : forall A B (R : A -> B -> Prop) l l', Forall2 R l l' ->
  forall i a b, nth_error l i = Some a -> nth_error l' i = Some b -> R a b.
Proof. intros A B R l l' F. induction F; intros i a b Ha Hb; destruct i; simpl in *; try discriminate; [congruence|eauto]. Qed.
Lemma Forall2_nth_error : forall A B (R : A -> B -> Prop) l l', length l = length l' ->
  (forall i a b, nth_error l i = Some a -> nth_error l' i = Some b -> R a b) -> Forall2 R l l'.
Proof.
  induction l; intros l' L H; destruct l'; try discriminate; constructor.
  - apply (H 0%nat); auto.
  - apply IHl; [simpl in L; lia|]. intros i x y. apply (H (S i)).
Qed.

Lemma num_to_int_inside : forall n x, inside (Z.of_nat n) x -> (0 <= num_to_int x < Z.of_nat n)%Z.
Proof. intros n x H. destruct x; simpl in H; try contradiction. simpl. apply qtrunc_range; tauto. Qed.

Lemma picked_length : forall A keep (r r' : list A), picked keep r r' -> length r' = length keep.
Proof. intros A keep r r' P. unfold picked in P. apply (f_equal (@length _)) in P. rewrite !map_length in P. auto. Qed.

Lemma picked_rect : forall A n m keep (t t' : list (list A)), rectangular n m t -> Forall2 (picked keep) t t' ->
  rectangular n (length keep) t'.
Proof.
  intros A n m keep t t' [L R] F. split.
  - rewrite <- L. symmetry. eapply Forall2_length; eauto.
  - clear L R. induction F; constructor; auto. eapply picked_length; eauto.
Qed.

Lemma transpose_l_T : forall A n k (f : nat -> nat -> A), transpose_l k (T n k f) = Ok (T k n (fun j i => f i j)).
Proof.
  intros. unfold transpose_l. rewrite seq_tab. apply mapM_tab. intros j Hj. unfold T. apply mapM_tab. intros i Hi.
  rewrite get_tab by auto. reflexivity.
Qed.

Lemma transpose_picked : forall n m keep (t t' : list (list num)), rectangular n m t -> (0 < n)%nat ->
  Forall2 (picked keep) t t' ->
  exists x, transpose_l (match t' with [] => 0%nat | r :: _ => length r end) (map (map num_to_int) t') = Ok x /\
    rectangular (length keep) n x /\
    Forall2 (fun j r => map Some r = map (fun row => option_map num_to_int (nth_error row j)) t) keep x /\
    (forall P : Z -> Prop, Forall (Forall (fun v => P (num_to_int v))) t' -> Forall (Forall P) x).
Proof.
  intros n m keep t t' R Hn F. assert (R' := picked_rect _ _ _ _ _ _ R F).
  assert (C : match t' with [] => 0%nat | r :: _ => length r end = length keep).
  { destruct R' as [L R']. destruct t'; [simpl in L; lia|]. inversion R'; auto. }
  rewrite C. set (k := length keep) in *.
  assert (E := rect_T _ _ _ _ NNaN R'). assert (TR := transpose_l_T _ n k (fun i j => num_to_int (nth j (nth i t' []) NNaN))).
  rewrite <- map_T, <- E in TR. rewrite TR.
  eexists. split; [reflexivity|]. split; [|split].
  - split; [apply tab_length|]. apply Forall_forall. intros r Hr. apply in_tab in Hr. destruct Hr as [i [_ <-]]. apply tab_length.
  - apply Forall2_nth_error; [unfold T; rewrite tab_length; auto|].
    intros a j r Hj Hr. assert (Ha : (a < k)%nat) by (apply nth_error_Some; congruence).
    unfold T in Hr. rewrite nth_error_tab in Hr by auto. inversion Hr; subst r. clear Hr.
    rewrite map_tab. destruct R as [L R]. symmetry. apply tab_as; [rewrite map_length; auto|].
    intros i Hi. rewrite nth_error_map.
    destruct (nth_error t i) as [row|] eqn:Ei; [|apply nth_error_None in Ei; lia]. simpl. f_equal.
    destruct (nth_error t' i) as [row'|] eqn:Ei'; [|destruct R' as [L' _]; apply nth_error_None in Ei'; lia].
    assert (P : picked keep row row') by (eapply (Forall2_nth_error_inv _ _ _ _ _ F); eauto).
    rewrite (nth_error_nth _ _ _ Ei'). unfold picked in P.
    assert (Q := f_equal (fun l => nth_error l a) P). simpl in Q. rewrite !nth_error_map, Hj in Q. simpl in Q.
    destruct (nth_error row' a) as [v|] eqn:Ev; simpl in Q; [|exfalso; apply nth_error_None in Ev; apply picked_length in P; fold k in P; lia].
    inversion Q as [Q']. rewrite (nth_error_nth _ _ _ Ev). reflexivity.
  - intros P FP. apply Forall_forall. intros r Hr. apply in_tab in Hr. destruct Hr as [j [Hj <-]].
    apply Forall_forall. intros z Hz. apply in_tab in Hz. destruct Hz as [i [Hi <-]].
    destruct R' as [L' R']. rewrite Forall_forall in R', FP.
    assert (I : In (nth i t' []) t') by (apply nth_In; lia). specialize (FP _ I). rewrite Forall_forall in FP. apply FP.
    apply nth_In. rewrite (R' _ I). auto.
Qed.

(** C15.  Without not-a-number positions, the arrays returned by
    ready_for_tomography, one row per surviving particle and one column per
    profile with the integer parts of the coordinates, are accepted by the
    Tomography constructor whatever the waterfall, and stored unchanged. *)
Lemma C15_ready_partial_lem : forall n m nbins xp yp,
  rectangular n m xp -> rectangular n m yp -> (0 < n)%nat -> Forall (Forall not_nan) xp ->
  exists keep, survivors (Z.of_nat nbins) m xp keep /\
  match ready_for_tomography xp yp m m (Z.of_nat nbins) with
  | Ok (x, y) =>
    keep <> [] /\
    Forall2 (fun j r => map Some r = map (fun row => option_map num_to_int (nth_error row j)) xp) keep x /\
    Forall2 (fun j r => map Some r = map (fun row => option_map num_to_int (nth_error row j)) yp) keep y /\
    forall wf t0, tomography n nbins wf CNone CNone = Ok t0 ->
      tomography n nbins wf (CArr2 n (map (map qz) x)) (CArr2 n (map (map qz) y)) =
      Ok (Tomo (t_waterfall t0) n nbins (Some x) (Some y) (Some (length keep)))
  | Fail e => e = Raised InvalidParticleError /\ keep = []
  end.
Proof.
  intros n m nbins xp yp Rx Ry Hn F. set (w := Z.of_nat nbins).
  assert (S := keepers_survivors w _ _ _ Rx F). exists (keepers w xp m). split; auto.
  assert (G := filter_lost_gen w num n m xp yp Rx Ry Hn). unfold ready_for_tomography.
  destruct (filter_lost xp yp m m w) as [[[xp' yp'] lost]|e]; [|exact G].
  destruct G as (K & Px & Py & _). cbn [bind].
  destruct (transpose_picked _ _ _ _ _ Rx Hn Px) as (x & Ex & RX & FX & QX).
  destruct (transpose_picked _ _ _ _ _ Ry Hn Py) as (y & Ey & RY & FY & _).
  rewrite Ex. cbn [bind]. rewrite Ey. cbn [bind]. split; auto. split; auto. split; auto.
  intros wf t0 E0. unfold tomography in E0 |- *. destruct (normalize_profiles (clip_rows wf)) as [nw|]; [|discriminate].
  cbn [bind] in E0 |- *. cbn in E0. inversion E0; subst t0; clear E0. cbn [t_waterfall].
  assert (IN : Forall (Forall (fun z => (0 <= z < w)%Z)) x).
  { apply QX. apply Forall_forall. intros r Hr. apply Forall_forall. intros v Hv. apply num_to_int_inside.
    destruct S as [_ S].
    apply In_nth_error in Hr. destruct Hr as [i Hi].
    assert (exists row, nth_error xp i = Some row).
    { assert (L := Forall2_length _ _ _ _ _ Px). destruct (nth_error xp i) eqn:E; eauto. apply nth_error_None in E.
      assert (i < length xp')%nat by (apply nth_error_Some; congruence). lia. }
    destruct H as [row Hrow]. assert (P : picked (keepers w xp m) row r) by (eapply (Forall2_nth_error_inv _ _ _ _ _ Px); eauto).
    apply In_nth_error in Hv. destruct Hv as [a Ha]. assert (Q := f_equal (fun l => nth_error l a) P). simpl in Q.
    rewrite !nth_error_map, Ha in Q. simpl in Q. destruct (nth_error (keepers w xp m) a) as [j|] eqn:Ej; [|discriminate].
    simpl in Q. injection Q as Q'.
    apply nth_error_In in Ej. apply S in Ej. destruct Ej as [_ Ej]. apply (Ej row); auto. eapply nth_error_In; eauto. }
  assert (TI : forall l, to_int (map (map qz) l) = l).
  { intros l. unfold to_int. rewrite map_map. rewrite <- (map_id l) at 2. apply map_ext. intros r.
    rewrite map_map. rewrite <- (map_id r) at 2. apply map_ext. intros. apply qtrunc_qz. }
  unfold set_xp at 1. cbn [t_nprofs t_nbins]. rewrite Nat.eqb_refl. cbn [negb].
  assert (E1 : existsb (existsb (fun v => qltb v 0)) (map (map qz) x) = false).
  { rewrite <- not_true_iff_false. intros E. apply existsb_exists in E. destruct E as [r [Hr E]].
    apply in_map_iff in Hr. destruct Hr as [r' [<- Hr]]. apply existsb_exists in E. destruct E as [v [Hv E]].
    apply in_map_iff in Hv. destruct Hv as [z [<- Hz]]. rewrite Forall_forall in IN. specialize (IN _ Hr).
    rewrite Forall_forall in IN. specialize (IN _ Hz). apply qltb_true in E. rewrite <- qz_0 in E. apply (proj1 (qz_lt _ _)) in E. cbv beta in IN. lia. }
  assert (E2 : existsb (existsb (fun v => qleb (qn nbins) v)) (map (map qz) x) = false).
  { rewrite <- not_true_iff_false. intros E. apply existsb_exists in E. destruct E as [r [Hr E]].
    apply in_map_iff in Hr. destruct Hr as [r' [<- Hr]]. apply existsb_exists in E. destruct E as [v [Hv E]].
    apply in_map_iff in Hv. destruct Hv as [z [<- Hz]]. rewrite Forall_forall in IN. specialize (IN _ Hr).
    rewrite Forall_forall in IN. specialize (IN _ Hz). apply qleb_true in E. unfold qn in E. apply (proj1 (qz_le _ _)) in E. cbv beta in IN. unfold w in IN. lia. }
  rewrite E1, E2. cbn [orb lift_exn snd fst bind].
  unfold set_yp. cbn [t_xp put_nparts put_xp]. unfold same_shape. cbn [t_nprofs].
  rewrite TI, map_length. destruct RX as [LX _], RY as [LY _]. rewrite LX, LY, !Nat.eqb_refl. cbn [andb].
  rewrite TI. unfold put_yp, put_nparts, put_xp, lift_exn. cbn. rewrite map_length, LX. reflexivity.
Qed.

(** C15 is false with not-a-number positions: the surviving particle gets the
    smallest integer as position, which the constructor rejects. *)
Lemma C15_nan_refuted_lem : ~ (forall n m nbins xp yp x y wf t0,
  rectangular n m xp -> rectangular n m yp -> (0 < n)%nat ->
  ready_for_tomography xp yp m m (Z.of_nat nbins) = Ok (x, y) ->
  tomography n nbins wf CNone CNone = Ok t0 ->
  exists t, tomography n nbins wf (CArr2 n (map (map qz) x)) (CArr2 n (map (map qz) y)) = Ok t).
Proof.
  intros H.
  destruct (tomography 1 4 [[1; 0; 0; 0]] CNone CNone) as [t0|] eqn:E0; [|vm_compute in E0; discriminate].
  destruct (H 1%nat 1%nat 4%nat [[NNaN]] [[Num 1]] [[int_min]] [[1%Z]] [[1; 0; 0; 0]] t0) as [t Ht];
    auto; try (split; repeat constructor); try (vm_compute; reflexivity).
  vm_compute in Ht. discriminate.
Qed.

(*EX*)
Example ex_C15 : ready_for_tomography ex_xp ex_yp 3 3 4 = Ok ([[1; 3]; [0; 0]]%Z, [[1; 1]; [3; 0]]%Z).
Proof. vm_compute. reflexivity. Qed.
(*XE*)

Lemma combine_seq_nth : forall A (l : list A) i x, nth_error l i = Some x ->
  nth_error (combine (seq 0 (length l)) l) i = Some (i, x).
Proof.
  intros A l. assert (G : forall (l : list A) k i x, nth_error l i = Some x -> nth_error (combine (seq k (length l)) l) i = Some ((k + i)%nat, x)).
  { clear. induction l; intros k i x H; destruct i; simpl in *; try discriminate.
    - inversion H. rewrite Nat.add_0_r. auto.
    - rewrite (IHl (S k) i x H). f_equal. f_equal. lia. }
  intros. rewrite (G l 0%nat i x); auto.
Qed.

Lemma mapM_nth_error : forall A B (f : A -> res B) l l' i a, mapM f l = Ok l' -> nth_error l i = Some a ->
  exists b, f a = Ok b /\ nth_error l' i = Some b.
Proof.
  intros A B f l l' i a H. apply mapM_Forall2 in H. revert i. induction H; intros i Hi; destruct i; simpl in *; try discriminate.
  - inversion Hi; subst. eauto.
  - eauto.
Qed.

Lemma physical_rows : forall m xo de dphi den xp yp i f e, physical_to_coords m xo de dphi den = Ok (xp, yp) ->
  nth_error dphi i = Some f -> nth_error den i = Some e ->
  exists p0 om x y, get (c_phi0 m) (Z.of_nat i * c_dturns m) = Ok p0 /\ get (c_omega m) (Z.of_nat i * c_dturns m) = Ok om /\
    nth_error xp i = Some x /\ nth_error yp i = Some y /\
    mapM (fun f => q <- qdiv (f + p0) (c_hnum m * om * c_dtbin m) ;; Ok (q - xo)) f = Ok x /\
    mapM (fun e => q <- qdiv e de ;; Ok (q + c_synch_y m)) e = Ok y.
Proof.
  intros m xo de dphi den xp yp i f e H Hf He. unfold physical_to_coords in H. destruct (negb _); [discriminate|].
  match type of H with bind ?a _ = _ => destruct a as [xp0|] eqn:Ex; [|discriminate] end. cbn [bind] in H.
  match type of H with bind ?a _ = _ => destruct a as [yp0|] eqn:Ey; [|discriminate] end. cbn [bind] in H.
  inversion H; subst xp0 yp0; clear H.
  destruct (mapM_nth_error _ _ _ _ _ _ _ Ex (combine_seq_nth _ _ _ _ Hf)) as [x [Hx Nx]].
  destruct (mapM_nth_error _ _ _ _ _ _ _ Ey He) as [y [Hy Ny]].
  cbn [fst snd] in Hx. destruct (get (c_phi0 m) _) as [p0|] eqn:E1; [|discriminate]. cbn [bind] in Hx.
  destruct (get (c_omega m) _) as [om|] eqn:E2; [|discriminate]. cbn [bind] in Hx.
  exists p0, om, x, y. auto 10.
Qed.


Lemma mapM_map_id : forall A B (f : A -> res B) (g : B -> A) (l l' : list B),
  (forall b b', f (g b) = Ok b' -> b' = b) -> mapM f (map g l) = Ok l' -> l' = l.
Proof.
  intros A B f g l l' H E. apply mapM_Forall2 in E. revert l' E. induction l; intros l' E; inversion E; subst; auto.
  f_equal; auto.
Qed.
Lemma map_mapM_id : forall A B (f : A -> res B) (g : B -> A) (l : list A) l',
  (forall a b, f a = Ok b -> g b = a) -> mapM f l = Ok l' -> map g l' = l.
Proof.
  intros A B f g l l' H E. apply mapM_Forall2 in E. induction E; simpl; f_equal; auto.
Qed.

(** C16.  Physical coordinates computed from bin coordinates at a profile are
    converted back to the same bin coordinates. *)
Lemma C16_bins_roundtrip_lem : forall m xorigin dEbin p xs ys fs es dphi denergy xp yp,
  bin_nr_to_physical m xorigin dEbin (Z.of_nat p) 0 (xs, ys) = Ok (fs, es) ->
  nth_error dphi p = Some fs -> nth_error denergy p = Some es ->
  physical_to_coords m xorigin dEbin dphi denergy = Ok (xp, yp) ->
  nth_error xp p = Some xs /\ nth_error yp p = Some ys.
Proof.
  intros m xo de p xs ys fs es dphi den xp yp B Hf He H.
  destruct (physical_rows _ _ _ _ _ _ _ _ _ _ H Hf He) as (p0 & om & x & y & G1 & G2 & Nx & Ny & Ex & Ey).
  unfold bin_nr_to_physical in B. rewrite Z.add_0_r, G1, G2 in B. cbn [bind fst snd] in B. inversion B; subst fs es.
  rewrite Nx, Ny. split; f_equal.
  - apply (mapM_map_id _ _ _ (fun x => (x + xo) * c_hnum m * om * c_dtbin m - p0) _ _) in Ex; auto.
    intros b b' E. destruct (qdiv _ _) as [q|] eqn:Q; [|discriminate]. cbn [bind] in E. inversion E; subst b'.
    apply qdiv_inv in Q. destruct Q as [Q1 ->]. field. repeat split; intros E0; apply Q1; rewrite E0; ring.
  - apply (mapM_map_id _ _ _ (fun y => (y - c_synch_y m) * de) _ _) in Ey; auto.
    intros b b' E. destruct (qdiv _ _) as [q|] eqn:Q; [|discriminate]. cbn [bind] in E. inversion E; subst b'.
    apply qdiv_inv in Q. destruct Q as [Q1 ->]. field. auto.
Qed.

(** C16.  Bin coordinates computed from physical coordinates are converted
    back to the same physical coordinates. *)
Lemma C16_physical_roundtrip_lem : forall m xorigin dEbin p fs es dphi denergy xp yp,
  nth_error dphi p = Some fs -> nth_error denergy p = Some es ->
  physical_to_coords m xorigin dEbin dphi denergy = Ok (xp, yp) ->
  exists xs ys, nth_error xp p = Some xs /\ nth_error yp p = Some ys /\
    bin_nr_to_physical m xorigin dEbin (Z.of_nat p) 0 (xs, ys) = Ok (fs, es).
Proof.
  intros m xo de p fs es dphi den xp yp Hf He H.
  destruct (physical_rows _ _ _ _ _ _ _ _ _ _ H Hf He) as (p0 & om & x & y & G1 & G2 & Nx & Ny & Ex & Ey).
  exists x, y. split; auto. split; auto. unfold bin_nr_to_physical. rewrite Z.add_0_r, G1, G2. cbn [bind fst snd].
  f_equal. f_equal.
  - apply (map_mapM_id _ _ _ _ _ _) with (2 := Ex). intros a b E.
    destruct (qdiv _ _) as [q|] eqn:Q; [|discriminate]. cbn [bind] in E. inversion E; subst b.
    apply qdiv_inv in Q. destruct Q as [Q1 ->]. field. repeat split; intros E0; apply Q1; rewrite E0; ring.
  - apply (map_mapM_id _ _ _ _ _ _) with (2 := Ey). intros a b E.
    destruct (qdiv _ _) as [q|] eqn:Q; [|discriminate]. cbn [bind] in E. inversion E; subst b.
    apply qdiv_inv in Q. destruct Q as [Q1 ->]. field. auto.
Qed.

(** C16.  The conversion succeeds for tables of one shape when the machine
    arrays are long enough and no divisor is zero; otherwise different shapes
    raise InvalidParticleError. *)
Lemma C16_accepted_lem : forall m xorigin dEbin n k dphi denergy,
  rectangular n k dphi -> rectangular n k denergy -> (0 <= c_dturns m)%Z ->
  ((Z.of_nat n - 1) * c_dturns m < Z.of_nat (length (c_omega m)))%Z -> length (c_phi0 m) = length (c_omega m) ->
  c_hnum m <> 0 -> c_dtbin m <> 0 -> Forall (fun om => om <> 0) (c_omega m) -> dEbin <> 0 ->
  exists xp yp, physical_to_coords m xorigin dEbin dphi denergy = Ok (xp, yp) /\ rectangular n k xp /\ rectangular n k yp.
Proof.
  intros m xo de n k dphi den R1 R2 Hd Hl Hp Hh Ht Hom He.
  rewrite (rect_T _ _ _ _ 0 R1), (rect_T _ _ _ _ 0 R2).
  unfold physical_to_coords.
  set (f := fun i j => nth j (nth i dphi []) 0). set (e := fun i j => nth j (nth i den []) 0).
  assert (RT : forall A (g : nat -> nat -> A), rectangular n k (T n k g)).
  { intros. split; [apply tab_length|]. apply Forall_forall. intros r Hr. apply in_tab in Hr. destruct Hr as [i [_ <-]]. apply tab_length. }
  assert (Hs : shape_eq (T n k f) (T n k e) = true).
  { unfold shape_eq, T. rewrite !tab_length, Nat.eqb_refl. simpl. rewrite combine_tab. apply forallb_forall.
    intros p Hp0. apply in_tab in Hp0. destruct Hp0 as [i [_ <-]]. simpl. rewrite !tab_length. apply Nat.eqb_refl. }
  rewrite Hs. cbn [negb].
  assert (N : forall i, (i < n)%nat -> (Z.of_nat i * c_dturns m < Z.of_nat (length (c_omega m)))%Z) by (intros; nia).
  set (om := fun i => nth (Z.to_nat (Z.of_nat i * c_dturns m)) (c_omega m) 0).
  set (p0 := fun i => nth (Z.to_nat (Z.of_nat i * c_dturns m)) (c_phi0 m) 0).
  assert (GN : forall (l : list Qc) z, (0 <= z < Z.of_nat (length l))%Z -> get l z = Ok (nth (Z.to_nat z) l 0)).
  { intros l z Hz. unfold get. destruct (Z.ltb_spec z 0); [lia|]. rewrite (nth_error_nth' l 0) by lia. auto. }
  assert (L : length (T n k f) = n) by apply tab_length. rewrite L. rewrite seq_tab. unfold T at 1. rewrite combine_tab.
  rewrite (mapM_tab _ _ _ n _ (fun i => tab k (fun j => (f i j + p0 i) / (c_hnum m * om i * c_dtbin m) - xo))).
  2:{ intros i Hi. cbn [fst snd]. specialize (N i Hi). rewrite GN by nia. rewrite GN by nia. cbn [bind].
      fold (om i) (p0 i).
      apply mapM_tab. intros j Hj. rewrite qdiv_ok; auto.
      assert (om i <> 0). { rewrite Forall_forall in Hom. apply Hom, nth_In. nia. }
      intros Z. apply Qcmul_eq_0 in Z. destruct Z as [Z|Z]; auto. apply Qcmul_eq_0 in Z. tauto. }
  cbn [bind].
  unfold T at 1. rewrite (mapM_tab _ _ _ n _ (fun i => tab k (fun j => e i j / de + c_synch_y m))).
  2:{ intros i Hi. apply mapM_tab. intros j Hj. rewrite qdiv_ok; auto. }
  cbn [bind]. do 2 eexists. split; [reflexivity|]. split; apply RT.
Qed.

(*EX*)
Definition ex_cm : cmachine := CMachine (qz 2) [qz 3; qz 4; qz 5] (qq 1 2) [1; qz 2; qz 3] 2 (qz 4).
Example ex_C16 : exists fs es, bin_nr_to_physical ex_cm (qq 1 3) (qz 7) 1 0 ([qq 3 2; 0], [qz 4; qz 6]) = Ok (fs, es) /\
  map this fs = [37 # 6; -4 # 3]%Q /\ map this es = [0; 14]%Q.
Proof. do 2 eexists. split; [reflexivity|]. split; vm_compute; reflexivity. Qed.
(*XE*)

(** C17.  The start distribution contains, for each cell inside the limits,
    exactly the snpt x snpt regular grid of that cell, and no other particle. *)
Lemma C17_homogeneous_partial_lem : forall snpt imin imax jmin jmax, (0 < snpt)%nat ->
  (0 <= imin)%Z -> (imax < Z.of_nat (length jmin))%Z -> length jmax = length jmin -> jmin <> [] ->
  exists c, homogeneous_coords snpt imin imax jmin jmax = Ok c /\
    forall i j, filter (in_cell i j) c =
      if ((imin <=? i) && (i <=? imax) && (nth (Z.to_nat i) jmin 0 <=? j) && (j <? nth (Z.to_nat i) jmax 0))%Z
      then cell_points snpt i j else [].
Proof. exact homogeneous_cells. Qed.

(** C17.  The grid of a cell has snpt^2 points, all strictly inside the cell. *)
Lemma C17_cell_points_lem : forall snpt i j, (0 < snpt)%nat ->
  length (cell_points snpt i j) = (snpt * snpt)%nat /\
  Forall (fun p => qz i < fst p /\ fst p < qz (i + 1) /\ qz j < snd p /\ snd p < qz (j + 1)) (cell_points snpt i j).
Proof.
  intros s i j Hs. split.
  - unfold cell_points. assert (G : forall (g : nat -> nat -> Qc * Qc) l l', length (flat_map (fun b => map (g b) l) l') = (length l' * length l)%nat).
    { clear. induction l'; simpl; auto. rewrite app_length, map_length, IHl'. auto. }
    rewrite (G (fun b a => _)). rewrite seq_length. auto.
  - apply Forall_forall. intros p Hp. unfold cell_points in Hp. apply in_flat_map in Hp. destruct Hp as [b [Hb Hp]].
    apply in_map_iff in Hp. destruct Hp as [a [<- Ha]]. cbn [fst snd].
    assert (Fa : In ((qz 2 * qn a - 1) / (qz 2 * qn s)) (bin_pts s)) by (unfold bin_pts; apply in_map_iff; eauto).
    assert (Fb : In ((qz 2 * qn b - 1) / (qz 2 * qn s)) (bin_pts s)) by (unfold bin_pts; apply in_map_iff; eauto).
    apply bin_pts_in in Fa, Fb. rewrite !qz_add, qz_1. destruct Fa, Fb. repeat split; qclra.
Qed.

(** C17 in physical units: particles of the reconstructed profile, converted
    back, are the points of the homogeneous distribution. *)
Lemma C17_physical_lem : forall m xorigin dEbin snpt imin imax jmin jmax p fs es dphi denergy xp yp,
  homogeneous_distribution m xorigin dEbin snpt imin imax jmin jmax (Z.of_nat p) 0 = Ok (fs, es) ->
  nth_error dphi p = Some fs -> nth_error denergy p = Some es ->
  physical_to_coords m xorigin dEbin dphi denergy = Ok (xp, yp) ->
  exists c, homogeneous_coords snpt imin imax jmin jmax = Ok c /\
    nth_error xp p = Some (map fst c) /\ nth_error yp p = Some (map snd c).
Proof.
  intros m xo de s imin imax jmin jmax p fs es dphi den xp yp H Hf He E. unfold homogeneous_distribution in H.
  destruct (homogeneous_coords s imin imax jmin jmax) as [c|]; [|discriminate]. cbn [bind] in H.
  exists c. split; auto. eapply C16_bins_roundtrip_lem; eauto.
Qed.

(** A largest phase bin equal to the number of bins, accepted by the checks on
    the limits, makes the distribution fail with IndexError. *)
Lemma C17_imax_refuted_lem : ~ (forall snpt imin imax jmin jmax, (0 < snpt)%nat ->
  (0 <= imin)%Z -> (imin <= imax)%Z -> (imax <= Z.of_nat (length jmax))%Z -> length jmax = length jmin -> jmin <> [] ->
  exists c, homogeneous_coords snpt imin imax jmin jmax = Ok c).
Proof.
  intros H. destruct (H 1%nat 0%Z 2%Z [1; 1]%Z [2; 2]%Z) as [c Hc]; simpl; auto; try lia; try discriminate.
Qed.

(*EX*)
Example ex_C17 : match homogeneous_coords 2 0 1 [1; 0]%Z [2; 1]%Z with
  | Ok c => map (fun p => (this (fst p), this (snd p))) c =
     [(5 # 4, 1 # 4); (7 # 4, 1 # 4); (5 # 4, 3 # 4); (7 # 4, 3 # 4);
      (1 # 4, 5 # 4); (3 # 4, 5 # 4); (1 # 4, 7 # 4); (3 # 4, 7 # 4)]%Q
  | Fail _ => False end.
Proof. vm_compute. reflexivity. Qed.
(*XE*)
