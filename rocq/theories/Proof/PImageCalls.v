(** Phase-space images made from arrays. *)
From Coq Require Import List ZArith Bool QArith Qcanon.
From Verif Require Import Base.Res Base.QcLib Model.MBind Model.MRecon Model.MImage Model.MCalls Model.MImageCalls
  Spec.CallsSpec Spec.TomoCallsSpec Spec.ImageCallsSpec.
Import ListNotations.
From Coq Require Import Lia Arith.
From Verif Require Import Base.ResLemmas Base.QcLemmas Base.Loops Spec.ReconSpec Spec.TomoSpec Spec.ParticleSpec
  Proof.PRecon Proof.PHybrid Proof.PTomo Proof.CImage Proof.PCalls Proof.PCalls2 Proof.PCalls3 Proof.PTomoCalls.

Section Facts.
Variable single : Qc -> Qc.

Definition given (t : nty) (a : narr) : narr := if fits t a then a else converted single t a.

Lemma image_precision_dec : forall d w x y, image_precision d w x y ->
  match d with F32 => fits (NFloats F32) w = true /\ fits NInts x = true /\ fits NInts y = true
             | F64 => fits (NFloats F32) w && fits NInts x && fits NInts y = false end.
Proof.
  intros d w x y [(-> & A & B & C)|(-> & H)].
  - rewrite (proj2 (fits_floats _ _) A), (proj2 (fits_ints _) B), (proj2 (fits_ints _) C). auto.
  - destruct (fits (NFloats F32) w) eqn:A; auto. destruct (fits NInts x) eqn:B; auto.
    destruct (fits NInts y) eqn:C; auto.
    exfalso. apply H. split; [|split]; [apply fits_floats|apply fits_ints|apply fits_ints]; auto.
Qed.

Lemma kept_put : forall t h a, kept h (put single t h a).
Proof. intros t h a k b. apply put_old. Qed.

Lemma image_choose : forall h lx ly lw ax ay aw d nb,
  nth_error h lx = Some ax -> nth_error h ly = Some ay -> nth_error h lw = Some aw ->
  image_precision d aw ax ay -> (0 <= nb < 2 ^ 31)%Z ->
  exists v h1 x1 y1 w1,
    choose single image_versions h [VArr lx; VArr ly; VArr lw; VInt nb] =
      Some (v, h1, [VArr x1; VArr y1; VArr w1; VInt nb]) /\
    match v with O => F64 | _ => F32 end = d /\ kept h h1 /\ (List.length h <= List.length h1)%nat /\
    nth_error h1 x1 = Some (given NInts ax) /\ nth_error h1 y1 = Some (given NInts ay) /\
    nth_error h1 w1 = Some (given (NFloats d) aw).
Proof.
  intros h lx ly lw ax ay aw d nb A B C P N. apply image_precision_dec in P.
  unfold choose. set (R := first_version single true image_versions h [VArr lx; VArr ly; VArr lw; VInt nb]).
  unfold image_versions. cbn [first_version nload_all].
  rewrite !(exact_ints single _ _ _ A).
  assert (Conv : exists h1 x1 y1 w1,
    nload_all single true [NInts; NInts; NFloats F64; NInt] h [VArr lx; VArr ly; VArr lw; VInt nb] =
      Some (h1, [VArr x1; VArr y1; VArr w1; VInt nb]) /\ kept h h1 /\ (List.length h <= List.length h1)%nat /\
    nth_error h1 x1 = Some (given NInts ax) /\ nth_error h1 y1 = Some (given NInts ay) /\
    nth_error h1 w1 = Some (given (NFloats F64) aw)).
  { cbn [nload_all]. rewrite (load_ints single _ _ _ A).
    assert (B1 := kept_put NInts h ax _ _ B). rewrite (load_ints single _ _ _ B1).
    assert (C1 := kept_put NInts h ax _ _ C). assert (C2 := kept_put NInts _ ay _ _ C1).
    rewrite (load_floats single F64 _ _ _ C2), load_Z by auto.
    do 4 eexists. split; [reflexivity|].
    split; [intros k b K; do 3 apply kept_put; exact K|].
    split; [do 2 (eapply Nat.le_trans; [apply put_len|]); apply put_len|].
    split; [do 2 apply kept_put; exact (put_here single _ _ _ _ A)|].
    split; [apply kept_put; exact (put_here single _ _ _ _ B1)|].
    exact (put_here single _ _ _ _ C2). }
  cbn [nload_all] in Conv.
  assert (G : fits (NFloats F64) aw = true -> fits (NFloats F32) aw = true -> False).
  { intros E G. apply fits_floats in E. apply fits_floats in G. destruct E as (? & ? & ->), G as (? & ? & G). discriminate. }
  assert (K0 : kept h h) by (intros k b K; exact K).
  assert (Done : d = F64 -> exists v h1 x1 y1 w1,
    R = Some (v, h1, [VArr x1; VArr y1; VArr w1; VInt nb]) /\
    match v with O => F64 | _ => F32 end = d /\ kept h h1 /\ (List.length h <= List.length h1)%nat /\
    nth_error h1 x1 = Some (given NInts ax) /\ nth_error h1 y1 = Some (given NInts ay) /\
    nth_error h1 w1 = Some (given (NFloats d) aw)).
  { intros ->. destruct Conv as (h1 & x1 & y1 & w1 & E & Rest). exists O, h1, x1, y1, w1.
    split; [|split; auto]. unfold R, image_versions. cbn [first_version nload_all]. rewrite E. reflexivity. }
  destruct d.
  - destruct (fits NInts ax) eqn:FX; [|apply Done; auto].
    rewrite !(exact_ints single _ _ _ B). destruct (fits NInts ay) eqn:FY; [|apply Done; auto].
    rewrite !(exact_floats single _ _ _ _ C). destruct (fits (NFloats F64) aw) eqn:E.
    + rewrite !load_Z by auto. exists O, h, lx, ly, lw. unfold given. rewrite FX, FY, E. auto 10.
    + rewrite !andb_true_r in P. rewrite P. apply Done; auto.
  - destruct P as (PW & PX & PY). rewrite PX, !(exact_ints single _ _ _ B), PY, !(exact_floats single _ _ _ _ C), PW.
    destruct (fits (NFloats F64) aw) eqn:E; [exfalso; auto|]. rewrite !load_Z by auto.
    exists 1%nat, h, lx, ly, lw. unfold given. rewrite PX, PY, PW. auto 10.
Qed.

Lemma line_given : forall a n f, line_of a n f -> (forall i, (i < n)%nat -> (Z.of_nat (f i) < 2 ^ 31)%Z) ->
  given NInts a = NArr [n] true (Int32 (tab n (fun i => Z.of_nat (f i)))).
Proof.
  intros [s c e] n f (S & v & E & V) L. cbn [n_shape n_cells] in *. subst s. apply vector_tab in V. subst v.
  unfold given, converted, fits. cbn [n_cells n_contig n_shape]. destruct E as [->| ->].
  - destruct c; reflexivity.
  - cbn [as_ints]. do 2 f_equal. unfold tab. rewrite map_map. apply map_ext_in. intros i I. apply in_seq in I.
    apply wrap_small, L. lia.
Qed.

Lemma weights_given : forall d aw ax ay, image_precision d aw ax ay ->
  exists s, given (NFloats d) aw = NArr s true (Floats d (values_of aw)).
Proof.
  intros d [s c e] ax ay P. apply image_precision_dec in P. exists s. unfold given. destruct d.
  - unfold converted, fits, values_of. cbn [n_cells n_contig n_shape]. destruct e as [[]| |].
    + destruct c; auto. cbn [as_floats]. rewrite map_id. auto.
    + reflexivity.
    + reflexivity.
    + reflexivity.
  - destruct P as (P & _). rewrite P. apply fits_floats in P. destruct P as (s' & v & E). injection E as -> -> ->. auto.
Qed.

Lemma weight_at_in : forall n x y w a b,
  weight_at (tab n (fun i => Z.of_nat (x i))) (tab n (fun i => Z.of_nat (y i))) (tab n w) a b = weight_in n x y w a b.
Proof.
  intros. unfold weight_at, weight_in. rewrite tab_length. apply sumn_ext. intros i Hi.
  rewrite !nth_tab by auto.
  destruct (Nat.eqb_spec (x i) a), (Z.eqb_spec (Z.of_nat (x i)) (Z.of_nat a)); try lia; cbn [andb]; auto.
  destruct (Nat.eqb_spec (y i) b), (Z.eqb_spec (Z.of_nat (y i)) (Z.of_nat b)); try lia; auto.
Qed.

Lemma concat_T : forall A n m (f : nat -> nat -> A), concat (T n m f) = tab (n * m) (fl m f).
Proof.
  intros. rewrite <- chunk_tab. apply concat_chunk. apply tab_length.
Qed.

Lemma in_image_tab : forall n nb x, (forall i, (i < n)%nat -> (x i < nb)%nat) ->
  in_image nb (tab n (fun i => Z.of_nat (x i))).
Proof.
  intros n nb x H. unfold in_image. apply Forall_forall. intros z I. apply in_tab in I. destruct I as (i & Hi & <-).
  specialize (H i Hi). lia.
Qed.

Lemma make_image : forall n nb x y w,
  (forall i, (i < n)%nat -> (x i < nb)%nat) -> (forall i, (i < n)%nat -> (y i < nb)%nat) ->
  make_phase_space (tab n (fun i => Z.of_nat (x i))) (tab n (fun i => Z.of_nat (y i))) (tab n w) n nb =
  Ok (tab (nb * nb) (fl nb (weight_in n x y w))).
Proof.
  intros n nb x y w X Y.
  assert (IX := in_image_tab n nb x X). assert (IY := in_image_tab n nb y Y).
  set (xs := tab n (fun i => Z.of_nat (x i))) in *. set (ys := tab n (fun i => Z.of_nat (y i))) in *.
  assert (LX : List.length xs = n) by apply tab_length. assert (LY : List.length ys = n) by apply tab_length.
  assert (LW : List.length (tab n w) = n) by apply tab_length.
  replace (make_phase_space xs ys (tab n w) n nb) with (make_phase_space xs ys (tab n w) (List.length xs) nb)
    by (rewrite LX; reflexivity).
  rewrite scat_cpu; [|lia|lia|apply ix_range; auto; lia]. f_equal.
  rewrite <- (concat_chunk _ nb nb (scat xs ys (tab n w) nb)) by apply tab_length.
  rewrite chunk_weight_at by (auto; lia). unfold image_T. rewrite concat_T.
  apply tab_ext. intros k K. unfold fl. apply weight_at_in.
Qed.

Lemma image_call : forall h lx ly lw ax ay aw d n nb x y w,
  nth_error h lx = Some ax -> nth_error h ly = Some ay -> nth_error h lw = Some aw ->
  image_precision d aw ax ay -> line_of ax n x -> line_of ay n y -> vector n w (values_of aw) ->
  (forall i, (i < n)%nat -> (x i < nb)%nat) -> (forall i, (i < n)%nat -> (y i < nb)%nat) ->
  counts [n; nb * nb]%nat ->
  exists h' l',
    call_make_phase_space single h [VArr lx; VArr ly; VArr lw; VInt (Z.of_nat nb)] [] = Ok (h', l') /\
    new_image h h' l' d nb (weight_in n x y w).
Proof.
  intros h lx ly lw ax ay aw d n nb x y w A B C P X Y W BX BY K.
  assert (NB : (Z.of_nat nb < 2 ^ 31)%Z).
  { inversion K as [|? ? _ K2]. inversion K2 as [|? ? K3 _]. subst. revert K3. generalize (2 ^ 31)%Z. nia. }
  destruct (image_choose h lx ly lw ax ay aw d (Z.of_nat nb) A B C P ltac:(lia))
    as (v & h1 & x1 & y1 & w1 & E & V & K1 & L1 & X1 & Y1 & W1).
  rewrite (line_given _ _ _ X) in X1 by (intros i Hi; specialize (BX i Hi); lia).
  rewrite (line_given _ _ _ Y) in Y1 by (intros i Hi; specialize (BY i Hi); lia).
  destruct (weights_given d aw ax ay P) as (s & WG). rewrite WG in W1.
  apply vector_tab in W. rewrite W in W1.
  unfold call_make_phase_space. cbn [arguments image_names List.length Nat.ltb Nat.leb skipn forallb by_name app].
  change (arguments image_names [] [VArr lx; VArr ly; VArr lw; VInt (Z.of_nat nb)] [])
    with (Some [VArr lx; VArr ly; VArr lw; VInt (Z.of_nat nb)]). cbv iota.
  rewrite E. cbv zeta. unfold first_axis, ints_at, floats_at. rewrite X1, Y1, W1. cbn [bind]. rewrite Nat2Z.id.
  rewrite make_image by auto. cbn [bind]. rewrite V.
  do 2 eexists. split; [reflexivity|]. split; [|split].
  - intros k b Q. apply kept_app, K1. exact Q.
  - exact L1.
  - eexists. split; [rewrite nth_error_app2, Nat.sub_diag by lia; reflexivity|]. apply tab_table.
Qed.

Lemma pick_tab : forall A n m p (f : nat -> nat -> A), (p < m)%nat ->
  pick n m p (tab (n * m) (fl m f)) = tab n (fun i => f i p).
Proof.
  intros A n m p f Hp. unfold pick, tab at 2. rewrite flat_map_concat_map.
  replace (map (fun i => match nth_error (tab (n * m) (fl m f)) (i * m + p) with Some x => [x] | None => [] end) (seq 0 n))
    with (map (fun i => [f i p]) (seq 0 n)).
  - generalize (seq 0 n). induction l as [|i l IH]; auto. cbn [map concat app]. f_equal. exact IH.
  - apply map_ext_in. intros i I. apply in_seq in I. rewrite nth_error_tab by nia. rewrite fl_at by auto. reflexivity.
Qed.

Lemma column_line : forall h l a n m f p cols, nth_error h l = Some a -> tracks_of a n m f -> (p < m)%nat ->
  exists c, column_of h l p cols = Ok (h ++ [c], List.length h) /\ line_of c n (fun i => f i p) /\
    (n_contig c = true <-> (n <= 1)%nat \/ (if n_contig a then m = 1%nat else cols = true)).
Proof.
  intros h l [s c e] n m f p cols A (S & v & E & V) P. cbn [n_shape n_cells n_contig] in *. subst s.
  unfold column_of. rewrite A. destruct (Nat.ltb_spec p m) as [_|]; [|lia]. cbv zeta.
  apply table_tab in V. eexists. split; [reflexivity|]. split.
  - split; [reflexivity|]. cbn [n_cells]. exists (pick n m p v). split; [destruct E as [->| ->]; auto|].
    subst v. rewrite pick_tab by auto. apply tab_vector.
  - cbn [n_contig]. rewrite orb_true_iff, Nat.leb_le. destruct c; [rewrite Nat.eqb_eq|]; tauto.
Qed.

Lemma precision_exists : forall w x y, exists d, image_precision d w x y.
Proof.
  intros. destruct (fits (NFloats F32) w && fits NInts x && fits NInts y) eqn:E.
  - exists F32. left. apply andb_prop in E. destruct E as [E E3]. apply andb_prop in E. destruct E as [E1 E2].
    split; [auto|]. split; [apply fits_floats; auto|]. split; apply fits_ints; auto.
  - exists F64. right. split; auto. intros (A & B & C).
    rewrite (proj2 (fits_floats _ _) A), (proj2 (fits_ints _) B), (proj2 (fits_ints _) C) in E. discriminate.
Qed.

Lemma density_call : forall h lx ly lw ax ay aw n m nb x y w p xcols ycols,
  nth_error h lx = Some ax -> nth_error h ly = Some ay -> nth_error h lw = Some aw ->
  tracks_of ax n m x -> tracks_of ay n m y -> vector n w (values_of aw) -> (p < m)%nat ->
  (forall i, (i < n)%nat -> (x i p < nb)%nat) -> (forall i, (i < n)%nat -> (y i p < nb)%nat) ->
  counts [n; nb * nb]%nat ->
  exists d h' l',
    phase_space_density single h lx ly lw p nb xcols ycols = Ok (h', l') /\
    new_image h h' l' d nb (weight_in n (fun i => x i p) (fun i => y i p) w) /\
    (d = F32 -> floats_of F32 aw /\ ((n <= 1)%nat \/ (if n_contig ax then m = 1%nat else xcols = true))).
Proof.
  intros h lx ly lw ax ay aw n m nb x y w p xcols ycols A B C X Y W P BX BY K.
  unfold phase_space_density.
  destruct (column_line h lx ax n m x p xcols A X P) as (cx & E1 & L1 & F1). rewrite E1. cbn [bind].
  destruct (column_line (h ++ [cx]) ly ay n m y p ycols (kept_app _ _ _ _ B) Y P) as (cy & E2 & L2 & F2).
  rewrite E2. cbn [bind].
  destruct (precision_exists aw cx cy) as (d & D).
  destruct (image_call ((h ++ [cx]) ++ [cy]) (List.length h) (List.length (h ++ [cx])) lw cx cy aw d n nb
    (fun i => x i p) (fun i => y i p) w) as (h' & l' & R1 & R2 & R3 & R4); auto.
  { apply kept_app. rewrite nth_error_app2, Nat.sub_diag by lia. reflexivity. }
  { rewrite nth_error_app2, Nat.sub_diag by lia. reflexivity. }
  { apply kept_app, kept_app. exact C. }
  exists d, h', l'. split; [exact R1|]. split.
  - split; [intros k b Q; apply R2, kept_app, kept_app; exact Q|]. split; [rewrite !app_length in R3; cbn [List.length] in R3; lia|].
    exact R4.
  - intros ->. destruct D as [(_ & D1 & D2 & _)|(D & _)]; [|discriminate]. split; [exact D1|]. apply F1.
    destruct D2 as (s & v & ->). reflexivity.
Qed.

Lemma astype_line : forall h l a n f, nth_error h l = Some a -> line_of a n f ->
  (forall i, (i < n)%nat -> (Z.of_nat (f i) < 2 ^ 31)%Z) ->
  astype_int32 h l = Ok (h ++ [NArr [n] true (Int32 (tab n (fun i => Z.of_nat (f i))))], List.length h).
Proof.
  intros h l [s c e] n f A (S & v & E & V) L. cbn [n_shape n_cells] in *. subst s. apply vector_tab in V. subst v.
  unfold astype_int32. rewrite A. cbn [n_shape n_cells]. destruct E as [->| ->]; cbn [as_ints]; auto.
  do 5 f_equal. unfold tab. rewrite map_map. f_equal. apply map_ext_in. intros i I. apply in_seq in I.
  apply wrap_small, L. lia.
Qed.

Lemma weight_in_nonneg : forall n x y w a b, (forall i, (i < n)%nat -> (0 <= w i)%Qc) -> (0 <= weight_in n x y w a b)%Qc.
Proof.
  intros. unfold weight_in. apply sumn_nonneg. intros i Hi. destruct (Nat.eqb (x i) a && Nat.eqb (y i) b); auto. qclra.
Qed.

Lemma qsum_concat : forall l, qsum (concat l) = qsum (map qsum l).
Proof. induction l; auto. cbn [concat map]. rewrite qsum_app, IHl. reflexivity. Qed.

Lemma weight_in_total : forall n nb x y w, (forall i, (i < n)%nat -> (x i < nb)%nat) ->
  (forall i, (i < n)%nat -> (y i < nb)%nat) ->
  qsum (tab (nb * nb) (fl nb (weight_in n x y w))) = sumn n w.
Proof.
  intros n nb x y w X Y.
  assert (IX := in_image_tab n nb x X). assert (IY := in_image_tab n nb y Y).
  assert (E := image_total nb _ _ (tab n w) IX IY ltac:(rewrite !tab_length; auto) ltac:(rewrite !tab_length; auto)).
  rewrite <- sumn_qsum in E. rewrite <- E. unfold image_T. rewrite <- concat_T, qsum_concat. f_equal. f_equal.
  apply T_ext. intros. symmetry. apply weight_at_in.
Qed.

Lemma fl_div : forall m (f : nat -> nat -> Qc) s k, fl m (fun a b => f a b / s)%Qc k = (fl m f k / s)%Qc.
Proof. reflexivity. Qed.

Lemma image_of_call : forall h lx ly lw ax ay aw n m nb x y w p xcols ycols,
  nth_error h lx = Some ax -> nth_error h ly = Some ay -> nth_error h lw = Some aw ->
  tracks_of ax n m x -> tracks_of ay n m y -> vector n w (values_of aw) -> (p < m)%nat ->
  (forall i, (i < n)%nat -> (x i p < nb)%nat) -> (forall i, (i < n)%nat -> (y i p < nb)%nat) ->
  counts [n; nb * nb]%nat -> (forall i, (i < n)%nat -> (0 <= w i)%Qc) -> (0 < sumn n w)%Qc ->
  forall d, (d = F32 /\ floats_of F32 aw \/ d = F64 /\ ~ floats_of F32 aw) ->
  exists h' l',
    image_of single h lx ly lw nb p xcols ycols = Ok (h', l') /\
    new_image h h' l' d nb (fun a b => weight_in n (fun i => x i p) (fun i => y i p) w a b / sumn n w)%Qc.
Proof.
  intros h lx ly lw ax ay aw n m nb x y w p xcols ycols A B C X Y W P BX BY K NN PS d D.
  assert (NB : (Z.of_nat nb < 2 ^ 31)%Z).
  { inversion K as [|? ? _ K2]. inversion K2 as [|? ? K3 _]. subst. revert K3. generalize (2 ^ 31)%Z. nia. }
  unfold image_of.
  destruct (column_line h lx ax n m x p xcols A X P) as (cx & E1 & L1 & _). rewrite E1. cbn [bind].
  set (h1 := h ++ [cx]). assert (K1 : kept h h1) by apply kept_app.
  assert (A1 : nth_error h1 (length h) = Some cx) by (unfold h1; rewrite nth_error_app2, Nat.sub_diag by lia; reflexivity).
  rewrite (astype_line h1 (length h) cx n _ A1 L1) by (intros i Hi; specialize (BX i Hi); lia). cbn [bind].
  set (ix := NArr [n] true (Int32 (tab n (fun i => Z.of_nat (x i p))))).
  set (h2 := h1 ++ [ix]). assert (K2 : kept h h2) by (intros k b Q; apply kept_app, K1; exact Q).
  destruct (column_line h2 ly ay n m y p ycols (K2 _ _ B) Y P) as (cy & E2 & L2 & _). rewrite E2. cbn [bind].
  set (h3 := h2 ++ [cy]). assert (K3 : kept h h3) by (intros k b Q; apply kept_app, K2; exact Q).
  assert (A3 : nth_error h3 (length h2) = Some cy) by (unfold h3; rewrite nth_error_app2, Nat.sub_diag by lia; reflexivity).
  rewrite (astype_line h3 (length h2) cy n _ A3 L2) by (intros i Hi; specialize (BY i Hi); lia). cbn [bind].
  set (iy := NArr [n] true (Int32 (tab n (fun i => Z.of_nat (y i p))))).
  set (h4 := h3 ++ [iy]). assert (K4 : kept h h4) by (intros k b Q; apply kept_app, K3; exact Q).
  destruct (image_call h4 (length h1) (length h3) lw ix iy aw d n nb (fun i => x i p) (fun i => y i p) w)
    as (h5 & l & R1 & R2 & R3 & v & R4 & R5); auto.
  { unfold h4. apply kept_app. unfold h3. apply kept_app. unfold h2. rewrite nth_error_app2, Nat.sub_diag by lia. reflexivity. }
  { unfold h4. rewrite nth_error_app2, Nat.sub_diag by lia. reflexivity. }
  { assert (IX : ints_of ix) by (do 2 eexists; reflexivity). assert (IY : ints_of iy) by (do 2 eexists; reflexivity).
    destruct D as [(-> & D)|(-> & D)]; [left; auto|right; split; auto; intros (Q & _); auto]. }
  { split; [reflexivity|]. eexists. split; [left; reflexivity|]. apply tab_vector. }
  { split; [reflexivity|]. eexists. split; [left; reflexivity|]. apply tab_vector. }
  rewrite R1. cbn [bind]. unfold normalised_image. rewrite R4.
  apply table_tab in R5.
  assert (CL : map (fun x0 => if qltb x0 0 then 0%Qc else x0) v = v).
  { subst v. unfold tab. rewrite map_map. apply map_ext. intros k.
    destruct (qltb_spec (fl nb (weight_in n (fun i => x i p) (fun i => y i p) w) k) 0) as [Q|Q]; auto.
    exfalso. assert (N0 := weight_in_nonneg n (fun i => x i p) (fun i => y i p) w (k / nb) (k mod nb) NN).
    unfold fl in Q. qclra. }
  assert (QS : qsum v = sumn n w) by (rewrite R5; apply weight_in_total; auto).
  cbv zeta. rewrite CL, QS, R5. rewrite (mapM_tab _ _ _ _ _ (fl nb (fun a b => weight_in n (fun i => x i p) (fun i => y i p) w a b / sumn n w)%Qc)).
  2: { intros k _. unfold qdiv. destruct (qeqb_spec (sumn n w) 0) as [Z0|_]; [|reflexivity]. exfalso. rewrite Z0 in PS. qclra. }
  cbn [bind]. do 2 eexists. split; [reflexivity|]. split; [|split].
  - intros k b Q. apply kept_app, R2, K4. exact Q.
  - assert (L5 : (l < length h5)%nat) by (apply nth_error_Some; congruence).
    unfold h4, h3, h2, h1 in R3. rewrite !app_length in R3. cbn [length] in R3. lia.
  - eexists. split; [rewrite nth_error_app2, Nat.sub_diag by lia; reflexivity|]. apply tab_table.
Qed.
End Facts.
