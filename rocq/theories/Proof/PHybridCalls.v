(** The reference reconstruction on objects that hold arrays. *)
From Coq Require Import List ZArith Bool QArith Qcanon.
From Verif Require Import Base.Res Base.QcLib Model.MBind Model.MRecon Model.MCalls Model.MTomoCalls Model.MHybridCalls
  Spec.TomoSpec Spec.CallsSpec Spec.TomoCallsSpec Spec.HybridCallsSpec.
Import ListNotations.
From Coq Require Import Lia.
From Verif Require Import Base.ResLemmas Base.QcLemmas Proof.PTomo Proof.PCalls Proof.PCalls2 Proof.PCalls3
  Proof.PTomoCalls.

(** Loops. *)
Lemma for_pres : forall S (P : S -> Prop) (f : nat -> S -> res S) n i s s',
  (forall k s s', P s -> f k s = Ok s' -> P s') -> P s -> for_ i n f s = Ok s' -> P s'.
Proof.
  intros S P f n. induction n as [|n IH]; intros i s s' H0 H1 E; cbn [for_] in E.
  - injection E as <-. exact H1.
  - apply bind_ok in E. destruct E as (s1 & E1 & E2). exact (IH _ _ _ H0 (H0 _ _ _ H1 E1) E2).
Qed.

Lemma for_sim : forall S S' (R : S -> S' -> Prop) (f : nat -> S -> res S) (g : nat -> S' -> res S') n i s s',
  (forall k s s', R s s' -> match g k s' with Fail e => f k s = Fail e | Ok s1' => exists s1, f k s = Ok s1 /\ R s1 s1' end) ->
  R s s' ->
  match for_ i n g s' with Fail e => for_ i n f s = Fail e | Ok s1' => exists s1, for_ i n f s = Ok s1 /\ R s1 s1' end.
Proof.
  intros S S' R f g n. induction n as [|n IH]; intros i s s' H0 H1; cbn [for_].
  - eauto.
  - assert (Q := H0 i s s' H1). destruct (g i s') as [s1'|e]; cbn [bind].
    + destruct Q as (s1 & -> & Q). cbn [bind]. apply IH; auto.
    + rewrite Q. reflexivity.
Qed.

Lemma set_len : forall A (l l' : list A) i v, set l i v = Ok l' -> length l' = length l.
Proof. intros A l l' i v E. apply set_ok_inv in E. destruct E as [_ ->]. apply upd_length. Qed.

Lemma back_len : forall w fp p n m r, back_project w fp p n m = Ok r -> length r = length w.
Proof.
  intros w fp p n m r E. unfold back_project in E.
  refine (for_pres _ (fun s => length s = length w) _ _ _ _ _ _ eq_refl E). clear E r.
  intros i s s' L E. refine (for_pres _ (fun s => length s = length w) _ _ _ _ _ _ L E). clear.
  intros k s s' L E. apply bind_ok in E. destruct E as (? & _ & E). apply bind_ok in E. destruct E as (? & _ & E).
  apply bind_ok in E. destruct E as (? & _ & E). apply set_len in E. congruence.
Qed.

Lemma project_len : forall w fp p n m r, project w fp p n m = Ok r -> length r = length w.
Proof.
  intros w fp p n m r E. unfold project in E.
  refine (for_pres _ (fun s => length s = length w) _ _ _ _ _ _ eq_refl E). clear E r.
  intros i s s' L E. refine (for_pres _ (fun s => length s = length w) _ _ _ _ _ _ L E). clear.
  intros k s s' L E. apply bind_ok in E. destruct E as (? & _ & E). apply bind_ok in E. destruct E as (? & _ & E).
  apply bind_ok in E. destruct E as (? & _ & E). apply set_len in E. congruence.
Qed.

(** Tables. *)
Lemma chunk_concat : forall A n m (l : list (list A)), rectangular n m l -> chunk n m (concat l) = l.
Proof.
  intros A n m l [<- F]. induction l as [|r l IH]; [reflexivity|].
  inversion F; subst. cbn [length]. rewrite chunk_S. cbn [concat].
  rewrite firstn_app, skipn_app, Nat.sub_diag, firstn_all, skipn_all. cbn [firstn skipn app].
  rewrite app_nil_r. f_equal. apply IH. auto.
Qed.

Lemma chunk_rect : forall A n m (l : list A), length l = (n * m)%nat -> rectangular n m (chunk n m l).
Proof.
  induction n as [|n IH]; intros m l L; [split; [reflexivity|constructor]|].
  rewrite chunk_S. destruct (IH m (skipn m l)) as [A1 A2]; [rewrite skipn_length; lia|].
  split; [cbn [length]; congruence|]. constructor; auto. rewrite firstn_length. lia.
Qed.

Lemma mapM_len : forall A B (f : A -> res B) l r, mapM f l = Ok r -> length r = length l.
Proof. intros. apply mapM_ok_inv in H. induction H; cbn [length]; congruence. Qed.

Lemma normalize_rect : forall n m wf wf', rectangular n m wf -> normalize_profiles wf = Ok wf' -> rectangular n m wf'.
Proof.
  intros n m wf wf' [L F] E. unfold normalize_profiles in E. destruct (negb _); [discriminate|].
  split; [rewrite (mapM_len _ _ _ _ _ E); auto|].
  apply mapM_ok_inv in E. clear L. induction E; constructor; inversion F; subst; auto.
  rewrite (mapM_len _ _ _ _ _ H). auto.
Qed.

(** Heaps. *)
Lemma upd_last : forall A (h : list A) a b, upd (h ++ [a]) (length h) b = h ++ [b].
Proof. induction h; intros; cbn; auto. f_equal. apply IHh. Qed.

Lemma last_here : forall A (h : list A) a, nth_error (h ++ [a]) (length h) = Some a.
Proof. intros. rewrite nth_error_app2, Nat.sub_diag by lia. reflexivity. Qed.

Lemma write_last : forall h s d v0 v,
  write (h ++ [NArr s true (Floats d v0)]) (length h) v = h ++ [NArr s true (Floats d v)].
Proof. intros. unfold write. rewrite last_here. apply upd_last. Qed.

Lemma write_here : forall h l s d v0 v, nth_error h l = Some (NArr s true (Floats d v0)) ->
  nth_error (write h l v) l = Some (NArr s true (Floats d v)).
Proof. intros. unfold write. rewrite H. apply nth_error_upd_eq. apply nth_error_Some. congruence. Qed.

Lemma write_other : forall h l v k, k <> l -> nth_error (write h l v) k = nth_error h k.
Proof.
  intros. unfold write. destruct (nth_error h l) as [[s c [d w|w|w]]|]; auto. apply nth_error_upd_neq. auto.
Qed.

Lemma write_len : forall h l v, length (write h l v) = length h.
Proof. intros. unfold write. destruct (nth_error h l) as [[s c [d w|w|w]]|]; auto. apply upd_length. Qed.

Lemma kept_write : forall H h l v, kept H h -> (length H <= l)%nat -> kept H (write h l v).
Proof.
  intros H h l v K L k a E. assert (k < length H)%nat by (apply nth_error_Some; congruence).
  rewrite write_other by lia. auto.
Qed.

Lemma kept_trans : forall a b c, kept a b -> kept b c -> kept a c.
Proof. unfold kept. auto. Qed.

Section Facts.
Variable single sqrt : Qc -> Qc.

(** Calls with arrays of the exact types. *)
Lemma back_exact : forall h lw lf lp sw sf sp w f p n m,
  nth_error h lw = Some (NArr sw true (Floats F64 w)) -> nth_error h lf = Some (NArr sf true (Int32 f)) ->
  nth_error h lp = Some (NArr sp true (Floats F64 p)) -> (0 <= n < 2 ^ 31)%Z -> (0 <= m < 2 ^ 31)%Z ->
  call_back_project single h [VArr lw; VArr lf; VArr lp; VInt n; VInt m] [] =
  (r <- back_project w f p (Z.to_nat n) (Z.to_nat m) ;; Ok (write h lw r, lw)).
Proof.
  intros h lw lf lp sw sf sp w f p n m A B C N M. unfold call_back_project.
  match goal with |- context [arguments back_names [] ?l []] =>
    replace (arguments back_names [] l []) with (Some l) by reflexivity end.
  unfold choose, back_versions. cbn [first_version nload_all].
  rewrite (exact_floats single _ _ _ _ A). cbn [fits n_cells n_contig].
  rewrite (exact_ints single _ _ _ B). cbn [fits n_cells n_contig].
  rewrite (exact_floats single _ _ _ _ C). cbn [fits n_cells n_contig]. rewrite !load_Z by auto.
  unfold floats_at, ints_at. rewrite A, B, C. reflexivity.
Qed.

Lemma project_exact : forall h lr lf lw sr sf sw w f p n m k,
  nth_error h lr = Some (NArr sr true (Floats F64 p)) -> nth_error h lf = Some (NArr sf true (Int32 f)) ->
  nth_error h lw = Some (NArr sw true (Floats F64 w)) ->
  (0 <= n < 2 ^ 31)%Z -> (0 <= m < 2 ^ 31)%Z -> (0 <= k < 2 ^ 31)%Z ->
  call_project single h [VArr lr; VArr lf; VArr lw; VInt n; VInt m; VInt k] [] =
  (r <- project p f w (Z.to_nat n) (Z.to_nat m) ;; Ok (write h lr r, lr)).
Proof.
  intros h lr lf lw sr sf sw w f p n m k A B C N M K. unfold call_project.
  match goal with |- context [arguments project_names [] ?l []] =>
    replace (arguments project_names [] l []) with (Some l) by reflexivity end.
  unfold choose, project_versions. cbn [first_version nload_all].
  rewrite (exact_floats single _ _ _ _ A). cbn [fits n_cells n_contig].
  rewrite (exact_ints single _ _ _ B). cbn [fits n_cells n_contig].
  rewrite (exact_floats single _ _ _ _ C). cbn [fits n_cells n_contig]. rewrite !load_Z by auto.
  unfold floats_at, ints_at. rewrite A, B, C. reflexivity.
Qed.

Variable t : tomo.
Variable o : tobj.
Variable n : nat.
Notation np := (t_nprofs t).
Notation nb := (t_nbins t).
Hypothesis ONP : o_nprofs o = np.
Hypothesis ONB : o_nbins o = nb.
Hypothesis C : counts [np; nb; n].
Hypothesis RW : rectangular np nb (t_waterfall t).

Lemma project_arrays_spec : forall h r a lf sf f lw sw w,
  nth_error h r = Some a -> n_shape a = [np; nb] -> nth_error h lf = Some (NArr sf true (Int32 f)) ->
  nth_error h lw = Some (NArr sw true (Floats F64 w)) -> length w = n ->
  match py_project t f w with
  | Fail e => project_arrays single h o r lf lw n = Fail e
  | Ok rec => project_arrays single h o r lf lw n =
        Ok (h ++ [NArr [np; nb] true (Floats F64 (concat rec))], length h) /\ rectangular np nb rec
  end.
Proof.
  intros h r a lf sf f lw sw w A S B D L. unfold py_project, project_arrays. rewrite A, S, ONP, ONB, L.
  assert (C1 := counts_Z np _ C ltac:(cbn; auto)). assert (C2 := counts_Z nb _ C ltac:(cbn; auto)).
  assert (C3 := counts_Z n _ C ltac:(cbn; auto)).
  unfold zeros. cbn [fold_right]. rewrite Nat.mul_1_r.
  erewrite project_exact; [|apply last_here|apply kept_app; eassumption|apply kept_app; eassumption|auto..].
  rewrite !Nat2Z.id.
  destruct (project _ f w n np) as [v|e] eqn:E; cbn [bind]; [|reflexivity].
  rewrite write_last. unfold floats_at. rewrite last_here. cbn [bind].
  assert (LV : length v = (np * nb)%nat) by (rewrite (project_len _ _ _ _ _ _ E), repeat_length; reflexivity).
  destruct (normalize_profiles (chunk np nb v)) as [rec|e] eqn:F; cbn [bind]; [|reflexivity].
  rewrite write_last. split; [reflexivity|]. exact (normalize_rect _ _ _ _ (chunk_rect _ _ _ _ LV) F).
Qed.

Lemma compare_arrays_spec : forall h d rows lr sr rec ld sd dv it,
  nth_error h (o_waterfall o) = Some (NArr [np; nb] rows (Floats d (concat (t_waterfall t)))) ->
  nth_error h lr = Some (NArr sr true (Floats F64 (concat rec))) -> rectangular np nb rec ->
  nth_error h ld = Some (NArr sd true (Floats F64 dv)) ->
  compare_arrays sqrt h o ld lr it =
    (let dw := zip_rows Qcminus (t_waterfall t) rec in
     x <- py_discrepancy sqrt dw np nb ;; dv <- set dv (zi it) x ;; Ok (write h ld dv, dw)).
Proof.
  intros h d rows lr sr rec ld sd dv it A B R D. unfold compare_arrays, floats_at. rewrite A, B, D. cbn [bind].
  rewrite ONP, ONB, !chunk_concat by auto. reflexivity.
Qed.

Lemma back_arrays_spec : forall h lf sf f lw sw w flat,
  nth_error h lf = Some (NArr sf true (Int32 f)) -> nth_error h lw = Some (NArr sw true (Floats F64 w)) ->
  match back_project w f flat n np with
  | Fail e => back_arrays single h o lw lf n flat = Fail e
  | Ok r => exists h' l, back_arrays single h o lw lf n flat = Ok (h', l) /\ (length h < l)%nat /\
      nth_error h' l = Some (NArr [n] true (Floats F64 (py_clip r))) /\
      (forall k b, nth_error h k = Some b -> k <> lw -> nth_error h' k = Some b)
  end.
Proof.
  intros h lf sf f lw sw w flat A B. unfold back_arrays. rewrite ONP.
  assert (C1 := counts_Z np _ C ltac:(cbn; auto)). assert (C3 := counts_Z n _ C ltac:(cbn; auto)).
  set (h1 := h ++ [NArr [length flat] true (Floats F64 flat)]).
  erewrite back_exact; [|apply kept_app; eassumption|apply kept_app; eassumption|apply last_here|auto..].
  rewrite !Nat2Z.id. fold h1.
  destruct (back_project w f flat n np) as [r|e]; cbn [bind]; [|reflexivity].
  assert (B1 : nth_error h1 lw = Some (NArr sw true (Floats F64 w))) by (apply kept_app; auto).
  unfold floats_at. rewrite (write_here _ _ _ _ _ r B1). cbn [bind].
  do 2 eexists. split; [reflexivity|]. rewrite write_len.
  assert (L1 : length h1 = Datatypes.S (length h)) by (unfold h1; rewrite app_length; cbn; lia).
  split; [lia|]. split.
  { rewrite <- (write_len h1 lw r). apply last_here. }
  intros k b K N. apply kept_app. rewrite write_other by auto. apply kept_app. exact K.
Qed.

Section Loop.
Variable h0 : nheap.
Variables d0 : dtype.
Variable rows : bool.
Hypothesis W0 : nth_error h0 (o_waterfall o) = Some (NArr [np; nb] rows (Floats d0 (concat (t_waterfall t)))).
Variables ld lf : nat.
Variables sf sd : list nat.
Variable f : list Z.
Hypothesis LD : (length h0 <= ld)%nat.
Hypothesis LF : lf <> ld.

(** The heap with recreated and weight, and the weights and discrepancies. *)
Definition ready (s : nheap * nat * nat) (v : list Qc * list Qc) : Prop :=
  let '(h, r, w) := s in
  kept h0 h /\ nth_error h ld = Some (NArr sd true (Floats F64 (snd v))) /\
  nth_error h lf = Some (NArr sf true (Int32 f)) /\
  nth_error h w = Some (NArr [n] true (Floats F64 (fst v))) /\ length (fst v) = n /\
  (length h0 <= w)%nat /\ w <> ld /\ w <> lf /\
  exists a, nth_error h r = Some a /\ n_shape a = [np; nb] /\ r <> w /\ r <> ld.

Lemma clip_len : forall w, length (py_clip w) = length w.
Proof. intros. apply map_length. Qed.

Lemma turn_spec : forall recip it s v, ready s v ->
  match hybrid_iteration sqrt t f recip it v with
  | Fail e => hybrid_turn single sqrt o ld lf n recip it s = Fail e
  | Ok v' => exists s', hybrid_turn single sqrt o ld lf n recip it s = Ok s' /\ ready s' v'
  end.
Proof.
  intros recip it [[h r] w] [wv dv] (K & D & F & W & LW & W1 & W2 & W3 & a & A & SA & R1 & R2). cbn [fst snd] in *.
  unfold hybrid_iteration, hybrid_turn.
  assert (P := project_arrays_spec h r a lf sf f w _ wv A SA F W LW).
  destruct (py_project t f wv) as [rec|e]; cbn [bind]; [|rewrite P; reflexivity].
  destruct P as [-> RR]. cbn [bind].
  set (h1 := h ++ [NArr [np; nb] true (Floats F64 (concat rec))]).
  assert (K1 : kept h h1) by apply kept_app.
  rewrite (compare_arrays_spec h1 d0 rows (length h) _ rec ld sd dv it (K1 _ _ (K _ _ W0)) (last_here _ _ _) RR (K1 _ _ D)).
  cbv zeta.
  destruct (py_discrepancy sqrt _ np nb) as [x|e]; cbn [bind]; [|reflexivity].
  destruct (set dv (zi it) x) as [dv'|e]; cbn [bind]; [|reflexivity].
  set (h2 := write h1 ld dv').
  assert (LFB : (length h0 <= ld)%nat) by exact LD.
  assert (O2 : forall k b, nth_error h k = Some b -> k <> ld -> nth_error h2 k = Some b).
  { intros k b Q N. unfold h2. rewrite write_other by auto. apply K1. exact Q. }
  rewrite LW.
  assert (B := back_arrays_spec h2 lf sf f w _ wv
    (concat (zip_rows Qcmult (zip_rows Qcminus (t_waterfall t) rec) recip)) (O2 _ _ F LF) (O2 _ _ W W2)).
  destruct (back_project wv f _ n np) as [wv'|e] eqn:E; cbn [bind]; [|rewrite B; reflexivity].
  destruct B as (h3 & l & -> & B1 & B2 & B3). cbn [bind].
  eexists. split; [reflexivity|]. unfold ready. cbn [fst snd].
  assert (L2 : length h2 = Datatypes.S (length h)).
  { unfold h2. rewrite write_len. unfold h1. rewrite app_length. cbn. lia. }
  assert (WL : (w < length h)%nat) by (apply nth_error_Some; congruence).
  assert (DL : (ld < length h)%nat) by (apply nth_error_Some; congruence).
  assert (FL : (lf < length h)%nat) by (apply nth_error_Some; congruence).
  split. { intros k b Q. assert (k < length h0)%nat by (apply nth_error_Some; congruence).
    apply B3; [|lia]. apply O2; [|lia]. auto. }
  split. { apply B3; [|auto]. unfold h2. apply (write_here h1 ld sd F64 dv dv'). auto. }
  split. { apply B3; [|auto]. apply O2; auto. }
  split; [exact B2|]. split. { rewrite clip_len, (back_len _ _ _ _ _ _ E). exact LW. }
  split; [lia|]. split; [lia|]. split; [lia|].
  exists (NArr [np; nb] true (Floats F64 (concat rec))). split.
  { apply B3; [|lia]. unfold h2. rewrite write_other by lia. apply last_here. }
  split; [reflexivity|]. split; lia.
Qed.
End Loop.

Lemma hybrid_run_spec : forall d rows h h1 niter,
  object_of d rows h h1 o t -> valid t -> t_nparts t = Some n -> recreated_fits h1 o ->
  runs_hybrid_as F64 t niter h1 o (run_hybrid sqrt t niter) (run_hybrid_tomo single sqrt h1 o niter).
Proof.
  intros d rows h h1 niter (O1 & O2 & O3 & O4 & O5 & O6) V NP (ar & AR & SR).
  assert (VP := v_parts _ V). rewrite NP in VP. rewrite ONP, ONB in SR.
  unfold run_hybrid, run_hybrid_tomo, runs_hybrid_as.
  destruct (t_xp t) as [x|] eqn:TX; [|discriminate]. cbn [option_map] in VP. injection VP as VP.
  destruct (o_xp o) as [lx|] eqn:OX; [|contradiction]. destruct O6 as (X1 & X2 & X3).
  rewrite O3, NP, ONP, ONB. rewrite <- VP in X3 |- *.
  assert (RX : rectangular n np x).
  { assert (Q := v_xp _ V). rewrite TX in Q. destruct Q as [[Q1 Q2] _]. split; auto. }
  set (ha := h1 ++ [zeros [niter + 1]%nat]). cbv zeta.
  assert (KA : kept h1 ha) by apply kept_app.
  unfold ints_at. rewrite (KA _ _ X3). cbn [bind]. rewrite (chunk_concat _ _ _ _ RX).
  destruct (py_reciprocal nb np x) as [recip|e]; cbn [bind]; [|reflexivity].
  destruct (transpose nb np recip) as [recip_T|e]; cbn [bind]; [|reflexivity].
  set (fp := concat (py_flat_points x np nb)).
  set (hb := ha ++ [NArr [n; np] true (Int32 fp)]). assert (KB : kept ha hb) by apply kept_app.
  unfold floats_at. rewrite (KB _ _ (KA _ _ O5)). cbn [bind].
  set (hc := hb ++ [zeros [n]]). assert (KC : kept hb hc) by apply kept_app.
  assert (LA : length ha = Datatypes.S (length h1)) by (unfold ha; rewrite app_length; cbn; lia).
  assert (LB : length hb = Datatypes.S (length ha)) by (unfold hb; rewrite app_length; cbn; lia).
  assert (LC : length hc = Datatypes.S (length hb)) by (unfold hc; rewrite app_length; cbn; lia).
  assert (FH : nth_error hc (length ha) = Some (NArr [n; np] true (Int32 fp))) by (apply KC; apply last_here).
  assert (WH : nth_error hc (length hb) = Some (NArr [n] true (Floats F64 (repeat 0%Qc n)))).
  { unfold hc. rewrite last_here. unfold zeros. cbn [fold_right]. rewrite Nat.mul_1_r. reflexivity. }
  assert (DH : nth_error hc (length h1) = Some (NArr [niter + 1]%nat true (Floats F64 (repeat 0%Qc (niter + 1))))).
  { apply KC, KB. unfold ha. rewrite last_here. unfold zeros. cbn [fold_right]. rewrite Nat.mul_1_r. reflexivity. }
  assert (B := back_arrays_spec hc _ _ fp _ _ _ (concat (t_waterfall t)) FH WH).
  destruct (back_project (repeat 0%Qc n) fp (concat (t_waterfall t)) n np) as [w0|e] eqn:E0; cbn [bind];
    [|rewrite B; reflexivity].
  destruct B as (hd & lw & -> & B1 & B2 & B3). cbn [bind].
  assert (RL : (o_recreated o < length h1)%nat) by (apply nth_error_Some; congruence).
  assert (KD : kept h1 hd).
  { intros k b Q. assert (k < length h1)%nat by (apply nth_error_Some; congruence). apply B3; [|lia]. apply KC, KB, KA. auto. }
  assert (R0 : ready h1 (length h1) (length ha) [n; np] [niter + 1]%nat fp (hd, o_recreated o, lw)
    (py_clip w0, repeat 0%Qc (niter + 1))).
  { unfold ready. cbn [fst snd]. split; [exact KD|]. split; [apply B3; [exact DH|lia]|].
    split; [apply B3; [exact FH|lia]|]. split; [exact B2|].
    split. { rewrite clip_len, (back_len _ _ _ _ _ _ E0). apply repeat_length. }
    split; [lia|]. split; [lia|]. split; [lia|].
    exists ar. split; [apply KD; exact AR|]. split; [exact SR|]. split; lia. }
  assert (SIM := for_sim _ _ (ready h1 (length h1) (length ha) [n; np] [niter + 1]%nat fp)
    (hybrid_turn single sqrt o (length h1) (length ha) n recip_T) (hybrid_iteration sqrt t fp recip_T) niter 0%nat _ _
    (fun k s v => turn_spec h1 d rows O5 (length h1) (length ha) [n; np] [niter + 1]%nat fp (le_n _) ltac:(lia) recip_T k s v)
    R0).
  destruct (for_ 0 niter (hybrid_iteration sqrt t fp recip_T) _) as [[wv dv]|e]; cbn [bind]; [|rewrite SIM; reflexivity].
  destruct SIM as ([[he r] w] & -> & (K & D & F & W & LW & W1 & W2 & W3 & a & A & SA & R1 & R2)). cbn [bind fst snd] in *.
  assert (P := project_arrays_spec he r a _ _ fp w _ wv A SA F W LW).
  destruct (py_project t fp wv) as [rec|e]; cbn [bind]; [|rewrite P; reflexivity].
  destruct P as [-> RR]. cbn [bind].
  set (hf := he ++ [NArr [np; nb] true (Floats F64 (concat rec))]).
  assert (KF : kept he hf) by apply kept_app.
  rewrite (compare_arrays_spec hf d rows (length he) _ rec (length h1) _ dv niter (KF _ _ (K _ _ O5)) (last_here _ _ _) RR (KF _ _ D)).
  cbv zeta.
  destruct (py_discrepancy sqrt _ np nb) as [y|e]; cbn [bind]; [|reflexivity].
  destruct (set dv (zi niter) y) as [dv'|e]; cbn [bind]; [|reflexivity].
  assert (WL : (w < length he)%nat) by (apply nth_error_Some; congruence).
  assert (DL : (length h1 < length he)%nat) by (apply nth_error_Some; congruence).
  do 7 eexists. split; [reflexivity|]. cbn [o_weight o_diff o_recreated o_waterfall o_xp o_nparts].
  split. { apply kept_write; [|auto]. intros k b Q. apply KF, K. exact Q. }
  do 4 (split; [reflexivity|]). split; [lia|]. split; [lia|]. split; [lia|].
  split; [lia|]. split; [lia|]. split; [lia|].
  split. { rewrite write_other by lia. apply KF. exact W. }
  split. { apply (write_here hf _ _ _ dv dv'). apply KF. exact D. }
  split. { rewrite write_other by lia. apply last_here. }
  split; [apply chunk_concat; exact RR|].
  unfold same_input. cbn [o_waterfall o_nprofs o_nbins o_xp o_nparts]. repeat split; congruence.
Qed.
End Facts.
