(** Property lemmas on the treatment of raw data (C36-C41, C49). *)
(*HEAD*)
From Coq Require Import List ZArith QArith Qcanon Bool Lia.
From Verif Require Import Base.Res Base.QcLib Model.MRecon Model.MParticles Model.MPreproc Spec.TomoSpec Spec.ParticleSpec Spec.PreprocSpec.
Import ListNotations.
Local Open Scope Qc_scope.
(*DAEH*)
From Coq Require Import Arith.
From Verif Require Import Base.ResLemmas Base.QcLemmas Base.Loops Spec.ReconSpec Proof.PRecon Proof.PHybrid Proof.PTomo Proof.PParticles Proof.CRecon Proof.CParticles Proof.CImage Proof.PPreproc.

(** ** C36 *)

Lemma T_rect : forall A n m (f : nat -> nat -> A), rectangular n m (T n m f).
Proof.
  intros. split; [apply tab_length|]. apply Forall_forall. intros r Hr. apply in_tab in Hr.
  destruct Hr as [i [_ <-]]. apply tab_length.
Qed.
Lemma rect_cell : forall n m l, rectangular n m l -> l = T n m (cell l).
Proof. intros. apply (rect_T Qc n m l 0 H). Qed.

Lemma bind_divide : forall (o : list (list Qc)) d sx r, (0 < r)%nat ->
  match sx with Some x => x <- qdiv x (qn r) ;; Ok (o, d, Some x) | None => Ok (o, d, None) end
  = Ok (o, d : option Qc, option_map (fun x => x / qn r) sx).
Proof. intros. destruct sx; auto. rewrite qdiv_ok by (apply Qclt_ne, qn_pos; auto). reflexivity. Qed.

Lemma rebin_T : forall n k r f dt sx, (0 < r)%nat ->
  rebin (T n (k * r) f) (k * r) r dt sx =
  Ok (T n k (fun i j => sumn r (fun a => f i (j * r + a)%nat)), option_map (fun d => d * qn r) dt, option_map (fun x => x / qn r) sx).
Proof.
  intros. unfold rebin. destruct (Nat.eqb_spec r 0); [lia|].
  rewrite Nat.mod_mul by lia. cbn [Nat.eqb]. rewrite rebin_dividable_T by auto. cbn [bind].
  apply bind_divide. auto.
Qed.

(** When the factor r divides the number of bins, bin j of the result is the
    sum of bins j*r, ..., j*r+r-1 and every profile keeps its total.  The bin
    width is multiplied by r and the synchronous position divided by r. *)
Lemma C36_divisible_lem : forall n k r wf dt sx, rectangular n (k * r) wf -> (0 < r)%nat ->
  exists out, rebin wf (k * r) r dt sx = Ok (out, option_map (fun d => d * qn r) dt, option_map (fun x => x / qn r) sx) /\
    rectangular n k out /\
    (forall i j, (i < n)%nat -> (j < k)%nat -> cell out i j = bin_sum wf i (j * r) r) /\
    map qsum out = map qsum wf.
Proof.
  intros n k r wf dt sx R Hr. assert (E := rebin_T n k r (cell wf) dt sx Hr). rewrite <- (rect_cell _ _ _ R) in E. rewrite E.
  eexists. split; [reflexivity|]. split; [apply T_rect|]. split.
  - intros. rewrite cell_T by auto. reflexivity.
  - transitivity (map qsum (T n (k * r) (cell wf))); [|rewrite <- (rect_cell _ _ _ R); reflexivity].
    unfold T. rewrite !map_tab. apply tab_ext. intros i Hi. rewrite <- !sumn_qsum. apply sumn_shift_flat.
Qed.
(*EX*)
Example C36_divisible_ex :
  match rebin [[1; qz 2; qz 3; qz 4]; [0; 1; 0; 1]] 4 2 (Some 1) (Some (qz 3)) with
  | Ok (o, Some d, Some x) => map (map this) o = map (map this) [[qz 3; qz 7]; [1; 1]] /\ this d = 2%Q /\ this x = (3 # 2)%Q
  | _ => False end.
Proof. vm_compute. auto. Qed.
(*XE*)

(** When s bins are left over (0 < s < r) there is one more bin.  It holds the
    sum of the last full group and the left-over bins (of the left-over bins
    only if there is no full group), multiplied by r/(r+s).  The total of the
    profile is therefore not kept in general: see [C36_total_iff] and
    [C36_total_refuted]. *)
Lemma C36_remainder_partial_lem : forall n k r s wf dt sx, rectangular n (k * r + s) wf -> (0 < s)%nat -> (s < r)%nat ->
  exists out, rebin wf (k * r + s) r dt sx = Ok (out, option_map (fun d => d * qn r) dt, option_map (fun x => x / qn r) sx) /\
    rectangular n (k + 1) out /\
    (forall i j, (i < n)%nat -> (j < k)%nat -> cell out i j = bin_sum wf i (j * r) r) /\
    (forall i, (i < n)%nat -> cell out i k =
       (match k with O => bin_sum wf i 0 s | S k' => bin_sum wf i (k' * r) (r + s) end) * (qn r / qn (r + s))).
Proof.
  intros n k r s wf dt sx R Hs Hr. assert (E := rebin_individable_T n k r s (cell wf) Hs Hr). rewrite <- (rect_cell _ _ _ R) in E.
  unfold rebin.
  destruct (Nat.eqb_spec r 0); [lia|].
  assert (M : ((k * r + s) mod r)%nat = s) by (rewrite Nat.add_comm, Nat.mod_add by lia; apply Nat.mod_small; auto).
  rewrite M. destruct (Nat.eqb_spec s 0); [lia|]. rewrite E. cbn [bind].
  rewrite bind_divide by lia. eexists. split; [reflexivity|]. split; [apply T_rect|]. split.
  - intros. rewrite cell_T by lia. destruct (Nat.ltb_spec j k); [reflexivity|lia].
  - intros. rewrite cell_T by lia. destruct (Nat.ltb_spec k k); [lia|]. f_equal. unfold bin_sum. destruct k.
    + simpl. rewrite Nat.sub_0_r. reflexivity.
    + replace (S k - 1)%nat with k by lia. replace (S k * r + s - k * r)%nat with (r + s)%nat by lia. reflexivity.
Qed.
(*EX*)
Example C36_remainder_ex :
  match rebin [[1; qz 2; qz 3; qz 4; qz 5]] 5 2 None None with
  | Ok (o, None, None) => map (map this) o = map (map this) [[qz 3; qz 7; qz 8]]
  | _ => False end.
Proof. vm_compute. auto. Qed.
(*XE*)

(** With left-over bins the total of profile i is kept exactly when r times the
    sum of the last full group equals s times the sum of the left-over bins. *)
Lemma C36_total_iff_lem : forall n k r s wf dt sx out dt' sx' i, rectangular n (S k * r + s) wf -> (0 < s)%nat -> (s < r)%nat ->
  rebin wf (S k * r + s) r dt sx = Ok (out, dt', sx') -> (i < n)%nat ->
  (sumn (S k + 1) (cell out i) = sumn (S k * r + s) (cell wf i) <->
   qn r * bin_sum wf i (k * r) r = qn s * bin_sum wf i (S k * r) s).
Proof.
  intros n k r s wf dt sx out dt' sx' i R Hs Hr E Hi.
  destruct (C36_remainder_partial_lem n (S k) r s wf dt sx R Hs Hr) as (o & E' & R' & C1 & C2).
  rewrite E in E'. injection E' as -> _ _.
  replace (S k + 1)%nat with (S (S k)) by lia. rewrite (sumn_ext (S (S k)) (cell o i) (fun j => if (j <? S k)%nat then bin_sum wf i (j * r) r else cell o i (S k))).
  2:{ intros j Hj. destruct (Nat.ltb_spec j (S k)); [apply C1; auto|]. f_equal. lia. }
  set (A := bin_sum wf i (k * r) r). set (B := bin_sum wf i (S k * r) s).
  assert (L : sumn (S (S k)) (fun j => if (j <? S k)%nat then bin_sum wf i (j * r) r else cell o i (S k)) = sumn (k * r) (cell wf i) + A + cell o i (S k)).
  { cbn [sumn]. destruct (Nat.ltb_spec (S k) (S k)); [lia|]. destruct (Nat.ltb_spec k (S k)); [|lia]. fold A. f_equal. f_equal.
    rewrite <- (sumn_shift_flat k r). apply sumn_ext. intros j Hj. destruct (Nat.ltb_spec j (S k)); [reflexivity|lia]. }
  assert (Q : sumn (S k * r + s) (cell wf i) = sumn (k * r) (cell wf i) + A + B).
  { rewrite sumn_app. unfold B, bin_sum. f_equal. replace (S k * r)%nat with (k * r + r)%nat by lia. rewrite sumn_app. reflexivity. }
  assert (D : bin_sum wf i (k * r) (r + s) = A + B).
  { unfold bin_sum at 1. rewrite sumn_app. f_equal. unfold B, bin_sum. apply sumn_ext. intros. f_equal. lia. }
  rewrite L, Q, C2, D by auto.
  assert (P : 0 < qn (r + s)) by (apply qn_pos; lia).
  assert (QA : qn (r + s) = qn r + qn s) by (unfold qn; rewrite Nat2Z.inj_add; apply qz_add).
  split; intros H.
  - assert (H1 : (A + B) * qn r = B * qn (r + s)).
    { assert (H2 : (A + B) * (qn r / qn (r + s)) = B) by qclra. rewrite <- H2 at 2. field. apply Qclt_ne; auto. }
    rewrite QA in H1. qcnra.
  - assert (H2 : (A + B) * (qn r / qn (r + s)) = B); [|qclra].
    assert (H1 : (A + B) * qn r = B * qn (r + s)) by (rewrite QA; qcnra).
    transitivity ((A + B) * qn r / qn (r + s)); [field; apply Qclt_ne; auto|]. rewrite H1. field. apply Qclt_ne; auto.
Qed.
(*EX*)
Example C36_total_ex : exists out, rebin [[1; 1; 1; 1; 1]] 5 2 None None = Ok (out, None, None).
Proof. eexists. vm_compute. reflexivity. Qed.
(*XE*)

(** Rebinning does not keep the total of a profile. *)
Lemma C36_total_refuted_lem :
  ~ (forall n m r wf dt sx out dt' sx', rectangular n m wf -> (0 < r)%nat ->
       rebin wf m r dt sx = Ok (out, dt', sx') -> map qsum out = map qsum wf).
Proof.
  intros H. destruct (rebin [[1; 1; 1]] 3 2 None None) as [[[out dt] sx]|e] eqn:E; [|vm_compute in E; discriminate].
  assert (H1 := H 1%nat 3%nat 2%nat [[1; 1; 1]] None None out dt sx ltac:(split; auto) ltac:(lia) E).
  assert (X : map this (map qsum out) = map this (map qsum [[1; 1; 1]])) by (rewrite H1; reflexivity).
  vm_compute in E. injection E as <- _ _. vm_compute in X. discriminate.
Qed.

(** A constant profile becomes a constant profile, r times higher, also when
    bins are left over. *)
Lemma C36_constant_lem : forall n m r c dt sx, (0 < r)%nat -> (r <= m)%nat ->
  exists k dt' sx', rebin (repeat (repeat c m) n) m r dt sx = Ok (repeat (repeat (qn r * c) k) n, dt', sx') /\
    (m <= k * r < m + r)%nat.
Proof.
  intros n m r c dt sx Hr Hm.
  assert (R : rectangular n m (repeat (repeat c m) n)).
  { split; [apply repeat_length|]. apply Forall_forall. intros x Hx. apply repeat_spec in Hx. subst. apply repeat_length. }
  assert (CE : forall i j, (i < n)%nat -> (j < m)%nat -> cell (repeat (repeat c m) n) i j = c).
  { intros. unfold cell. rewrite !repeat_tab. rewrite nth_tab by auto. apply nth_tab. auto. }
  assert (BS : forall i b k, (i < n)%nat -> (b + k <= m)%nat -> bin_sum (repeat (repeat c m) n) i b k = qn k * c).
  { intros. unfold bin_sum. rewrite (sumn_ext _ _ (fun _ => c)) by (intros; apply CE; lia). apply sumn_const. }
  assert (RR : forall k, repeat (repeat (qn r * c) k) n = T n k (fun _ _ => qn r * c)).
  { intros. unfold T. rewrite repeat_tab. apply tab_ext. intros. apply repeat_tab. }
  assert (D := Nat.div_mod m r ltac:(lia)). assert (U := Nat.mod_upper_bound m r ltac:(lia)).
  set (k := (m / r)%nat) in *. set (s := (m mod r)%nat) in *.
  destruct (Nat.eq_dec s 0) as [E|E].
  - assert (M : m = (k * r)%nat) by lia. clearbody k s. clear D. subst m.
    destruct (C36_divisible_lem n k r _ dt sx R Hr) as (out & E1 & R1 & C & _).
    exists k. do 2 eexists. split; [|lia]. rewrite E1. do 3 f_equal.
    rewrite RR, (rect_cell _ _ _ R1). unfold T. apply tab_ext. intros i Hi. apply tab_ext. intros j Hj.
    rewrite C, BS by (auto; nia). reflexivity.
  - assert (M : m = (k * r + s)%nat) by lia. clearbody k s. clear D. subst m.
    destruct k as [|k]; [lia|].
    destruct (C36_remainder_partial_lem n (S k) r s _ dt sx R ltac:(lia) U) as (out & E1 & R1 & C1 & C2).
    exists (S k + 1)%nat. do 2 eexists. split; [|lia]. rewrite E1. do 3 f_equal.
    rewrite RR, (rect_cell _ _ _ R1). unfold T. apply tab_ext. intros i Hi. apply tab_ext. intros j Hj.
    destruct (Nat.eq_dec j (S k)) as [->|N].
    + rewrite C2, BS by (auto; nia). field. apply Qclt_ne, qn_pos. lia.
    + rewrite C1, BS by (auto; nia). reflexivity.
Qed.
(*EX*)
Example C36_constant_ex : (0 < 3)%nat /\ (3 <= 8)%nat. Proof. lia. Qed.
(*XE*)

(** The position of the synchronous particle in seconds is kept. *)
Lemma C36_time_lem : forall wf m r dt sx out dt' sx', rebin wf m r (Some dt) (Some sx) = Ok (out, Some dt', Some sx') ->
  sx' * dt' = sx * dt.
Proof.
  intros wf m r dt sx out dt' sx' E. unfold rebin in E. destruct (Nat.eqb_spec r 0); [discriminate|].
  destruct (if Nat.eqb (m mod r) 0 then _ else _) as [o|] in E; [|discriminate]. cbn [bind option_map] in E.
  rewrite qdiv_ok in E by (apply Qclt_ne, qn_pos; lia). cbn [bind] in E. injection E as _ <- <-.
  field. apply Qclt_ne, qn_pos; lia.
Qed.
(*EX*)
Example C36_time_ex : exists o d x, rebin [[1; 1; 1; 1; 1]] 5 2 (Some (qz 3)) (Some (qz 7)) = Ok (o, Some d, Some x).
Proof. do 3 eexists. vm_compute. reflexivity. Qed.
(*XE*)

(** Factor 1 changes nothing. *)
Lemma C36_one_lem : forall n m wf dt sx, rectangular n m wf -> rebin wf m 1 dt sx = Ok (wf, dt, sx).
Proof.
  intros n m wf dt sx R. assert (E := rebin_T n m 1 (cell wf) dt sx ltac:(lia)). rewrite Nat.mul_1_r in E.
  rewrite <- (rect_cell _ _ _ R) in E. rewrite E. f_equal. f_equal; [f_equal|].
  - transitivity (T n m (cell wf)); [|symmetry; apply rect_cell; auto]. unfold T. apply tab_ext. intros i Hi. apply tab_ext. intros j Hj.
    simpl. rewrite Nat.mul_1_r, Nat.add_0_r. ring.
  - destruct dt; auto. simpl. f_equal. change (qn 1) with 1. ring.
  - destruct sx; auto. simpl. f_equal. change (qn 1) with 1. field. discriminate.
Qed.
(*EX*)
Example C36_one_ex : rectangular 1 3 [[1; 0; 1]]. Proof. split; auto. Qed.
(*XE*)

(** Rebinning by a and then by b is rebinning by a*b, if a*b divides the
    number of bins; factor 0 is refused. *)
Lemma C36_compose_lem : forall n k a b wf dt sx, rectangular n (k * b * a) wf -> (0 < a)%nat -> (0 < b)%nat ->
  exists w1 dt1 sx1, rebin wf (k * b * a) a dt sx = Ok (w1, dt1, sx1) /\
    rebin w1 (k * b) b dt1 sx1 = rebin wf (k * (b * a)) (b * a) dt sx.
Proof.
  intros n k a b wf dt sx R Ha Hb. assert (E := rebin_T n (k * b) a (cell wf) dt sx Ha).
  assert (E2 := rebin_T n k (b * a) (cell wf) dt sx ltac:(nia)). replace (k * (b * a))%nat with (k * b * a)%nat in E2 |- * by lia.
  rewrite <- (rect_cell _ _ _ R) in E, E2.
  do 3 eexists. split; [exact E|]. rewrite E2. rewrite rebin_T by auto.
  assert (QM : qn (b * a) = qn b * qn a) by (unfold qn; rewrite Nat2Z.inj_mul; apply qz_mul).
  f_equal. f_equal; [f_equal|].
  - apply T_ext. intros i j Hi Hj. rewrite <- (sumn_shift_flat b a). apply sumn_ext. intros x Hx. apply sumn_ext. intros y Hy.
    f_equal. ring.
  - destruct dt; auto. simpl. f_equal. rewrite QM. ring.
  - destruct sx; auto. simpl. f_equal. rewrite QM. field. split; apply Qclt_ne, qn_pos; auto.
Qed.
(*EX*)
Example C36_compose_ex : rectangular 1 (1 * 2 * 2) [[1; 0; 1; 0]]. Proof. split; auto. Qed.
(*XE*)

(** ** C37 *)

(** The cuts found are accepted by [cut_waterfall] and every step (between bins
    b and b+1) above the threshold lies inside; the threshold, if not given, is
    0.3 times the largest step, all steps taken relative to the smallest. *)
Lemma C37_cuts_lem : forall n m wf th margin, rectangular n m wf -> (2 <= m)%nat -> (0 <= margin)%Z ->
  exists l r low high, get_cuts wf m th margin = Ok (l, r) /\ (0 <= l)%Z /\ (l < r)%Z /\ (r <= Z.of_nat m)%Z /\
    (exists out, cut_waterfall wf m l r = Ok out) /\
    smallest (m - 1) (step wf n) low /\ largest (m - 1) (step wf n) high /\
    forall b, (b < m - 1)%nat ->
      match th with Some t => t | None => (high - low) * qq 3 10 end < step wf n b - low ->
      (l <= Z.of_nat b)%Z /\ (Z.of_nat b + 1 < r)%Z.
Proof.
  intros n m wf th margin R Hm Hg.
  destruct (get_cuts_T n m (cell wf) th margin Hm Hg) as (low & high & S1 & S2 & H).
  rewrite <- (rect_cell _ _ _ R) in S1, S2, H. cbv zeta in H.
  assert (CW : forall l r, (0 <= l)%Z -> (l < r)%Z -> (r <= Z.of_nat m)%Z -> exists out, cut_waterfall wf m l r = Ok out).
  { intros l r A B C. eexists. unfold cut_waterfall, assert_greater_or_equal, assert_inrange, assert_greater.
    destruct (Z.ltb_spec l 0); [lia|]. cbn [bind]. destruct (Z.ltb_spec r 0); [lia|].
    destruct (Z.ltb_spec r 0); [lia|]. destruct (Z.ltb_spec (Z.of_nat m) r); [lia|]. cbn [orb bind].
    destruct (Z.leb_spec r l); [lia|]. cbn [bind]. reflexivity. }
  destruct H as [[H E]|(f & t & H1 & H2 & H3 & H4 & H5 & E)].
  - exists 0%Z, (Z.of_nat m), low, high. do 7 (split; [auto; try lia; try (apply CW; lia)|]).
    intros b Hb Ab. exfalso. apply (H b Hb). exact Ab.
  - do 2 eexists. exists low, high. split; [exact E|]. split; [lia|]. split; [lia|]. split; [lia|]. split; [apply CW; lia|].
    split; auto. split; auto. intros b Hb Ab. destruct (H5 b Hb Ab). lia.
Qed.
(*EX*)
Example C37_cuts_ex : get_cuts [[0; 0; 0; qz 5; 0; 0; 0; 0]] 8 None 1 = Ok (1, 7)%Z.
Proof. vm_compute. reflexivity. Qed.
(*XE*)

(** The cuts are tight: the left one is the first step above the threshold
    minus the margin, the right one lies margin+2 bins after the last such
    step's right-hand bin, both limited to the profile. *)
Lemma C37_tight_lem : forall n m wf t margin l r, rectangular n m wf -> (2 <= m)%nat -> (0 <= margin)%Z ->
  get_cuts wf m (Some t) margin = Ok (l, r) ->
  forall low, smallest (m - 1) (step wf n) low ->
  (exists b, (b < m - 1)%nat /\ t < step wf n b - low) ->
  exists first last, (first < m - 1)%nat /\ (last < m - 1)%nat /\ t < step wf n first - low /\ t < step wf n last - low /\
    l = Z.max 0 (Z.of_nat first - margin) /\ r = Z.min (Z.of_nat m) (Z.of_nat last + 3 + margin).
Proof.
  intros n m wf t margin l r R Hm Hg E low Hl [b [Hb Ab]].
  destruct (get_cuts_T n m (cell wf) (Some t) margin Hm Hg) as (low' & high & S1 & S2 & H).
  rewrite <- (rect_cell _ _ _ R) in S1, S2, H. cbv zeta in H. cbn [thr_of] in H.
  assert (low' = low).
  { destruct S1 as [[i [Hi Ei]] A], Hl as [[j [Hj Ej]] B]. apply Qcle_antisym'; [rewrite <- Ej; auto|rewrite <- Ei; auto]. }
  subst low'. destruct H as [[H _]|(f & u & H1 & H2 & H3 & H4 & H5 & E2)]; [exfalso; apply (H b Hb Ab)|].
  rewrite E in E2. injection E2 as -> ->. exists f, u. repeat split; auto; lia.
Qed.
(*EX*)
Example C37_tight_ex : get_cuts [[0; 0; 0; qz 5; 0; 0; 0; 0]] 8 (Some 1) 0 = Ok (2, 6)%Z.
Proof. vm_compute. reflexivity. Qed.
(*XE*)

(** [cut_waterfall] returns exactly the bins l..r-1 of every profile (a
    negative r counts from the end), and ValueError for any other limits. *)
Lemma C37_cut_waterfall_lem : forall A n m (wf : list (list A)) l r, rectangular n m wf ->
  let e := (if r <? 0 then Z.of_nat m + r else r)%Z in
  ((0 <= l)%Z /\ (l < e)%Z /\ (e <= Z.of_nat m)%Z /\
     exists out, cut_waterfall wf m l r = Ok out /\ rectangular n (Z.to_nat (e - l)) out /\
       Forall2 (fun row row' => forall j, (j < Z.to_nat (e - l))%nat -> nth_error row' j = nth_error row (Z.to_nat l + j)) wf out)
  \/ (((l < 0)%Z \/ (e <= l)%Z \/ (Z.of_nat m < e)%Z) /\ cut_waterfall wf m l r = Fail (Raised ValueError)).
Proof.
  intros A n m wf l r [R1 R2] e. unfold cut_waterfall, assert_greater_or_equal, assert_inrange, assert_greater.
  assert (G : (0 <= l)%Z -> (l < e)%Z -> (e <= Z.of_nat m)%Z -> 
     (0 <= l)%Z /\ (l < e)%Z /\ (e <= Z.of_nat m)%Z /\
     exists out, Ok (map (fun row => slice row l r) wf) = Ok out /\ rectangular n (Z.to_nat (e - l)) out /\
       Forall2 (fun row row' => forall j, (j < Z.to_nat (e - l))%nat -> nth_error row' j = nth_error row (Z.to_nat l + j)) wf out).
  { intros H1 H2 H3. do 3 (split; [auto|]). eexists. split; [reflexivity|].
    assert (S : forall row : list A, length row = m -> slice row l r = firstn (Z.to_nat (e - l)) (skipn (Z.to_nat l) row)).
    { intros row L. unfold slice. rewrite L. rewrite (pyidx_nonneg m l) by lia.
      assert (P : pyidx m r = Z.to_nat e).
      { unfold e in *. destruct (Z.ltb_spec r 0); [rewrite pyidx_neg by lia; f_equal; lia|rewrite pyidx_nonneg by lia; auto]. }
      rewrite P. f_equal. lia. }
    split.
    - split; [rewrite map_length; auto|]. apply Forall_forall. intros x Hx. apply in_map_iff in Hx. destruct Hx as [row [<- Hr]].
      rewrite Forall_forall in R2. specialize (R2 row Hr). rewrite S, firstn_length, skipn_length by auto. lia.
    - clear R1. induction wf as [|row wf IH]; constructor.
      + inversion_clear R2. intros j Hj. rewrite S by auto. rewrite <- (firstn_skipn (Z.to_nat l) row) at 2.
        rewrite nth_error_app2 by (rewrite firstn_length; lia). rewrite firstn_length.
        replace (Z.to_nat l + j - Nat.min (Z.to_nat l) (length row))%nat with j by lia.
        rewrite <- (firstn_skipn (Z.to_nat (e - l)) (skipn (Z.to_nat l) row)) at 2.
        rewrite nth_error_app1; auto. rewrite firstn_length, skipn_length. lia.
      + apply IH. inversion R2; auto. }
  destruct (Z.ltb_spec l 0); [right; split; auto|]. cbn [bind].
  unfold e in *. destruct (Z.ltb_spec r 0).
  - destruct (Z.ltb_spec r (- Z.of_nat m)); cbn [orb bind]; [right; split; auto; lia|].
    destruct (Z.ltb_spec (-1) r); [lia|]. cbn [bind].
    destruct (Z.leb_spec (Z.of_nat m + r) l); cbn [bind]; [right; split; auto; lia|]. left. apply G; lia.
  - destruct (Z.ltb_spec r 0); [lia|]. cbn [orb].
    destruct (Z.ltb_spec (Z.of_nat m) r); cbn [bind]; [right; split; auto; lia|].
    destruct (Z.leb_spec r l); cbn [bind]; [right; split; auto; lia|]. left. apply G; lia.
Qed.
(*EX*)
Example C37_cut_waterfall_ex : cut_waterfall [[1%nat; 2%nat; 3%nat; 4%nat]] 4 1 (-1) = Ok [[2%nat; 3%nat]]
  /\ cut_waterfall [[1%nat; 2%nat; 3%nat; 4%nat]] 4 3 (-1) = Fail (Raised ValueError).
Proof. vm_compute. auto. Qed.
(*XE*)

(** ** C38 *)

Lemma total_T : forall n m l, rectangular n m l -> qsum (map qsum l) = sumn n (fun i => sumn m (cell l i)).
Proof. intros. rewrite (rect_cell _ _ _ H) at 1. apply qsum_T. Qed.

Lemma good_frames_T : forall n m f, let S := sumn n (fun i => sumn m (f i)) in (0 < n)%nat -> 0 < S ->
  mapM (mapM (fun v => qdiv v (qsum (map qsum (T n m f))))) (T n m f) = Ok (T n m (fun i j => f i j / S)) /\
  exists mx mn, largest n (fun i => sumn m (f i)) mx /\ smallest n (fun i => sumn m (f i)) mn /\
  good_frames (T n m f) = Ok (tab n (fun i => qltb (mx - mn - S / qn n) (sumn m (f i)))).
Proof.
  intros n m f S Hn HS.
  assert (M : mapM (mapM (fun v => qdiv v (qsum (map qsum (T n m f))))) (T n m f) = Ok (T n m (fun i j => f i j / S))).
  { rewrite qsum_T. fold S. rewrite (mapM_ok_map _ _ _ (map (fun v => v / S))).
    - f_equal. unfold T. rewrite map_tab. apply tab_ext. intros. apply map_tab.
    - intros r _. apply mapM_ok_map. intros. apply qdiv_ok. apply Qclt_ne; auto. }
  split; auto. unfold good_frames. rewrite M. cbn [bind]. unfold T at 1 2 3 4 5. rewrite map_tab.
  set (b := fun i => qsum (tab m (fun j => f i j / S))).
  assert (B : forall i, b i = sumn m (f i) / S) by (intros; unfold b; rewrite <- sumn_qsum; apply sumn_div).
  destruct (qmaximum_tab n b Hn) as [mx [E1 [[i1 [Hi1 F1]] G1]]]. destruct (qminimum_tab n b Hn) as [mn [E2 [[i2 [Hi2 F2]] G2]]].
  exists (mx * S), (mn * S).
  assert (BS : forall i, sumn m (f i) = b i * S) by (intros; rewrite B; field; apply Qclt_ne; auto).
  split; [|split].
  - split; [exists i1; split; auto; rewrite BS, F1; auto|]. intros. rewrite BS. apply Qcmult_le_compat_r; auto. qclra.
  - split; [exists i2; split; auto; rewrite BS, F2; auto|]. intros. rewrite BS. apply Qcmult_le_compat_r; auto. qclra.
  - rewrite E1, E2. cbn [bind]. rewrite tab_length, qdiv_ok by (apply Qclt_ne, qn_pos; auto). cbn [bind]. rewrite map_tab. f_equal.
    apply tab_ext. intros i Hi. rewrite <- sumn_qsum.
    rewrite (sumn_ext n b (fun i => sumn m (f i) / S)) by (intros; apply B). rewrite sumn_div. fold S.
    rewrite B. set (R := sumn m (f i)).
    assert (K : S / S = 1) by (field; apply Qclt_ne; auto). rewrite K.
    assert (P : 0 < qn n) by (apply qn_pos; auto).
    assert (D : mx * S - mn * S - S / qn n = (mx - mn - 1 / qn n) * S) by (field; apply Qclt_ne; auto).
    rewrite D. clear - HS.
    destruct (qltb_spec (mx - mn - 1 / qn n) (R / S)) as [H|H]; symmetry.
    + apply qltb_true. assert (X : R = R / S * S) by (field; apply Qclt_ne; auto). rewrite X. apply Qcmult_lt_compat_r; auto.
    + apply qltb_false. assert (X : R = R / S * S) by (field; apply Qclt_ne; auto). rewrite X. apply Qcmult_le_compat_r; auto. qclra.
Qed.

(** [filter_profiles] on a non-negative waterfall that is not zero: the frames
    kept are those whose total exceeds (largest - smallest - mean of the
    totals), in their order; every largest frame is kept, every empty frame is
    removed, and the columns of xp and yp are the same selection.  What is
    missing for the full property is the index of the reconstruction profile:
    see [C38_rec_prof_partial] and [C38_rec_prof_refuted]. *)
Lemma C38_filter_partial_lem : forall A n m wf px py (xp yp : list (list A)),
  rectangular n m wf -> Forall (Forall (fun x => 0 <= x)) wf -> Exists (Exists (fun x => 0 < x)) wf ->
  rectangular px n xp -> rectangular py n yp ->
  let total := sumn n (fun i => sumn m (cell wf i)) in
  exists keep wf' xp' yp' mx mn,
    filter_profiles wf (Some (n, xp)) (Some (n, yp)) None = Ok (wf', Some xp', Some yp', None) /\
    filter_profiles wf (None : option (nat * list (list A))) None None = Ok (wf', None, None, None) /\
    increasing keep /\ (forall i, In i keep -> (i < n)%nat) /\
    largest n (fun i => sumn m (cell wf i)) mx /\ smallest n (fun i => sumn m (cell wf i)) mn /\
    (forall i, (i < n)%nat -> (In i keep <-> mx - mn - total / qn n < sumn m (cell wf i))) /\
    (forall i, (i < n)%nat -> sumn m (cell wf i) = mx -> In i keep) /\
    (forall i, (i < n)%nat -> sumn m (cell wf i) = 0 -> ~ In i keep) /\
    picked keep (map (map (fun v => v / total)) wf) wf' /\
    Forall2 (picked keep) xp xp' /\ Forall2 (picked keep) yp yp'.
Proof.
  intros A n m wf px py xp yp R NN EX Rx Ry total.
  assert (NNc : forall i j, (i < n)%nat -> (j < m)%nat -> 0 <= cell wf i j).
  { intros i j Hi Hj. destruct R as [R1 R2]. unfold cell. rewrite Forall_forall in NN, R2.
    assert (I : In (nth i wf []) wf) by (apply nth_In; lia). specialize (NN _ I). rewrite Forall_forall in NN.
    apply NN. apply nth_In. rewrite (R2 _ I). auto. }
  assert (HS : 0 < total).
  { assert (GE : 0 <= total) by (apply sumn_nonneg; intros; apply sumn_nonneg; auto).
    destruct (Qc_eq_dec total 0) as [Z|Z].
    - exfalso. apply Exists_exists in EX. destruct EX as [row [Hr EX]]. apply Exists_exists in EX. destruct EX as [x [Hx Px]].
      destruct (In_nth _ _ [] Hr) as [i [Hi Ei]]. destruct (In_nth _ _ 0 Hx) as [j [Hj Ej]].
      destruct R as [R1 R2]. rewrite Forall_forall in R2. rewrite (R2 _ Hr) in Hj. rewrite R1 in Hi.
      assert (C : cell wf i j = x) by (unfold cell; rewrite Ei, Ej; auto).
      assert (Z1 := sumn_ge_term n (fun i => sumn m (cell wf i)) i ltac:(intros; apply sumn_nonneg; auto) Hi).
      assert (Z2 := sumn_ge_term m (cell wf i) j ltac:(intros; auto) Hj). rewrite C in Z2. cbv beta in Z1. fold total in Z1. qclra.
    - destruct (qltb_spec 0 total) as [Q|Q]; auto. exfalso. apply Z. apply Qcle_antisym'; auto. }
  assert (Hn : (0 < n)%nat) by (destruct n; [unfold total in HS; simpl in HS; exfalso; qclra|lia]).
  destruct (good_frames_T n m (cell wf) Hn HS) as (M & mx & mn & L1 & L2 & G). fold total in M, G.
  rewrite <- (rect_cell _ _ _ R) in M, G.
  set (good := tab n (fun i => qltb (mx - mn - total / qn n) (sumn m (cell wf i)))) in G.
  assert (Lg : length good = n) by apply tab_length.
  exists (filter (fun i => nth i good false) (seq 0 n)), (keep_flagged good (T n m (fun i j => cell wf i j / total))),
    (map (keep_flagged good) xp), (map (keep_flagged good) yp), mx, mn.
  assert (K : forall i, (i < n)%nat -> (In i (filter (fun i => nth i good false) (seq 0 n)) <-> mx - mn - total / qn n < sumn m (cell wf i))).
  { intros i Hi. rewrite filter_In, in_seq. unfold good. rewrite nth_tab by auto. rewrite qltb_true. split; [tauto|]. intros; split; auto. lia. }
  assert (P : 0 < qn n) by (apply qn_pos; auto).
  assert (MP : 0 < total / qn n) by (apply Qcdiv_pos; auto).
  assert (PK : forall (t : list (list A)) p, rectangular p n t -> Forall2 (picked (filter (fun i => nth i good false) (seq 0 n))) t (map (keep_flagged good) t)).
  { intros t p [_ Rt]. clear -Rt Lg. induction t as [|r t IH]; constructor.
    - inversion_clear Rt. assert (X := keep_flagged_picked _ good r ltac:(congruence)). rewrite H in X. exact X.
    - apply IH. inversion Rt; auto. }
  split; [|split; [|split; [|split; [|split; [|split; [|split; [|split; [|split; [|split; [|split]]]]]]]]]].
  - unfold filter_profiles. rewrite G, M. cbn [bind]. unfold mask_columns. rewrite Lg, Nat.eqb_refl. reflexivity.
  - unfold filter_profiles. rewrite G, M. cbn [bind]. reflexivity.
  - intros a b H1 H2. apply filter_sorted; auto.
  - intros i Hi. apply filter_In in Hi. destruct Hi as [Hi _]. apply in_seq in Hi. lia.
  - exact L1.
  - exact L2.
  - exact K.
  - intros i Hi E. apply K; auto. rewrite E. destruct L2 as [[i2 [Hi2 E2]] _].
    assert (0 <= mn) by (rewrite <- E2; apply sumn_nonneg; auto). qclra.
  - intros i Hi E. rewrite K by auto. rewrite E. intros LT. destruct L2 as [_ L2]. specialize (L2 i Hi). cbv beta in L2. rewrite E in L2.
    destruct L1 as [_ L1].
    assert (X : total <= sumn n (fun _ => mx)) by (apply sumn_le; intros; apply L1; auto).
    rewrite sumn_const in X. assert (Y : total = total / qn n * qn n) by (field; apply Qclt_ne; auto).
    rewrite Y in X. assert (X2 : total / qn n <= mx) by qcnra. qclra.
  - assert (X := keep_flagged_picked _ good (T n m (fun i j => cell wf i j / total)) ltac:(rewrite Lg; symmetry; apply tab_length)).
    replace (length (T n m (fun i j => cell wf i j / total))) with n in X by (symmetry; apply tab_length).
    replace (map (map (fun v => v / total)) wf) with (T n m (fun i j => cell wf i j / total)); auto.
    transitivity (map (map (fun v => v / total)) (T n m (cell wf))); [|rewrite <- (rect_cell _ _ _ R); reflexivity].
    unfold T. rewrite map_tab. apply tab_ext. intros. symmetry. apply map_tab.
  - eapply PK; eauto.
  - eapply PK; eauto.
Qed.
(*EX*)
Example C38_filter_ex :
  match filter_profiles [[qz 5; 0]; [0; 0]; [qz 3; qz 2]] (Some (3%nat, [[1%nat; 2%nat; 3%nat]])) (Some (3%nat, [[4%nat; 5%nat; 6%nat]])) None with
  | Ok (wf, Some xp, Some yp, None) => map (map this) wf = map (map this) [[qq 1 2; 0]; [qq 3 10; qq 1 5]] /\ xp = [[1%nat; 3%nat]] /\ yp = [[4%nat; 6%nat]]
  | _ => False end.
Proof. vm_compute. auto. Qed.
(*XE*)

(** The returned index is right when every removed frame lies before the
    reconstruction profile. *)
Lemma C38_rec_prof_partial_lem : forall n m wf p wf' p',
  rectangular n m wf -> Forall (Forall (fun x => 0 <= x)) wf -> Exists (Exists (fun x => 0 < x)) wf ->
  (p < n)%nat ->
  filter_profiles wf (None : option (nat * list (list Z))) None (Some (Z.of_nat p)) = Ok (wf', None, None, Some p') ->
  forall keep, increasing keep ->
    picked keep (map (map (fun v => v / sumn n (fun i => sumn m (cell wf i)))) wf) wf' ->
    (forall i, (p <= i)%nat -> (i < n)%nat -> In i keep) ->
    (0 <= p')%Z /\ nth_error keep (Z.to_nat p') = Some p.
Proof.
  intros n m wf p wf' p' R NN EX Hp E keep Inc PK Rest.
  destruct (C38_filter_partial_lem Z n m wf 0 0 [] [] R NN EX) as (k2 & w2 & x2 & y2 & mx & mn & E1 & E2 & _).
  { split; auto. } { split; auto. }
  assert (LW : length wf' = length keep) by (eapply picked_length; eauto).
  unfold filter_profiles in E, E2. destruct (good_frames wf) as [g|]; [|discriminate]. cbn [bind] in E, E2.
  destruct (mapM _ wf) as [w|] eqn:EM; [|discriminate]. cbn [bind] in E, E2.
  assert (Lw : length w = n).
  { apply mapM_ok_inv in EM. apply Forall2_length in EM. destruct R. congruence. }
  rewrite Lw in E. destruct (Z.ltb_spec (Z.of_nat p - (Z.of_nat n - Z.of_nat (length (keep_flagged g w)))) 0); [discriminate|].
  injection E as EW EP. rewrite EW in EP, H. rewrite LW in EP, H.
  split; [lia|].
  (* the last n-p elements of keep are p, ..., n-1 *)
  assert (INK : forall i, In i keep -> (i < n)%nat).
  { intros i Hi. destruct (In_nth_error _ _ Hi) as [q Hq]. unfold picked in PK.
    assert (X : nth_error (map Some wf') q <> None).
    { apply nth_error_Some. rewrite map_length, LW. apply nth_error_Some. congruence. }
    rewrite PK, nth_error_map, Hq in X. simpl in X.
    destruct (nth_error wf' q) as [v|] eqn:Ev.
    - assert (Y : nth_error (map Some wf') q = Some (Some v)) by (rewrite nth_error_map, Ev; reflexivity).
      rewrite PK, nth_error_map, Hq in Y. simpl in Y. injection Y as Y.
      match type of Y with nth_error ?L _ = _ => assert (Z1 : (i < length L)%nat) by (apply nth_error_Some; congruence) end.
      rewrite map_length in Z1. destruct R; congruence.
    - apply nth_error_None in Ev. rewrite LW in Ev. assert (q < length keep)%nat by (apply nth_error_Some; congruence). lia. }
  assert (T1 : forall d, (d < n - p)%nat -> (d < length keep)%nat /\ nth (length keep - 1 - d) keep 0%nat = (n - 1 - d)%nat).
  { induction d as [|d IH]; intros Hd.
    - destruct (In_nth _ _ 0%nat (Rest (n - 1)%nat ltac:(lia) ltac:(lia))) as [q [Hq Eq]]. split; [lia|].
      destruct (Nat.eq_dec q (length keep - 1)) as [->|N]; [rewrite !Nat.sub_0_r; auto|].
      assert (X := Inc q (length keep - 1)%nat ltac:(lia) ltac:(lia)).
      assert (Y := INK _ (nth_In keep 0%nat (n := (length keep - 1)%nat) ltac:(lia))). lia.
    - destruct (IH ltac:(lia)) as [A B].
      destruct (In_nth _ _ 0%nat (Rest (n - 1 - S d)%nat ltac:(lia) ltac:(lia))) as [q [Hq Eq]].
      assert (q < length keep - 1 - d)%nat.
      { destruct (Nat.lt_ge_cases q (length keep - 1 - d)); auto.
        destruct (Nat.eq_dec q (length keep - 1 - d)) as [->|N]; [lia|].
        assert (X := Inc (length keep - 1 - d)%nat q ltac:(lia) Hq). lia. }
      split; [lia|]. destruct (Nat.eq_dec q (length keep - 1 - S d)) as [->|N]; auto.
      assert (X1 := Inc q (length keep - 1 - S d)%nat ltac:(lia) ltac:(lia)).
      assert (X2 := Inc (length keep - 1 - S d)%nat (length keep - 1 - d)%nat ltac:(lia) ltac:(lia)). lia. }
  destruct (T1 (n - 1 - p)%nat ltac:(lia)) as [A B]. 
  replace (Z.to_nat p') with (length keep - 1 - (n - 1 - p))%nat by lia.
  rewrite (nth_error_nth' _ 0%nat) by lia. f_equal. lia.
Qed.
(*EX*)
Example C38_rec_prof_ex : exists wf', filter_profiles [[0; 0]; [qz 5; 0]; [qz 3; qz 2]] (None : option (nat * list (list Z))) None (Some 2%Z) = Ok (wf', None, None, Some 1%Z).
Proof. eexists. vm_compute. reflexivity. Qed.
(*XE*)

(** The returned index is wrong when a frame after the reconstruction profile
    is removed: here frame 1 of [1],[1],[0] is reported as frame 0. *)
Lemma C38_rec_prof_refuted_lem :
  ~ (forall n m wf p wf' p' keep, rectangular n m wf -> Forall (Forall (fun x => 0 <= x)) wf -> Exists (Exists (fun x => 0 < x)) wf ->
       filter_profiles wf (None : option (nat * list (list Z))) None (Some (Z.of_nat p)) = Ok (wf', None, None, Some p') ->
       increasing keep -> picked keep (map (map (fun v => v / sumn n (fun i => sumn m (cell wf i)))) wf) wf' ->
       In p keep -> nth_error keep (Z.to_nat p') = Some p).
Proof.
  intros H. specialize (H 3%nat 1%nat [[1]; [1]; [0]] 1%nat).
  destruct (filter_profiles [[1]; [1]; [0]] (None : option (nat * list (list Z))) None (Some (Z.of_nat 1))) as [[[[w x] y] p]|] eqn:E; [|vm_compute in E; discriminate].
  assert (E1 : p = Some 0%Z /\ x = None /\ y = None /\ w = [[1 / qz 2]; [1 / qz 2]]).
  { unfold filter_profiles in E. vm_compute in E. injection E as <- <- <- <-. repeat split. }
  destruct E1 as (-> & -> & -> & ->).
  assert (K : nth_error [0%nat; 1%nat] (Z.to_nat 0) = Some 1%nat); [|discriminate].
  apply (H [[1 / qz 2]; [1 / qz 2]] 0%Z [0%nat; 1%nat]); auto.
  - split; auto.
  - repeat constructor; discriminate.
  - repeat constructor.
  - intros a b Hab Hb. simpl in Hb. destruct a as [|[|a]], b as [|[|b]]; simpl; lia.
  - unfold picked. cbn [map nth_error]. repeat f_equal; apply Qc_is_canon; vm_compute; reflexivity.
  - simpl. auto.
Qed.

(** It may even be refused: frame 0 of [1],[0] is kept, but giving it as the
    reconstruction profile is a ValueError. *)
Lemma C38_rec_prof_rejected_refuted_lem :
  ~ (forall n m wf p keep wf', rectangular n m wf -> Forall (Forall (fun x => 0 <= x)) wf -> Exists (Exists (fun x => 0 < x)) wf ->
       filter_profiles wf (None : option (nat * list (list Z))) None None = Ok (wf', None, None, None) ->
       picked keep (map (map (fun v => v / sumn n (fun i => sumn m (cell wf i)))) wf) wf' -> In p keep ->
       exists r, filter_profiles wf (None : option (nat * list (list Z))) None (Some (Z.of_nat p)) = Ok r).
Proof.
  intros H. specialize (H 2%nat 1%nat [[1]; [0]] 0%nat [0%nat] [[1]]).
  destruct H as [r E]; [split; auto|repeat constructor; discriminate|repeat constructor|vm_compute; reflexivity
    |unfold picked; cbn [map nth_error]; repeat f_equal; apply Qc_is_canon; vm_compute; reflexivity|simpl; auto|].
  vm_compute in E. discriminate.
Qed.

(** ** C39 *)

(*EX*)
(** Frame settings under which raw data can be cut into profiles. *)
Definition frames_ok (f : frames) : Prop :=
  (0 < f_nframes f)%Z /\ (0 <= f_skip_frames f)%Z /\ (f_skip_frames f < f_nframes f)%Z /\
  (0 < f_nbins_frame f)%Z /\ (0 <= f_skip_start f)%Z /\ (0 <= f_skip_end f)%Z /\
  (f_skip_start f + f_skip_end f < f_nbins_frame f)%Z /\ (1 <= f_rebin f)%Z.
(*XE*)

Lemma assert_frame_inputs_iff : forall f, (frames_ok f /\ assert_frame_inputs f = Ok tt) \/
  (~ frames_ok f /\ assert_frame_inputs f = Fail (Raised InputError)).
Proof.
  intros f. unfold frames_ok, assert_frame_inputs, assert_greater, assert_inrange, assert_less, assert_greater_or_equal.
  repeat (match goal with
    | |- context [(?a <=? ?b)%Z] => destruct (Z.leb_spec a b)
    | |- context [(?a <? ?b)%Z] => destruct (Z.ltb_spec a b) end; cbn [orb bind];
    try (right; split; [lia|reflexivity])).
  left. split; [lia|reflexivity].
Qed.

(** Raw data of another length than nframes*nbins_frame is refused with
    RawDataImportError, other bad settings with InputError; everything else is
    accepted. *)
Lemma C39_accepted_lem : forall A f (raw : list A),
  (Z.of_nat (length raw) <> (f_nframes f * f_nbins_frame f)%Z -> to_waterfall f raw = Fail (Raised RawDataImportError)) /\
  (Z.of_nat (length raw) = (f_nframes f * f_nbins_frame f)%Z -> ~ frames_ok f -> to_waterfall f raw = Fail (Raised InputError)) /\
  (Z.of_nat (length raw) = (f_nframes f * f_nbins_frame f)%Z -> frames_ok f -> exists wf, to_waterfall f raw = Ok wf).
Proof.
  intros. unfold to_waterfall. destruct (Z.eqb_spec (Z.of_nat (length raw)) (f_nframes f * f_nbins_frame f)); cbn [negb];
    (split; [|split]); intros; try contradiction; auto.
  - destruct (assert_frame_inputs_iff f) as [[? E]|[? E]]; [contradiction|]. rewrite E. reflexivity.
  - destruct (assert_frame_inputs_iff f) as [[? E]|[? E]]; [|contradiction]. rewrite E. cbn [bind]. eauto.
Qed.
(*EX*)
Example C39_accepted_ex : to_waterfall (Frames 3 4 1 1 1 1) [0;1;2;3;4;5;6;7;8;9;10;11]%Z = Ok [[5;6];[9;10]]%Z.
Proof. reflexivity. Qed.
(*XE*)

(** The result has nprofs x nbins elements; element (i,j) is
    raw[(i+skip_frames)*framelength + skip_start + j]. *)
Lemma C39_cells_lem : forall A f (raw : list A) wf, to_waterfall f raw = Ok wf ->
  rectangular (Z.to_nat (f_nprofs f)) (Z.to_nat (f_nbins f)) wf /\ (0 < f_nprofs f)%Z /\ (0 < f_nbins f)%Z /\
  forall i j row, nth_error wf i = Some row -> (j < Z.to_nat (f_nbins f))%nat ->
    nth_error row j <> None /\
    nth_error row j = nth_error raw (Z.to_nat ((Z.of_nat i + f_skip_frames f) * f_nbins_frame f + f_skip_start f + Z.of_nat j)).
Proof.
  intros A f raw wf E. unfold to_waterfall in E.
  destruct (Z.eqb_spec (Z.of_nat (length raw)) (f_nframes f * f_nbins_frame f)) as [L|]; [|discriminate].
  destruct (assert_frame_inputs_iff f) as [[OK E2]|[_ E2]]; rewrite E2 in E; [|discriminate]. cbn [negb bind] in E. injection E as E.
  destruct OK as (O1 & O2 & O3 & O4 & O5 & O6 & O7 & O8). unfold f_nprofs, f_nbins.
  set (n := Z.to_nat (f_nframes f)) in *. set (m := Z.to_nat (f_nbins_frame f)) in *.
  assert (Ln : length raw = (n * m)%nat).
  { apply Nat2Z.inj. rewrite L. unfold n, m. rewrite Nat2Z.inj_mul, !Z2Nat.id by lia. reflexivity. }
  destruct raw as [|d raw0] eqn:ER; [simpl in L; nia|]. rewrite <- ER in *. clear ER raw0.
  assert (RT : raw = tab (n * m) (fl m (fun i j => nth (i * m + j) raw d))).
  { apply tab_as; auto. intros x Hx. rewrite (nth_error_nth' _ d) by lia. f_equal.
    destruct (flat_of _ _ _ Hx) as [i [j [Hi [Hj ->]]]]. rewrite fl_at by auto. reflexivity. }
  assert (CH : chunk n m raw = T n m (fun i j => nth (i * m + j) raw d)) by (rewrite RT at 1; apply chunk_tab).
  rewrite CH in E. unfold T in E. set (sk := Z.to_nat (f_skip_frames f)). set (ss := Z.to_nat (f_skip_start f)).
  rewrite (slice_from_tab _ _ _ _ sk) in E by (rewrite pyidx_nonneg; [reflexivity|lia]).
  set (nb := Z.to_nat (f_nbins_frame f - f_skip_start f - f_skip_end f)).
  assert (F : wf = T (n - sk) nb (fun i j => nth ((sk + i) * m + (ss + j)) raw d)).
  { rewrite <- E. clear E. unfold T. destruct (Z.ltb_spec 0 (f_skip_end f)); rewrite map_tab; apply tab_ext; intros i Hi.
    - rewrite (slice_tab _ _ _ _ _ ss (m - Z.to_nat (f_skip_end f))).
      + replace (m - Z.to_nat (f_skip_end f) - ss)%nat with nb by lia. reflexivity.
      + rewrite pyidx_nonneg by lia. reflexivity.
      + rewrite pyidx_neg by lia. lia.
      + lia.
    - rewrite (slice_from_tab _ _ _ _ ss) by (rewrite pyidx_nonneg; [reflexivity|lia]).
      replace (m - ss)%nat with nb by lia. reflexivity. }
  replace (Z.to_nat (f_nframes f - f_skip_frames f)) with (n - sk)%nat by lia.
  split; [rewrite F; apply T_rect|]. split; [lia|]. split; [lia|].
  intros i j row Hr Hj. rewrite F in Hr. unfold T in Hr.
  assert (Hi : (i < n - sk)%nat).
  { assert (X : nth_error (tab (n - sk) (fun i => tab nb (fun j => nth ((sk + i) * m + (ss + j)) raw d))) i <> None) by congruence.
    apply nth_error_Some in X. rewrite tab_length in X. auto. }
  rewrite nth_error_tab in Hr by auto. injection Hr as <-. rewrite nth_error_tab by auto. split; [discriminate|].
  replace (Z.to_nat ((Z.of_nat i + f_skip_frames f) * f_nbins_frame f + f_skip_start f + Z.of_nat j)) with ((sk + i) * m + (ss + j))%nat.
  - symmetry. apply nth_error_nth'. rewrite Ln. apply flat_lt; lia.
  - apply Nat2Z.inj. rewrite Z2Nat.id by nia. rewrite !Nat2Z.inj_add, Nat2Z.inj_mul, Nat2Z.inj_add.
    unfold sk, ss, m. rewrite !Z2Nat.id by lia. ring.
Qed.
(*EX*)
Example C39_cells_ex : exists wf, to_waterfall (Frames 3 4 1 1 0 1) [0;1;2;3;4;5;6;7;8;9;10;11]%Z = Ok wf.
Proof. eexists. reflexivity. Qed.
(*XE*)

(** ** C40 *)

Lemma baseline_row : forall (row : list Qc) percent, 0 <= percent -> percent <= 1 ->
  let k := Z.to_nat (qfloor (percent * qn (length row))) in
  (k <= length row)%nat /\ qfloor (percent * qn (length row)) = Z.of_nat k /\
  qtrunc (percent * qn (length row)) = Z.of_nat k /\ slice row 0 (Z.of_nat k) = firstn k row.
Proof.
  intros row p H0 H1 k. assert (Q : 0 <= qn (length row)) by (unfold qn; rewrite <- qz_0; apply qz_le; lia).
  assert (P : 0 <= p * qn (length row)) by qcnra.
  assert (F0 : (0 <= qfloor (p * qn (length row)))%Z).
  { apply (proj2 (qfloor_le_iff _ _)). rewrite qz_0. auto. }
  assert (F1 : (k <= length row)%nat).
  { destruct (qfloor_spec (p * qn (length row))) as [A _]. apply Nat2Z.inj_le. apply qz_le. unfold k. rewrite Z2Nat.id by auto.
    eapply Qcle_trans; [exact A|]. fold (qn (length row)). qcnra. }
  assert (E : qfloor (p * qn (length row)) = Z.of_nat k) by (unfold k; rewrite Z2Nat.id; auto).
  split; auto. split; auto. split; [rewrite qtrunc_nonneg; auto|].
  unfold slice. rewrite !pyidx_nonneg by lia. rewrite Nat2Z.id. simpl. rewrite Nat.sub_0_r. reflexivity.
Qed.

(** The baseline is the mean of the first floor(percent*nbins) bins of the
    reference profile.  If there is no such bin the value is not a number:
    missing for the full property, see [C40_empty_refuted]. *)
Lemma C40_mean_partial_lem : forall n m wf ref percent, rectangular n m wf -> (ref < n)%nat -> 0 <= percent -> percent <= 1 ->
  let k := Z.to_nat (qfloor (percent * qn m)) in
  (k <= m)%nat /\
  ((0 < k)%nat -> calc_baseline wf (Z.of_nat ref) percent = Ok (bin_sum wf ref 0 k / qn k)) /\
  (k = 0%nat -> calc_baseline wf (Z.of_nat ref) percent = Fail NotFinite).
Proof.
  intros n m wf ref p [R1 R2] Hr H0 H1 k. set (row := nth ref wf []).
  assert (NE : nth_error wf ref = Some row) by (apply nth_error_nth'; lia).
  assert (LR : length row = m) by (rewrite Forall_forall in R2; apply R2; apply nth_error_In with ref; auto).
  assert (B := baseline_row row p H0 H1). cbv zeta in B. rewrite LR in B. fold k in B. destruct B as (B1 & B2 & B3 & B4).
  split; auto. unfold calc_baseline.
  replace (qltb p 0) with false by (symmetry; apply qltb_false; auto).
  replace (qltb 1 p) with false by (symmetry; apply qltb_false; auto). cbn [orb].
  rewrite (np_get_ok _ _ _ _ NE). cbn [bind]. rewrite LR, B2, B3, B4. fold (qn k).
  split; intros Hk.
  - rewrite qdiv_ok by (apply Qclt_ne, qn_pos; auto). f_equal. f_equal.
    unfold bin_sum, cell. fold row. simpl.
    rewrite <- (tab_nth row 0) at 1. rewrite LR, firstn_tab by auto. rewrite <- sumn_qsum. reflexivity.
  - rewrite Hk. apply qdiv_zero.
Qed.
(*EX*)
Example C40_mean_ex : exists b, calc_baseline [[1; qz 3; qz 7; qz 9]] 0 (qq 1 2) = Ok b /\ this b = 2%Q.
Proof. eexists. vm_compute. split; reflexivity. Qed.
(*XE*)

(** With the default of 5 percent and fewer than 20 bins there is no baseline:
    the mean of no bins is taken. *)
Lemma C40_empty_refuted_lem :
  ~ (forall n m wf ref, rectangular n m wf -> (0 < m)%nat -> (ref < n)%nat ->
       exists b, calc_baseline wf (Z.of_nat ref) (qq 1 20) = Ok b).
Proof.
  intros H. destruct (H 1%nat 3%nat [[1; 1; 1]] 0%nat) as [b E]; [split; auto|lia|lia|]. vm_compute in E. discriminate.
Qed.

Lemma slice_map : forall A B (f : A -> B) l a b, slice (map f l) a b = map f (slice l a b).
Proof. intros. unfold slice. rewrite map_length, skipn_map, firstn_map. reflexivity. Qed.
Lemma np_get_map : forall A B (f : A -> B) l i, np_get (map f l) i = (x <- np_get l i ;; Ok (f x)).
Proof.
  intros. unfold np_get. rewrite map_length. destruct (_ || _); auto. unfold get. destruct (Z.ltb _ 0); auto.
  rewrite nth_error_map. destruct (nth_error l _); auto.
Qed.
Lemma qsum_shift : forall c l, qsum (map (fun v => v + c) l) = qsum l + qn (length l) * c.
Proof.
  intros c. induction l; simpl; [unfold qn; simpl; change (qz 0) with 0; ring|]. rewrite IHl.
  replace (qn (S (length l))) with (qn (length l) + 1) by (unfold qn; rewrite Nat2Z.inj_succ, <- Z.add_1_r, qz_add; reflexivity). ring.
Qed.

(** Adding a constant to all data adds it to the baseline (or there is no
    baseline in either case). *)
Lemma C40_shift_lem : forall wf ref percent c,
  calc_baseline (map (map (fun v => v + c)) wf) ref percent = (b <- calc_baseline wf ref percent ;; Ok (b + c)).
Proof.
  intros. unfold calc_baseline. destruct (qltb_spec percent 0) as [|H0]; auto. destruct (qltb_spec 1 percent) as [|H1]; auto. cbn [orb].
  rewrite np_get_map. destruct (np_get wf ref) as [row|]; auto. cbn [bind]. rewrite map_length, slice_map, qsum_shift.
  destruct (baseline_row row percent H0 H1) as (B1 & B2 & B3 & B4). rewrite B2, B3, B4.
  set (k := Z.to_nat (qfloor (percent * qn (length row)))) in *. fold (qn k). rewrite firstn_length, Nat.min_l by auto.
  destruct (Nat.eq_dec k 0) as [->|N].
  - change (qn 0) with 0. rewrite !qdiv_zero. reflexivity.
  - assert (P : qn k <> 0) by (apply Qclt_ne, qn_pos; lia). rewrite !qdiv_ok by auto. cbn [bind]. f_equal. field. auto.
Qed.
(*EX*)
Example C40_shift_ex : exists b, calc_baseline [[1; qz 3; qz 7; qz 9]] 0 (qq 1 2) = Ok b.
Proof. eexists. vm_compute. reflexivity. Qed.
(*XE*)

(** The profiles made from raw data do not change when a constant is added to
    all data. *)
Lemma C40_invariant_lem : forall wf nbins m rbn dt c,
  raw_data_to_profiles (map (map (fun v => v + c)) wf) nbins m rbn dt = raw_data_to_profiles wf nbins m rbn dt.
Proof.
  intros. unfold raw_data_to_profiles. rewrite C40_shift_lem. destruct (calc_baseline wf _ _) as [b|]; auto. cbn [bind].
  replace (map (map (fun v => v - (b + c))) (map (map (fun v => v + c)) wf)) with (map (map (fun v => v - b)) wf); auto.
  rewrite map_map. apply map_ext. intros. rewrite map_map. apply map_ext. intros. ring.
Qed.
(*EX*)
Example C40_invariant_ex : exists p, raw_data_to_profiles [[0;0;0;0;0;0;0;0;0;0;0;0;0;0;0;0;0;0;1;1]] 20 (PMachine 1 20 (qz 10) (qz 5) 1 0) 1 1 = Ok p.
Proof. eexists. vm_compute. reflexivity. Qed.
(*XE*)

(** ** C41 *)

Lemma tangent_cases : forall prof, (0 < length prof)%nat ->
  exists maxbin, (maxbin < length prof)%nat /\ (forall i, (i < length prof)%nat -> nth i prof 0 <= nth maxbin prof 0) /\
  let below i := qltb (nth i prof 0) (qq 3 20 * nth maxbin prof 0) in
  calc_tangentbins prof =
    match find below (seq maxbin (length prof - maxbin)), find below (rev (seq 1 maxbin)) with
    | Some u, Some l => Ok (Z.of_nat u - 1, Z.of_nat l + 1)%Z
    | _, _ => Fail (Raised UnboundLocalError)
    end.
Proof.
  intros prof L. destruct (qargmax_tab (length prof) (fun i => nth i prof 0) L) as [mb [E1 [H1 M1]]].
  destruct (qmaximum_tab (length prof) (fun i => nth i prof 0) L) as [mx [E2 [[i [Hi Ei]] M2]]].
  rewrite tab_nth in E1, E2. exists mb. split; auto. split; auto. cbv zeta.
  assert (EQ : mx = nth mb prof 0) by (apply Qcle_antisym'; [rewrite <- Ei; auto|auto]).
  unfold calc_tangentbins. rewrite E2, E1. cbn [bind]. rewrite EQ. reflexivity.
Qed.

(** For a profile whose maximum is not negative: if tangent bins are returned,
    the bins from the lower to the upper one contain the maximum and are at or
    above 15 percent of it, and the neighbouring bins on both sides are inside
    the profile and below it.  They are returned exactly when some bin at or
    after the maximum and some bin between 1 and the maximum is below.  Missing
    for the full property: bin 0 is not looked at, see [C41_bin0_refuted]. *)
Lemma C41_tangent_partial_lem : forall prof, (0 < length prof)%nat -> (exists i, (i < length prof)%nat /\ 0 <= nth i prof 0) ->
  exists maxbin, (maxbin < length prof)%nat /\ (forall i, (i < length prof)%nat -> nth i prof 0 <= nth maxbin prof 0) /\
  let below i := nth i prof 0 < qq 3 20 * nth maxbin prof 0 in
  (((exists i, (1 <= i)%nat /\ (i <= maxbin)%nat /\ below i) /\ (exists i, (maxbin <= i)%nat /\ (i < length prof)%nat /\ below i)) /\
   exists up low, calc_tangentbins prof = Ok (Z.of_nat up, Z.of_nat low) /\
     (2 <= low)%nat /\ (low <= maxbin)%nat /\ (maxbin <= up)%nat /\ (up + 1 < length prof)%nat /\
     below (low - 1)%nat /\ below (up + 1)%nat /\ forall i, (low <= i)%nat -> (i <= up)%nat -> ~ below i)
  \/ (~ ((exists i, (1 <= i)%nat /\ (i <= maxbin)%nat /\ below i) /\ (exists i, (maxbin <= i)%nat /\ (i < length prof)%nat /\ below i)) /\
      calc_tangentbins prof = Fail (Raised UnboundLocalError)).
Proof.
  intros prof L [i0 [Hi0 Pi0]]. destruct (tangent_cases prof L) as (mb & H1 & M1 & E). exists mb. split; auto. split; auto.
  set (below := fun i => qltb (nth i prof 0) (qq 3 20 * nth mb prof 0)) in *. cbv zeta in E |- *.
  assert (BT : forall i, below i = true <-> nth i prof 0 < qq 3 20 * nth mb prof 0) by (intros; unfold below; apply qltb_true).
  assert (BF : forall i, below i = false -> ~ nth i prof 0 < qq 3 20 * nth mb prof 0) by (intros i Hf Hb; apply BT in Hb; congruence).
  assert (P : 0 <= nth mb prof 0) by (eapply Qcle_trans; [exact Pi0|apply M1; auto]).
  assert (NM : below mb = false).
  { unfold below. apply qltb_false. assert (X : qq 3 20 <= 1) by (vm_compute; discriminate). qcnra. }
  assert (U := find_seq below mb (length prof - mb)). assert (D := find_rev_seq below 1 mb).
  destruct (find below (seq mb (length prof - mb))) as [u|].
  - destruct U as (U1 & U2 & U3). destruct (find below (rev (seq 1 mb))) as [l|].
    + left. destruct D as (D1 & D2 & D3).
      assert (u <> mb) by (intros ->; congruence). assert (l <> mb) by (intros ->; congruence).
      split.
      * split; [exists l|exists u]; rewrite <- BT; repeat split; auto; lia.
      * exists (u - 1)%nat, (l + 1)%nat. rewrite E. split; [f_equal; f_equal; lia|].
        replace (l + 1 - 1)%nat with l by lia. replace (u - 1 + 1)%nat with u by lia. rewrite <- !BT.
        repeat split; try lia; auto. intros i A B. apply BF. destruct (Nat.le_gt_cases mb i); [apply U3; lia|apply D3; lia].
    + right. split; auto. intros [[i [A [B C]]] _]. apply BT in C. rewrite D in C by lia. discriminate.
  - right. split.
    + intros [_ [i [A [B C]]]]. apply BT in C. rewrite U in C by lia. discriminate.
    + rewrite E. reflexivity.
Qed.
(*EX*)
Example C41_tangent_ex : calc_tangentbins [0; 0; qz 5; qz 10; qz 5; qz 2; 0] = Ok (5, 2)%Z.
Proof. vm_compute. reflexivity. Qed.
(*XE*)

(** A profile that starts with one low bin falls below the threshold on both
    sides but no tangent bins are found. *)
Lemma C41_bin0_refuted_lem :
  ~ (forall prof maxbin, (maxbin < length prof)%nat -> (forall i, (i < length prof)%nat -> nth i prof 0 <= nth maxbin prof 0) ->
       0 < nth maxbin prof 0 ->
       (exists i, (i < maxbin)%nat /\ nth i prof 0 < qq 3 20 * nth maxbin prof 0) ->
       (exists i, (maxbin < i)%nat /\ (i < length prof)%nat /\ nth i prof 0 < qq 3 20 * nth maxbin prof 0) ->
       exists up low, calc_tangentbins prof = Ok (up, low)).
Proof.
  intros H. destruct (H [0; 1; 0] 1%nat) as [u [l E]].
  - simpl; lia.
  - intros i Hi. simpl in Hi. destruct i as [|[|[|i]]]; try lia; vm_compute; discriminate.
  - reflexivity.
  - exists 0%nat. split; [lia|reflexivity].
  - exists 2%nat. split; [lia|]. split; [simpl; lia|reflexivity].
  - vm_compute in E. discriminate.
Qed.

(** ** C49 *)

(** After any history of assignments synch_part_y is half the number of bins. *)
Lemma C49_synch_y_lem : forall p l, p_synch_y (pf_machine p) = qz (p_nbins (pf_machine p)) / qz 2 ->
  p_synch_y (pf_machine (phistory p l)) = qz (p_nbins (pf_machine (phistory p l))) / qz 2.
Proof.
  intros p l. revert p. induction l as [|a l IH]; intros p H; auto. apply IH. destruct a; simpl; auto.
  unfold set_waterfall. destruct (negb _); simpl; auto. destruct (qeqb _ _); simpl; auto.
Qed.
(*EX*)
Example C49_synch_y_ex : p_nbins (pf_machine (phistory (Profiles (PMachine 1 20 (qz 10) (qz 5) 1 0) None) [PSetNbins 7; PSetWaterfall 2 [[1; 1]]; PSetWaterfall 3 [[0;0;0]]])) = 2%Z.
Proof. vm_compute. reflexivity. Qed.
(*XE*)

(*EX*)
(** The stored waterfall has one row per profile of the machine and as many
    columns as the machine has bins, no negative element, and is not zero. *)
Definition profiles_ok (p : profiles) : Prop :=
  match pf_waterfall p with
  | None => True
  | Some (n, wf) => p_nbins (pf_machine p) = Z.of_nat n /\
      rectangular (Z.to_nat (p_nprofiles (pf_machine p))) n wf /\
      Forall (Forall (fun x => 0 <= x)) wf /\ Exists (Exists (fun x => 0 < x)) wf
  end.
(*XE*)

Lemma clip_facts : forall wf, Forall (Forall (fun x => 0 <= x)) (clip_rows wf) /\
  (qsum (map qsum (map (map qabs) (clip_rows wf))) = 0 -> Forall (Forall (fun x => x <= 0)) wf) /\
  (qsum (map qsum (map (map qabs) (clip_rows wf))) <> 0 -> Exists (Exists (fun x => 0 < x)) (clip_rows wf)).
Proof.
  intros wf. assert (A : Forall (Forall (fun x => 0 <= x)) (clip_rows wf)).
  { unfold clip_rows. apply Forall_forall. intros r Hr. apply in_map_iff in Hr. destruct Hr as [r0 [<- _]].
    apply Forall_forall. intros x Hx. apply in_map_iff in Hx. destruct Hx as [y [<- _]].
    destruct (qltb_spec y 0); [apply Qcle_refl|auto]. }
  assert (I : map (map qabs) (clip_rows wf) = clip_rows wf).
  { rewrite <- (map_id (clip_rows wf)) at 2. apply map_ext_in. intros r Hr. rewrite <- (map_id r) at 2. apply map_ext_in. intros x Hx.
    rewrite Forall_forall in A. specialize (A _ Hr). rewrite Forall_forall in A. specialize (A _ Hx).
    unfold qabs. destruct (qltb_spec x 0); auto. exfalso. cbv beta in A. qclra. }
  rewrite I. split; auto. clear I. split.
  - intros Z. unfold clip_rows in Z. induction wf as [|r wf IH]; constructor.
    + apply clip_row_sum. inversion_clear A. simpl in Z.
      assert (N1 : 0 <= qsum (map (fun x => if qltb x 0 then 0 else x) r)) by (apply qsum_nonneg; rewrite Forall_forall in H; auto).
      assert (N2 : 0 <= qsum (map qsum (map (map (fun x => if qltb x 0 then 0 else x)) wf))).
      { apply qsum_nonneg. intros s Hs. apply in_map_iff in Hs. destruct Hs as [r2 [<- Hr2]]. apply qsum_nonneg.
        rewrite Forall_forall in H0. specialize (H0 _ Hr2). rewrite Forall_forall in H0. auto. }
      apply Qcle_antisym'; auto. qclra.
    + apply IH; [inversion A; auto|]. inversion_clear A. simpl in Z.
      assert (N1 : 0 <= qsum (map (fun x => if qltb x 0 then 0 else x) r)) by (apply qsum_nonneg; rewrite Forall_forall in H; auto).
      assert (N2 : 0 <= qsum (map qsum (map (map (fun x => if qltb x 0 then 0 else x)) wf))).
      { apply qsum_nonneg. intros s Hs. apply in_map_iff in Hs. destruct Hs as [r2 [<- Hr2]]. apply qsum_nonneg.
        rewrite Forall_forall in H0. specialize (H0 _ Hr2). rewrite Forall_forall in H0. auto. }
      apply Qcle_antisym'; auto. qclra.
  - intros Z. destruct (existsb (existsb (fun x => qltb 0 x)) (clip_rows wf)) eqn:E.
    + apply existsb_exists in E. destruct E as [r [Hr E]]. apply existsb_exists in E. destruct E as [x [Hx E]]. apply qltb_true in E.
      apply Exists_exists. exists r. split; auto. apply Exists_exists. eauto.
    + exfalso. apply Z. assert (AZ : forall r, In r (clip_rows wf) -> forall x, In x r -> x = 0).
      { intros r Hr x Hx. rewrite Forall_forall in A. specialize (A _ Hr). rewrite Forall_forall in A. specialize (A _ Hx). cbv beta in A.
        apply Qcle_antisym'; auto. destruct (qltb_spec 0 x) as [P|P]; auto. exfalso.
        assert (X : existsb (existsb (fun x => qltb 0 x)) (clip_rows wf) = true); [|congruence].
        apply existsb_exists. exists r. split; auto. apply existsb_exists. exists x. split; auto. apply qltb_true. auto. }
      assert (SZ : forall l, (forall x, In x l -> x = 0) -> qsum l = 0).
      { induction l; intros Hl; auto. simpl. rewrite (Hl a) by (left; auto). rewrite IHl by (intros; apply Hl; right; auto). ring. }
      apply SZ. intros s Hs. apply in_map_iff in Hs. destruct Hs as [r [<- Hr]]. apply SZ. apply AZ. auto.
Qed.

(** An accepted waterfall (clipped at zero) is stored and the machine's nbins
    is its width; a waterfall with the wrong number of profiles is refused and
    changes nothing; so the object stays well-formed over any history in which
    no waterfall without a positive element is assigned.  Missing for the full
    property: such a waterfall is refused, but stored. *)
Lemma C49_waterfall_partial_lem : forall p n wf p' e, rectangular (length wf) n wf -> profiles_ok p ->
  set_waterfall p n wf = (p', e) ->
  match e with
  | None => profiles_ok p' /\ pf_waterfall p' = Some (n, map (map (fun x => if qltb x 0 then 0 else x)) wf) /\
      Z.of_nat (length wf) = p_nprofiles (pf_machine p) /\ Exists (Exists (fun x => 0 < x)) wf
  | Some WaterfallError => p' = p /\ Z.of_nat (length wf) <> p_nprofiles (pf_machine p)
  | Some x => x = WaterfallReducedToZero /\ Z.of_nat (length wf) = p_nprofiles (pf_machine p) /\ Forall (Forall (fun x => x <= 0)) wf
  end.
Proof.
  intros p n wf p' e R OK E. unfold set_waterfall in E.
  destruct (Z.eqb_spec (Z.of_nat (length wf)) (p_nprofiles (pf_machine p))) as [L|L]; cbn [negb] in E.
  2:{ injection E as <- <-. auto. }
  destruct (clip_facts wf) as (F1 & F2 & F3).
  destruct (qeqb_spec (qsum (map qsum (map (map qabs) (clip_rows wf)))) 0) as [Z|Z].
  - injection E as <- <-. auto.
  - injection E as <- <-. split; [|split; [reflexivity|]].
    + unfold profiles_ok. simpl. split; auto. split; auto. destruct R as [_ R]. split.
      * unfold clip_rows. rewrite map_length. lia.
      * unfold clip_rows. apply Forall_forall. intros r Hr. apply in_map_iff in Hr. destruct Hr as [r0 [<- Hr]].
        rewrite map_length. rewrite Forall_forall in R. auto.
    + split; auto. specialize (F3 Z). unfold clip_rows in F3. apply Exists_exists in F3. destruct F3 as [r [Hr F3]].
      apply in_map_iff in Hr. destruct Hr as [r0 [<- Hr]]. apply Exists_exists in F3. destruct F3 as [x [Hx Px]].
      apply in_map_iff in Hx. destruct Hx as [y [<- Hy]]. apply Exists_exists. exists r0. split; auto. apply Exists_exists. exists y. split; auto.
      destruct (qltb_spec y 0); auto. exfalso. qclra.
Qed.
(*EX*)
Example C49_waterfall_ex : profiles_ok (Profiles (PMachine 1 20 (qz 10) (qz 5) 1 0) None) /\
  snd (set_waterfall (Profiles (PMachine 1 20 (qz 10) (qz 5) 1 0) None) 2 [[1; - (1)]]) = None.
Proof. split; [exact I|vm_compute; reflexivity]. Qed.
(*XE*)

(** A refused waterfall may replace the stored one: after assigning a waterfall
    of zeros the object holds it, although WaterfallReducedToZero was raised,
    and the machine keeps the old number of bins. *)
Lemma C49_atomic_refuted_lem :
  ~ (forall p n wf p' x, profiles_ok p -> rectangular (length wf) n wf -> set_waterfall p n wf = (p', Some x) -> p' = p) /\
  ~ (forall p n wf, profiles_ok p -> rectangular (length wf) n wf -> profiles_ok (fst (set_waterfall p n wf))).
Proof.
  set (p := Profiles (PMachine 1 2 1 (qz 5) 1 0) (Some (2%nat, [[1; 1]]))).
  assert (OK : profiles_ok p).
  { simpl. split; auto. split; [split; auto|]. split; [repeat constructor; discriminate|repeat constructor]. }
  assert (R : rectangular (length [[0; 0; 0]]) 3 [[0; 0; 0]]) by (split; auto).
  split; intros H.
  - specialize (H p 3%nat [[0; 0; 0]] _ _ OK R eq_refl). discriminate.
  - specialize (H p 3%nat [[0; 0; 0]] OK R). destruct H as [H _]. vm_compute in H. discriminate.
Qed.
