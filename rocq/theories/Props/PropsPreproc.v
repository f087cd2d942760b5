(** Treatment of raw data
    Statements only: each theorem is closed by the lemma of the same name in
    Proof/CPreproc.v.  Written by tools/mkprops.py. *)
From Coq Require Import List ZArith QArith Qcanon Bool Lia.
From Verif Require Import Base.Res Base.QcLib Model.MRecon Model.MParticles Model.MPreproc Spec.TomoSpec Spec.ParticleSpec Spec.PreprocSpec.
Import ListNotations.
Local Open Scope Qc_scope.
From Verif Require Import Proof.CPreproc.

(** When the factor r divides the number of bins, bin j of the result is the
    sum of bins j*r, ..., j*r+r-1 and every profile keeps its total.  The bin
    width is multiplied by r and the synchronous position divided by r. *)
Theorem C36_divisible : forall n k r wf dt sx, rectangular n (k * r) wf -> (0 < r)%nat ->
  exists out, rebin wf (k * r) r dt sx = Ok (out, option_map (fun d => d * qn r) dt, option_map (fun x => x / qn r) sx) /\
    rectangular n k out /\
    (forall i j, (i < n)%nat -> (j < k)%nat -> cell out i j = bin_sum wf i (j * r) r) /\
    map qsum out = map qsum wf.
Proof. exact C36_divisible_lem. Qed.
Print Assumptions C36_divisible.

Example C36_divisible_ex :
  match rebin [[1; qz 2; qz 3; qz 4]; [0; 1; 0; 1]] 4 2 (Some 1) (Some (qz 3)) with
  | Ok (o, Some d, Some x) => map (map this) o = map (map this) [[qz 3; qz 7]; [1; 1]] /\ this d = 2%Q /\ this x = (3 # 2)%Q
  | _ => False end.
Proof. vm_compute. auto. Qed.

(** When s bins are left over (0 < s < r) there is one more bin.  It holds the
    sum of the last full group and the left-over bins (of the left-over bins
    only if there is no full group), multiplied by r/(r+s).  The total of the
    profile is therefore not kept in general: see [C36_total_iff] and
    [C36_total_refuted]. *)
Theorem C36_remainder_partial : forall n k r s wf dt sx, rectangular n (k * r + s) wf -> (0 < s)%nat -> (s < r)%nat ->
  exists out, rebin wf (k * r + s) r dt sx = Ok (out, option_map (fun d => d * qn r) dt, option_map (fun x => x / qn r) sx) /\
    rectangular n (k + 1) out /\
    (forall i j, (i < n)%nat -> (j < k)%nat -> cell out i j = bin_sum wf i (j * r) r) /\
    (forall i, (i < n)%nat -> cell out i k =
       (match k with O => bin_sum wf i 0 s | S k' => bin_sum wf i (k' * r) (r + s) end) * (qn r / qn (r + s))).
Proof. exact C36_remainder_partial_lem. Qed.
Print Assumptions C36_remainder_partial.

Example C36_remainder_ex :
  match rebin [[1; qz 2; qz 3; qz 4; qz 5]] 5 2 None None with
  | Ok (o, None, None) => map (map this) o = map (map this) [[qz 3; qz 7; qz 8]]
  | _ => False end.
Proof. vm_compute. auto. Qed.

(** With left-over bins the total of profile i is kept exactly when r times the
    sum of the last full group equals s times the sum of the left-over bins. *)
Theorem C36_total_iff : forall n k r s wf dt sx out dt' sx' i, rectangular n (S k * r + s) wf -> (0 < s)%nat -> (s < r)%nat ->
  rebin wf (S k * r + s) r dt sx = Ok (out, dt', sx') -> (i < n)%nat ->
  (sumn (S k + 1) (cell out i) = sumn (S k * r + s) (cell wf i) <->
   qn r * bin_sum wf i (k * r) r = qn s * bin_sum wf i (S k * r) s).
Proof. exact C36_total_iff_lem. Qed.
Print Assumptions C36_total_iff.

Example C36_total_ex : exists out, rebin [[1; 1; 1; 1; 1]] 5 2 None None = Ok (out, None, None).
Proof. eexists. vm_compute. reflexivity. Qed.

(** Rebinning does not keep the total of a profile. *)
Theorem C36_total_refuted :
  ~ (forall n m r wf dt sx out dt' sx', rectangular n m wf -> (0 < r)%nat ->
       rebin wf m r dt sx = Ok (out, dt', sx') -> map qsum out = map qsum wf).
Proof. exact C36_total_refuted_lem. Qed.
Print Assumptions C36_total_refuted.

(** A constant profile becomes a constant profile, r times higher, also when
    bins are left over. *)
Theorem C36_constant : forall n m r c dt sx, (0 < r)%nat -> (r <= m)%nat ->
  exists k dt' sx', rebin (repeat (repeat c m) n) m r dt sx = Ok (repeat (repeat (qn r * c) k) n, dt', sx') /\
    (m <= k * r < m + r)%nat.
Proof. exact C36_constant_lem. Qed.
Print Assumptions C36_constant.

Example C36_constant_ex : (0 < 3)%nat /\ (3 <= 8)%nat. Proof. lia. Qed.

(** The position of the synchronous particle in seconds is kept. *)
Theorem C36_time : forall wf m r dt sx out dt' sx', rebin wf m r (Some dt) (Some sx) = Ok (out, Some dt', Some sx') ->
  sx' * dt' = sx * dt.
Proof. exact C36_time_lem. Qed.
Print Assumptions C36_time.

Example C36_time_ex : exists o d x, rebin [[1; 1; 1; 1; 1]] 5 2 (Some (qz 3)) (Some (qz 7)) = Ok (o, Some d, Some x).
Proof. do 3 eexists. vm_compute. reflexivity. Qed.

(** Factor 1 changes nothing. *)
Theorem C36_one : forall n m wf dt sx, rectangular n m wf -> rebin wf m 1 dt sx = Ok (wf, dt, sx).
Proof. exact C36_one_lem. Qed.
Print Assumptions C36_one.

Example C36_one_ex : rectangular 1 3 [[1; 0; 1]]. Proof. split; auto. Qed.

(** Rebinning by a and then by b is rebinning by a*b, if a*b divides the
    number of bins; factor 0 is refused. *)
Theorem C36_compose : forall n k a b wf dt sx, rectangular n (k * b * a) wf -> (0 < a)%nat -> (0 < b)%nat ->
  exists w1 dt1 sx1, rebin wf (k * b * a) a dt sx = Ok (w1, dt1, sx1) /\
    rebin w1 (k * b) b dt1 sx1 = rebin wf (k * (b * a)) (b * a) dt sx.
Proof. exact C36_compose_lem. Qed.
Print Assumptions C36_compose.

Example C36_compose_ex : rectangular 1 (1 * 2 * 2) [[1; 0; 1; 0]]. Proof. split; auto. Qed.

(** The cuts found are accepted by [cut_waterfall] and every step (between bins
    b and b+1) above the threshold lies inside; the threshold, if not given, is
    0.3 times the largest step, all steps taken relative to the smallest. *)
Theorem C37_cuts : forall n m wf th margin, rectangular n m wf -> (2 <= m)%nat -> (0 <= margin)%Z ->
  exists l r low high, get_cuts wf m th margin = Ok (l, r) /\ (0 <= l)%Z /\ (l < r)%Z /\ (r <= Z.of_nat m)%Z /\
    (exists out, cut_waterfall wf m l r = Ok out) /\
    smallest (m - 1) (step wf n) low /\ largest (m - 1) (step wf n) high /\
    forall b, (b < m - 1)%nat ->
      match th with Some t => t | None => (high - low) * qq 3 10 end < step wf n b - low ->
      (l <= Z.of_nat b)%Z /\ (Z.of_nat b + 1 < r)%Z.
Proof. exact C37_cuts_lem. Qed.
Print Assumptions C37_cuts.

Example C37_cuts_ex : get_cuts [[0; 0; 0; qz 5; 0; 0; 0; 0]] 8 None 1 = Ok (1, 7)%Z.
Proof. vm_compute. reflexivity. Qed.

(** The cuts are tight: the left one is the first step above the threshold
    minus the margin, the right one lies margin+2 bins after the last such
    step's right-hand bin, both limited to the profile. *)
Theorem C37_tight : forall n m wf t margin l r, rectangular n m wf -> (2 <= m)%nat -> (0 <= margin)%Z ->
  get_cuts wf m (Some t) margin = Ok (l, r) ->
  forall low, smallest (m - 1) (step wf n) low ->
  (exists b, (b < m - 1)%nat /\ t < step wf n b - low) ->
  exists first last, (first < m - 1)%nat /\ (last < m - 1)%nat /\ t < step wf n first - low /\ t < step wf n last - low /\
    l = Z.max 0 (Z.of_nat first - margin) /\ r = Z.min (Z.of_nat m) (Z.of_nat last + 3 + margin).
Proof. exact C37_tight_lem. Qed.
Print Assumptions C37_tight.

Example C37_tight_ex : get_cuts [[0; 0; 0; qz 5; 0; 0; 0; 0]] 8 (Some 1) 0 = Ok (2, 6)%Z.
Proof. vm_compute. reflexivity. Qed.

(** [cut_waterfall] returns exactly the bins l..r-1 of every profile (a
    negative r counts from the end), and ValueError for any other limits. *)
Theorem C37_cut_waterfall : forall A n m (wf : list (list A)) l r, rectangular n m wf ->
  let e := (if r <? 0 then Z.of_nat m + r else r)%Z in
  ((0 <= l)%Z /\ (l < e)%Z /\ (e <= Z.of_nat m)%Z /\
     exists out, cut_waterfall wf m l r = Ok out /\ rectangular n (Z.to_nat (e - l)) out /\
       Forall2 (fun row row' => forall j, (j < Z.to_nat (e - l))%nat -> nth_error row' j = nth_error row (Z.to_nat l + j)) wf out)
  \/ (((l < 0)%Z \/ (e <= l)%Z \/ (Z.of_nat m < e)%Z) /\ cut_waterfall wf m l r = Fail (Raised ValueError)).
Proof. exact C37_cut_waterfall_lem. Qed.
Print Assumptions C37_cut_waterfall.

Example C37_cut_waterfall_ex : cut_waterfall [[1%nat; 2%nat; 3%nat; 4%nat]] 4 1 (-1) = Ok [[2%nat; 3%nat]]
  /\ cut_waterfall [[1%nat; 2%nat; 3%nat; 4%nat]] 4 3 (-1) = Fail (Raised ValueError).
Proof. vm_compute. auto. Qed.

(** [filter_profiles] on a non-negative waterfall that is not zero: the frames
    kept are those whose total exceeds (largest - smallest - mean of the
    totals), in their order; every largest frame is kept, every empty frame is
    removed, and the columns of xp and yp are the same selection.  What is
    missing for the full property is the index of the reconstruction profile:
    see [C38_rec_prof_partial] and [C38_rec_prof_refuted]. *)
Theorem C38_filter_partial : forall A n m wf px py (xp yp : list (list A)),
  rectangular n m wf -> Forall (Forall (fun x => 0 <= x)) wf -> Exists (Exists (fun x => 0 < x)) wf ->
  rectangular px n xp -> rectangular py n yp ->
  let total := sumn n (fun i => sumn m (cell wf i)) in
  exists keep wf' xp' yp' mx mn,
    filter_profiles wf (Some (n, xp)) (Some (n, yp)) None = Ok (wf', Some xp', Some yp', None) /\
    filter_profiles wf (None : option (nat * list (list A))) None None = Ok (wf', None, None, None) /\
    increasing keep /\ (forall i, In i keep -> (i < n)%nat) /\
    largest n (fun i => sumn m (cell wf i)) mx /\ smallest n (fun i => sumn m (cell wf i)) mn /\
    (forall i, (i < n)%nat -> (In i keep <-> mx - mn - total / qn n < sumn m (cell wf i))) /\
    (forall i, (i < n)%nat -> sumn m (cell wf i) = mx -> In i keep) /\
    (forall i, (i < n)%nat -> sumn m (cell wf i) = 0 -> ~ In i keep) /\
    picked keep (map (map (fun v => v / total)) wf) wf' /\
    Forall2 (picked keep) xp xp' /\ Forall2 (picked keep) yp yp'.
Proof. exact C38_filter_partial_lem. Qed.
Print Assumptions C38_filter_partial.

Example C38_filter_ex :
  match filter_profiles [[qz 5; 0]; [0; 0]; [qz 3; qz 2]] (Some (3%nat, [[1%nat; 2%nat; 3%nat]])) (Some (3%nat, [[4%nat; 5%nat; 6%nat]])) None with
  | Ok (wf, Some xp, Some yp, None) => map (map this) wf = map (map this) [[qq 1 2; 0]; [qq 3 10; qq 1 5]] /\ xp = [[1%nat; 3%nat]] /\ yp = [[4%nat; 6%nat]]
  | _ => False end.
Proof. vm_compute. auto. Qed.

(** The returned index is right when every removed frame lies before the
    reconstruction profile. *)
Theorem C38_rec_prof_partial : forall n m wf p wf' p',
  rectangular n m wf -> Forall (Forall (fun x => 0 <= x)) wf -> Exists (Exists (fun x => 0 < x)) wf ->
  (p < n)%nat ->
  filter_profiles wf (None : option (nat * list (list Z))) None (Some (Z.of_nat p)) = Ok (wf', None, None, Some p') ->
  forall keep, increasing keep ->
    picked keep (map (map (fun v => v / sumn n (fun i => sumn m (cell wf i)))) wf) wf' ->
    (forall i, (p <= i)%nat -> (i < n)%nat -> In i keep) ->
    (0 <= p')%Z /\ nth_error keep (Z.to_nat p') = Some p.
Proof. exact C38_rec_prof_partial_lem. Qed.
Print Assumptions C38_rec_prof_partial.

Example C38_rec_prof_ex : exists wf', filter_profiles [[0; 0]; [qz 5; 0]; [qz 3; qz 2]] (None : option (nat * list (list Z))) None (Some 2%Z) = Ok (wf', None, None, Some 1%Z).
Proof. eexists. vm_compute. reflexivity. Qed.

(** The returned index is wrong when a frame after the reconstruction profile
    is removed: here frame 1 of [1],[1],[0] is reported as frame 0. *)
Theorem C38_rec_prof_refuted :
  ~ (forall n m wf p wf' p' keep, rectangular n m wf -> Forall (Forall (fun x => 0 <= x)) wf -> Exists (Exists (fun x => 0 < x)) wf ->
       filter_profiles wf (None : option (nat * list (list Z))) None (Some (Z.of_nat p)) = Ok (wf', None, None, Some p') ->
       increasing keep -> picked keep (map (map (fun v => v / sumn n (fun i => sumn m (cell wf i)))) wf) wf' ->
       In p keep -> nth_error keep (Z.to_nat p') = Some p).
Proof. exact C38_rec_prof_refuted_lem. Qed.
Print Assumptions C38_rec_prof_refuted.

(** It may even be refused: frame 0 of [1],[0] is kept, but giving it as the
    reconstruction profile is a ValueError. *)
Theorem C38_rec_prof_rejected_refuted :
  ~ (forall n m wf p keep wf', rectangular n m wf -> Forall (Forall (fun x => 0 <= x)) wf -> Exists (Exists (fun x => 0 < x)) wf ->
       filter_profiles wf (None : option (nat * list (list Z))) None None = Ok (wf', None, None, None) ->
       picked keep (map (map (fun v => v / sumn n (fun i => sumn m (cell wf i)))) wf) wf' -> In p keep ->
       exists r, filter_profiles wf (None : option (nat * list (list Z))) None (Some (Z.of_nat p)) = Ok r).
Proof. exact C38_rec_prof_rejected_refuted_lem. Qed.
Print Assumptions C38_rec_prof_rejected_refuted.

(** Frame settings under which raw data can be cut into profiles. *)
Definition frames_ok (f : frames) : Prop :=
  (0 < f_nframes f)%Z /\ (0 <= f_skip_frames f)%Z /\ (f_skip_frames f < f_nframes f)%Z /\
  (0 < f_nbins_frame f)%Z /\ (0 <= f_skip_start f)%Z /\ (0 <= f_skip_end f)%Z /\
  (f_skip_start f + f_skip_end f < f_nbins_frame f)%Z /\ (1 <= f_rebin f)%Z.

(** Raw data of another length than nframes*nbins_frame is refused with
    RawDataImportError, other bad settings with InputError; everything else is
    accepted. *)
Theorem C39_accepted : forall A f (raw : list A),
  (Z.of_nat (length raw) <> (f_nframes f * f_nbins_frame f)%Z -> to_waterfall f raw = Fail (Raised RawDataImportError)) /\
  (Z.of_nat (length raw) = (f_nframes f * f_nbins_frame f)%Z -> ~ frames_ok f -> to_waterfall f raw = Fail (Raised InputError)) /\
  (Z.of_nat (length raw) = (f_nframes f * f_nbins_frame f)%Z -> frames_ok f -> exists wf, to_waterfall f raw = Ok wf).
Proof. exact C39_accepted_lem. Qed.
Print Assumptions C39_accepted.

Example C39_accepted_ex : to_waterfall (Frames 3 4 1 1 1 1) [0;1;2;3;4;5;6;7;8;9;10;11]%Z = Ok [[5;6];[9;10]]%Z.
Proof. reflexivity. Qed.

(** The result has nprofs x nbins elements; element (i,j) is
    raw[(i+skip_frames)*framelength + skip_start + j]. *)
Theorem C39_cells : forall A f (raw : list A) wf, to_waterfall f raw = Ok wf ->
  rectangular (Z.to_nat (f_nprofs f)) (Z.to_nat (f_nbins f)) wf /\ (0 < f_nprofs f)%Z /\ (0 < f_nbins f)%Z /\
  forall i j row, nth_error wf i = Some row -> (j < Z.to_nat (f_nbins f))%nat ->
    nth_error row j <> None /\
    nth_error row j = nth_error raw (Z.to_nat ((Z.of_nat i + f_skip_frames f) * f_nbins_frame f + f_skip_start f + Z.of_nat j)).
Proof. exact C39_cells_lem. Qed.
Print Assumptions C39_cells.

Example C39_cells_ex : exists wf, to_waterfall (Frames 3 4 1 1 0 1) [0;1;2;3;4;5;6;7;8;9;10;11]%Z = Ok wf.
Proof. eexists. reflexivity. Qed.

(** The baseline is the mean of the first floor(percent*nbins) bins of the
    reference profile.  If there is no such bin the value is not a number:
    missing for the full property, see [C40_empty_refuted]. *)
Theorem C40_mean_partial : forall n m wf ref percent, rectangular n m wf -> (ref < n)%nat -> 0 <= percent -> percent <= 1 ->
  let k := Z.to_nat (qfloor (percent * qn m)) in
  (k <= m)%nat /\
  ((0 < k)%nat -> calc_baseline wf (Z.of_nat ref) percent = Ok (bin_sum wf ref 0 k / qn k)) /\
  (k = 0%nat -> calc_baseline wf (Z.of_nat ref) percent = Fail NotFinite).
Proof. exact C40_mean_partial_lem. Qed.
Print Assumptions C40_mean_partial.

Example C40_mean_ex : exists b, calc_baseline [[1; qz 3; qz 7; qz 9]] 0 (qq 1 2) = Ok b /\ this b = 2%Q.
Proof. eexists. vm_compute. split; reflexivity. Qed.

(** With the default of 5 percent and fewer than 20 bins there is no baseline:
    the mean of no bins is taken. *)
Theorem C40_empty_refuted :
  ~ (forall n m wf ref, rectangular n m wf -> (0 < m)%nat -> (ref < n)%nat ->
       exists b, calc_baseline wf (Z.of_nat ref) (qq 1 20) = Ok b).
Proof. exact C40_empty_refuted_lem. Qed.
Print Assumptions C40_empty_refuted.

(** Adding a constant to all data adds it to the baseline (or there is no
    baseline in either case). *)
Theorem C40_shift : forall wf ref percent c,
  calc_baseline (map (map (fun v => v + c)) wf) ref percent = (b <- calc_baseline wf ref percent ;; Ok (b + c)).
Proof. exact C40_shift_lem. Qed.
Print Assumptions C40_shift.

Example C40_shift_ex : exists b, calc_baseline [[1; qz 3; qz 7; qz 9]] 0 (qq 1 2) = Ok b.
Proof. eexists. vm_compute. reflexivity. Qed.

(** The profiles made from raw data do not change when a constant is added to
    all data. *)
Theorem C40_invariant : forall wf nbins m rbn dt c,
  raw_data_to_profiles (map (map (fun v => v + c)) wf) nbins m rbn dt = raw_data_to_profiles wf nbins m rbn dt.
Proof. exact C40_invariant_lem. Qed.
Print Assumptions C40_invariant.

Example C40_invariant_ex : exists p, raw_data_to_profiles [[0;0;0;0;0;0;0;0;0;0;0;0;0;0;0;0;0;0;1;1]] 20 (PMachine 1 20 (qz 10) (qz 5) 1 0) 1 1 = Ok p.
Proof. eexists. vm_compute. reflexivity. Qed.

(** For a profile whose maximum is not negative: if tangent bins are returned,
    the bins from the lower to the upper one contain the maximum and are at or
    above 15 percent of it, and the neighbouring bins on both sides are inside
    the profile and below it.  They are returned exactly when some bin at or
    after the maximum and some bin between 1 and the maximum is below.  Missing
    for the full property: bin 0 is not looked at, see [C41_bin0_refuted]. *)
Theorem C41_tangent_partial : forall prof, (0 < length prof)%nat -> (exists i, (i < length prof)%nat /\ 0 <= nth i prof 0) ->
  exists maxbin, (maxbin < length prof)%nat /\ (forall i, (i < length prof)%nat -> nth i prof 0 <= nth maxbin prof 0) /\
  let below i := nth i prof 0 < qq 3 20 * nth maxbin prof 0 in
  (((exists i, (1 <= i)%nat /\ (i <= maxbin)%nat /\ below i) /\ (exists i, (maxbin <= i)%nat /\ (i < length prof)%nat /\ below i)) /\
   exists up low, calc_tangentbins prof = Ok (Z.of_nat up, Z.of_nat low) /\
     (2 <= low)%nat /\ (low <= maxbin)%nat /\ (maxbin <= up)%nat /\ (up + 1 < length prof)%nat /\
     below (low - 1)%nat /\ below (up + 1)%nat /\ forall i, (low <= i)%nat -> (i <= up)%nat -> ~ below i)
  \/ (~ ((exists i, (1 <= i)%nat /\ (i <= maxbin)%nat /\ below i) /\ (exists i, (maxbin <= i)%nat /\ (i < length prof)%nat /\ below i)) /\
      calc_tangentbins prof = Fail (Raised UnboundLocalError)).
Proof. exact C41_tangent_partial_lem. Qed.
Print Assumptions C41_tangent_partial.

Example C41_tangent_ex : calc_tangentbins [0; 0; qz 5; qz 10; qz 5; qz 2; 0] = Ok (5, 2)%Z.
Proof. vm_compute. reflexivity. Qed.

(** A profile that starts with one low bin falls below the threshold on both
    sides but no tangent bins are found. *)
Theorem C41_bin0_refuted :
  ~ (forall prof maxbin, (maxbin < length prof)%nat -> (forall i, (i < length prof)%nat -> nth i prof 0 <= nth maxbin prof 0) ->
       0 < nth maxbin prof 0 ->
       (exists i, (i < maxbin)%nat /\ nth i prof 0 < qq 3 20 * nth maxbin prof 0) ->
       (exists i, (maxbin < i)%nat /\ (i < length prof)%nat /\ nth i prof 0 < qq 3 20 * nth maxbin prof 0) ->
       exists up low, calc_tangentbins prof = Ok (up, low)).
Proof. exact C41_bin0_refuted_lem. Qed.
Print Assumptions C41_bin0_refuted.

(** After any history of assignments synch_part_y is half the number of bins. *)
Theorem C49_synch_y : forall p l, p_synch_y (pf_machine p) = qz (p_nbins (pf_machine p)) / qz 2 ->
  p_synch_y (pf_machine (phistory p l)) = qz (p_nbins (pf_machine (phistory p l))) / qz 2.
Proof. exact C49_synch_y_lem. Qed.
Print Assumptions C49_synch_y.

Example C49_synch_y_ex : p_nbins (pf_machine (phistory (Profiles (PMachine 1 20 (qz 10) (qz 5) 1 0) None) [PSetNbins 7; PSetWaterfall 2 [[1; 1]]; PSetWaterfall 3 [[0;0;0]]])) = 2%Z.
Proof. vm_compute. reflexivity. Qed.

(** The stored waterfall has one row per profile of the machine and as many
    columns as the machine has bins, no negative element, and is not zero. *)
Definition profiles_ok (p : profiles) : Prop :=
  match pf_waterfall p with
  | None => True
  | Some (n, wf) => p_nbins (pf_machine p) = Z.of_nat n /\
      rectangular (Z.to_nat (p_nprofiles (pf_machine p))) n wf /\
      Forall (Forall (fun x => 0 <= x)) wf /\ Exists (Exists (fun x => 0 < x)) wf
  end.

(** An accepted waterfall (clipped at zero) is stored and the machine's nbins
    is its width; a waterfall with the wrong number of profiles is refused and
    changes nothing; so the object stays well-formed over any history in which
    no waterfall without a positive element is assigned.  Missing for the full
    property: such a waterfall is refused, but stored. *)
Theorem C49_waterfall_partial : forall p n wf p' e, rectangular (length wf) n wf -> profiles_ok p ->
  set_waterfall p n wf = (p', e) ->
  match e with
  | None => profiles_ok p' /\ pf_waterfall p' = Some (n, map (map (fun x => if qltb x 0 then 0 else x)) wf) /\
      Z.of_nat (length wf) = p_nprofiles (pf_machine p) /\ Exists (Exists (fun x => 0 < x)) wf
  | Some WaterfallError => p' = p /\ Z.of_nat (length wf) <> p_nprofiles (pf_machine p)
  | Some x => x = WaterfallReducedToZero /\ Z.of_nat (length wf) = p_nprofiles (pf_machine p) /\ Forall (Forall (fun x => x <= 0)) wf
  end.
Proof. exact C49_waterfall_partial_lem. Qed.
Print Assumptions C49_waterfall_partial.

Example C49_waterfall_ex : profiles_ok (Profiles (PMachine 1 20 (qz 10) (qz 5) 1 0) None) /\
  snd (set_waterfall (Profiles (PMachine 1 20 (qz 10) (qz 5) 1 0) None) 2 [[1; - (1)]]) = None.
Proof. split; [exact I|vm_compute; reflexivity]. Qed.

(** A refused waterfall may replace the stored one: after assigning a waterfall
    of zeros the object holds it, although WaterfallReducedToZero was raised,
    and the machine keeps the old number of bins. *)
Theorem C49_atomic_refuted :
  ~ (forall p n wf p' x, profiles_ok p -> rectangular (length wf) n wf -> set_waterfall p n wf = (p', Some x) -> p' = p) /\
  ~ (forall p n wf, profiles_ok p -> rectangular (length wf) n wf -> profiles_ok (fst (set_waterfall p n wf))).
Proof. exact C49_atomic_refuted_lem. Qed.
Print Assumptions C49_atomic_refuted.
