(** Properties of the reconstruction: C18-C32.
    Statements only: each theorem is closed by the lemma of the same name in
    Proof/CRecon.v.  Written by tools/mkprops.py. *)
From Coq Require Import List ZArith QArith Qcanon Bool Lia.
From Verif Require Import Base.Res Base.QcLib Model.MRecon Spec.ReconSpec Spec.TomoSpec.
Import ListNotations.
Local Open Scope Qc_scope.
From Verif Require Import Proof.CRecon.

(** Example: two profiles of two bins, two particles; the second particle
    leaves the measured region at the second profile. *)
Definition ex_wf : list (list Qc) := [[qz 2; 0]; [qz 3; qz (-1)]].
Definition ex_x : coords := CArr2 2 [[0; 0]; [0; 1]].
Definition ex_t : tomo :=
  match tomography 2 2 ex_wf ex_x CNone with Ok t => t | Fail _ => Tomo [] 0 0 None None None end.
Definition ex_sqrt (x : Qc) : Qc := x.

Example ex_t_built : tomography 2 2 ex_wf ex_x CNone = Ok ex_t.
Proof.
  unfold ex_t. destruct (tomography 2 2 ex_wf ex_x CNone) eqn:E; [reflexivity|].
  vm_compute in E. discriminate.
Qed.
Example ex_t_reachable : reachable ex_t.
Proof.
  exists 2%nat, 2%nat, ex_wf, ex_x, CNone, ex_t, []. repeat split; try exact ex_t_built; repeat constructor.
Qed.
Example ex_t_coords : t_xp ex_t = Some [[0; 0]; [0; 1]]%Z.
Proof. vm_compute. reflexivity. Qed.
(** Numbers in a readable form. *)
Definition show (r : res (list Qc * list Qc * list (list Qc) * list (Z * Z))) :=
  match r with
  | Ok (w, d, r, c) => Some (map this w, map this d, map (map this) r, c)
  | Fail _ => None
  end.
Definition showh (r : res (list Qc * list Qc * list (list Qc))) :=
  match r with
  | Ok (w, d, r) => Some (map this w, map this d, map (map this) r)
  | Fail _ => None
  end.
Example ex_run : show (run ex_sqrt ex_t 2) =
  Some ([3; 0], [1 # 18; 1 # 72; 1 # 1152], [[1; 0]; [23 # 24; 1 # 24]],
        [(1, 2); (2, 2); (2, 2)]%Z)%Q.
Proof. vm_compute. reflexivity. Qed.

(** C18.  Every object a program can hold has a waterfall whose rows have no
    negative value and sum to one.  (Objects with not-a-number values, see the
    refutation below, are not represented.) *)
Theorem C18_rows_normalised_partial : forall t, reachable t ->
  rectangular (t_nprofs t) (t_nbins t) (t_waterfall t) /\ good_rows (t_waterfall t).
Proof. exact C18_rows_normalised_partial_lem. Qed.
Print Assumptions C18_rows_normalised_partial.

(** C18.  When the constructor succeeds or raises, for a waterfall of at least
    one bin: it raises iff no value at all is positive, and yields an object
    iff every profile has a positive value. *)
Theorem C18_constructor_outcome_partial : forall nprofs nbins wf, rectangular nprofs nbins wf -> (0 < nbins)%nat -> (0 < nprofs)%nat ->
  (tomography nprofs nbins wf CNone CNone = Fail (Raised WaterfallReducedToZero) <->
     Forall (Forall (fun x => x <= 0)) wf) /\
  ((exists t, tomography nprofs nbins wf CNone CNone = Ok t) <-> Forall (Exists (fun x => 0 < x)) wf).
Proof. exact C18_constructor_outcome_partial_lem. Qed.
Print Assumptions C18_constructor_outcome_partial.

(** C18 is false: with one empty profile among non-empty ones the constructor
    does not raise, it divides by zero. *)
Theorem C18_empty_profile_refuted : ~ (forall nprofs nbins wf, rectangular nprofs nbins wf ->
  (exists t, tomography nprofs nbins wf CNone CNone = Ok t) \/
  (exists e, tomography nprofs nbins wf CNone CNone = Fail (Raised e))).
Proof. exact C18_empty_profile_refuted_lem. Qed.
Print Assumptions C18_empty_profile_refuted.

Example ex_C18_outcome : rectangular 2 2 ex_wf /\ Forall (Exists (fun x => 0 < x)) ex_wf.
Proof. repeat constructor. Qed.

(** C19.  A setter that raises changes nothing. *)
Theorem C19_failed_assignment : forall t v e,
  (snd (set_xp t v) = Some e -> fst (set_xp t v) = t) /\
  (snd (set_yp t v) = Some e -> fst (set_yp t v) = t).
Proof. exact C19_failed_assignment_lem. Qed.
Print Assumptions C19_failed_assignment.

(** C19.  After any history of assignments, failed or not: nparts is the
    number of rows of xp and all coordinates are inside the image. *)
Theorem C19_history_consistent : forall t, reachable t ->
  t_nparts t = option_map (@length _) (t_xp t) /\ xp_ok (t_nprofs t) (t_nbins t) (t_xp t).
Proof. exact C19_history_consistent_lem. Qed.
Print Assumptions C19_history_consistent.

(** C19.  yp keeps the shape of xp under every assignment except a
    successful one to xp. *)
Theorem C19_yp_shape_partial : forall t a, proper (value_of a) ->
  (match a with SetX v => snd (set_xp t v) <> None | SetY _ => True end) ->
  match t_yp t with None => True | Some y => exists x, t_xp t = Some x /\ rectangular (length x) (t_nprofs t) y end ->
  match t_yp (assign t a) with None => True | Some y => exists x, t_xp (assign t a) = Some x /\ rectangular (length x) (t_nprofs (assign t a)) y end.
Proof. exact C19_yp_shape_partial_lem. Qed.
Print Assumptions C19_yp_shape_partial.

(** C19 is false for yp: assigning new x-coordinates keeps the old
    y-coordinates, of another shape. *)
Theorem C19_stale_yp_refuted : ~ (forall t x y, reachable t -> t_xp t = Some x -> t_yp t = Some y ->
  length y = length x).
Proof. exact C19_stale_yp_refuted_lem. Qed.
Print Assumptions C19_stale_yp_refuted.

Example ex_C19_failed : snd (set_xp ex_t (CArr2 2 [[0; qz 2]])) = Some XPOutOfImageWidthError.
Proof. vm_compute. reflexivity. Qed.

(** C20.  run returns non-negative weights, one per particle, with positive
    sum; it never divides by zero nor leaves its arrays. *)
Theorem C20_weights : forall sqrt t niter, reachable t -> (0 <= niter)%Z ->
  match run sqrt t niter with
  | Ok (w, _, _, _) => Forall (fun x => 0 <= x) w /\ 0 < qsum w /\ Some (length w) = t_nparts t
  | Fail (Raised _) => True
  | Fail _ => False
  end.
Proof. exact C20_weights_lem. Qed.
Print Assumptions C20_weights.

(** C21.  The recreated waterfall has the shape of the measured one, its rows
    are non-negative and sum to one; diff has niter+1 elements. *)
Theorem C21_recreated : forall sqrt t niter w d r c, reachable t -> (0 <= niter)%Z ->
  run sqrt t niter = Ok (w, d, r, c) ->
  rectangular (t_nprofs t) (t_nbins t) r /\ good_rows r /\ Z.of_nat (length d) = (niter + 1)%Z.
Proof. exact C21_recreated_lem. Qed.
Print Assumptions C21_recreated.

(** The same for run_hybrid. *)
Theorem C21_recreated_hybrid : forall sqrt t niter w d r, reachable t ->
  run_hybrid sqrt t niter = Ok (w, d, r) ->
  rectangular (t_nprofs t) (t_nbins t) r /\ good_rows r /\ length d = (niter + 1)%nat /\
  Forall (fun x => 0 <= x) w /\ 0 < qsum w.
Proof. exact C21_recreated_hybrid_lem. Qed.
Print Assumptions C21_recreated_hybrid.

(** The normalised histogram of a list of weights, as a table. *)
Definition projection_of (t : tomo) (xp : list (list Z)) (w : list Qc) : list (list Qc) :=
  tab (t_nprofs t) (fun j => tab (t_nbins t) (fun b =>
    histogram (length xp) (bin_of xp) (fun i => nth i w 0) j b / qsum w)).
Definition rms_of (sqrt : Qc -> Qc) (t : tomo) (r : list (list Qc)) : Qc :=
  sqrt (mean_square (t_nprofs t) (t_nbins t) (cell (t_waterfall t)) (cell r)).

(** C22 holds for run with no iteration. *)
Theorem C22_projection_partial : forall sqrt t xp w d r c, reachable t -> t_xp t = Some xp ->
  run sqrt t 0 = Ok (w, d, r, c) ->
  r = projection_of t xp w /\ d = [rms_of sqrt t r].
Proof. exact C22_projection_partial_lem. Qed.
Print Assumptions C22_projection_partial.

(** C22 for run_hybrid: true for any number of iterations. *)
Theorem C22_projection_hybrid : forall sqrt t xp niter w d r, reachable t -> t_xp t = Some xp ->
  run_hybrid sqrt t niter = Ok (w, d, r) ->
  r = projection_of t xp w /\ last d 0 = rms_of sqrt t r.
Proof. exact C22_projection_hybrid_lem. Qed.
Print Assumptions C22_projection_hybrid.

(** What run really returns after niter+1 iterations: the recreated waterfall
    r' that run returns for niter iterations is added to the un-normalised
    histogram (of total W) before normalising.  The last diff is its distance
    to the waterfall. *)
Theorem C22_mixture_partial : forall sqrt t xp niter w d r c, reachable t -> t_xp t = Some xp -> (0 <= niter)%Z ->
  run sqrt t (niter + 1) = Ok (w, d, r, c) ->
  exists w' d' r' c', run sqrt t niter = Ok (w', d', r', c') /\ last d 0 = rms_of sqrt t r /\ d = d' ++ [last d 0] /\
  forall j b, (j < t_nprofs t)%nat -> (b < t_nbins t)%nat ->
    cell r j b = (cell r' j b + qsum w * cell (projection_of t xp w) j b) / (1 + qsum w).
Proof. exact C22_mixture_partial_lem. Qed.
Print Assumptions C22_mixture_partial.

(** C22 is false for run with iterations. *)
Theorem C22_projection_refuted : ~ (forall sqrt t xp niter w d r c, reachable t -> t_xp t = Some xp -> (0 <= niter)%Z ->
  run sqrt t niter = Ok (w, d, r, c) -> r = projection_of t xp w).
Proof. exact C22_projection_refuted_lem. Qed.
Print Assumptions C22_projection_refuted.

(** C23.  run and run_hybrid agree for no iteration, weights and first
    discrepancy agree for one iteration. *)
Theorem C23_agree_partial : forall sqrt t xp, reachable t -> t_xp t = Some xp ->
  (forall w d r, run_hybrid sqrt t 0 = Ok (w, d, r) <-> exists c, run sqrt t 0 = Ok (w, d, r, c)) /\
  (forall w d r, run_hybrid sqrt t 1 = Ok (w, d, r) ->
     exists d' r' c, run sqrt t 1 = Ok (w, d', r', c) /\ nth 0 d' 0 = nth 0 d 0).
Proof. exact C23_agree_partial_lem. Qed.
Print Assumptions C23_agree_partial.

(** C23 is false: the recreated waterfalls differ after one iteration, the
    weights after two. *)
Theorem C23_agree_refuted :
  ~ (forall sqrt t niter w d r c w' d' r', reachable t ->
       run sqrt t (Z.of_nat niter) = Ok (w, d, r, c) -> run_hybrid sqrt t niter = Ok (w', d', r') -> r = r') /\
  ~ (forall sqrt t niter w d r c w' d' r', reachable t ->
       run sqrt t (Z.of_nat niter) = Ok (w, d, r, c) -> run_hybrid sqrt t niter = Ok (w', d', r') -> w = w').
Proof. exact C23_agree_refuted_lem. Qed.
Print Assumptions C23_agree_refuted.

Example ex_C22_run0 : show (run ex_sqrt ex_t 0) =
  Some ([2; 1], [1 # 18], [[1; 0]; [2 # 3; 1 # 3]], [(0, 0)%Z])%Q.
Proof. vm_compute. reflexivity. Qed.
Example ex_C23_hybrid : showh (run_hybrid ex_sqrt ex_t 1) =
  Some ([8 # 3; 1 # 3], [1 # 18; 1 # 162], [[1; 0]; [8 # 9; 1 # 9]])%Q.
Proof. vm_compute. reflexivity. Qed.

(** C24.  run fails exactly when the weights of some iteration all vanish,
    and then with RuntimeError; without coordinates it raises
    CoordinateError. *)
Theorem C24_raises_iff : forall sqrt t niter, reachable t -> (0 <= niter)%Z ->
  match t_xp t with
  | None => run sqrt t niter = Fail (Raised CoordinateError)
  | Some xp =>
    (run sqrt t niter = Fail (Raised RuntimeError) <->
     exists k, (k <= Z.to_nat niter)%nat /\ forall i, (i < length xp)%nat ->
       weights_after (length xp) (t_nprofs t) (t_nbins t) (bin_of xp) (cell (t_waterfall t)) true k i = 0) /\
    ((exists e, run sqrt t niter = Fail e) -> run sqrt t niter = Fail (Raised RuntimeError))
  end.
Proof. exact C24_raises_iff_lem. Qed.
Print Assumptions C24_raises_iff.

(** C24.  It fails at once iff no particle passes through a non-zero bin. *)
Theorem C24_initial : forall sqrt t xp, reachable t -> t_xp t = Some xp ->
  (run sqrt t 0 = Fail (Raised RuntimeError) <->
   forall i j, (i < length xp)%nat -> (j < t_nprofs t)%nat -> cell (t_waterfall t) j (bin_of xp i j) = 0) /\
  (forall niter, (0 <= niter)%Z -> run sqrt t 0 = Fail (Raised RuntimeError) -> run sqrt t niter = Fail (Raised RuntimeError)).
Proof. exact C24_initial_lem. Qed.
Print Assumptions C24_initial.

Example ex_C24_unseen : match tomography 2 2 ex_wf (CArr2 2 [[1; 1]]) CNone with
  | Ok t => run ex_sqrt t 5 | Fail e => Fail e end = Fail (Raised RuntimeError).
Proof. vm_compute. reflexivity. Qed.

(** C25.  Permuting the particles permutes the weights and changes nothing
    else.  [s] is any permutation of the particle numbers. *)
Theorem C25_permutation : forall sqrt t xp niter s, reachable t -> t_xp t = Some xp -> (0 <= niter)%Z ->
  (forall i, (i < length xp)%nat -> (s i < length xp)%nat) ->
  (forall i j, (i < length xp)%nat -> (j < length xp)%nat -> s i = s j -> i = j) ->
  run sqrt (put_xp t (Some (tab (length xp) (fun i => nth (s i) xp [])))) niter =
  match run sqrt t niter with
  | Ok (w, d, r, c) => Ok (tab (length xp) (fun i => nth (s i) w 0), d, r, c)
  | Fail e => Fail e
  end.
Proof. exact C25_permutation_lem. Qed.
Print Assumptions C25_permutation.

Definition ex_swap (i : nat) : nat := match i with O => 1%nat | _ => 0%nat end.
Example ex_C25 : show (run ex_sqrt (put_xp ex_t (Some (tab 2 (fun i => nth (ex_swap i) [[0; 0]; [0; 1]]%Z [])))) 2) =
  Some ([0; 3], [1 # 18; 1 # 72; 1 # 1152], [[1; 0]; [23 # 24; 1 # 24]],
        [(1, 2); (2, 2); (2, 2)]%Z)%Q.
Proof. vm_compute. reflexivity. Qed.
(** Rows that agree up to a positive factor, ignoring negative values. *)
Definition same_profile (row row' : list Qc) : Prop :=
  exists c, 0 < c /\ Forall2 (fun x y => pos y = c * pos x) row row'.

(** C26.  Scaling each profile by its own positive constant, or replacing
    negative values by other non-positive ones, gives the very same object,
    so everything computed from it is the same. *)
Theorem C26_scale_invariant : forall nprofs nbins wf wf' x y, Forall2 same_profile wf wf' ->
  tomography nprofs nbins wf' x y = tomography nprofs nbins wf x y.
Proof. exact C26_scale_invariant_lem. Qed.
Print Assumptions C26_scale_invariant.

Example ex_C26 : Forall2 same_profile ex_wf [[1; qz (-5)]; [qz 6; 0]].
Proof.
  constructor; [|constructor; [|constructor]].
  - exists (qq 1 2). split; [reflexivity|].
    constructor; [apply Qc_is_canon; vm_compute; reflexivity|].
    constructor; [apply Qc_is_canon; vm_compute; reflexivity|constructor].
  - exists (qz 2). split; [reflexivity|].
    constructor; [apply Qc_is_canon; vm_compute; reflexivity|].
    constructor; [apply Qc_is_canon; vm_compute; reflexivity|constructor].
Qed.

(** C27.  If the projection of the initial weights is the waterfall, run
    returns these weights after any number of iterations, with discrepancy 0
    throughout and the waterfall itself as recreated waterfall. *)
Theorem C27_fixed_point_run_partial : forall sqrt t xp w d c niter, reachable t -> t_xp t = Some xp -> sqrt 0 = 0 -> (0 <= niter)%Z ->
  run sqrt t 0 = Ok (w, d, t_waterfall t, c) ->
  exists c', run sqrt t niter = Ok (w, repeat 0 (S (Z.to_nat niter)), t_waterfall t, c').
Proof. exact C27_fixed_point_run_partial_lem. Qed.
Print Assumptions C27_fixed_point_run_partial.

(** C27 for run_hybrid, from any iteration on. *)
Theorem C27_fixed_point_hybrid : forall sqrt t xp w d k niter, reachable t -> t_xp t = Some xp -> (k <= niter)%nat ->
  run_hybrid sqrt t k = Ok (w, d, t_waterfall t) ->
  exists d', run_hybrid sqrt t niter = Ok (w, d', t_waterfall t) /\ forall m, (k <= m <= niter)%nat -> nth_error d' m = Some (sqrt 0).
Proof. exact C27_fixed_point_hybrid_lem. Qed.
Print Assumptions C27_fixed_point_hybrid.

(** C27.  A discrepancy of zero means that the recreated waterfall is the
    measured one (for a square root that vanishes only at zero). *)
Theorem C27_zero_discrepancy : forall sqrt t niter w d r c, reachable t -> (0 <= niter)%Z ->
  (forall x, sqrt x = 0 <-> x = 0) ->
  run sqrt t niter = Ok (w, d, r, c) -> (last d 0 = 0 <-> r = t_waterfall t).
Proof. exact C27_zero_discrepancy_lem. Qed.
Print Assumptions C27_zero_discrepancy.

(** C27 is false for run once iterations have been made: weights whose
    projection is exactly the waterfall are changed by the next iteration. *)
Theorem C27_fixed_point_refuted : ~ (forall sqrt t xp w d r c w' d' r' c' niter, reachable t -> t_xp t = Some xp -> (0 <= niter)%Z ->
  run sqrt t niter = Ok (w, d, r, c) -> projection_of t xp w = t_waterfall t ->
  run sqrt t (niter + 1) = Ok (w', d', r', c') -> w' = w).
Proof. exact C27_fixed_point_refuted_lem. Qed.
Print Assumptions C27_fixed_point_refuted.

(** A waterfall the initial weights reproduce exactly. *)
Example ex_C27 : match tomography 1 2 [[1; qz 3]] (CArr2 1 [[0]; [1]]) CNone with
  | Ok t => (show (run ex_sqrt t 0), map (map this) (t_waterfall t)) | Fail _ => (None, []) end =
  (Some ([1 # 4; 3 # 4], [0], [[1 # 4; 3 # 4]], [(0, 0)%Z]), [[1 # 4; 3 # 4]])%Q.
Proof. vm_compute. reflexivity. Qed.

(** C28.  A particle that only visits bins with no measured charge has weight
    zero, for run and run_hybrid. *)
Theorem C28_no_charge : forall sqrt t xp niter i, reachable t -> t_xp t = Some xp -> (i < length xp)%nat ->
  (forall j, (j < t_nprofs t)%nat -> cell (t_waterfall t) j (bin_of xp i j) = 0) ->
  (forall w d r c, run sqrt t (Z.of_nat niter) = Ok (w, d, r, c) -> nth_error w i = Some 0) /\
  (forall w d r, run_hybrid sqrt t niter = Ok (w, d, r) -> nth_error w i = Some 0).
Proof. exact C28_no_charge_lem. Qed.
Print Assumptions C28_no_charge.

Example ex_C28 : match tomography 2 2 ex_wf (CArr2 2 [[0; 0]; [1; 1]]) CNone with
  | Ok t => show (run ex_sqrt t 1) | Fail _ => None end =
  Some ([2; 0], [0; 0], [[1; 0]; [1; 0]], [(1, 1); (1, 1)]%Z)%Q.
Proof. vm_compute. reflexivity. Qed.
(** Inner product. *)
Definition dot (a b : list Qc) : Qc := qsum (map (fun p => fst p * snd p) (combine a b)).

(** C29.  For coordinates inside the image: every profile of the
    un-normalised projection sums to the total weight, and the back projection
    is the adjoint of the projection. *)
Theorem C29_adjoint : forall nprofs nbins xp w f, xp_ok nprofs nbins (Some xp) ->
  length w = length xp -> length f = (nprofs * nbins)%nat ->
  exists fp rec g,
    create_flat_points (concat xp) (length xp) nprofs nbins = Ok fp /\
    project (repeat 0 (nprofs * nbins)) fp w (length xp) nprofs = Ok rec /\
    back_project (repeat 0 (length xp)) fp f (length xp) nprofs = Ok g /\
    Forall (fun row => qsum row = qsum w) (chunk nprofs nbins rec) /\
    dot rec f = dot w g.
Proof. exact C29_adjoint_lem. Qed.
Print Assumptions C29_adjoint.

Example ex_C29 : xp_ok 2 2 (Some [[0; 0]; [0; 1]]%Z).
Proof. repeat constructor; vm_compute; congruence. Qed.

(** C30.  The flat index of particle i at profile j is inside the flattened
    waterfall and addresses cell (j, x); different cells have different
    indices; Python and C++ compute the same indices. *)
Theorem C30_flat_addressing : forall nprofs nbins xp wf, xp_ok nprofs nbins (Some xp) -> rectangular nprofs nbins wf ->
  (0 < nprofs)%nat -> (0 < nbins)%nat ->
  exists fp, create_flat_points (concat xp) (length xp) nprofs nbins = Ok fp /\
    fp = concat (py_flat_points xp nprofs nbins) /\ length fp = (length xp * nprofs)%nat /\
    forall i j, (i < length xp)%nat -> (j < nprofs)%nat ->
      exists k, nth_error fp (i * nprofs + j) = Some (Z.of_nat k) /\ (k < nprofs * nbins)%nat /\
        nth_error (concat wf) k = Some (cell wf j (bin_of xp i j)) /\
        forall i' j' k', (i' < length xp)%nat -> (j' < nprofs)%nat ->
          nth_error fp (i' * nprofs + j') = Some (Z.of_nat k') ->
          (k' = k <-> j' = j /\ bin_of xp i' j' = bin_of xp i j).
Proof. exact C30_flat_addressing_lem. Qed.
Print Assumptions C30_flat_addressing.

(** C31.  The compensation factor of each bin, in the C++ code: (largest bin
    count)/(bin count), empty bins counted as one; at least one when there are
    particles; the Python code gives the same table, transposed. *)
Theorem C31_compensation : forall nprofs nbins xp, xp_ok nprofs nbins (Some xp) ->
  (0 < length xp)%nat -> (0 < nprofs)%nat ->
  exists r rp, reciprocal_particles (repeat 0 (nprofs * nbins)) (concat xp) nbins nprofs (length xp) = Ok r /\
    py_reciprocal nbins nprofs xp = Ok rp /\ length r = (nprofs * nbins)%nat /\
    forall j b, (j < nprofs)%nat -> (b < nbins)%nat ->
      let f := compensation (length xp) nprofs nbins (bin_of xp) j b in
      nth_error r (j * nbins + b) = Some f /\ cell rp b j = f /\ 1 <= f.
Proof. exact C31_compensation_lem. Qed.
Print Assumptions C31_compensation.

Example ex_C31 : match reciprocal_particles (repeat 0 4) [0; 0; 0; 1]%Z 2 2 2 with
  | Ok l => map this l | Fail _ => [] end = [1; 2; 2; 2]%Q.
Proof. vm_compute. reflexivity. Qed.

(** C32.  The callback is called with (1,niter), ..., (niter,niter) and a
    last (niter,niter). *)
Theorem C32_callback : forall sqrt t niter w d r c, reachable t -> (0 <= niter)%Z ->
  run sqrt t niter = Ok (w, d, r, c) ->
  c = map (fun k => (Z.of_nat k, niter)) (seq 1 (Z.to_nat niter)) ++ [(niter, niter)].
Proof. exact C32_callback_lem. Qed.
Print Assumptions C32_callback.
