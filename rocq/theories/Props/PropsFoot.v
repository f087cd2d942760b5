(** Theorems on the foot tangent fits and on the emittance of a density (C54, C57).
    Statements only: each theorem is closed by the lemma of the same name in
    Proof/CFoot.v.  Written by tools/mkprops.py. *)
From Coq Require Import List ZArith QArith Qcanon Permutation Lia.
From Verif Require Import Base.Res Base.QcLib Model.MFoot Spec.FootSpec.
Import ListNotations.
Local Open Scope Qc_scope.
From Verif Require Import Proof.CFoot.

(** The fit of two straight edges: the left foot is half a bin before the zero
    of the line, the right foot is somewhere behind it. *)
Theorem C54_fit_partial : forall y dx l r a z a' z',
  left_edge y l -> right_edge y r -> (1 <= l)%nat -> (2 <= r)%nat ->
  on_line y a z (l - 1) (l + 3) -> on_line y a' z' (r - 2) (r + 2) -> a <> 0 -> a' <> 0 ->
  foot_tangent_fit y dx = Ok ((z - qq 1 2) * dx, (z' + qq 3 5 + (z' - qn r) / qz 5) * dx).
Proof. exact C54_fit_partial_lem. Qed.
Print Assumptions C54_fit_partial.

(** So the left foot is never the zero of the line, counted from the first bin or
    from its edge; and neither is the right foot if the profile is positive at
    its peak. *)
Theorem C54_feet_refuted : forall y dx l r a z a' z' fl fr p m,
  left_edge y l -> right_edge y r -> (1 <= l)%nat -> (2 <= r)%nat ->
  on_line y a z (l - 1) (l + 3) -> on_line y a' z' (r - 2) (r + 2) -> a <> 0 -> a' <> 0 ->
  peak y p m -> 0 < m -> 0 < dx -> foot_tangent_fit y dx = Ok (fl, fr) ->
  fl <> z * dx /\ fl <> (z + qq 1 2) * dx /\ z' * dx < fr.
Proof. exact C54_feet_refuted_lem. Qed.
Print Assumptions C54_feet_refuted.

(** The other fit, foot_tangent_fit_dq, gives the zeros of the two lines exactly,
    or refuses the profile if they are not in order or too far apart. *)
Theorem C54_dq : forall (savgol : list Qc -> list Qc) x y0 (flt : bool) t_rf l r a z a' z',
  let y := if flt then savgol y0 else y0 in
  first_high y l -> last_high y r -> (3 <= l)%nat -> (r + 3 < length x)%nat -> increasing x ->
  on_line_at x y a z (l - 3) (l + 3) -> on_line_at x y a' z' (r - 2) (r + 4) -> a <> 0 -> a' <> 0 ->
  (0 <= z' - z -> z' - z < t_rf -> foot_tangent_fit_dq savgol x y0 t_rf flt = Ok (z, z')) /\
  (z' - z < 0 \/ t_rf <= z' - z -> foot_tangent_fit_dq savgol x y0 t_rf flt = Fail (Raised InvalidProfileError)).
Proof. exact C54_dq_lem. Qed.
Print Assumptions C54_dq.

(** A profile that does not fall below 15 per cent of its peak on one side is
    refused with an IndexError. *)
Theorem C54_no_edge : forall y dx p m, peak y p m ->
  (forall k v, (k < p)%nat -> nth_error y k = Some v -> qq 3 20 * m <= v) \/
  (forall k v, (p < k)%nat -> nth_error y k = Some v -> qq 3 20 * m <= v) ->
  foot_tangent_fit y dx = Fail (Raised IndexError).
Proof. exact C54_no_edge_lem. Qed.
Print Assumptions C54_no_edge.

(** The other fit refuses a profile whose edge is within three bins of its end. *)
Theorem C54_dq_too_long : forall (savgol : list Qc -> list Qc) x y0 (flt : bool) t_rf l r,
  let y := if flt then savgol y0 else y0 in
  first_high y l -> last_high y r -> (l < 3)%nat \/ (length x <= r + 3)%nat ->
  foot_tangent_fit_dq savgol x y0 t_rf flt = Fail (Raised InvalidProfileError).
Proof. exact C54_dq_too_long_lem. Qed.
Print Assumptions C54_dq_too_long.

(** A target outside the open interval from 0 to 1 is refused. *)
Theorem C57_target : forall img dt dE t,
  t <= 0 \/ 1 <= t -> emittance_density_calc img dt dE t = Fail (Raised ValueError).
Proof. exact C57_target_lem. Qed.
Print Assumptions C57_target.

(** For an image with no negative pixel the result is a number between 0 and
    the area of all cells but one. *)
Theorem C57_bounds : forall img dt dE t,
  concat img <> [] -> Forall (Forall (fun v => 0 <= v)) img -> 0 <= dt * dE -> 0 < t -> t < 1 ->
  exists v, emittance_density_calc img dt dE t = Ok v /\ 0 <= v /\ v <= qn (length (concat img) - 1) * dt * dE.
Proof. exact C57_bounds_lem. Qed.
Print Assumptions C57_bounds.

(** A larger fraction never has a smaller emittance. *)
Theorem C57_monotone : forall img dt dE t t' v v',
  Forall (Forall (fun v => 0 <= v)) img -> 0 <= dt * dE -> 0 < t -> t <= t' -> t' < 1 ->
  emittance_density_calc img dt dE t = Ok v -> emittance_density_calc img dt dE t' = Ok v' -> v <= v'.
Proof. exact C57_monotone_lem. Qed.
Print Assumptions C57_monotone.

(** It does not depend on the places of the cells. *)
Theorem C57_invariant : forall img img' dt dE t,
  Permutation (concat img) (concat img') ->
  emittance_density_calc img dt dE t = emittance_density_calc img' dt dE t.
Proof. exact C57_invariant_lem. Qed.
Print Assumptions C57_invariant.

(** If the target is what the k largest cells hold, and no cell is empty, the
    result is the area of k - 1 cells: one less. *)
Theorem C57_cells : forall img dt dE t k a,
  Forall (Forall (fun v => 0 < v)) img -> 0 < t -> t < 1 -> (1 <= k)%nat ->
  largest k (concat img) a -> t = sum a ->
  emittance_density_calc img dt dE t = Ok (qn (k - 1) * dt * dE).
Proof. exact C57_cells_lem. Qed.
Print Assumptions C57_cells.

(** The density fit refuses levels outside the open interval from 0 to 1, and
    gives otherwise, if anything, a value between those of increasing x. *)
Theorem C57_level : forall y x level,
  level <= 0 \/ 1 <= level -> foot_tangent_fit_density y x level = Fail (Raised ValueError).
Proof. exact C57_level_lem. Qed.
Print Assumptions C57_level.

Theorem C57_density_range : forall y x level v u0 x',
  x = u0 :: x' -> increasing x -> foot_tangent_fit_density y x level = Ok v -> u0 <= v /\ v <= last x u0.
Proof. exact C57_density_range_lem. Qed.
Print Assumptions C57_density_range.

(** The density fit does not depend on the unit and on the offset of the
    ordinates. *)
Theorem C57_density_invariant : forall y x level s c, 0 < s ->
  foot_tangent_fit_density (map (fun v => s * v + c) y) x level = foot_tangent_fit_density y x level.
Proof. exact C57_density_invariant_lem. Qed.
Print Assumptions C57_density_invariant.

(** Where the four bins around the edge lie on a line above the lowest
    value, the density fit gives x at the position z + 3/5 + (z - r)/5 behind
    the zero z of that line, interpolated between its neighbours. *)
Theorem C57_density_value : forall y x level mn r a z k u w, 0 < level -> level < 1 -> lowest y mn ->
  let above := map (fun v => v - mn) y in
  let q := z + qq 3 5 + (z - qn r) / qz 5 in
  right_edge_at level above r -> (2 <= r)%nat -> on_line above a z (r - 2) (r + 2) -> a <> 0 ->
  qn k <= q -> q < qn (k + 1) -> nth_error x k = Some u -> nth_error x (k + 1) = Some w ->
  foot_tangent_fit_density y x level = Ok (u + (q - qn k) * (w - u)).
Proof. exact C57_density_value_lem. Qed.
Print Assumptions C57_density_value.

From Verif Require Import Base.QcLemmas.
(** A profile with two straight edges: peak in bin 5, edges in bins 2 and 8. *)
Example ex_peak : peak ex_profile 5 (qz 100).
Proof.
  split; [reflexivity|]. split.
  - intros k v H. do 10 (destruct k as [|k]; [injection H as <-; apply qleb_true; vm_compute; reflexivity|]). destruct k; discriminate.
  - intros k v K H. do 5 (destruct k as [|k]; [injection H as <-; apply qltb_true; vm_compute; reflexivity|]). lia.
Qed.
Example ex_left : left_edge ex_profile 2 /\ on_line ex_profile (qz 9) (qq 8 9) (2 - 1) (2 + 3).
Proof.
  split.
  - exists 5%nat, (qz 100). split; [exact ex_peak|]. split; [lia|]. split.
    + eexists. split; [reflexivity|]. apply qltb_true. vm_compute. reflexivity.
    + intros k v K H. do 5 (destruct k as [|k]; [try lia; injection H as <-; apply qleb_true; vm_compute; reflexivity|]). lia.
  - intros k K. do 5 (destruct k as [|k]; [try lia; cbn; f_equal; apply Qc_is_canon; vm_compute; reflexivity|]). lia.
Qed.
Example ex_right : right_edge ex_profile 8 /\ on_line ex_profile (- qz 9) (qq 82 9) (8 - 2) (8 + 2).
Proof.
  split.
  - exists 5%nat, (qz 100). split; [exact ex_peak|]. split; [lia|]. split.
    + eexists. split; [reflexivity|]. apply qltb_true. vm_compute. reflexivity.
    + intros k v K H. do 8 (destruct k as [|k]; [try lia; injection H as <-; apply qleb_true; vm_compute; reflexivity|]). lia.
  - intros k K. do 10 (destruct k as [|k]; [try lia; cbn; f_equal; apply Qc_is_canon; vm_compute; reflexivity|]). lia.
Qed.
Example ex_fit : foot_tangent_fit ex_profile 1 = Ok (qq 8 9 - qq 1 2, qq 82 9 + qq 3 5 + qq 2 9).
Proof. 
  rewrite (C54_fit_partial_lem ex_profile 1 2 8 (qz 9) (qq 8 9) (- qz 9) (qq 82 9)
    (proj1 ex_left) (proj1 ex_right) ltac:(lia) ltac:(lia) (proj2 ex_left) (proj2 ex_right) ltac:(discriminate) ltac:(discriminate)).
  f_equal. f_equal; apply Qc_is_canon; vm_compute; reflexivity.
Qed.
(** A profile for the other fit, with abscissae 0, 1, 2, ...: six points on a
    line on each side. *)
Example ex_dq : first_high ex_hill 3 /\ last_high ex_hill 9 /\ increasing (map qn (seq 0 13)) /\
  on_line_at (map qn (seq 0 13)) ex_hill (qz 9) (qq 8 9) (3 - 3) (3 + 3) /\
  on_line_at (map qn (seq 0 13)) ex_hill (- qz 9) (qq 100 9) (9 - 2) (9 + 4).
Proof.
  assert (P : peak ex_hill 6 (qz 100)).
  { split; [reflexivity|]. split.
    - intros k v H. do 13 (destruct k as [|k]; [injection H as <-; apply qleb_true; vm_compute; reflexivity|]). destruct k; discriminate.
    - intros k v K H. do 6 (destruct k as [|k]; [injection H as <-; apply qltb_true; vm_compute; reflexivity|]). lia. }
  split; [|split; [|split; [|split]]].
  - exists 6%nat, (qz 100). split; [exact P|]. split.
    + eexists. split; [reflexivity|]. apply qleb_true. vm_compute. reflexivity.
    + intros k v K H. do 3 (destruct k as [|k]; [try lia; injection H as <-; apply qltb_true; vm_compute; reflexivity|]). lia.
  - exists 6%nat, (qz 100). split; [exact P|]. split.
    + eexists. split; [reflexivity|]. apply qleb_true. vm_compute. reflexivity.
    + intros k v K H. do 13 (destruct k as [|k]; [try lia; injection H as <-; apply qltb_true; vm_compute; reflexivity|]). destruct k; discriminate.
  - intros i j u v IJ I J. assert (A := nth_error_Some (map qn (seq 0 13)) j). rewrite J in A. cbn [map length seq] in A.
    assert (B : (j < 13)%nat) by (apply A; discriminate).
    assert (E : forall k w, (k < 13)%nat -> nth_error (map qn (seq 0 13)) k = Some w -> w = qn k).
    { intros k w K H. apply map_nth_error with (f := fun x : Qc => x) in H. clear - K H.
      do 13 (destruct k as [|k]; [cbn in H; injection H as <-; reflexivity|]). lia. }
    rewrite (E i u ltac:(lia) I), (E j v B J). apply qn_lt. exact IJ.
  - intros k K. do 6 (destruct k as [|k]; [eexists; split; [reflexivity|]; cbn; f_equal; apply Qc_is_canon; vm_compute; reflexivity|]). lia.
  - intros k K. do 13 (destruct k as [|k]; [try (exfalso; lia); eexists; (split; [reflexivity|cbn; f_equal; apply Qc_is_canon; vm_compute; reflexivity])|]). lia.
Qed.
(** Cells whose two largest hold three quarters. *)
Example ex_largest : largest 2 (concat [[qq 1 8; qq 1 2]; [qq 1 4; qq 1 8]]) [qq 1 2; qq 1 4] /\ sum [qq 1 2; qq 1 4] = qq 3 4.
Proof.
  split; [|apply Qc_is_canon; vm_compute; reflexivity]. split; [reflexivity|]. exists [qq 1 8; qq 1 8]. split.
  - cbn [concat app]. apply Permutation_sym. apply perm_trans with (qq 1 2 :: qq 1 8 :: [qq 1 4; qq 1 8]); [constructor|]. apply perm_skip. constructor.
  - intros u v [<-|[<-|[]]] [<-|[<-|[]]]; apply qleb_true; vm_compute; reflexivity.
Qed.
(** The density fit of the same profile raised by 7: its right edge is in bin 8,
    and the zero of the line there is at 82/9. *)
Example ex_density :
  foot_tangent_fit_density (map (fun v => 1 * v + qz 7) ex_profile) (map qn (seq 0 12)) (qq 3 20) =
  Ok (qn 9 + (qq 82 9 + qq 3 5 + (qq 82 9 - qn 8) / qz 5 - qn 9) * (qn 10 - qn 9)).
Proof.
  rewrite (C57_density_invariant_lem ex_profile (map qn (seq 0 12)) (qq 3 20) 1 (qz 7)) by reflexivity.
  assert (E : map (fun v => v - 0) ex_profile = ex_profile) by (cbn; repeat (f_equal; [apply Qc_is_canon; vm_compute; reflexivity|]); reflexivity).
  apply (C57_density_value_lem ex_profile (map qn (seq 0 12)) (qq 3 20) 0 8 (- qz 9) (qq 82 9) 9 (qn 9) (qn 10)); try rewrite E.
  - reflexivity.
  - reflexivity.
  - split; [left; apply Qc_is_canon; vm_compute; reflexivity|]. intros v V.
    repeat (destruct V as [<-|V]; [apply qleb_true; vm_compute; reflexivity|]). destruct V.
  - exact (proj1 ex_right).
  - lia.
  - exact (proj2 ex_right).
  - discriminate.
  - apply qleb_true. vm_compute. reflexivity.
  - apply qltb_true. vm_compute. reflexivity.
  - reflexivity.
  - reflexivity.
Qed.
