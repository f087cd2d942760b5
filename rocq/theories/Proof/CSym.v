(** Property lemmas on the symmetries of the reconstruction and on its
    discrepancies (C97-C102). *)
(*HEAD*)
From Coq Require Import List ZArith QArith Qcanon Bool Lia.
From Verif Require Import Base.Res Base.QcLib Model.MRecon Spec.TomoSpec Spec.SymSpec.
Import ListNotations.
Local Open Scope Qc_scope.
(*DAEH*)
From Coq Require Import Arith.
From Verif Require Import Base.ResLemmas Base.QcLemmas Base.Loops Spec.ReconSpec Proof.PRecon Proof.PRecon2 Proof.PRecon3
  Proof.PHybrid Proof.PTomo Proof.CRecon Proof.CPreproc Proof.PSym.

Lemma built_reachable : forall n m wf x, rectangular n m wf -> Forall (fun r => length r = n) x ->
  builds n m wf x = true -> reachable (built n m wf x).
Proof.
  intros n m wf x R F B. exists n, m, wf, (CArr2 n x), CNone, (built n m wf x), [].
  unfold builds, built in *. destruct (tomography n m wf (CArr2 n x) CNone); [|discriminate].
  repeat split; auto; try apply R; exact I.
Qed.
Ltac is_built := apply built_reachable; [split; [reflexivity|repeat constructor]|repeat constructor|vm_compute; reflexivity].

Lemma firstn_tab : forall A n m (f : nat -> A), (n <= m)%nat -> firstn n (tab m f) = tab n f.
Proof.
  intros. unfold tab. rewrite firstn_map. f_equal. replace m with (n + (m - n))%nat by lia.
  rewrite seq_app, firstn_app, seq_length, Nat.sub_diag, firstn_O, app_nil_r.
  rewrite <- (seq_length n 0) at 1. apply firstn_all.
Qed.

(** C97.  If a run with n + m iterations succeeds, so does one with n, and its
    discrepancies are the first of the longer run. *)
Lemma C97_prefix_run_lem : forall sqrt t xp n m w' d' r' c', reachable t -> t_xp t = Some xp ->
  run sqrt t (Z.of_nat (n + m)) = Ok (w', d', r', c') ->
  exists w r c, run sqrt t (Z.of_nat n) = Ok (w, firstn (n + 1) d', r, c).
Proof.
  intros sqrt t xp n m w' d' r' c' V X H. apply reachable_valid in V.
  destruct (run_cases sqrt t xp V X (Z.of_nat (n + m)) ltac:(lia)) as [[A B]|[k [_ [_ B]]]]; rewrite B in H;
    [|discriminate]. rewrite Nat2Z.id in *. inversion H; subst.
  rewrite (run_ok sqrt t xp V X (Z.of_nat n)); [|lia|]; rewrite Nat2Z.id.
  - do 3 eexists. rewrite firstn_tab by lia. replace (n + 1)%nat with (S n) by lia. reflexivity.
  - intros k Hk. apply A. lia.
Qed.

(** C97.  A run with more iterations than one that raised raises the same. *)
Lemma C97_failure_run_lem : forall sqrt t xp n m e, reachable t -> t_xp t = Some xp ->
  run sqrt t (Z.of_nat n) = Fail e -> run sqrt t (Z.of_nat (n + m)) = Fail e.
Proof.
  intros sqrt t xp n m e V X H. destruct (run sqrt t (Z.of_nat (n + m))) as [[[[w' d'] r'] c']|e'] eqn:E.
  - destruct (C97_prefix_run_lem sqrt t xp n m w' d' r' c' V X E) as (w & r & c & F). rewrite F in H. discriminate.
  - apply reachable_valid in V.
    destruct (run_cases sqrt t xp V X (Z.of_nat n) ltac:(lia)) as [[_ A]|[k [_ [_ A]]]]; rewrite A in H; [discriminate|].
    destruct (run_cases sqrt t xp V X (Z.of_nat (n + m)) ltac:(lia)) as [[_ B]|[k' [_ [_ B]]]]; rewrite B in E;
      [discriminate|]. congruence.
Qed.

(** C97 for run_hybrid. *)
Lemma C97_prefix_hybrid_lem : forall sqrt t xp n m w' d' r', reachable t -> t_xp t = Some xp ->
  run_hybrid sqrt t (n + m) = Ok (w', d', r') ->
  exists w r, run_hybrid sqrt t n = Ok (w, firstn (n + 1) d', r).
Proof.
  intros sqrt t xp n m w' d' r' V X H. apply reachable_valid in V.
  destruct (hybrid_cases sqrt t xp V X (n + m)) as [[A B]|[k [_ [_ B]]]]; rewrite B in H; [|discriminate].
  inversion H; subst. rewrite (hybrid_ok sqrt t xp V X n).
  - do 2 eexists. rewrite firstn_tab by lia. reflexivity.
  - intros k Hk. apply A. lia.
Qed.

Lemma C97_failure_hybrid_lem : forall sqrt t xp n m e, reachable t -> t_xp t = Some xp ->
  run_hybrid sqrt t n = Fail e -> run_hybrid sqrt t (n + m) = Fail e.
Proof.
  intros sqrt t xp n m e V X H. destruct (run_hybrid sqrt t (n + m)) as [[[w' d'] r']|e'] eqn:E.
  - destruct (C97_prefix_hybrid_lem sqrt t xp n m w' d' r' V X E) as (w & r & F). rewrite F in H. discriminate.
  - apply reachable_valid in V.
    destruct (hybrid_cases sqrt t xp V X n) as [[_ A]|[k [_ [_ A]]]]; rewrite A in H; [discriminate|].
    destruct (hybrid_cases sqrt t xp V X (n + m)) as [[_ B]|[k' [_ [_ B]]]]; rewrite B in E; [discriminate|]. congruence.
Qed.
(*EX*)
(** Readable results. *)
Definition diffs (r : res (list Qc * list Qc * list (list Qc) * list (Z * Z))) :=
  match r with Ok (_, d, _, _) => Some (map this d) | Fail _ => None end.
Definition diffs_h (r : res (list Qc * list Qc * list (list Qc))) :=
  match r with Ok (_, d, _) => Some (map this d) | Fail _ => None end.
(** Two profiles of two bins and three particles. *)
Definition sym_t : tomo := built 2 2 [[qz 3; 1]; [1; qz 3]] [[0; 1]; [0; 0]; [0; 1]].
Example sym_t_reachable : reachable sym_t /\ t_xp sym_t = Some [[0; 1]; [0; 0]; [0; 1]]%Z.
Proof.
  split; [|vm_compute; reflexivity].
  apply built_reachable; [split; [reflexivity|repeat constructor]|repeat constructor|vm_compute; reflexivity].
Qed.
Example ex_C97 : diffs (run (fun x => x) sym_t 1) = Some [1 # 32; 145 # 4624]%Q /\
  diffs (run (fun x => x) sym_t 2) = Some [1 # 32; 145 # 4624; 7165 # 226576]%Q /\
  diffs_h (run_hybrid (fun x => x) sym_t 2) = Some [1 # 32; 85 # 2704; 2137 # 67600]%Q.
Proof. split; [|split]; vm_compute; reflexivity. Qed.
(*XE*)

Lemma rect_length : forall t, valid t -> length (t_waterfall t) = t_nprofs t.
Proof. intros t V. destruct V as [[E _] _ _ _ _ _]. exact E. Qed.

Lemma rect_width : forall t j, valid t -> (j < t_nprofs t)%nat -> length (nth j (t_waterfall t) []) = t_nbins t.
Proof.
  intros t j V Hj. destruct V as [[E R] _ _ _ _ _]. rewrite Forall_forall in R. apply R. apply nth_In. lia.
Qed.

Lemma ok_trip : forall A B C (a a' : A) (b b' : B) (c c' : C),
  a = a' -> b = b' -> c = c' -> Ok (a, b, c) = Ok (a', b', c').
Proof. intros. subst. reflexivity. Qed.

Section Relabelled.
Variables (t t' : tomo) (xp xp' : list (list Z)).
Hypothesis V : valid t.
Hypothesis V' : valid t'.
Hypothesis X : t_xp t = Some xp.
Hypothesis X' : t_xp t' = Some xp'.
Hypothesis Np : t_nprofs t' = t_nprofs t.
Hypothesis Nb : t_nbins t' = t_nbins t.
Hypothesis Nx : length xp' = length xp.
Variable p : nat -> nat.
Variable q : nat -> nat -> nat.
Hypothesis P : renumbering (t_nprofs t) p.
Hypothesis Q : forall j, (j < t_nprofs t)%nat -> renumbering (t_nbins t) (q j).
Hypothesis B : forall i j, (i < length xp)%nat -> (j < t_nprofs t)%nat -> bin_of xp' i j = q j (bin_of xp i (p j)).
Hypothesis F : forall j b, (j < t_nprofs t)%nat -> (b < t_nbins t)%nat ->
  cell (t_waterfall t') j (q j b) = cell (t_waterfall t) (p j) b.
Notation np := (t_nprofs t).
Notation nb := (t_nbins t).
Notation W' := (weights_after (length xp) np nb (bin_of xp') (cell (t_waterfall t'))).
Notation W := (weights_after (length xp) np nb (bin_of xp) (cell (t_waterfall t))).
Notation RA' := (recreated_after (length xp) np nb (bin_of xp') (cell (t_waterfall t'))).
Notation RA := (recreated_after (length xp) np nb (bin_of xp) (cell (t_waterfall t))).

Lemma rel_facts : forall keep k,
  (forall i, (i < length xp)%nat -> W' keep k i = W keep k i) /\
  (forall j b, (j < np)%nat -> (b < nb)%nat -> RA' keep k j (q j b) = RA keep k (p j) b) /\
  total (length xp) (W' keep k) = total (length xp) (W keep k) /\
  mean_square np nb (cell (t_waterfall t')) (RA' keep k) = mean_square np nb (cell (t_waterfall t)) (RA keep k).
Proof.
  intros. assert (Hb := bins_ok t xp V X). destruct P as [P1 P2].
  assert (Q1 : forall j b, (j < np)%nat -> (b < nb)%nat -> (q j b < nb)%nat) by (intros; apply Q; auto).
  assert (Q2 : forall j a b, (j < np)%nat -> (a < nb)%nat -> (b < nb)%nat -> q j a = q j b -> a = b)
    by (intros j a b Hj; apply Q; auto).
  assert (RR : forall j b, (j < np)%nat -> (b < nb)%nat -> RA' keep k j (q j b) = RA keep k (p j) b).
  { intros. apply recreated_relabel; auto. }
  split; [|split; [exact RR|split]].
  - intros. apply weights_relabel with (p := p) (q := q); auto.
  - apply total_relabel with (p := p) (q := q); auto.
  - apply mean_square_relabel with (p := p) (q := q); auto.
Qed.

Lemma run_relabel : forall sqrt niter, (0 <= niter)%Z ->
  match run sqrt t niter with
  | Ok (w, d, r, c) => run sqrt t' niter = Ok (w, d, T np nb (RA' true (Z.to_nat niter)), c) /\
      r = T np nb (RA true (Z.to_nat niter))
  | Fail e => run sqrt t' niter = Fail e
  end.
Proof.
  intros sqrt niter Hn.
  destruct (totals_dec (length xp) np nb (bin_of xp) (cell (t_waterfall t)) niter true) as [H|[k [H1 [H2 H3]]]].
  - rewrite (run_ok sqrt t xp V X niter Hn H). split; [|reflexivity].
    rewrite (run_ok sqrt t' xp' V' X' niter Hn); rewrite ?Np, ?Nb, ?Nx.
    + apply ok_quad; [| |reflexivity|reflexivity].
      * apply tab_ext. intros. apply rel_facts; auto.
      * apply tab_ext. intros. unfold rms. apply (f_equal sqrt). apply rel_facts.
    + intros k Hk. destruct (rel_facts true k) as (_ & _ & E & _). rewrite E. auto.
  - rewrite (run_raises sqrt t xp V X niter k Hn H1 H2 H3).
    apply (run_raises sqrt t' xp' V' X' niter k Hn H1); rewrite ?Np, ?Nb, ?Nx.
    + destruct (rel_facts true k) as (_ & _ & E & _). rewrite E. auto.
    + intros k' Hk. destruct (rel_facts true k') as (_ & _ & E & _). rewrite E. auto.
Qed.

Lemma hybrid_relabel : forall sqrt n,
  match run_hybrid sqrt t n with
  | Ok (w, d, r) => run_hybrid sqrt t' n = Ok (w, d, T np nb (RA' false n)) /\ r = T np nb (RA false n)
  | Fail e => run_hybrid sqrt t' n = Fail e
  end.
Proof.
  intros sqrt n.
  destruct (totals_dec (length xp) np nb (bin_of xp) (cell (t_waterfall t)) (Z.of_nat n) false) as [H|[k [H1 [H2 H3]]]];
    rewrite ?Nat2Z.id in *.
  - rewrite (hybrid_ok sqrt t xp V X n H). split; [|reflexivity].
    rewrite (hybrid_ok sqrt t' xp' V' X' n); rewrite ?Np, ?Nb, ?Nx.
    + apply ok_trip; [| |reflexivity].
      * apply tab_ext. intros. apply rel_facts; auto.
      * apply tab_ext. intros. unfold rms. apply (f_equal sqrt). apply rel_facts.
    + intros k Hk. destruct (rel_facts false k) as (_ & _ & E & _). rewrite E. auto.
  - rewrite (hybrid_raises sqrt t xp V X n k H1 H2 H3).
    apply (hybrid_raises sqrt t' xp' V' X' n k H1); rewrite ?Np, ?Nb, ?Nx.
    + destruct (rel_facts false k) as (_ & _ & E & _). rewrite E. auto.
    + intros k' Hk. destruct (rel_facts false k') as (_ & _ & E & _). rewrite E. auto.
Qed.
End Relabelled.

Lemma reorder_facts : forall p t t' xp xp', valid t -> valid t' -> t_xp t = Some xp -> t_xp t' = Some xp' ->
  renumbering (t_nprofs t) p -> profiles_reordered p t t' xp xp' ->
  t_nprofs t' = t_nprofs t /\ t_nbins t' = t_nbins t /\ length xp' = length xp /\
  (forall i j, (i < length xp)%nat -> (j < t_nprofs t)%nat -> bin_of xp' i j = bin_of xp i (p j)) /\
  (forall j b, (j < t_nprofs t)%nat -> (b < t_nbins t)%nat ->
    cell (t_waterfall t') j b = cell (t_waterfall t) (p j) b).
Proof.
  intros p t t' xp xp' V V' X X' [P1 P2] (R1 & R2 & R3 & R4). rewrite !rect_length in * by auto.
  split; [auto|]. split; [|split; [auto|split]].
  - assert (Z := v_np _ V). rewrite <- (rect_width t' 0 V'), R2, rect_width; auto. rewrite R1. auto.
  - intros. unfold bin_of. rewrite R4 by auto. reflexivity.
  - intros. unfold cell. rewrite R2 by auto. reflexivity.
Qed.

Lemma T_reorder : forall n m (f f' : nat -> nat -> Qc) p, (forall j, (j < n)%nat -> (p j < n)%nat) ->
  (forall j b, (j < n)%nat -> (b < m)%nat -> f' j b = f (p j) b) ->
  T n m f' = tab n (fun j => nth (p j) (T n m f) []).
Proof.
  intros. unfold T at 1. apply tab_ext. intros j Hj. unfold T. rewrite nth_tab by auto. apply tab_ext. auto.
Qed.

(** C98.  Taking the profiles, and the coordinates of the particles at them,
    in another order gives the same weights and discrepancies, and the rows
    of the recreated waterfall in that order. *)
Lemma C98_profile_order_run_lem : forall sqrt p t t' xp xp' niter, reachable t -> reachable t' ->
  t_xp t = Some xp -> t_xp t' = Some xp' -> (0 <= niter)%Z ->
  renumbering (t_nprofs t) p -> profiles_reordered p t t' xp xp' ->
  run sqrt t' niter =
  match run sqrt t niter with
  | Ok (w, d, r, c) => Ok (w, d, tab (t_nprofs t) (fun j => nth (p j) r []), c)
  | Fail e => Fail e
  end.
Proof.
  intros sqrt p t t' xp xp' niter R R' X X' Hn P O. apply reachable_valid in R, R'.
  destruct (reorder_facts p t t' xp xp' R R' X X' P O) as (A & B & C & D & E).
  assert (Q : forall j, (j < t_nprofs t)%nat -> renumbering (t_nbins t) ((fun _ b => b) j)) by (split; auto).
  assert (K := run_relabel t t' xp xp' R R' X X' A B C p (fun _ b => b) P Q D E sqrt niter Hn).
  destruct (run sqrt t niter) as [[[[w d] r] c]|e]; [|exact K]. destruct K as [K ->]. rewrite K.
  apply ok_quad; [reflexivity|reflexivity| |reflexivity]. apply T_reorder; [apply P|]. intros j b Hj Hb.
  apply (rel_facts t t' xp xp' R X p (fun _ b => b) P Q D E true (Z.to_nat niter)); auto.
Qed.

(** C98 for run_hybrid. *)
Lemma C98_profile_order_hybrid_lem : forall sqrt p t t' xp xp' n, reachable t -> reachable t' ->
  t_xp t = Some xp -> t_xp t' = Some xp' ->
  renumbering (t_nprofs t) p -> profiles_reordered p t t' xp xp' ->
  run_hybrid sqrt t' n =
  match run_hybrid sqrt t n with
  | Ok (w, d, r) => Ok (w, d, tab (t_nprofs t) (fun j => nth (p j) r []))
  | Fail e => Fail e
  end.
Proof.
  intros sqrt p t t' xp xp' n R R' X X' P O. apply reachable_valid in R, R'.
  destruct (reorder_facts p t t' xp xp' R R' X X' P O) as (A & B & C & D & E).
  assert (Q : forall j, (j < t_nprofs t)%nat -> renumbering (t_nbins t) ((fun _ b => b) j)) by (split; auto).
  assert (K := hybrid_relabel t t' xp xp' R R' X X' A B C p (fun _ b => b) P Q D E sqrt n).
  destruct (run_hybrid sqrt t n) as [[[w d] r]|e]; [|exact K]. destruct K as [K ->]. rewrite K.
  apply ok_trip; [reflexivity|reflexivity|]. apply T_reorder; [apply P|]. intros j b Hj Hb.
  apply (rel_facts t t' xp xp' R X p (fun _ b => b) P Q D E false n); auto.
Qed.
(*EX*)
(** The two profiles exchanged. *)
Definition swap_t : tomo := built 2 2 [[1; qz 3]; [qz 3; 1]] [[1; 0]; [0; 0]; [1; 0]].
Definition exchange (i : nat) : nat := match i with O => 1%nat | _ => 0%nat end.
Example swap_t_reachable : reachable swap_t /\ t_xp swap_t = Some [[1; 0]; [0; 0]; [1; 0]]%Z.
Proof.
  split; [|vm_compute; reflexivity].
  apply built_reachable; [split; [reflexivity|repeat constructor]|repeat constructor|vm_compute; reflexivity].
Qed.
Example ex_C98 : renumbering 2 exchange /\
  profiles_reordered exchange sym_t swap_t [[0; 1]; [0; 0]; [0; 1]]%Z [[1; 0]; [0; 0]; [1; 0]]%Z /\
  diffs (run (fun x => x) swap_t 2) = diffs (run (fun x => x) sym_t 2).
Proof.
  split; [|split; [|vm_compute; reflexivity]].
  - split; intros [|[|i]]; simpl; try lia. intros [|[|j]]; simpl; lia. intros [|[|j]]; simpl; lia.
  - split; [reflexivity|]. split; [|split; [reflexivity|]].
    + change (length (t_waterfall sym_t)) with 2%nat. intros [|[|j]] H; [reflexivity|reflexivity|lia].
    + change (length (t_waterfall sym_t)) with 2%nat. simpl length.
      intros [|[|[|i]]] [|[|j]] H H'; solve [reflexivity|lia].
Qed.
(*XE*)

Lemma renumber_facts : forall q t t' xp xp', valid t -> t_xp t = Some xp ->
  bins_renumbered q t t' xp xp' ->
  t_nprofs t' = t_nprofs t /\ t_nbins t' = t_nbins t /\ length xp' = length xp /\
  (forall i j, (i < length xp)%nat -> (j < t_nprofs t)%nat -> bin_of xp' i j = q j (bin_of xp i j)) /\
  (forall j b, (j < t_nprofs t)%nat -> (b < t_nbins t)%nat ->
    cell (t_waterfall t') j (q j b) = cell (t_waterfall t) j b).
Proof.
  intros q t t' xp xp' V X (A & B & C & D & E). repeat split; auto.
  intros. unfold bin_of at 1. rewrite E by auto. apply Nat2Z.id.
Qed.

(** C99.  Renumbering the bins of each profile, in the waterfall and in the
    coordinates, gives the same weights and discrepancies and the same
    recreated waterfall with the bins renumbered. *)
Lemma C99_bin_order_run_lem : forall sqrt q t t' xp xp' niter, reachable t -> reachable t' ->
  t_xp t = Some xp -> t_xp t' = Some xp' -> (0 <= niter)%Z ->
  (forall j, (j < t_nprofs t)%nat -> renumbering (t_nbins t) (q j)) -> bins_renumbered q t t' xp xp' ->
  match run sqrt t niter with
  | Ok (w, d, r, c) => exists r', run sqrt t' niter = Ok (w, d, r', c) /\ rectangular (t_nprofs t) (t_nbins t) r' /\
      forall j b, (j < t_nprofs t)%nat -> (b < t_nbins t)%nat -> cell r' j (q j b) = cell r j b
  | Fail e => run sqrt t' niter = Fail e
  end.
Proof.
  intros sqrt q t t' xp xp' niter R R' X X' Hn Q O. apply reachable_valid in R, R'.
  destruct (renumber_facts q t t' xp xp' R X O) as (A & B & C & D & E).
  assert (P : renumbering (t_nprofs t) (fun j => j)) by (split; auto).
  assert (K := run_relabel t t' xp xp' R R' X X' A B C (fun j => j) q P Q D E sqrt niter Hn).
  destruct (run sqrt t niter) as [[[[w d] r] c]|e]; [|exact K]. destruct K as [K ->]. eexists. split; [exact K|].
  split; [apply T_rect|]. intros j b Hj Hb. rewrite !cell_T; auto; [|apply Q; auto].
  apply (rel_facts t t' xp xp' R X (fun j => j) q P Q D E true (Z.to_nat niter)); auto.
Qed.

(** C99 for run_hybrid. *)
Lemma C99_bin_order_hybrid_lem : forall sqrt q t t' xp xp' n, reachable t -> reachable t' ->
  t_xp t = Some xp -> t_xp t' = Some xp' ->
  (forall j, (j < t_nprofs t)%nat -> renumbering (t_nbins t) (q j)) -> bins_renumbered q t t' xp xp' ->
  match run_hybrid sqrt t n with
  | Ok (w, d, r) => exists r', run_hybrid sqrt t' n = Ok (w, d, r') /\ rectangular (t_nprofs t) (t_nbins t) r' /\
      forall j b, (j < t_nprofs t)%nat -> (b < t_nbins t)%nat -> cell r' j (q j b) = cell r j b
  | Fail e => run_hybrid sqrt t' n = Fail e
  end.
Proof.
  intros sqrt q t t' xp xp' n R R' X X' Q O. apply reachable_valid in R, R'.
  destruct (renumber_facts q t t' xp xp' R X O) as (A & B & C & D & E).
  assert (P : renumbering (t_nprofs t) (fun j => j)) by (split; auto).
  assert (K := hybrid_relabel t t' xp xp' R R' X X' A B C (fun j => j) q P Q D E sqrt n).
  destruct (run_hybrid sqrt t n) as [[[w d] r]|e]; [|exact K]. destruct K as [K ->]. eexists. split; [exact K|].
  split; [apply T_rect|]. intros j b Hj Hb. rewrite !cell_T; auto; [|apply Q; auto].
  apply (rel_facts t t' xp xp' R X (fun j => j) q P Q D E false n); auto.
Qed.
(*EX*)
(** The time axis reversed: bin b becomes bin 1 - b. *)
Definition mirror_t : tomo := built 2 2 [[1; qz 3]; [qz 3; 1]] [[1; 0]; [1; 1]; [1; 0]].
Example mirror_t_reachable : reachable mirror_t /\ t_xp mirror_t = Some [[1; 0]; [1; 1]; [1; 0]]%Z.
Proof.
  split; [|vm_compute; reflexivity].
  apply built_reachable; [split; [reflexivity|repeat constructor]|repeat constructor|vm_compute; reflexivity].
Qed.
Example ex_C99 : (forall j, (j < 2)%nat -> renumbering 2 (fun b => 1 - b)%nat) /\
  bins_renumbered (fun _ b => 1 - b)%nat sym_t mirror_t [[0; 1]; [0; 0]; [0; 1]]%Z [[1; 0]; [1; 1]; [1; 0]]%Z /\
  diffs (run (fun x => x) mirror_t 2) = diffs (run (fun x => x) sym_t 2).
Proof.
  split; [|split; [|vm_compute; reflexivity]].
  - intros j Hj. split; intros; lia.
  - split; [reflexivity|]. split; [reflexivity|]. split; [|split; [reflexivity|]].
    + change (t_nprofs sym_t) with 2%nat. change (t_nbins sym_t) with 2%nat.
      intros [|[|j]] [|[|b]] H H'; solve [lia|apply Qc_is_canon; vm_compute; reflexivity].
    + change (t_nprofs sym_t) with 2%nat. simpl length.
      intros [|[|[|i]]] [|[|j]] H H'; solve [reflexivity|lia].
Qed.
(*XE*)

Lemma copies_length : forall A k (l : list A), length (copies k l) = (k * length l)%nat.
Proof. unfold copies. induction k; intros; simpl; auto. rewrite app_length, IHk. reflexivity. Qed.

Lemma copies_nth : forall A k (l : list A) d c i, (c < k)%nat -> (i < length l)%nat ->
  nth (c * length l + i) (copies k l) d = nth i l d.
Proof.
  unfold copies. induction k; intros; [lia|]. simpl. destruct c as [|c].
  - simpl. rewrite app_nth1 by auto. reflexivity.
  - rewrite app_nth2 by (simpl; lia). replace (S c * length l + i - length l)%nat with (c * length l + i)%nat by (simpl; lia).
    apply IHk; auto. lia.
Qed.

Lemma copies_tab : forall A k n (f g : nat -> A), (forall c i, (c < k)%nat -> (i < n)%nat -> f (c * n + i)%nat = g i) ->
  tab (k * n) f = copies k (tab n g).
Proof.
  intros. destruct n as [|n].
  - rewrite Nat.mul_0_r. unfold copies. clear H. induction k; auto.
  - assert (d : A) by (apply (f 0%nat)). apply (nth_ext _ _ d d).
    + rewrite copies_length, !tab_length. reflexivity.
    + rewrite tab_length. intros a Ha. rewrite nth_tab by auto.
      assert (E : a = (a / S n * S n + a mod S n)%nat).
      { rewrite Nat.mul_comm. apply Nat.div_mod. lia. }
      assert (a / S n < k)%nat by (apply Nat.div_lt_upper_bound; lia).
      assert (a mod S n < S n)%nat by (apply Nat.mod_upper_bound; lia).
      assert (L : length (tab (S n) g) = S n) by apply tab_length.
      transitivity (g (a mod S n)); [rewrite E at 1; apply H; auto|].
      assert (N := copies_nth A k (tab (S n) g) d (a / S n) (a mod S n) ltac:(auto) ltac:(rewrite L; auto)).
      rewrite L, <- E in N. rewrite N, nth_tab by auto. reflexivity.
Qed.

Lemma copies_dims : forall t t', valid t -> valid t' -> t_waterfall t' = t_waterfall t ->
  t_nprofs t' = t_nprofs t /\ t_nbins t' = t_nbins t.
Proof.
  intros t t' V V' F. assert (A : t_nprofs t' = t_nprofs t).
  { rewrite <- (rect_length t' V'), F. apply rect_length. auto. }
  split; auto. assert (Z := v_np _ V). rewrite <- (rect_width t' 0 V') by lia. rewrite F. apply rect_width; auto.
Qed.

Lemma copies_bins : forall t xp k c i j, (c < k)%nat -> (i < length xp)%nat -> (j < t_nprofs t)%nat ->
  bin_of (copies k xp) (c * length xp + i) j = bin_of xp i j.
Proof. intros. unfold bin_of. rewrite copies_nth by auto. reflexivity. Qed.

(** C100 for run_hybrid.  With every particle given k times, each copy gets
    the weight of the particle, and everything else is the same. *)
Lemma C100_copies_hybrid_lem : forall sqrt t t' xp k n, reachable t -> reachable t' -> (0 < k)%nat ->
  t_xp t = Some xp -> t_xp t' = Some (copies k xp) -> t_waterfall t' = t_waterfall t ->
  run_hybrid sqrt t' n =
  match run_hybrid sqrt t n with
  | Ok (w, d, r) => Ok (copies k w, d, r)
  | Fail e => Fail e
  end.
Proof.
  intros sqrt t t' xp k n R R' Hk X X' F. apply reachable_valid in R, R'.
  destruct (copies_dims t t' R R' F) as [A B].
  assert (Hb := bins_ok t xp R X). assert (C := copies_bins t xp k).
  assert (TP : forall m, 0 < total (k * length xp) (weights_after (k * length xp) (t_nprofs t) (t_nbins t)
      (bin_of (copies k xp)) (cell (t_waterfall t)) false m) <->
    0 < total (length xp) (weights_after (length xp) (t_nprofs t) (t_nbins t) (bin_of xp) (cell (t_waterfall t)) false m)).
  { intros m. rewrite (total_repeat (length xp) _ _ k (bin_of xp)) by auto. assert (0 < qn k) by (apply qn_pos; auto).
    split; intros G; [|rewrite Qcmult_comm; rewrite <- (Qcmult_0_l (qn k)); apply Qcmult_lt_compat_r; auto].
    destruct (qltb_spec 0 (total (length xp) (weights_after (length xp) (t_nprofs t) (t_nbins t) (bin_of xp)
      (cell (t_waterfall t)) false m))) as [L|L]; auto.
    exfalso. assert (Z : total (length xp) (weights_after (length xp) (t_nprofs t) (t_nbins t) (bin_of xp)
      (cell (t_waterfall t)) false m) = 0) by (apply Qcle_antisym'; auto; apply total_nonneg).
    rewrite Z, Qcmult_0_r in G. exact (Qclt_not_eq _ _ G eq_refl). }
  destruct (totals_dec (length xp) (t_nprofs t) (t_nbins t) (bin_of xp) (cell (t_waterfall t)) (Z.of_nat n) false)
    as [H|[m [H1 [H2 H3]]]]; rewrite ?Nat2Z.id in *.
  - rewrite (hybrid_ok sqrt t xp R X n H).
    rewrite (hybrid_ok sqrt t' (copies k xp) R' X' n); rewrite ?copies_length, ?A, ?B, ?F.
    + apply ok_trip.
      * apply copies_tab. intros. apply weights_repeat; auto.
      * apply tab_ext. intros. unfold rms. apply (f_equal sqrt). apply mean_square_ext. intros.
        apply recreated_repeat; auto.
      * apply T_ext. intros. apply recreated_repeat; auto.
    + intros m Hm. apply TP. auto.
  - rewrite (hybrid_raises sqrt t xp R X n m H1 H2 H3).
    apply (hybrid_raises sqrt t' (copies k xp) R' X' n m H1); rewrite ?copies_length, ?A, ?B, ?F.
    + intros G. apply H2. apply TP. auto.
    + intros m' Hm. apply TP. auto.
Qed.

(** C100 for run without iterations. *)
Lemma C100_copies_run_partial_lem : forall sqrt t t' xp k, reachable t -> reachable t' -> (0 < k)%nat ->
  t_xp t = Some xp -> t_xp t' = Some (copies k xp) -> t_waterfall t' = t_waterfall t ->
  run sqrt t' 0 =
  match run sqrt t 0 with
  | Ok (w, d, r, c) => Ok (copies k w, d, r, c)
  | Fail e => Fail e
  end.
Proof.
  intros sqrt t t' xp k R R' Hk X X' F. assert (G := C100_copies_hybrid_lem sqrt t t' xp k 0 R R' Hk X X' F).
  apply reachable_valid in R, R'.
  destruct (copies_dims t t' R R' F) as [A B].
  assert (S0 : forall n np nb bin prof, weights_after n np nb bin prof true 0 = weights_after n np nb bin prof false 0)
    by reflexivity.
  destruct (totals_dec (length xp) (t_nprofs t) (t_nbins t) (bin_of xp) (cell (t_waterfall t)) 0 true)
    as [H|[m [H1 [H2 H3]]]]; change (Z.to_nat 0) with 0%nat in *.
  - assert (Hh : forall m, (m <= 0)%nat -> 0 < total (length xp) (weights_after (length xp) (t_nprofs t) (t_nbins t)
      (bin_of xp) (cell (t_waterfall t)) false m)).
    { intros m Hm. replace m with 0%nat by lia. rewrite <- S0. apply H. auto. }
    rewrite (hybrid_ok sqrt t xp R X 0 Hh) in G.
    destruct (hybrid_cases sqrt t' (copies k xp) R' X' 0) as [[K1 K2]|[m [_ [_ K2]]]]; rewrite K2 in G; [|discriminate].
    assert (E1 := f_equal (fun x => match x with Ok (a, _, _) => a | Fail _ => [] end) G).
    assert (E2 := f_equal (fun x => match x with Ok (_, b, _) => b | Fail _ => [] end) G).
    assert (E3 := f_equal (fun x => match x with Ok (_, _, c) => c | Fail _ => [] end) G).
    cbv beta iota in E1, E2, E3.
    rewrite (run_ok sqrt t xp R X 0 ltac:(lia) H).
    rewrite (run_ok sqrt t' (copies k xp) R' X' 0 ltac:(lia)).
    + apply ok_quad; [exact E1|exact E2|exact E3|reflexivity].
    + intros m Hm. change (Z.to_nat 0) with 0%nat in Hm. replace m with 0%nat by lia. rewrite S0. apply K1. auto.
  - assert (m = 0%nat) by lia. subst m.
    rewrite (run_raises sqrt t xp R X 0 0 ltac:(lia) ltac:(lia) H2 H3).
    assert (Hh : ~ 0 < total (length xp) (weights_after (length xp) (t_nprofs t) (t_nbins t)
      (bin_of xp) (cell (t_waterfall t)) false 0)) by exact H2.
    rewrite (hybrid_raises sqrt t xp R X 0 0 ltac:(lia) Hh) in G by (intros; lia).
    destruct (hybrid_cases sqrt t' (copies k xp) R' X' 0) as [[K1 K2]|[m [K0 [K1 K2]]]]; [rewrite K2 in G; discriminate|].
    apply (run_raises sqrt t' (copies k xp) R' X' 0 0); try lia.
    assert (m = 0%nat) by lia. subst m. intros N.
    apply (Qclt_not_eq _ _ N). symmetry. apply sumn_zero. exact K1.
Qed.

(** C100 is false for run: with iterations the recreated waterfall depends on
    how many copies there are, because the waterfall of the iteration before
    is added to a histogram that is larger for more particles. *)
Lemma C100_copies_refuted_lem : exists t t' xp, reachable t /\ reachable t' /\ t_xp t = Some xp /\
  t_xp t' = Some (copies 2 xp) /\ t_waterfall t' = t_waterfall t /\
  forall sqrt, exists w d r c w' d' r' c', run sqrt t 1 = Ok (w, d, r, c) /\ run sqrt t' 1 = Ok (w', d', r', c') /\
    r' <> r.
Proof.
  exists (built 2 2 [[qz 3; 1]; [1; qz 3]] [[0; 1]; [0; 0]; [0; 1]]),
    (built 2 2 [[qz 3; 1]; [1; qz 3]] [[0; 1]; [0; 0]; [0; 1]; [0; 1]; [0; 0]; [0; 1]]), [[0; 1]; [0; 0]; [0; 1]]%Z.
  assert (R : reachable (built 2 2 [[qz 3; 1]; [1; qz 3]] [[0; 1]; [0; 0]; [0; 1]])) by apply sym_t_reachable.
  assert (R' : reachable (built 2 2 [[qz 3; 1]; [1; qz 3]] [[0; 1]; [0; 0]; [0; 1]; [0; 1]; [0; 0]; [0; 1]])).
  { is_built. }
  split; [exact R|]. split; [exact R'|]. split; [vm_compute; reflexivity|]. split; [vm_compute; reflexivity|].
  split; [vm_compute; reflexivity|]. intros sqrt.
  set (t := built 2 2 [[qz 3; 1]; [1; qz 3]] [[0; 1]; [0; 0]; [0; 1]]) in *.
  set (t' := built 2 2 [[qz 3; 1]; [1; qz 3]] [[0; 1]; [0; 0]; [0; 1]; [0; 1]; [0; 0]; [0; 1]]) in *.
  set (xp := [[0; 1]; [0; 0]; [0; 1]]%Z). set (xp' := [[0; 1]; [0; 0]; [0; 1]; [0; 1]; [0; 0]; [0; 1]]%Z).
  assert (X : t_xp t = Some xp) by (vm_compute; reflexivity).
  assert (X' : t_xp t' = Some xp') by (vm_compute; reflexivity).
  apply reachable_valid in R, R'.
  do 8 eexists. split; [apply (run_ok sqrt t xp R X 1); [lia|]|split; [apply (run_ok sqrt t' xp' R' X' 1); [lia|]|]].
  - intros [|[|k]] Hk; [vm_compute; reflexivity|vm_compute; reflexivity|change (Z.to_nat 1) with 1%nat in Hk; lia].
  - intros [|[|k]] Hk; [vm_compute; reflexivity|vm_compute; reflexivity|change (Z.to_nat 1) with 1%nat in Hk; lia].
  - intros E. apply (f_equal (fun r => map (map this) r)) in E. vm_compute in E. discriminate.
Qed.
(*EX*)
Definition twice_t : tomo := built 2 2 [[qz 3; 1]; [1; qz 3]] [[0; 1]; [0; 0]; [0; 1]; [0; 1]; [0; 0]; [0; 1]].
Example ex_C100 : t_xp twice_t = Some (copies 2 [[0; 1]; [0; 0]; [0; 1]])%Z /\ t_waterfall twice_t = t_waterfall sym_t /\
  diffs_h (run_hybrid (fun x => x) twice_t 2) = diffs_h (run_hybrid (fun x => x) sym_t 2) /\
  diffs (run (fun x => x) twice_t 2) <> diffs (run (fun x => x) sym_t 2).
Proof. split; [|split; [|split]]; vm_compute; try reflexivity. discriminate. Qed.
(*XE*)

Lemma mean_square_bounds : forall np nb prof R, (0 < np)%nat -> (0 < nb)%nat ->
  (forall j b, (j < np)%nat -> 0 <= prof j b) -> (forall j b, (j < np)%nat -> 0 <= R j b) ->
  (forall j, (j < np)%nat -> sumn nb (prof j) = 1) -> (forall j, (j < np)%nat -> sumn nb (R j) = 1) ->
  0 <= mean_square np nb prof R /\ mean_square np nb prof R <= qn 2 / qn nb.
Proof.
  intros np nb prof R Hp Hb P1 P2 S1 S2. unfold mean_square.
  assert (A : 0 < qn np) by (apply qn_pos; auto). assert (B : 0 < qn nb) by (apply qn_pos; auto).
  assert (AB : 0 < qn (np * nb)) by (apply qn_pos; apply Nat.mul_pos_pos; auto).
  split.
  - apply Qcdiv_nonneg; auto. apply sumn_nonneg. intros. apply sumn_nonneg. intros. apply Qcsquare_nonneg.
  - replace (qn 2 / qn nb) with ((qn np * qn 2) / qn (np * nb)).
    2:{ rewrite qn_mul. field. split; apply Qclt_ne; auto. }
    apply Qcdiv_le_iff; auto. replace (qn np * qn 2 / qn (np * nb) * qn (np * nb)) with (qn np * qn 2) by (field; apply Qclt_ne; auto). rewrite <- sumn_const. apply sumn_le. intros j Hj.
    apply row_difference_le; auto.
Qed.

Lemma good_cells : forall t, valid t ->
  (forall j b, (j < t_nprofs t)%nat -> 0 <= cell (t_waterfall t) j b) /\
  (forall j, (j < t_nprofs t)%nat -> sumn (t_nbins t) (cell (t_waterfall t) j) = 1).
Proof.
  intros t V. assert (G := v_good _ V). unfold good_rows in G. rewrite Forall_forall in G.
  assert (L := rect_length t V). split.
  - intros j b Hj. destruct (G (nth j (t_waterfall t) [])) as [G1 _]; [apply nth_In; lia|].
    unfold cell. destruct (Nat.lt_ge_cases b (length (nth j (t_waterfall t) []))).
    + rewrite Forall_forall in G1. apply G1. apply nth_In. auto.
    + rewrite nth_overflow by auto. apply Qcle_refl.
  - intros j Hj. destruct (G (nth j (t_waterfall t) [])) as [_ G2]; [apply nth_In; lia|].
    rewrite <- G2, qsum_sumn. rewrite rect_width by auto. reflexivity.
Qed.

Lemma rms_bounds : forall sqrt t xp keep k, valid t -> t_xp t = Some xp ->
  0 < total (length xp) (weights_after (length xp) (t_nprofs t) (t_nbins t) (bin_of xp) (cell (t_waterfall t)) keep k) ->
  exists v, rms (t_nprofs t) (t_nbins t) (cell (t_waterfall t)) sqrt
    (recreated_after (length xp) (t_nprofs t) (t_nbins t) (bin_of xp) (cell (t_waterfall t)) keep k) = sqrt v /\
    0 <= v /\ v <= qn 2 / qn (t_nbins t).
Proof.
  intros sqrt t xp keep k V X H. destruct (good_cells t V) as [G1 G2].
  eexists. split; [unfold rms; reflexivity|]. apply mean_square_bounds; auto.
  - apply (v_np _ V). - apply (v_nb _ V).
  - intros. apply RA_nonneg.
  - intros. apply RA_row_sum; auto. apply (bins_ok t xp V X).
Qed.

(** C101.  Every discrepancy that run returns is the root of a number between
    zero and two divided by the number of bins, whatever the data. *)
Lemma C101_bounds_run_lem : forall sqrt t xp niter w d r c, reachable t -> t_xp t = Some xp -> (0 <= niter)%Z ->
  run sqrt t niter = Ok (w, d, r, c) ->
  Forall (fun x => exists v, x = sqrt v /\ 0 <= v /\ v <= qn 2 / qn (t_nbins t)) d.
Proof.
  intros sqrt t xp niter w d r c V X Hn H. apply reachable_valid in V.
  destruct (run_cases sqrt t xp V X niter Hn) as [[A B]|[k [_ [_ B]]]]; rewrite B in H; [|discriminate].
  inversion H; subst. apply Forall_forall. intros x Hx. apply in_tab in Hx. destruct Hx as [k [Hk <-]].
  apply rms_bounds; auto. apply A. lia.
Qed.

Lemma C101_bounds_hybrid_lem : forall sqrt t xp n w d r, reachable t -> t_xp t = Some xp ->
  run_hybrid sqrt t n = Ok (w, d, r) ->
  Forall (fun x => exists v, x = sqrt v /\ 0 <= v /\ v <= qn 2 / qn (t_nbins t)) d.
Proof.
  intros sqrt t xp n w d r V X H. apply reachable_valid in V.
  destruct (hybrid_cases sqrt t xp V X n) as [[A B]|[k [_ [_ B]]]]; rewrite B in H; [|discriminate].
  inversion H; subst. apply Forall_forall. intros x Hx. apply in_tab in Hx. destruct Hx as [k [Hk <-]].
  apply rms_bounds; auto. apply A. lia.
Qed.
(*EX*)
(** The largest possible value is reached: all measured charge in one bin, all
    particles in the other at one of two profiles. *)
Example ex_C101 : diffs (run (fun x => x) (built 2 2 [[1; 0]; [1; 0]] [[0; 1]; [0; 1]]) 0) = Some [1 # 2]%Q /\
  diffs (run (fun x => x) sym_t 0) = Some [1 # 32]%Q.
Proof. split; vm_compute; reflexivity. Qed.
(*XE*)

(** C102 is false: there are data for which each of the first iterations makes
    the discrepancy larger, both in run and in run_hybrid. *)
Lemma C102_never_worse_refuted_lem : exists t, reachable t /\ t_xp t <> None /\ forall sqrt, increasing sqrt ->
  (exists w d0 d1 d2 r c, run sqrt t 2 = Ok (w, [d0; d1; d2], r, c) /\ d0 < d1 /\ d1 < d2) /\
  (exists w d0 d1 d2 r, run_hybrid sqrt t 2 = Ok (w, [d0; d1; d2], r) /\ d0 < d1 /\ d1 < d2).
Proof.
  exists sym_t. destruct sym_t_reachable as [R X]. split; [exact R|]. split; [rewrite X; discriminate|].
  intros sqrt I. apply reachable_valid in R. split.
  - do 6 eexists. split; [rewrite (run_ok sqrt sym_t _ R X 2); [unfold tab; cbn [Z.to_nat Pos.to_nat seq map]; reflexivity|lia|]|].
    + intros [|[|[|k]]] Hk; [vm_compute; reflexivity..|change (Z.to_nat 2) with 2%nat in Hk; lia].
    + split; apply I; vm_compute; try reflexivity; discriminate.
  - do 5 eexists. split; [rewrite (hybrid_ok sqrt sym_t _ R X 2); [unfold tab; cbn [Nat.add seq map]; reflexivity|]|].
    + intros [|[|[|k]]] Hk; [vm_compute; reflexivity..|lia].
    + split; apply I; vm_compute; try reflexivity; discriminate.
Qed.
(*EX*)
(** There are such functions: the identity. *)
Example ex_C102 : increasing (fun x => x).
Proof. intros x y _ H. exact H. Qed.
(*XE*)
