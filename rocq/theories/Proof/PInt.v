(** Lemmas on 32-bit int: where the sizes fit, the checked routines are the
    unchecked ones. *)
From Coq Require Import List ZArith Bool QArith Qcanon Lia.
From Verif Require Import Base.Res Base.ResLemmas Base.QcLib Base.QcLemmas Base.Loops.
From Verif Require Import Model.MRecon Model.MTrack Model.MImage Model.MInt.
Import ListNotations.
Local Open Scope Qc_scope.
Local Open Scope nat_scope.

Lemma in_int_true z : (-2147483648 <= z <= 2147483647)%Z -> in_int z = true.
Proof. intros. unfold in_int, int_min, int_max. apply andb_true_intro. split; apply Z.leb_le; lia. Qed.
Lemma in_int_false z : (z < -2147483648 \/ 2147483647 < z)%Z -> in_int z = false.
Proof. intros. unfold in_int, int_min, int_max. apply andb_false_iff. destruct H; [left|right]; apply Z.leb_gt; lia. Qed.
Lemma c_int_ok z : (-2147483648 <= z <= 2147483647)%Z -> c_int z = Ok z.
Proof. intros. unfold c_int. rewrite in_int_true by auto. auto. Qed.
Lemma c_int_out z : (z < -2147483648 \/ 2147483647 < z)%Z -> c_int z = Fail IntOverflow.
Proof. intros. unfold c_int. rewrite in_int_false by auto. auto. Qed.
Lemma imul_nat a b : (zi a * zi b <= 2147483647)%Z -> imul (zi a) (zi b) = Ok (zi (a * b)).
Proof. intros. unfold imul. rewrite c_int_ok by nia. f_equal. lia. Qed.
Lemma index2_ok i n j m : i < m -> j < n -> (zi m * zi n <= 2147483647)%Z -> index2 i n j = Ok (zi (i * n + j)).
Proof.
  intros. unfold index2. assert (i * n + j < m * n) by nia. rewrite imul_nat by nia. cbn [bind]. unfold iadd. rewrite c_int_ok by lia. f_equal. lia.
Qed.

Lemma for_ext_inv S (P : nat -> S -> Prop) (b1 b2 : nat -> S -> res S) n : forall i s,
  (forall k s, i <= k < i + n -> P k s -> b1 k s = b2 k s) ->
  (forall k s s', i <= k < i + n -> P k s -> b2 k s = Ok s' -> P (Datatypes.S k) s') ->
  P i s -> for_ i n b1 s = for_ i n b2 s.
Proof.
  induction n; intros i s He Hs H; simpl; auto.
  rewrite He by (auto; lia). destruct (b2 i s) as [s1|] eqn:E; simpl; auto.
  apply IHn; [intros; apply He; auto; lia|intros; eapply Hs; eauto; lia|]. eapply Hs; eauto; lia.
Qed.
Lemma for_ok S (P : nat -> S -> Prop) body n : forall i s s', for_ i n body s = Ok s' -> P i s ->
  (forall k s s', i <= k < i + n -> P k s -> body k s = Ok s' -> P (Datatypes.S k) s') -> P (i + n) s'.
Proof.
  induction n; intros i s s' E H Hs; simpl in E. { inversion E; subst. rewrite Nat.add_0_r. auto. }
  destruct (body i s) as [s1|] eqn:E1; simpl in E; [|discriminate].
  replace (i + Datatypes.S n) with (Datatypes.S i + n) by lia. eapply IHn; eauto.
  - eapply Hs; eauto. lia.
  - intros. eapply Hs; eauto. lia.
Qed.

Section Sizes.
Variables npart nprof nbins : nat.
Hypothesis Hpoints : (zi npart * zi nprof <= 2147483647)%Z.
Hypothesis Hbins : (zi nprof * zi nbins <= 2147483647)%Z.

Ltac body := intros; cbv beta; apply for_ext; intros; cbv beta; first [rewrite (index2_ok _ _ _ npart) by lia | rewrite (index2_ok _ _ _ nprof) by lia]; reflexivity.

Lemma back_project_same w fp p : back_project_int w fp p npart nprof = back_project w fp p npart nprof.
Proof. unfold back_project_int, back_project. apply for_ext. body. Qed.
Lemma project_same r fp w : project_int r fp w npart nprof = project r fp w npart nprof.
Proof. unfold project_int, project. apply for_ext. body. Qed.
Lemma compensate_same d r : compensate_int d r nprof nbins = compensate_particle_amount d r nprof nbins.
Proof. unfold compensate_int, compensate_particle_amount. apply for_ext. body. Qed.
Lemma normalize_same r : normalize_int r nprof nbins = normalize r nprof nbins.
Proof.
  unfold normalize_int, normalize. match goal with |- bind ?a _ = bind ?b _ => replace a with b; auto end.
  apply for_ext. intros i [[rec total] fin] Hi. symmetry.
  match goal with |- bind ?a _ = bind ?b _ => replace a with b; [destruct b as [s|]; [|reflexivity]; cbn [bind]|] end.
  - destruct (qeqb s 0); [reflexivity|]. match goal with |- bind ?a _ = bind ?b _ => replace a with b; auto end. body.
  - body.
Qed.
Lemma discrepancy_same sq d : discrepancy_int sq d nprof nbins = discrepancy sq d nprof nbins.
Proof.
  unfold discrepancy_int, discrepancy. rewrite imul_nat by auto. cbn [bind]. rewrite Nat2Z.id.
  destruct (for_ _ _ _ _); auto.
Qed.

Variable xp : list Z.
Hypothesis Hxp : Forall (fun x => (0 <= x < zi nbins)%Z) xp.

Lemma xp_at k x : get xp k = Ok x -> (0 <= x < zi nbins)%Z.
Proof. intros E. apply get_ok_inv in E. destruct E as (_ & E & _). apply nth_error_In in E. revert x E. apply Forall_forall. auto. Qed.

Lemma count_same r : count_int r xp nprof npart nbins = count_particles_in_bin r xp nprof npart nbins.
Proof.
  unfold count_int, count_particles_in_bin. apply for_ext. intros i s Hi. apply for_ext. intros j s' Hj.
  rewrite (index2_ok _ _ _ npart) by lia. cbn [bind]. destruct (get xp (zi (i * nprof + j))) as [b|] eqn:E; [|reflexivity]. cbn [bind].
  apply xp_at in E. assert (j * nbins + Z.to_nat b < nprof * nbins) by nia.
  rewrite imul_nat by nia. cbn [bind]. unfold iadd. rewrite c_int_ok by lia. cbn [bind].
  replace (zi (j * nbins) + b)%Z with (zi j * zi nbins + b)%Z by lia. reflexivity.
Qed.

Definition counts (n : nat) (l : list Qc) : Prop := Forall (fun x => exists k, x = qn k /\ k <= n) l.
Lemma counts_up n m l : counts n l -> n <= m -> counts m l.
Proof. intros. eapply Forall_impl; [|exact H]. intros x [k [-> Hk]]. exists k. split; auto. lia. Qed.
Lemma Forall_upd A (P : A -> Prop) : forall (l : list A) i v, Forall P l -> P v -> Forall P (upd l i v).
Proof. induction l; intros; simpl; auto. destruct i; inversion H; subst; constructor; auto. Qed.
Lemma count_bounded r r' : counts 0 r -> count_particles_in_bin r xp nprof npart nbins = Ok r' -> counts (npart * nprof) r'.
Proof.
  intros H0 E. change (counts ((0 + npart) * nprof) r'). unfold count_particles_in_bin in E. revert E.
  intros E. apply (for_ok _ (fun i l => counts (i * nprof) l) _ _ _ _ _ E); [exact H0|].
  intros i s s' Hi HP E1. change (counts (Datatypes.S i * nprof) s'). replace (Datatypes.S i * nprof) with (i * nprof + (0 + nprof)) by lia.
  apply (for_ok _ (fun j l => counts (i * nprof + j) l) _ _ _ _ _ E1); [rewrite Nat.add_0_r; exact HP|].
  intros j a a' Hj HQ E2. destruct (get xp (zi (i * nprof + j))) as [b|]; [|discriminate]. cbn [bind] in E2. cbv zeta in E2.
  set (k := (zi j * zi nbins + b)%Z) in E2. destruct (get a k) as [x|] eqn:Ex; [|discriminate]. cbn [bind] in E2.
  apply get_ok_inv in Ex. destruct Ex as (_ & Ex & _). apply nth_error_In in Ex. apply set_ok_inv in E2. destruct E2 as [_ ->].
  apply Forall_upd. { apply (counts_up _ (i * nprof + Datatypes.S j)) in HQ; auto. lia. }
  destruct (proj1 (Forall_forall _ _) HQ x Ex) as [c [-> Hc]]. exists (Datatypes.S c). split; [|lia].
  rewrite qn_S. ring.
Qed.
Lemma max_bounded l n m mx : counts m l -> max_1d l n = Ok mx -> exists k, mx = qn k /\ k <= m.
Proof.
  intros H E. unfold max_1d in E. apply (for_ok _ (fun _ mx => exists k, mx = qn k /\ k <= m) _ _ _ _ _ E).
  - exists 0. split; [reflexivity|lia].
  - intros i s s' Hi HP E1. destruct (get l (zi i)) as [x|] eqn:Ex; [|discriminate]. cbn [bind] in E1. inversion E1; subst.
    apply get_ok_inv in Ex. destruct Ex as (_ & Ex & _). apply nth_error_In in Ex.
    destruct (qltb s x); auto. exact (proj1 (Forall_forall _ _) H x Ex).
Qed.

Lemma reciprocal_same : reciprocal_int (repeat 0%Qc (nprof * nbins)) xp nbins nprof npart =
  reciprocal_particles (repeat 0%Qc (nprof * nbins)) xp nbins nprof npart.
Proof.
  unfold reciprocal_int, reciprocal_particles. rewrite imul_nat by auto. cbn [bind]. rewrite Nat2Z.id, count_same.
  destruct (count_particles_in_bin _ xp nprof npart nbins) as [r|] eqn:Er; [|reflexivity]. cbn [bind].
  apply count_bounded in Er. 2:{ apply Forall_forall. intros x Hx. apply repeat_spec in Hx. subst. exists 0. split; [reflexivity|lia]. }
  destruct (max_1d r (nprof * nbins)) as [mx|] eqn:Em; [|reflexivity]. cbn [bind].
  destruct (max_bounded _ _ _ _ Er Em) as [k [-> Hk]]. change (qn k) with (qz (zi k)). rewrite qtrunc_qz.
  rewrite c_int_ok by lia. cbn [bind].
  match goal with |- bind ?a _ = bind ?b _ => destruct b as [s|]; [|reflexivity]; cbn [bind] end.
  apply for_ext. body.
Qed.

Lemma flat_points_same : create_flat_points_int xp npart nprof nbins = create_flat_points xp npart nprof nbins.
Proof.
  unfold create_flat_points_int, create_flat_points. rewrite imul_nat by auto. cbn [bind].
  apply (for_ext_inv _ (fun i fp => forall k, i * nprof <= k -> nth_error fp k = nth_error xp k)).
  - intros i fp Hi HP. apply (for_ext_inv _ (fun j fp => forall k, i * nprof + j <= k -> nth_error fp k = nth_error xp k)).
    + intros j a Hj HQ. rewrite (index2_ok _ _ _ npart) by lia. cbn [bind]. destruct (get a (zi (i * nprof + j))) as [x|] eqn:Ex; [|reflexivity]. cbn [bind].
      apply get_ok_inv in Ex. destruct Ex as (_ & Ex & _). rewrite Nat2Z.id, HQ in Ex by lia. apply nth_error_In in Ex.
      assert (0 <= x < zi nbins)%Z by (revert x Ex; apply Forall_forall; auto).
      assert (j * nbins + Z.to_nat x < nprof * nbins) by nia.
      rewrite imul_nat by nia. cbn [bind]. unfold iadd. rewrite c_int_ok by lia. cbn [bind]. do 2 f_equal. lia.
    + intros j a a' Hj HQ E k Hk. destruct (get a (zi (i * nprof + j))) as [x|]; [|discriminate]. cbn [bind] in E. cbv zeta in E. apply set_ok_inv in E. destruct E as [_ ->].
      rewrite nth_error_upd_neq by lia. apply HQ. lia.
    + intros k Hk. apply HP. lia.
  - intros i a a' Hi HP E k Hk.
    pose proof (for_ok _ (fun j fp => forall k, i * nprof + j <= k -> nth_error fp k = nth_error xp k) _ _ _ _ _ E) as F.
    apply F; [intros; apply HP; lia| |lia]. clear k Hk F E.
    intros j b b' Hj HQ E k Hk. destruct (get b (zi (i * nprof + j))) as [x|]; [|discriminate]. cbn [bind] in E. cbv zeta in E. apply set_ok_inv in E. destruct E as [_ ->].
    rewrite nth_error_upd_neq by lia. apply HQ. lia.
  - intros; auto.
Qed.

Lemma reconstruct_same sq prof niter : (-2147483648 <= niter < 2147483647)%Z ->
  (zi nbins <= 2147483647)%Z -> (zi npart <= 2147483647)%Z -> (zi nprof <= 2147483647)%Z ->
  wrapper_reconstruct_int sq xp prof niter nbins npart nprof =
  reconstruct sq (repeat 0%Qc (nprof * nbins)) xp prof niter nbins npart nprof.
Proof.
  intros Hn H1 H2 H3. unfold wrapper_reconstruct_int, int_arg. rewrite !in_int_true by lia. cbn [bind].
  unfold iadd. rewrite c_int_ok by lia. cbn [bind]. rewrite imul_nat by auto. cbn [bind].
  unfold reconstruct_int, reconstruct. rewrite !imul_nat by auto. cbn [bind]. cbv zeta. rewrite Nat2Z.id, reciprocal_same.
  destruct (reciprocal_particles _ xp nbins nprof npart) as [rp|]; [|reflexivity]. cbn [bind]. rewrite flat_points_same.
  destruct (create_flat_points xp npart nprof nbins) as [fp|]; [|reflexivity]. cbn [bind]. rewrite back_project_same.
  destruct (back_project _ fp prof npart nprof) as [w|]; [|reflexivity]. cbn [bind].
  destruct (clip w npart 0) as [w1|]; [|reflexivity]. cbn [bind].
  destruct (check_sum w1 npart) as [u|]; [|reflexivity]. cbn [bind].
  match goal with |- bind ?a _ = bind ?b _ => replace a with b; [destruct b as [s|]; [|reflexivity]; cbn [bind]|] end.
  - rewrite project_same. destruct (project _ fp _ npart nprof) as [r|]; [|reflexivity]. cbn [bind]. rewrite normalize_same.
    destruct (normalize r nprof nbins) as [r1|]; [|reflexivity]. cbn [bind].
    destruct (find_difference_profile _ _ _ _) as [d|]; [|reflexivity]. cbn [bind]. rewrite discrepancy_same. reflexivity.
  - symmetry. apply for_ext. intros k s Hk. unfold iteration_int, iteration. rewrite Nat2Z.id, project_same.
    destruct (project _ fp _ npart nprof) as [r|]; [|reflexivity]. cbn [bind]. rewrite normalize_same.
    destruct (normalize r nprof nbins) as [r1|]; [|reflexivity]. cbn [bind].
    destruct (find_difference_profile _ _ _ _) as [d|]; [|reflexivity]. cbn [bind]. rewrite discrepancy_same.
    destruct (discrepancy sq d nprof nbins) as [ds|]; [|reflexivity]. cbn [bind].
    destruct (set (r_discr s) (zi k) ds) as [ds'|]; [|reflexivity]. cbn [bind]. rewrite compensate_same.
    destruct (compensate_particle_amount d rp nprof nbins) as [d'|]; [|reflexivity]. cbn [bind]. rewrite back_project_same.
    destruct (back_project _ fp d' npart nprof) as [w2|]; [|reflexivity]. cbn [bind].
    destruct (clip w2 npart 0) as [w3|]; [|reflexivity]. cbn [bind].
    destruct (check_sum w3 npart); [|reflexivity]. cbn [bind]. unfold iadd. rewrite c_int_ok by lia. reflexivity.
Qed.
End Sizes.
