(** What each GPU kernel computes, for every order of the accesses. *)
From Coq Require Import List ZArith Bool Lia Arith QArith Qcanon.
From Verif Require Import Base.Res Base.ResLemmas Base.QcLib Base.QcLemmas Base.Loops Model.MRecon Model.MOmp Model.MGpu
  Spec.ReconSpec Proof.POmp Proof.PGpu Proof.PRecon.
Import ListNotations.
Local Open Scope Qc_scope.
Local Open Scope nat_scope.

Definition has (m : mem Qc) (a : arr) (n : nat) (f : nat -> Qc) : Prop := forall i, i < n -> m (R_ a (zi i)) = f i.
Definition hasi (m : mem Qc) (a : arr) (n : nat) (f : nat -> Z) : Prop := forall i, i < n -> m (I_ a (zi i)) = f i.
Definition except (a : arr) (m m' : mem Qc) : Prop := forall l, (forall i, l <> R_ a i) -> m' l = m l.
Definition excepti (a : arr) (m m' : mem Qc) : Prop := forall l, (forall i, l <> I_ a i) -> m' l = m l.

Lemma has_except : forall a m m' b n f, except a m m' -> a <> b -> has m b n f -> has m' b n f.
Proof. intros a m m' b n f E N H i Hi. rewrite E; auto. intros j C. injection C. congruence. Qed.
Lemma hasi_except : forall a m m' b n f, except a m m' -> hasi m b n f -> hasi m' b n f.
Proof. intros a m m' b n f E H i Hi. rewrite E; auto. intros j C. discriminate. Qed.
Lemma has_excepti : forall a m m' b n f, excepti a m m' -> has m b n f -> has m' b n f.
Proof. intros a m m' b n f E H i Hi. rewrite E; auto. intros j C. discriminate. Qed.
Lemma hasi_excepti : forall a m m' b n f, excepti a m m' -> a <> b -> hasi m b n f -> hasi m' b n f.
Proof. intros a m m' b n f E N H i Hi. rewrite E; auto. intros j C. injection C. congruence. Qed.
Lemma has_ext : forall m a n f g, (forall i, i < n -> f i = g i) -> has m a n f -> has m a n g.
Proof. intros m a n f g E H i Hi. rewrite <- E by auto. auto. Qed.
Lemma load_has : forall m a n f, has m a n f -> load m a n = tab n f.
Proof. intros. unfold load. apply tab_ext. auto. Qed.
Lemma load_i_has : forall m a n f, hasi m a n f -> load_i m a n = tab n f.
Proof. intros. unfold load_i. apply tab_ext. auto. Qed.

Lemma fill_r_spec : forall l m a i,
  (forall k, k < length l -> fill_r m a i l (R_ a (i + zi k)) = nth k l 0%Qc) /\
  (forall x, (forall k, k < length l -> x <> R_ a (i + zi k)) -> fill_r m a i l x = m x).
Proof.
  induction l as [|v l IH]; intros m a i; cbn [fill_r length].
  - split; intros; [lia|auto].
  - destruct (IH (store m (R_ a i) v) a (i + 1)%Z) as [A B]. split.
    + intros [|k] Hk.
      * rewrite B. { replace (i + zi 0)%Z with i by lia. apply store_eq. }
        intros k _ C. injection C. lia.
      * replace (i + zi (S k))%Z with (i + 1 + zi k)%Z by lia. rewrite A by lia. reflexivity.
    + intros x Hx. rewrite B.
      * apply store_neq. intros <-. apply (Hx 0); [lia|]. f_equal. lia.
      * intros k Hk ->. apply (Hx (S k)); [lia|]. f_equal. lia.
Qed.
Lemma fill_i_spec : forall l m a i,
  (forall k, k < length l -> fill_i m a i l (I_ a (i + zi k)) = nth k l 0%Z) /\
  (forall x, (forall k, k < length l -> x <> I_ a (i + zi k)) -> fill_i m a i l x = m x).
Proof.
  induction l as [|v l IH]; intros m a i; cbn [fill_i length].
  - split; intros; [lia|auto].
  - destruct (IH (store m (I_ a i) v) a (i + 1)%Z) as [A B]. split.
    + intros [|k] Hk.
      * rewrite B. { replace (i + zi 0)%Z with i by lia. apply store_eq. }
        intros k _ C. injection C. lia.
      * replace (i + zi (S k))%Z with (i + 1 + zi k)%Z by lia. rewrite A by lia. reflexivity.
    + intros x Hx. rewrite B.
      * apply store_neq. intros <-. apply (Hx 0); [lia|]. f_equal. lia.
      * intros k Hk ->. apply (Hx (S k)); [lia|]. f_equal. lia.
Qed.
Lemma fill_r_tab : forall m a n f, has (fill_r m a 0 (tab n f)) a n f /\ except a m (fill_r m a 0 (tab n f)).
Proof.
  intros. destruct (fill_r_spec (tab n f) m a 0%Z) as [A B]. rewrite tab_length in *. split.
  - intros i Hi. rewrite <- (Z.add_0_l (zi i)). rewrite A by auto. apply nth_tab. auto.
  - intros l Hl. apply B. auto.
Qed.
Lemma fill_i_tab : forall m a n f, hasi (fill_i m a 0 (tab n f)) a n f /\ excepti a m (fill_i m a 0 (tab n f)).
Proof.
  intros. destruct (fill_i_spec (tab n f) m a 0%Z) as [A B]. rewrite tab_length in *. split.
  - intros i Hi. rewrite <- (Z.add_0_l (zi i)). rewrite A by auto. apply nth_tab. auto.
  - intros l Hl. apply B. auto.
Qed.

(** Threads by their number in the grid. *)
Lemma blocks_enough : forall n block, 0 < block -> n < blocks n block * block.
Proof. intros. unfold blocks. pose proof (Nat.mul_succ_div_gt n block). nia. Qed.
Lemma launch_flat : forall grid block (thread : nat -> nat -> gprog) (body : nat -> gprog), 0 < block ->
  (forall b t, t < block -> thread b t = body (t + block * b)) ->
  launch grid block thread = tab (grid * block) body.
Proof.
  intros. unfold launch. rewrite concat_tab. apply tab_ext. intros k Hk. unfold fl.
  rewrite H0 by (apply Nat.mod_upper_bound; lia). f_equal. rewrite Nat.add_comm. symmetry. apply Nat.div_mod. lia.
Qed.

(** Kernels in which each thread has its own element to write. *)
Lemma elementwise : forall (w : nat -> loc) (body : nat -> gprog) n N inside m,
  n <= N -> (forall i j, w i = w j -> i = j) ->
  (forall k, k < n -> gwithin (fun l => forall j, j <> k -> l <> w j) (fun l => l = w k) (fun _ => False) (body k)) ->
  (forall k, k < n -> safe inside (body k) m) ->
  let ps := tab N (fun k => if k <? n then body k else GStop) in
  ~ gfault inside ps m /\
  forall m', gends ps m m' ->
    (forall k, k < n -> m' (w k) = grun (body k) m (w k)) /\
    (forall l, (forall k, k < n -> l <> w k) -> m' l = m l).
Proof.
  intros w body n N inside m HN Hw HB HS ps.
  set (W := fun k l => k < n /\ l = w k). set (D := fun _ : loc => False).
  assert (Hdis : forall i j l, W i l -> W j l -> i = j) by (intros i j l [_ ->] [_ E]; auto).
  assert (HWD : forall i l, W i l -> ~ D l) by (unfold D; auto).
  assert (Mono : forall (A W D A' W' : loc -> Prop) p, (forall l, A l -> A' l) -> (forall l, W l -> W' l) ->
     gwithin A W D p -> gwithin A' W' D p).
  { intros A0 W0 D0 A' W' p HA HW'. induction p; cbn [gwithin]; intuition auto. }
  assert (H0 : forall i p, nth_error ps i = Some p ->
     gwithin (fun l => ~ D l /\ forall j, j <> i -> ~ W j l) (W i) D p).
  { intros i p E. apply nth_error_tab_inv in E. destruct E as [Hi ->]. destruct (Nat.ltb_spec i n); [|exact I].
    eapply Mono; [| |apply HB; auto].
    - intros l Hl. split; [unfold D; auto|]. intros j Hj [_ C]. apply (Hl j); auto.
    - intros l ->. split; auto. }
  assert (S0 : forall i p, nth_error ps i = Some p -> safe inside p m).
  { intros i p E. apply nth_error_tab_inv in E. destruct E as [Hi ->]. destruct (Nat.ltb_spec i n); [|exact I]. auto. }
  split.
  - apply (gno_fault W D inside ps m HWD H0 S0).
  - intros m' E. destruct (gends_value W D inside ps m Hdis HWD H0 S0 m' E) as (V1 & V2 & _). split.
    + intros k Hk. apply (V1 k); [|split; auto]. unfold ps. rewrite nth_error_tab by lia.
      destruct (Nat.ltb_spec k n); [auto|lia].
    + intros l Hl. apply V2; [unfold D; auto|]. intros i _ [C1 C2]. eapply Hl; eauto.
Qed.

(** Kernels that only add to one array. *)
Lemma adding : forall (a : arr) (body : nat -> gprog) n N inside m,
  n <= N ->
  (forall k, k < n -> gwithin (fun l => forall i, l <> R_ a i) (fun _ => False) (fun l => exists i, l = R_ a i) (body k)) ->
  (forall k, k < n -> safe inside (body k) m) ->
  let ps := tab N (fun k => if k <? n then body k else GStop) in
  ~ gfault inside ps m /\
  forall m', gends ps m m' ->
    (forall i, m' (R_ a i) = (m (R_ a i) + sumn n (fun k => added (body k) m (R_ a i)))%Qc) /\ except a m m'.
Proof.
  intros a body n N inside m HN HB HS ps.
  set (W := fun (k : nat) (l : loc) => False). set (D := fun l => exists i, l = R_ a i).
  assert (Hdis : forall i j l, W i l -> W j l -> i = j) by (intros i j l []).
  assert (HWD : forall i l, W i l -> ~ D l) by (intros i l []).
  assert (Mono : forall (A W D A' W' : loc -> Prop) p, (forall l, A l -> A' l) -> (forall l, W l -> W' l) ->
     gwithin A W D p -> gwithin A' W' D p).
  { intros A0 W0 D0 A' W' p HA HW'. induction p; cbn [gwithin]; intuition auto. }
  assert (H0 : forall i p, nth_error ps i = Some p ->
     gwithin (fun l => ~ D l /\ forall j, j <> i -> ~ W j l) (W i) D p).
  { intros i p E. apply nth_error_tab_inv in E. destruct E as [Hi ->]. destruct (Nat.ltb_spec i n); [|exact I].
    eapply Mono; [| |apply HB; auto].
    - intros l Hl. split; [intros [x ->]; apply (Hl x); auto|]. intros j Hj [].
    - intros l []. }
  assert (S0 : forall i p, nth_error ps i = Some p -> safe inside p m).
  { intros i p E. apply nth_error_tab_inv in E. destruct E as [Hi ->]. destruct (Nat.ltb_spec i n); [|exact I]. auto. }
  split.
  - apply (gno_fault W D inside ps m HWD H0 S0).
  - intros m' E. destruct (gends_value W D inside ps m Hdis HWD H0 S0 m' E) as (_ & V2 & V3). split.
    + intros i. rewrite V3 by (exists i; auto). f_equal. unfold total_added, ps. rewrite tab_length.
      replace N with (n + (N - n)) by lia. rewrite sumn_app. rewrite (sumn_zero (N - n)).
      * rewrite Qcplus_0_r. apply sumn_ext. intros k Hk. rewrite nth_tab by lia.
        destruct (Nat.ltb_spec k n); [auto|lia].
      * intros k Hk. rewrite nth_tab by lia. destruct (Nat.ltb_spec (n + k) n); [lia|auto].
    + intros l Hl. apply V2; [intros [i ->]; apply (Hl i); auto|]. intros i _ [].
Qed.

Lemma inside_spec : forall i n, (i < n) -> ((0 <=? zi i) && (zi i <? zi n))%Z = true.
Proof. intros. apply andb_true_iff. split; [apply Z.leb_le|apply Z.ltb_lt]; lia. Qed.

Section Kernels.
Variables (block nbins npart nprof : nat) (bin : nat -> nat -> nat).
Hypothesis Hblock : 0 < block.
Hypothesis Hbin : forall i j, i < npart -> j < nprof -> bin i j < nbins.
Notation inside := (allocated nbins npart nprof).
Notation xpf := (fl nprof (fun i j => zi (bin i j))).
Notation fpf := (fl nprof (fun i j => zi (j * nbins + bin i j))).

Ltac ins := first [apply inside_spec; assumption | apply inside_spec; lia].

(** create_flat_points *)
Lemma flat_points_kernel : forall m, hasi m Points (npart * nprof) xpf ->
  ~ gfault inside (flat_points_launch block nbins npart nprof) m /\
  forall m', gends (flat_points_launch block nbins npart nprof) m m' ->
    hasi m' Points (npart * nprof) fpf /\ excepti Points m m'.
Proof.
  intros m H. unfold flat_points_launch.
  set (body := fun tid => GRead (I_ Points (zi tid)) (fun x =>
    GWrite (I_ Points (zi tid)) (x + zi nbins * zi (tid mod nprof))%Z GStop)).
  rewrite (launch_flat _ block _ (fun tid => if tid <? npart * nprof then body tid else GStop)) by (auto; reflexivity).
  destruct (elementwise (fun k => I_ Points (zi k)) body (npart * nprof)
     (blocks (npart * nprof) block * block) inside m) as [F V].
  - pose proof (blocks_enough (npart * nprof) block Hblock). lia.
  - intros i j E. injection E. lia.
  - intros k Hk. cbn [gwithin body]. repeat split; auto. intros j N E. injection E. lia.
  - intros k Hk. cbn [safe body allocated]. repeat split; ins.
  - split; auto. intros m' E. destruct (V m' E) as [V1 V2]. split.
    + intros k Hk. rewrite V1 by auto. unfold body. cbn [grun]. rewrite store_eq. rewrite H by auto.
      unfold fl. lia.
    + intros l Hl. apply V2. intros k Hk. apply Hl.
Qed.

(** count_particles_in_bin *)
Lemma scatter_hist : forall (v : nat -> Qc) J b, J < nprof -> b < nbins ->
  sumn (npart * nprof) (fun k => if loc_eq_dec (R_ Rec (fpf k)) (R_ Rec (zi (J * nbins + b))) then v (k / nprof)%nat else 0)%Qc
  = histogram npart bin v J b.
Proof.
  intros v J b HJ Hb. rewrite sumn_flat. unfold histogram. apply sumn_ext. intros i Hi.
  transitivity (sumn nprof (fun j => if Nat.eqb j J then (if Nat.eqb (bin i j) b then v i else 0) else 0)%Qc).
  - apply sumn_ext. intros j Hj. rewrite fl_at by auto.
    replace ((i * nprof + j) / nprof) with i by (rewrite Nat.div_add_l, Nat.div_small by lia; lia).
    destruct (loc_eq_dec (R_ Rec (zi (j * nbins + bin i j))) (R_ Rec (zi (J * nbins + b)))) as [E|E].
    + injection E as E. assert (E' : j * nbins + bin i j = J * nbins + b) by lia.
      apply flat_eq in E'; auto. destruct E' as [-> ->]. rewrite !Nat.eqb_refl. auto.
    + destruct (Nat.eqb_spec j J) as [->|]; auto. destruct (Nat.eqb_spec (bin i J) b) as [<-|]; auto. congruence.
  - rewrite sumn_single by auto. auto.
Qed.
Lemma loc_if : forall a b i j (x : Qc), (if loc_eq_dec (R_ a i) (R_ a j) then x else 0)%Qc =
  (if loc_eq_dec (R_ b i) (R_ b j) then x else 0)%Qc.
Proof.
  intros. destruct (loc_eq_dec (R_ a i) (R_ a j)) as [E|E]; destruct (loc_eq_dec (R_ b i) (R_ b j)) as [E'|E']; auto.
  - injection E as ->. congruence.
  - injection E' as ->. congruence.
Qed.

Lemma count_kernel : forall m f, hasi m (Xp 0) (npart * nprof) xpf -> has m Rparts (nprof * nbins) (fl nbins f) ->
  ~ gfault inside (count_launch block nbins npart nprof) m /\
  forall m', gends (count_launch block nbins npart nprof) m m' ->
    has m' Rparts (nprof * nbins) (fl nbins (fun j b => (f j b + histogram npart bin (fun _ => 1) j b)%Qc)) /\ except Rparts m m'.
Proof.
  intros m f H HR. unfold count_launch.
  set (body := fun tid => GRead (I_ (Xp 0) (zi tid)) (fun bin => GAdd Rparts (zi (tid mod nprof) * zi nbins + bin) 1%Qc GStop)).
  rewrite (launch_flat _ block _ (fun tid => if tid <? npart * nprof then body tid else GStop)) by (auto; reflexivity).
  assert (Ix : forall k, k < npart * nprof -> (zi (k mod nprof) * zi nbins + m (I_ (Xp 0) (zi k)))%Z = fpf k).
  { intros k Hk. rewrite H by auto. unfold fl. lia. }
  destruct (adding Rparts body (npart * nprof) (blocks (npart * nprof) block * block) inside m) as [F V].
  - pose proof (blocks_enough (npart * nprof) block Hblock). lia.
  - intros k Hk. unfold body. cbn [gwithin]. repeat split; auto; [intros; discriminate|]. eauto.
  - intros k Hk. unfold body. cbn [safe]. rewrite (Ix k Hk). destruct (flat_of _ _ _ Hk) as (i & j & Hi & Hj & ->).
    rewrite fl_at by auto. repeat split; [ins|]. apply inside_spec. apply flat_lt; auto.
  - split; auto. intros m' E. destruct (V m' E) as [V1 V2]. split; auto.
    intros k Hk. rewrite V1, HR by auto. destruct (flat_of _ _ _ Hk) as (J & b & HJ & Hb & ->).
    rewrite !fl_at by auto. f_equal. rewrite <- scatter_hist by auto. apply sumn_ext. intros k Hk'.
    unfold body. cbn [added]. rewrite Ix by auto. rewrite Qcplus_0_r. apply loc_if.
Qed.

(** project *)
Lemma project_kernel : forall m w f, hasi m Points (npart * nprof) fpf -> has m Weights npart w ->
  has m Rec (nprof * nbins) (fl nbins f) ->
  ~ gfault inside (project_launch block npart nprof) m /\
  forall m', gends (project_launch block npart nprof) m m' ->
    has m' Rec (nprof * nbins) (fl nbins (fun j b => (f j b + histogram npart bin w j b)%Qc)) /\ except Rec m m'.
Proof.
  intros m w f H HW HR. unfold project_launch.
  set (body := fun tid => GRead (I_ Points (zi tid)) (fun idx =>
    GRead (R_ Weights (zi (tid / nprof))) (fun w => GAdd Rec idx w GStop))).
  rewrite (launch_flat _ block _ (fun tid => if tid <? npart * nprof then body tid else GStop)) by (auto; reflexivity).
  assert (Hd : forall k, k < npart * nprof -> k / nprof < npart).
  { intros k Hk. apply Nat.div_lt_upper_bound; [intros ->; lia|lia]. }
  destruct (adding Rec body (npart * nprof) (blocks (npart * nprof) block * block) inside m) as [F V].
  - pose proof (blocks_enough (npart * nprof) block Hblock). lia.
  - intros k Hk. unfold body. cbn [gwithin]. split; [intros; discriminate|]. intros v. split; [intros; discriminate|].
    intros. split; [eauto|exact I].
  - intros k Hk. unfold body. cbn [safe]. rewrite H by auto. split; [ins|]. split; [apply inside_spec; auto|]. split; [|exact I].
    destruct (flat_of _ _ _ Hk) as (i & j & Hi & Hj & ->). rewrite fl_at by auto. apply inside_spec. apply flat_lt; auto.
  - split; auto. intros m' E. destruct (V m' E) as [V1 V2]. split; auto.
    intros k Hk. rewrite V1, HR by auto. destruct (flat_of _ _ _ Hk) as (J & b & HJ & Hb & ->).
    rewrite !fl_at by auto. f_equal. rewrite <- scatter_hist by auto. apply sumn_ext. intros k Hk'.
    unfold body. cbn [added]. rewrite H, HW by auto. apply Qcplus_0_r.
Qed.

(** clip *)
Lemma clip_kernel : forall m w, has m Weights npart w ->
  ~ gfault inside (clip_launch block npart) m /\
  forall m', gends (clip_launch block npart) m m' -> has m' Weights npart (fun i => pos (w i)) /\ except Weights m m'.
Proof.
  intros m w H. unfold clip_launch.
  set (body := fun tid => GRead (R_ Weights (zi tid)) (fun x =>
    if qltb x 0 then GWrite (R_ Weights (zi tid)) 0%Qc GStop else GStop)).
  rewrite (launch_flat _ block _ (fun tid => if tid <? npart then body tid else GStop)) by (auto; reflexivity).
  destruct (elementwise (fun k => R_ Weights (zi k)) body npart (blocks npart block * block) inside m) as [F V].
  - pose proof (blocks_enough npart block Hblock). lia.
  - intros i j E. injection E. lia.
  - intros k Hk. unfold body. cbn [gwithin]. split.
    + intros j N E. injection E. lia.
    + intros v. destruct (qltb v 0); cbn [gwithin]; auto.
  - intros k Hk. unfold body. cbn [safe]. split; [ins|]. destruct (qltb _ 0); cbn [safe]; auto. split; [ins|auto].
  - split; auto. intros m' E. destruct (V m' E) as [V1 V2]. split.
    + intros k Hk. rewrite V1 by auto. unfold body. cbn [grun]. rewrite H by auto. unfold pos.
      destruct (qltb (w k) 0); cbn [grun]; [apply store_eq|auto].
    + intros l Hl. apply V2. intros k Hk. apply Hl.
Qed.

(** find_difference_profile *)
Lemma difference_kernel : forall m p r, has m Profs (nprof * nbins) p -> has m Rec (nprof * nbins) r ->
  ~ gfault inside (difference_launch block nbins nprof) m /\
  forall m', gends (difference_launch block nbins nprof) m m' ->
    has m' Diff (nprof * nbins) (fun k => (p k - r k)%Qc) /\ except Diff m m'.
Proof.
  intros m p r HP HR. unfold difference_launch. set (n := nprof * nbins) in *.
  set (body := fun i => GRead (R_ Profs (zi i)) (fun p => GRead (R_ Rec (zi i)) (fun r =>
      GWrite (R_ Diff (zi i)) (p - r)%Qc GStop))).
  pose proof (blocks_enough n block Hblock) as HB.
  rewrite (launch_flat _ block _ (fun tid => difference_loop n n (block * blocks n block) tid)) by (auto; reflexivity).
  assert (E : forall k, difference_loop n n (block * blocks n block) k = if k <? n then body k else GStop).
  { intros k. destruct n as [|n'] eqn:En; [reflexivity|]. rewrite <- En in *. rewrite En at 1. cbn [difference_loop].
    destruct (Nat.ltb_spec k n); [|reflexivity]. unfold body.
    replace (difference_loop n' n (block * blocks n block) (k + block * blocks n block)) with GStop; [reflexivity|].
    destruct n'; cbn [difference_loop]; [auto|]. destruct (Nat.ltb_spec (k + block * blocks n block) n); [lia|auto]. }
  erewrite tab_ext by (intros; apply E).
  destruct (elementwise (fun k => R_ Diff (zi k)) body n (blocks n block * block) inside m) as [F V].
  - lia.
  - intros i j Ei. injection Ei. lia.
  - intros k Hk. unfold body. cbn [gwithin]. split; [intros; discriminate|]. intros v. split; [intros; discriminate|]. auto.
  - intros k Hk. unfold body. cbn [safe]. repeat split; ins.
  - split; auto. intros m' Em. destruct (V m' Em) as [V1 V2]. split.
    + intros k Hk. rewrite V1 by auto. unfold body. cbn [grun]. rewrite store_eq, HP, HR by auto. reflexivity.
    + intros l Hl. apply V2. intros k Hk. apply Hl.
Qed.

(** compensate_particle_amount *)
Lemma compensate_kernel : forall m d c, has m Diff (nprof * nbins) d -> has m Rparts (nprof * nbins) c ->
  ~ gfault inside (compensate_launch block nbins nprof) m /\
  forall m', gends (compensate_launch block nbins nprof) m m' ->
    has m' Diff (nprof * nbins) (fun k => (d k * c k)%Qc) /\ except Diff m m'.
Proof.
  intros m d c HD HC. unfold compensate_launch. set (n := nprof * nbins) in *.
  set (body := fun tid => GRead (R_ Diff (zi tid)) (fun x => GRead (R_ Rparts (zi tid)) (fun r =>
    GWrite (R_ Diff (zi tid)) (x * r)%Qc GStop))).
  rewrite (launch_flat _ block _ (fun tid => if tid <? n then body tid else GStop)) by (auto; reflexivity).
  destruct (elementwise (fun k => R_ Diff (zi k)) body n (blocks n block * block) inside m) as [F V].
  - pose proof (blocks_enough n block Hblock). lia.
  - intros i j E. injection E. lia.
  - intros k Hk. unfold body. cbn [gwithin]. split; [intros j N E; injection E; lia|]. intros v.
    split; [intros; discriminate|]. auto.
  - intros k Hk. unfold body. cbn [safe]. repeat split; ins.
  - split; auto. intros m' Em. destruct (V m' Em) as [V1 V2]. split.
    + intros k Hk. rewrite V1 by auto. unfold body. cbn [grun]. rewrite store_eq, HD, HC by auto. reflexivity.
    + intros l Hl. apply V2. intros k Hk. apply Hl.
Qed.

(** calculate_reciprocal *)
Lemma reciprocal_kernel : forall m c mx, has m Rparts (nprof * nbins) c ->
  ~ gfault inside (reciprocal_launch block nbins nprof mx) m /\
  forall m', gends (reciprocal_launch block nbins nprof mx) m m' ->
    has m' Rparts (nprof * nbins) (fun k => (mx / (if qeqb (c k) 0 then 1 else c k))%Qc) /\ except Rparts m m'.
Proof.
  intros m c mx HC. unfold reciprocal_launch. set (n := nprof * nbins) in *.
  set (body := fun tid =>
    let divide := GRead (R_ Rparts (zi tid)) (fun x => GWrite (R_ Rparts (zi tid)) (mx / x)%Qc GStop) in
    GRead (R_ Rparts (zi tid)) (fun x => if qeqb x 0 then GWrite (R_ Rparts (zi tid)) 1%Qc divide else divide)).
  rewrite (launch_flat _ block _ (fun tid => if tid <? n then body tid else GStop)) by (auto; reflexivity).
  destruct (elementwise (fun k => R_ Rparts (zi k)) body n (blocks n block * block) inside m) as [F V].
  - pose proof (blocks_enough n block Hblock). lia.
  - intros i j E. injection E. lia.
  - intros k Hk. unfold body. cbn zeta. cbn [gwithin].
    assert (O : forall j, j <> k -> R_ Rparts (zi k) <> R_ Rparts (zi j)) by (intros j N E; injection E; lia).
    split; auto. intros v. destruct (qeqb v 0); cbn [gwithin]; auto.
  - intros k Hk. unfold body. cbn zeta. cbn [safe]. split; [ins|]. destruct (qeqb _ 0); cbn [safe]; repeat split; ins.
  - split; auto. intros m' Em. destruct (V m' Em) as [V1 V2]. split.
    + intros k Hk. rewrite V1 by auto. unfold body. cbn zeta. cbn [grun]. rewrite HC by auto.
      destruct (qeqb (c k) 0); cbn [grun]; rewrite ?store_eq, ?HC by auto; reflexivity.
    + intros l Hl. apply V2. intros k Hk. apply Hl.
Qed.

(** back_project *)
Section Gather.
Variables (A W D : loc -> Prop) (m : mem Qc) (item : nat -> (Qc -> gprog) -> gprog) (v : nat -> Qc).
Lemma gather_run : forall idx, (forall x k, In x idx -> grun (item x k) m = grun (k (v x)) m) ->
  forall s k, grun (gather_sum idx item s k) m = grun (k (s + qsum (map v idx))%Qc) m.
Proof.
  induction idx as [|x r IH]; intros H s k; cbn [gather_sum map qsum].
  - rewrite Qcplus_0_r. reflexivity.
  - rewrite H by (left; auto). rewrite IH by (intros; apply H; right; auto). do 2 f_equal. ring.
Qed.
Lemma gather_safe : forall idx, (forall x k, In x idx -> safe inside (k (v x)) m -> safe inside (item x k) m) ->
  forall s k, safe inside (k (s + qsum (map v idx))%Qc) m -> safe inside (gather_sum idx item s k) m.
Proof.
  induction idx as [|x r IH]; intros H s k; cbn [gather_sum map qsum].
  - rewrite Qcplus_0_r. auto.
  - intros S. apply H; [left; auto|]. apply IH; [intros; apply H; auto; right; auto|].
    replace (s + v x + qsum (map v r))%Qc with (s + (v x + qsum (map v r)))%Qc by ring. exact S.
Qed.
Lemma gather_within : (forall x k, (forall q, gwithin A W D (k q)) -> gwithin A W D (item x k)) ->
  forall idx s k, (forall q, gwithin A W D (k q)) -> gwithin A W D (gather_sum idx item s k).
Proof. intros H. induction idx as [|x r IH]; intros s k Hk; cbn [gather_sum]; auto. Qed.
End Gather.

Lemma indices_sum : forall size i (v : nat -> Qc),
  qsum (map v (indices size i)) = sumn (items_per_it size) (fun x => v (i * items_per_it size + x)).
Proof.
  intros size i v. unfold indices. rewrite concat_tab, map_tab, <- sumn_qsum.
  transitivity (sumn (items_per_array size * size) (fun x => v (i * items_per_it size + x))).
  - rewrite !sumn_flat. rewrite sumn_swap. apply sumn_ext. intros j Hj. apply sumn_ext. intros t Ht.
    rewrite fl_at by auto. f_equal. lia.
  - unfold items_per_it at 2. rewrite (Nat.mul_comm size (items_per_array size)). reflexivity.
Qed.
Lemma iterations_enough : forall size, 0 < size <= 512 -> nprof <= iterations size nprof * items_per_it size.
Proof.
  intros size H. unfold iterations.
  assert (P : 0 < items_per_it size).
  { unfold items_per_it, items_per_array. assert (1 <= 512 / size) by (apply Nat.div_le_lower_bound; lia). nia. }
  pose proof (Nat.mul_succ_div_gt (nprof + items_per_it size - 1) (items_per_it size)). nia.
Qed.

Lemma back_project_kernel : forall src m w f, (src = Profs \/ src = Diff) ->
  hasi m Points (npart * nprof) fpf -> has m Weights npart w -> has m src (nprof * nbins) (fl nbins f) ->
  ~ gfault inside (back_project_launch npart nprof src) m /\
  forall m', gends (back_project_launch npart nprof src) m m' ->
    has m' Weights npart (fun i => (w i + gather nprof bin f i)%Qc) /\ except Weights m m'.
Proof.
  intros src m w f Hsrc HP HW HF. unfold back_project_launch.
  set (size := reduction_block_size). assert (Hsize : 0 < size <= 512) by (unfold size, reduction_block_size; lia).
  set (body := back_project_block src size nprof).
  rewrite (launch_flat npart 1 _ (fun tid => if tid <? npart then body tid else if tid <? npart then GStop else body tid)); [|lia|].
  2:{ intros b t Ht. replace (t + 1 * b) with b by lia. destruct (b <? npart); reflexivity. }
  rewrite (tab_ext (npart * 1) _ (fun tid => if tid <? npart then body tid else GStop)).
  2:{ intros i Hi. destruct (Nat.ltb_spec i npart); [auto|lia]. }
  set (val := fun b index => if index <? nprof then f index (bin b index) else 0%Qc).
  set (item := fun b (index : nat) (k : Qc -> gprog) => if index <? nprof
    then GRead (I_ Points (zi (b * nprof + index))) (fun q => GRead (R_ src q) k) else k 0%Qc).
  assert (Hpt : forall b index, b < npart -> index < nprof ->
     m (I_ Points (zi (b * nprof + index))) = zi (index * nbins + bin b index) /\
     m (R_ src (zi (index * nbins + bin b index))) = f index (bin b index)).
  { intros b index Hb Hi. split.
    - rewrite HP by (apply flat_lt; auto). apply fl_at. auto.
    - rewrite HF by (apply flat_lt; auto). apply fl_at. auto. }
  assert (Irun : forall b, b < npart -> forall x k, grun (item b x k) m = grun (k (val b x)) m).
  { intros b Hb x k. unfold item, val. destruct (Nat.ltb_spec x nprof); auto. cbn [grun].
    destruct (Hpt b x Hb H) as [E1 E2]. rewrite E1, E2. reflexivity. }
  assert (Isafe : forall b, b < npart -> forall x k, safe inside (k (val b x)) m -> safe inside (item b x k) m).
  { intros b Hb x k S. unfold item, val in *. destruct (Nat.ltb_spec x nprof); auto. cbn [safe].
    destruct (Hpt b x Hb H) as [E1 E2]. rewrite E1, E2. split; [apply inside_spec; apply flat_lt; auto|]. split; auto.
    destruct Hsrc as [-> | ->]; apply inside_spec; apply flat_lt; auto. }
  set (part := fun b i => sumn (items_per_it size) (fun x => val b (i * items_per_it size + x))).
  assert (Sums : forall b, b < npart -> forall n i s k,
    grun (block_sums src size nprof b i n s k) m =
      grun (k (s + sumn n (fun j => part b (i + j)%nat))%Qc) m /\
    (safe inside (k (s + sumn n (fun j => part b (i + j)%nat))%Qc) m ->
     safe inside (block_sums src size nprof b i n s k) m)).
  { intros b Hb. induction n as [|n IH]; intros i s k; cbn [block_sums].
    - cbn [sumn]. rewrite Qcplus_0_r. auto.
    - unfold block_sum. fold (item b).
      assert (E : forall s, (s + qsum (map (val b) (indices size i)) +
         sumn n (fun j => part b (S i + j)%nat) =
         s + sumn (S n) (fun j => part b (i + j)%nat))%Qc).
      { intros s0. rewrite indices_sum. change (sumn (items_per_it size) (fun x => val b (i * items_per_it size + x)%nat)) with (part b i).
        replace (S n) with (1 + n)%nat by lia. rewrite sumn_app.
        change (sumn 1 (fun j => part b (i + j)%nat)) with (0 + part b (i + 0)%nat)%Qc.
        rewrite Nat.add_0_r. rewrite (sumn_ext n (fun j => part b (i + (1 + j))%nat) (fun j => part b (S i + j)%nat)); [ring|].
        intros j Hj. f_equal. lia. }
      split.
      + rewrite (gather_run m (item b) (val b)) by auto. destruct (IH (S i) (s + qsum (map (val b) (indices size i)))%Qc k) as [R _].
        rewrite R. rewrite E. reflexivity.
      + intros S. apply (gather_safe m (item b) (val b)); auto.
        apply (proj2 (IH (Datatypes.S i) (s + qsum (map (val b) (indices size i)))%Qc k)). rewrite E. exact S. }
  assert (Agg : forall b, b < npart ->
    sumn (iterations size nprof) (fun j => part b (0 + j)%nat) = gather nprof bin f b).
  { intros b Hb. pose proof (iterations_enough size Hsize) as HI.
    transitivity (sumn (iterations size nprof * items_per_it size) (val b)).
    - symmetry. rewrite sumn_flat. reflexivity.
    - replace (iterations size nprof * items_per_it size) with (nprof + (iterations size nprof * items_per_it size - nprof)) by lia.
      rewrite sumn_app. rewrite (sumn_zero (_ - _)).
      + rewrite Qcplus_0_r. unfold gather. apply sumn_ext. intros j Hj. unfold val. destruct (Nat.ltb_spec j nprof); [auto|lia].
      + intros j Hj. unfold val. destruct (Nat.ltb_spec (nprof + j) nprof); [lia|auto]. }
  destruct (elementwise (fun k => R_ Weights (zi k)) body npart (npart * 1) inside m) as [F V].
  - lia.
  - intros i j E. injection E. lia.
  - intros b Hb. unfold body, back_project_block.
    assert (G : forall n i s k, (forall q, gwithin (fun l => forall j, j <> b -> l <> R_ Weights (zi j))
        (fun l => l = R_ Weights (zi b)) (fun _ => False) (k q)) ->
      gwithin (fun l => forall j, j <> b -> l <> R_ Weights (zi j)) (fun l => l = R_ Weights (zi b)) (fun _ => False)
        (block_sums src size nprof b i n s k)).
    { induction n as [|n IH]; intros i s k Hk; cbn [block_sums]; auto. unfold block_sum. apply gather_within.
      - intros x k0 H0. destruct (x <? nprof); auto. cbn [gwithin]. split; [intros; discriminate|]. intros q.
        split; auto. intros j N E. destruct Hsrc as [-> | ->]; discriminate.
      - intros q. apply IH. auto. }
    apply G. intros q. cbn [gwithin]. split; [intros j N E; injection E; lia|]. auto.
  - intros b Hb. unfold body, back_project_block.
    apply (proj2 (Sums b Hb (iterations size nprof) 0 0%Qc _)). cbn [safe]. repeat split; ins.
  - split; auto. intros m' Em. destruct (V m' Em) as [V1 V2]. split.
    + intros b Hb. rewrite V1 by auto. unfold body, back_project_block.
      rewrite (proj1 (Sums b Hb (iterations size nprof) 0 0%Qc _)). rewrite (Agg b Hb). cbn [grun]. rewrite store_eq, HW by auto.
      f_equal. apply Qcplus_0_l.
    + intros l Hl. apply V2. intros k Hk. apply Hl.
Qed.
End Kernels.
