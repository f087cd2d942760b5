(** The reconstruction with parallel loops. *)
From Coq Require Import List ZArith Bool Lia Arith QArith Qcanon Permutation.
From Verif Require Import Base.Res Base.ResLemmas Base.QcLib Base.QcLemmas Base.Loops Model.MRecon Model.MTrack Model.MOmp Spec.OmpSpec
  Proof.POmp Proof.POmp2 Proof.POmp3.
Import ListNotations.
Local Open Scope nat_scope.

Ltac inv1 H := let x := fresh "x" in let E := fresh "E" in apply bind_ok in H; destruct H as (x & E & H).
Implicit Types (m : mem Qc).

(** The row that owns an element. *)
Definition own_row (a : arr) (nb : nat) (l : loc) : option nat :=
  match l with R_ b k => if arr_eq_dec a b then Some (Z.to_nat (k / zi nb)) else None | I_ _ _ => None end.
Lemma row_div : forall nb i j, j < nb -> Z.to_nat (zi (i * nb + j) / zi nb) = i.
Proof.
  intros nb i j H. rewrite Nat2Z.inj_add, Nat2Z.inj_mul, Z.div_add_l by lia.
  rewrite Z.div_small by lia. rewrite Z.add_0_r. apply Nat2Z.id.
Qed.
Lemma own_row_eq : forall a nb i j, j < nb -> own_row a nb (R_ a (zi (i * nb + j))) = Some i.
Proof. intros. unfold own_row. destruct (arr_eq_dec a a); [|congruence]. rewrite row_div; auto. Qed.
Lemma own_row_neq : forall a b nb k, a <> b -> own_row a nb (R_ b k) = None.
Proof. intros. unfold own_row. destruct (arr_eq_dec a b); [congruence|auto]. Qed.

(** back_project with the numbers of array a. *)
Definition bp_par (a : arr) (npart nprof : nat) : list (prog Qc) :=
  par npart (fun i => ploop 0 nprof (fun j _ k =>
    Read (I_ Points (zi (i * nprof + j))) (fun q => Read (R_ a q) (fun v =>
    Read (R_ Weights (zi i)) (fun x => Write (R_ Weights (zi i)) (x + v)%Qc (k tt))))) tt (fun _ => Stop)).
Lemma bp_race_free : forall a npart nprof, a <> Weights -> race_free (bp_par a npart nprof).
Proof.
  intros a npart nprof N. apply (race_free_owner _ _ (own Weights)). intros i Hi. apply within_ploop; [intros; apply within_stop|].
  intros k u K Hk HK. apply within_read; [left; auto|intros]. apply within_read; [left; apply own_neq; auto|intros].
  apply within_read; [right; apply own_eq|intros]. apply within_write; [apply own_eq|]. apply HK.
Qed.
Lemma bp_ok : forall a npart nprof m m' w fp prof w', a <> Weights ->
  holds_r m Weights w -> holds_i m Points fp -> holds_r m a prof ->
  back_project w fp prof npart nprof = Ok w' -> ends (bp_par a npart nprof) m m' -> Inv1 Weights m w' m'.
Proof.
  intros a npart nprof m m' w fp prof w' N HW HF HP F E.
  eapply (par_result npart _ _ (Inv1 Weights m) _ w w' m m'); [| | |exact E|exact F|apply Inv1_init; auto].
  - apply bp_race_free. auto.
  - intros; eapply Inv1_ext; eauto.
  - intros i s s' m1 Hi H I. cbv beta in H.
    destruct (run_ploop _ _ (fun s (_ : unit) mm => Inv1 Weights m s mm) _
      (fun j _ k => Read (I_ Points (zi (i * nprof + j))) (fun q => Read (R_ a q) (fun v =>
        Read (R_ Weights (zi i)) (fun x => Write (R_ Weights (zi i)) (x + v)%Qc (k tt))))) nprof 0 s s' tt m1 (fun _ => Stop) H I) as (u & m2 & I2 & R2).
    + intros k t t' u mm K Hk Ht It. inv1 Ht. inv1 Ht. inv1 Ht. exists tt. eexists. split; [|].
      2:{ cbn [run]. rewrite (Inv1_readi _ _ _ _ _ _ _ _ It HF ltac:(discriminate) E0).
          rewrite (Inv1_read _ _ _ _ _ _ _ _ It HP ltac:(congruence) E1), (Inv1_get _ _ _ _ _ _ It E2). reflexivity. }
      eapply Inv1_store; eauto.
    + rewrite R2. exact I2.
Qed.

Lemma clip_race_free : forall n c, race_free (clip_par n c).
Proof.
  intros n c. apply (race_free_owner _ _ (own Weights)). intros i Hi. apply within_read; [right; apply own_eq|intros x].
  cbv beta. destruct (qltb x c); [|apply within_stop]. apply within_write; [apply own_eq|apply within_stop].
Qed.
Lemma clip_ok : forall n c m m' w w', holds_r m Weights w -> clip w n c = Ok w' -> ends (clip_par n c) m m' -> Inv1 Weights m w' m'.
Proof.
  intros n c m m' w w' HW F E.
  eapply (par_result n _ _ (Inv1 Weights m) _ w w' m m'); [| | |exact E|exact F|apply Inv1_init; auto].
  - apply clip_race_free.
  - intros; eapply Inv1_ext; eauto.
  - intros i s s' m1 Hi H I. cbv beta in H. inv1 H. cbn [run]. rewrite (Inv1_get _ _ _ _ _ _ I E0).
    destruct (qltb x c); cbn [run]; [eapply Inv1_store; eauto|congruence].
Qed.
Lemma zeros_race_free : forall n, race_free (zeros_to_ones_par n).
Proof.
  intros n. apply (race_free_owner _ _ (own Rparts)). intros i Hi. apply within_read; [right; apply own_eq|intros x].
  cbv beta. destruct (qeqb x 0); [|apply within_stop]. apply within_write; [apply own_eq|apply within_stop].
Qed.
Lemma zeros_ok : forall n m m' w w', holds_r m Rparts w ->
  for_ 0 n (fun i rparts => x <- get rparts (zi i) ;; if qeqb x 0 then set rparts (zi i) 1%Qc else Ok rparts) w = Ok w' ->
  ends (zeros_to_ones_par n) m m' -> Inv1 Rparts m w' m'.
Proof.
  intros n m m' w w' HW F E.
  eapply (par_result n _ _ (Inv1 Rparts m) _ w w' m m'); [| | |exact E|exact F|apply Inv1_init; auto].
  - apply zeros_race_free.
  - intros; eapply Inv1_ext; eauto.
  - intros i s s' m1 Hi H I. cbv beta in H. inv1 H. cbn [run]. rewrite (Inv1_get _ _ _ _ _ _ I E0).
    destruct (qeqb x 0); cbn [run]; [eapply Inv1_store; eauto|congruence].
Qed.
Lemma diff_race_free : forall n, race_free (difference_par n).
Proof.
  intros n. apply (race_free_owner _ _ (own Diff)). intros i Hi.
  apply within_read; [left; apply own_neq; discriminate|intros]. apply within_read; [left; apply own_neq; discriminate|intros].
  apply within_write; [apply own_eq|apply within_stop].
Qed.
Lemma diff_ok : forall n m m' diff rec prof diff', holds_r m Diff diff -> holds_r m Rec rec -> holds_r m Profs prof ->
  find_difference_profile diff rec prof n = Ok diff' -> ends (difference_par n) m m' -> Inv1 Diff m diff' m'.
Proof.
  intros n m m' diff rec prof diff' HD HR HP F E.
  eapply (par_result n _ _ (Inv1 Diff m) _ diff diff' m m'); [| | |exact E|exact F|apply Inv1_init; auto].
  - apply diff_race_free.
  - intros; eapply Inv1_ext; eauto.
  - intros i s s' m1 Hi H I. cbv beta in H. inv1 H. inv1 H. cbn [run].
    rewrite (Inv1_read _ _ _ _ _ _ _ _ I HP ltac:(discriminate) E0), (Inv1_read _ _ _ _ _ _ _ _ I HR ltac:(discriminate) E1).
    eapply Inv1_store; eauto.
Qed.
Lemma comp_race_free : forall nprof nbins, race_free (compensate_par nprof nbins).
Proof.
  intros nprof nbins. apply (race_free_owner _ _ (own_row Diff nbins)). intros i Hi. apply within_ploop; [intros; apply within_stop|].
  intros k u K Hk HK. apply within_read; [right; apply own_row_eq; lia|intros]. apply within_read; [left; apply own_row_neq; discriminate|intros].
  apply within_write; [apply own_row_eq; lia|]. apply HK.
Qed.
Lemma comp_ok : forall nprof nbins m m' diff rparts diff', holds_r m Diff diff -> holds_r m Rparts rparts ->
  compensate_particle_amount diff rparts nprof nbins = Ok diff' -> ends (compensate_par nprof nbins) m m' -> Inv1 Diff m diff' m'.
Proof.
  intros nprof nbins m m' diff rparts diff' HD HR F E.
  eapply (par_result nprof _ _ (Inv1 Diff m) _ diff diff' m m'); [| | |exact E|exact F|apply Inv1_init; auto].
  - apply comp_race_free.
  - intros; eapply Inv1_ext; eauto.
  - intros i s s' m1 Hi H I. cbv beta in H.
    destruct (run_ploop _ _ (fun s (_ : unit) mm => Inv1 Diff m s mm) _
      (fun j _ k => Read (R_ Diff (zi (i * nbins + j))) (fun x => Read (R_ Rparts (zi (i * nbins + j))) (fun r =>
        Write (R_ Diff (zi (i * nbins + j))) (x * r)%Qc (k tt)))) nbins 0 s s' tt m1 (fun _ => Stop) H I) as (u & m2 & I2 & R2).
    + intros k t t' u mm K Hk Ht It. inv1 Ht. inv1 Ht. exists tt. eexists. split; [|].
      2:{ cbn [run]. rewrite (Inv1_get _ _ _ _ _ _ It E0), (Inv1_read _ _ _ _ _ _ _ _ It HR ltac:(discriminate) E1). reflexivity. }
      eapply Inv1_store; eauto.
    + rewrite R2. exact I2.
Qed.

(** The loop that normalizes. *)
Definition own_norm (nb : nat) (l : loc) : option nat :=
  match l with R_ Rec k => Some (Z.to_nat (k / zi nb)) | R_ Partial k => Some (Z.to_nat k) | _ => None end.
Definition norm_body (nbins i : nat) : prog Qc :=
    ploop 0 nbins (fun j s k => Read (R_ Rec (zi (i * nbins + j))) (fun x => k (s + x)%Qc)) 0%Qc (fun s =>
    ploop 0 nbins (fun j _ k => Read (R_ Rec (zi (i * nbins + j))) (fun x =>
      Write (R_ Rec (zi (i * nbins + j))) (x / s)%Qc (k tt))) tt (fun _ =>
    Write (R_ Partial (zi i)) s Stop)).
Lemma norm_within : forall nbins i,
  within (fun l => own_norm nbins l = None \/ own_norm nbins l = Some i) (fun l => own_norm nbins l = Some i) (norm_body nbins i).
Proof.
  intros nbins i. unfold norm_body. apply within_ploop.
  - intros s. apply within_ploop.
    + intros _. apply within_write; [|apply within_stop]. cbn. rewrite Nat2Z.id. auto.
    + intros k u K Hk HK. apply within_read; [right; cbn [own_norm]; rewrite row_div by lia; auto|intros].
      apply within_write; [cbn [own_norm]; rewrite row_div by lia; auto|]. apply HK.
  - intros k u K Hk HK. apply within_read; [right; cbn [own_norm]; rewrite row_div by lia; auto|intros]. apply HK.
Qed.
Lemma norm_race_free : forall nprof nbins, race_free (normalize_par nprof nbins).
Proof. intros. apply (race_free_owner _ _ (own_norm nbins)). intros. apply norm_within. Qed.

Lemma owner_value : forall n (body : nat -> prog Qc) (owner : loc -> option nat) m m' i l,
  (forall i, i < n -> within (fun l => owner l = None \/ owner l = Some i) (fun l => owner l = Some i) (body i)) ->
  ends (par n body) m m' -> i < n -> owner l = Some i -> m' l = run (body i) m l.
Proof.
  intros n body owner m m' i l H E Hi O.
  destruct (ends_value (fun i l => owner l = Some i) (par n body) m m') as [V _]; auto.
  - intros a b x A B. congruence.
  - intros k p Ek. apply par_nth in Ek. destruct Ek as [Hk ->]. eapply within_mono; [| |apply H; exact Hk]; cbv beta; auto.
    intros x [A|A] j N; congruence.
  - apply (V i); auto. unfold par. rewrite nth_error_map, (nth_error_nth' _ 0) by (rewrite seq_length; auto).
    rewrite seq_nth by auto. reflexivity.
Qed.

Lemma run_rowsum : forall m base n i s K,
  run (ploop i n (fun j s k => Read (R_ Rec (zi (base + j))) (fun x => k (s + x)%Qc)) s K) m =
  run (K (s + sumn n (fun j => m (R_ Rec (zi (base + (i + j))))))%Qc) m.
Proof.
  intros m base n i s K. revert i s. induction n; intros i s; cbn [ploop].
  - cbn [sumn]. rewrite Qcplus_0_r. reflexivity.
  - cbn [run]. rewrite IHn. f_equal. f_equal. rewrite <- Nat.add_1_l with (n := n), sumn_app. cbn [sumn].
    rewrite Nat.add_0_r, Qcplus_0_l, Qcplus_assoc. f_equal. apply sumn_ext. intros. replace (base + (S i + i0)) with (base + (i + (1 + i0))) by lia. auto.
Qed.
Lemma run_any : forall (body : nat -> unit -> (unit -> prog Qc) -> prog Qc) n i m K,
  (forall k m K, exists m', run (body k tt K) m = run (K tt) m') ->
  exists m', run (ploop i n body tt K) m = run (K tt) m'.
Proof.
  intros body n. induction n; intros i m K H; cbn [ploop]; eauto.
  destruct (H i m (fun s' => ploop (S i) n body s' K)) as (m1 & R). rewrite R. apply IHn. auto.
Qed.
Lemma norm_partial : forall nprof nbins m m' i, ends (normalize_par nprof nbins) m m' -> i < nprof ->
  m' (R_ Partial (zi i)) = sumn nbins (fun j => m (R_ Rec (zi (i * nbins + j)))).
Proof.
  intros nprof nbins m m' i E Hi.
  rewrite (owner_value nprof (norm_body nbins) (own_norm nbins) m m' i); auto using norm_within.
  - unfold norm_body. rewrite run_rowsum.
    destruct (run_any (fun j _ k => Read (R_ Rec (zi (i * nbins + j))) (fun x =>
      Write (R_ Rec (zi (i * nbins + j))) (x / (0 + sumn nbins (fun j => m (R_ Rec (zi (i * nbins + (0 + j)))))))%Qc (k tt))) nbins 0 m
      (fun _ => Write (R_ Partial (zi i)) (0 + sumn nbins (fun j => m (R_ Rec (zi (i * nbins + (0 + j))))))%Qc Stop)) as (m1 & R).
    + intros. eexists. cbn [run]. reflexivity.
    + rewrite R. cbn [run]. rewrite store_eq. apply Qcplus_0_l.
  - cbn. rewrite Nat2Z.id. auto.
Qed.

Definition InvN m0 (st : list Qc * Qc * bool) m : Prop :=
  let '(rec, total, fin) := st in
  (fin = false \/ holds_r m Rec rec) /\ only_changes (fun a => a = Rec \/ a = Partial) m0 m.
Lemma norm_ok : forall nprof nbins m m' rec rec', holds_r m Rec rec -> normalize rec nprof nbins = Ok rec' ->
  ends (normalize_par nprof nbins) m m' -> holds_r m' Rec rec' /\ only_changes (fun a => a = Rec \/ a = Partial) m m'.
Proof.
  intros nprof nbins m m' rec rec' HR F E. unfold normalize in F. apply bind_ok in F. destruct F as ([[r t] fin] & F & G).
  assert (I : InvN m (r, t, fin) m').
  { eapply (par_result nprof (norm_body nbins) _ (InvN m) _ (rec, 0%Qc, true) (r, t, fin) m m'); [| | |exact E|exact F|].
    - apply norm_race_free.
    - intros [[r1 t1] f1] m1 m2 [I O] X. split; [destruct I as [I|I]; [auto|right; eapply holds_r_ext; eauto]|].
      intros l N. rewrite X. auto.
    - intros k [[r1 t1] f1] [[r2 t2] f2] m1 Hk H [I O].
      assert (OO : only_changes (fun a => a = Rec \/ a = Partial) m (run (norm_body nbins k) m1)).
      { intros l N. rewrite (run_outside _ _ _ (norm_within nbins k)); auto. cbv beta. intros C. destruct l as [a z|a z]; cbn in C; [|discriminate].
        destruct a; try discriminate; apply N; cbn; auto. }
      cbn [InvN]. split; auto. inv1 H.
      destruct (qeqb x 0) eqn:Q.
      + injection H as <- <- <-. auto.
      + inv1 H. injection H as <- <- <-. destruct I as [I|I]; auto. right.
        unfold norm_body.
        destruct (run_ploop _ _ (fun s u mm => u = s /\ mm = m1) _
          (fun j s k0 => Read (R_ Rec (zi (k * nbins + j))) (fun x => k0 (s + x)%Qc)) nbins 0 0%Qc x 0%Qc m1
          (fun s => ploop 0 nbins (fun j _ k0 => Read (R_ Rec (zi (k * nbins + j))) (fun x =>
             Write (R_ Rec (zi (k * nbins + j))) (x / s)%Qc (k0 tt))) tt (fun _ => Write (R_ Partial (zi k)) s Stop)) E0) as (u & m2 & [-> ->] & R2).
        * auto.
        * intros j s s' u mm K Hj Hs [-> ->]. cbv beta in Hs. inv1 Hs. injection Hs as <-. eexists. exists m1. split; [split; reflexivity|].
          cbn [run]. rewrite (I _ _ E2). reflexivity.
        * rewrite R2.
          destruct (run_ploop _ _ (fun s (_ : unit) mm => holds_r mm Rec s) _
            (fun j _ k0 => Read (R_ Rec (zi (k * nbins + j))) (fun x0 =>
             Write (R_ Rec (zi (k * nbins + j))) (x0 / x)%Qc (k0 tt))) nbins 0 r1 x0 tt m1 (fun _ => Write (R_ Partial (zi k)) x Stop) E1 I) as (u & m3 & I3 & R3).
          { intros j s s' u mm K Hj Hs Is. cbv beta in Hs. inv1 Hs. exists tt. eexists. split; [|].
            2:{ cbn [run]. rewrite (Is _ _ E2). reflexivity. } eapply holds_r_store; eauto. }
          rewrite R3. cbn [run]. apply holds_r_other; [auto|congruence].
    - split; auto. intros l _. reflexivity. }
  destruct (qleb t 0); [discriminate|]. destruct fin; [|discriminate]. injection G as <-.
  destruct I as [[C|I] O]; [discriminate|auto].
Qed.

(** Any grouping of the partial sums has the same sum. *)
Lemma norm_sum : forall nprof nbins m m' rec groups, holds_r m Rec rec -> length rec = nprof * nbins ->
  ends (normalize_par nprof nbins) m m' -> Permutation (concat groups) (seq 0 nprof) ->
  qsum (map (fun g => qsum (map (fun i => m' (R_ Partial (zi i))) g)) groups) = qsum rec.
Proof.
  intros nprof nbins m m' rec groups HR L E P.
  assert (C : forall (f : nat -> Qc) gs, qsum (map (fun g => qsum (map f g)) gs) = qsum (map f (concat gs))).
  { intros f gs. induction gs; cbn; auto. rewrite map_app, qsum_app, IHgs. auto. }
  rewrite C. rewrite (qsum_perm _ (map (fun i => m' (R_ Partial (zi i))) (seq 0 nprof))) by (apply Permutation_map; auto).
  rewrite qsum_sumn. rewrite map_length, seq_length. rewrite qsum_sumn, L, sumn_flat. apply sumn_ext. intros i Hi.
  rewrite (nth_indep _ 0%Qc (m' (R_ Partial (zi 0)))) by (rewrite map_length, seq_length; auto).
  rewrite (map_nth (fun i => m' (R_ Partial (zi i))) (seq 0 nprof) 0 i), seq_nth by auto. cbn [Nat.add].
  rewrite (norm_partial nprof nbins m m' i E Hi). apply sumn_ext. intros j Hj. apply HR.
  apply get_nat. apply nth_error_nth'. nia.
Qed.

(** The serial parts. *)
Lemma project_ok : forall npart nprof m m' rec fp w rec', holds_r m Rec rec -> holds_i m Points fp -> holds_r m Weights w ->
  project rec fp w npart nprof = Ok rec' -> ends [project_seq npart nprof] m m' -> Inv1 Rec m rec' m'.
Proof.
  intros npart nprof m m' rec fp w rec' HR HF HW F E.
  assert (EQ := single_result _ _ _ E). apply (Inv1_ext _ _ _ (run (project_seq npart nprof) m)); [|auto].
  unfold project_seq, project in *.
  destruct (run_ploop _ _ (fun s (_ : unit) mm => Inv1 Rec m s mm) _
    (fun i _ k => ploop 0 nprof (fun j _ k => Read (I_ Points (zi (i * nprof + j))) (fun q => Read (R_ Weights (zi i)) (fun w =>
      Read (R_ Rec q) (fun x => Write (R_ Rec q) (x + w)%Qc (k tt))))) tt k) npart 0 rec rec' tt m (fun _ => Stop) F (Inv1_init _ _ _ HR)) as (u & m2 & I2 & R2).
  - intros i s s' u mm K Hi Hs Is. cbv beta in Hs.
    destruct (run_ploop _ _ (fun s (_ : unit) mm => Inv1 Rec m s mm) _
      (fun j _ k => Read (I_ Points (zi (i * nprof + j))) (fun q => Read (R_ Weights (zi i)) (fun w =>
      Read (R_ Rec q) (fun x => Write (R_ Rec q) (x + w)%Qc (k tt))))) nprof 0 s s' tt mm K Hs Is) as (u3 & m3 & I3 & R3).
    + intros j t t' u4 m4 K4 Hj Ht It. cbv beta in Ht. inv1 Ht. inv1 Ht. inv1 Ht. exists tt. eexists. split; [|].
      2:{ cbn [run]. rewrite (Inv1_readi _ _ _ _ _ _ _ _ It HF ltac:(discriminate) E0).
          rewrite (Inv1_read _ _ _ _ _ _ _ _ It HW ltac:(discriminate) E1), (Inv1_get _ _ _ _ _ _ It E2). reflexivity. }
      eapply Inv1_store; eauto.
    + exists u3, m3. split; auto.
  - rewrite R2. exact I2.
Qed.
Lemma discr_ok : forall sqrt it nprof nbins m m' diff discr d discr', holds_r m Diff diff -> holds_r m Discr discr ->
  discrepancy sqrt diff nprof nbins = Ok d -> set discr it d = Ok discr' ->
  ends [discrepancy_seq sqrt it nprof nbins] m m' -> Inv1 Discr m discr' m'.
Proof.
  intros sqrt it nprof nbins m m' diff discr d discr' HD HC F G E.
  assert (EQ := single_result _ _ _ E). apply (Inv1_ext _ _ _ (run (discrepancy_seq sqrt it nprof nbins) m)); [|auto].
  unfold discrepancy_seq, discrepancy in *. inv1 F. inv1 F. injection F as <-.
  apply qdiv_inv in E1. destruct E1 as [_ ->].
  destruct (run_ploop _ _ (fun s u mm => u = s /\ mm = m) _
    (fun i s k => Read (R_ Diff (zi i)) (fun x => k (s + x * x)%Qc)) (nprof * nbins) 0 0%Qc x 0%Qc m
    (fun s => Write (R_ Discr it) (sqrt (s / qn (nprof * nbins))%Qc) Stop) E0) as (u & m2 & [-> ->] & R2).
  - auto.
  - intros j s s' u mm K Hj Hs [-> ->]. cbv beta in Hs. inv1 Hs. injection Hs as <-. eexists. exists m. split; [split; reflexivity|].
    cbn [run]. rewrite (HD _ _ E1). reflexivity.
  - rewrite R2. cbn [run]. eapply Inv1_store; eauto. apply Inv1_init. auto.
Qed.

(** The whole routine. *)
Definition RH (fp : list Z) (prof rparts : list Qc) (w rec discr diff : list Qc) m : Prop :=
  holds_i m Points fp /\ holds_r m Profs prof /\ holds_r m Rparts rparts /\
  holds_r m Weights w /\ holds_r m Rec rec /\ holds_r m Discr discr /\ holds_r m Diff diff.

Lemma holds_i_only : forall (P : arr -> Prop) m m' a l, only_changes P m m' -> ~ P a -> holds_i m a l -> holds_i m' a l.
Proof. intros P m m' a l O N H i x G. rewrite O by exact N. auto. Qed.

Ltac keep O := first [eapply holds_i_only; [exact O|intros C; destruct C; discriminate|solve [eauto]] | eapply holds_only; [exact O|intros C; destruct C; discriminate|solve [eauto]]
  | eapply holds_i_only; [exact O|discriminate|solve [eauto]] | eapply holds_only; [exact O|discriminate|solve [eauto]]].

Section Recon.
Variables (fp : list Z) (prof rparts : list Qc).
Notation H := (RH fp prof rparts).
Lemma RH_w : forall w rec discr diff w' m m', H w rec discr diff m -> Inv1 Weights m w' m' -> H w' rec discr diff m'.
Proof. intros w rec discr diff w' m m' (A1 & A2 & A3 & A4 & A5 & A6 & A7) [I O]. repeat (split; [first [exact I|keep O]|]). first [exact I|keep O]. Qed.
Lemma RH_rec : forall w rec discr diff rec' m m', H w rec discr diff m -> Inv1 Rec m rec' m' -> H w rec' discr diff m'.
Proof. intros w rec discr diff w' m m' (A1 & A2 & A3 & A4 & A5 & A6 & A7) [I O]. repeat (split; [first [exact I|keep O]|]). first [exact I|keep O]. Qed.
Lemma RH_discr : forall w rec discr diff discr' m m', H w rec discr diff m -> Inv1 Discr m discr' m' -> H w rec discr' diff m'.
Proof. intros w rec discr diff w' m m' (A1 & A2 & A3 & A4 & A5 & A6 & A7) [I O]. repeat (split; [first [exact I|keep O]|]). first [exact I|keep O]. Qed.
Lemma RH_diff : forall w rec discr diff diff' m m', H w rec discr diff m -> Inv1 Diff m diff' m' -> H w rec discr diff' m'.
Proof. intros w rec discr diff w' m m' (A1 & A2 & A3 & A4 & A5 & A6 & A7) [I O]. repeat (split; [first [exact I|keep O]|]). first [exact I|keep O]. Qed.
Lemma RH_norm : forall w rec discr diff rec' m m', H w rec discr diff m -> holds_r m' Rec rec' -> only_changes (fun a => a = Rec \/ a = Partial) m m' ->
  H w rec' discr diff m'.
Proof. intros w rec discr diff w' m m' (A1 & A2 & A3 & A4 & A5 & A6 & A7) I O. repeat (split; [first [exact I|keep O]|]). first [exact I|keep O]. Qed.

Variables (sqrt : Qc -> Qc) (nbins npart nprof : nat).

Lemma measure_ok : forall it w rec discr diff m m' rec1 rec2 diff1 d discr1, H w rec discr diff m ->
  project rec fp w npart nprof = Ok rec1 -> normalize rec1 nprof nbins = Ok rec2 ->
  find_difference_profile diff rec2 prof (nprof * nbins) = Ok diff1 -> discrepancy sqrt diff1 nprof nbins = Ok d -> set discr it d = Ok discr1 ->
  routine_ends [[project_seq npart nprof]; normalize_par nprof nbins; difference_par (nprof * nbins); [discrepancy_seq sqrt it nprof nbins]] m m' ->
  H w rec2 discr1 diff1 m'.
Proof.
  intros it w rec discr diff m m' rec1 rec2 diff1 d discr1 HH E1 E2 E3 E4 E5 RE.
  apply routine_cons in RE. destruct RE as (m1 & R1 & RE). apply routine_cons in RE. destruct RE as (m2 & R2 & RE).
  apply routine_cons in RE. destruct RE as (m3 & R3 & RE). apply routine_cons in RE. destruct RE as (m4 & R4 & RE).
  apply routine_nil in RE. subst m'.
  assert (H1 : H w rec1 discr diff m1). { eapply RH_rec; eauto. destruct HH as (A1 & A2 & A3 & A4 & A5 & A6 & A7). eapply project_ok; eauto. }
  assert (H2 : H w rec2 discr diff m2).
  { assert (H1' := H1). destruct H1' as (A1 & A2 & A3 & A4 & A5 & A6 & A7). destruct (norm_ok nprof nbins m1 m2 rec1 rec2); auto. eapply RH_norm; eauto. }
  assert (H3 : H w rec2 discr diff1 m3). { eapply RH_diff; eauto. destruct H2 as (A1 & A2 & A3 & A4 & A5 & A6 & A7). eapply diff_ok; eauto. }
  eapply RH_discr; eauto. destruct H3 as (A1 & A2 & A3 & A4 & A5 & A6 & A7). eapply discr_ok; eauto.
Qed.

Lemma iteration_ok : forall niter it s s' m m', H (r_weights s) (r_rec s) (r_discr s) (r_diff s) m ->
  iteration sqrt fp prof rparts niter nbins npart nprof it s = Ok s' ->
  routine_ends (iteration_routine sqrt nbins npart nprof it) m m' -> H (r_weights s') (r_rec s') (r_discr s') (r_diff s') m'.
Proof.
  intros niter it s s' m m' HH E RE. unfold iteration in E. do 9 inv1 E. injection E as <-. cbn [r_weights r_rec r_discr r_diff].
  change (iteration_routine sqrt nbins npart nprof it) with
    ([[project_seq npart nprof]; normalize_par nprof nbins; difference_par (nprof * nbins); [discrepancy_seq sqrt (zi it) nprof nbins]] ++
     [compensate_par nprof nbins; bp_par Diff npart nprof; clip_par npart 0]) in RE.
  apply routine_app in RE. destruct RE as (m1 & R1 & RE).
  assert (H1 := measure_ok _ _ _ _ _ _ _ _ _ _ _ _ HH E0 E1 E2 E3 E4 R1).
  apply routine_cons in RE. destruct RE as (m2 & R2 & RE).
  apply routine_cons in RE. destruct RE as (m3 & R3 & RE). apply routine_cons in RE. destruct RE as (m4 & R4 & RE).
  apply routine_nil in RE. subst m'.
  assert (H2 : H (r_weights s) x0 x3 x4 m2). { eapply RH_diff; eauto. destruct H1 as (A1 & A2 & A3 & A4 & A5 & A6 & A7). eapply comp_ok; eauto. }
  assert (H3 : H x5 x0 x3 x4 m3). { eapply RH_w; eauto. destruct H2 as (A1 & A2 & A3 & A4 & A5 & A6 & A7). apply (bp_ok Diff npart nprof m2 m3 (r_weights s) fp x4 x5); auto. discriminate. }
  eapply RH_w; eauto. destruct H3 as (A1 & A2 & A3 & A4 & A5 & A6 & A7). eapply clip_ok; eauto.
Qed.

Lemma iterations_ok : forall niter n i s s' m m', H (r_weights s) (r_rec s) (r_discr s) (r_diff s) m ->
  for_ i n (iteration sqrt fp prof rparts niter nbins npart nprof) s = Ok s' ->
  routine_ends (flat_map (iteration_routine sqrt nbins npart nprof) (seq i n)) m m' -> H (r_weights s') (r_rec s') (r_discr s') (r_diff s') m'.
Proof.
  intros niter. induction n; intros i s s' m m' HH E RE; cbn [for_ seq flat_map] in *.
  - injection E as <-. apply routine_nil in RE. subst. auto.
  - inv1 E. apply routine_app in RE. destruct RE as (m1 & R1 & RE). apply (IHn (S i) x s' m1 m'); auto. eapply iteration_ok; eauto.
Qed.
End Recon.

Lemma reconstruct_ok : forall sqrt rec0 xp prof niter nbins npart nprof rparts fp s m m',
  reconstruct sqrt rec0 xp prof niter nbins npart nprof = Ok s ->
  reciprocal_particles (repeat 0%Qc (nprof * nbins)) xp nbins nprof npart = Ok rparts ->
  create_flat_points xp npart nprof nbins = Ok fp ->
  RH fp prof rparts (repeat 0%Qc npart) rec0 (repeat 0%Qc (Z.to_nat (niter + 1))) (repeat 0%Qc (nprof * nbins)) m ->
  routine_ends (reconstruct_routine sqrt niter nbins npart nprof) m m' ->
  RH fp prof rparts (r_weights s) (r_rec s) (r_discr s) (r_diff s) m'.
Proof.
  intros sqrt rec0 xp prof niter nbins npart nprof rparts fp s m m' E ER EF HH RE. unfold reconstruct in E. cbv zeta in E.
  rewrite ER in E. cbn [bind] in E. rewrite EF in E. cbn [bind] in E. inv1 E. inv1 E. inv1 E. inv1 E. inv1 E. inv1 E. inv1 E. inv1 E. inv1 E.
  injection E as <-. cbn [r_weights r_rec r_discr r_diff]. unfold reconstruct_routine in RE.
  apply routine_app in RE. destruct RE as (m1 & R1 & RE). apply routine_app in RE. destruct RE as (m2 & R2 & RE).
  apply routine_cons in R1. destruct R1 as (m3 & R3 & R1). apply routine_cons in R1. destruct R1 as (m4 & R4 & R1). apply routine_nil in R1. subst m4.
  eapply measure_ok; eauto.
  eapply iterations_ok; [|exact E3|exact R2]. cbn [r_weights r_rec r_discr r_diff].
  eapply RH_w; [eapply RH_w; [exact HH|]|].
  - destruct HH as (A1 & A2 & A3 & A4 & A5 & A6 & A7). apply (bp_ok Profs npart nprof m m3 (repeat 0%Qc npart) fp prof x); auto. discriminate.
  - assert (H3 : RH fp prof rparts x rec0 (repeat 0%Qc (Z.to_nat (niter + 1))) (repeat 0%Qc (nprof * nbins)) m3).
    { eapply RH_w; [exact HH|]. destruct HH as (A1 & A2 & A3 & A4 & A5 & A6 & A7). apply (bp_ok Profs npart nprof m m3 (repeat 0%Qc npart) fp prof x); auto. discriminate. }
    destruct H3 as (A1 & A2 & A3 & A4 & A5 & A6 & A7). eapply clip_ok; eauto.
Qed.
