(** Calls of back_project, project and reconstruct. *)
From Coq Require Import List ZArith Bool QArith Qcanon String Lia.
From Verif Require Import Base.Res Base.ResLemmas Base.QcLib Base.QcLemmas Base.Loops Model.MBind Model.MRecon
  Model.MCalls Spec.ReconSpec Spec.CallsSpec Proof.PRecon Proof.PRecon2 Proof.PCalls Proof.PCalls2.
Import ListNotations.

Section Facts.
Variable single : Qc -> Qc.

Lemma load_exact : forall t h v r, nload single false t h v = Some r -> nload single true t h v = Some r.
Proof.
  intros t h v r. unfold nload. destruct t, v; auto; destruct (nth_error h l); auto.
  - destruct (fits (NFloats d) n); auto. discriminate.
  - destruct (fits NInts n); auto. discriminate.
Qed.

Lemma load_all_exact : forall ts h vs r,
  nload_all single false ts h vs = Some r -> nload_all single true ts h vs = Some r.
Proof.
  induction ts; intros h [|v vs] r E; cbn [nload_all] in *; auto.
  destruct (nload single false a h v) as [[h1 c]|] eqn:L; [|discriminate].
  rewrite (load_exact _ _ _ _ L).
  destruct (nload_all single false ts h1 vs) as [[h2 cs]|] eqn:M; [|discriminate].
  rewrite (IHts _ _ _ M). auto.
Qed.

Lemma choose_one : forall ts h vs,
  choose single [ts] h vs = first_version single true [ts] h vs.
Proof.
  intros. unfold choose. cbn [first_version].
  destruct (nload_all single false ts h vs) as [[h1 cs]|] eqn:E; auto.
  rewrite (load_all_exact _ _ _ _ E). auto.
Qed.

Lemma floats_at_old : forall t h a k v, floats_at h k = Ok v -> floats_at (put single t h a) k = Ok v.
Proof.
  intros t h a k v. unfold floats_at. destruct (nth_error h k) eqn:E; [|discriminate].
  rewrite (put_old _ _ _ _ _ _ E). auto.
Qed.

Lemma floats_double : forall h l a, nth_error h l = Some a ->
  floats_at (put single (NFloats F64) h a) (loc (NFloats F64) h l a) = Ok (values_of a).
Proof. intros. unfold floats_at. rewrite (loaded_double single h l a H). auto. Qed.

(** Flat indices that a C++ int holds. *)
Lemma flat_small : forall npart nprof nbins bin,
  (forall i j, (i < npart)%nat -> (j < nprof)%nat -> (bin i j < nbins)%nat) ->
  (Z.of_nat (nprof * nbins) < 2 ^ 31)%Z ->
  forall i j, (i < npart)%nat -> (j < nprof)%nat -> (Z.of_nat (j * nbins + bin i j) < 2 ^ 31)%Z.
Proof.
  intros. specialize (H i j H1 H2). assert (L := flat_lt nprof nbins j (bin i j) H2 H). lia.
Qed.

Lemma back_call : forall h lw lf lp aw af ap npart nprof nbins bin w f,
  nth_error h lw = Some aw -> nth_error h lf = Some af -> nth_error h lp = Some ap -> lw <> lp ->
  vector npart w (values_of aw) -> table nprof nbins f (values_of ap) ->
  holds_ints af npart nprof (fun i j => j * nbins + bin i j)%nat ->
  (forall i j, (i < npart)%nat -> (j < nprof)%nat -> (bin i j < nbins)%nat) ->
  counts [npart; nprof; nprof * nbins]%nat ->
  exists h' l' v,
    call_back_project single h [VArr lw; VArr lf; VArr lp; VInt (Z.of_nat npart); VInt (Z.of_nat nprof)] []
      = Ok (h', l') /\
    result_in h h' lw l' aw F64 v /\ vector npart (fun i => w i + gather nprof bin f i)%Qc v.
Proof.
  intros h lw lf lp aw af ap npart nprof nbins bin w f A B C _ VW TP X H N.
  assert (C1 := counts_Z npart _ N ltac:(cbn; auto)). assert (C2 := counts_Z nprof _ N ltac:(cbn; auto)).
  assert (C3 := counts_Z (nprof * nbins) _ N ltac:(cbn; auto)).
  unfold call_back_project.
  replace (arguments back_names [] _ []) with
    (Some [VArr lw; VArr lf; VArr lp; VInt (Z.of_nat npart); VInt (Z.of_nat nprof)]) by reflexivity.
  unfold back_versions. rewrite choose_one. cbn [first_version nload_all].
  set (h1 := put single (NFloats F64) h aw).
  assert (B1 : nth_error h1 lf = Some af) by (apply put_old; auto).
  set (h2 := put single NInts h1 af).
  assert (D2 : nth_error h2 lp = Some ap) by (apply put_old, put_old; auto).
  rewrite (load_floats single _ _ _ _ A). fold h1. rewrite (load_ints single _ _ _ B1). fold h2.
  rewrite (load_floats single _ _ _ _ D2).
  rewrite !load_Z by auto.
  assert (W : floats_at (put single (NFloats F64) h2 ap) (loc (NFloats F64) h lw aw) = Ok (values_of aw))
    by (apply floats_at_old, floats_at_old, floats_double; auto).
  rewrite W. cbn [bind].
  rewrite (ints_at_old single _ _ _ _ _ (loaded_ints single h1 lf af _ _ _ B1 X (flat_small _ _ _ _ H (proj2 C3)))).
  cbn [bind]. rewrite (floats_double h2 lp ap D2). cbn [bind]. rewrite !Nat2Z.id.
  rewrite (vector_tab _ _ _ _ VW), (table_tab _ _ _ _ _ TP).
  assert (E := back_project_tab npart nprof nbins bin H w f). unfold fpl in E. rewrite E. cbn [bind].
  do 3 eexists. split; [reflexivity|]. split; [|apply tab_vector].
  destruct (loc_floats F64 h lw aw) as [L1 L2].
  eapply write_result; eauto.
  - apply put_old, put_old. apply loaded_double. auto.
  - intros. apply put_old, put_old, put_old. auto.
Qed.

Lemma project_call : forall h lr lf lw ar af aw npart nprof nbins bin w f,
  nth_error h lr = Some ar -> nth_error h lf = Some af -> nth_error h lw = Some aw -> lr <> lw ->
  table nprof nbins f (values_of ar) -> vector npart w (values_of aw) ->
  holds_ints af npart nprof (fun i j => j * nbins + bin i j)%nat ->
  (forall i j, (i < npart)%nat -> (j < nprof)%nat -> (bin i j < nbins)%nat) ->
  counts [npart; nprof; nbins; nprof * nbins]%nat ->
  exists h' l' v,
    call_project single h
      [VArr lr; VArr lf; VArr lw; VInt (Z.of_nat npart); VInt (Z.of_nat nprof); VInt (Z.of_nat nbins)] []
      = Ok (h', l') /\
    result_in h h' lr l' ar F64 v /\ table nprof nbins (fun j b => f j b + histogram npart bin w j b)%Qc v.
Proof.
  intros h lr lf lw ar af aw npart nprof nbins bin w f A B C _ TP VW X H N.
  assert (C1 := counts_Z npart _ N ltac:(cbn; auto)). assert (C2 := counts_Z nprof _ N ltac:(cbn; auto)).
  assert (C3 := counts_Z nbins _ N ltac:(cbn; auto)). assert (C4 := counts_Z (nprof * nbins) _ N ltac:(cbn; auto)).
  unfold call_project.
  replace (arguments project_names [] _ []) with
    (Some [VArr lr; VArr lf; VArr lw; VInt (Z.of_nat npart); VInt (Z.of_nat nprof); VInt (Z.of_nat nbins)])
    by reflexivity.
  unfold project_versions. rewrite choose_one. cbn [first_version nload_all].
  set (h1 := put single (NFloats F64) h ar).
  assert (B1 : nth_error h1 lf = Some af) by (apply put_old; auto).
  set (h2 := put single NInts h1 af).
  assert (D2 : nth_error h2 lw = Some aw) by (apply put_old, put_old; auto).
  rewrite (load_floats single _ _ _ _ A). fold h1. rewrite (load_ints single _ _ _ B1). fold h2.
  rewrite (load_floats single _ _ _ _ D2).
  rewrite !load_Z by auto.
  assert (W : floats_at (put single (NFloats F64) h2 aw) (loc (NFloats F64) h lr ar) = Ok (values_of ar))
    by (apply floats_at_old, floats_at_old, floats_double; auto).
  rewrite W. cbn [bind].
  rewrite (ints_at_old single _ _ _ _ _ (loaded_ints single h1 lf af _ _ _ B1 X (flat_small _ _ _ _ H (proj2 C4)))).
  cbn [bind]. rewrite (floats_double h2 lw aw D2). cbn [bind]. rewrite !Nat2Z.id.
  rewrite (vector_tab _ _ _ _ VW), (table_tab _ _ _ _ _ TP).
  assert (E := project_tab npart nprof nbins bin H w f). unfold fpl in E. rewrite E. cbn [bind].
  do 3 eexists. split; [reflexivity|]. split; [|apply tab_table].
  destruct (loc_floats F64 h lr ar) as [L1 L2].
  eapply write_result; eauto.
  - apply put_old, put_old. apply loaded_double. auto.
  - intros. apply put_old, put_old, put_old. auto.
Qed.

(** reconstruct. *)
Lemma rec_choose : forall h lx lp ax ap d a b c e vb cb,
  nth_error h lx = Some ax -> nth_error h lp = Some ap -> precision_for d ap ax ->
  (0 <= a < 2 ^ 31)%Z -> (0 <= b < 2 ^ 31)%Z -> (0 <= c < 2 ^ 31)%Z -> (0 <= e < 2 ^ 31)%Z ->
  choose single reconstruct_versions h
    [VArr lx; VArr lp; VInt a; VInt b; VInt c; VInt e; VBool vb; cb] =
  match d with
  | F32 => Some (1%nat, h, [VArr lx; VArr lp; VInt a; VInt b; VInt c; VInt e; VBool vb; cb])
  | F64 => Some (0%nat, put single (NFloats F64) (put single NInts h ax) ap,
      [VArr (loc NInts h lx ax); VArr (loc (NFloats F64) (put single NInts h ax) lp ap);
       VInt a; VInt b; VInt c; VInt e; VBool vb; cb])
  end.
Proof.
  intros h lx lp ax ap d a b c e vb cb B A P N1 N2 N3 N4. apply precision_dec in P.
  unfold choose, reconstruct_versions. cbn [first_version nload_all].
  rewrite !(exact_ints single _ _ _ B).
  assert (G : fits (NFloats F64) ap = true -> fits (NFloats F32) ap = true -> False).
  { intros E G. apply fits_floats in E. apply fits_floats in G. destruct E as (? & ? & ->), G as (? & ? & G). discriminate. }
  assert (Conv : nload single true (NFloats F64) (put single NInts h ax) (VArr lp) =
    Some (put single (NFloats F64) (put single NInts h ax) ap,
          VArr (loc (NFloats F64) (put single NInts h ax) lp ap))) by (apply load_floats, put_old; auto).
  destruct d.
  - destruct (fits NInts ax) eqn:F.
    + rewrite !(exact_floats single _ _ _ _ A). destruct (fits (NFloats F64) ap) eqn:E.
      * rewrite !load_Z by auto. unfold put, loc. rewrite F, E. destruct cb; auto.
      * rewrite andb_true_r in P. rewrite P. rewrite (load_ints single _ _ _ B), Conv, !load_Z by auto.
        destruct cb; auto.
    + rewrite (load_ints single _ _ _ B), Conv, !load_Z by auto. destruct cb; auto.
  - apply andb_prop in P. destruct P as [P Q]. rewrite Q. rewrite !(exact_floats single _ _ _ _ A), P.
    destruct (fits (NFloats F64) ap) eqn:E; [exfalso; auto|]. rewrite !load_Z by auto. destruct cb; auto.
Qed.

Lemma rec_loaded : forall h lx lp ax ap d a b c e vb cb npart nprof bin,
  nth_error h lx = Some ax -> nth_error h lp = Some ap -> precision_for d ap ax ->
  (0 <= a < 2 ^ 31)%Z -> (0 <= b < 2 ^ 31)%Z -> (0 <= c < 2 ^ 31)%Z -> (0 <= e < 2 ^ 31)%Z ->
  holds_ints ax npart nprof bin ->
  (forall i j, (i < npart)%nat -> (j < nprof)%nat -> (Z.of_nat (bin i j) < 2 ^ 31)%Z) ->
  exists v h1 x1 l1,
    choose single reconstruct_versions h
      [VArr lx; VArr lp; VInt a; VInt b; VInt c; VInt e; VBool vb; cb] =
      Some (v, h1, [VArr x1; VArr l1; VInt a; VInt b; VInt c; VInt e; VBool vb; cb]) /\
    match v with O => F64 | _ => F32 end = d /\
    ints_at h1 x1 = Ok (xpl npart nprof bin) /\ floats_at h1 l1 = Ok (values_of ap) /\
    (List.length h <= List.length h1)%nat /\
    (forall q b, nth_error h q = Some b -> nth_error h1 q = Some b).
Proof.
  intros h lx lp ax ap d a b c e vb cb npart nprof bin B A P N1 N2 N3 N4 X S.
  assert (C := rec_choose h lx lp ax ap d a b c e vb cb B A P N1 N2 N3 N4).
  assert (LI := loaded_ints single h lx ax npart nprof bin B X S). destruct d.
  - do 4 eexists. split; [exact C|]. split; [auto|].
    split; [apply ints_at_old; exact LI|]. split; [apply floats_double, put_old; auto|].
    split; [|intros; apply put_old, put_old; auto].
    eapply Nat.le_trans; apply put_len.
  - do 4 eexists. split; [exact C|]. split; [auto|]. destruct P as [(_ & F & I)|(E & _)]; [|discriminate].
    unfold put, loc in LI. rewrite (proj2 (fits_ints ax) I) in LI.
    split; [exact LI|]. split; [|auto].
    destruct F as (s & v & ->). unfold floats_at. rewrite A. auto.
Qed.

Lemma reconstruct_call : forall (sqrt : Qc -> Qc) h lx lp ax ap d niter npart nprof nbins bin f kw,
  nth_error h lx = Some ax -> nth_error h lp = Some ap -> precision_for d ap ax ->
  holds_ints ax npart nprof bin -> table nprof nbins f (values_of ap) ->
  (forall i j, (i < npart)%nat -> (j < nprof)%nat -> (bin i j < nbins)%nat) ->
  counts [niter; nbins; npart; nprof] ->
  (kw = [] \/ exists vb cb, kw = [("verbose"%string, VBool vb); ("callback"%string, cb)]) ->
  let call := call_reconstruct single sqrt h
    [VArr lx; VArr lp; VInt (Z.of_nat niter); VInt (Z.of_nat nbins); VInt (Z.of_nat npart);
     VInt (Z.of_nat nprof)] kw in
  ((forall k, (k <= niter)%nat -> 0 < total npart (weights_after npart nprof nbins bin f true k))%Qc /\
   exists h' lw ld lr vw vd vr,
    call = Ok (h', (lw, ld, lr)) /\
    (forall k b, nth_error h k = Some b -> nth_error h' k = Some b) /\
    (List.length h <= lw)%nat /\ (List.length h <= ld)%nat /\ (List.length h <= lr)%nat /\
    lw <> ld /\ lw <> lr /\ ld <> lr /\
    nth_error h' lw = Some (NArr [npart] true (Floats d vw)) /\
    nth_error h' ld = Some (NArr [niter + 1]%nat true (Floats d vd)) /\
    nth_error h' lr = Some (NArr [nprof; nbins] true (Floats d vr)) /\
    vector npart (weights_after npart nprof nbins bin f true niter) vw /\
    vector (niter + 1) (fun k => sqrt (mean_square nprof nbins f (recreated_after npart nprof nbins bin f true k))) vd /\
    table nprof nbins (recreated_after npart nprof nbins bin f true niter) vr) \/
  ((exists k, (k <= niter)%nat /\
     forall i, (i < npart)%nat -> weights_after npart nprof nbins bin f true k i = 0%Qc) /\
   call = Fail (Raised RuntimeError)).
Proof.
  intros sqrt h lx lp ax ap d niter npart nprof nbins bin f kw B A P X T H N KW. cbv zeta.
  assert (C0 := counts_Z niter _ N ltac:(cbn; auto)).
  assert (C1 := counts_Z npart _ N ltac:(cbn; auto)). assert (C2 := counts_Z nprof _ N ltac:(cbn; auto)).
  assert (C3 := counts_Z nbins _ N ltac:(cbn; auto)).
  assert (AR : exists vb cb, arguments reconstruct_names reconstruct_defaults
    [VArr lx; VArr lp; VInt (Z.of_nat niter); VInt (Z.of_nat nbins); VInt (Z.of_nat npart); VInt (Z.of_nat nprof)] kw =
    Some [VArr lx; VArr lp; VInt (Z.of_nat niter); VInt (Z.of_nat nbins); VInt (Z.of_nat npart); VInt (Z.of_nat nprof);
          VBool vb; cb]).
  { destruct KW as [->|(vb & cb & ->)]; [exists false, VNone|exists vb, cb]; reflexivity. }
  destruct AR as (vb & cb & AR). unfold call_reconstruct. rewrite AR.
  destruct (rec_loaded h lx lp ax ap d (Z.of_nat niter) (Z.of_nat nbins) (Z.of_nat npart) (Z.of_nat nprof) vb cb npart nprof bin
    B A P C0 C3 C1 C2 X) as (v & h1 & x1 & l1 & E & D & I & F & LE & O).
  { intros i j Hi Hj. specialize (H i j Hi Hj). lia. }
  rewrite E. rewrite D. cbv zeta. rewrite I. cbn [bind]. rewrite F. cbn [bind]. rewrite !Nat2Z.id.
  rewrite (table_tab _ _ _ _ _ T).
  destruct (reconstruct_spec npart nprof nbins bin f H sqrt (Z.of_nat niter) (proj1 C0)) as [[G R]|[G R]];
    rewrite Nat2Z.id in G; rewrite R; cbn [bind]; [left|right].
  - split; [exact G|]. do 7 eexists. split; [reflexivity|].
    set (a1 := NArr [npart] _ _). set (a2 := NArr [Z.to_nat _] _ _). set (a3 := NArr [nprof; nbins] _ _).
    split. { intros k b K. rewrite nth_error_app1; auto. apply nth_error_Some. rewrite (O _ _ K). discriminate. }
    do 3 (split; [lia|]). do 3 (split; [lia|]).
    split. { rewrite nth_error_app2 by lia. rewrite Nat.sub_diag. reflexivity. }
    split. { rewrite nth_error_app2 by lia. replace (S (List.length h1) - List.length h1)%nat with 1%nat by lia.
      subst a2. replace (Z.to_nat (Z.of_nat niter + 1)) with (niter + 1)%nat by lia. reflexivity. }
    split. { rewrite nth_error_app2 by lia. replace (S (S (List.length h1)) - List.length h1)%nat with 2%nat by lia. reflexivity. }
    unfold final_state. cbn [r_weights r_discr r_rec]. rewrite Nat2Z.id.
    split; [apply tab_vector|]. split; [|apply tab_table].
    rewrite Nat.add_1_r. apply tab_vector.
  - split; auto.
Qed.
End Facts.
