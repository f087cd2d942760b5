(** Calls of the compiled reconstruction routines. *)
From Coq Require Import List ZArith Bool QArith Qcanon String Lia.
From Verif Require Import Base.Res Base.ResLemmas Base.QcLib Base.QcLemmas Base.Loops Model.MBind Model.MRecon
  Model.MCalls Spec.ReconSpec Spec.CallsSpec Proof.PRecon Proof.PRecon2 Proof.PCalls.
Import ListNotations.

Section Facts.
Variable single : Qc -> Qc.

Lemma precision_dec : forall d a b, precision_for d a b ->
  match d with F32 => fits (NFloats F32) a && fits NInts b = true
             | F64 => fits (NFloats F32) a && fits NInts b = false end.
Proof.
  intros d a b [(-> & A & B)|(-> & H)].
  - apply fits_floats in A. apply fits_ints in B. rewrite A, B. auto.
  - destruct (fits (NFloats F32) a) eqn:A; auto. destruct (fits NInts b) eqn:B; auto.
    exfalso. apply H. split; [apply fits_floats|apply fits_ints]; auto.
Qed.

Lemma count_choose : forall h lp lx ap ax d n m k,
  nth_error h lp = Some ap -> nth_error h lx = Some ax -> precision_for d ap ax ->
  (0 <= n < 2 ^ 31)%Z -> (0 <= m < 2 ^ 31)%Z -> (0 <= k < 2 ^ 31)%Z ->
  choose single count_versions h [VArr lp; VArr lx; VInt n; VInt m; VInt k] =
  match d with
  | F32 => Some (1%nat, h, [VArr lp; VArr lx; VInt n; VInt m; VInt k])
  | F64 => Some (0%nat, put single NInts (put single (NFloats F64) h ap) ax,
      [VArr (loc (NFloats F64) h lp ap); VArr (loc NInts (put single (NFloats F64) h ap) lx ax);
       VInt n; VInt m; VInt k])
  end.
Proof.
  intros h lp lx ap ax d n m k A B P N M K. apply precision_dec in P.
  unfold choose, count_versions. cbn [first_version nload_all].
  rewrite !(exact_floats single _ _ _ _ A).
  destruct d.
  - destruct (fits (NFloats F64) ap) eqn:E.
    + rewrite (exact_ints single _ _ _ B). destruct (fits NInts ax) eqn:F.
      * rewrite !load_Z by auto. unfold put, loc. rewrite E, F. auto.
      * destruct (fits (NFloats F32) ap) eqn:G.
        { exfalso. apply fits_floats in E. apply fits_floats in G. destruct E as (? & ? & ->), G as (? & ? & G).
          discriminate. }
        rewrite (load_floats single _ _ _ _ A), (load_ints single _ _ _ (put_old _ _ _ _ _ _ B)), !load_Z by auto. auto.
    + destruct (fits (NFloats F32) ap) eqn:G.
      * rewrite (exact_ints single _ _ _ B). cbn [andb] in P. rewrite P.
        rewrite (load_floats single _ _ _ _ A), (load_ints single _ _ _ (put_old _ _ _ _ _ _ B)), !load_Z by auto. auto.
      * rewrite (load_floats single _ _ _ _ A), (load_ints single _ _ _ (put_old _ _ _ _ _ _ B)), !load_Z by auto. auto.
  - apply andb_prop in P. destruct P as [P Q]. rewrite P.
    assert (E : fits (NFloats F64) ap = false).
    { apply fits_floats in P. destruct P as (s & v & ->). reflexivity. }
    rewrite E. rewrite (exact_ints single _ _ _ B), Q, !load_Z by auto. auto.
Qed.

(** The arguments as the loops see them. *)
Lemma count_loaded : forall h lp lx ap ax d n m k npart nprof bin,
  nth_error h lp = Some ap -> nth_error h lx = Some ax -> precision_for d ap ax ->
  (0 <= n < 2 ^ 31)%Z -> (0 <= m < 2 ^ 31)%Z -> (0 <= k < 2 ^ 31)%Z ->
  holds_ints ax npart nprof bin ->
  (forall i j, (i < npart)%nat -> (j < nprof)%nat -> (Z.of_nat (bin i j) < 2 ^ 31)%Z) ->
  exists v h1 l1 x1,
    choose single count_versions h [VArr lp; VArr lx; VInt n; VInt m; VInt k] =
      Some (v, h1, [VArr l1; VArr x1; VInt n; VInt m; VInt k]) /\
    nth_error h1 l1 = Some (NArr (n_shape ap) true (Floats d (values_of ap))) /\
    ints_at h1 x1 = Ok (xpl npart nprof bin) /\
    (floats_of d ap -> l1 = lp) /\ (~ floats_of d ap -> (List.length h <= l1)%nat) /\
    (forall q b, nth_error h q = Some b -> nth_error h1 q = Some b).
Proof.
  intros h lp lx ap ax d n m k npart nprof bin A B P N M K X S.
  assert (C := count_choose h lp lx ap ax d n m k A B P N M K). destruct d.
  - do 4 eexists. split; [exact C|].
    assert (L := loaded_double single h lp ap A).
    destruct (loc_floats F64 h lp ap) as [L1 L2].
    split; [exact (put_old _ _ _ _ _ _ L)|].
    split; [apply loaded_ints; auto; apply put_old; auto|].
    split; auto. split; auto. intros. apply put_old, put_old. auto.
  - do 4 eexists. split; [exact C|]. destruct P as [(_ & F & I)|(E & _)]; [|discriminate].
    assert (LI := loaded_ints single h lx ax npart nprof bin B X S).
    unfold put, loc in LI. rewrite (proj2 (fits_ints ax) I) in LI.
    split; [|split; [exact LI|split; [auto|split; [|auto]]]].
    + destruct F as (s & v & ->). exact A.
    + intros H. contradiction.
Qed.

Lemma counts_Z : forall n l, counts l -> In n l -> (0 <= Z.of_nat n < 2 ^ 31)%Z.
Proof. intros n l H I. unfold counts in H. rewrite Forall_forall in H. specialize (H n I). lia. Qed.

Lemma count_tab_from : forall npart nprof nbins bin f,
  (forall i j, (i < npart)%nat -> (j < nprof)%nat -> (bin i j < nbins)%nat) ->
  count_particles_in_bin (tab (nprof * nbins) (fl nbins f)) (xpl npart nprof bin) nprof npart nbins =
  Ok (tab (nprof * nbins) (fl nbins (fun j b => f j b + qn (count npart bin j b))%Qc)).
Proof.
  intros npart nprof nbins bin f H.
  assert (E := project_tab npart nprof nbins bin H (fun _ => 1%Qc) f).
  match type of E with ?a = _ => transitivity a; [|rewrite E] end.
  - unfold count_particles_in_bin, project.
    apply for_ext. intros i s Hi. apply for_ext. intros j s' Hj.
    unfold xpl, fpl. rewrite !get_tab by (apply flat_lt; lia). cbn [bind]. rewrite !fl_at by lia.
    rewrite get_tab by lia. cbn [bind].
    replace (zi j * zi nbins + zi (bin i j))%Z with (zi (j * nbins + bin i j)) by lia. reflexivity.
  - f_equal. apply tab_fl_ext. intros. rewrite histogram_count. ring.
Qed.

Lemma count_call : forall h lp lx ap ax d npart nprof nbins bin f,
  nth_error h lp = Some ap -> nth_error h lx = Some ax -> precision_for d ap ax ->
  holds_ints ax npart nprof bin -> table nprof nbins f (values_of ap) ->
  (forall i j, (i < npart)%nat -> (j < nprof)%nat -> (bin i j < nbins)%nat) ->
  counts [npart; nprof; nbins] ->
  exists h' l' v,
    call_count single h
      [VArr lp; VArr lx; VInt (Z.of_nat nprof); VInt (Z.of_nat npart); VInt (Z.of_nat nbins)] [] = Ok (h', l') /\
    result_in h h' lp l' ap d v /\
    table nprof nbins (fun j b => f j b + qn (count npart bin j b))%Qc v.
Proof.
  intros h lp lx ap ax d npart nprof nbins bin f A B P X T H C.
  assert (C1 := counts_Z npart _ C ltac:(cbn; auto)). assert (C2 := counts_Z nprof _ C ltac:(cbn; auto)).
  assert (C3 := counts_Z nbins _ C ltac:(cbn; auto)).
  destruct (count_loaded h lp lx ap ax d _ _ _ npart nprof bin A B P C2 C1 C3 X) as (v & h1 & l1 & x1 & E & L & I & G1 & G2 & G3).
  { intros i j Hi Hj. specialize (H i j Hi Hj). lia. }
  unfold call_count. 
  replace (arguments count_names [] _ []) with
    (Some [VArr lp; VArr lx; VInt (Z.of_nat nprof); VInt (Z.of_nat npart); VInt (Z.of_nat nbins)]) by reflexivity.
  rewrite E. unfold floats_at at 1. rewrite L. cbn [bind]. rewrite I. cbn [bind]. rewrite !Nat2Z.id.
  rewrite (table_tab _ _ _ _ _ T). rewrite count_tab_from by auto. cbn [bind].
  do 3 eexists. split; [reflexivity|]. split; [|apply tab_table].
  eapply write_result; eauto.
Qed.

(** Called by the names of its parameters. *)
Lemma count_swapped_loop : forall npart nprof nbins bin f,
  (forall i j, (i < npart)%nat -> (j < nprof)%nat -> (bin i j < nbins)%nat) ->
  (1 <= nprof < npart)%nat ->
  count_particles_in_bin (tab (nprof * nbins) f) (xpl npart nprof bin) npart nprof nbins = Fail OutOfBounds.
Proof.
  intros npart nprof nbins bin f H N. unfold count_particles_in_bin.
  assert (X : forall j, (j < npart)%nat -> exists b, get (xpl npart nprof bin) (zi j) = Ok (zi b) /\ (b < nbins)%nat).
  { intros j Hj. unfold xpl. rewrite get_tab by nia.
    destruct (flat_of npart nprof j ltac:(nia)) as (a & b & Ha & Hb & ->). rewrite fl_at by auto.
    exists (bin a b). auto. }
  apply (for_fail _ nprof _ _ 0%nat (tab (nprof * nbins) f)); [lia|reflexivity|].
  destruct (for_inv (list Qc) (fun _ s => exists g, s = tab (nprof * nbins) g)
    (fun j rparts => bin <- get (xpl npart nprof bin) (zi (0 * npart + j)) ;;
      let k := (zi j * zi nbins + bin)%Z in x <- get rparts k ;; set rparts k (x + 1)%Qc)
    nprof 0%nat (tab (nprof * nbins) f)) as (s & E & g & ->).
  - eauto.
  - intros k s K (g & ->). destruct (X k ltac:(lia)) as (b & Eb & Hb). cbn [Nat.mul Nat.add].
    rewrite Eb. cbn [bind]. cbv zeta.
    replace (zi k * zi nbins + zi b)%Z with (zi (k * nbins + b)) by lia.
    rewrite get_tab by (apply flat_lt; lia). cbn [bind]. rewrite set_tab by (apply flat_lt; lia). eauto.
  - eapply for_fail; [|exact E|]; [lia|].
    destruct (X nprof ltac:(lia)) as (b & Eb & Hb). cbn [Nat.mul Nat.add]. rewrite Eb. cbn [bind]. cbv zeta.
    replace (zi nprof * zi nbins + zi b)%Z with (zi (nprof * nbins + b)) by lia.
    unfold get. rewrite Nat2Z.id. destruct (Z.ltb_spec (Z.of_nat (nprof * nbins + b)) 0); [lia|].
    rewrite (proj2 (nth_error_None _ _)); [auto|]. rewrite tab_length. lia.
Qed.

Lemma count_by_name : forall h lp lx ap ax d npart nprof nbins bin f,
  nth_error h lp = Some ap -> nth_error h lx = Some ax -> precision_for d ap ax ->
  holds_ints ax npart nprof bin -> table nprof nbins f (values_of ap) ->
  (forall i j, (i < npart)%nat -> (j < nprof)%nat -> (bin i j < nbins)%nat) ->
  counts [npart; nprof; nbins] -> (1 <= nprof < npart)%nat ->
  call_count single h [VArr lp; VArr lx]
    [("n_particles"%string, VInt (Z.of_nat npart)); ("n_profiles"%string, VInt (Z.of_nat nprof));
     ("n_bins"%string, VInt (Z.of_nat nbins))] = Fail OutOfBounds.
Proof.
  intros h lp lx ap ax d npart nprof nbins bin f A B P X T H C N.
  assert (C1 := counts_Z npart _ C ltac:(cbn; auto)). assert (C2 := counts_Z nprof _ C ltac:(cbn; auto)).
  assert (C3 := counts_Z nbins _ C ltac:(cbn; auto)).
  destruct (count_loaded h lp lx ap ax d _ _ _ npart nprof bin A B P C1 C2 C3 X) as (v & h1 & l1 & x1 & E & L & I & G1 & G2 & G3).
  { intros i j Hi Hj. specialize (H i j Hi Hj). lia. }
  unfold call_count.
  replace (arguments count_names [] _ _) with
    (Some [VArr lp; VArr lx; VInt (Z.of_nat npart); VInt (Z.of_nat nprof); VInt (Z.of_nat nbins)]) by reflexivity.
  rewrite E. unfold floats_at at 1. rewrite L. cbn [bind]. rewrite I. cbn [bind]. rewrite !Nat2Z.id.
  rewrite (table_tab _ _ _ _ _ T). rewrite count_swapped_loop by auto. auto.
Qed.
End Facts.
