(** Calls of the compiled counting routine for several bunches. *)
From Coq Require Import String List ZArith Bool QArith Qcanon.
From Verif Require Import Base.Res Base.QcLib Model.MBind Model.MRecon Model.MMulti Model.MCalls Model.MCountCalls
  Spec.ReconSpec Spec.MultiSpec Spec.CallsSpec Spec.TomoCallsSpec Spec.CountCallsSpec.
Import ListNotations.
From Coq Require Import Lia.
From Verif Require Import Base.ResLemmas Base.QcLemmas Base.Loops Proof.PRecon Proof.PRecon2 Proof.PMulti Proof.PCalls
  Proof.PCalls2 Proof.PCalls3 Proof.PTomoCalls Proof.PImageCalls.

Lemma filter_prod : forall (A B : Type) (p : A * B -> bool) l m,
  length (filter p (list_prod l m)) = list_sum (map (fun a => length (filter (fun b => p (a, b)) m)) l).
Proof.
  intros A B p l m.
  assert (E : forall a, length (filter p (map (fun y => (a, y)) m)) = length (filter (fun b => p (a, b)) m)).
  { intros a. induction m as [|b m IH]; cbn [map filter]; auto.
    destruct (p (a, b)); cbn [length]; rewrite IH; auto. }
  induction l as [|a l IH]; auto.
  transitivity (length (filter p (map (fun y => (a, y)) m ++ list_prod l m))); [reflexivity|].
  rewrite filter_app, app_length, IH, E. reflexivity.
Qed.

Lemma seq_prod : forall (p : nat -> bool) n m s,
  length (filter p (seq (s * m) (n * m))) =
  list_sum (map (fun c => length (filter (fun i => p (c * m + i)%nat) (seq 0 m))) (seq s n)).
Proof.
  intros p n m.
  assert (E : forall m k t, length (filter p (seq (k + t) m)) = length (filter (fun i => p (k + i)%nat) (seq t m))).
  { clear. induction m as [|m IH]; intros k t; cbn [seq filter]; auto.
    replace (Datatypes.S (k + t)) with (k + Datatypes.S t)%nat by lia.
    destruct (p (k + t)%nat); cbn [length]; rewrite IH; auto. }
  induction n as [|n IH]; intros s; auto.
  cbn [Nat.mul]. rewrite seq_app, filter_app, app_length.
  replace (s * m + m)%nat with (Datatypes.S s * m)%nat by (cbn; lia). rewrite IH.
  rewrite <- (Nat.add_0_r (s * m)) at 1. rewrite E. reflexivity.
Qed.

Lemma copies_count : forall nb np nprof nbins x cen j b,
  (forall c i j, (c < nb)%nat -> (i < np)%nat -> (j < nprof)%nat -> (0 <= x i j + cen c < Z.of_nat nbins)%Z) ->
  (j < nprof)%nat ->
  count (nb * np) (mbin np x cen) j b = copies_in nb np x cen j b.
Proof.
  intros nb np nprof nbins x cen j b H J. unfold count, copies_in. rewrite filter_prod.
  change (seq 0 (nb * np)) with (seq (0 * np) (nb * np)). rewrite seq_prod. f_equal.
  apply map_ext_in. intros c Hc. apply in_seq in Hc. f_equal. apply filter_ext_in. intros i Hi. apply in_seq in Hi.
  cbn [fst snd]. unfold mbin, zbin, bunch_of, part_of.
  rewrite Nat.div_add_l, Nat.div_small, Nat.add_0_r by lia.
  replace ((c * np + i) mod np)%nat with i
    by (rewrite Nat.add_comm, Nat.mod_add, Nat.mod_small by lia; reflexivity).
  specialize (H c i j ltac:(lia) ltac:(lia) J).
  destruct (Nat.eqb_spec (Z.to_nat (x i j + cen c)) b), (Z.eqb_spec (x i j + cen c) (Z.of_nat b)); auto; lia.
Qed.

Section Facts.
Variable single : Qc -> Qc.
Notation given := (given single).

Lemma has_given : forall a v, has_ints a v -> given NInts a = NArr (n_shape a) true (Int32 v).
Proof.
  intros [s c e] v (E & F). cbn [n_shape n_cells] in *.
  unfold PImageCalls.given, converted, fits. cbn [n_cells n_contig n_shape]. destruct E as [->| ->].
  - destruct c; reflexivity.
  - cbn [as_ints]. do 2 f_equal. rewrite <- (map_id v) at 2. apply map_ext_in. intros z I.
    rewrite Forall_forall in F. specialize (F z I). unfold wrap32. rewrite Z.mod_small by lia. lia.
Qed.

Lemma count_multi_choose : forall h lp lx lc ap ax ac d n1 n2 n3 n4,
  nth_error h lp = Some ap -> nth_error h lx = Some ax -> nth_error h lc = Some ac -> count_precision d ap ax ac ->
  (0 <= n1 < 2 ^ 31)%Z -> (0 <= n2 < 2 ^ 31)%Z -> (0 <= n3 < 2 ^ 31)%Z -> (0 <= n4 < 2 ^ 31)%Z ->
  let rest := [VInt n1; VInt n2; VInt n3; VInt n4] in
  exists v h1 p1 x1 c1,
    choose single count_multi_versions h (VArr lp :: VArr lx :: VArr lc :: rest) =
      Some (v, h1, VArr p1 :: VArr x1 :: VArr c1 :: rest) /\
    kept h h1 /\ nth_error h1 p1 = Some (NArr (n_shape ap) true (Floats d (values_of ap))) /\
    (floats_of d ap -> p1 = lp) /\ (~ floats_of d ap -> (List.length h <= p1)%nat) /\
    nth_error h1 x1 = Some (given NInts ax) /\ nth_error h1 c1 = Some (given NInts ac).
Proof.
  intros h lp lx lc ap ax ac d n1 n2 n3 n4 A B C P N1 N2 N3 N4. cbv zeta.
  set (rest := [VInt n1; VInt n2; VInt n3; VInt n4]).
  assert (L : forall c h', nload_all single c [NInt; NInt; NInt; NInt] h' rest = Some (h', rest)).
  { intros c h'. unfold rest. cbn [nload_all]. rewrite !load_Z by auto. reflexivity. }
  unfold choose.
  set (R := first_version single true count_multi_versions h (VArr lp :: VArr lx :: VArr lc :: rest)).
  assert (Conv : exists h1 p1 x1 c1,
    R = Some (O, h1, VArr p1 :: VArr x1 :: VArr c1 :: rest) /\
    kept h h1 /\ nth_error h1 p1 = Some (NArr (n_shape ap) true (Floats F64 (values_of ap))) /\
    (floats_of F64 ap -> p1 = lp) /\ (~ floats_of F64 ap -> (List.length h <= p1)%nat) /\
    nth_error h1 x1 = Some (given NInts ax) /\ nth_error h1 c1 = Some (given NInts ac)).
  { unfold R, count_multi_versions. cbn [first_version].
    set (tail := [NInt; NInt; NInt; NInt]) in *. clearbody rest tail. cbn [nload_all].
    rewrite (load_floats single F64 _ _ _ A).
    assert (LD := loaded_double single h lp ap A). destruct (loc_floats F64 h lp ap) as [L1 L2].
    set (ha := put single (NFloats F64) h ap) in *. assert (KA : kept h ha) by apply kept_put.
    rewrite (load_ints single ha _ _ (KA _ _ B)).
    set (hb := put single NInts ha ax). assert (KB : kept ha hb) by apply kept_put.
    rewrite (load_ints single hb _ _ (KB _ _ (KA _ _ C))).
    set (hc := put single NInts hb ac). assert (KC : kept hb hc) by apply kept_put.
    rewrite L. do 4 eexists. split; [reflexivity|].
    split; [intros k b Q; apply KC, KB, KA; exact Q|].
    split; [apply KC, KB; exact LD|]. split; [exact L1|]. split; [exact L2|].
    split; [apply KC; exact (put_here single _ _ _ _ (KA _ _ B))|].
    exact (put_here single _ _ _ _ (KB _ _ (KA _ _ C))). }
  clearbody R. unfold count_multi_versions. cbn [first_version].
  set (tail := [NInt; NInt; NInt; NInt]) in *. clearbody rest tail. cbn [nload_all].
  assert (K0 : kept h h) by (intros k b K; exact K).
  rewrite !(exact_floats single _ _ _ _ A).
  destruct P as [(-> & P1 & P2 & P3)|(-> & P)].
  - rewrite (proj2 (fits_floats _ _) P1). 
    replace (fits (NFloats F64) ap) with false by (destruct P1 as (? & ? & ->); reflexivity).
    rewrite (exact_ints single _ _ _ B), (proj2 (fits_ints _) P2), (exact_ints single _ _ _ C),
      (proj2 (fits_ints _) P3), L.
    exists 1%nat, h, lp, lx, lc. unfold PImageCalls.given.
    rewrite (proj2 (fits_ints _) P2), (proj2 (fits_ints _) P3).
    split; [reflexivity|]. split; [exact K0|]. split.
    { rewrite A. destruct P1 as (s & v & ->). reflexivity. }
    split; [auto|]. split; [intros Q; contradiction|]. auto.
  - assert (Done : exists v h1 p1 x1 c1,
      R = Some (v, h1, VArr p1 :: VArr x1 :: VArr c1 :: rest) /\
      kept h h1 /\ nth_error h1 p1 = Some (NArr (n_shape ap) true (Floats F64 (values_of ap))) /\
      (floats_of F64 ap -> p1 = lp) /\ (~ floats_of F64 ap -> (List.length h <= p1)%nat) /\
      nth_error h1 x1 = Some (given NInts ax) /\ nth_error h1 c1 = Some (given NInts ac)).
    { destruct Conv as (h1 & p1 & x1 & c1 & Q). exists O, h1, p1, x1, c1. exact Q. }
    destruct (fits (NFloats F64) ap) eqn:F6.
    + replace (fits (NFloats F32) ap) with false by (apply fits_floats in F6; destruct F6 as (? & ? & ->); reflexivity).
      rewrite !(exact_ints single _ _ _ B). destruct (fits NInts ax) eqn:FX; [|exact Done].
      rewrite !(exact_ints single _ _ _ C). destruct (fits NInts ac) eqn:FC; [|exact Done].
      rewrite L. exists O, h, lp, lx, lc. unfold PImageCalls.given. rewrite FX, FC.
      split; [reflexivity|]. split; [exact K0|]. apply fits_floats in F6. split.
      { rewrite A. destruct F6 as (s & v & ->). reflexivity. }
      split; [auto|]. split; [intros Q; contradiction|]. auto.
    + destruct (fits (NFloats F32) ap) eqn:F3; [|exact Done].
      rewrite !(exact_ints single _ _ _ B). destruct (fits NInts ax) eqn:FX; [|exact Done].
      rewrite !(exact_ints single _ _ _ C). destruct (fits NInts ac) eqn:FC; [|exact Done].
      exfalso. apply P. split; [apply fits_floats; exact F3|]. split; apply fits_ints; auto.
Qed.

Lemma count_multi_call : forall h lp lx lc ap ax ac d npart nprof nbins nbunch x cen xs cs f,
  nth_error h lp = Some ap -> nth_error h lx = Some ax -> nth_error h lc = Some ac -> count_precision d ap ax ac ->
  has_ints ax xs -> table npart nprof x xs -> has_ints ac cs -> vector nbunch cen cs ->
  table nprof nbins f (values_of ap) ->
  (forall c i j, (c < nbunch)%nat -> (i < npart)%nat -> (j < nprof)%nat -> (0 <= x i j + cen c < Z.of_nat nbins)%Z) ->
  counts [npart; nprof; nbins; nbunch] ->
  exists h' l' v,
    call_count_multi single h [VArr lp; VArr lx; VArr lc; VInt (Z.of_nat nprof); VInt (Z.of_nat npart);
      VInt (Z.of_nat nbins); VInt (Z.of_nat nbunch)] [] = Ok (h', l') /\
    result_in h h' lp l' ap d v /\
    table nprof nbins (fun j b => f j b + qn (copies_in nbunch npart x cen j b))%Qc v.
Proof.
  intros h lp lx lc ap ax ac d npart nprof nbins nbunch x cen xs cs f A B D P X TX Y TY T H C.
  assert (C1 := counts_Z npart _ C ltac:(cbn; auto)). assert (C2 := counts_Z nprof _ C ltac:(cbn; auto)).
  assert (C3 := counts_Z nbins _ C ltac:(cbn; auto)). assert (C4 := counts_Z nbunch _ C ltac:(cbn; auto)).
  destruct (count_multi_choose h lp lx lc ap ax ac d _ _ _ _ A B D P C2 C1 C3 C4)
    as (v & h1 & p1 & x1 & c1 & E & K & G & G1 & G2 & IX & IC).
  rewrite (has_given _ _ X) in IX. rewrite (has_given _ _ Y) in IC.
  unfold call_count_multi.
  match goal with |- context [arguments count_multi_names [] ?l []] =>
    replace (arguments count_multi_names [] l []) with (Some l) by reflexivity end.
  rewrite E. unfold floats_at at 1. rewrite G. cbn [bind]. unfold ints_at. rewrite IX, IC. cbn [bind]. rewrite !Nat2Z.id.
  rewrite (table_tab _ _ _ _ _ T), (table_tab _ _ _ _ _ TX), (vector_tab _ _ _ _ TY).
  assert (Q := count_multi_single nbunch npart nprof nbins x cen H (tab (nprof * nbins) (fl nbins f))).
  unfold mxl, mcl in Q. rewrite Q.
  rewrite count_tab_from by (intros; eapply mbin_lt; eauto). cbn [bind].
  do 3 eexists. split; [reflexivity|]. split; [eapply write_result; eauto|].
  erewrite (tab_fl_ext _ nprof nbins _ (fun j b => f j b + qn (copies_in nbunch npart x cen j b))%Qc).
  - apply tab_table.
  - intros j b Hj Hb. rewrite (copies_count nbunch npart nprof nbins x cen j b H Hj). reflexivity.
Qed.

(** Called with the numbers of particles and profiles by name. *)
Lemma count_multi_swapped : forall npart nprof nbins nbunch x cen f,
  (forall c i j, (c < nbunch)%nat -> (i < npart)%nat -> (j < nprof)%nat -> (0 <= x i j + cen c < Z.of_nat nbins)%Z) ->
  (1 <= nbunch)%nat -> (1 <= nprof < npart)%nat ->
  count_particles_in_bin_multi (tab (nprof * nbins) f) (tab (npart * nprof) (fl nprof x)) (tab nbunch cen)
    npart nprof nbins nbunch = Fail OutOfBounds.
Proof.
  intros npart nprof nbins nbunch x cen f H B N. unfold count_particles_in_bin_multi.
  assert (X : forall j, (j < npart)%nat -> exists b, (0 <= b + cen 0%nat < Z.of_nat nbins)%Z /\
    get (tab (npart * nprof) (fl nprof x)) (zi j) = Ok b).
  { intros j Hj. rewrite get_tab by nia.
    destruct (flat_of npart nprof j ltac:(nia)) as (a & b & Ha & Hb & ->). rewrite fl_at by auto.
    exists (x a b). split; auto. }
  apply (for_fail _ nbunch _ _ 0%nat (tab (nprof * nbins) f)); [lia|reflexivity|].
  apply (for_fail _ nprof _ _ 0%nat (tab (nprof * nbins) f)); [lia|reflexivity|].
  destruct (for_inv (list Qc) (fun _ s => exists g, s = tab (nprof * nbins) g)
    (fun i rparts => y <- get (tab (npart * nprof) (fl nprof x)) (zi (0 * npart + i)) ;;
      ce <- get (tab nbunch cen) (zi 0) ;;
      let k := (y + ce + zi i * zi nbins)%Z in v <- get rparts k ;; set rparts k (v + 1)%Qc)
    nprof 0%nat (tab (nprof * nbins) f)) as (s & E & g & ->).
  - eauto.
  - intros k s K (g & ->). destruct (X k ltac:(lia)) as (b & Hb & Eb). cbn [Nat.mul Nat.add].
    rewrite Eb. cbn [bind]. rewrite get_tab by lia. cbn [bind]. cbv zeta.
    replace (b + cen 0%nat + zi k * zi nbins)%Z with (zi (k * nbins + Z.to_nat (b + cen 0%nat))) by lia.
    rewrite get_tab by (apply flat_lt; lia). cbn [bind]. rewrite set_tab by (apply flat_lt; lia). eauto.
  - eapply for_fail; [|exact E|]; [lia|].
    destruct (X nprof ltac:(lia)) as (b & Hb & Eb). cbn [Nat.mul Nat.add]. rewrite Eb. cbn [bind].
    rewrite get_tab by lia. cbn [bind]. cbv zeta.
    replace (b + cen 0%nat + zi nprof * zi nbins)%Z with (zi (nprof * nbins + Z.to_nat (b + cen 0%nat))) by lia.
    unfold get. rewrite Nat2Z.id.
    destruct (Z.ltb_spec (Z.of_nat (nprof * nbins + Z.to_nat (b + cen 0%nat))) 0); [lia|].
    rewrite (proj2 (nth_error_None _ _)); [auto|]. rewrite tab_length. lia.
Qed.

Lemma count_multi_by_name : forall h lp lx lc ap ax ac d npart nprof nbins nbunch x cen xs cs f,
  nth_error h lp = Some ap -> nth_error h lx = Some ax -> nth_error h lc = Some ac -> count_precision d ap ax ac ->
  has_ints ax xs -> table npart nprof x xs -> has_ints ac cs -> vector nbunch cen cs ->
  table nprof nbins f (values_of ap) ->
  (forall c i j, (c < nbunch)%nat -> (i < npart)%nat -> (j < nprof)%nat -> (0 <= x i j + cen c < Z.of_nat nbins)%Z) ->
  counts [npart; nprof; nbins; nbunch] -> (1 <= nbunch)%nat -> (1 <= nprof < npart)%nat ->
  call_count_multi single h [VArr lp; VArr lx; VArr lc]
    [("n_particles"%string, VInt (Z.of_nat npart)); ("n_profiles"%string, VInt (Z.of_nat nprof));
     ("n_bins"%string, VInt (Z.of_nat nbins)); ("n_centers"%string, VInt (Z.of_nat nbunch))] = Fail OutOfBounds.
Proof.
  intros h lp lx lc ap ax ac d npart nprof nbins nbunch x cen xs cs f A B D P X TX Y TY T H C N1 N2.
  assert (C1 := counts_Z npart _ C ltac:(cbn; auto)). assert (C2 := counts_Z nprof _ C ltac:(cbn; auto)).
  assert (C3 := counts_Z nbins _ C ltac:(cbn; auto)). assert (C4 := counts_Z nbunch _ C ltac:(cbn; auto)).
  destruct (count_multi_choose h lp lx lc ap ax ac d _ _ _ _ A B D P C1 C2 C3 C4)
    as (v & h1 & p1 & x1 & c1 & E & K & G & G1 & G2 & IX & IC).
  rewrite (has_given _ _ X) in IX. rewrite (has_given _ _ Y) in IC.
  unfold call_count_multi.
  replace (arguments count_multi_names [] _ _) with
    (Some [VArr lp; VArr lx; VArr lc; VInt (Z.of_nat npart); VInt (Z.of_nat nprof); VInt (Z.of_nat nbins);
           VInt (Z.of_nat nbunch)]) by reflexivity.
  rewrite E. unfold floats_at at 1. rewrite G. cbn [bind]. unfold ints_at. rewrite IX, IC. cbn [bind]. rewrite !Nat2Z.id.
  rewrite (table_tab _ _ _ _ _ T), (table_tab _ _ _ _ _ TX), (vector_tab _ _ _ _ TY).
  rewrite count_multi_swapped by auto. reflexivity.
Qed.
End Facts.
