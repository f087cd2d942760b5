(** Proofs about the reconstruction functions kept for older programs (C116). *)
(*HEAD*)
From Coq Require Import String List ZArith Bool QArith Qcanon.
From Verif Require Import Base.Res Base.QcLib Model.MBind Model.MCalls Model.MOldCalls Spec.ReconSpec Spec.CallsSpec
  Spec.OldCallsSpec.
Import ListNotations.
(*DAEH*)
From Coq Require Import Lia Permutation.
From Verif Require Import Proof.CCalls.

Fact lookup_in n v : forall l, NoDup (map fst l) -> In (n, v) l -> lookup n l = Some v.
Proof.
  induction l as [|[m w] l IH]; intros N I; [destruct I|]. cbn [lookup map fst] in *. inversion N; subst.
  destruct (String.eqb_spec m n) as [->|D].
  - destruct I as [E|I]; [inversion E; auto|]. exfalso. apply H1. apply in_map_iff. exists (n, v). auto.
  - destruct I as [E|I]; [inversion E; congruence|]. auto.
Qed.

Fact by_name_in given : NoDup (map fst given) -> forall names vs,
  List.length names = List.length vs -> (forall p, In p (combine names vs) -> In p given) ->
  by_name names given = Some vs.
Proof.
  intros N. induction names as [|n names IH]; intros [|v vs] L H; try discriminate L; [reflexivity|].
  cbn [by_name]. cbn [combine] in H. rewrite (lookup_in n v) by (auto; apply H; left; auto).
  rewrite (IH vs); [reflexivity|cbn in L; lia|]. intros p I. apply H. right. auto.
Qed.

Fact fst_combine : forall (names : list string) (vs : list nval), List.length names = List.length vs ->
  map fst (combine names vs) = names.
Proof. induction names as [|n names IH]; intros [|v vs] L; try discriminate L; cbn; auto. rewrite IH; auto. Qed.

Fact skipn_nodup : forall k (l : list string), NoDup l -> NoDup (skipn k l).
Proof.
  induction k as [|k IH]; intros [|x l] N; auto; cbn [skipn]; auto. inversion N; auto.
Qed.

Fact passes_arguments names vs pos kw : NoDup names -> List.length names = List.length vs ->
  passes names vs pos kw -> arguments names [] pos kw = Some vs.
Proof.
  intros N L (rest & -> & P). unfold arguments. rewrite app_length in L.
  replace (Nat.ltb (List.length names) (List.length pos)) with false by (symmetry; apply Nat.ltb_ge; lia).
  set (r := skipn (List.length pos) names) in *.
  assert (Lr : List.length r = List.length rest) by (unfold r; rewrite skipn_length; lia).
  assert (Nr : NoDup r) by (apply skipn_nodup; auto).
  assert (Nk : NoDup (map fst kw)).
  { eapply Permutation_NoDup; [apply Permutation_map, Permutation_sym, P|]. rewrite fst_combine; auto. }
  replace (forallb _ kw) with true.
  - rewrite app_nil_r, (by_name_in kw Nk r rest Lr); [reflexivity|].
    intros p I. eapply Permutation_in; [apply Permutation_sym, P|exact I].
  - symmetry. apply forallb_forall. intros [n v] I. cbn [fst].
    apply existsb_exists. exists n. split; [|apply String.eqb_refl].
    rewrite <- (fst_combine r rest Lr). change n with (fst (n, v)). apply in_map.
    eapply Permutation_in; [exact P|exact I].
Qed.

Ltac distinct :=
  repeat (constructor; [cbn [In]; intros X; repeat (destruct X as [X|X]; [discriminate X|]); exact X|]); constructor.

(** tomolib_wrappers.back_project, called by position or by name, does what
    libtomo.back_project does by position (C109). *)
Lemma C116_back_project_lem : forall (single : Qc -> Qc) (h : nheap) (lw lf lp : nat) (aw af ap : narr)
    (npart nprof nbins : nat) (bin : nat -> nat -> nat) (w : nat -> Qc) (f : nat -> nat -> Qc)
    (pos : list nval) (kw : list (string * nval)),
  nth_error h lw = Some aw -> nth_error h lf = Some af -> nth_error h lp = Some ap -> lw <> lp ->
  vector npart w (values_of aw) -> table nprof nbins f (values_of ap) ->
  holds_ints af npart nprof (fun i j => j * nbins + bin i j)%nat ->
  (forall i j, (i < npart)%nat -> (j < nprof)%nat -> (bin i j < nbins)%nat) ->
  counts [npart; nprof; nprof * nbins]%nat ->
  passes ["weights"; "flat_points"; "flat_profiles"; "nparts"; "nprofs"]%string
    [VArr lw; VArr lf; VArr lp; VInt (Z.of_nat npart); VInt (Z.of_nat nprof)] pos kw ->
  exists h' l' v,
    old_back_project single h pos kw = Ok (h', l') /\
    result_in h h' lw l' aw F64 v /\ vector npart (fun i => w i + gather nprof bin f i)%Qc v.
Proof.
  intros single h lw lf lp aw af ap npart nprof nbins bin w f pos kw A B C D V T I H N P.
  apply passes_arguments in P; [|distinct|reflexivity].
  unfold old_back_project, old_back_names. rewrite P.
  exact (C109_back_project_lem single h lw lf lp aw af ap npart nprof nbins bin w f A B C D V T I H N).
Qed.
(*EX*)
(** The numbers by name, in another order. *)
Example C116_back_project_ex :
  q_show (old_back_project (fun x => x) q_heap [VArr 5; VArr 4; VArr 6]
    [("nprofs", VInt 2); ("nparts", VInt 3)]%string) 6 =
  Some (5%nat, Some ([3]%nat, F64, [3; 2; 2]%Q), Some ([4]%nat, F64, [1; 0; 0; 1]%Q)) /\
  passes ["weights"; "flat_points"; "flat_profiles"; "nparts"; "nprofs"]%string
    [VArr 5; VArr 4; VArr 6; VInt 3; VInt 2] [VArr 5; VArr 4; VArr 6]
    [("nprofs", VInt 2); ("nparts", VInt 3)]%string.
Proof.
  split; [vm_compute; reflexivity|]. exists [VInt 3; VInt 2]. split; [reflexivity|]. apply Permutation.perm_swap.
Qed.
(*XE*)

(** tomolib_wrappers.project, in the same way. *)
Lemma C116_project_lem : forall (single : Qc -> Qc) (h : nheap) (lr lf lw : nat) (ar af aw : narr)
    (npart nprof nbins : nat) (bin : nat -> nat -> nat) (w : nat -> Qc) (f : nat -> nat -> Qc)
    (pos : list nval) (kw : list (string * nval)),
  nth_error h lr = Some ar -> nth_error h lf = Some af -> nth_error h lw = Some aw -> lr <> lw ->
  table nprof nbins f (values_of ar) -> vector npart w (values_of aw) ->
  holds_ints af npart nprof (fun i j => j * nbins + bin i j)%nat ->
  (forall i j, (i < npart)%nat -> (j < nprof)%nat -> (bin i j < nbins)%nat) ->
  counts [npart; nprof; nbins; nprof * nbins]%nat ->
  passes ["recreated"; "flat_points"; "weights"; "nparts"; "nprofs"; "nbins"]%string
    [VArr lr; VArr lf; VArr lw; VInt (Z.of_nat npart); VInt (Z.of_nat nprof); VInt (Z.of_nat nbins)] pos kw ->
  exists h' l' v,
    old_project single h pos kw = Ok (h', l') /\
    result_in h h' lr l' ar F64 v /\ table nprof nbins (fun j b => f j b + histogram npart bin w j b)%Qc v.
Proof.
  intros single h lr lf lw ar af aw npart nprof nbins bin w f pos kw A B C D T V I H N P.
  apply passes_arguments in P; [|distinct|reflexivity].
  unfold old_project, old_project_names. rewrite P.
  exact (C109_project_lem single h lr lf lw ar af aw npart nprof nbins bin w f A B C D T V I H N).
Qed.
(*EX*)
Example C116_project_ex :
  q_show (old_project (fun x => x) q_heap []
    [("weights", VArr 5); ("recreated", VArr 3); ("flat_points", VArr 4); ("nparts", VInt 3); ("nbins", VInt 2);
     ("nprofs", VInt 2)]%string) 3 =
  Some (8%nat, Some ([2; 2]%nat, F64, [2; 1; 1; 2]%Q), Some ([2; 2]%nat, F32, [0; 0; 0; 0]%Q)).
Proof. vm_compute. reflexivity. Qed.
(*XE*)

(** tomolib_wrappers.reconstruct, in the same way (C110). *)
Lemma C116_reconstruct_lem : forall (single sqrt : Qc -> Qc) (h : nheap) (lx lp : nat) (ax ap : narr) (d : dtype)
    (niter npart nprof nbins : nat) (bin : nat -> nat -> nat) (f : nat -> nat -> Qc) (verbose : bool)
    (pos : list nval) (kw : list (string * nval)),
  nth_error h lx = Some ax -> nth_error h lp = Some ap -> precision_for d ap ax ->
  holds_ints ax npart nprof bin -> table nprof nbins f (values_of ap) ->
  (forall i j, (i < npart)%nat -> (j < nprof)%nat -> (bin i j < nbins)%nat) ->
  counts [niter; nbins; npart; nprof] ->
  passes ["xp"; "waterfall"; "niter"; "nbins"; "npart"; "nprof"; "verbose"]%string
    [VArr lx; VArr lp; VInt (Z.of_nat niter); VInt (Z.of_nat nbins); VInt (Z.of_nat npart);
     VInt (Z.of_nat nprof); VBool verbose] pos kw ->
  let call := old_reconstruct single sqrt h pos kw in
  ((forall k, (k <= niter)%nat -> 0 < total npart (weights_after npart nprof nbins bin f true k))%Qc /\
   exists h' lw ld lr vw vd vr,
    call = Ok (h', (lw, ld, lr)) /\
    (forall k b, nth_error h k = Some b -> nth_error h' k = Some b) /\
    (List.length h <= lw)%nat /\ (List.length h <= ld)%nat /\ (List.length h <= lr)%nat /\
    lw <> ld /\ lw <> lr /\ ld <> lr /\
    nth_error h' lw = Some (NArr [npart] true (Floats d vw)) /\
    nth_error h' ld = Some (NArr [niter + 1]%nat true (Floats d vd)) /\
    nth_error h' lr = Some (NArr [nprof; nbins] true (Floats d vr)) /\
    vector npart (weights_after npart nprof nbins bin f true niter) vw /\
    vector (niter + 1)
      (fun k => sqrt (mean_square nprof nbins f (recreated_after npart nprof nbins bin f true k))) vd /\
    table nprof nbins (recreated_after npart nprof nbins bin f true niter) vr) \/
  ((exists k, (k <= niter)%nat /\
     forall i, (i < npart)%nat -> weights_after npart nprof nbins bin f true k i = 0%Qc) /\
   call = Fail (Raised RuntimeError)).
Proof.
  intros single sqrt h lx lp ax ap d niter npart nprof nbins bin f verbose pos kw A B D I T H N P.
  apply passes_arguments in P; [|distinct|reflexivity].
  unfold old_reconstruct, old_reconstruct_names. rewrite P.
  exact (C110_reconstruct_lem single sqrt h lx lp ax ap d niter npart nprof nbins bin f
    [("verbose"%string, VBool verbose); ("callback"%string, VNone)] A B D I T H N
    (or_intror (ex_intro _ verbose (ex_intro _ VNone eq_refl)))).
Qed.
(*EX*)
Example C116_reconstruct_ex :
  q_show3 (old_reconstruct (fun x => x) (fun x => x) q_heap [VArr 0; VArr 7]
      [("niter", VInt 0); ("npart", VInt 3); ("nprof", VInt 2); ("nbins", VInt 2); ("verbose", VBool true)]%string) =
  Some (Some ([3]%nat, F32, [2; 1; 1]%Q), Some ([1]%nat, F32, [1 # 16]%Q),
        Some ([2; 2]%nat, F32, [3 # 4; 1 # 4; 1 # 4; 3 # 4]%Q)).
Proof. vm_compute. reflexivity. Qed.
(*XE*)

Fact unknown_name names defaults pos kw n v : ~ In n names -> In (n, v) kw -> arguments names defaults pos kw = None.
Proof.
  intros A I. unfold arguments. destruct (Nat.ltb _ _); [reflexivity|].
  replace (forallb _ kw) with false; [reflexivity|]. symmetry. apply not_true_is_false. intros F.
  rewrite forallb_forall in F. specialize (F _ I). apply existsb_exists in F as (m & M & E). cbn [fst] in E.
  apply String.eqb_eq in E. subst m. apply A.
  rewrite <- (firstn_skipn (List.length pos) names). apply in_or_app. right. exact M.
Qed.

Ltac unknown :=
  match goal with H : In _ (_ :: _) |- _ => cbn [In] in H end;
  repeat match goal with H : _ \/ _ |- _ => destruct H as [<-|H] end;
  try match goal with H : False |- _ => destruct H end;
  cbn [In]; intros X; repeat (destruct X as [X|X]; [discriminate X|]); exact X.

(** The functions that the warning of the kept ones names do not have the same
    signature: a call with a number (for project also the waterfall) by the name
    of the kept function raises a TypeError. *)
Lemma C116_moved_refuted_lem : forall (single sqrt : Qc -> Qc) (h : nheap) (pos : list nval)
    (kw : list (string * nval)),
  (names_one ["nparts"; "nprofs"]%string kw -> call_back_project single h pos kw = Fail (Raised TypeError)) /\
  (names_one ["recreated"; "nparts"; "nprofs"; "nbins"]%string kw ->
     call_project single h pos kw = Fail (Raised TypeError)) /\
  (names_one ["niter"; "nbins"; "npart"; "nprof"]%string kw ->
     call_reconstruct single sqrt h pos kw = Fail (Raised TypeError)).
Proof.
  intros single sqrt h pos kw. split; [|split]; intros (n & v & I & K).
  - unfold call_back_project. rewrite (unknown_name back_names [] pos kw n v); auto. unfold back_names. unknown.
  - unfold call_project. rewrite (unknown_name project_names [] pos kw n v); auto. unfold project_names. unknown.
  - unfold call_reconstruct. rewrite (unknown_name reconstruct_names reconstruct_defaults pos kw n v); auto.
    unfold reconstruct_names. unknown.
Qed.
(*EX*)
(** A call that the kept function takes. *)
Example C116_moved_ex :
  let kw := [("nprofs", VInt 2); ("nparts", VInt 3)]%string in
  names_one ["nparts"; "nprofs"]%string kw /\
  call_back_project (fun x => x) q_heap [VArr 5; VArr 4; VArr 6] kw = Fail (Raised TypeError) /\
  exists r, old_back_project (fun x => x) q_heap [VArr 5; VArr 4; VArr 6] kw = Ok r.
Proof.
  split; [exists "nparts"%string, (VInt 3); split; [left; reflexivity|right; left; reflexivity]|].
  split; [reflexivity|]. eexists. vm_compute. reflexivity.
Qed.
(*XE*)
