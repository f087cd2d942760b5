(** Proofs about calls of the compiled reconstruction routines (C108-C110). *)
(*HEAD*)
From Coq Require Import List ZArith Bool QArith Qcanon String.
From Verif Require Import Base.Res Base.QcLib Model.MBind Model.MCalls Spec.ReconSpec Spec.CallsSpec.
Import ListNotations.
(*DAEH*)
From Coq Require Import Lia.
From Verif Require Import Proof.PCalls Proof.PCalls2 Proof.PCalls3.

(** count_particles_in_bins adds to every counter the number of particles in its
    bin, for counters and positions of any type and layout.  It works in single
    precision only for counters and positions of the exact types, returns the
    array given if that has the type worked in, and changes no other. *)
Lemma C108_counts_lem : forall (single : Qc -> Qc) (h : nheap) (lp lx : nat) (ap ax : narr) (d : dtype)
    (npart nprof nbins : nat) (bin : nat -> nat -> nat) (f : nat -> nat -> Qc),
  nth_error h lp = Some ap -> nth_error h lx = Some ax -> precision_for d ap ax ->
  holds_ints ax npart nprof bin -> table nprof nbins f (values_of ap) ->
  (forall i j, (i < npart)%nat -> (j < nprof)%nat -> (bin i j < nbins)%nat) ->
  counts [npart; nprof; nbins] ->
  exists h' l' v,
    call_count single h
      [VArr lp; VArr lx; VInt (Z.of_nat nprof); VInt (Z.of_nat npart); VInt (Z.of_nat nbins)] [] = Ok (h', l') /\
    result_in h h' lp l' ap d v /\
    table nprof nbins (fun j b => f j b + qn (count npart bin j b))%Qc v.
Proof. intros. eapply count_call; eauto. Qed.
(*EX*)
(** Two of three particles in bin 0 of profile 0, in bin 1 of profile 1. *)
Example C108_counts_ex :
  q_show (call_count (fun x => x) q_heap [VArr 3; VArr 0; VInt 2; VInt 3; VInt 2]%Z []) 2 =
  Some (3%nat, Some ([2; 2]%nat, F32, [2; 1; 1; 2]%Q), Some ([2; 2]%nat, F64, [0; 0; 0; 0]%Q)) /\
  holds_ints (NArr [3; 2]%nat true (Int32 [0; 1; 1; 1; 0; 0]%Z)) 3 2 q_bin.
Proof.
  split; [vm_compute; reflexivity|]. exists [0; 1; 1; 1; 0; 0]%Z. split; [left; reflexivity|].
  split; [reflexivity|]. intros i j A B.
  do 3 (destruct i as [|i]; [do 2 (destruct j as [|j]; [reflexivity|]); do 2 apply le_S_n in B; inversion B|]).
  do 3 apply le_S_n in A. inversion A.
Qed.
(*XE*)

(** Counters in single precision are not updated when the positions are not a
    contiguous array of 32-bit integers: the result is a new array of doubles. *)
Lemma C108_single_refuted_lem : forall (single : Qc -> Qc) (h : nheap) (lp lx : nat) (ap ax : narr)
    (npart nprof nbins : nat) (bin : nat -> nat -> nat) (f : nat -> nat -> Qc),
  nth_error h lp = Some ap -> nth_error h lx = Some ax -> floats_of F32 ap -> ~ ints_of ax ->
  holds_ints ax npart nprof bin -> table nprof nbins f (values_of ap) ->
  (forall i j, (i < npart)%nat -> (j < nprof)%nat -> (bin i j < nbins)%nat) ->
  counts [npart; nprof; nbins] ->
  exists h' l' v,
    call_count single h
      [VArr lp; VArr lx; VInt (Z.of_nat nprof); VInt (Z.of_nat npart); VInt (Z.of_nat nbins)] [] = Ok (h', l') /\
    l' <> lp /\ nth_error h' lp = Some ap /\ nth_error h' l' = Some (NArr (n_shape ap) true (Floats F64 v)).
Proof.
  intros single h lp lx ap ax npart nprof nbins bin f A B F I X T H N.
  destruct (count_call single h lp lx ap ax F64 npart nprof nbins bin f A B) as (h' & l' & v & E & R & _); auto.
  { right. split; auto. intros [_ J]. auto. }
  destruct R as (R1 & R2 & R3 & R4).
  assert (Q : lp <> l').
  { assert (L : (lp < List.length h)%nat) by (apply nth_error_Some; congruence).
    assert (G := R3 ltac:(intros (s & w & G); destruct F as (s' & w' & F); congruence)). lia. }
  exists h', l', v. auto.
Qed.
(*EX*)
Example C108_single_ex :
  q_show (call_count (fun x => x) q_heap [VArr 3; VArr 1; VInt 2; VInt 3; VInt 2]%Z []) 3 =
  Some (8%nat, Some ([2; 2]%nat, F64, [2; 1; 1; 2]%Q), Some ([2; 2]%nat, F32, [0; 0; 0; 0]%Q)).
Proof. vm_compute. reflexivity. Qed.
(*XE*)

(** Called with the numbers of particles and profiles by name it leaves the
    array when there are more particles than profiles. *)
Lemma C108_keywords_refuted_lem : forall (single : Qc -> Qc) (h : nheap) (lp lx : nat) (ap ax : narr) (d : dtype)
    (npart nprof nbins : nat) (bin : nat -> nat -> nat) (f : nat -> nat -> Qc),
  nth_error h lp = Some ap -> nth_error h lx = Some ax -> precision_for d ap ax ->
  holds_ints ax npart nprof bin -> table nprof nbins f (values_of ap) ->
  (forall i j, (i < npart)%nat -> (j < nprof)%nat -> (bin i j < nbins)%nat) ->
  counts [npart; nprof; nbins] -> (1 <= nprof < npart)%nat ->
  call_count single h [VArr lp; VArr lx]
    [("n_particles"%string, VInt (Z.of_nat npart)); ("n_profiles"%string, VInt (Z.of_nat nprof));
     ("n_bins"%string, VInt (Z.of_nat nbins))] = Fail OutOfBounds.
Proof. intros. eapply count_by_name; eauto. Qed.
(*EX*)
Example C108_keywords_ex :
  call_count (fun x => x) q_heap [VArr 2; VArr 0]
    [("n_particles"%string, VInt 3); ("n_profiles"%string, VInt 2); ("n_bins"%string, VInt 2)] = Fail OutOfBounds.
Proof. vm_compute. reflexivity. Qed.
(*XE*)

(** back_project adds to the weight of every particle the values of the
    waterfall in the bins it passes; it works in double precision and returns
    the array given if that is a contiguous one of doubles. *)
Lemma C109_back_project_lem : forall (single : Qc -> Qc) (h : nheap) (lw lf lp : nat) (aw af ap : narr)
    (npart nprof nbins : nat) (bin : nat -> nat -> nat) (w : nat -> Qc) (f : nat -> nat -> Qc),
  nth_error h lw = Some aw -> nth_error h lf = Some af -> nth_error h lp = Some ap -> lw <> lp ->
  vector npart w (values_of aw) -> table nprof nbins f (values_of ap) ->
  holds_ints af npart nprof (fun i j => j * nbins + bin i j)%nat ->
  (forall i j, (i < npart)%nat -> (j < nprof)%nat -> (bin i j < nbins)%nat) ->
  counts [npart; nprof; nprof * nbins]%nat ->
  exists h' l' v,
    call_back_project single h [VArr lw; VArr lf; VArr lp; VInt (Z.of_nat npart); VInt (Z.of_nat nprof)] []
      = Ok (h', l') /\
    result_in h h' lw l' aw F64 v /\ vector npart (fun i => w i + gather nprof bin f i)%Qc v.
Proof. intros. eapply back_call; eauto. Qed.
(*EX*)
Example C109_back_project_ex :
  q_show (call_back_project (fun x => x) q_heap [VArr 5; VArr 4; VArr 6; VInt 3; VInt 2]%Z []) 6 =
  Some (5%nat, Some ([3]%nat, F64, [3; 2; 2]%Q), Some ([4]%nat, F64, [1; 0; 0; 1]%Q)).
Proof. vm_compute. reflexivity. Qed.
(*XE*)

(** project adds to every bin the weights of the particles in it, in the same
    way. *)
Lemma C109_project_lem : forall (single : Qc -> Qc) (h : nheap) (lr lf lw : nat) (ar af aw : narr)
    (npart nprof nbins : nat) (bin : nat -> nat -> nat) (w : nat -> Qc) (f : nat -> nat -> Qc),
  nth_error h lr = Some ar -> nth_error h lf = Some af -> nth_error h lw = Some aw -> lr <> lw ->
  table nprof nbins f (values_of ar) -> vector npart w (values_of aw) ->
  holds_ints af npart nprof (fun i j => j * nbins + bin i j)%nat ->
  (forall i j, (i < npart)%nat -> (j < nprof)%nat -> (bin i j < nbins)%nat) ->
  counts [npart; nprof; nbins; nprof * nbins]%nat ->
  exists h' l' v,
    call_project single h
      [VArr lr; VArr lf; VArr lw; VInt (Z.of_nat npart); VInt (Z.of_nat nprof); VInt (Z.of_nat nbins)] []
      = Ok (h', l') /\
    result_in h h' lr l' ar F64 v /\ table nprof nbins (fun j b => f j b + histogram npart bin w j b)%Qc v.
Proof. intros. eapply project_call; eauto. Qed.
(*EX*)
(** A waterfall in single precision: the result is a new array of doubles. *)
Example C109_project_ex :
  q_show (call_project (fun x => x) q_heap [VArr 3; VArr 4; VArr 5; VInt 3; VInt 2; VInt 2]%Z []) 3 =
  Some (8%nat, Some ([2; 2]%nat, F64, [2; 1; 1; 2]%Q), Some ([2; 2]%nat, F32, [0; 0; 0; 0]%Q)).
Proof. vm_compute. reflexivity. Qed.
(*XE*)

(** A flat array given to project stays flat: the result is not the waterfall of
    shape (profiles, bins). *)
Lemma C109_shape_refuted_lem : forall (single : Qc -> Qc) (h : nheap) (lr lf lw : nat) (ar af aw : narr)
    (npart nprof nbins : nat) (bin : nat -> nat -> nat) (w : nat -> Qc) (f : nat -> nat -> Qc),
  nth_error h lr = Some ar -> nth_error h lf = Some af -> nth_error h lw = Some aw -> lr <> lw ->
  n_shape ar = [nprof * nbins]%nat ->
  table nprof nbins f (values_of ar) -> vector npart w (values_of aw) ->
  holds_ints af npart nprof (fun i j => j * nbins + bin i j)%nat ->
  (forall i j, (i < npart)%nat -> (j < nprof)%nat -> (bin i j < nbins)%nat) ->
  counts [npart; nprof; nbins; nprof * nbins]%nat ->
  exists h' l' a',
    call_project single h
      [VArr lr; VArr lf; VArr lw; VInt (Z.of_nat npart); VInt (Z.of_nat nprof); VInt (Z.of_nat nbins)] []
      = Ok (h', l') /\
    nth_error h' l' = Some a' /\ n_shape a' = [nprof * nbins]%nat /\ n_shape a' <> [nprof; nbins].
Proof.
  intros single h lr lf lw ar af aw npart nprof nbins bin w f A B C D S TP VW X H N.
  destruct (project_call single h lr lf lw ar af aw npart nprof nbins bin w f A B C D TP VW X H N)
    as (h' & l' & v & E & (R & _) & _).
  exists h', l', (NArr (n_shape ar) true (Floats F64 v)). cbn [n_shape]. rewrite S in *. repeat split; auto. discriminate.
Qed.
(*EX*)
Example C109_shape_ex :
  q_show (call_project (fun x => x) q_heap [VArr 6; VArr 4; VArr 5; VInt 3; VInt 2; VInt 2]%Z []) 6 =
  Some (6%nat, Some ([4]%nat, F64, [3; 1; 1; 3]%Q), Some ([4]%nat, F64, [3; 1; 1; 3]%Q)).
Proof. vm_compute. reflexivity. Qed.
(*XE*)

(** reconstruct returns three new arrays with the weights, the discrepancies and
    the recreated waterfall, of the documented shapes, or raises a RuntimeError
    when all weights are zero after some iteration; it changes no array.  It
    works in single precision only for a waterfall and positions of the exact
    types. *)
Lemma C110_reconstruct_lem : forall (single sqrt : Qc -> Qc) (h : nheap) (lx lp : nat) (ax ap : narr) (d : dtype)
    (niter npart nprof nbins : nat) (bin : nat -> nat -> nat) (f : nat -> nat -> Qc) (kw : list (string * nval)),
  nth_error h lx = Some ax -> nth_error h lp = Some ap -> precision_for d ap ax ->
  holds_ints ax npart nprof bin -> table nprof nbins f (values_of ap) ->
  (forall i j, (i < npart)%nat -> (j < nprof)%nat -> (bin i j < nbins)%nat) ->
  counts [niter; nbins; npart; nprof] ->
  (kw = [] \/ exists vb cb, kw = [("verbose"%string, VBool vb); ("callback"%string, cb)]) ->
  let call := call_reconstruct single sqrt h
    [VArr lx; VArr lp; VInt (Z.of_nat niter); VInt (Z.of_nat nbins); VInt (Z.of_nat npart);
     VInt (Z.of_nat nprof)] kw in
  ((forall k, (k <= niter)%nat -> 0 < total npart (weights_after npart nprof nbins bin f true k))%Qc /\
   exists h' lw ld lr vw vd vr,
    call = Ok (h', (lw, ld, lr)) /\
    (forall k b, nth_error h k = Some b -> nth_error h' k = Some b) /\
    (List.length h <= lw)%nat /\ (List.length h <= ld)%nat /\ (List.length h <= lr)%nat /\
    lw <> ld /\ lw <> lr /\ ld <> lr /\
    nth_error h' lw = Some (NArr [npart] true (Floats d vw)) /\
    nth_error h' ld = Some (NArr [niter + 1]%nat true (Floats d vd)) /\
    nth_error h' lr = Some (NArr [nprof; nbins] true (Floats d vr)) /\
    vector npart (weights_after npart nprof nbins bin f true niter) vw /\
    vector (niter + 1)
      (fun k => sqrt (mean_square nprof nbins f (recreated_after npart nprof nbins bin f true k))) vd /\
    table nprof nbins (recreated_after npart nprof nbins bin f true niter) vr) \/
  ((exists k, (k <= niter)%nat /\
     forall i, (i < npart)%nat -> weights_after npart nprof nbins bin f true k i = 0%Qc) /\
   call = Fail (Raised RuntimeError)).
Proof. intros single sqrt h lx lp ax ap d niter npart nprof nbins bin f kw. apply reconstruct_call. Qed.
(*EX*)
(** No iterations: weights from the waterfall, one discrepancy (the square root
    left out), in single precision. *)
Example C110_reconstruct_ex :
  q_show3 (call_reconstruct (fun x => x) (fun x => x) q_heap [VArr 0; VArr 7; VInt 0; VInt 2; VInt 3; VInt 2]%Z
      [("verbose"%string, VBool false); ("callback"%string, VCallable)]) =
  Some (Some ([3]%nat, F32, [2; 1; 1]%Q), Some ([1]%nat, F32, [1 # 16]%Q),
        Some ([2; 2]%nat, F32, [3 # 4; 1 # 4; 1 # 4; 3 # 4]%Q)).
Proof. vm_compute. reflexivity. Qed.
(*XE*)

(** A waterfall in single precision with positions that are not a contiguous
    array of 32-bit integers: the results are in double precision. *)
Lemma C110_single_refuted_lem : forall (single sqrt : Qc -> Qc) (h : nheap) (lx lp : nat) (ax ap : narr)
    (niter npart nprof nbins : nat) (bin : nat -> nat -> nat) (f : nat -> nat -> Qc),
  nth_error h lx = Some ax -> nth_error h lp = Some ap -> floats_of F32 ap -> ~ ints_of ax ->
  holds_ints ax npart nprof bin -> table nprof nbins f (values_of ap) ->
  (forall i j, (i < npart)%nat -> (j < nprof)%nat -> (bin i j < nbins)%nat) ->
  counts [niter; nbins; npart; nprof] ->
  (forall k, (k <= niter)%nat -> exists i, (i < npart)%nat /\
     weights_after npart nprof nbins bin f true k i <> 0%Qc) ->
  exists h' lw ld lr vw vd vr,
    call_reconstruct single sqrt h
      [VArr lx; VArr lp; VInt (Z.of_nat niter); VInt (Z.of_nat nbins); VInt (Z.of_nat npart);
       VInt (Z.of_nat nprof)] [] = Ok (h', (lw, ld, lr)) /\
    nth_error h' lw = Some (NArr [npart] true (Floats F64 vw)) /\
    nth_error h' ld = Some (NArr [niter + 1]%nat true (Floats F64 vd)) /\
    nth_error h' lr = Some (NArr [nprof; nbins] true (Floats F64 vr)).
Proof.
  intros single sqrt h lx lp ax ap niter npart nprof nbins bin f A B F I X T H N W.
  destruct (reconstruct_call single sqrt h lx lp ax ap F64 niter npart nprof nbins bin f [] A B) as [[_ R]|[(k & K & Z) _]]; auto.
  { right. split; auto. intros [_ J]. auto. }
  - destruct R as (h' & lw & ld & lr & vw & vd & vr & E & _ & _ & _ & _ & _ & _ & _ & R1 & R2 & R3 & _).
    exists h', lw, ld, lr, vw, vd, vr. auto.
  - exfalso. destruct (W k K) as (i & Hi & G). apply G, Z. auto.
Qed.
(*EX*)
Example C110_single_ex :
  q_show3 (call_reconstruct (fun x => x) (fun x => x) q_heap [VArr 1; VArr 7; VInt 0; VInt 2; VInt 3; VInt 2]%Z []) =
  Some (Some ([3]%nat, F64, [2; 1; 1]%Q), Some ([1]%nat, F64, [1 # 16]%Q),
        Some ([2; 2]%nat, F64, [3 # 4; 1 # 4; 1 # 4; 3 # 4]%Q)).
Proof. vm_compute. reflexivity. Qed.
(*XE*)
