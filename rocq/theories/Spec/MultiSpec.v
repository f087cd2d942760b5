(** What the multi-bunch reconstruction computes.  Every particle occurs once
    per bunch, shifted by the bunch's centre; the copies are numbered
    q = c * npart + i (bunch c, particle i).  A copy takes part only if it
    stays inside the cuts of its bunch. *)
From Coq Require Import List Arith ZArith QArith Qcanon.
From Verif Require Import Base.QcLib Model.MRecon Spec.ReconSpec Spec.TomoSpec.
Import ListNotations.
Local Open Scope Qc_scope.

Section Multi.
Variables nbunch npart nprof nbins : nat.
Variable x : nat -> nat -> Z.           (** bin of particle i at profile j *)
Variables centre left right : nat -> Z. (** of bunch c *)
Variable prof : nat -> nat -> Qc.       (** the measured waterfall *)

(** Bunch and particle of a copy; its bin at profile j. *)
Definition bunch_of (q : nat) : nat := (q / npart)%nat.
Definition part_of (q : nat) : nat := (q mod npart)%nat.
Definition zbin (q j : nat) : Z := (x (part_of q) j + centre (bunch_of q))%Z.
Definition mbin (q j : nat) : nat := Z.to_nat (zbin q j).

(** The copy stays between the cuts (included) of its bunch. *)
Definition inside (q : nat) : bool :=
  forallb (fun j => (left (bunch_of q) <=? zbin q j)%Z && (zbin q j <=? right (bunch_of q))%Z) (seq 0 nprof).

Notation np := (nbunch * npart)%nat.

(** Weights and previous recreated waterfall after k iterations. *)
Fixpoint miterate (k : nat) : (nat -> Qc) * (nat -> nat -> Qc) :=
  match k with
  | O => (fun q => if inside q then pos (gather nprof mbin prof q) else 0, fun _ _ => 0)
  | S k' =>
    let '(w, R) := miterate k' in
    let R' := next_recreated np nbins mbin true R w in
    (fun q => if inside q then next_weights np nprof nbins mbin prof R' w q else 0, R')
  end.
Definition mweights (k : nat) : nat -> Qc := fst (miterate k).
Definition mrecreated (k : nat) : nat -> nat -> Qc :=
  next_recreated np nbins mbin true (snd (miterate k)) (mweights k).

(** Weight of one bunch. *)
Definition bunch_total (c k : nat) : Qc := sumn npart (fun i => mweights k (c * npart + i)%nat).

End Multi.

(** Sum of the squares of a waterfall's values over columns l <= b < r. *)
Definition square_sum_between (nprof : nat) (l r : nat) (d : nat -> nat -> Qc) : Qc :=
  sumn nprof (fun j => sumn (r - l) (fun b => d j (l + b)%nat * d j (l + b)%nat)).

(** Elements of lists. *)
Definition zcell (xp : list (list Z)) (i j : nat) : Z := nth j (nth i xp []) 0%Z.
Definition znth (l : list Z) (c : nat) : Z := nth c l 0%Z.

(** The arguments of one call: at least one bunch, as many cuts as bunches,
    no empty cut, and every particle shifted to every bunch is inside the
    image.  (The code checks none of this.) *)
Record good_call (t : tomo) (xp : list (list Z)) (centers cutl cutr : list Z) (niter : Z) (split0 : list Qc)
  : Prop := GoodCall {
  gc_reach : reachable t;
  gc_xp : t_xp t = Some xp;
  gc_bunch : (0 < length centers)%nat;
  gc_left : length cutl = length centers;
  gc_right : length cutr = length centers;
  gc_cut : forall c, (c < length centers)%nat -> znth cutl c <> znth cutr c;
  gc_fit : Forall (fun ce => Forall (Forall (fun x => (0 <= x + ce < Z.of_nat (t_nbins t))%Z)) xp) centers;
  gc_niter : (0 <= niter)%Z;
  gc_split : Z.of_nat (length split0) = ((niter + 1) * Z.of_nat (length centers))%Z }.

(** Quantities of the specification for such a call. *)
Definition weight_after (t : tomo) xp centers cutl cutr (k : nat) : nat -> Qc :=
  mweights (length centers) (length xp) (t_nprofs t) (t_nbins t) (zcell xp) (znth centers) (znth cutl) (znth cutr)
    (cell (t_waterfall t)) k.
Definition recreated_by (t : tomo) xp centers cutl cutr (k : nat) : nat -> nat -> Qc :=
  mrecreated (length centers) (length xp) (t_nprofs t) (t_nbins t) (zcell xp) (znth centers) (znth cutl) (znth cutr)
    (cell (t_waterfall t)) k.
Definition bunch_weight (t : tomo) xp centers cutl cutr (c k : nat) : Qc :=
  sumn (length xp) (fun i => weight_after t xp centers cutl cutr k (c * length xp + i)%nat).
(** Copy of particle i in bunch c stays within the cuts of the bunch. *)
Definition within_cuts (t : tomo) xp centers cutl cutr (c i : nat) : Prop :=
  forall j, (j < t_nprofs t)%nat ->
    (znth cutl c <= zcell xp i j + znth centers c <= znth cutr c)%Z.

(** ** run_hybrid of the multi-bunch object *)
Section HybridMulti.
Variables nbunch npart nprof nbins : nat.
Variable x : nat -> nat -> Z.
Variables centre left right : nat -> Z.
Variable prof : nat -> nat -> Qc.
Notation np := (nbunch * npart)%nat.
Notation BIN := (mbin npart x centre).

(** The copy stays strictly between the cuts of its bunch. *)
Definition strictly_inside (q : nat) : bool :=
  forallb (fun j => (left (bunch_of npart q) <? zbin npart x centre q j)%Z &&
                    (zbin npart x centre q j <? right (bunch_of npart q))%Z) (seq 0 nprof).

(** The table of bins, transposed and then read as if it were not. *)
Definition misread (i j : nat) : Z :=
  let k := (i * nprof + j)%nat in x (k mod npart)%nat (k / npart)%nat.
Definition hybrid_compensation (j b : nat) : Qc :=
  compensation np nprof nbins (mbin npart misread centre) j b.

(** Weights after k iterations; nothing is carried over from the waterfall
    recreated before. *)
Fixpoint hybrid_weights (k : nat) : nat -> Qc :=
  match k with
  | O => fun q => if strictly_inside q then pos (gather nprof BIN prof q) else 0
  | S k' =>
    let w := hybrid_weights k' in
    let R := row_normalised nbins (histogram np BIN w) in
    fun q => if strictly_inside q
             then pos (w q + gather nprof BIN (fun j b => (prof j b - R j b) * hybrid_compensation j b) q) else 0
  end.
Definition hybrid_recreated (k : nat) : nat -> nat -> Qc := row_normalised nbins (histogram np BIN (hybrid_weights k)).
End HybridMulti.

(** The arguments of a call of run_hybrid: cuts inside the image, every particle
    shifted to every bunch inside the image.  (The code checks none of this.) *)
Record good_hybrid_call (t : tomo) (xp : list (list Z)) (centers cutl cutr : list Z) : Prop := GoodHybridCall {
  gh_reach : reachable t;
  gh_xp : t_xp t = Some xp;
  gh_left : length cutl = length centers;
  gh_right : length cutr = length centers;
  gh_cut : forall c, (c < length centers)%nat -> (0 <= znth cutl c < znth cutr c)%Z /\ (znth cutr c <= Z.of_nat (t_nbins t))%Z;
  gh_fit : Forall (fun ce => Forall (Forall (fun x => (0 <= x + ce < Z.of_nat (t_nbins t))%Z)) xp) centers }.
Definition hybrid_weight_after (t : tomo) xp centers cutl cutr (k : nat) : nat -> Qc :=
  hybrid_weights (length centers) (length xp) (t_nprofs t) (t_nbins t) (zcell xp) (znth centers) (znth cutl) (znth cutr)
    (cell (t_waterfall t)) k.
Definition hybrid_recreated_by (t : tomo) xp centers cutl cutr (k : nat) : nat -> nat -> Qc :=
  hybrid_recreated (length centers) (length xp) (t_nprofs t) (t_nbins t) (zcell xp) (znth centers) (znth cutl) (znth cutr)
    (cell (t_waterfall t)) k.
