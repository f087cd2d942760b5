(** What the reconstruction computes, in terms of sums.  Independent of the
    model: particles are numbered i, profiles j, bins b; [bin i j] is the bin
    of particle i at profile j; [prof j b] the measured waterfall. *)
From Coq Require Import List Arith QArith Qcanon.
From Verif Require Import Base.QcLib.
Import ListNotations.
Local Open Scope Qc_scope.

(** Negative values replaced by zero. *)
Definition pos (x : Qc) : Qc := if qltb x 0 then 0 else x.

Section Recon.
Variables npart nprof nbins : nat.
Variable bin : nat -> nat -> nat.
Variable prof : nat -> nat -> Qc.

(** Histogram of weights w at profile j. *)
Definition histogram (w : nat -> Qc) (j b : nat) : Qc :=
  sumn npart (fun i => if Nat.eqb (bin i j) b then w i else 0).

(** Sum of the values of a waterfall seen by particle i. *)
Definition gather (f : nat -> nat -> Qc) (i : nat) : Qc := sumn nprof (fun j => f j (bin i j)).

(** Each row divided by its sum. *)
Definition row_normalised (f : nat -> nat -> Qc) (j b : nat) : Qc := f j b / sumn nbins (f j).

(** Number of particles in a bin; the largest such number. *)
Definition count (j b : nat) : nat := length (filter (fun i => Nat.eqb (bin i j) b) (seq 0 npart)).
Definition max_count : nat :=
  list_max (map (fun j => list_max (map (count j) (seq 0 nbins))) (seq 0 nprof)).

(** Compensation factor of a bin: empty bins count as one. *)
Definition compensation (j b : nat) : Qc := qn max_count / qn (Nat.max 1 (count j b)).

(** One update of the weights from a recreated waterfall. *)
Definition next_weights (R : nat -> nat -> Qc) (w : nat -> Qc) (i : nat) : Qc :=
  pos (w i + gather (fun j b => (prof j b - R j b) * compensation j b) i).

(** The recreated waterfall of weights w.  [keep]: the previous recreated
    waterfall is added before normalising (the C++ code does this). *)
Definition next_recreated (keep : bool) (R : nat -> nat -> Qc) (w : nat -> Qc) : nat -> nat -> Qc :=
  row_normalised (fun j b => (if keep then R j b else 0) + histogram w j b).

(** Weights and (previous) recreated waterfall after k iterations. *)
Fixpoint iterate (keep : bool) (k : nat) : (nat -> Qc) * (nat -> nat -> Qc) :=
  match k with
  | O => (fun i => pos (gather prof i), fun _ _ => 0)
  | S k' =>
    let '(w, R) := iterate keep k' in
    let R' := next_recreated keep R w in
    (next_weights R' w, R')
  end.

Definition weights_after (keep : bool) (k : nat) : nat -> Qc := fst (iterate keep k).

(** The recreated waterfall computed from the weights after k iterations. *)
Definition recreated_after (keep : bool) (k : nat) : nat -> nat -> Qc :=
  next_recreated keep (snd (iterate keep k)) (weights_after keep k).

(** Mean square difference to the measured waterfall. *)
Definition mean_square (R : nat -> nat -> Qc) : Qc :=
  sumn nprof (fun j => sumn nbins (fun b => (prof j b - R j b) * (prof j b - R j b)))
  / qn (nprof * nbins).

Definition total (w : nat -> Qc) : Qc := sumn npart w.

End Recon.
