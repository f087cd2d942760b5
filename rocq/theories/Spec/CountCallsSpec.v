(** What a caller of the compiled counting routine for several bunches expects.
    Definitions only. *)
From Coq Require Import List ZArith Bool QArith Qcanon.
From Verif Require Import Base.Res Base.QcLib Model.MBind Model.MCalls Spec.CallsSpec.
Import ListNotations.

(** The number of pairs of a bunch and a particle with the particle, shifted by
    the centre of the bunch, in bin [b] of profile [j]. *)
Definition copies_in (nbunch npart : nat) (x : nat -> nat -> Z) (centre : nat -> Z) (j b : nat) : nat :=
  length (filter (fun p => Z.eqb (x (snd p) j + centre (fst p)) (Z.of_nat b))
                 (list_prod (seq 0 nbunch) (seq 0 npart))).

(** An array of integers that fit 32 bits, with the values [v]. *)
Definition has_ints (a : narr) (v : list Z) : Prop :=
  (n_cells a = Int32 v \/ n_cells a = Int64 v) /\ Forall (fun z => (- 2 ^ 31 <= z < 2 ^ 31)%Z) v.

(** The precision the routine works in: single only if all three arrays are of
    the exact type. *)
Definition count_precision (d : dtype) (floats ints centers : narr) : Prop :=
  (d = F32 /\ floats_of F32 floats /\ ints_of ints /\ ints_of centers) \/
  (d = F64 /\ ~ (floats_of F32 floats /\ ints_of ints /\ ints_of centers)).

(** Arrays for the examples: positions of three particles in two profiles, of
    bins 0 and 1; two centres, as 32-bit integers and as a list; counters for two
    profiles of four bins in single precision. *)
Definition k_heap : nheap :=
  [NArr [3; 2]%nat true (Int32 [0; 1; 1; 1; 0; 0]%Z); NArr [2]%nat true (Int32 [0; 2]%Z);
   NArr [2]%nat false (Int64 [0; 2]%Z); NArr [2; 4]%nat true (Floats F32 (repeat 0%Qc 8))].
