(** What a caller of the compiled reconstruction routines expects.  Definitions
    only. *)
From Coq Require Import List ZArith Bool QArith Qcanon.
From Verif Require Import Base.Res Base.QcLib Model.MBind Model.MCalls.
Import ListNotations.

(** The list holds a table of [n] rows of [m] elements, row after row. *)
Definition table {A} (n m : nat) (f : nat -> nat -> A) (l : list A) : Prop :=
  length l = (n * m)%nat /\
  forall i j, (i < n)%nat -> (j < m)%nat -> nth_error l (i * m + j) = Some (f i j).

(** The list holds [n] elements. *)
Definition vector {A} (n : nat) (f : nat -> A) (l : list A) : Prop :=
  length l = n /\ forall i, (i < n)%nat -> nth_error l i = Some (f i).

(** The values in an array. *)
Definition values_of (a : narr) : list Qc :=
  match n_cells a with Floats _ v => v | Int32 v | Int64 v => map qz v end.
(** An array of 32-bit or 64-bit integers that holds a table. *)
Definition holds_ints (a : narr) (n m : nat) (f : nat -> nat -> nat) : Prop :=
  exists v, (n_cells a = Int32 v \/ n_cells a = Int64 v) /\ table n m (fun i j => Z.of_nat (f i j)) v.

(** Contiguous arrays of floats of type [d], of 32-bit integers. *)
Definition floats_of (d : dtype) (a : narr) : Prop := exists s v, a = NArr s true (Floats d v).
Definition ints_of (a : narr) : Prop := exists s v, a = NArr s true (Int32 v).

(** The precision a routine with two versions works in, for an array of floats
    and an array of integers: single only if both are of the exact type. *)
Definition precision_for (d : dtype) (floats ints : narr) : Prop :=
  (d = F32 /\ floats_of F32 floats /\ ints_of ints) \/
  (d = F64 /\ ~ (floats_of F32 floats /\ ints_of ints)).

(** The call turns the heap [h] into [h'] and returns the array at [l'], of the
    shape of the given one, of type [d] and with elements [v]: the array given at [l] if it is
    of that type and contiguous, else a new one.  No other array changes. *)
Definition result_in (h h' : nheap) (l l' : nat) (a : narr) (d : dtype) (v : list Qc) : Prop :=
  nth_error h' l' = Some (NArr (n_shape a) true (Floats d v)) /\
  (floats_of d a -> l' = l) /\ (~ floats_of d a -> (length h <= l')%nat) /\
  (forall k b, nth_error h k = Some b -> k <> l' -> nth_error h' k = Some b).

(** Numbers that a C++ int holds. *)
Definition counts (l : list nat) : Prop := Forall (fun n => (Z.of_nat n < 2 ^ 31)%Z) l.

(** Arrays for the examples: positions of three particles in two profiles as
    32-bit and as 64-bit integers; counters for two profiles of two bins in
    double and single precision; the positions as indices of a flat table;
    weights; a flat waterfall. *)
Definition q_heap : nheap :=
  [NArr [3; 2]%nat true (Int32 [0; 1; 1; 1; 0; 0]%Z); NArr [3; 2]%nat true (Int64 [0; 1; 1; 1; 0; 0]%Z);
   NArr [2; 2]%nat true (Floats F64 (repeat 0%Qc 4)); NArr [2; 2]%nat true (Floats F32 (repeat 0%Qc 4));
   NArr [3; 2]%nat true (Int32 [0; 3; 1; 3; 0; 2]%Z); NArr [3]%nat true (Floats F64 [1; 1; 1]%Qc);
   NArr [4]%nat true (Floats F64 [1; 0; 0; 1]%Qc); NArr [2; 2]%nat true (Floats F32 [1; 0; 0; 1]%Qc)].
Definition q_bin (i j : nat) : nat := nth j (nth i [[0; 1]; [1; 1]; [0; 0]]%nat []) 0%nat.
(** An array of floats in a readable form; of the result of a call: its
    location, the array, and the array at [k]. *)
Definition q_array (h : nheap) (l : nat) : option (list nat * dtype * list Q) :=
  match nth_error h l with
  | Some (NArr s _ (Floats d v)) => Some (s, d, map this v)
  | _ => None
  end.
Definition q_show (r : res (nheap * nat)) (k : nat) :=
  match r with Ok (h, l) => Some (l, q_array h l, q_array h k) | Fail _ => None end.
Definition q_show3 (r : res (nheap * (nat * nat * nat))) :=
  match r with Ok (h, (a, b, c)) => Some (q_array h a, q_array h b, q_array h c) | Fail _ => None end.
