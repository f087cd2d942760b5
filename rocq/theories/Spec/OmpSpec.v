(** What it means that a parallel loop has one result. *)
From Coq Require Import List ZArith.
From Verif Require Import Base.Res Model.MOmp.

Section Spec.
Context {T : Type}.

(** The memory holds the array l of numbers (or integers) at a. *)
Definition holds_r (m : mem T) (a : arr) (l : list T) : Prop := forall i x, get l i = Ok x -> m (R_ a i) = x.
Definition holds_i (m : mem T) (a : arr) (l : list Z) : Prop := forall i x, get l i = Ok x -> m (I_ a i) = x.

(** The array of a location. *)
Definition array_of (l : loc) : arr := match l with R_ a _ => a | I_ a _ => a end.

(** Only arrays in P differ. *)
Definition only_changes (P : arr -> Prop) (m m' : mem T) : Prop := forall l, ~ P (array_of l) -> m' l = m l.

(** Whatever values it reads, the program reads locations in A only and writes
    locations in W only. *)
Inductive within (A W : loc -> Prop) : prog T -> Prop :=
| within_stop : within A W Stop
| within_read : forall l k, A l -> (forall v, within A W (k v)) -> within A W (Read l k)
| within_write : forall l v p, W l -> within A W p -> within A W (Write l v p).

(** No data race: no program touches a location that another one writes. *)
Definition race_free (ps : list (prog T)) : Prop := exists W : nat -> loc -> bool,
  (forall i j l, W i l = true -> W j l = true -> i = j) /\
  forall i p, nth_error ps i = Some p -> within (fun l => forall j, j <> i -> W j l = false) (fun l => W i l = true) p.

(** The tables of the tracking routine. *)
Definition holds_rows (m : mem T) (a : Z -> arr) (rows : list (list T)) : Prop :=
  forall p row, get rows p = Ok row -> holds_r m (a p) row.
End Spec.

(** Memories for examples: zero everywhere, but for some arrays. *)
From Coq Require Import QArith Qcanon.
From Verif Require Import Base.QcLib.
Definition zero_mem : mem Qc := fun l => match l with R_ _ _ => 0%Qc | I_ _ _ => 0%Z end.
Definition with_r (a : arr) (w : list Qc) (m : mem Qc) : mem Qc := fun l =>
  match l with
  | R_ b i => if arr_eq_dec a b then nth (Z.to_nat i) w 0%Qc else m (R_ b i)
  | I_ b i => m (I_ b i)
  end.
Definition with_i (a : arr) (w : list Z) (m : mem Qc) : mem Qc := fun l =>
  match l with
  | R_ b i => m (R_ b i)
  | I_ b i => if arr_eq_dec a b then nth (Z.to_nat i) w 0%Z else m (I_ b i)
  end.
(** The first n elements of an array. *)
Definition read_r (m : mem Qc) (a : arr) (n : nat) : list Qc := map (fun i => m (R_ a (Z.of_nat i))) (seq 0 n).
Definition read_i (m : mem Qc) (a : arr) (n : nat) : list Z := map (fun i => m (I_ a (Z.of_nat i))) (seq 0 n).
