(** What the numbers that describe a beam mean, stated without the code. *)
From Coq Require Import List Reals Permutation.
Import ListNotations.
Local Open Scope R_scope.

(** Sum of a list; sum over i < n. *)
Definition total (l : list R) : R := fold_right Rplus 0 l.
Definition sum_to (n : nat) (f : nat -> R) : R := total (map f (seq 0 n)).

(** Mean and standard deviation of the values x with weights h. *)
Definition mean (h x : list R) : R := total (map (fun p => fst p * snd p) (combine h x)) / total h.
Definition variance (h x : list R) : R :=
  total (map (fun p => fst p * (snd p - mean h x) ^ 2) (combine h x)) / total h.
Definition std (h x : list R) : R := sqrt (variance h x).

(** Bins of one width from x0: their lower edges and their centres. *)
Definition edges (x0 w : R) (n : nat) : list R := map (fun i => x0 + INR i * w) (seq 0 n).
Definition centres (x0 w : R) (n : nat) : list R := map (fun i => x0 + INR i * w + w / 2) (seq 0 n).

(** a: the contents of some of the cells. *)
Definition chosen (a cells : list R) : Prop := exists rest, Permutation (a ++ rest) cells.
(** n cells are enough to hold the given fraction of the whole, and no fewer. *)
Definition fewest (n : nat) (fraction : R) (cells : list R) : Prop :=
  (exists a, chosen a cells /\ length a = n /\ fraction * total cells <= total a) /\
  (forall a, chosen a cells -> fraction * total cells <= total a -> (n <= length a)%nat).

(** An image of a rows of b elements. *)
Definition shape (a b : nat) (img : list (list R)) : Prop :=
  length img = a /\ Forall (fun row => length row = b) img.

(** Averages over a normalised square image: of a function of the row number and
    the column number. *)
Definition average (n : nat) (img : list (list R)) (f : R -> R -> R) : R :=
  sum_to n (fun i => sum_to n (fun j => nth j (nth i img []) 0 * f (INR i) (INR j))).
Definition mean_row n img := average n img (fun x _ => x).
Definition mean_col n img := average n img (fun _ y => y).
Definition var_row n img := average n img (fun x _ => (x - mean_row n img) ^ 2).
Definition var_col n img := average n img (fun _ y => (y - mean_col n img) ^ 2).
Definition covariance n img := average n img (fun x y => (x - mean_row n img) * (y - mean_col n img)).
(** No negative pixel, and one in total. *)
Definition normalised (img : list (list R)) : Prop :=
  Forall (Forall (fun x => 0 <= x)) img /\ total (concat img) = 1.
