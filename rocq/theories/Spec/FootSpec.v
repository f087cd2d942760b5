(** Edges of a profile and straight lines, stated without the code. *)
From Coq Require Import List ZArith QArith Qcanon Permutation.
From Verif Require Import Base.QcLib.
Import ListNotations.
Local Open Scope Qc_scope.

(** m is the largest value of the profile, p the first bin that has it. *)
Definition peak (y : list Qc) (p : nat) (m : Qc) : Prop :=
  nth_error y p = Some m /\ (forall k v, nth_error y k = Some v -> v <= m) /\
  (forall k v, (k < p)%nat -> nth_error y k = Some v -> v < m).
(** The bins next to the peak that are below 15 per cent of it. *)
Definition left_edge (y : list Qc) (l : nat) : Prop := exists p m, peak y p m /\ (l < p)%nat /\
  (exists v, nth_error y l = Some v /\ v < qq 3 20 * m) /\
  (forall k v, (l < k < p)%nat -> nth_error y k = Some v -> qq 3 20 * m <= v).
Definition right_edge (y : list Qc) (r : nat) : Prop := exists p m, peak y p m /\ (p < r)%nat /\
  (exists v, nth_error y r = Some v /\ v < qq 3 20 * m) /\
  (forall k v, (p < k < r)%nat -> nth_error y k = Some v -> qq 3 20 * m <= v).
(** The first and the last bin at or above 15 per cent of the largest. *)
Definition first_high (y : list Qc) (l : nat) : Prop := exists p m, peak y p m /\
  (exists v, nth_error y l = Some v /\ qq 3 20 * m <= v) /\
  (forall k v, (k < l)%nat -> nth_error y k = Some v -> v < qq 3 20 * m).
Definition last_high (y : list Qc) (r : nat) : Prop := exists p m, peak y p m /\
  (exists v, nth_error y r = Some v /\ qq 3 20 * m <= v) /\
  (forall k v, (r < k)%nat -> nth_error y k = Some v -> v < qq 3 20 * m).

(** The first bin behind the peak that is below the given level of it. *)
Definition right_edge_at (level : Qc) (y : list Qc) (r : nat) : Prop := exists p m, peak y p m /\ (p < r)%nat /\
  (exists v, nth_error y r = Some v /\ v < level * m) /\
  (forall k v, (p < k < r)%nat -> nth_error y k = Some v -> level * m <= v).
(** mn is the smallest value of the profile. *)
Definition lowest (y : list Qc) (mn : Qc) : Prop := In mn y /\ forall v, In v y -> mn <= v.

(** The bins from i to before j lie on the line of slope a with its zero at bin
    position z. *)
Definition on_line (y : list Qc) (a z : Qc) (i j : nat) : Prop :=
  forall k, (i <= k < j)%nat -> nth_error y k = Some (a * (qn k - z)).
(** The same with abscissae x. *)
Definition on_line_at (x y : list Qc) (a z : Qc) (i j : nat) : Prop :=
  forall k, (i <= k < j)%nat -> exists u, nth_error x k = Some u /\ nth_error y k = Some (a * (u - z)).
Definition increasing (x : list Qc) : Prop :=
  forall i j u v, (i < j)%nat -> nth_error x i = Some u -> nth_error x j = Some v -> u < v.

(** Sum of a list; the k largest cells of an image: in decreasing order, and
    none of the others is larger. *)
Definition sum (l : list Qc) : Qc := fold_right Qcplus 0 l.
Definition largest (k : nat) (cells a : list Qc) : Prop :=
  length a = k /\ exists rest, Permutation (a ++ rest) cells /\ forall u v, In u a -> In v rest -> v <= u.

(** Examples: profiles with straight edges. *)
Definition ex_profile : list Qc := map qz [0; 1; 10; 19; 28; 100; 28; 19; 10; 1]%Z.
Definition ex_hill : list Qc := map qz [-8; 1; 10; 19; 28; 37; 100; 37; 28; 19; 10; 1; -8]%Z.
