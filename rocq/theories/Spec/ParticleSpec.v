(** Terms used in statements about particles and images. *)
From Coq Require Import List ZArith Bool QArith Qcanon.
From Verif Require Import Base.QcLib Model.MParticles.
Import ListNotations.
Local Open Scope Qc_scope.

(** Inside an image of w bins. *)
Definition inside (w : Z) (x : num) : Prop :=
  match x with Num q => 0 <= q /\ q < qz w | _ => False end.

Definition not_nan (x : num) : Prop := x <> NNaN.

(** The particle numbers in [keep], in increasing order, are those of the
    particles inside the image at every profile. *)
Definition survivors (w : Z) (m : nat) (xp : list (list num)) (keep : list nat) : Prop :=
  (forall a b, (a < b)%nat -> (b < length keep)%nat -> (nth a keep 0 < nth b keep 0)%nat) /\
  forall j, In j keep <-> ((j < m)%nat /\ forall row x, In row xp -> nth_error row j = Some x -> inside w x).

(** row' consists of the elements of row with the numbers in keep. *)
Definition picked {A} (keep : list nat) (row row' : list A) : Prop :=
  map Some row' = map (nth_error row) keep.

(** Weight in cell (a,b) of the image. *)
Definition weight_at (xp yp : list Z) (w : list Qc) (a b : nat) : Qc :=
  sumn (length xp) (fun i =>
    if (Z.eqb (nth i xp 0%Z) (Z.of_nat a) && Z.eqb (nth i yp 0%Z) (Z.of_nat b))%bool
    then nth i w 0 else 0).
Definition profile_at (xp : list Z) (w : list Qc) (a : nat) : Qc :=
  sumn (length xp) (fun i => if Z.eqb (nth i xp 0%Z) (Z.of_nat a) then nth i w 0 else 0).

Definition in_image (n : nat) (l : list Z) : Prop := Forall (fun z => (0 <= z < Z.of_nat n)%Z) l.

(** The snpt*snpt points of cell (i,j): (i + (2a-1)/(2 snpt), j + (2b-1)/(2 snpt)). *)
Definition cell_points (snpt : nat) (i j : Z) : list (Qc * Qc) :=
  flat_map (fun b => map (fun a =>
     (qz i + (qz 2 * qn a - 1) / (qz 2 * qn snpt), qz j + (qz 2 * qn b - 1) / (qz 2 * qn snpt)))
     (seq 1 snpt)) (seq 1 snpt).
(** Whether a point lies in the unit cell with lower corner (i,j). *)
Definition in_cell (i j : Z) (p : Qc * Qc) : bool :=
  (Z.eqb (qfloor (fst p)) i && Z.eqb (qfloor (snd p)) j)%bool.
