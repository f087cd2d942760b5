(** Shapes, values and histories of the Tomography object. *)
From Coq Require Import List ZArith QArith Qcanon Lia.
From Verif Require Import Base.Res Base.QcLib Model.MRecon.
Import ListNotations.
Local Open Scope Qc_scope.

(** A table of n rows of m elements. *)
Definition rectangular {A} (n m : nat) (l : list (list A)) : Prop :=
  length l = n /\ Forall (fun r => length r = m) l.

(** An array handed over by the caller really has the number of columns it
    claims to have. *)
Definition proper (v : coords) : Prop :=
  match v with CArr2 c rows => Forall (fun r => length r = c) rows | _ => True end.

(** Assignments made by the user; one that raises leaves the user with the
    object as the setter left it. *)
Inductive assignment := SetX (v : coords) | SetY (v : coords).
Definition value_of (a : assignment) := match a with SetX v => v | SetY v => v end.
Definition assign (t : tomo) (a : assignment) : tomo :=
  match a with SetX v => fst (set_xp t v) | SetY v => fst (set_yp t v) end.
Definition history (t : tomo) (l : list assignment) : tomo := fold_left assign l t.

(** Objects a program can get hold of. *)
Definition reachable (t : tomo) : Prop :=
  exists nprofs nbins wf x y t0 ops,
    rectangular nprofs nbins wf /\ proper x /\ proper y /\ Forall (fun a => proper (value_of a)) ops /\
    tomography nprofs nbins wf x y = Ok t0 /\ t = history t0 ops.

(** Element (i,j) of a table. *)
Definition cell (wf : list (list Qc)) (j b : nat) : Qc := nth b (nth j wf []) 0.
Definition bin_of (xp : list (list Z)) (i j : nat) : nat := Z.to_nat (nth j (nth i xp []) 0%Z).

(** Every row has no negative element and sums to one. *)
Definition good_rows (wf : list (list Qc)) : Prop :=
  Forall (fun r => Forall (fun x => 0 <= x) r /\ qsum r = 1) wf.

(** Coordinates inside the image: rows of [nprofs] bins in [0,nbins). *)
Definition xp_ok (nprofs nbins : nat) (xp : option (list (list Z))) : Prop :=
  match xp with
  | None => True
  | Some rows => rectangular (length rows) nprofs rows /\
                 Forall (Forall (fun x => (0 <= x < Z.of_nat nbins)%Z)) rows
  end.
