(** Terms used in statements about the treatment of raw data. *)
From Coq Require Import List ZArith Bool QArith Qcanon.
From Verif Require Import Base.QcLib Model.MPreproc Spec.TomoSpec.
Import ListNotations.
Local Open Scope Qc_scope.

(** Sum of r consecutive elements of row i starting at bin b. *)
Definition bin_sum (wf : list (list Qc)) (i b r : nat) : Qc := sumn r (fun a => cell wf i (b + a)).

(** The change between bins b and b+1, over all profiles. *)
Definition step (wf : list (list Qc)) (n b : nat) : Qc :=
  sumn n (fun i => let d := cell wf i (S b) - cell wf i b in if qltb d 0 then - d else d).

(** v is the smallest (largest) of f 0, ..., f (n-1). *)
Definition smallest (n : nat) (f : nat -> Qc) (v : Qc) : Prop :=
  (exists i, (i < n)%nat /\ f i = v) /\ forall i, (i < n)%nat -> v <= f i.
Definition largest (n : nat) (f : nat -> Qc) (v : Qc) : Prop :=
  (exists i, (i < n)%nat /\ f i = v) /\ forall i, (i < n)%nat -> f i <= v.

Definition increasing (l : list nat) : Prop :=
  forall a b, (a < b)%nat -> (b < length l)%nat -> (nth a l 0 < nth b l 0)%nat.

(** Assignments to a Profiles object and its machine. *)
Inductive passign := PSetNbins (n : Z) | PSetWaterfall (nbins : nat) (wf : list (list Qc)).
Definition papply (p : profiles) (a : passign) : profiles :=
  match a with
  | PSetNbins n => Profiles (set_nbins (pf_machine p) n) (pf_waterfall p)
  | PSetWaterfall n wf => fst (set_waterfall p n wf)
  end.
Definition phistory (p : profiles) (l : list passign) : profiles := fold_left papply l p.
