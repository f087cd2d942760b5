(** Model of the reconstruction functions kept for older programs:
    LT/cpp_routines/tomolib_wrappers.py 226-342 [back_project], [project],
    [reconstruct].  Each passes its arguments by position to the compiled
    routine of the same name (Model/MCalls.v).  The logged warning is left out. *)
From Coq Require Import List ZArith Bool QArith Qcanon String.
From Verif Require Import Base.Res Base.QcLib Model.MBind Model.MCalls.
Import ListNotations.

Section Old.
Variable single sqrt : Qc -> Qc.

Local Open Scope string_scope.
(** tomolib_wrappers.py 226-228: the parameters; none has a default. *)
Definition old_back_names := ["weights"; "flat_points"; "flat_profiles"; "nparts"; "nprofs"].

(** tomolib_wrappers.py 226-257.  Python binds the arguments by the rule of
    [arguments]; a call it refuses raises a TypeError. *)
Definition old_back_project (h : nheap) (pos : list nval) (kw : list (string * nval)) : res (nheap * nat) :=
  match arguments old_back_names [] pos kw with
  | Some [weights; flat_points; flat_profiles; nparts; nprofs] =>
      call_back_project single h [weights; flat_points; flat_profiles; nparts; nprofs] []
  | _ => Fail (Raised TypeError)
  end.

(** tomolib_wrappers.py 260-262. *)
Definition old_project_names := ["recreated"; "flat_points"; "weights"; "nparts"; "nprofs"; "nbins"].

(** tomolib_wrappers.py 260-295. *)
Definition old_project (h : nheap) (pos : list nval) (kw : list (string * nval)) : res (nheap * nat) :=
  match arguments old_project_names [] pos kw with
  | Some [recreated; flat_points; weights; nparts; nprofs; nbins] =>
      call_project single h [recreated; flat_points; weights; nparts; nprofs; nbins] []
  | _ => Fail (Raised TypeError)
  end.

(** tomolib_wrappers.py 298-299. *)
Definition old_reconstruct_names := ["xp"; "waterfall"; "niter"; "nbins"; "npart"; "nprof"; "verbose"].

(** tomolib_wrappers.py 298-342. *)
Definition old_reconstruct (h : nheap) (pos : list nval) (kw : list (string * nval))
  : res (nheap * (nat * nat * nat)) :=
  match arguments old_reconstruct_names [] pos kw with
  | Some [xp; waterfall; niter; nbins; npart; nprof; verbose] =>
      call_reconstruct single sqrt h [xp; waterfall; niter; nbins; npart; nprof; verbose] []
  | _ => Fail (Raised TypeError)
  end.
End Old.
