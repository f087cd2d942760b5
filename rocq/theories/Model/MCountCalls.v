(** Model of calls of the compiled counting routine for several bunches,
    [libtomo.count_particles_in_bins_multi].
    LT/cpp_routines/libtomo.cpp 373-393 and 609-613.

    Arrays live in the heap of Model/MCalls.v.  Arithmetic is exact in both
    precisions; the loops run on one thread (on several see [count_multi_par] of
    Model/MOmp.v). *)
From Coq Require Import List ZArith Bool QArith Qcanon String.
From Verif Require Import Base.Res Base.QcLib Model.MBind Model.MMulti Model.MCalls.
Import ListNotations.

Section Count.
Variable single : Qc -> Qc.

Local Open Scope string_scope.
(** libtomo.cpp 609-613: the names given to the parameters, and their types in
    the two versions. *)
Definition count_multi_names :=
  ["input_parts"; "input_xp"; "input_centers"; "n_particles"; "n_profiles"; "n_bins"; "n_centers"].
Definition count_multi_versions :=
  [[NFloats F64; NInts; NInts; NInt; NInt; NInt; NInt]; [NFloats F32; NInts; NInts; NInt; NInt; NInt; NInt]].
Local Close Scope string_scope.

(** libtomo.cpp 373-393 [wrapper_count_particles_in_bin_multi]: the fourth
    parameter is n_profiles and the fifth n_particles.  Negative numbers are taken
    as zero. *)
Definition call_count_multi (h : nheap) (pos : list nval) (kw : list (string * nval)) : res (nheap * nat) :=
  match arguments count_multi_names [] pos kw with
  | None => Fail (Raised TypeError)
  | Some vs =>
      match choose single count_multi_versions h vs with
      | Some (_, h, [VArr parts; VArr xp; VArr centers; VInt n_profiles; VInt n_particles; VInt n_bins;
                     VInt n_centers]) =>
          p <- floats_at h parts ;; x <- ints_at h xp ;; c <- ints_at h centers ;;
          r <- count_particles_in_bin_multi p x c (Z.to_nat n_profiles) (Z.to_nat n_particles)
                 (Z.to_nat n_bins) (Z.to_nat n_centers) ;;
          Ok (write h parts r, parts)
      | _ => Fail (Raised TypeError)
      end
  end.
End Count.
