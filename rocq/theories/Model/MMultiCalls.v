(** Model of multi-bunch reconstruction objects that hold numpy arrays, on the
    CPU: [libtomo.reconstruct_multi] and [TomographyMultibunch.run].
    LT/cpp_routines/libtomo.cpp 445-510 and 625-633,
    LT/tomography/tomography_multibunch.py 66-68 and 234-296.

    Arrays live in the heap of Model/MCalls.v; the constructor is [new_tomo] of
    Model/MTomoCalls.v.  Arithmetic is exact in both precisions. *)
From Coq Require Import List ZArith Bool QArith Qcanon String.
From Verif Require Import Base.Res Base.QcLib Model.MBind Model.MRecon Model.MMulti Model.MCalls Model.MTomoCalls.
Import ListNotations.
Local Open Scope Z_scope.

Section Multi.
Variable single sqrt : Qc -> Qc.

Local Open Scope string_scope.
(** libtomo.cpp 625-633. *)
Definition multi_names :=
  ["xp"; "waterfall"; "inp_cutleft"; "inpt_cutright"; "inp_centers"; "n_iter"; "n_bins"; "n_particles";
   "n_profiles"; "n_centers"; "verbose"; "callback"].
Definition multi_defaults := [("verbose", VBool false); ("callback", VNone)].
Definition multi_versions :=
  [[NInts; NFloats F64; NInts; NInts; NInts; NInt; NInt; NInt; NInt; NInt; NBool; NOptional];
   [NInts; NFloats F32; NInts; NInts; NInts; NInt; NInt; NInt; NInt; NInt; NBool; NOptional]].
Local Close Scope string_scope.

(** libtomo.cpp 445-510 [wrapper_reconstruct_multi]: four new arrays (weights,
    discrepancies, discrepancies of the bunches, recreated profiles) in the
    precision of the version.  [split0] is the memory of the third at entry.  The
    calls of the callback are left out; products of the numbers do not overflow. *)
Definition call_reconstruct_multi (split0 : list Qc) (h : nheap) (pos : list nval) (kw : list (string * nval))
  : res (nheap * (nat * nat * nat * nat)) :=
  match arguments multi_names multi_defaults pos kw with
  | None => Fail (Raised TypeError)
  | Some vs =>
      match choose single multi_versions h vs with
      | Some (v, h, [VArr xp; VArr wf; VArr cutl; VArr cutr; VArr centers; VInt n_iter; VInt n_bins;
                     VInt n_particles; VInt n_profiles; VInt n_centers; VBool _; _]) =>
          let d := match v with O => F64 | _ => F32 end in
          let np := Z.to_nat n_profiles in let nb := Z.to_nat n_bins in let n := Z.to_nat n_particles in
          let nc := Z.to_nat n_centers in
          x <- ints_at h xp ;; p <- floats_at h wf ;;
          l <- ints_at h cutl ;; r <- ints_at h cutr ;; c <- ints_at h centers ;;
          s <- reconstruct_multi sqrt split0 x c l r p n_iter nb n np nc ;;
          let k := List.length h in
          Ok ((h ++ [NArr [n * nc]%nat true (Floats d (m_weights s));
                    NArr [Z.to_nat (n_iter + 1)] true (Floats d (m_discr s));
                    NArr [nc * Z.to_nat (n_iter + 1)]%nat true (Floats d (m_split s));
                    NArr [np; nb] true (Floats d (m_rec s))])%list, (k, S k, S (S k), S (S (S k))))
      | _ => Fail (Raised TypeError)
      end
  end.

(** The attributes that [run] sets besides those of a [tobj]: weight_combined;
    and the values of diff_split and weight_split, which are views of arrays. *)
Record multi_out := MultiOut {
  u_combined : nat; u_diff_split : list (list Qc); u_weight_split : list (list Qc) }.

(** tomography_multibunch.py 234-296 [run]: centers, cutleft and cutright are
    arrays of integers of one axis; a list of ints is taken by the compiled
    routine like an array that is not contiguous.  The last component is the value
    returned. *)
Definition run_multi_tomo (split0 : list Qc) (h : nheap) (o : tobj) (centers cutleft cutright : nat) (niter : Z)
    (verbose : bool) (callback : nval) : res (nheap * tobj * multi_out * nval) :=
  match o_xp o, o_nparts o with
  | Some xp, Some n =>
      nc <- match nth_error h centers with
            | Some (NArr (nc :: _) _ _) => Ok nc
            | _ => Fail (Raised TypeError)
            end ;;
      '(h, (w, d, s, r)) <- call_reconstruct_multi split0 h
        [VArr xp; VArr (o_waterfall o); VArr cutleft; VArr cutright; VArr centers; VInt niter;
         VInt (Z.of_nat (o_nbins o)); VInt (Z.of_nat n); VInt (Z.of_nat (o_nprofs o)); VInt (Z.of_nat nc);
         VBool verbose; callback] [] ;;
      sv <- floats_at h s ;; wv <- floats_at h w ;;
      split <- transpose (Z.to_nat (niter + 1)) nc (chunk (Z.to_nat (niter + 1)) nc sv) ;;
      Ok (h, TObj (o_waterfall o) (o_nprofs o) (o_nbins o) (o_xp o) (o_nparts o) r (Some d) (o_weight o),
          MultiOut w split (chunk nc n wv), VNone)
  | _, _ => Fail (Raised CoordinateError)
  end.
End Multi.
