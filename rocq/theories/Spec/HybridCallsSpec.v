(** What a user of the reference reconstruction relies on.  Definitions only. *)
From Coq Require Import List ZArith Bool QArith Qcanon.
From Verif Require Import Base.Res Base.QcLib Model.MBind Model.MRecon Model.MCalls Model.MTomoCalls Model.MHybridCalls
  Spec.CallsSpec Spec.TomoCallsSpec.
Import ListNotations.

(** The recreated waterfall of the object has the shape of the measured one, as
    after construction and after every run. *)
Definition recreated_fits (h : nheap) (o : tobj) : Prop :=
  exists a, nth_error h (o_recreated o) = Some a /\ n_shape a = [o_nprofs o; o_nbins o].

(** The run returns the weights and stores the discrepancies and the recreated
    waterfall of [expected], the results of the model without arrays, in new arrays
    of precision [d], or fails in the same way.  The weight attribute stays. *)
Definition runs_hybrid_as (d : dtype) (t : tomo) (niter : nat) (h : nheap) (o : tobj)
    (expected : res (list Qc * list Qc * list (list Qc))) (got : res (nheap * tobj * nat)) : Prop :=
  match expected with
  | Fail e => got = Fail e
  | Ok (w, discr, rec) =>
      exists h' o' lw ld lr v n, got = Ok (h', o', lw) /\ kept h h' /\
        o_weight o' = o_weight o /\ o_diff o' = Some ld /\ o_recreated o' = lr /\ t_nparts t = Some n /\
        (List.length h <= lw)%nat /\ (List.length h <= ld)%nat /\ (List.length h <= lr)%nat /\
        lw <> ld /\ lw <> lr /\ ld <> lr /\
        nth_error h' lw = Some (NArr [n] true (Floats d w)) /\
        nth_error h' ld = Some (NArr [niter + 1]%nat true (Floats d discr)) /\
        nth_error h' lr = Some (NArr [t_nprofs t; t_nbins t] true (Floats d v)) /\
        chunk (t_nprofs t) (t_nbins t) v = rec /\
        same_input o o'
  end.

(** The example of C111 with the reference reconstruction, one iteration. *)
Definition y_run (d : dtype) (rows : bool) :=
  match new_tomo (fun x => x) d r_heap 0 rows (Some 1%nat) true with
  | Ok (h, o) =>
      match run_hybrid_tomo (fun x => x) (fun x => x) h o 1 with
      | Ok (h, o, w) => Some (q_array h w, q_array h (o_recreated o), q_array h 0)
      | Fail _ => None
      end
  | Fail _ => None
  end.
