(** What a user of a multi-bunch reconstruction object relies on.  Definitions
    only. *)
From Coq Require Import List ZArith Bool QArith Qcanon.
From Verif Require Import Base.Res Base.QcLib Model.MBind Model.MRecon Model.MMulti Model.MCalls Model.MTomoCalls
  Model.MMultiCalls Spec.CallsSpec Spec.TomoCallsSpec.
Import ListNotations.

(** An array of integers with the values [v], which fit 32 bits.  A list of ints
    is one that is not contiguous. *)
Definition ints_with (a : narr) (v : list Z) : Prop :=
  n_shape a = [List.length v] /\ (n_cells a = Int32 v \/ n_cells a = Int64 v) /\
  Forall (fun z => (- 2 ^ 31 <= z < 2 ^ 31)%Z) v.

(** The precision in which an object with a waterfall of precision [d], whose
    rows are contiguous or not, works for given centres and cuts. *)
Definition multi_precision (e d : dtype) (rows : bool) (centers left right : narr) : Prop :=
  (e = F32 /\ d = F32 /\ rows = true /\ ints_of centers /\ ints_of left /\ ints_of right) \/
  (e = F64 /\ ~ (d = F32 /\ rows = true /\ ints_of centers /\ ints_of left /\ ints_of right)).

(** The run of the object stores the results of [expected], those of the model
    without arrays, in new arrays of precision [e] and returns nothing, or fails in
    the same way. *)
Definition runs_multi_as (e : dtype) (t : tomo) (nc : nat) (niter : Z) (h : nheap) (o : tobj)
    (expected : res mresult) (got : res (nheap * tobj * multi_out * nval)) : Prop :=
  match expected with
  | Fail x => got = Fail x
  | Ok r =>
      exists h' o' u ld lr v n, got = Ok (h', o', u, VNone) /\ kept h h' /\ same_input o o' /\
        o_weight o' = o_weight o /\ o_diff o' = Some ld /\ o_recreated o' = lr /\ t_nparts t = Some n /\
        (List.length h <= u_combined u)%nat /\ (List.length h <= ld)%nat /\ (List.length h <= lr)%nat /\
        u_combined u <> ld /\ u_combined u <> lr /\ ld <> lr /\
        nth_error h' (u_combined u) = Some (NArr [n * nc]%nat true (Floats e (mr_weights r))) /\
        nth_error h' ld = Some (NArr [Z.to_nat (niter + 1)] true (Floats e (mr_diff r))) /\
        nth_error h' lr = Some (NArr [t_nprofs t; t_nbins t] true (Floats e v)) /\
        chunk (t_nprofs t) (t_nbins t) v = mr_recreated r /\
        u_diff_split u = mr_diff_split r /\ u_weight_split u = mr_weight_split r
  end.

(** An example: one profile of four bins, one particle, two bunches; centres and
    cuts as arrays and as lists. *)
Definition u_heap : nheap :=
  [NArr [1; 4]%nat true (Floats F32 [qz 3; qz 1; qz 3; qz 1]); NArr [1; 1]%nat true (Int32 [0%Z]);
   NArr [2]%nat true (Int32 [0; 2]%Z); NArr [2]%nat true (Int32 [0; 2]%Z); NArr [2]%nat true (Int32 [1; 3]%Z);
   NArr [2]%nat false (Int64 [0; 2]%Z); NArr [2]%nat false (Int64 [1; 3]%Z)].
Definition u_run (centers left right : nat) :=
  match new_tomo (fun x => x) F32 u_heap 0 true (Some 1%nat) true with
  | Ok (h, o) =>
      match run_multi_tomo (fun x => x) (fun x => x) (repeat 0%Qc 4) h o centers left right 1 false VNone with
      | Ok (h, o, u, r) => Some (q_array h (u_combined u), q_array h (o_recreated o), map (map this) (u_weight_split u))
      | Fail _ => None
      end
  | Fail _ => None
  end.
