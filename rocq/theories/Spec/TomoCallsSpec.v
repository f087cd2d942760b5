(** What a user of a reconstruction object relies on.  Definitions only. *)
From Coq Require Import List ZArith Bool QArith Qcanon.
From Verif Require Import Base.Res Base.QcLib Model.MBind Model.MRecon Model.MCalls Model.MTomoCalls Spec.CallsSpec.
Import ListNotations.

(** All arrays that exist are as they were; new ones may exist. *)
Definition kept (h h' : nheap) : Prop := forall k a, nth_error h k = Some a -> nth_error h' k = Some a.

(** The values of an array in the selected precision: rounded if it is single
    and the array not already. *)
Definition in_precision (single : Qc -> Qc) (d : dtype) (a : narr) : list Qc :=
  match n_cells a, d with
  | Floats F32 v, _ => v
  | _, F64 => values_of a
  | _, F32 => map single (values_of a)
  end.

(** The array has [n] rows of [m] elements. *)
Definition two_axes (n m : nat) (a : narr) : Prop :=
  n_shape a = [n; m] /\ List.length (values_of a) = (n * m)%nat.

(** The positions as the model without arrays takes them. *)
Definition positions (single : Qc -> Qc) (d : dtype) (n m : nat) (ax : option narr) : coords :=
  match ax with None => CNone | Some a => CArr2 m (chunk n m (in_precision single d a)) end.
(** The positions given: none, or an array of two axes. *)
Definition positions_at (h : nheap) (n m : nat) (x : option nat) (ax : option narr) : Prop :=
  match x, ax with
  | None, None => True
  | Some l, Some a => nth_error h l = Some a /\ two_axes n m a
  | _, _ => False
  end.

(** The reconstruction object in the heap holds what the object [t] of the model
    without arrays holds: the waterfall in precision [d], and the positions as
    32-bit integers, both in arrays of its own. *)
Definition object_of (d : dtype) (rows : bool) (h h' : nheap) (o : tobj) (t : tomo) : Prop :=
  o_nprofs o = t_nprofs t /\ o_nbins o = t_nbins t /\ o_nparts o = t_nparts t /\
  (List.length h <= o_waterfall o)%nat /\
  nth_error h' (o_waterfall o) =
    Some (NArr [t_nprofs t; t_nbins t] rows (Floats d (concat (t_waterfall t)))) /\
  match t_xp t, o_xp o with
  | None, None => True
  | Some x, Some l => (List.length h <= l)%nat /\ l <> o_waterfall o /\
      nth_error h' l = Some (NArr [List.length x; t_nprofs t] true (Int32 (concat x)))
  | _, _ => False
  end.

(** Two objects with the same waterfall and positions. *)
Definition same_input (o o' : tobj) : Prop :=
  o_waterfall o' = o_waterfall o /\ o_nprofs o' = o_nprofs o /\ o_nbins o' = o_nbins o /\
  o_xp o' = o_xp o /\ o_nparts o' = o_nparts o.

(** The run of the object returns and stores the results of the run of [t], in
    new arrays of precision [d], or fails in the same way. *)
Definition runs_as (d : dtype) (t : tomo) (niter : Z) (h : nheap) (o : tobj)
    (expected : res (list Qc * list Qc * list (list Qc) * list (Z * Z))) (got : res (nheap * tobj * nat)) : Prop :=
  match expected with
  | Fail e => got = Fail e
  | Ok (w, discr, rec, _) =>
      exists h' o' lw ld lr v n, got = Ok (h', o', lw) /\ kept h h' /\
        o_weight o' = Some lw /\ o_diff o' = Some ld /\ o_recreated o' = lr /\ t_nparts t = Some n /\
        (List.length h <= lw)%nat /\ (List.length h <= ld)%nat /\ (List.length h <= lr)%nat /\
        lw <> ld /\ lw <> lr /\ ld <> lr /\
        nth_error h' lw = Some (NArr [n] true (Floats d w)) /\
        nth_error h' ld = Some (NArr [Z.to_nat (niter + 1)] true (Floats d discr)) /\
        nth_error h' lr = Some (NArr [t_nprofs t; t_nbins t] true (Floats d v)) /\
        chunk (t_nprofs t) (t_nbins t) v = rec /\
        same_input o o'
  end.

(** The precision in which an object works: that of its waterfall if the rows are
    contiguous, else double. *)
Definition works_in (d : dtype) (rows : bool) : dtype := if rows then d else F64.

(** An example: two profiles of two bins, three particles. *)
Definition r_heap : nheap :=
  [NArr [2; 2]%nat true (Floats F64 [1; 0; 0; 1]%Qc); NArr [3; 2]%nat true (Int64 [0; 1; 1; 1; 0; 0]%Z)].
Definition r_run (rows : bool) :=
  match new_tomo (fun x => x) F32 r_heap 0 rows (Some 1%nat) true with
  | Ok (h, o) =>
      match run_tomo (fun x => x) (fun x => x) h o 0 false VNone with
      | Ok (h, o, w) => q_show (Ok (h, w)) (o_recreated o)
      | Fail _ => None
      end
  | Fail _ => None
  end.
