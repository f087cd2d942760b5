(** Model of calls into the compiled reconstruction routines from Python:
    [libtomo.count_particles_in_bins], [libtomo.back_project],
    [libtomo.project] and [libtomo.reconstruct].
    LT/cpp_routines/libtomo.cpp 308-444 and 595-623.

    Arrays have a shape, a layout and a type (float64, float32, int32, int64)
    and live in a heap; pybind11 chooses a version and converts arguments.  The
    loops are those of Model/MRecon.v, with exact arithmetic in both
    precisions; converting an array to single precision rounds its elements.
    The array that a routine writes to is taken to be none of those it
    reads. *)
From Coq Require Import List ZArith Bool QArith Qcanon String.
From Verif Require Import Base.Res Base.QcLib Model.MBind Model.MRecon.
Import ListNotations.
Local Open Scope Z_scope.

(** Elements of an array, in the order of the rows. *)
Inductive cells := Floats (d : dtype) (v : list Qc) | Int32 (v : list Z) | Int64 (v : list Z).

Record narr := NArr { n_shape : list nat; n_contig : bool; n_cells : cells }.
Definition nheap := list narr.

(** Python values: an array, an int, a bool, None, a callable. *)
Inductive nval := VArr (l : nat) | VInt (z : Z) | VBool (b : bool) | VNone | VCallable.

(** Parameter types: array of floats (libtomo.h 18-20 [d_array], [f_array]),
    array of ints ([i_array]), int, bool, optional object. *)
Inductive nty := NFloats (d : dtype) | NInts | NInt | NBool | NOptional.

Section Calls.
(** Rounding to single precision. *)
Variable single : Qc -> Qc.
(** std::sqrt. *)
Variable sqrt : Qc -> Qc.

(** Conversion of the elements to floats. *)
Definition as_floats (d : dtype) (c : cells) : list Qc :=
  let from64 x := match d with F64 => x | F32 => single x end in
  match c with
  | Floats F64 v => map from64 v
  | Floats F32 v => v
  | Int32 v | Int64 v => map (fun z => from64 (qz z)) v
  end.

(** Conversion of an integer to 32 bits. *)
Definition wrap32 (z : Z) : Z := (z + 2 ^ 31) mod 2 ^ 32 - 2 ^ 31.

(** Conversion of the elements to 32-bit integers: floats are truncated. *)
Definition as_ints (c : cells) : list Z :=
  match c with
  | Int32 v => v
  | Int64 v => map wrap32 v
  | Floats _ v => map (fun x => wrap32 (qtrunc x)) v
  end.

(** An array that a parameter takes as it is. *)
Definition fits (t : nty) (a : narr) : bool :=
  match t, n_cells a with
  | NFloats F64, Floats F64 _ | NFloats F32, Floats F32 _ | NInts, Int32 _ => n_contig a
  | _, _ => false
  end.

(** The array made for a parameter from one that it does not take as it is
    (forcecast, c_style). *)
Definition converted (t : nty) (a : narr) : narr :=
  NArr (n_shape a) true
    (match t with NFloats d => Floats d (as_floats d (n_cells a)) | _ => Int32 (as_ints (n_cells a)) end).

(** pybind11: loading one argument, without and with conversion.
    Simplifications: array parameters refuse what is not an array, bool
    parameters what is not a bool. *)
Definition nload (convert : bool) (t : nty) (h : nheap) (v : nval) : option (nheap * nval) :=
  match t, v with
  | NFloats _, VArr l | NInts, VArr l =>
      match nth_error h l with
      | None => None
      | Some a =>
          if fits t a then Some (h, VArr l)
          else if convert then Some (h ++ [converted t a], VArr (List.length h)) else None
      end
  | NInt, VInt z => if (- 2 ^ 31 <=? z) && (z <? 2 ^ 31) then Some (h, VInt z) else None
  | NInt, VBool b => Some (h, VInt (of_bool b))
  | NBool, VBool b => Some (h, VBool b)
  | NOptional, v => Some (h, v)
  | _, _ => None
  end.

Fixpoint nload_all (convert : bool) (ts : list nty) (h : nheap) (vs : list nval)
  : option (nheap * list nval) :=
  match ts, vs with
  | [], [] => Some (h, [])
  | t :: ts, v :: vs =>
      match nload convert t h v with
      | None => None
      | Some (h, c) =>
          match nload_all convert ts h vs with
          | None => None
          | Some (h, cs) => Some (h, c :: cs)
          end
      end
  | _, _ => None
  end.

(** The first version that takes the arguments, with its number. *)
Fixpoint first_version (convert : bool) (versions : list (list nty)) (h : nheap) (vs : list nval)
  : option (nat * nheap * list nval) :=
  match versions with
  | [] => None
  | ts :: r =>
      match nload_all convert ts h vs with
      | Some (h, cs) => Some (0%nat, h, cs)
      | None => match first_version convert r h vs with
                | Some (n, h, cs) => Some (S n, h, cs)
                | None => None
                end
      end
  end.

(** pybind11: all versions without conversion, then all with. *)
Definition choose (versions : list (list nty)) (h : nheap) (vs : list nval) :=
  match first_version false versions h vs with
  | Some r => Some r
  | None => first_version true versions h vs
  end.

Fixpoint lookup (s : string) (l : list (string * nval)) : option nval :=
  match l with
  | [] => None
  | (n, v) :: l => if String.eqb n s then Some v else lookup s l
  end.

Fixpoint by_name (names : list string) (given : list (string * nval)) : option (list nval) :=
  match names with
  | [] => Some []
  | n :: names =>
      match lookup n given, by_name names given with
      | Some v, Some vs => Some (v :: vs)
      | _, _ => None
      end
  end.

(** pybind11: positional arguments fill the first parameters, the others are
    taken by name or have a default.  A keyword that names none of the
    remaining parameters is refused. *)
Definition arguments (names : list string) (defaults : list (string * nval)) (pos : list nval)
    (kw : list (string * nval)) : option (list nval) :=
  if Nat.ltb (List.length names) (List.length pos) then None else
  let rest := skipn (List.length pos) names in
  if forallb (fun k => existsb (String.eqb (fst k)) rest) kw then
    match by_name rest (kw ++ defaults) with
    | Some vs => Some (pos ++ vs)
    | None => None
    end
  else None.

Definition floats_at (h : nheap) (l : nat) : res (list Qc) :=
  match nth_error h l with
  | Some (NArr _ _ (Floats _ v)) => Ok v
  | _ => Fail OutOfBounds
  end.
Definition ints_at (h : nheap) (l : nat) : res (list Z) :=
  match nth_error h l with
  | Some (NArr _ _ (Int32 v)) => Ok v
  | _ => Fail OutOfBounds
  end.

(** Elements of an array of floats replaced. *)
Definition write (h : nheap) (l : nat) (v : list Qc) : nheap :=
  match nth_error h l with
  | Some (NArr s c (Floats d _)) => upd h l (NArr s c (Floats d v))
  | _ => h
  end.

Local Open Scope string_scope.
(** libtomo.cpp 603-607: the names given to the parameters, and their types in
    the two versions. *)
Definition count_names := ["input_parts"; "input_xp"; "n_particles"; "n_profiles"; "n_bins"].
Definition count_versions := [[NFloats F64; NInts; NInt; NInt; NInt]; [NFloats F32; NInts; NInt; NInt; NInt]].

(** libtomo.cpp 353-372 [wrapper_count_particles_in_bin]: the third parameter is
    n_profiles and the fourth n_particles.  Negative numbers are taken as
    zero. *)
Definition call_count (h : nheap) (pos : list nval) (kw : list (string * nval)) : res (nheap * nat) :=
  match arguments count_names [] pos kw with
  | None => Fail (Raised TypeError)
  | Some vs =>
      match choose count_versions h vs with
      | Some (_, h, [VArr parts; VArr xp; VInt n_profiles; VInt n_particles; VInt n_bins]) =>
          p <- floats_at h parts ;; x <- ints_at h xp ;;
          r <- count_particles_in_bin p x (Z.to_nat n_profiles) (Z.to_nat n_particles) (Z.to_nat n_bins) ;;
          Ok (write h parts r, parts)
      | _ => Fail (Raised TypeError)
      end
  end.

(** libtomo.cpp 599-601. *)
Definition back_names := ["weights"; "flat_points"; "flat_profiles"; "n_particles"; "n_profiles"].
Definition back_versions := [[NFloats F64; NInts; NFloats F64; NInt; NInt]].

(** libtomo.cpp 308-327 [wrapper_back_project]. *)
Definition call_back_project (h : nheap) (pos : list nval) (kw : list (string * nval)) : res (nheap * nat) :=
  match arguments back_names [] pos kw with
  | None => Fail (Raised TypeError)
  | Some vs =>
      match choose back_versions h vs with
      | Some (_, h, [VArr w; VArr fp; VArr prof; VInt n_particles; VInt n_profiles]) =>
          ws <- floats_at h w ;; f <- ints_at h fp ;; p <- floats_at h prof ;;
          r <- back_project ws f p (Z.to_nat n_particles) (Z.to_nat n_profiles) ;;
          Ok (write h w r, w)
      | _ => Fail (Raised TypeError)
      end
  end.

(** libtomo.cpp 595-597. *)
Definition project_names := ["flat_rec"; "flat_points"; "weights"; "n_particles"; "n_profiles"; "n_bins"].
Definition project_versions := [[NFloats F64; NInts; NFloats F64; NInt; NInt; NInt]].

(** libtomo.cpp 330-351 [wrapper_project].  The new shape is written to the
    description of the buffer only (line 348); the array keeps its own. *)
Definition call_project (h : nheap) (pos : list nval) (kw : list (string * nval)) : res (nheap * nat) :=
  match arguments project_names [] pos kw with
  | None => Fail (Raised TypeError)
  | Some vs =>
      match choose project_versions h vs with
      | Some (_, h, [VArr rec; VArr fp; VArr w; VInt n_particles; VInt n_profiles; VInt _]) =>
          r <- floats_at h rec ;; f <- ints_at h fp ;; ws <- floats_at h w ;;
          r <- project r f ws (Z.to_nat n_particles) (Z.to_nat n_profiles) ;;
          Ok (write h rec r, rec)
      | _ => Fail (Raised TypeError)
      end
  end.

(** libtomo.cpp 615-623. *)
Definition reconstruct_names :=
  ["xp"; "waterfall"; "n_iter"; "n_bins"; "n_particles"; "n_profiles"; "verbose"; "callback"].
Definition reconstruct_defaults := [("verbose", VBool false); ("callback", VNone)].
Definition reconstruct_versions :=
  [[NInts; NFloats F64; NInt; NInt; NInt; NInt; NBool; NOptional];
   [NInts; NFloats F32; NInt; NInt; NInt; NInt; NBool; NOptional]].

(** libtomo.cpp 395-444 [wrapper_reconstruct]: three new arrays (weights,
    discrepancies, recreated profiles) in the precision of the version.  The
    calls of the callback are left out. *)
Definition call_reconstruct (h : nheap) (pos : list nval) (kw : list (string * nval))
  : res (nheap * (nat * nat * nat)) :=
  match arguments reconstruct_names reconstruct_defaults pos kw with
  | None => Fail (Raised TypeError)
  | Some vs =>
      match choose reconstruct_versions h vs with
      | Some (v, h, [VArr xp; VArr wf; VInt n_iter; VInt n_bins; VInt n_particles; VInt n_profiles; VBool _; _]) =>
          let d := match v with O => F64 | _ => F32 end in
          let np := Z.to_nat n_profiles in let nb := Z.to_nat n_bins in let n := Z.to_nat n_particles in
          x <- ints_at h xp ;; p <- floats_at h wf ;;
          s <- reconstruct sqrt (repeat 0%Qc (np * nb)) x p n_iter nb n np ;;
          let k := List.length h in
          Ok ((h ++ [NArr [n] true (Floats d (r_weights s));
                    NArr [Z.to_nat (n_iter + 1)] true (Floats d (r_discr s));
                    NArr [np; nb] true (Floats d (r_rec s))])%list, (k, S k, S (S k)))
      | _ => Fail (Raised TypeError)
      end
  end.
End Calls.
