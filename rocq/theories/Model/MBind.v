(** Model of the boundary between the Python code and the compiled library:
    how a call of [libtomo.kick_and_drift] picks one of the five compiled
    versions, which arrays it works on in place and which on copies.
    LT/cpp_routines/libtomo.cpp 163-300 and 566-593, LT/cpp_routines/libtomo.h
    18-20, LT/tracking/tracking.py 163-214,
    LT/cpp_routines/tomolib_wrappers.py 118-217, LT/utils/tomo_config.py.

    The overload resolution is that of pybind11 (pyproject.toml asks for 2.11):
    all overloads in order without conversion of arguments, then all in order
    with conversion.  pybind11 itself is not part of the repository; its rules
    are modelled here from its documentation and are part of what is trusted.

    The model is polymorphic in the number type [T]; the arithmetic of the
    compiled routine depends on its precision. *)
From Coq Require Import List ZArith Bool.
From Verif Require Import Base.Res Model.MTrack.
Import ListNotations.
Local Open Scope Z_scope.

(** The two NumPy floating-point types (tomo_config.py 6, 24-33). *)
Inductive dtype := F64 | F32.

Definition dtype_eqb (a b : dtype) : bool :=
  match a, b with F64, F64 | F32, F32 => true | _, _ => false end.

Definition loc := nat.

Section Bind.
Context {T : Type} (add sub mul : dtype -> T -> T -> T) (sin : dtype -> T -> T)
        (single : T -> T) (ofZ : Z -> T) (zero past : T).

(** Data of a NumPy array: one or two dimensions. *)
Inductive data := Vec (l : list T) | Tab (rows : list (list T)).

(** A NumPy array: type of its elements, whether its memory is contiguous in
    C order, and its elements. *)
Record arr := Arr { adt : dtype; acontig : bool; adat : data }.

(** The arrays that exist; a location is an index. *)
Definition heap := list arr.

(** Python values handed to the compiled library: an array, a Python float
    ([numpy.float64] is a subclass of it), a [numpy.float32], an int, a bool,
    None, a machine object with the attributes read at libtomo.cpp 178-183. *)
Inductive pyval :=
| PArr (l : loc) | PFloat (x : T) | PFloat32 (x : T) | PInt (z : Z) | PBool (b : bool)
| PNone | PObj (o : mobj)
with mobj := MObj (m_phi0 m_deltaE0 m_drift : list T) (m_phi12 m_hratio : pyval) (m_dturns : Z).

(** Conversion of a number from one type to another: only from double to
    single does the value change. *)
Definition conv (from to : dtype) (x : T) : T :=
  match from, to with F64, F32 => single x | _, _ => x end.

Definition conv_data (from to : dtype) (d : data) : data :=
  match d with
  | Vec l => Vec (map (conv from to) l)
  | Tab rows => Tab (map (map (conv from to)) rows)
  end.

(** Parameter types of the compiled functions: [array_t<double>] or
    [array_t<float>] (libtomo.h 18-20: c_style and forcecast), double or float,
    int, bool, object, optional object. *)
Inductive ty := TArr (d : dtype) | TReal (d : dtype) | TInt | TBool | TObj | TOpt.

(** Loaded arguments. *)
Inductive cval :=
| CArr (l : loc) | CReal (x : T) | CInt (z : Z) | CBool (b : bool) | CObj (v : pyval)
| COpt (v : option pyval).

(** A new array at the end of the heap. *)
Definition alloc (h : heap) (a : arr) : heap * loc := (h ++ [a], length h).

Definition of_bool (b : bool) : Z := if b then 1 else 0.

(** The single element of an array of one element. *)
Definition the_element (d : data) : option T :=
  match d with
  | Vec [x] => Some x
  | Tab [[x]] => Some x
  | _ => None
  end.

(** Number behind a Python value that is not an array, and its type. *)
Definition number (v : pyval) : option (dtype * T) :=
  match v with
  | PFloat x => Some (F64, x)
  | PFloat32 x => Some (F32, x)
  | PInt z => Some (F64, ofZ z)
  | PBool b => Some (F64, ofZ (of_bool b))
  | _ => None
  end.

(** pybind11: loading one argument ([array_t] caster, arithmetic casters).
    Without conversion an array must have the right type and layout and is
    used itself; with conversion it is copied if it does not.  Without
    conversion a real number must be a Python float.  An int parameter takes a
    Python int or bool within the range of int.
    Simplifications: None is refused where an array is expected (NumPy would
    make it a not-a-number), an int parameter refuses all other values (with
    conversion pybind11 truncates a numpy.float32); no modelled call does
    either. *)
Definition load (convert : bool) (t : ty) (h : heap) (v : pyval) : option (heap * cval) :=
  match t with
  | TArr d =>
      match v with
      | PArr l =>
          match nth_error h l with
          | None => None
          | Some a =>
              if dtype_eqb (adt a) d && acontig a then Some (h, CArr l)
              else if convert then
                let '(h', l') := alloc h (Arr d true (conv_data (adt a) d (adat a))) in
                Some (h', CArr l')
              else None
          end
      | _ =>
          match number v with
          | Some (f, x) =>
              if convert then
                let '(h', l') := alloc h (Arr d true (Vec [conv f d x])) in Some (h', CArr l')
              else None
          | None => None
          end
      end
  | TReal d =>
      match v with
      | PFloat x => Some (h, CReal (conv F64 d x))
      | PArr l =>
          if convert then
            match nth_error h l with
            | None => None
            | Some a => match the_element (adat a) with
                        | Some x => Some (h, CReal (conv (adt a) d x))
                        | None => None
                        end
            end
          else None
      | _ =>
          match number v with
          | Some (f, x) => if convert then Some (h, CReal (conv f d x)) else None
          | None => None
          end
      end
  | TInt =>
      match v with
      | PInt z => if (- 2 ^ 31 <=? z) && (z <? 2 ^ 31) then Some (h, CInt z) else None
      | PBool b => Some (h, CInt (of_bool b))
      | _ => None
      end
  | TBool =>
      match v with
      | PBool b => Some (h, CBool b)
      | PNone => if convert then Some (h, CBool false) else None
      | PInt z => if convert then Some (h, CBool (negb (z =? 0))) else None
      | _ => None
      end
  | TObj => Some (h, CObj v)
  | TOpt => match v with PNone => Some (h, COpt None) | _ => Some (h, COpt (Some v)) end
  end.

Fixpoint load_all (convert : bool) (ts : list ty) (h : heap) (vs : list pyval)
  : option (heap * list cval) :=
  match ts, vs with
  | [], [] => Some (h, [])
  | t :: ts', v :: vs' =>
      match load convert t h v with
      | None => None
      | Some (h1, c) =>
          match load_all convert ts' h1 vs' with
          | None => None
          | Some (h2, cs) => Some (h2, c :: cs)
          end
      end
  | _, _ => None
  end.

(** The versions of [kick_and_drift]. *)
Inductive version := VMachine | VScalar (d : dtype) | VArray (d : dtype).

(** Parameters, libtomo.cpp 566-593.  The last two, ftn_out and callback, have
    the default values False and None. *)
Definition params (v : version) : list ty :=
  match v with
  | VMachine =>
      repeat (TArr F64) 6 ++ [TObj; TInt; TInt; TInt; TInt; TBool; TOpt]
  | VScalar d =>
      repeat (TArr d) 9 ++ [TReal d; TReal d; TInt; TInt; TInt; TInt; TInt; TBool; TOpt]
  | VArray d =>
      repeat (TArr d) 9 ++ [TArr d; TReal d; TInt; TInt; TInt; TInt; TInt; TBool; TOpt]
  end.

(** The order in which they are defined, libtomo.cpp 566-593. *)
Definition overloads : list version :=
  [VMachine; VScalar F64; VScalar F32; VArray F64; VArray F32].

(** pybind11: positional arguments, the keyword argument callback and default
    values are put in the places of the [n] parameters; a call with too many
    or too few arguments does not fit. *)
Definition fill (n : nat) (pos : list pyval) (callback : option pyval) : option (list pyval) :=
  let cb := match callback with Some v => v | None => PNone end in
  if (n <? length pos)%nat then None
  else if (length pos <? n - 2)%nat then None
  else if (length pos =? n - 2)%nat then Some (pos ++ [PBool false; cb])
  else if (length pos =? n - 1)%nat then Some (pos ++ [cb])
  else match callback with None => Some pos | Some _ => None end.

(** One overload; arrays copied for an overload that does not fit in the end
    are dropped. *)
Definition try_version (convert : bool) (h : heap) (pos : list pyval) (callback : option pyval)
    (v : version) : option (heap * list cval) :=
  match fill (length (params v)) pos callback with
  | None => None
  | Some vs => load_all convert (params v) h vs
  end.

Fixpoint first_fit (convert : bool) (h : heap) (pos : list pyval) (callback : option pyval)
    (vs : list version) : option (version * heap * list cval) :=
  match vs with
  | [] => None
  | v :: vs' =>
      match try_version convert h pos callback v with
      | Some (h', cs) => Some (v, h', cs)
      | None => first_fit convert h pos callback vs'
      end
  end.

(** pybind11: first without, then with conversion. *)
Definition dispatch (h : heap) (pos : list pyval) (callback : option pyval)
  : option (version * heap * list cval) :=
  match first_fit false h pos callback overloads with
  | Some r => Some r
  | None => first_fit true h pos callback overloads
  end.

(** Elements of a one-dimensional array as the compiled routine sees them.  The
    routine does not look at the number of dimensions; tables are refused here. *)
Definition vec_at (h : heap) (l : loc) : res (list T) :=
  match nth_error h l with
  | Some a => match adat a with Vec v => Ok v | Tab _ => Fail OutOfBounds end
  | None => Fail OutOfBounds
  end.

(** xp and yp are tables with one row per profile (libtomo.cpp 252-260); other
    shapes are refused here. *)
Definition tab_at (h : heap) (l : loc) : res (list (list T)) :=
  match nth_error h l with
  | Some a => match adat a with Tab rows => Ok rows | Vec _ => Fail OutOfBounds end
  | None => Fail OutOfBounds
  end.

(** Write the elements of an array in place. *)
Definition put (h : heap) (l : loc) (d : data) : heap :=
  match nth_error h l with
  | Some a => upd h l (Arr (adt a) (acontig a) d)
  | None => h
  end.

(** libtomo.cpp 228-300: the compiled routine works on the memory of the arrays
    xp, yp, denergy and dphi (four different arrays here). *)
Definition compiled (d : dtype) (h : heap) (xpl ypl del phl : loc) (m : machine T)
    (dturns rec_prof deltaturn nturns nparts : Z) (ftn : bool) : res (heap * (loc * loc)) :=
  x <- tab_at h xpl ;; y <- tab_at h ypl ;;
  de <- vec_at h del ;; ph <- vec_at h phl ;;
  s <- kick_and_drift (add d) (sub d) (mul d) (sin d) m x y de ph
         dturns rec_prof deltaturn nturns (Z.to_nat nparts) ftn ;;
  Ok (put (put (put (put h xpl (Tab (xp s))) ypl (Tab (yp s))) del (Vec (denergy s)))
        phl (Vec (dphi s)), (xpl, ypl)).

(** The Python conversion float(v) of libtomo.cpp 181-182. *)
Definition py_float (h : heap) (v : pyval) : res T :=
  match load true (TReal F64) h v with
  | Some (_, CReal x) => Ok x
  | _ => Fail (Raised TypeError)
  end.

(** libtomo.cpp 213-214: phi12 given as one number is expanded to an array of
    [nturns] elements.  The tracking routine also reads the element behind the
    last one (Model/MTrack.v, property C07); so that this does not hide
    everything else, [past] is taken to be found there. *)
Definition expand (p12 : T) (nturns : Z) : list T := repeat p12 (Z.to_nat nturns) ++ [past].

(** libtomo.cpp 163-300: the body of each version. *)
Definition body (v : version) (h : heap) (cs : list cval) : res (heap * (loc * loc)) :=
  match v, cs with
  | VScalar d,
    [CArr x; CArr y; CArr de; CArr ph; CArr v1; CArr v2; CArr p0; CArr dE; CArr co;
     CReal p12; CReal hr; CInt dturns; CInt rp; CInt dl; CInt nt; CInt np; CBool f; COpt _] =>
      v1 <- vec_at h v1 ;; v2 <- vec_at h v2 ;; p0 <- vec_at h p0 ;;
      dE <- vec_at h dE ;; co <- vec_at h co ;;
      compiled d h x y de ph (Machine v1 v2 p0 dE co (expand p12 nt) hr) dturns rp dl nt np f
  | VArray d,
    [CArr x; CArr y; CArr de; CArr ph; CArr v1; CArr v2; CArr p0; CArr dE; CArr co;
     CArr p12; CReal hr; CInt dturns; CInt rp; CInt dl; CInt nt; CInt np; CBool f; COpt _] =>
      v1 <- vec_at h v1 ;; v2 <- vec_at h v2 ;; p0 <- vec_at h p0 ;;
      dE <- vec_at h dE ;; co <- vec_at h co ;; p12 <- vec_at h p12 ;;
      compiled d h x y de ph (Machine v1 v2 p0 dE co p12 hr) dturns rp dl nt np f
  | VMachine,
    [CArr x; CArr y; CArr de; CArr ph; CArr v1; CArr v2; CObj o;
     CInt rp; CInt dl; CInt nt; CInt np; CBool f; COpt _] =>
      match o with
      | PObj (MObj p0 dE co mp12 mhr dturns) =>
          v1 <- vec_at h v1 ;; v2 <- vec_at h v2 ;;
          p12 <- py_float h mp12 ;; hr <- py_float h mhr ;;
          compiled F64 h x y de ph (Machine v1 v2 p0 dE co (expand p12 nt) hr) dturns rp dl nt np f
      | _ => Fail (Raised AttributeError)
      end
  | _, _ => Fail (Raised TypeError)
  end.

(** A call libtomo.kick_and_drift(pos..., callback=...): the arrays afterwards
    and the returned pair of arrays. *)
Definition call_kick_and_drift (h : heap) (pos : list pyval) (callback : option pyval)
  : res (heap * (loc * loc)) :=
  match dispatch h pos callback with
  | None => Fail (Raised TypeError)
  | Some (v, h', cs) => body v h' cs
  end.

(** ** tracking.py 163-214: [Tracking.track] without self-fields, on the CPU *)

(** Machine attributes used by [track]: float64 arrays, the charge and the two
    values that are passed on without a cast. *)
Record tmachine := TMachine {
  t_vrf1 : list T; t_vrf2 : list T; t_q : T; t_phi0 : list T; t_deltaE0 : list T;
  t_drift : list T; t_phi12 : pyval; t_hratio : pyval; t_dturns : Z; t_nprofiles : Z }.

(** What the tracker holds afterwards: the arrays of its particles object
    ([particles.coordinates_dphi_denergy]), its [init_dphi] and [init_denergy],
    and the returned xp and yp. *)
Record tracked := Tracked {
  part_dphi : loc; part_denergy : loc; init_dphi : loc; init_denergy : loc;
  ret_xp : loc; ret_yp : loc }.

(** The coordinates given by the user or made by
    [Particles.homogeneous_distribution] (a parameter here), as one array of the
    selected precision (tracking.py 163-180, particles.py 183-184,
    tomo_config.py cast_to_cpu: np.array copies).  np.array refuses two arrays
    of different lengths. *)
Definition coordinates (prec : dtype) (init : option (loc * loc)) (homog : res (list T * list T))
    (h : heap) : res (list T * list T) :=
  match init with
  | None =>
      '(ph, de) <- homog ;; Ok (map (conv F64 prec) ph, map (conv F64 prec) de)
  | Some (a, b) =>
      match nth_error h a, nth_error h b with
      | Some (Arr da _ (Vec ph)), Some (Arr db _ (Vec de)) =>
          if (length ph =? length de)%nat
          then Ok (map (conv da prec) ph, map (conv db prec) de)
          else Fail (Raised ValueError)
      | _, _ => Fail (Raised TypeError)
      end
  end.

(** A float64 array cast to the selected precision (a copy). *)
Definition cast (prec : dtype) (h : heap) (l : list T) : heap * loc :=
  alloc h (Arr prec true (Vec (map (conv F64 prec) l))).

(** tracking.py 163-214, after the checks of recprof and deltaturn
    (Model/MTrack.v). *)
Definition track (prec : dtype) (m : tmachine) (init : option (loc * loc))
    (homog : res (list T * list T)) (recprof deltaturn : Z) (ftn : bool)
    (callback : pyval) (h : heap) : res (heap * tracked) :=
  '(ph, de) <- coordinates prec init homog h ;;
  let '(h, dphi_) := alloc h (Arr prec true (Vec ph)) in
  let '(h, denergy_) := alloc h (Arr prec true (Vec de)) in
  let '(h, idphi) := alloc h (Arr prec true (Vec ph)) in
  let '(h, idenergy) := alloc h (Arr prec true (Vec de)) in
  let '(h, rfv1) := cast prec h (map (fun v => mul F64 v (t_q m)) (t_vrf1 m)) in
  let '(h, rfv2) := cast prec h (map (fun v => mul F64 v (t_q m)) (t_vrf2 m)) in
  let '(h, phi0_) := cast prec h (t_phi0 m) in
  let '(h, deltaE0_) := cast prec h (t_deltaE0 m) in
  let '(h, drift) := cast prec h (t_drift m) in
  let nparts := length ph in
  let nturns := t_dturns m * (t_nprofiles m - 1) in
  let zeros := Tab (repeat (repeat zero nparts) (Z.to_nat (t_nprofiles m))) in
  let '(h, xp_) := alloc h (Arr prec true zeros) in
  let '(h, yp_) := alloc h (Arr prec true zeros) in
  '(h, _) <- call_kick_and_drift h
      [PArr xp_; PArr yp_; PArr denergy_; PArr dphi_; PArr rfv1; PArr rfv2; PArr phi0_;
       PArr deltaE0_; PArr drift; t_phi12 m; t_hratio m; PInt (t_dturns m); PInt recprof;
       PInt deltaturn; PInt nturns; PInt (Z.of_nat nparts); PBool ftn] (Some callback) ;;
  Ok (h, Tracked dphi_ denergy_ idphi idenergy xp_ yp_).

(** ** tomolib_wrappers.py 118-217: the function kept for older programs *)

(** The arguments of [tomolib_wrappers.kick_and_drift]; [None] is Python's
    default None. *)
Record legacy_args := Legacy {
  l_xp : pyval; l_yp : pyval; l_denergy : pyval; l_dphi : pyval; l_rfv1 : pyval;
  l_rfv2 : pyval; l_rec_prof : Z; l_nturns : Z; l_nparts : Z;
  l_phi0 : option pyval; l_deltaE0 : option pyval; l_omega_rev0 : option pyval;
  l_drift_coef : option pyval; l_phi12 : option pyval; l_h_ratio : option pyval;
  l_dturns : option Z; l_machine : option mobj; l_ftn : bool }.

(** tomolib_wrappers.py 200-217.  The compiled function has one more parameter,
    deltaturn between rec_prof and nturns, that is not passed. *)
Definition legacy_kick_and_drift (a : legacy_args) (h : heap) : res (heap * (loc * loc)) :=
  match l_machine a with
  | Some o =>
      call_kick_and_drift h
        [l_xp a; l_yp a; l_denergy a; l_dphi a; l_rfv1 a; l_rfv2 a; PObj o;
         PInt (l_rec_prof a); PInt (l_nturns a); PInt (l_nparts a); PBool (l_ftn a)] None
  | None =>
      match l_phi0 a, l_deltaE0 a, l_omega_rev0 a, l_drift_coef a, l_phi12 a, l_h_ratio a,
            l_dturns a with
      | Some p0, Some dE, Some _, Some co, Some p12, Some hr, Some dturns =>
          call_kick_and_drift h
            [l_xp a; l_yp a; l_denergy a; l_dphi a; l_rfv1 a; l_rfv2 a; p0; dE; co; p12; hr;
             PInt dturns; PInt (l_rec_prof a); PInt (l_nturns a); PInt (l_nparts a);
             PBool (l_ftn a)] None
      | _, _, _, _, _, _, _ => Fail (Raised InputError)
      end
  end.

End Bind.

Arguments data T : clear implicits.
Arguments arr T : clear implicits.
Arguments heap T : clear implicits.
Arguments pyval T : clear implicits.
Arguments mobj T : clear implicits.
Arguments cval T : clear implicits.
Arguments tmachine T : clear implicits.
Arguments legacy_args T : clear implicits.
