(** Model of LT/cpp_routines/sin.h, LT/cpp_routines/sincos.h and the constants
    of LT/cpp_routines/vdtcore_common.h: the sine used by the compiled
    tracking.

    The numbers are real; every operation and every literal is followed by a
    rounding function, [rnd] for double and [rndf] for float.  With the identity
    the arithmetic is exact.  Not modelled: infinities and not-a-number, and
    compilers that keep more digits of intermediate results.  Undefined
    behaviour (a number that does not fit into an int) is [None]. *)
From Coq Require Import Reals List ZArith Bool.
From Verif Require Import Base.RLib.
Import ListNotations.
Local Open Scope R_scope.

Section Double.
Variable rnd : R -> R.

(** vdtcore_common.h 31, 46: M_PI and 4./M_PI. *)
Definition M_PI : R := rnd 3.14159265358979323846.
Definition ONEOPIO4 : R := rnd (rnd 4 / M_PI).

(** sincos.h 44-60. *)
Definition sin_coefs : list R :=
  [-2.50507477628578072866E-8; 2.75573136213857245213E-6; -1.98412698295895385996E-4; 8.33333333332211858878E-3;
   -1.66666666666666307295E-1].
Definition C1sin : R := 1.58962301576546568060E-10.
Definition cos_coefs : list R :=
  [2.08757008419747316778E-9; -2.75573141792967388112E-7; 2.48015872888517045348E-5; -1.38888888888730564116E-3;
   4.16666666666665929218E-2].
Definition C1cos : R := -1.13585365213876817300E-11.
Definition DP1 : R := rnd 7.853981554508209228515625E-1.
Definition DP2 : R := rnd 7.94662735614792836714E-9.
Definition DP3 : R := rnd 3.06161699786838294307E-17.

(** sincos.h 72-86 [get_sin_px] and 89-103 [get_cos_px]: px *= x; px += c for
    each coefficient in turn. *)
Definition horner (first : R) (rest : list R) (x : R) : R :=
  fold_left (fun px c => rnd (rnd (px * x) + rnd c)) rest (rnd first).
Definition get_sin_px (x : R) : R := horner C1sin sin_coefs x.
Definition get_cos_px (x : R) : R := horner C1cos cos_coefs x.

(** int(x): defined only if the result, and the result plus 1 computed next,
    fit into 32 bits. *)
Definition int_of (x : R) : option Z :=
  let k := rtrunc x in if ((k <? - 2 ^ 31) || (2 ^ 31 - 1 <=? k))%Z%bool then None else Some k.

(** sincos.h 107-115 [reduce2quadrant]. *)
Definition reduce2quadrant (x : R) : option (R * Z) :=
  let x := Rabs x in
  match int_of (rnd (ONEOPIO4 * x)) with
  | None => None
  | Some k =>
    let quad := Z.land (k + 1) (Z.lnot 1) in
    let y := IZR quad in
    Some (rnd (rnd (rnd (x - rnd (y * DP1)) - rnd (y * DP2)) - rnd (y * DP3)), quad)
  end.

(** sincos.h 119-124 [fast_sincos_m45_45]. *)
Definition fast_sincos_m45_45 (z : R) : R * R :=
  let zz := rnd (z * z) in
  (rnd (z + rnd (rnd (z * zz) * get_sin_px zz)),
   rnd (rnd (rnd 1 - rnd (zz * rnd 0.5)) + rnd (rnd (zz * zz) * get_cos_px zz))).

(** sincos.h 132-160 [fast_sincos]. *)
Definition fast_sincos (xx : R) : option (R * R) :=
  match reduce2quadrant xx with
  | None => None
  | Some (x, j) =>
    let signS := Z.land j 4 in
    let j := (j - 2)%Z in
    let signC := Z.land j 4 in
    let poly := Z.land j 2 in
    let (s, c) := fast_sincos_m45_45 x in
    let (s, c) := if (poly =? 0)%Z then (c, s) else (s, c) in
    let c := if (signC =? 0)%Z then - c else c in
    let s := if negb (signS =? 0)%Z then - s else s in
    let s := if Rlt_dec xx 0 then - s else s in
    Some (s, c)
  end.

(** sin.h 37 [fast_sin]. *)
Definition fast_sin (x : R) : option R := match fast_sincos x with Some (s, _) => Some s | None => None end.
End Double.

Section Single.
Variables rnd rndf : R -> R.

(** vdtcore_common.h 52; sincos.h 64-66: double literals stored as float. *)
Definition ONEOPIO4F : R := rndf (ONEOPIO4 rnd).
Definition DP1F : R := rndf (rnd 0.78515625).
Definition DP2F : R := rndf (rnd 2.4187564849853515625e-4).
Definition DP3F : R := rndf (rnd 3.77489497744594108e-8).

(** sincos.h 168-179 [reduce2quadrant] for float. *)
Definition reduce2quadrantf (x : R) : option (R * Z) :=
  let x := Rabs x in
  match int_of (rndf (ONEOPIO4F * x)) with
  | None => None
  | Some k =>
    let quad := Z.land (k + 1) (Z.lnot 1) in
    let y := rndf (IZR quad) in
    Some (rndf (rndf (rndf (x - rndf (y * DP1F)) - rndf (y * DP2F)) - rndf (y * DP3F)), quad)
  end.

(** sincos.h 187-200 [fast_sincosf_m45_45]. *)
Definition fast_sincosf_m45_45 (x : R) : R * R :=
  let z := rndf (x * x) in
  (rndf (rndf (rndf (rndf (rndf (rndf (rndf (rndf (-1.9515295891E-4) * z) + rndf 8.3321608736E-3) * z)
            - rndf 1.6666654611E-1) * z) * x) + x),
   rndf (rndf (rndf (rndf (rndf (rndf (rndf (rndf (rndf 2.443315711809948E-005 * z) - rndf 1.388731625493765E-003) * z)
            + rndf 4.166664568298827E-002) * z) * z) - rndf (rndf 0.5 * z)) + rndf 1)).

(** sincos.h 207-233 [fast_sincosf] and sin.h 41 [fast_sinf]. *)
Definition fast_sincosf (xx : R) : option (R * R) :=
  match reduce2quadrantf xx with
  | None => None
  | Some (x, j) =>
    let signS := Z.land j 4 in
    let j := (j - 2)%Z in
    let signC := Z.land j 4 in
    let poly := Z.land j 2 in
    let (ls, lc) := fast_sincosf_m45_45 x in
    let (ls, lc) := if (poly =? 0)%Z then (lc, ls) else (ls, lc) in
    let lc := if (signC =? 0)%Z then - lc else lc in
    let ls := if negb (signS =? 0)%Z then - ls else ls in
    let ls := if Rlt_dec xx 0 then - ls else ls in
    Some (ls, lc)
  end.
Definition fast_sinf (x : R) : option R := match fast_sincosf x with Some (s, _) => Some s | None => None end.
End Single.
