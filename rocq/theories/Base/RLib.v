(** Real numbers: checked division and square root, floor and ceiling. *)
From Coq Require Import Reals ZArith.
From Verif Require Import Base.Res.
Local Open Scope R_scope.

(** Division and square root; the floating-point code would go on with an
    infinity or a not-a-number where these fail. *)
Definition rdiv (a b : R) : res R := if Req_EM_T b 0 then Fail NotFinite else Ok (a / b).
Definition rsqrt (a : R) : res R := if Rlt_dec a 0 then Fail NotFinite else Ok (sqrt a).

(** numpy.floor, numpy.ceil, and int() of a float (towards zero). *)
Definition rfloor (x : R) : Z := Int_part x.
Definition rceil (x : R) : Z := (- Int_part (- x))%Z.
Definition rtrunc (x : R) : Z := if Rlt_dec x 0 then rceil x else rfloor x.

(** numpy.sign. *)
Definition rsign (x : R) : R := if Rlt_dec x 0 then -1 else if Rlt_dec 0 x then 1 else 0.
