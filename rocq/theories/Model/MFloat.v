(** Model of the reconstruction with rounding: LT/cpp_routines/reconstruct.cpp
    (single bunch) as in Model/MRecon.v, but for any arithmetic.

    setup.py 14 and 18 pass -ffast-math: the compiler may reorder the terms of
    a sum and may replace a division by a multiplication with the reciprocal.
    So the sums over an array are an operation of the arithmetic, in an order
    fixed by the compiler; the order of the sum over the threads (OpenMP
    reduction) is a separate argument and may differ from call to call.
    Contraction to fused multiply-add is not modelled. *)
From Coq Require Import List ZArith Bool QArith Qcanon Reals.
From Verif Require Import Base.Res Base.QcLib Model.MRecon.
Import ListNotations.
Local Open Scope nat_scope.

(** An arithmetic: the type of numbers, conversion of an int, + - * /, the sum
    of an array, the sum of the squares of an array, the square root, the
    conversion to int, and the comparisons < <= ==.  Operations fail with
    [NotFinite] where the result is an infinity or not a number. *)
Record arith := Arith {
  num : Type;
  a_int : Z -> res num;
  a_add : num -> num -> res num;
  a_sub : num -> num -> res num;
  a_mul : num -> num -> res num;
  a_div : num -> num -> res num;
  a_sum : list num -> res num;
  a_sumsq : list num -> res num;
  a_sqrt : num -> res num;
  a_trunc : num -> Z;
  a_zero : num;
  a_one : num;
  a_lt : num -> num -> bool;
  a_le : num -> num -> bool;
  a_eq : num -> num -> bool }.

Section Reconstruct.
Variable A : arith.
Let num := num A.

(** Elements a to a+n-1 of an array. *)
Definition gets {T} (l : list T) (a n : nat) : res (list T) :=
  mapM (fun i => get l (zi i)) (seq a n).

(** reconstruct.cpp 20-29 [back_project]. *)
Definition back_projectA (weights : list num) (fp : list Z) (prof : list num) (npart nprof : nat) : res (list num) :=
  for_ 0 npart (fun i weights =>
    vs <- mapM (fun j => k <- get fp (zi (i * nprof + j)) ;; get prof k) (seq 0 nprof) ;;
    x <- get weights (zi i) ;;
    y <- a_sum A (x :: vs) ;;
    set weights (zi i) y) weights.

(** reconstruct.cpp 54-62 [project]: not a sum over an array; the order of the
    particles is kept. *)
Definition projectA (rec : list num) (fp : list Z) (weights : list num) (npart nprof : nat) : res (list num) :=
  for_ 0 npart (fun i rec =>
    for_ 0 nprof (fun j rec =>
      k <- get fp (zi (i * nprof + j)) ;;
      w <- get weights (zi i) ;;
      x <- get rec k ;;
      y <- a_add A x w ;;
      set rec k y) rec) rec.

(** reconstruct.cpp 88-105 [normalize]; [reduce] adds the sums of the profiles.
    A profile with sum 0 is left alone and a flag set, as in MRecon.v. *)
Definition normalizeA (reduce : list num -> res num) (rec : list num) (nprof nbins : nat) : res (list num) :=
  ' (rec, sums, fin) <- for_ 0 nprof (fun i st =>
    let '(rec, sums, fin) := st in
    row <- gets rec (i * nbins) nbins ;;
    s <- a_sum A row ;;
    if a_eq A s (a_zero A) then Ok (rec, sums ++ [s], false)
    else
      rec <- for_ 0 nbins (fun j rec =>
        x <- get rec (zi (i * nbins + j)) ;;
        y <- a_div A x s ;;
        set rec (zi (i * nbins + j)) y) rec ;;
      Ok (rec, sums ++ [s], fin)) (rec, [], true) ;;
  total <- reduce sums ;;
  if a_le A total (a_zero A) then Fail (Raised RuntimeError)
  else if fin : bool then Ok rec else Fail NotFinite.

(** reconstruct.cpp 107-115 [clip], with 0 for the double clip_val. *)
Definition clipA (a : list num) (n : nat) : res (list num) :=
  for_ 0 n (fun i a =>
    x <- get a (zi i) ;;
    if a_lt A x (a_zero A) then set a (zi i) (a_zero A) else Ok a) a.

(** reconstruct.cpp 118-134 [find_difference_profile]. *)
Definition differenceA (diff rec prof : list num) (all_bins : nat) : res (list num) :=
  for_ 0 all_bins (fun i diff =>
    p <- get prof (zi i) ;; r <- get rec (zi i) ;;
    d <- a_sub A p r ;;
    set diff (zi i) d) diff.

(** reconstruct.cpp 136-148 [discrepancy]. *)
Definition discrepancyA (diff : list num) (nprof nbins : nat) : res num :=
  l <- gets diff 0 (nprof * nbins) ;;
  s <- a_sumsq A l ;;
  n <- a_int A (zi (nprof * nbins)) ;;
  q <- a_div A s n ;;
  a_sqrt A q.

(** reconstruct.cpp 176-187 [compensate_particle_amount]. *)
Definition compensateA (diff rparts : list num) (nprof nbins : nat) : res (list num) :=
  for_ 0 nprof (fun i diff =>
    for_ 0 nbins (fun j diff =>
      let idx := zi (i * nbins + j) in
      x <- get diff idx ;; r <- get rparts idx ;;
      y <- a_mul A x r ;;
      set diff idx y) diff) diff.

(** reconstruct.cpp 201-208 [max_1d]. *)
Definition max_1dA (a : list num) (n : nat) : res num :=
  for_ 0 n (fun i m => x <- get a (zi i) ;; Ok (if a_lt A m x then x else m)) (a_zero A).

(** reconstruct.cpp 219-232 [count_particles_in_bin]. *)
Definition countA (rparts : list num) (xp : list Z) (nprof npart nbins : nat) : res (list num) :=
  for_ 0 npart (fun i rparts =>
    for_ 0 nprof (fun j rparts =>
      bin <- get xp (zi (i * nprof + j)) ;;
      let k := (zi j * zi nbins + bin)%Z in
      x <- get rparts k ;;
      y <- a_add A x (a_one A) ;;
      set rparts k y) rparts) rparts.

(** reconstruct.cpp 257-283 [reciprocal_particles]. *)
Definition reciprocalA (rparts : list num) (xp : list Z) (nbins nprof npart : nat) : res (list num) :=
  let all_bins := nprof * nbins in
  rparts <- countA rparts xp nprof npart nbins ;;
  mx <- max_1dA rparts all_bins ;;
  let max_bin_val := a_trunc A mx in
  rparts <- for_ 0 all_bins (fun i rparts =>
    x <- get rparts (zi i) ;;
    if a_eq A x (a_zero A) then set rparts (zi i) (a_one A) else Ok rparts) rparts ;;
  for_ 0 nprof (fun i rparts =>
    for_ 0 nbins (fun j rparts =>
      let idx := zi (i * nbins + j) in
      x <- get rparts idx ;;
      m <- a_int A max_bin_val ;;
      q <- a_div A m x ;;
      set rparts idx q) rparts) rparts.

(** if (sum(weights, npart) <= 0) throw; 211-217 [sum]. *)
Definition check_sumA (weights : list num) (npart : nat) : res unit :=
  l <- gets weights 0 npart ;;
  s <- a_sum A l ;;
  if a_le A s (a_zero A) then Fail (Raised RuntimeError) else Ok tt.

(** Local variables of [reconstruct] that change. *)
Record fstate := FState { f_weights : list num; f_rec : list num; f_discr : list num; f_diff : list num }.

(** reconstruct.cpp 400-422: one iteration.  [reduce it] is the order in which
    the threads of the it-th call of [normalize] are added. *)
Definition iterationA (reduce : nat -> list num -> res num) (fp : list Z) (prof rparts : list num)
    (nbins npart nprof : nat) (it : nat) (s : fstate) : res fstate :=
  rec <- projectA (f_rec s) fp (f_weights s) npart nprof ;;
  rec <- normalizeA (reduce it) rec nprof nbins ;;
  diff <- differenceA (f_diff s) rec prof (nprof * nbins) ;;
  d <- discrepancyA diff nprof nbins ;;
  discr <- set (f_discr s) (zi it) d ;;
  diff <- compensateA diff rparts nprof nbins ;;
  w <- back_projectA (f_weights s) fp diff npart nprof ;;
  w <- clipA w npart ;;
  _ <- check_sumA w npart ;;
  Ok (FState w rec discr diff).

(** reconstruct.cpp 358-441 [reconstruct], with the output arrays allocated by
    wrapper_reconstruct (libtomo.cpp 410-413).  Callbacks: see MRecon.v. *)
Definition reconstructA (reduce : nat -> list num -> res num) (xp : list Z) (prof : list num)
    (niter nbins npart nprof : nat) : res fstate :=
  let all_bins := nprof * nbins in
  let zeros n := repeat (a_zero A) n in
  rparts <- reciprocalA (zeros all_bins) xp nbins nprof npart ;;
  fp <- create_flat_points xp npart nprof nbins ;;
  w <- back_projectA (zeros npart) fp prof npart nprof ;;
  w <- clipA w npart ;;
  _ <- check_sumA w npart ;;
  s <- for_ 0 niter (iterationA reduce fp prof rparts nbins npart nprof)
         (FState w (zeros all_bins) (zeros (S niter)) (zeros all_bins)) ;;
  rec <- projectA (f_rec s) fp (f_weights s) npart nprof ;;
  rec <- normalizeA (reduce niter) rec nprof nbins ;;
  diff <- differenceA (f_diff s) rec prof all_bins ;;
  d <- discrepancyA diff nprof nbins ;;
  discr <- set (f_discr s) (zi niter) d ;;
  Ok (FState (f_weights s) rec discr diff).

(** __tomography.py 56-57 and 228-232 [_normalize_profiles]: waterfall.clip(0.0),
    then every row divided by its sum. *)
Definition normalized_profilesA (wf : list (list num)) : res (list (list num)) :=
  let wf := map (map (fun x => if a_lt A x (a_zero A) then a_zero A else x)) wf in
  if negb (existsb (existsb (fun x => negb (a_eq A x (a_zero A)))) wf)
  then Fail (Raised WaterfallReducedToZero)
  else mapM (fun row => s <- a_sum A row ;; mapM (fun x => a_div A x s) row) wf.
End Reconstruct.

Arguments FState {A}. Arguments f_weights {A}. Arguments f_rec {A}. Arguments f_discr {A}. Arguments f_diff {A}.

(** ** The arithmetics *)

(** Exact numbers, as in MRecon.v. *)
Definition exact (sqrt : Qc -> Qc) : arith :=
  Arith Qc (fun z => Ok (qz z)) (fun a b => Ok (a + b)%Qc) (fun a b => Ok (a - b)%Qc) (fun a b => Ok (a * b)%Qc) qdiv
    (fun l => Ok (qsum l)) (fun l => Ok (qsum (map (fun x => x * x)%Qc l))) (fun x => Ok (sqrt x)) qtrunc 0%Qc 1%Qc
    qltb qleb qeqb.

(** The order of a sum: a binary tree over the positions of the terms. *)
Inductive tree := Leaf (i : nat) | Node (a b : tree).
Fixpoint leaves (t : tree) : list nat := match t with Leaf i => [i] | Node a b => leaves a ++ leaves b end.

Local Open Scope R_scope.
(** A finite number: not larger than the largest one. *)
Definition finite_number (huge x : R) : res R := if Rle_dec (Rabs x) huge then Ok x else Fail NotFinite.
(** Addition along the tree, every sum rounded. *)
Fixpoint tree_sum (rnd : R -> R) (huge : R) (t : tree) (l : list R) : res R :=
  match t with
  | Leaf i => get l (zi i)
  | Node a b => x <- tree_sum rnd huge a l ;; y <- tree_sum rnd huge b l ;; finite_number huge (rnd (x + y))
  end.
(** The sum of n numbers in the order given for n. *)
Definition ordered_sum (rnd : R -> R) (huge : R) (order : nat -> tree) (l : list R) : res R :=
  match l with [] => Ok 0 | _ => tree_sum rnd huge (order (length l)) l end.

Definition rltb (a b : R) : bool := if Rlt_dec a b then true else false.
Definition rleb (a b : R) : bool := if Rle_dec a b then true else false.
Definition reqb (a b : R) : bool := if Req_EM_T a b then true else false.
(** Conversion to int: towards zero. *)
Definition rtrunc (x : R) : Z := if Rle_dec 0 x then Int_part x else (- Int_part (- x))%Z.

(** Floating point numbers as real numbers: [rnd] rounds to the type, [wide] to
    double, in which std::pow(x, 2.0) and its addition to squared_sum are
    computed; [huge] is the largest finite number, [quot] the quotient as
    compiled, [order] the order of the sums. *)
Definition rounded (rnd wide : R -> R) (huge : R) (quot : R -> R -> R) (order : nat -> tree) : arith :=
  let fin := finite_number huge in
  Arith R (fun z => fin (rnd (IZR z))) (fun a b => fin (rnd (a + b))) (fun a b => fin (rnd (a - b)))
    (fun a b => fin (rnd (a * b))) (fun a b => if Req_EM_T b 0 then Fail NotFinite else fin (quot a b))
    (ordered_sum rnd huge order)
    (fun l => s <- ordered_sum (fun x => rnd (wide x)) huge order (map (fun x => wide (x * x)) l) ;; fin (rnd s))
    (fun x => if Rlt_dec x 0 then Fail NotFinite else fin (rnd (sqrt x))) rtrunc 0 1 rltb rleb reqb.
