(** Model of the numbers that describe a beam: LT/data/post_process.py and
    rms_params of LT/utils/tomographics.py.  Real numbers; a phase space is the
    list of its rows. *)
From Coq Require Import List ZArith Reals.
From Verif Require Import Base.Res Base.RLib Model.MParticles.
Import ListNotations.
Local Open Scope R_scope.

(** numpy.sum. *)
Fixpoint rsum (l : list R) : R := match l with [] => 0 | x :: r => x + rsum r end.

(** post_process.py 263-294 [_std_from_histogram].  The arrays are
    one-dimensional: the assertion (280) compares the shape with the number of
    elements, so others are refused before they are flattened (284-285). *)
Definition std_from_histogram (h bins : list R) : res R :=
  if negb (length bins =? length h)%nat then Fail (Raised UnequalArrayShapes)
  else
    b1 <- np_get bins 1 ;; b0 <- np_get bins 0 ;;
    let bin_width := b1 - b0 in
    let mid_values := map (fun b => b + bin_width / 2) bins in
    mean <- mapM (fun p => rdiv (fst p * snd p) (rsum h)) (combine mid_values h) ;;
    var <- rdiv (rsum (map (fun p => fst p * (fst (snd p) - snd (snd p)) ^ 2) (combine h (combine mid_values mean)))) (rsum h) ;;
    rsqrt var.

(** histogram.sum(1) and histogram.sum(0), for rows of ncols elements. *)
Definition row_sums (ps : list (list R)) : list R := map rsum ps.
Definition col_sums (ncols : nat) (ps : list (list R)) : list R :=
  map (fun j => rsum (map (fun row => nth j row 0) ps)) (seq 0 ncols).

(** post_process.py 103-123 and 73-100 [emittance_rms]. *)
Definition emittance_rms (sigma_t sigma_e : R) : R := PI * sigma_t * sigma_e.
Definition emittance_rms_histogram (ncols : nat) (ps : list (list R)) (t_bins e_bins : list R) : res R :=
  t_std <- std_from_histogram (row_sums ps) t_bins ;;
  e_std <- std_from_histogram (col_sums ncols ps) e_bins ;;
  Ok (emittance_rms t_std e_std).

(** histogram[::-1].sort(): in decreasing order. *)
Fixpoint insert_desc (x : R) (l : list R) : list R :=
  match l with [] => [x] | y :: r => if Rle_dec y x then x :: l else y :: insert_desc x r end.
Fixpoint sort_desc (l : list R) : list R := match l with [] => [] | x :: r => insert_desc x (sort_desc r) end.
(** numpy.cumsum, started with acc. *)
Fixpoint cumsum (acc : R) (l : list R) : list R :=
  match l with [] => [] | x :: r => (acc + x) :: cumsum (acc + x) r end.
(** numpy.argmax(l >= x): the first index where it holds, 0 if there is none. *)
Fixpoint first_ge (x : R) (l : list R) : option nat :=
  match l with [] => None | y :: r => if Rle_dec x y then Some 0%nat else option_map S (first_ge x r) end.
Definition argmax_ge (x : R) (l : list R) : res nat :=
  match l with [] => Fail (Raised ValueError) | _ => Ok (match first_ge x l with Some n => n | None => 0%nat end) end.

(** post_process.py 150-192 [emittance_fractional]; 126-147 [emittance_90]. *)
Definition emittance_fractional (ps : list (list R)) (t_bins e_bins : list R) (fraction : R) : res R :=
  if Rlt_dec 100 fraction then Fail (Raised ValueError)
  else if Rlt_dec fraction 0 then Fail (Raised ValueError)
  else
    let fraction := fraction / 100 in
    histogram <- mapM (fun x => rdiv x (rsum (concat ps))) (concat ps) ;;
    let histogram := sort_desc histogram in
    n_bins <- argmax_ge (fraction * rsum histogram) (cumsum 0 histogram) ;;
    t1 <- np_get t_bins 1 ;; t0 <- np_get t_bins 0 ;;
    e1 <- np_get e_bins 1 ;; e0 <- np_get e_bins 0 ;;
    Ok (INR n_bins * ((t1 - t0) * (e1 - e0))).
Definition emittance_90 (ps : list (list R)) (t_bins e_bins : list R) : res R :=
  emittance_fractional ps t_bins e_bins 90.

(** post_process.py 195-226 and 229-260 [rms_dpp]. *)
Definition rms_dpp (energy_std energy mass : R) : res R :=
  momentum <- rsqrt (energy ^ 2 - mass ^ 2) ;;
  q <- rsqrt ((energy + energy_std) ^ 2 - mass ^ 2) ;;
  rdiv (q - momentum) momentum.
Definition rms_dpp_histogram (energy_proj energy_bins : list R) (energy mass : R) : res R :=
  energy_std <- std_from_histogram energy_proj energy_bins ;;
  rms_dpp energy_std energy mass.

(** post_process.py 25-70 [post_process]: the three numbers, in order. *)
Definition post_process (ncols : nat) (ps : list (list R)) (t_bins e_bins : list R) (energy mass : R) : res (R * R * R) :=
  t_std <- std_from_histogram (row_sums ps) t_bins ;;
  e_std <- std_from_histogram (col_sums ncols ps) e_bins ;;
  e90 <- emittance_90 ps t_bins e_bins ;;
  dpp <- rms_dpp e_std energy mass ;;
  Ok (emittance_rms t_std e_std, e90, dpp).

(** ** tomographics.py 305-344 [rms_params], for an image of a rows of b
    elements.  meshgrid (326) makes tables of b rows of a elements, with the row
    number and the column number; numpy multiplies tables of different shapes
    only where one has length 1, which is then repeated. *)
Definition bc (n i : nat) : nat := if (n =? 1)%nat then 0%nat else i.
Definition pixel (img : list (list R)) (i j : nat) : R := nth j (nth i img []) 0.
(** numpy.sum(tomo_image * f(x_matrix, y_matrix)). *)
Definition moment (a b : nat) (img : list (list R)) (f : R -> R -> R) : res R :=
  if ((a =? b) || (a =? 1) || (b =? 1))%nat%bool then
    let n := Nat.max a b in
    Ok (rsum (map (fun i => rsum (map (fun j => pixel img (bc a i) (bc b j) * f (INR (bc b i)) (INR (bc a j))) (seq 0 n))) (seq 0 n)))
  else Fail (Raised ValueError).
Record rms := Rms { emittance : R; mean_dt : R; sigma_dt : R; mean_dE : R; sigma_dE : R }.
Definition rms_params (a b : nat) (img : list (list R)) (dt dE : R) : res rms :=
  xbar <- moment a b img (fun x y => x) ;;
  xms <- moment a b img (fun x y => x ^ 2) ;;
  ybar <- moment a b img (fun x y => y) ;;
  yms <- moment a b img (fun x y => y ^ 2) ;;
  xybar <- moment a b img (fun x y => x * y) ;;
  r <- rsqrt ((xms - xbar ^ 2) * (yms - ybar ^ 2) - (xybar - xbar * ybar) ^ 2) ;;
  sx <- rsqrt (xms - xbar ^ 2) ;;
  sy <- rsqrt (yms - ybar ^ 2) ;;
  Ok (Rms (PI * dt * dE * r) (xbar * dt) (sx * dt) ((ybar - INR a / 2) * dE) (sy * dE)).
