(** Model of the output files: LT/compat/fortran.py 32-232 and
    LT/compat/tomoscope.py 17-50; and of the Python number formats they use.
    Numbers are exact rationals: infinities, not-a-number and the negative zero
    are not among them. *)
From Coq Require Import List ZArith Bool QArith Qcanon Qcabs String Ascii.
From Verif Require Import Base.Res Base.QcLib Model.MParticles Model.MImage.
Import ListNotations.
Local Open Scope Qc_scope.

(** ** Python's formats *)
(** The digit d; the last k digits of n; the number of digits of n (1 for 0). *)
Definition digit (d : Z) : ascii := ascii_of_nat (48 + Z.to_nat d).
Fixpoint digs (k : nat) (n : Z) : string :=
  match k with O => EmptyString | S k => (digs k (n / 10) ++ String (digit (n mod 10)) EmptyString)%string end.
Fixpoint ndig_ (fuel : nat) (n : Z) : nat :=
  match fuel with O => 1 | S f => if (n <? 10)%Z then 1 else S (ndig_ f (n / 10)) end.
Definition ndig (n : Z) : nat := ndig_ (Z.to_nat (Z.log2 n)) n.
Fixpoint fill (c : ascii) (k : nat) : string := match k with O => EmptyString | S k => String c (fill c k) end.

(** '{n}' or '{n:d}'; '{n:3d}' for any width; '{n:03d}' for any width: the sign
    counts for the width and comes first. *)
Definition fmt_d (n : Z) : string :=
  if (n <? 0)%Z then String "-" (digs (ndig (- n)) (- n)) else digs (ndig n) n.
Definition fmt_wd (w : nat) (n : Z) : string :=
  let s := fmt_d n in (fill " " (w - String.length s) ++ s)%string.
Definition fmt_0wd (w : nat) (n : Z) : string :=
  if (n <? 0)%Z then String "-" (digs (Nat.max (w - 1) (ndig (- n))) (- n)) else digs (Nat.max w (ndig n)) n.

(** 10 to the power e. *)
Definition p10 (e : Z) : Qc := if (e <? 0)%Z then / qz (10 ^ (- e)) else qz (10 ^ e).
(** Round to the nearest integer, halves to the even one. *)
Definition round_even (x : Qc) : Z :=
  let f := qfloor x in
  match Qccompare (x - qz f) (qq 1 2) with
  | Lt => f
  | Gt => (f + 1)%Z
  | Eq => if Z.even f then f else (f + 1)%Z
  end.
(** The exponent e with 10^e <= x < 10^(e+1), for x > 0. *)
Definition expo (x : Qc) : Z :=
  let k := (Z.of_nat (ndig (Qnum (this x))) - Z.of_nat (ndig (Zpos (Qden (this x)))))%Z in
  if qleb (p10 k) x then k else (k - 1)%Z.
(** '{x:0.pE}'. *)
Definition mantissa (p : nat) (x : Qc) : Z * Z :=
  if qeqb x 0 then (0, 0)%Z
  else
    let e := expo x in
    let m := round_even (x * p10 (Z.of_nat p - e)) in
    if (m =? 10 ^ Z.of_nat (S p))%Z then (10 ^ Z.of_nat p, e + 1)%Z else (m, e).
Definition fmt_E (p : nat) (x : Qc) : string :=
  let '(m, e) := mantissa p (Qcabs x) in
  ((if qltb x 0 then "-" else "") ++ digs 1 (m / 10 ^ Z.of_nat p) ++ "." ++ digs p m ++ "E" ++
   (if (e <? 0)%Z then "-" else "+") ++ fmt_0wd 2 (Z.abs e))%string.
(** '{x:.pf}'. *)
Definition fmt_f (p : nat) (x : Qc) : string :=
  let m := round_even (Qcabs x * p10 (Z.of_nat p)) in
  ((if qltb x 0 then "-" else "") ++ fmt_d (m / 10 ^ Z.of_nat p) ++ "." ++ digs p m)%string.

(** ** Files: a path and the text *)
Definition nl : string := String (ascii_of_nat 10) EmptyString.
Definition file := (string * string)%type.
(** os.path.join for a name that does not begin with a slash. *)
Fixpoint ends_slash (s : string) : bool :=
  match s with
  | EmptyString => false
  | String c EmptyString => Ascii.eqb c "/"
  | String _ r => ends_slash r
  end.
Definition join (dir name : string) : string :=
  match dir with
  | EmptyString => name
  | _ => if ends_slash dir then (dir ++ name)%string else (dir ++ "/" ++ name)%string
  end.
Definition text {A} (line : A -> string) (l : list A) : string :=
  fold_right (fun x t => (line x ++ nl ++ t)%string) EmptyString l.
(** enumerate *)
Definition enumerate {A} (l : list A) : list (nat * A) := combine (seq 0 (List.length l)) l.

(** fortran.py 32-50. *)
Definition save_profile (profiles : list (list Qc)) (recprof : Z) (dir : string) : res file :=
  row <- np_get profiles recprof ;;
  Ok (join dir ("profile" ++ fmt_0wd 3 (recprof + 1) ++ ".data")%string,
      text (fun x => (" " ++ fmt_E 7 x)%string) row).
(** fortran.py 53-67. *)
Definition save_self_volt_profile (self_fields : list (list Qc)) (dir : string) : file :=
  (join dir "vself.data", text (fun x => (" " ++ fmt_E 7 x)%string) (List.concat self_fields)).
(** fortran.py 74-91. *)
Definition save_phase_space (image : list (list Qc)) (recprof : Z) (dir : string) : file :=
  (join dir ("image" ++ fmt_0wd 3 (recprof + 1) ++ ".data")%string,
   text (fun x => ("  " ++ fmt_E 7 x)%string) (List.concat image)).
(** fortran.py 190-207. *)
Definition save_difference (diff : list Qc) (dir : string) (recprof : Z) : file :=
  (join dir ("d" ++ fmt_0wd 3 (recprof + 1) ++ ".data")%string,
   text (fun p => ("         " ++ fmt_wd 3 (Z.of_nat (fst p)) ++ "  " ++ fmt_E 7 (snd p))%string) (enumerate diff)).
(** tomoscope.py 17-26. *)
Definition tomoscope_save_difference (diff : list Qc) (dir : string) (film : Z) : file :=
  (join dir ("d" ++ fmt_0wd 3 (film + 1) ++ ".data")%string,
   text (fun p => ((if (fst p <? 10)%nat then "           " else "          ") ++ fmt_d (Z.of_nat (fst p)) ++ "  " ++ fmt_E 7 (snd p))%string)
     (enumerate diff)).
(** tomoscope.py 29-42. *)
Definition tomoscope_save_image (xp yp : list (list Z)) (weight : list Qc) (nbins film : nat) (dir : string) : res file :=
  ps <- create_phase_space_image xp yp weight nbins film ;;
  Ok (save_phase_space ps (Z.of_nat film) dir).
(** tomoscope.py 45-51. *)
Definition tomoscope_save_profile (prof : list Qc) (film : Z) (dir : string) : file :=
  (join dir ("profile" ++ fmt_0wd 3 (film + 1) ++ ".data")%string,
   text (fun x => (" " ++ fmt_E 7 x)%string) prof).

(** Files written one after the other with mode 'w': the last text of a path
    counts. *)
Definition store := string -> option string.
Definition write (s : store) (f : file) : store :=
  fun p => if String.eqb p (fst f) then Some (snd f) else s p.
Definition write_all (fs : list file) (s : store) : store := fold_left write fs s.

(** ** fortran.py 103-183 [write_plotinfo] *)
Record plot_machine := {
  pm_filmstart : Z; pm_dturns : Z; pm_nprofiles : Z; pm_nbins : Z; pm_dtbin : Qc;
  pm_synch_x : Qc; pm_synch_y : Qc; pm_phi0 : list Qc;
  (* attributes that need not be there, or are None *)
  pm_fit_x : option Qc; pm_low : option Qc; pm_up : option Qc
}.
Record plot_particles := { pp_dEbin : option Qc; pp_imin : option Z; pp_imax : option Z }.
Definition plotinfo (m : plot_machine) (p : plot_particles) (profile_charge : Qc) : res (list string) :=
  let recprof := pm_filmstart m in
  let rec_turn := (recprof * pm_dturns m)%Z in
  let '(low, up, fit) :=
    match pm_fit_x m, pm_low m, pm_up m with
    | Some fit, Some low, Some up => (low, up, fit)
    | _, _, _ => (0, 0, 0)
    end in
  match pp_dEbin p with
  | None => Fail (Raised EnergyBinningError)
  | Some dEbin =>
    match pp_imin p, pp_imax p with
    | Some imin, Some imax =>
      phi <- np_get (pm_phi0 m) rec_turn ;;
      let n := fmt_d (recprof + 1) in
      Ok [" plotinfo.data";
          "Number of profiles used in each reconstruction,";
          " profilecount = " ++ fmt_d (pm_nprofiles m);
          "Width (in pixels) of each image = length (in bins) of each profile,";
          " profilelength = " ++ fmt_d (pm_nbins m);
          "Width (in s) of each pixel = width of each profile bin,";
          " dtbin = " ++ fmt_E 4 (pm_dtbin m);
          "Height (in eV) of each pixel,";
          " dEbin = " ++ fmt_E 4 dEbin;
          "Number of elementary charges in each image,";
          " eperimage = " ++ fmt_E 3 profile_charge;
          "Position (in pixels) of the reference synchronous point:";
          " xat0 =  " ++ fmt_f 3 (pm_synch_x m);
          " yat0 =  " ++ fmt_f 3 (pm_synch_y m);
          "Foot tangent fit results (in bins):";
          " tangentfootl =    " ++ fmt_f 3 low;
          " tangentfootu =    " ++ fmt_f 3 up;
          " fit xat0 =   " ++ fmt_f 3 fit;
          "Synchronous phase (in radians):";
          " phi0( " ++ n ++ ") = " ++ fmt_f 4 phi;
          "Horizontal range (in pixels) of the region in phase space of map elements:";
          " imin( " ++ n ++ ") =   " ++ fmt_d imin ++ " and imax( " ++ n ++ ") =  " ++ fmt_d imax]%string
    | _, _ => Fail (Raised PhaseLimitsError)
    end
  end.
(** The text: the lines, the last one without a line break. *)
Fixpoint join_lines (l : list string) : string :=
  match l with [] => EmptyString | x :: nil => x | x :: r => (x ++ nl ++ join_lines r)%string end.
Definition write_plotinfo m p profile_charge : res string := l <- plotinfo m p profile_charge ;; Ok (join_lines l).

(** fortran.py 214-232 [print_tracking_status]: what is printed. *)
Definition print_tracking_status (ref_prof to_profile : Z) : string :=
  (" Tracking from time slice  " ++ fmt_d (ref_prof + 1) ++ " to  " ++ fmt_d (to_profile + 1) ++
   ",   0.000% went outside the image width." ++ nl)%string.
