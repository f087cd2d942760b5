(** Reading the files back, stated without the code: lines, words, numbers. *)
From Coq Require Import List ZArith Bool QArith Qcanon Qcabs String Ascii.
From Verif Require Import Base.QcLib.
Import ListNotations.
Local Open Scope Qc_scope.

(** The lines of a text. *)
Fixpoint lines (s : string) : list string :=
  match s with
  | EmptyString => []
  | String c r =>
    if Ascii.eqb c (ascii_of_nat 10) then EmptyString :: lines r
    else match lines r with [] => String c EmptyString :: nil | l :: ls => String c l :: ls end
  end.
(** The words of a line: what is between spaces. *)
Definition cons_word (w : string) (ws : list string) : list string :=
  match w with EmptyString => ws | _ => w :: ws end.
Fixpoint first_word (s : string) : string * list string :=
  match s with
  | EmptyString => (EmptyString, [])
  | String c r => let '(w, ws) := first_word r in
    if Ascii.eqb c " " then (EmptyString, cons_word w ws) else (String c w, ws)
  end.
Definition words (s : string) : list string := let '(w, ws) := first_word s in cons_word w ws.

(** Numbers: digits, perhaps with a sign, a point and digits, an exponent. *)
Definition digit_value (c : ascii) : option Z :=
  let n := nat_of_ascii c in
  if ((48 <=? n) && (n <=? 57))%nat then Some (Z.of_nat n - 48)%Z else None.
(** Read digits as long as there are any: the number, how many, the rest. *)
Fixpoint read_digits (acc : Z) (k : nat) (s : string) : Z * nat * string :=
  match s with
  | EmptyString => (acc, k, s)
  | String c r => match digit_value c with
                  | Some d => read_digits (acc * 10 + d)%Z (S k) r
                  | None => (acc, k, s)
                  end
  end.
Definition read_exponent (s : string) : option Qc :=
  match s with
  | EmptyString => Some 1
  | String "E" (String c r) =>
    let '(e, k, rest) := read_digits 0 0 r in
    match k, rest with
    | S _, EmptyString =>
      if Ascii.eqb c "+" then Some (qz 10 ^ Z.to_nat e)
      else if Ascii.eqb c "-" then Some (/ qz 10 ^ Z.to_nat e)
      else None
    | _, _ => None
    end
  | _ => None
  end.
Definition read_unsigned (s : string) : option Qc :=
  let '(i, k, r) := read_digits 0 0 s in
  match k with
  | O => None
  | _ =>
    match r with
    | String "." r' =>
      let '(f, k, r'') := read_digits 0 0 r' in
      match read_exponent r'' with Some t => Some ((qz i + qz f / qz 10 ^ k) * t) | None => None end
    | _ => match read_exponent r with Some t => Some (qz i * t) | None => None end
    end
  end.
Definition read_number (s : string) : option Qc :=
  match s with
  | String "-" r => match read_unsigned r with Some v => Some (- v) | None => None end
  | _ => read_unsigned s
  end.

(** The numbers of a text, line by line. *)
Definition table (s : string) : list (list (option Qc)) := map (fun l => map read_number (words l)) (lines s).

(** v is x to p digits behind the first one: the error is at most half a unit
    of the last digit.  And to p digits behind the point. *)
Definition near (p : nat) (x v : Qc) : Prop := Qcabs (v - x) * (qz 2 * qz 10 ^ p) <= Qcabs x.
Definition near_point (p : nat) (x v : Qc) : Prop := Qcabs (v - x) * (qz 2 * qz 10 ^ p) <= 1.

(** The kinds of files. *)
Inductive kind := Profiles | Images | Differences.

(** Where a text says something. *)
Definition says (t pre : string) (v : Qc -> Prop) : Prop :=
  exists w x, In (pre ++ w)%string (lines t) /\ words w = w :: nil /\ read_number w = Some x /\ v x.
