(** Keywords and histories of objects. *)
From Coq Require Import Reals String List ZArith.
From Verif Require Import Base.Res Model.MTrack Model.MMachine Model.MPrograms Model.MObjects.
Import ListNotations.
Local Open Scope R_scope.
Local Open Scope string_scope.

(** The documented keywords of a machine: the name, the attribute and the
    default value (min_dt and max_dt aside). *)
Definition documented : list (string * (string * pyval)) :=
  [("demax", ("demax", PyNum (-1000000))); ("phi12", ("phi12", PyNum 0)); ("h_ratio", ("h_ratio", PyNum 1));
   ("h_num", ("h_num", PyNum 1)); ("charge", ("q", PyNum 1)); ("synch_part_x", ("synch_part_x", PyNum (-1)));
   ("vrf2", ("vrf2", PyNum 0)); ("vrf1dot", ("vrf1dot", PyNum 0)); ("vrf2dot", ("vrf2dot", PyNum 0)); ("bdot", ("bdot", PyNum 0));
   ("g_coupling", ("g_coupling", PyNone)); ("zwall_over_n", ("zwall_over_n", PyNone));
   ("pickup_sensitivity", ("pickup_sensitivity", PyNone)); ("output_dir", ("output_dir", PyNone));
   ("self_field_flag", ("self_field_flag", PyBool false)); ("full_pp_flag", ("full_pp_flag", PyBool false));
   ("machine_ref_frame", ("machine_ref_frame", PyNum 0)); ("beam_ref_frame", ("beam_ref_frame", PyNum 0));
   ("snpt", ("snpt", PyNum 4)); ("niter", ("niter", PyNum 20));
   ("filmstart", ("filmstart", PyNum 0)); ("filmstop", ("filmstop", PyNum 1)); ("filmstep", ("filmstep", PyNum 1))].
Definition known (name : string) : Prop := In name ("min_dt" :: "max_dt" :: map fst documented).

(** The argument given for a keyword; a Python call has each name once. *)
Definition given (kwargs : list (string * pyval)) (name : string) (v : pyval) : Prop := In (name, v) kwargs.
Definition missing (kwargs : list (string * pyval)) (name : string) : Prop := forall v, ~ In (name, v) kwargs.
Definition call (kwargs : list (string * pyval)) : Prop := NoDup (map fst kwargs).
(** An attribute of an object. *)
Definition attribute (obj : list (string * pyval)) (name : string) (v : pyval) : Prop := dict_get pyval obj name = Some v.

(** The calculation of the values at turns succeeded at some point. *)
Definition calculated newton check left (m : rmachine) (x : R) (l : list action) : Prop :=
  exists l1 l2, l = (l1 ++ Calculate :: l2)%list /\ snd (calc_values newton check left (history newton check left m x l1)) = Ok tt.

(** The filtered profiles asked for. *)
Definition filtered (standard : list (list R) -> list (list R)) (a : filter_arg) (waterfall : list (list R)) : list (list R) :=
  match a with Manual w => w | Filter f => f waterfall | Standard => standard waterfall end.
(** For profiles, machine and charge as in p, the filtered profiles a have the
    window w and the self-fields f. *)
Definition fields_of {M P F} standard (wrap : M -> res P) (field : M -> list (list R) -> P -> R -> res F)
    (p : fprofiles M P F) (a : filter_arg) (w : P) (f : F) : Prop :=
  exists c, fp_charge p = Some c /\ wrap (fp_m p) = Ok w /\ field (fp_m p) (filtered standard a (fp_waterfall p)) w c = Ok f.
(** A calculation of the self-fields succeeded during the steps l. *)
Definition fields_calculated {M P F} nprofiles set_nbins standard wrap field (p : fprofiles M P F) (l : list (step M)) : Prop :=
  exists l1 a l2, l = (l1 ++ CalcFields a :: l2)%list /\
    snd (calc_self_fields standard wrap field (fst (steps nprofiles set_nbins standard wrap field p l1)) a) = Ok tt.
(** New profiles: no self-fields yet. *)
Definition no_fields {M P F} (p : fprofiles M P F) : Prop := fp_ds p = None /\ fp_wrap p = None /\ fp_vself p = None.

(** No negative value. *)
Definition never_negative (w : list (list R)) : Prop := forall r, In r w -> forall x, In x r -> 0 <= x.

(** A flat machine with voltage in both systems and no phases. *)
Definition flat2 : programmed :=
  Programmed 1 3 0 1 1 (3 / 5 * c_light / (2 * PI)) 2 12 1 (3 / 2)
    [[0; 10]; [1; 1]; [1; 1]] [[0; 4]; [9; 9]] [1; 2] None None.
