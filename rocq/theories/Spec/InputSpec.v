(** Specification of the input file and of usable settings. *)
From Coq Require Import List ZArith Bool QArith Qcanon String Ascii.
From Verif Require Import Base.Res Base.QcLib Model.MPreproc Model.MInput.
Import ListNotations.
Local Open Scope Z_scope.

(** [s] is [raw] without the end-of-line characters around it. *)
Definition eol (c : ascii) : Prop := nat_of_ascii c = 10%nat \/ nat_of_ascii c = 13%nat.
Definition trimmed (raw s : string) : Prop :=
  exists a b, list_ascii_of_string raw = a ++ list_ascii_of_string s ++ b /\
    Forall eol a /\ Forall eol b /\
    (forall c r, list_ascii_of_string s = c :: r -> ~ eol c) /\
    (forall c r, list_ascii_of_string s = r ++ [c] -> ~ eol c).

(** Line number [k], counting from one as an editor does, reads [s]. *)
Definition line (lines : list string) (k : Z) (s : string) : Prop :=
  1 <= k /\ exists raw, nth_error lines (Z.to_nat (k - 1)) = Some raw /\ trimmed raw s.

Section Documented.
Variable to_int : string -> res Z.
Variable to_float : string -> res pyfloat.
Variable lines : list string.

(** Line [k] reads as an integer / as a number. *)
Definition whole (k v : Z) : Prop := exists s, line lines k s /\ to_int s = Ok v.
Definition number (k : Z) (v : pyfloat) : Prop := exists s, line lines k s /\ to_float s = Ok v.
(** Line [k] is a frame number, counting from one; [v] counts from zero. *)
Definition frame_number (k : Z) (v : option Z) : Prop := exists z, whole k z /\ v = Some (z - 1).
(** Line [k] is a flag: any value but 0 sets it. *)
Definition flag (k : Z) (b : bool) : Prop := exists z, whole k z /\ (b = true <-> z <> 0).
Definition some {A} (P : A -> Prop) (v : option A) : Prop := exists x, v = Some x /\ P x.

(** The lines of the input file as described by the comment lines in it
    (/repo/__EXAMPLES/input_files/*.dat): the machine and frame settings are
    those of the file. *)
Record documented (m : imachine) (f : tframes) : Prop := {
  (* Input data file *)
  d_file : line lines 13 (tf_path f);
  (* Directory in which to write all output *)
  d_out : line lines 15 (im_output_dir m);
  (* Number of frames in input data; number of frames to ignore *)
  d_frames : whole 17 (f_nframes (tf_frames f));
  d_ignore : whole 19 (f_skip_frames (tf_frames f));
  (* Number of bins in each frame; width (in s) of each frame bin *)
  d_bins : whole 21 (f_nbins_frame (tf_frames f));
  d_width : number 23 (tf_dtbin f);
  d_width_m : im_dtbin m = Some (tf_dtbin f);
  (* Number of machine turns between frames *)
  d_turns : some (whole 25) (im_dturns m);
  (* Number of frame bins before the lower / after the upper profile bound to ignore *)
  d_before : whole 27 (f_skip_start (tf_frames f));
  d_after : whole 29 (f_skip_end (tf_frames f));
  (* The profiles that are left, and their bins *)
  d_nprofiles : im_nprofiles m = f_nframes (tf_frames f) - f_skip_frames (tf_frames f);
  d_nbins : im_nbins m = f_nbins_frame (tf_frames f) - f_skip_start (tf_frames f) - f_skip_end (tf_frames f);
  (* Number of frame bins after the lower / before the upper profile bound to treat as empty *)
  d_empty_low : exists z, whole 32 z /\ im_min_dt m = fmulz z (tf_dtbin f);
  d_empty_up : exists z, whole 35 z /\ im_max_dt m = fmulz (im_nbins m - z) (tf_dtbin f);
  (* Number of frame bins to rebin into one profile bin *)
  d_rebin : whole 37 (f_rebin (tf_frames f));
  (* Time (in frame bins) from the lower profile bound to the synchronous phase *)
  d_synch : number 40 (im_synch_part_x m);
  (* Max energy (in eV) of reconstructed phase space *)
  d_demax : number 42 (im_demax m);
  (* Number of the first / last profile at which to reconstruct, step, iterations *)
  d_first : frame_number 44 (im_filmstart m);
  d_last : frame_number 46 (im_filmstop m);
  d_step : some (whole 48) (im_filmstep m);
  d_niter : some (whole 50) (im_niter m);
  (* Square root of the number of test particles to track per cell *)
  d_snpt : some (whole 52) (im_snpt m);
  (* Flag to extend the region in phase space of map elements *)
  d_full : flag 54 (im_full_pp m);
  (* Reference frame for bunch parameters, for machine parameters *)
  d_beam_ref : frame_number 56 (im_beam_ref_frame m);
  d_machine_ref : frame_number 58 (im_machine_ref_frame m);
  (* Peak RF voltage of principal RF system and its time derivative *)
  d_vrf1 : number 62 (im_vrf1 m);
  d_vrf1dot : number 64 (im_vrf1dot m);
  (* Peak RF voltage of higher-harmonic RF system and its time derivative *)
  d_vrf2 : number 66 (im_vrf2 m);
  d_vrf2dot : number 68 (im_vrf2dot m);
  (* Harmonic number of principal RF system; ratio of harmonics; phase difference *)
  d_h : some (number 70) (im_h_num m);
  d_h_ratio : some (number 72) (im_h_ratio m);
  d_phi12 : number 74 (im_phi12 m);
  (* Dipole magnetic field and its time derivative *)
  d_b0 : some (number 76) (im_b0 m);
  d_bdot : number 78 (im_bdot m);
  (* Machine radius; bending radius; gamma transition *)
  d_radius : some (number 80) (im_mean_orbit_rad m);
  d_bending : some (number 82) (im_bending_rad m);
  d_gamma : number 84 (im_trans_gamma m);
  (* Rest mass and charge state of accelerated particle *)
  d_rest : some (number 86) (im_e_rest m);
  d_charge : number 88 (im_charge m);
  (* Flag to include self-fields in the tracking *)
  d_self : flag 92 (im_self_field m);
  (* Geometrical coupling coefficient; reactive impedance; pick-up sensitivity *)
  d_g : some (number 94) (im_g_coupling m);
  d_wall : number 96 (im_zwall_over_n m);
  d_pickup : some (number 98) (im_pickup m)
}.
End Documented.

(** What assert_machine_input documents: no missing value, every value on the
    right side of its limit.  A not-a-number is on no side of a limit. *)
Definition not_below (limit : Qc) (f : pyfloat) : Prop :=
  f = NaN \/ f = PInf \/ exists q, f = Fin q /\ (limit <= q)%Qc.
Definition above (limit : Qc) (f : pyfloat) : Prop :=
  f = NaN \/ f = PInf \/ exists q, f = Fin q /\ (limit < q)%Qc.

Record acceptable (m : imachine) : Prop := {
  ac_dtbin : some (above 0%Qc) (im_dtbin m);
  ac_dturns : some (fun z => 0 < z) (im_dturns m);
  ac_film : exists a b s, im_filmstart m = Some a /\ im_filmstop m = Some b /\ im_filmstep m = Some s /\
    0 <= a <= b /\ s <> 0 /\ Z.abs s <= b - a + 1;
  ac_niter : some (fun z => 0 < z) (im_niter m);
  ac_snpt : some (fun z => 0 < z) (im_snpt m);
  ac_mref : some (fun z => 0 <= z) (im_machine_ref_frame m);
  ac_bref : some (fun z => 0 <= z) (im_beam_ref_frame m);
  ac_h : some (above 0%Qc) (im_h_num m);
  ac_ratio : some (not_below 0%Qc) (im_h_ratio m);
  ac_b0 : some (above 0%Qc) (im_b0 m);
  ac_radius : some (above 0%Qc) (im_mean_orbit_rad m);
  ac_bending : some (above 0%Qc) (im_bending_rad m);
  ac_rest : some (above 0%Qc) (im_e_rest m);
  ac_pickup : forall x, im_pickup m = Some x -> not_below 0%Qc x;
  ac_g : forall x, im_g_coupling m = Some x -> not_below 0%Qc x
}.

(** The frame numbers of a machine lie inside its profiles. *)
Definition frames_inside (m : imachine) : Prop :=
  forall z, im_machine_ref_frame m = Some z \/ im_beam_ref_frame m = Some z \/
            im_filmstart m = Some z \/ im_filmstop m = Some z -> 0 <= z < im_nprofiles m.
