(** Theorems on input files and machine settings (C42, C43, C56).
    Statements only: each theorem is closed by the lemma of the same name in
    Proof/CInput.v.  Written by tools/mkprops.py. *)
From Coq Require Import List ZArith QArith Qcanon Bool String Ascii Lia.
From Verif Require Import Base.Res Base.QcLib Model.MRecon Model.MParticles Model.MPreproc Model.MInput Spec.InputSpec.
Import ListNotations.
Local Open Scope Z_scope.
From Verif Require Import Proof.CInput.

(** A machine passes the checks exactly when every setting is present and on
    the documented side of its limit. *)
Theorem C43_accepted : forall m, assert_machine_input m = Ok tt <-> acceptable m.
Proof. exact C43_accepted_lem. Qed.
Print Assumptions C43_accepted.

Definition C43_machine : imachine :=
  IMachine (Some (Fin (qq 1 1000))) (Some 5) (Some 0) (Some 4) (Some 2) (Some 20) (Some 4) (Some 1) (Some 0)
    (Some (Fin 1%Qc)) (Some (Fin (qz 2))) (Some (Fin 1%Qc)) (Some (Fin (qz 25))) (Some (Fin (qz 8)))
    (Some (Fin (qz 938))) (Some (Fin 1%Qc)) (Some (Fin 0%Qc))
    "/tmp/" (Fin 0%Qc) (Fin 0%Qc) false false (Fin (qz 2637)) (Fin 0%Qc) (Fin 0%Qc) (Fin 0%Qc) (Fin 0%Qc) (Fin 0%Qc)
    (Fin (qz 4)) (Fin 1%Qc) (Fin 0%Qc) 10 100 (Fin 0%Qc) (Fin 1%Qc).
Example C43_accepted_ex : assert_machine_input C43_machine = Ok tt.
Proof. reflexivity. Qed.
(** The settings of the example with other frame numbers. *)
Definition C43_with (start stop step mref bref : Z) (dtbin : pyfloat) : imachine :=
  let m := C43_machine in
  IMachine (Some dtbin) (im_dturns m) (Some start) (Some stop) (Some step) (im_niter m) (im_snpt m) (Some mref) (Some bref)
    (im_h_num m) (im_h_ratio m) (im_b0 m) (im_mean_orbit_rad m) (im_bending_rad m) (im_e_rest m) (im_pickup m) (im_g_coupling m)
    (im_output_dir m) (im_synch_part_x m) (im_demax m) (im_full_pp m) (im_self_field m) (im_vrf1 m) (im_vrf1dot m)
    (im_vrf2 m) (im_vrf2dot m) (im_phi12 m) (im_bdot m) (im_trans_gamma m) (im_charge m) (im_zwall_over_n m)
    (im_nprofiles m) (im_nbins m) (im_min_dt m) (im_max_dt m).

(** If the checks pass, every frame number is inside the recorded profiles and
    the film step is positive, then the run finds every frame it needs.  The
    film shows the profiles start, start+step, ... up to stop, at least one. *)
Theorem C43_runs_partial : forall m a b s, assert_machine_input m = Ok tt -> frames_inside m ->
  im_filmstart m = Some a -> im_filmstop m = Some b -> im_filmstep m = Some s -> 0 < s ->
  exists shown, run_frames m = Ok shown /\ nth_error shown 0 = Some a /\
    (forall film, In film shown <-> exists k, 0 <= k /\ film = a + k * s /\ film <= b) /\
    (forall i x y, nth_error shown i = Some x -> nth_error shown (S i) = Some y -> x < y) /\
    (forall film, In film shown -> 0 <= film < im_nprofiles m).
Proof. exact C43_runs_partial_lem. Qed.
Print Assumptions C43_runs_partial.

Example C43_runs_ex : frames_inside C43_machine /\ run_frames C43_machine = Ok [0; 2; 4].
Proof.
  split; [|reflexivity]. intros z H. cbn in H. cbn.
  destruct H as [H|[H|[H|H]]]; injection H as <-; lia.
Qed.

(** The checks accept settings that cannot be run: a machine reference frame,
    a beam reference frame or a last film frame beyond the profiles
    (IndexError), and a negative film step (no frame is shown). *)
Theorem C43_usable_refuted :
  exists m1 m2 m3 m4, Forall (fun m => assert_machine_input m = Ok tt) [m1; m2; m3; m4] /\
    ~ frames_inside m1 /\ run_frames m1 = Fail (Raised IndexError) /\
    ~ frames_inside m2 /\ run_frames m2 = Fail (Raised IndexError) /\
    ~ frames_inside m3 /\ run_frames m3 = Fail (Raised IndexError) /\
    frames_inside m4 /\ run_frames m4 = Fail (Raised UnboundLocalError).
Proof. exact C43_usable_refuted_lem. Qed.
Print Assumptions C43_usable_refuted.

(** A setting that is not a number passes all the checks, and so does a
    harmonic ratio of 0 (by which the phase range is divided). *)
Theorem C43_not_a_number_refuted :
  (exists m, assert_machine_input m = Ok tt /\ im_dtbin m = Some NaN) /\
  (exists m, assert_machine_input m = Ok tt /\ im_h_ratio m = Some (Fin 0%Qc)).
Proof. exact C43_not_a_number_refuted_lem. Qed.
Print Assumptions C43_not_a_number_refuted.

(** An input of any other length than 98 lines raises InputError. *)
Theorem C42_wrong_length : forall to_int to_float values_at_turns lines, List.length lines <> 98%nat ->
  txt_input_to_machine to_int to_float values_at_turns lines = Fail (Raised InputError).
Proof. exact C42_wrong_length_lem. Qed.
Print Assumptions C42_wrong_length.

Example C42_wrong_length_ex : List.length ["a"%string; "b"%string] <> 98%nat.
Proof. cbn. lia. Qed.

(** A machine and its frames are returned exactly when there are 98 lines,
    every setting is the one on its documented line, the settings pass the
    checks and the values at each turn can be computed. *)
Theorem C42_lines : forall to_int to_float values_at_turns lines m f,
  txt_input_to_machine to_int to_float values_at_turns lines = Ok (m, f) <->
  (List.length lines = 98%nat /\ documented to_int to_float lines m f /\ acceptable m /\ values_at_turns m = Ok tt).
Proof. exact C42_lines_lem. Qed.
Print Assumptions C42_lines.

Definition C42_conv (s : string) : res Z :=
  match s with
  | String "1" EmptyString => Ok 1
  | String "2" EmptyString => Ok 2
  | _ => Fail (Raised ValueError)
  end.
Definition C42_file : list string := map (fun _ => String "1" (String "010" EmptyString)) (seq 0 98).
Example C42_lines_ex :
  match txt_input_to_machine C42_conv (fun s => z <- C42_conv s ;; Ok (Fin (qz z))) (fun _ => Ok tt)
    (map (fun k => if Nat.eqb k 16 then String "2" (String "010" EmptyString)
                   else if Nat.eqb k 26 then String "1" EmptyString
                   else if Nat.eqb k 20 then String "2" (String "013" (String "010" EmptyString))
                   else String "1" (String "010" EmptyString)) (seq 0 98)) with
  | Ok (m, f) => f_nframes (tf_frames f) = 2 /\ im_nprofiles m = 1 /\ im_filmstart m = Some 0 /\ im_output_dir m = "1"%string
  | Fail _ => False
  end.
Proof. vm_compute. auto. Qed.

(** Reading standard input takes the 98 parameter lines; if line 13 says that
    the data follow, it also takes one line for each of the (frames * bins)
    measurements, and leaves the rest unread.  A line after the end of the
    input reads as empty. *)
Theorem C56_stdin : forall to_int stdin fuel n,
  (contains "pipe" (nth 12 stdin EmptyString) = false /\ n = 98%nat \/
   contains "pipe" (nth 12 stdin EmptyString) = true /\
   exists nframes nbins, to_int (nth 16 stdin EmptyString) = Ok nframes /\ to_int (nth 20 stdin EmptyString) = Ok nbins /\
     0 <= nframes * nbins /\ Z.of_nat n = 98 + nframes * nbins) ->
  (n <= fuel)%nat ->
  get_input_stdin to_int fuel stdin = Ok (tab n (fun i => nth i stdin EmptyString), skipn n stdin).
Proof. exact C56_stdin_lem. Qed.
Print Assumptions C56_stdin.

Example C56_stdin_ex :
  match get_input_stdin C42_conv 200 (map (fun k => if Nat.eqb k 12 then "pipe"%string else if Nat.eqb k 16 then "2"%string else "1"%string) (seq 0 120)) with
  | Ok (r, rest) => List.length r = 100%nat /\ List.length rest = 20%nat
  | Fail _ => False
  end.
Proof. vm_compute. auto. Qed.

(** The lines that were read are split after line 98.  The parameters are
    those lines without their ends; the data are the numbers on the remaining
    lines if line 13 is the word pipe, and the contents of the file named on
    line 13 otherwise.  There are as many of them as frames times bins. *)
Theorem C56_split : forall to_int to_float genfromtxt read params data,
  split_input to_int to_float genfromtxt read = Ok (params, data) <->
  exists ps ds nframes nbins,
    read = ps ++ ds /\ List.length ps = 98%nat /\
    Forall2 trimmed ps params /\
    to_int (nth 16 ps EmptyString) = Ok nframes /\ to_int (nth 20 ps EmptyString) = Ok nbins /\
    (if String.eqb (nth 12 params EmptyString) "pipe" then Forall2 (fun s v => to_float s = Ok v) ds data
     else genfromtxt (nth 12 params EmptyString) = Ok data) /\
    Z.of_nat (List.length data) = nframes * nbins.
Proof. exact C56_split_lem. Qed.
Print Assumptions C56_split.

Definition C56_lines : list string :=
  map (fun k => (if Nat.eqb k 12 then String "p" (String "i" (String "p" (String "e" (String "010" EmptyString))))
                 else if Nat.eqb k 16 then "2" else "1")%string) (seq 0 100).
Example C56_split_ex :
  match split_input C42_conv (fun s => z <- C42_conv s ;; Ok (Fin (qz z))) (fun _ => Fail (Raised ValueError)) C56_lines with
  | Ok (ps, d) => List.length ps = 98%nat /\ List.length d = 2%nat | Fail _ => False end.
Proof. vm_compute. auto. Qed.

(** Reading from standard input decides whether data follow by looking for
    the letters pipe anywhere on line 13; splitting compares the whole line.
    With a data file whose path contains these letters, lines after the
    parameters are consumed although the data come from that file. *)
Theorem C56_pipe_refuted :
  exists to_int to_float genfromtxt stdin read rest params data,
    nth 12 stdin EmptyString = "/data/pipes/x.dat"%string /\
    get_input_stdin to_int 200 stdin = Ok (read, rest) /\
    split_input to_int to_float genfromtxt read = Ok (params, data) /\
    genfromtxt "/data/pipes/x.dat"%string = Ok data /\
    List.length stdin = 100%nat /\ rest = [].
Proof. exact C56_pipe_refuted_lem. Qed.
Print Assumptions C56_pipe_refuted.
