(*HEAD*)
From Coq Require Import List ZArith QArith Qcanon String Ascii Lia.
From Verif Require Import Base.Res Base.QcLib Model.MImage Model.MOutput Spec.OutputSpec.
Import ListNotations.
Local Open Scope Qc_scope.
(*DAEH*)
From Coq Require Import Ascii Bool.
From Verif Require Import Base.ResLemmas Base.QcLemmas Model.MParticles Proof.PParticles Proof.POutput.

Lemma join_inj dir a b : join dir a = join dir b -> a = b.
Proof.
  unfold join. destruct dir as [|c r]; [auto|]. destruct (ends_slash _); intro H.
  - exact (app_inj_s _ _ _ H).
  - apply app_inj_s in H. exact (app_inj_s "/" _ _ H).
Qed.
Lemma name_inj pre i j : (pre ++ fmt_0wd 3 (i + 1) ++ ".data" = pre ++ fmt_0wd 3 (j + 1) ++ ".data")%string -> i = j.
Proof. intro H. apply app_inj_s, app_tail_inj, fmt_0wd_inj in H. lia. Qed.
Lemma save_profile_path profiles i dir f : save_profile profiles i dir = Ok f ->
  fst f = join dir ("profile" ++ fmt_0wd 3 (i + 1) ++ ".data")%string.
Proof. unfold save_profile. intro H. destruct (np_get profiles i); cbn [bind] in H; [|discriminate]. injection H as <-. reflexivity. Qed.

(** Two files have one path only if they are of one kind and for one index,
    whatever the index. *)
Lemma C55_paths_lem : forall dir i j img img' d d' profs profs' f f' volts,
  save_profile profs i dir = Ok f -> save_profile profs' j dir = Ok f' ->
  (fst f = fst f' <-> i = j) /\
  (fst (save_phase_space img i dir) = fst (save_phase_space img' j dir) <-> i = j) /\
  (fst (save_difference d dir i) = fst (save_difference d' dir j) <-> i = j) /\
  fst f <> fst (save_phase_space img j dir) /\ fst f <> fst (save_difference d dir j) /\
  fst f <> fst (save_self_volt_profile volts dir) /\
  fst (save_phase_space img i dir) <> fst (save_difference d dir j) /\
  fst (save_phase_space img i dir) <> fst (save_self_volt_profile volts dir) /\
  fst (save_difference d dir i) <> fst (save_self_volt_profile volts dir).
Proof.
  intros dir i j img img' d d' profs profs' f f' volts F F'.
  rewrite (save_profile_path _ _ _ _ F), (save_profile_path _ _ _ _ F'). cbn [fst save_phase_space save_difference save_self_volt_profile].
  split; [|split; [|split; [|split; [|split; [|split; [|split; [|split]]]]]]].
  1-3: split; [intro H; apply join_inj in H; exact (name_inj _ _ _ H)|intros ->; reflexivity].
  all: intro H; apply join_inj in H; discriminate.
Qed.
(** The two programs write the same files, apart from the discrepancy. *)
Lemma C55_same_paths_lem : forall dir i d prof profs xp yp w n film img,
  fst (tomoscope_save_difference d dir i) = fst (save_difference d dir i) /\
  (nth_error profs film = Some prof -> save_profile profs (Z.of_nat film) dir = Ok (tomoscope_save_profile prof (Z.of_nat film) dir)) /\
  (create_phase_space_image xp yp w n film = Ok img ->
   tomoscope_save_image xp yp w n film dir = Ok (save_phase_space img (Z.of_nat film) dir)).
Proof.
  intros. split; [reflexivity|]. split.
  - intro H. unfold save_profile. rewrite (np_get_ok _ _ _ _ H). reflexivity.
  - intro H. unfold tomoscope_save_image. rewrite H. reflexivity.
Qed.
(** Saving images, profiles or discrepancies of different indices one after the
    other, every one is kept, and no other file is touched. *)
Lemma write_all_other fs : forall s p, ~ In p (map fst fs) -> write_all fs s p = s p.
Proof.
  induction fs as [|f fs IH]; intros s p N; [reflexivity|]. cbn [map In] in N. cbn [write_all fold_left].
  change (write_all fs (write s f) p = s p). rewrite IH by tauto. unfold write.
  destruct (String.eqb_spec p (fst f)); [|reflexivity]. exfalso. apply N. left. congruence.
Qed.
Lemma write_all_in fs : forall s f, NoDup (map fst fs) -> In f fs -> write_all fs s (fst f) = Some (snd f).
Proof.
  induction fs as [|g fs IH]; intros s f ND I; [destruct I|]. cbn [map] in ND. inversion ND as [|? ? NI ND']. subst.
  cbn [write_all fold_left]. change (write_all fs (write s g) (fst f) = Some (snd f)).
  destruct I as [->|I].
  - rewrite write_all_other by exact NI. unfold write. rewrite String.eqb_refl. reflexivity.
  - apply IH; assumption.
Qed.
Lemma C55_kept_lem : forall dir (s : store) (films : list (Z * list (list Qc))) (diffs : list (Z * list Qc)),
  NoDup (map fst films) -> NoDup (map fst diffs) ->
  let files := map (fun f => save_phase_space (snd f) (fst f) dir) films ++ map (fun f => save_difference (snd f) dir (fst f)) diffs in
  (forall i img, In (i, img) films ->
    write_all files s (fst (save_phase_space img i dir)) = Some (snd (save_phase_space img i dir))) /\
  (forall i d, In (i, d) diffs ->
    write_all files s (fst (save_difference d dir i)) = Some (snd (save_difference d dir i))) /\
  (forall p, ~ In p (map fst files) -> write_all files s p = s p).
Proof.
  intros dir s films diffs N1 N2 files.
  assert (ND : NoDup (map fst files)).
  { unfold files. rewrite map_app, !map_map.
    assert (A : forall {X} (g : Z * X -> string) l, NoDup (map fst l) -> (forall u v, g u = g v -> fst u = fst v) -> NoDup (map g l)).
    { clear. intros X g l N G. induction l as [|u l IH]; [constructor|]. cbn [map] in *. inversion N as [|? ? NI N']. subst.
      constructor; [|apply IH; exact N']. intro I. apply in_map_iff in I as (v & E & V). apply NI. rewrite <- (G _ _ E). apply in_map. exact V. }
    assert (DIS : forall x y, In x (map (fun f : Z * list (list Qc) => fst (save_phase_space (snd f) (fst f) dir)) films) ->
      In y (map (fun f : Z * list Qc => fst (save_difference (snd f) dir (fst f))) diffs) -> x <> y).
    { intros x y X Y. apply in_map_iff in X as (u & <- & _). apply in_map_iff in Y as (v & <- & _).
      cbn [fst save_phase_space save_difference]. intro H. apply join_inj in H. discriminate. }
    assert (B1 : NoDup (map (fun f : Z * list (list Qc) => fst (save_phase_space (snd f) (fst f) dir)) films)).
    { apply A; [exact N1|]. intros u v H. cbn [fst save_phase_space] in H. apply join_inj in H. exact (name_inj _ _ _ H). }
    assert (B2 : NoDup (map (fun f : Z * list Qc => fst (save_difference (snd f) dir (fst f))) diffs)).
    { apply A; [exact N2|]. intros u v H. cbn [fst save_difference] in H. apply join_inj in H. exact (name_inj _ _ _ H). }
    clear - B1 B2 DIS. induction B1 as [|x l NI B1 IH]; [exact B2|]. cbn [app]. constructor.
    - intro I. apply in_app_iff in I as [I|I]; [exact (NI I)|]. exact (DIS x x (or_introl eq_refl) I eq_refl).
    - apply IH. intros u v U V. apply DIS; [right; exact U|exact V]. }
  split; [|split].
  - intros i img I. apply write_all_in; [exact ND|]. unfold files. apply in_app_iff. left.
    apply (in_map (fun f : Z * list (list Qc) => save_phase_space (snd f) (fst f) dir) films (i, img) I).
  - intros i d I. apply write_all_in; [exact ND|]. unfold files. apply in_app_iff. right.
    apply (in_map (fun f : Z * list Qc => save_difference (snd f) dir (fst f)) diffs (i, d) I).
  - intros p N. apply write_all_other. exact N.
Qed.

(** The two writers of the discrepancy agree for at most 100 iterations... *)
Lemma enumerate_nth {A} (l : list A) i x : nth_error l i = Some x -> nth_error (enumerate l) i = Some (i, x).
Proof.
  intro H. unfold enumerate.
  assert (G : forall (l : list A) k i x, nth_error l i = Some x -> nth_error (combine (seq k (List.length l)) l) i = Some ((k + i)%nat, x)).
  { clear. induction l as [|y l IH]; intros k [|i] x H; cbn in *; try discriminate.
    - injection H as ->. rewrite Nat.add_0_r. reflexivity.
    - rewrite (IH (S k) i x H). rewrite Nat.add_succ_r. reflexivity. }
  rewrite (G l 0%nat i x H). reflexivity.
Qed.
Lemma enumerate_length {A} (l : list A) : List.length (enumerate l) = List.length l.
Proof. unfold enumerate. rewrite combine_length, seq_length. lia. Qed.
Lemma enumerate_lt {A} (l : list A) p : In p (enumerate l) -> (fst p < List.length l)%nat.
Proof. destruct p as [i x]. intro H. apply in_combine_l in H. apply in_seq in H. cbn. lia. Qed.
Lemma text_ext {A} (f g : A -> string) l : (forall x, In x l -> f x = g x) -> text f l = text g l.
Proof. induction l as [|x l IH]; intro H; [reflexivity|]. cbn [text fold_right]. rewrite (H x (or_introl eq_refl)). f_equal. f_equal. apply IH. intros. apply H. right. assumption. Qed.
Lemma C55_difference_partial_lem : forall diff dir film, (List.length diff <= 100)%nat ->
  tomoscope_save_difference diff dir film = save_difference diff dir film.
Proof.
  intros diff dir film L. unfold tomoscope_save_difference, save_difference. f_equal.
  apply text_ext. intros [i d] H. apply enumerate_lt in H. cbn [fst snd] in *.
  assert (T : forallb (fun i => String.eqb ((if (i <? 10)%nat then "           " else "          ") ++ fmt_d (Z.of_nat i))
    ("         " ++ fmt_wd 3 (Z.of_nat i))) (seq 0 100) = true) by (vm_compute; reflexivity).
  rewrite forallb_forall in T. specialize (T i). rewrite in_seq in T. specialize (T ltac:(lia)).
  apply String.eqb_eq in T. rewrite <- !app_assoc_s. rewrite T. reflexivity.
Qed.
(** ... and never for more. *)
Lemma line_E_free pre p x : free (ascii_of_nat 10) pre = true -> free (ascii_of_nat 10) (pre ++ fmt_E p x) = true.
Proof. intro H. rewrite free_app, H. apply plain_E. Qed.
Lemma free_fill k : free (ascii_of_nat 10) (fill " " k) = true.
Proof. induction k; [reflexivity|exact IHk]. Qed.
Lemma diff_lines diff dir film : lines (snd (save_difference diff dir film)) =
  map (fun p => ("         " ++ fmt_wd 3 (Z.of_nat (fst p)) ++ "  " ++ fmt_E 7 (snd p))%string) (enumerate diff).
Proof.
  cbn [snd save_difference]. apply lines_text. intros [i d]. cbn [fst snd]. rewrite !free_app. unfold fmt_wd. rewrite free_app, free_fill.
  rewrite (proj2 (plain_d _)), (proj2 (plain_E _ _)). reflexivity.
Qed.
Lemma tomo_diff_lines diff dir film : lines (snd (tomoscope_save_difference diff dir film)) =
  map (fun p => ((if (fst p <? 10)%nat then "           " else "          ") ++ fmt_d (Z.of_nat (fst p)) ++ "  " ++ fmt_E 7 (snd p))%string) (enumerate diff).
Proof.
  cbn [snd tomoscope_save_difference]. apply lines_text. intros [i d]. cbn [fst snd]. rewrite !free_app.
  rewrite (proj2 (plain_d _)), (proj2 (plain_E _ _)). destruct (i <? 10)%nat; reflexivity.
Qed.
Lemma C55_difference_refuted_lem : forall diff dir film, (100 < List.length diff)%nat ->
  snd (tomoscope_save_difference diff dir film) <> snd (save_difference diff dir film).
Proof.
  intros diff dir film L E. apply (f_equal lines) in E. rewrite diff_lines, tomo_diff_lines in E.
  destruct (nth_error diff 100) as [d|] eqn:D; [|apply nth_error_None in D; lia].
  apply enumerate_nth in D. apply (f_equal (fun l => nth_error l 100)) in E.
  rewrite (map_nth_error _ _ _ D), (map_nth_error _ _ _ D) in E. cbn [fst snd] in E.
  assert (A : fmt_wd 3 (Z.of_nat 100) = "100"%string) by (vm_compute; reflexivity).
  assert (B : fmt_d (Z.of_nat 100) = "100"%string) by (vm_compute; reflexivity). rewrite A, B in E.
  change (100 <? 10)%nat with false in E. cbv iota in E. cbn [append] in E. discriminate E.
Qed.

(** ** Reading the files back *)
Definition reads (x : Qc) (r : list (option Qc)) : Prop := exists v, r = Some v :: nil /\ near 7 x v.
Lemma table_text pre l : (forall s, words (pre ++ s) = words s) -> free (ascii_of_nat 10) pre = true ->
  Forall2 reads l (table (text (fun x => (pre ++ fmt_E 7 x)%string) l)).
Proof.
  intros P F. unfold table. rewrite lines_text by (intro; apply line_E_free; exact F). rewrite map_map.
  induction l as [|x l IH]; [constructor|]. cbn [map]. constructor; [|exact IH].
  destruct (read_E 7 x) as (v & R & N). exists v. split; [|exact N].
  rewrite P, words_one by (apply plain_E || apply nonempty_E). cbn [map]. rewrite R. reflexivity.
Qed.
Lemma words_space1 s : words (" " ++ s) = words s. Proof. apply words_space. Qed.
Lemma words_space2 s : words ("  " ++ s) = words s. Proof. exact (words_fill 2 s). Qed.
Lemma Forall2_nth {A B} (R : A -> B -> Prop) l m i x : Forall2 R l m -> nth_error l i = Some x ->
  exists y, nth_error m i = Some y /\ R x y.
Proof.
  intros H. revert i. induction H as [|a b l m AB H IH]; intros [|i] E; cbn in *; try discriminate.
  - injection E as ->. eauto.
  - apply IH. exact E.
Qed.
Lemma Forall2_len {A B} (R : A -> B -> Prop) l m : Forall2 R l m -> List.length m = List.length l.
Proof. induction 1; cbn; congruence. Qed.

(** A saved profile, read back: one number in every line, in the order of the
    bins, to eight digits. *)
Lemma C58_profile_lem : forall profs k dir row, nth_error profs k = Some row ->
  exists path txt, save_profile profs (Z.of_nat k) dir = Ok (path, txt) /\
  List.length (table txt) = List.length row /\
  forall i x, nth_error row i = Some x -> exists v, nth_error (table txt) i = Some (Some v :: nil) /\ near 7 x v.
Proof.
  intros profs k dir row H. unfold save_profile. rewrite (np_get_ok _ _ _ _ H). cbn [bind]. eexists. eexists. split; [reflexivity|].
  assert (T := table_text " " row words_space1 eq_refl). split; [exact (Forall2_len _ _ _ T)|].
  intros i x I. destruct (Forall2_nth _ _ _ _ _ T I) as (r & R & v & -> & N). eauto.
Qed.
(** An index with no profile is refused. *)
Lemma C58_no_profile_lem : forall profs i dir, (Z.of_nat (List.length profs) <= i \/ i < - Z.of_nat (List.length profs))%Z ->
  save_profile profs i dir = Fail (Raised IndexError).
Proof.
  intros profs i dir H. unfold save_profile, np_get. cbv zeta.
  destruct (Z.ltb_spec i 0).
  - destruct (Z.ltb_spec (i + Z.of_nat (List.length profs)) 0); [reflexivity|lia].
  - destruct (Z.ltb_spec i 0); [lia|]. destruct (Z.leb_spec (Z.of_nat (List.length profs)) i); [reflexivity|lia].
Qed.
Lemma concat_nth {A} (t : list (list A)) m : Forall (fun r => List.length r = m) t ->
  forall i j row x, nth_error t i = Some row -> nth_error row j = Some x -> nth_error (List.concat t) (i * m + j) = Some x.
Proof.
  induction 1 as [|r t L H IH]; intros [|i] j row x I J; cbn [nth_error] in I; try discriminate; cbn [List.concat].
  - injection I as ->. cbn. rewrite nth_error_app1; [exact J|]. apply nth_error_Some. congruence.
  - rewrite nth_error_app2 by (cbn; lia). replace (S i * m + j - List.length r)%nat with (i * m + j)%nat by (cbn; lia).
    exact (IH i j row x I J).
Qed.
Lemma concat_len {A} (t : list (list A)) m : Forall (fun r => List.length r = m) t -> List.length (List.concat t) = (List.length t * m)%nat.
Proof. induction 1 as [|r t L H IH]; [reflexivity|]. cbn [List.concat List.length]. rewrite app_length, IH, L. cbn. lia. Qed.
(** A saved image with rows of m pixels: pixel (i, j) is in line i*m + j. *)
Lemma C58_image_lem : forall img recprof dir m, Forall (fun r => List.length r = m) img ->
  let txt := snd (save_phase_space img recprof dir) in
  List.length (table txt) = (List.length img * m)%nat /\
  forall i j row x, nth_error img i = Some row -> nth_error row j = Some x ->
    exists v, nth_error (table txt) (i * m + j) = Some (Some v :: nil) /\ near 7 x v.
Proof.
  intros img recprof dir m M txt. assert (T := table_text "  " (List.concat img) words_space2 eq_refl).
  split; [unfold txt; cbn [snd save_phase_space]; rewrite (Forall2_len _ _ _ T); apply concat_len; exact M|].
  intros i j row x I J. destruct (Forall2_nth _ _ _ _ _ T (concat_nth img m M i j row x I J)) as (r & R & v & -> & N). eauto.
Qed.
Lemma C58_self_fields_lem : forall fields dir m, Forall (fun r => List.length r = m) fields ->
  let txt := snd (save_self_volt_profile fields dir) in
  List.length (table txt) = (List.length fields * m)%nat /\
  forall i j row x, nth_error fields i = Some row -> nth_error row j = Some x ->
    exists v, nth_error (table txt) (i * m + j) = Some (Some v :: nil) /\ near 7 x v.
Proof.
  intros img dir m M txt. assert (T := table_text " " (List.concat img) words_space1 eq_refl).
  split; [unfold txt; cbn [snd save_self_volt_profile]; rewrite (Forall2_len _ _ _ T); apply concat_len; exact M|].
  intros i j row x I J. destruct (Forall2_nth _ _ _ _ _ T (concat_nth img m M i j row x I J)) as (r & R & v & -> & N). eauto.
Qed.
(** The discrepancy, by either writer: the number of the iteration and the value,
    for any number of iterations. *)
Lemma C58_difference_lem : forall diff dir film txt,
  txt = snd (save_difference diff dir film) \/ txt = snd (tomoscope_save_difference diff dir film) ->
  List.length (table txt) = List.length diff /\
  forall i d, nth_error diff i = Some d ->
    exists v, nth_error (table txt) i = Some [Some (qn i); Some v] /\ near 7 d v.
Proof.
  intros diff dir film txt H.
  assert (G : exists pre : nat -> nat, lines txt = map (fun p => (fill " " (pre (fst p)) ++ fmt_d (Z.of_nat (fst p)) ++ "  " ++ fmt_E 7 (snd p))%string) (enumerate diff)).
  { destruct H as [->| ->].
    - exists (fun i => 9 + (3 - String.length (fmt_d (Z.of_nat i))))%nat. rewrite diff_lines. apply map_ext. intros [i d]. cbn [fst snd].
      unfold fmt_wd. cbv zeta. rewrite app_assoc_s. reflexivity.
    - exists (fun i => if (i <? 10)%nat then 11 else 10)%nat. rewrite tomo_diff_lines. apply map_ext. intros [i d]. cbn [fst snd].
      destruct (i <? 10)%nat; reflexivity. }
  destruct G as (pre & G). unfold table. rewrite G, map_map. split; [rewrite map_length, enumerate_length; reflexivity|].
  intros i d D. destruct (read_E 7 d) as (v & R & N). exists v. split; [|exact N].
  rewrite (map_nth_error _ _ _ (enumerate_nth _ _ _ D)). f_equal. cbn [fst snd]. rewrite words_fill.
  change (fmt_d (Z.of_nat i) ++ "  " ++ fmt_E 7 d)%string with (fmt_d (Z.of_nat i) ++ String " " (" " ++ fmt_E 7 d))%string.
  rewrite words_cons by (apply plain_d || apply nonempty_d). rewrite words_space1.
  rewrite words_one by (apply plain_E || apply nonempty_E). cbn [map]. rewrite read_d, R. reflexivity.
Qed.
(** An image saved by the tomoscope's program is the image of the particles. *)
Lemma C58_tomoscope_image_lem : forall xp yp w n film dir f,
  tomoscope_save_image xp yp w n film dir = Ok f ->
  exists img, create_phase_space_image xp yp w n film = Ok img /\ f = save_phase_space img (Z.of_nat film) dir.
Proof.
  intros xp yp w n film dir f H. unfold tomoscope_save_image in H. destruct (create_phase_space_image _ _ _ _ _) as [img|]; cbn [bind] in H; [|discriminate].
  injection H as <-. eauto.
Qed.

(** ** The plot information *)
(** Refused if there is no energy bin width; else, if the limits are missing;
    else, if the reference turn has no phase. *)
Lemma C59_refused_lem : forall m p q,
  (pp_dEbin p = None -> write_plotinfo m p q = Fail (Raised EnergyBinningError)) /\
  (pp_dEbin p <> None -> pp_imin p = None \/ pp_imax p = None -> write_plotinfo m p q = Fail (Raised PhaseLimitsError)) /\
  (pp_dEbin p <> None -> pp_imin p <> None -> pp_imax p <> None ->
   (Z.of_nat (List.length (pm_phi0 m)) <= pm_filmstart m * pm_dturns m)%Z -> write_plotinfo m p q = Fail (Raised IndexError)) /\
  (pp_dEbin p <> None -> pp_imin p <> None -> pp_imax p <> None ->
   (0 <= pm_filmstart m * pm_dturns m < Z.of_nat (List.length (pm_phi0 m)))%Z -> exists t, write_plotinfo m p q = Ok t).
Proof.
  intros m p q. unfold write_plotinfo, plotinfo.
  assert (L : exists low up fit, (match pm_fit_x m, pm_low m, pm_up m with
    | Some fit, Some low, Some up => (low, up, fit) | _, _, _ => (0, 0, 0) end) = (low, up, fit)).
  { destruct (pm_fit_x m), (pm_low m), (pm_up m); eauto. }
  destruct L as (low & up & fit & ->).
  destruct (pp_dEbin p); [|split; [reflexivity|split; [|split]]; congruence].
  split; [discriminate|]. destruct (pp_imin p), (pp_imax p); (split; [intros _ [|]; (discriminate || reflexivity)|]);
    (split; [|]); intros _ A B C; try congruence.
  - unfold np_get. cbv zeta. set (t := (pm_filmstart m * pm_dturns m)%Z) in *. destruct (Z.ltb_spec t 0); [lia|].
    destruct (Z.ltb_spec t 0); [lia|]. destruct (Z.leb_spec (Z.of_nat (List.length (pm_phi0 m))) t); [reflexivity|lia].
  - set (t := (pm_filmstart m * pm_dturns m)%Z) in *. clearbody t.
    destruct (nth_error (pm_phi0 m) (Z.to_nat t)) as [phi|] eqn:E; [|apply nth_error_None in E; lia].
    apply np_get_ok in E. rewrite Z2Nat.id in E by lia. rewrite E. cbn [bind]. eauto.
Qed.
Lemma says_intro t pre w x (v : Qc -> Prop) : In (pre ++ w)%string (lines t) -> plain w -> w <> EmptyString ->
  read_number w = Some x -> v x -> says t pre v.
Proof. intros I P N R V. exists w, x. split; [exact I|]. split; [apply words_one; [apply P|exact N]|]. split; assumption. Qed.
Lemma free_words a b : free (ascii_of_nat 10) a = true -> plain b -> free (ascii_of_nat 10) (a ++ b) = true.
Proof. intros A B. rewrite free_app, A. apply B. Qed.
Lemma says_d t pre n : In (pre ++ fmt_d n)%string (lines t) -> says t pre (fun v => v = qz n).
Proof. intro I. exact (says_intro _ _ _ _ _ I (plain_d n) (nonempty_d n) (read_d n) eq_refl). Qed.
Lemma says_E t k pre x : In (pre ++ fmt_E k x)%string (lines t) -> says t pre (near k x).
Proof. intro I. destruct (read_E k x) as (v & R & N). exact (says_intro _ _ _ _ _ I (plain_E k x) (nonempty_E k x) R N). Qed.
Lemma says_f t k pre x : In (pre ++ fmt_f k x)%string (lines t) -> says t pre (near_point k x).
Proof. intro I. destruct (read_f k x) as (v & R & N). exact (says_intro _ _ _ _ _ I (plain_f k x) (nonempty_f k x) R N). Qed.
Ltac here := repeat (first [left; reflexivity | right]).
(** What the text says: every number, with the digits of its format.  The feet
    and the fitted position are those of the machine if it has all three, and
    zero otherwise.  The phase is that of the turn of the reference profile. *)
Lemma C59_says_lem : forall m p q t dE imin imax phi,
  write_plotinfo m p q = Ok t -> pp_dEbin p = Some dE -> pp_imin p = Some imin -> pp_imax p = Some imax ->
  (0 <= pm_filmstart m * pm_dturns m)%Z ->
  nth_error (pm_phi0 m) (Z.to_nat (pm_filmstart m * pm_dturns m)) = Some phi ->
  says t " profilecount = " (fun v => v = qz (pm_nprofiles m)) /\
  says t " profilelength = " (fun v => v = qz (pm_nbins m)) /\
  says t " dtbin = " (near 4 (pm_dtbin m)) /\
  says t " dEbin = " (near 4 dE) /\
  says t " eperimage = " (near 3 q) /\
  says t " xat0 =  " (near_point 3 (pm_synch_x m)) /\
  says t " yat0 =  " (near_point 3 (pm_synch_y m)) /\
  (forall low up fit, (pm_low m = Some low /\ pm_up m = Some up /\ pm_fit_x m = Some fit) \/
    ((pm_low m = None \/ pm_up m = None \/ pm_fit_x m = None) /\ low = 0 /\ up = 0 /\ fit = 0) ->
    says t " tangentfootl =    " (near_point 3 low) /\ says t " tangentfootu =    " (near_point 3 up) /\
    says t " fit xat0 =   " (near_point 3 fit)) /\
  (exists n, read_number n = Some (qz (pm_filmstart m + 1)) /\
    says t (" phi0( " ++ n ++ ") = ")%string (near_point 4 phi) /\
    exists a b, In (" imin( " ++ n ++ ") =   " ++ a ++ " and imax( " ++ n ++ ") =  " ++ b)%string (lines t) /\
      read_number a = Some (qz imin) /\ read_number b = Some (qz imax)).
Proof.
  intros m p q t dE imin imax phi W ED EI EJ T0 PH. unfold write_plotinfo, plotinfo in W. rewrite ED, EI, EJ in W.
  apply np_get_ok in PH. rewrite Z2Nat.id in PH by exact T0. rewrite PH in W. cbn [bind] in W.
  assert (L : exists low up fit, (match pm_fit_x m, pm_low m, pm_up m with
    | Some fit, Some low, Some up => (low, up, fit) | _, _, _ => (0, 0, 0) end) = (low, up, fit) /\
    forall low' up' fit', (pm_low m = Some low' /\ pm_up m = Some up' /\ pm_fit_x m = Some fit') \/
    ((pm_low m = None \/ pm_up m = None \/ pm_fit_x m = None) /\ low' = 0 /\ up' = 0 /\ fit' = 0) ->
    low' = low /\ up' = up /\ fit' = fit).
  { destruct (pm_fit_x m) as [c|], (pm_low m) as [a|], (pm_up m) as [b|];
      (eexists; eexists; eexists; split; [reflexivity|]);
      intros low' up' fit' [(A & B & C)|([A|[A|A]] & -> & -> & ->)]; try discriminate; auto.
    injection A as ->. injection B as ->. injection C as ->. auto. }
  destruct L as (low & up & fit & LE & LU). rewrite LE in W. cbn [bind] in W.
  assert (W' := f_equal (fun r => match r with Ok a => a | Fail _ => t end) W). cbv beta iota in W'.
  match type of W' with join_lines ?l = _ => assert (LL : lines (join_lines l) = l) end.
  { apply lines_join.
    repeat (first [apply Forall_nil | apply Forall_cons; [split; [rewrite ?free_app;
      rewrite ?(proj2 (plain_d _)), ?(proj2 (plain_E _ _)), ?(proj2 (plain_f _ _)); reflexivity|discriminate]|]]). }
  rewrite W' in LL. clear W W'.
  split; [apply says_d; rewrite LL; here|]. split; [apply says_d; rewrite LL; here|].
  split; [apply says_E; rewrite LL; here|]. split; [apply says_E; rewrite LL; here|]. split; [apply says_E; rewrite LL; here|].
  split; [apply says_f; rewrite LL; here|]. split; [apply says_f; rewrite LL; here|].
  split.
  - intros low' up' fit' H. destruct (LU _ _ _ H) as (-> & -> & ->).
    split; [apply says_f; rewrite LL; here|]. split; apply says_f; rewrite LL; here.
  - exists (fmt_d (pm_filmstart m + 1)). split; [apply read_d|]. split.
    + apply says_f. rewrite !app_assoc_s. rewrite LL. here.
    + exists (fmt_d imin), (fmt_d imax). split; [rewrite LL; here|]. split; apply read_d.
Qed.
(** The line printed while tracking: the two profiles, counted from one. *)
Lemma C59_status_lem : forall i j, exists a b,
  print_tracking_status i j = (" Tracking from time slice  " ++ a ++ " to  " ++ b ++ ",   0.000% went outside the image width." ++ String "010" "")%string /\
  read_number a = Some (qz (i + 1)) /\ read_number b = Some (qz (j + 1)).
Proof. intros i j. exists (fmt_d (i + 1)), (fmt_d (j + 1)). split; [reflexivity|]. split; apply read_d. Qed.

(*EX*)
(** A profile, an image, a machine. *)
Example ex_saved : snd (save_phase_space [[qq 1 3; 0]; [qz (-2); qz 123456789]] 4 "out") =
  ("  3.3333333E-01" ++ String "010" ("  0.0000000E+00" ++ String "010" ("  -2.0000000E+00" ++ String "010" ("  1.2345679E+08" ++ String "010" ""))))%string.
Proof. vm_compute. reflexivity. Qed.
Example ex_paths : fst (save_phase_space [] 4 "out") = "out/image005.data"%string /\
  fst (save_difference [] "out/" 1233) = "out/d1234.data"%string /\
  exists t, save_profile [[qq 1 2]] 0 "" = Ok ("profile001.data"%string, t).
Proof. split; [vm_compute; reflexivity|]. split; [vm_compute; reflexivity|]. eexists. vm_compute. reflexivity. Qed.
(** The last profile can also be saved with the index -1; its file is then
    called profile000. *)
Example ex_last : exists t, save_profile [[qq 1 2]; [qq 1 3]] (-1) "" = Ok ("profile000.data"%string, t).
Proof. eexists. vm_compute. reflexivity. Qed.
Example ex_image_rows : Forall (fun r => List.length r = 2%nat) [[qq 1 3; 0]; [qz (-2); qz 5]].
Proof. repeat constructor. Qed.
Definition ex_plot : plot_machine := {| pm_filmstart := 1; pm_dturns := 2; pm_nprofiles := 3; pm_nbins := 10; pm_dtbin := qq 1 1000;
  pm_synch_x := qq 9 2; pm_synch_y := qz 5; pm_phi0 := [qz 0; qq 1 10; qq 2 10]; pm_fit_x := None; pm_low := Some 1; pm_up := Some (qz 8) |}.
Example ex_plotinfo : exists t, write_plotinfo ex_plot {| pp_dEbin := Some (qz 1000); pp_imin := Some 0%Z; pp_imax := Some 9%Z |} (qz 10) = Ok t /\
  nth_error (lines t) 15 = Some " tangentfootl =    0.000"%string /\ nth_error (lines t) 19 = Some " phi0( 2) = 0.2000"%string.
Proof. eexists. split; [vm_compute; reflexivity|]. split; vm_compute; reflexivity. Qed.
(*XE*)
