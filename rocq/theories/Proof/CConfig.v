(*HEAD*)
From Coq Require Import List ZArith Bool String Ascii Lia.
From Verif Require Import Model.MConfig Spec.ConfigSpec.
Import ListNotations.
(*DAEH*)

Lemma inb_spec s l : inb s l = true <-> In s l.
Proof.
  unfold inb. rewrite existsb_exists. split.
  - intros (x & i & e). apply String.eqb_eq in e. subst. exact i.
  - intro i. exists s. rewrite String.eqb_refl. auto.
Qed.
Lemma private_spec s : private s = false <-> forall r, s <> String "_"%char r.
Proof.
  destruct s as [|a r]; cbn.
  - split; congruence.
  - destruct (Ascii.eqb_spec a "_"%char); split; intro H.
    + discriminate.
    + subst. destruct (H r). reflexivity.
    + intros r' e. congruence.
    + reflexivity.
Qed.
Lemma cpu_dict_spec np cp s :
  (provides np cp CPU s -> cpu_dict np s = Some (Fun CPU)) /\ (~ provides np cp CPU s -> cpu_dict np s = None).
Proof.
  unfold cpu_dict, provides.
  assert (E : inb s special || (inb s np && negb (private s)) = true <->
          In s ["kick_and_drift"; "reconstruct"; "make_phase_space"; "device"]%string \/ In s np /\ (forall r, s <> String "_"%char r)).
  { rewrite orb_true_iff, andb_true_iff, negb_true_iff, !inb_spec, private_spec. reflexivity. }
  destruct (inb s special || _); split; intro H; try reflexivity.
  - destruct H. apply E. reflexivity.
  - apply E in H. discriminate.
Qed.
Lemma gpu_dict_spec np cp s :
  (provides np cp GPU s -> gpu_dict cp s = Some (Fun GPU)) /\ (~ provides np cp GPU s -> gpu_dict cp s = None).
Proof.
  unfold gpu_dict, provides.
  assert (E : inb s special || inb s cp = true <->
          In s ["kick_and_drift"; "reconstruct"; "make_phase_space"; "device"]%string \/ In s cp).
  { rewrite orb_true_iff, !inb_spec. reflexivity. }
  destruct (inb s special || _); split; intro H; try reflexivity.
  - destruct H. apply E. reflexivity.
  - apply E in H. discriminate.
Qed.
Lemma dec_provides np cp d s : provides np cp d s \/ ~ provides np cp d s.
Proof.
  destruct d.
  - destruct (cpu_dict np s) eqn:E.
    + left. unfold cpu_dict in E. destruct (inb s special || _) eqn:F; [|discriminate].
      unfold provides. rewrite orb_true_iff, andb_true_iff, negb_true_iff, !inb_spec, private_spec in F. exact F.
    + right. intro H. apply (cpu_dict_spec np cp) in H. congruence.
  - destruct (gpu_dict cp s) eqn:E.
    + left. unfold gpu_dict in E. destruct (inb s special || _) eqn:F; [|discriminate].
      unfold provides. rewrite orb_true_iff, !inb_spec in F. exact F.
    + right. intro H. apply (gpu_dict_spec np cp) in H. congruence.
Qed.

(** The three kinds of states. *)
Inductive kind (c : config) : Prop :=
| K_none : c_dev c = None -> c_kd c = None -> c_rec c = None -> c_gpu c = false -> kind c
| K_broken i b : c_dev c = Some (GpuDev i b None) -> c_kd c = None -> c_rec c = None -> c_gpu c = false -> kind c
| K_loaded i p : c_dev c = Some (GpuDev i true (Some p)) -> c_kd c = Some p -> c_rec c = Some p -> kind c.

Ltac prj := cbn [c_prec c_gpu c_active c_globals c_dev c_kd c_rec set_prec set_gpu set_dev set_kernels update_active fst snd then_ g_id g_block_size g_modules] in *.
Ltac opn := unfold set_prec, set_gpu, set_dev, set_kernels, update_active in *; prj.

Lemma load_loaded w p c i q :
  c_dev c = Some (GpuDev i true (Some q)) -> c_kd c = Some q -> c_rec c = Some q ->
  load_modules w p c =
    if negb (w_kernels w) then (c, Some CudaCompilationException)
    else if negb (w_cupy w) then (c, Some ImportError)
    else (Config (c_prec c) (c_gpu c) (c_active c) (c_globals c) (Some (GpuDev i true (Some p))) (Some p) (Some p), None).
Proof.
  intros D K R. destruct c as [pr g a gl dv kd rc]. prj. subst.
  unfold load_modules. destruct (w_kernels w); [|reflexivity].
  unfold get_gpu_dev at 1, make_dev at 1. prj.
  destruct (w_cupy w); [|reflexivity].
  unfold import_kd at 1. opn. unfold import_rec at 1. prj.
  unfold refresh_kd, refresh_rec, get_gpu_dev, make_dev. opn. reflexivity.
Qed.
Lemma make_none w p i c :
  c_dev c = None ->
  make_dev w p i c =
    let c' m := Config (c_prec c) (c_gpu c) (c_active c) (c_globals c) (Some m) (c_kd c) (c_rec c) in
    if negb (w_cupy w) then (c' (GpuDev i false None), Some ImportError)
    else if negb (w_device w i) then (c' (GpuDev i false None), Some CudaError)
    else if negb (w_kernels w) then (c' (GpuDev i true None), Some CudaCompilationException)
    else (c' (GpuDev i true (Some p)), None).
Proof. intro D. unfold make_dev. rewrite D. opn. reflexivity. Qed.
Lemma make_some w p i c d : c_dev c = Some d -> make_dev w p i c = (c, None).
Proof. intro D. unfold make_dev. rewrite D. reflexivity. Qed.
Lemma imports_fresh w c i p :
  w_cupy w = true -> c_dev c = Some (GpuDev i true (Some p)) -> c_kd c = None -> c_rec c = None ->
  then_ (import_kd w c) (import_rec w) = (set_kernels c (Some p) (Some p), None).
Proof.
  intros W D K R. destruct c as [pr g a gl dv kd rc]. prj. subst.
  unfold import_kd, import_rec, has_block_size, refresh_kd, refresh_rec, get_gpu_dev, make_dev. opn. rewrite W. reflexivity.
Qed.
Lemma then_assoc o f g : then_ (then_ o f) g = then_ o (fun c => then_ (f c) g).
Proof. destruct o as [c [e|]]; reflexivity. Qed.

(** What use_gpu does, in each kind of state. *)
Definition gpu_on (cp : list string) (c : config) (dv : gpudev) (p : prec) : config :=
  set_gpu (update_active (Config (c_prec c) (c_gpu c) (c_active c) (c_globals c) (Some dv) (Some p) (Some p)) (gpu_dict cp)) true.
Definition dev_only (c : config) (dv : gpudev) : config :=
  Config (c_prec c) (c_gpu c) (c_active c) (c_globals c) (Some dv) (c_kd c) (c_rec c).

Lemma use_none cp w id c :
  c_dev c = None -> c_kd c = None -> c_rec c = None ->
  use_gpu cp w id c =
    if (id <? 0)%Z then (c, None)
    else if negb (w_cupy w) then (c, Some ImportError)
    else if negb (w_device w id) then (dev_only c (GpuDev id false None), Some CudaError)
    else if negb (w_kernels w) then (dev_only c (GpuDev id true None), Some CudaCompilationException)
    else (gpu_on cp c (GpuDev id true (Some (c_prec c))) (c_prec c), None).
Proof.
  intros D K R. unfold use_gpu. destruct (id <? 0)%Z; [reflexivity|].
  destruct (w_cupy w) eqn:W; [|reflexivity]. cbn [negb].
  rewrite (make_none _ _ _ _ D). cbv zeta. rewrite W. cbn [negb].
  destruct (w_device w id); [|reflexivity]. destruct (w_kernels w); [|reflexivity]. cbn [negb].
  unfold then_ at 1. prj. rewrite <- then_assoc.
  erewrite imports_fresh; [|exact W|prj; reflexivity|exact K|exact R]. reflexivity.
Qed.
Lemma use_loaded cp w id c i p :
  c_dev c = Some (GpuDev i true (Some p)) -> c_kd c = Some p -> c_rec c = Some p ->
  use_gpu cp w id c =
    if (id <? 0)%Z then (c, None)
    else if negb (w_cupy w) then (c, Some ImportError)
    else (gpu_on cp c (GpuDev i true (Some p)) p, None).
Proof.
  intros D K R. unfold use_gpu. destruct (id <? 0)%Z; [reflexivity|].
  destruct (w_cupy w) eqn:W; [|reflexivity]. cbn [negb].
  rewrite (make_some _ _ _ _ _ D). prj. unfold import_kd. rewrite K. prj. unfold import_rec. rewrite R. prj.
  unfold gpu_on. opn. rewrite <- D, <- K. destruct c; prj. congruence.
Qed.
Lemma use_broken cp w id c i b :
  c_dev c = Some (GpuDev i b None) -> c_kd c = None -> c_rec c = None ->
  use_gpu cp w id c =
    if (id <? 0)%Z then (c, None)
    else if negb (w_cupy w) then (c, Some ImportError)
    else (c, Some AttributeError).
Proof.
  intros D K R. unfold use_gpu. destruct (id <? 0)%Z; [reflexivity|].
  destruct (w_cupy w) eqn:W; [|reflexivity]. cbn [negb].
  destruct c as [pr g a gl dv kd rc]. prj. subst.
  unfold import_kd, import_rec, has_block_size, refresh_kd, refresh_rec, get_gpu_dev, make_dev. opn. rewrite W.
  destruct b; reflexivity.
Qed.

Lemma kind_step np cp w a c : kind c -> kind (fst (do_call np cp w a c)).
Proof.
  intro K. destruct a as [|id|p]; cbn [do_call].
  - destruct K as [d k r g|i b d k r g|i p d k r]; [eapply K_none|eapply K_broken|eapply K_loaded]; eauto.
  - destruct K as [d k r g|i b d k r g|i p d k r].
    + rewrite (use_none _ _ _ _ d k r).
      destruct (id <? 0)%Z; [apply K_none; assumption|].
      destruct (w_cupy w); [|apply K_none; assumption]. cbn [negb].
      destruct (w_device w id); [|eapply K_broken; cbn; eauto].
      destruct (w_kernels w); [|eapply K_broken; cbn; eauto].
      eapply K_loaded; reflexivity.
    + rewrite (use_broken _ _ _ _ _ _ d k r).
      destruct (id <? 0)%Z; [eapply K_broken; eauto|].
      destruct (w_cupy w); eapply K_broken; eauto.
    + rewrite (use_loaded _ _ _ _ _ _ d k r).
      destruct (id <? 0)%Z; [eapply K_loaded; eauto|].
      destruct (w_cupy w); eapply K_loaded; eauto; reflexivity.
  - unfold set_precision. cbv zeta.
    destruct K as [d k r g|i b d k r g|i q d k r].
    + prj. rewrite g. apply K_none; assumption.
    + prj. rewrite g. eapply K_broken; eauto.
    + change (c_gpu (set_prec c p)) with (c_gpu c). destruct (c_gpu c) eqn:G; [|eapply K_loaded; eauto].
      rewrite (load_loaded w p (set_prec c p) i q d k r).
      destruct (w_kernels w); [|eapply K_loaded; eauto].
      destruct (w_cupy w); eapply K_loaded; eauto; reflexivity.
Qed.
Lemma kind_run np cp h c : kind c -> kind (run_calls np cp h c).
Proof. revert c. induction h as [|[w a] h IH]; intros c K; [exact K|]. cbn. apply IH. apply kind_step. exact K. Qed.
Lemma kind_import np own : kind (at_import np own).
Proof. apply K_none; reflexivity. Qed.
Lemma run_app np cp h h' c : run_calls np cp (h ++ h') c = run_calls np cp h' (run_calls np cp h c).
Proof. apply fold_left_app. Qed.

(** Names. *)
Definition names_inv np cp own (c : config) : Prop :=
  (forall s, c_active c s = if c_gpu c then gpu_dict cp s else cpu_dict np s) /\
  (forall s, c_globals c s = match c_active c s with Some b => Some b | None => if inb s own then Some Own else None end).

Lemma dict_own np cp own s : apart np cp own -> inb s own = true -> cpu_dict np s = None /\ gpu_dict cp s = None.
Proof.
  intros A I. apply inb_spec in I. split.
  - apply (cpu_dict_spec np cp). apply A. exact I.
  - apply (gpu_dict_spec np cp). apply A. exact I.
Qed.
Lemma names_update np cp own c new :
  apart np cp own -> names_inv np cp own c ->
  forall s, c_globals (update_active c new) s = match new s with Some b => Some b | None => if inb s own then Some Own else None end.
Proof.
  intros A [H1 H2] s. opn. destruct (new s); [reflexivity|].
  destruct (c_active c s) eqn:E.
  - destruct (inb s own) eqn:I; [|reflexivity]. exfalso.
    destruct (dict_own np cp own s A I) as [d1 d2]. rewrite H1, d1, d2 in E. destruct (c_gpu c); discriminate.
  - rewrite H2, E. reflexivity.
Qed.
Lemma names_cpu np cp own c : apart np cp own -> names_inv np cp own c -> names_inv np cp own (fst (use_cpu np c)).
Proof.
  intros A H. split; [intro s; reflexivity|]. intro s. unfold use_cpu. cbn [fst].
  change (c_globals (set_gpu ?x _)) with (c_globals x). rewrite (names_update np cp own c _ A H). reflexivity.
Qed.
Lemma names_gpu np cp own c dv p : apart np cp own -> names_inv np cp own c -> names_inv np cp own (gpu_on cp c dv p).
Proof.
  intros A H. split; [intro s; reflexivity|]. intro s. unfold gpu_on.
  change (c_globals (set_gpu ?x _)) with (c_globals x).
  rewrite (names_update np cp own); [reflexivity|exact A|]. exact H.
Qed.
Lemma names_step np cp own w a c :
  apart np cp own -> kind c -> names_inv np cp own c -> names_inv np cp own (fst (do_call np cp w a c)).
Proof.
  intros A K H. destruct a as [|id|p]; cbn [do_call].
  - apply names_cpu; assumption.
  - destruct K as [d k r g|i b d k r g|i p d k r].
    + rewrite (use_none _ _ _ _ d k r).
      destruct (id <? 0)%Z; [exact H|].
      destruct (w_cupy w); [|exact H]. cbn [negb].
      destruct (w_device w id); [|exact H].
      destruct (w_kernels w); [|exact H].
      apply names_gpu; assumption.
    + rewrite (use_broken _ _ _ _ _ _ d k r).
      destruct (id <? 0)%Z; [exact H|]. destruct (w_cupy w); exact H.
    + rewrite (use_loaded _ _ _ _ _ _ d k r).
      destruct (id <? 0)%Z; [exact H|]. destruct (w_cupy w); [|exact H]. apply names_gpu; assumption.
  - unfold set_precision. cbv zeta. change (c_gpu (set_prec c p)) with (c_gpu c).
    destruct K as [d k r g|i b d k r g|i q d k r]; try (rewrite g; exact H).
    destruct (c_gpu c) eqn:G; [|exact H].
    rewrite (load_loaded w p (set_prec c p) i q d k r).
    destruct (w_kernels w); [|exact H]. destruct (w_cupy w); exact H.
Qed.
Lemma names_import np cp own : apart np cp own -> names_inv np cp own (at_import np own).
Proof.
  intro A. split; [intro s; reflexivity|]. intro s. unfold at_import, use_cpu. opn.
  destruct (cpu_dict np s); reflexivity.
Qed.
Lemma names_run np cp own h c :
  apart np cp own -> kind c -> names_inv np cp own c -> names_inv np cp own (run_calls np cp h c).
Proof.
  intro A. revert c. induction h as [|[w a] h IH]; intros c K H; [exact H|].
  cbn. apply IH; [apply kind_step; exact K|apply names_step; assumption].
Qed.

(** After any history of calls, failing ones included, the names of the module
    are those of the selected device, and the module's own. *)
Lemma C51_names_lem : forall np cp own h,
  apart np cp own ->
  names_of np cp own (selected (run_calls np cp h (at_import np own))) (run_calls np cp h (at_import np own)).
Proof.
  intros np cp own h A.
  destruct (names_run np cp own h _ A (kind_import np own) (names_import np cp own A)) as [H1 H2].
  set (c := run_calls np cp h (at_import np own)) in *.
  assert (E : forall s, (provides np cp (selected c) s -> c_active c s = Some (Fun (selected c))) /\
                        (~ provides np cp (selected c) s -> c_active c s = None)).
  { intro s. rewrite H1. unfold selected. destruct (c_gpu c); [apply (gpu_dict_spec np)|apply cpu_dict_spec]. }
  split; [|split].
  - intros s P. rewrite H2. apply E in P. rewrite P. reflexivity.
  - intros s P O. rewrite H2. apply E in P. rewrite P. apply inb_spec in O. rewrite O. reflexivity.
  - intros s P O. rewrite H2. apply E in P. rewrite P. destruct (inb s own) eqn:I; [|reflexivity].
    apply inb_spec in I. contradiction.
Qed.

(** A call that raises nothing selects what it names; one that raises leaves the
    device selected before, and so does a negative device number.  The precision
    is the one asked for, even when the call raises.  use_cpu never raises. *)
Lemma C51_selects_lem : forall np cp own h w a,
  let c := run_calls np cp h (at_import np own) in
  let o := do_call np cp w a c in
  match a with
  | UseCpu => snd o = None /\ selected (fst o) = CPU /\ c_prec (fst o) = c_prec c
  | UseGpu id =>
      c_prec (fst o) = c_prec c /\
      (snd o = None -> (0 <= id)%Z -> selected (fst o) = GPU) /\
      (snd o <> None \/ (id < 0)%Z -> selected (fst o) = selected c)
  | SetPrecision p => c_prec (fst o) = p /\ selected (fst o) = selected c
  end.
Proof.
  intros np cp own h w a c o.
  assert (K : kind c) by (apply kind_run, kind_import). subst o. clearbody c.
  destruct a as [|id|p]; cbn [do_call].
  - repeat split.
  - destruct K as [d k r g|i b d k r g|i p d k r].
    + rewrite (use_none _ _ _ _ d k r).
      destruct (Z.ltb_spec id 0). { repeat split; cbn; intros; try reflexivity; lia. }
      destruct (w_cupy w). 2:{ cbn. repeat split; intros; congruence. } cbn [negb].
      destruct (w_device w id). 2:{ cbn. repeat split; intros; congruence. }
      destruct (w_kernels w). 2:{ cbn. repeat split; intros; congruence. }
      cbn. repeat split; intros; try reflexivity. destruct H0; [congruence|lia].
    + rewrite (use_broken _ _ _ _ _ _ d k r).
      destruct (Z.ltb_spec id 0). { repeat split; cbn; intros; try reflexivity; lia. }
      destruct (w_cupy w); cbn; repeat split; intros; congruence.
    + rewrite (use_loaded _ _ _ _ _ _ d k r).
      destruct (Z.ltb_spec id 0). { repeat split; cbn; intros; try reflexivity; lia. }
      destruct (w_cupy w). 2:{ cbn. repeat split; intros; congruence. }
      cbn. repeat split; intros; try reflexivity. destruct H0; [congruence|lia].
  - unfold set_precision. cbv zeta. change (c_gpu (set_prec c p)) with (c_gpu c).
    destruct (c_gpu c) eqn:G; [|split; reflexivity].
    destruct K as [d k r g|i b d k r g|i q d k r]; try congruence.
    rewrite (load_loaded w p (set_prec c p) i q d k r). unfold selected.
    destruct (w_kernels w); [|split; reflexivity]. destruct (w_cupy w); split; reflexivity.
Qed.

Lemma steady_app np cp c h x : steady np cp c (h ++ [x]) -> steady np cp c h.
Proof. intros S h1 w p h2 E. apply (S h1 w p (h2 ++ [x])). rewrite E, <- app_assoc. reflexivity. Qed.

Lemma no_ask np cp own h : Forall (fun x => ~ asks_gpu x) h -> c_dev (run_calls np cp h (at_import np own)) = None.
Proof.
  assert (G : forall c, kind c -> c_dev c = None -> Forall (fun x => ~ asks_gpu x) h -> c_dev (run_calls np cp h c) = None).
  { induction h as [|[w a] h IH]; intros c K D F; [exact D|].
    apply Forall_inv in F as Fa. apply Forall_inv_tail in F. cbn. apply IH; [apply kind_step; exact K| |exact F].
    destruct a as [|id|p]; cbn [do_call fst].
    - exact D.
    - destruct K as [d k r g|i b d k r g|i p d k r]; try congruence.
      rewrite (use_none _ _ _ _ d k r). destruct (Z.ltb_spec id 0); [exact D|].
      destruct Fa. exists id. auto.
    - unfold set_precision. cbv zeta. change (c_gpu (set_prec c p)) with (c_gpu c).
      destruct K as [d k r g|i b d k r g|i q d k r]; try congruence. rewrite g. exact D. }
  intro F. apply G; [apply kind_import|reflexivity|exact F].
Qed.

(** The loaded kernels have the precision c_prec c, whichever device is selected. *)
Lemma steady_loaded np cp own h :
  steady np cp (at_import np own) h ->
  let c := run_calls np cp h (at_import np own) in
  forall q, c_kd c = Some q \/ c_rec c = Some q -> q = c_prec c.
Proof.
  induction h as [|[w a] h IH] using rev_ind; intros S c q E.
  { destruct E as [E|E]; discriminate. }
  specialize (IH (steady_app _ _ _ _ _ S)). cbv zeta in IH.
  subst c. rewrite run_app in *. cbn [run_calls fold_left fst snd] in *.
  assert (K : kind (run_calls np cp h (at_import np own))) by (apply kind_run, kind_import).
  pose proof (S h w) as SP.
  set (c := run_calls np cp h (at_import np own)) in *.
  change (fold_left _ h (at_import np own)) with c in *.
  destruct a as [|id|p]; cbn [do_call fst] in *.
  - apply IH. exact E.
  - destruct K as [d k r g|i b d k r g|i p d k r].
    + rewrite (use_none _ _ _ _ d k r) in *.
      destruct (id <? 0)%Z; [apply IH; exact E|]. destruct (w_cupy w); [|apply IH; exact E]. cbn [negb] in *.
      destruct (w_device w id); [|apply IH; exact E]. destruct (w_kernels w); [|apply IH; exact E]. cbn in *.
      destruct E; congruence.
    + rewrite (use_broken _ _ _ _ _ _ d k r) in *.
      destruct (id <? 0)%Z; [apply IH; exact E|]. destruct (w_cupy w); apply IH; exact E.
    + rewrite (use_loaded _ _ _ _ _ _ d k r) in *.
      destruct (id <? 0)%Z; [apply IH; exact E|]. destruct (w_cupy w); [|apply IH; exact E]. cbn in *.
      apply IH. rewrite k. destruct E; auto.
  - destruct (SP p [] eq_refl) as [OK [G|N]].
    + destruct K as [d k r g|i b d k r g|i z d k r]; try congruence.
      unfold set_precision in *. cbv zeta in *. change (c_gpu (set_prec c p)) with (c_gpu c) in *. rewrite G in *.
      rewrite (load_loaded w p (set_prec c p) i z d k r) in *.
      destruct (w_kernels w); [|discriminate]. destruct (w_cupy w); [|discriminate]. cbn in *. destruct E; congruence.
    + apply (no_ask np cp own) in N. fold c in N.
      destruct K as [d k r g|i b d k r g|i z d k r]; try congruence.
      unfold set_precision in E. cbv zeta in E. change (c_gpu (set_prec c p)) with (c_gpu c) in E. rewrite g in E.
      cbn in E. destruct E; congruence.
Qed.

(** The kernels in use have the selected precision after every history in which
    each change of precision succeeds and is made while the GPU is selected or
    before it is first asked for. *)
Lemma C51_precision_partial_lem : forall np cp own h,
  steady np cp (at_import np own) h -> kernels_match (run_calls np cp h (at_import np own)).
Proof.
  intros np cp own h S G. pose proof (steady_loaded np cp own h S) as L. cbv zeta in L.
  assert (K : kind (run_calls np cp h (at_import np own))) by (apply kind_run, kind_import).
  destruct K as [d k r g|i b d k r g|i z d k r]; try congruence.
  specialize (L z (or_introl k)). rewrite k, r, L. auto.
Qed.

(** Whatever the history, the kernels for tracking and for reconstruction have
    one and the same precision, and belong to the device loaded. *)
Lemma C51_same_kernels_lem : forall np cp own h,
  let c := run_calls np cp h (at_import np own) in
  c_kd c = c_rec c /\
  (c_gpu c = true -> exists i p, c_dev c = Some (GpuDev i true (Some p)) /\ c_kd c = Some p).
Proof.
  intros np cp own h c. assert (K : kind c) by (apply kind_run, kind_import).
  destruct K as [d k r g|i b d k r g|i z d k r]; (split; [congruence|]); intro G; try congruence.
  exists i, z. auto.
Qed.

(** Setting the precision while the GPU is selected loads the kernels of that
    precision, whatever happened before. *)
Lemma C51_reload_lem : forall np cp own h w p,
  let c := run_calls np cp h (at_import np own) in
  c_gpu c = true -> snd (set_precision w p c) = None -> kernels_match (fst (set_precision w p c)).
Proof.
  intros np cp own h w p c G OK _. assert (K : kind c) by (apply kind_run, kind_import).
  destruct K as [d k r g|i b d k r g|i z d k r]; try congruence.
  unfold set_precision in *. cbv zeta in *. change (c_gpu (set_prec c p)) with (c_gpu c) in *. rewrite G in *.
  rewrite (load_loaded w p (set_prec c p) i z d k r) in *.
  destruct (w_kernels w); [|discriminate]. destruct (w_cupy w); [|discriminate]. split; reflexivity.
Qed.

Lemma dev_step np cp w a c d :
  kind c -> c_dev c = Some d -> exists d', c_dev (fst (do_call np cp w a c)) = Some d' /\ g_id d' = g_id d.
Proof.
  intros K D. destruct a as [|id|p]; cbn [do_call].
  - exists d. auto.
  - destruct K as [e k r g|i b e k r g|i p e k r]; [congruence| |].
    + rewrite (use_broken _ _ _ _ _ _ e k r). exists d.
      destruct (id <? 0)%Z; [auto|]. destruct (w_cupy w); auto.
    + rewrite (use_loaded _ _ _ _ _ _ e k r). exists d.
      destruct (id <? 0)%Z; [auto|]. destruct (w_cupy w); [|auto]. cbn. split; [congruence|reflexivity].
  - unfold set_precision. cbv zeta. change (c_gpu (set_prec c p)) with (c_gpu c).
    destruct K as [e k r g|i b e k r g|i z e k r]; [congruence| |].
    + rewrite g. exists d. auto.
    + destruct (c_gpu c); [|exists d; auto].
      rewrite (load_loaded w p (set_prec c p) i z e k r).
      destruct (w_kernels w); [|exists d; auto]. destruct (w_cupy w); [|exists d; auto].
      cbn. eexists. split; [reflexivity|]. cbn. rewrite e in D. injection D as <-. reflexivity.
Qed.
Lemma dev_run np cp h c d :
  kind c -> c_dev c = Some d -> exists d', c_dev (run_calls np cp h c) = Some d' /\ g_id d' = g_id d.
Proof.
  revert c d. induction h as [|[w a] h IH]; intros c d K D; [exists d; auto|].
  destruct (dev_step np cp w a c d K D) as (d1 & D1 & E1).
  destruct (IH (fst (do_call np cp w a c)) d1 (kind_step np cp w a c K) D1) as (d2 & D2 & E2).
  exists d2. split; [exact D2|congruence].
Qed.

(** Once a device has been opened, it stays the device, whatever number later
    calls of use_gpu name. *)
Lemma C51_first_device_lem : forall np cp own h h' d,
  c_dev (run_calls np cp h (at_import np own)) = Some d ->
  exists d', c_dev (run_calls np cp (h ++ h') (at_import np own)) = Some d' /\ g_id d' = g_id d.
Proof.
  intros np cp own h h' d D. rewrite run_app. apply dev_run; [apply kind_run, kind_import|exact D].
Qed.

(** If all calls of use_gpu name one device, it is the device opened. *)
Lemma C51_device_partial_lem : forall np cp own h i d,
  (forall w id, In (w, UseGpu id) h -> (0 <= id)%Z -> id = i) ->
  c_dev (run_calls np cp h (at_import np own)) = Some d -> g_id d = i.
Proof.
  intros np cp own h i d. revert d. induction h as [|[w a] h IH] using rev_ind; intros d H D; [discriminate|].
  assert (IH' : forall d, c_dev (run_calls np cp h (at_import np own)) = Some d -> g_id d = i).
  { intros e. apply IH. intros w' id' I. apply (H w' id'). apply in_or_app. left. exact I. }
  rewrite run_app in D. change (run_calls np cp [(w, a)] ?c) with (fst (do_call np cp w a c)) in D.
  assert (K : kind (run_calls np cp h (at_import np own))) by (apply kind_run, kind_import).
  set (c := run_calls np cp h (at_import np own)) in *. clearbody c. clear IH.
  destruct (c_dev c) as [e|] eqn:E.
  { destruct (dev_step np cp w a _ e K E) as (e' & E1 & E2). rewrite E1 in D. injection D as <-.
    rewrite E2. apply IH'. reflexivity. }
  destruct K as [e k r g|i' b e k r g|i' z e k r]; try congruence.
  destruct a as [|id|p]; cbn [do_call] in D.
  - cbn in D. congruence.
  - rewrite (use_none _ _ _ _ e k r) in D. destruct (Z.ltb_spec id 0) as [|P]; [cbn in D; congruence|].
    assert (id = i). { apply (H w id); [apply in_or_app; right; left; reflexivity|exact P]. }
    destruct (w_cupy w); [|cbn in D; congruence]. cbn [negb] in D.
    destruct (w_device w id); [|injection D as <-; assumption].
    destruct (w_kernels w); injection D as <-; assumption.
  - unfold set_precision in D. cbv zeta in D. change (c_gpu (set_prec ?c p)) with (c_gpu c) in D. rewrite g in D.
    cbn in D. congruence.
Qed.

(** After a use_gpu that fails on the device or on the kernels, no later call of
    use_gpu can succeed, even if the cause has gone; the CPU stays selected. *)
Lemma C51_stuck_lem : forall np cp own h w id e h' w' id',
  let c := run_calls np cp h (at_import np own) in
  snd (use_gpu cp w id c) = Some e -> e <> ImportError -> (0 <= id')%Z ->
  let c' := run_calls np cp h' (fst (use_gpu cp w id c)) in
  snd (use_gpu cp w' id' c') <> None /\ c_gpu c' = false.
Proof.
  intros np cp own h w id e h' w' id' c F NI P.
  assert (K : kind c) by (apply kind_run, kind_import). clearbody c.
  assert (B : exists i b, let c1 := fst (use_gpu cp w id c) in
     c_dev c1 = Some (GpuDev i b None) /\ c_kd c1 = None /\ c_rec c1 = None /\ c_gpu c1 = false).
  { destruct K as [d k r g|i b d k r g|i z d k r].
    - rewrite (use_none _ _ _ _ d k r) in *. destruct (id <? 0)%Z; [discriminate|].
      destruct (w_cupy w); [|cbn in F; congruence]. cbn [negb] in *.
      destruct (w_device w id); [|cbn; eauto 10]. destruct (w_kernels w); [discriminate|cbn; eauto 10].
    - rewrite (use_broken _ _ _ _ _ _ d k r) in *. destruct (id <? 0)%Z; [discriminate|].
      destruct (w_cupy w); [|cbn in F; congruence]. cbn. eauto 10.
    - rewrite (use_loaded _ _ _ _ _ _ d k r) in *. destruct (id <? 0)%Z; [discriminate|].
      destruct (w_cupy w); [discriminate|cbn in F; congruence]. }
  destruct B as (i & b & B). set (c1 := fst (use_gpu cp w id c)) in *. clearbody c1. cbv zeta in B. clear F K.
  assert (R : forall c1, (c_dev c1 = Some (GpuDev i b None) /\ c_kd c1 = None /\ c_rec c1 = None /\ c_gpu c1 = false) ->
     let c2 := run_calls np cp h' c1 in c_dev c2 = Some (GpuDev i b None) /\ c_kd c2 = None /\ c_rec c2 = None /\ c_gpu c2 = false).
  { clear. induction h' as [|[w a] h' IH]; intros c1 B; [exact B|]. cbn. apply IH. clear IH.
    destruct B as (d & k & r & g). destruct a as [|id|p]; cbn [do_call].
    - cbn. auto.
    - rewrite (use_broken _ _ _ _ _ _ d k r). destruct (id <? 0)%Z; [cbn; auto|]. destruct (w_cupy w); cbn; auto.
    - unfold set_precision. cbv zeta. change (c_gpu (set_prec c1 p)) with (c_gpu c1). rewrite g. cbn. auto. }
  destruct (R c1 B) as (d & k & r & g). split; [|exact g].
  rewrite (use_broken _ _ _ _ _ _ d k r). destruct (Z.ltb_spec id' 0); [lia|]. destruct (w_cupy w'); discriminate.
Qed.

(** The arrays the program hands over are on the selected device and of the
    precision asked for by the last call that named one. *)
Lemma C51_cast_lem : forall np cp own h,
  cast (run_calls np cp h (at_import np own)) =
    (selected (run_calls np cp h (at_import np own)), asked_prec h Double).
Proof.
  intros np cp own h. unfold cast, selected. f_equal.
  assert (G : forall c, kind c -> c_prec (run_calls np cp h c) = asked_prec h (c_prec c)).
  { induction h as [|[w a] h IH]; intros c K; [reflexivity|].
    cbn [run_calls fold_left fst snd]. change (fold_left _ h ?x) with (run_calls np cp h x).
    rewrite IH by (apply kind_step; exact K). destruct a as [|id|p]; cbn [do_call asked_prec].
    - reflexivity.
    - f_equal. destruct K as [d k r g|i b d k r g|i p d k r].
      + rewrite (use_none _ _ _ _ d k r).
        destruct (id <? 0)%Z; [reflexivity|]. destruct (w_cupy w); [|reflexivity].
        destruct (w_device w id); [|reflexivity]. destruct (w_kernels w); reflexivity.
      + rewrite (use_broken _ _ _ _ _ _ d k r). destruct (id <? 0)%Z; [reflexivity|]. destruct (w_cupy w); reflexivity.
      + rewrite (use_loaded _ _ _ _ _ _ d k r). destruct (id <? 0)%Z; [reflexivity|]. destruct (w_cupy w); reflexivity.
    - f_equal. unfold set_precision. cbv zeta. change (c_gpu (set_prec c p)) with (c_gpu c).
      destruct K as [d k r g|i b d k r g|i q d k r]; try (rewrite g; reflexivity).
      destruct (c_gpu c); [|reflexivity]. rewrite (load_loaded w p (set_prec c p) i q d k r).
      destruct (w_kernels w); [|reflexivity]. destruct (w_cupy w); reflexivity. }
  rewrite (G _ (kind_import np own)). reflexivity.
Qed.

(** The full claim fails: a precision chosen on the CPU after the GPU has been
    used is not the precision of the kernels used next. *)
Lemma C51_precision_refuted_lem : forall np cp own,
  exists h, Forall (fun x => fst x = working) h /\ ~ kernels_match (run_calls np cp h (at_import np own)).
Proof.
  intros np cp own.
  exists [(working, UseGpu 0); (working, UseCpu); (working, SetPrecision Single); (working, UseGpu 0)]%Z.
  split; [repeat constructor|]. intro H. destruct (H eq_refl) as [E _]. vm_compute in E. discriminate.
Qed.
(** Nor when a change of precision raises: the arrays have the new precision and
    the kernels the old one. *)
Lemma C51_failed_change_refuted_lem : forall np cp own,
  exists w, snd (set_precision w Single (run_calls np cp [(working, UseGpu 0%Z)] (at_import np own))) <> None /\
  ~ kernels_match (fst (set_precision w Single (run_calls np cp [(working, UseGpu 0%Z)] (at_import np own)))).
Proof.
  intros np cp own. exists no_compiler. split; [discriminate|].
  intro H. destruct (H eq_refl) as [E _]. vm_compute in E. discriminate.
Qed.
(** And the device used is not the one named: asking for device 1 after device
    0 succeeds and leaves device 0. *)
Lemma C51_device_refuted_lem : forall np cp own,
  let c := run_calls np cp [(working, UseGpu 0%Z)] (at_import np own) in
  snd (use_gpu cp working 1 c) = None /\
  exists d, c_dev (fst (use_gpu cp working 1 c)) = Some d /\ g_id d = 0%Z.
Proof. intros np cp own. split; [reflexivity|]. eexists. split; reflexivity. Qed.

(*EX*)
(** Names that are apart, and the device switched twice. *)
Example names_apart : apart ex_np ex_cp ex_own.
Proof.
  intros s d I P. unfold provides in P. cbn in I.
  destruct I as [<-|[<-|[<-|[<-|[]]]]]; destruct d; cbn in P; intuition discriminate.
Qed.
Example names_switched :
  let c := run_calls ex_np ex_cp [(working, UseGpu 0%Z)] (at_import ex_np ex_own) in
  c_globals c "fuse"%string = Some (Fun GPU) /\ c_globals c "vectorize"%string = None /\
  c_globals c "kick_and_drift"%string = Some (Fun GPU) /\ c_globals c "cast"%string = Some Own.
Proof. repeat split. Qed.
(** A history that is steady, and changes the precision. *)
Example steady_history :
  steady ex_np ex_cp (at_import ex_np ex_own)
    [(working, SetPrecision Single); (working, UseGpu 0%Z); (working, SetPrecision Double); (working, UseCpu); (working, UseGpu 1%Z)].
Proof.
  intros h1 w p h2 E.
  destruct h1 as [|x1 h1]; [injection E as <- <- _; cbn; auto|injection E as <- E].
  destruct h1 as [|x2 h1]; [discriminate|injection E as <- E].
  destruct h1 as [|x3 h1]; [injection E as <- <- _; cbn; auto|injection E as <- E].
  destruct h1 as [|x4 h1]; [discriminate|injection E as <- E].
  destruct h1 as [|x5 h1]; [discriminate|injection E as <- E].
  destruct h1; discriminate.
Qed.
(** A failing call: the second device is not there. *)
Example stuck_once :
  snd (use_gpu ex_cp one_device 1 (at_import ex_np ex_own)) = Some CudaError /\
  snd (use_gpu ex_cp one_device 0 (fst (use_gpu ex_cp one_device 1 (at_import ex_np ex_own)))) = Some AttributeError.
Proof. split; reflexivity. Qed.
(*XE*)
