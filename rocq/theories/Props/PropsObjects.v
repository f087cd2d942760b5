(** Theorems on keyword arguments (C94).
    Statements only: each theorem is closed by the lemma of the same name in
    Proof/CObjects.v.  Written by tools/mkprops.py. *)
From Coq Require Import Reals String List ZArith Bool Lia Lra Permutation.
From Verif Require Import Base.Res Model.MTrack Model.MMachine Model.MObjects Spec.MachineSpec Spec.ObjectSpec.
Import ListNotations.
Local Open Scope R_scope.
From Verif Require Import Proof.CObjects.

(** C94.  A documented keyword sets its attribute; without it the attribute has
    the documented default. *)
Theorem C94_keywords_partial : forall p kwargs name attr default, call kwargs -> In (name, (attr, default)) documented ->
  (forall v, given kwargs name v -> attribute (new_machine p kwargs) attr v) /\
  (missing kwargs name -> attribute (new_machine p kwargs) attr default).
Proof. exact C94_keywords_partial_lem. Qed.
Print Assumptions C94_keywords_partial.

(** C94.  The limits of the reconstruction area: by default, or if None is
    given, 0 and the length of the profile. *)
Theorem C94_times : forall p kwargs, call kwargs ->
  (forall v, given kwargs "min_dt" v -> v <> PyNone -> attribute (new_machine p kwargs) "min_dt" v) /\
  (forall v, given kwargs "max_dt" v -> v <> PyNone -> attribute (new_machine p kwargs) "max_dt" v) /\
  (missing kwargs "min_dt" \/ given kwargs "min_dt" PyNone -> attribute (new_machine p kwargs) "min_dt" (PyNum 0)) /\
  (missing kwargs "max_dt" \/ given kwargs "max_dt" PyNone -> attribute (new_machine p kwargs) "max_dt" (PyNum (po_nbins p * po_dtbin p))).
Proof. exact C94_times_lem. Qed.
Print Assumptions C94_times.

(** C94.  The positional arguments set the attributes of their names, the rest
    energy that of the name e_rest, whatever the keywords; the energy of the
    synchronous particle is in the middle of the image. *)
Theorem C94_positional : forall p kwargs,
  attribute (new_machine p kwargs) "dturns" (PyNum (po_dturns p)) /\
  attribute (new_machine p kwargs) "vrf1" (PyNum (po_vrf1 p)) /\
  attribute (new_machine p kwargs) "mean_orbit_rad" (PyNum (po_mean_orbit_rad p)) /\
  attribute (new_machine p kwargs) "bending_rad" (PyNum (po_bending_rad p)) /\
  attribute (new_machine p kwargs) "b0" (PyNum (po_b0 p)) /\
  attribute (new_machine p kwargs) "trans_gamma" (PyNum (po_trans_gamma p)) /\
  attribute (new_machine p kwargs) "e_rest" (PyNum (po_rest_energy p)) /\
  attribute (new_machine p kwargs) "nprofiles" (PyNum (po_nprofiles p)) /\
  attribute (new_machine p kwargs) "nbins" (PyNum (po_nbins p)) /\
  attribute (new_machine p kwargs) "dtbin" (PyNum (po_dtbin p)) /\
  attribute (new_machine p kwargs) "synch_part_y" (PyNum (po_nbins p / 2)).
Proof. exact C94_positional_lem. Qed.
Print Assumptions C94_positional.

(** C94.  The order of the keywords does not matter. *)
Theorem C94_order : forall p k1 k2, call k1 -> Permutation k1 k2 -> new_machine p k1 = new_machine p k2.
Proof. exact C94_order_lem. Qed.
Print Assumptions C94_order.

(** C94.  Refuted: a keyword that is not known, e.g. a misspelt one or the name
    q of the attribute for the charge, is neither used nor reported. *)
Theorem C94_unknown_refuted : forall p kwargs name v, call ((name, v) :: kwargs) -> ~ known name ->
  new_machine p ((name, v) :: kwargs) = new_machine p kwargs.
Proof. exact C94_unknown_refuted_lem. Qed.
Print Assumptions C94_unknown_refuted.

Example C94_ex : ~ known "q" /\ ~ known "vrf2_dot" /\ call [("h_ratio", PyNum 2); ("charge", PyNum 54); ("q", PyNum 3)]%string /\
  In ("charge", ("q", PyNum 1))%string documented.
Proof.
  split; [unfold known; cbn; intuition discriminate|]. split; [unfold known; cbn; intuition discriminate|].
  split; [repeat constructor; cbn; intuition discriminate|cbn; tauto].
Qed.
