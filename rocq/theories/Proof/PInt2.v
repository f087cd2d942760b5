(** Lemmas on 32-bit int in the tracking and in the image. *)
From Coq Require Import List ZArith Bool QArith Qcanon Lia.
From Verif Require Import Base.Res Base.ResLemmas Base.QcLib Base.QcLemmas Base.Loops.
From Verif Require Import Model.MRecon Model.MTrack Model.MImage Model.MInt Proof.PInt.
Import ListNotations.
Local Open Scope Z_scope.

Lemma iadd_ok a b : -2147483648 <= a + b <= 2147483647 -> iadd a b = Ok (a + b).
Proof. apply c_int_ok. Qed.
Lemma isub_ok a b : -2147483648 <= a - b <= 2147483647 -> isub a b = Ok (a - b).
Proof. apply c_int_ok. Qed.
Lemma imul_ok a b : -2147483648 <= a * b <= 2147483647 -> imul a b = Ok (a * b).
Proof. apply c_int_ok. Qed.
Lemma narrow_id z : 0 <= z <= 2147483647 -> narrow z = z.
Proof. intros. unfold narrow. rewrite Z.mod_small by lia. lia. Qed.

Ltac nx := match goal with |- bind ?a _ = bind ?a _ => destruct a as [?|]; [cbn [bind]|reflexivity] end.
Ltac inv E := match type of E with bind ?a _ = Ok _ => destruct a as [?|] eqn:?; [cbn [bind] in E|discriminate E] end.

Section Track.
Context {T : Type} (add sub mul : T -> T -> T) (sin : T -> T).
Variables (m : machine T) (dturns rec_prof : Z) (nparts : nat) (ftn : bool).
Hypothesis Hrec : 0 <= rec_prof < 2147483647.

Lemma up_step_same total s : -2147483648 <= turn s < 2147483647 -> 0 <= progress s < 2147483647 -> -1 <= profile s < 2147483646 ->
  up_step_int add sub mul sin m dturns rec_prof total nparts ftn s = up_step add sub mul sin m dturns rec_prof total nparts ftn s.
Proof.
  intros Ht Hp Hf. unfold up_step_int, up_step. nx. nx. rewrite iadd_ok by lia. cbn [bind]. cbv zeta. nx. nx. nx. nx. nx. nx. nx.
  rewrite iadd_ok by lia. cbn [bind]. match goal with |- (if ?h then _ else _) = _ => destruct h; [|reflexivity] end. rewrite iadd_ok by lia. cbn [bind]. nx. nx.
  destruct ftn; [|reflexivity]. rewrite !iadd_ok by lia. reflexivity.
Qed.
Lemma up_step_next total s s' : up_step add sub mul sin m dturns rec_prof total nparts ftn s = Ok s' ->
  turn s' = turn s + 1 /\ progress s' = progress s + 1 /\ profile s <= profile s' <= profile s + 1.
Proof.
  unfold up_step. cbv zeta. intros E. do 9 inv E. match type of E with (if ?h then _ else _) = _ => destruct h end.
  - do 2 inv E. inversion E; subst. simpl. lia.
  - inversion E; subst. simpl. lia.
Qed.
Lemma down_step_same total s : -2147483648 < turn s <= 2147483647 -> 0 <= progress s < 2147483647 -> -2147483648 < profile s <= rec_prof ->
  down_step_int add sub mul sin m dturns rec_prof total nparts ftn s = down_step add sub mul sin m dturns rec_prof total nparts ftn s.
Proof.
  intros Ht Hp Hf. unfold down_step_int, down_step. cbv zeta. nx. nx. nx. nx. nx. nx. rewrite isub_ok by lia. cbn [bind]. nx. nx. nx.
  rewrite iadd_ok by lia. cbn [bind]. match goal with |- (if ?h then _ else _) = _ => destruct h; [|reflexivity] end. rewrite isub_ok by lia. cbn [bind]. nx. nx.
  destruct ftn; [|reflexivity]. rewrite !iadd_ok by lia. reflexivity.
Qed.
Lemma down_step_next total s s' : down_step add sub mul sin m dturns rec_prof total nparts ftn s = Ok s' ->
  turn s' = turn s - 1 /\ progress s' = progress s + 1 /\ profile s - 1 <= profile s' <= profile s.
Proof.
  unfold down_step. cbv zeta. intros E. do 9 inv E. match type of E with (if ?h then _ else _) = _ => destruct h end.
  - do 2 inv E. inversion E; subst. simpl. lia.
  - inversion E; subst. simpl. lia.
Qed.

Lemma up_loop_same nturns : nturns <= 2147483647 -> forall fuel s, 0 <= turn s -> 0 <= progress s -> -1 <= profile s ->
  progress s + (nturns - turn s) <= 2147483647 -> profile s + (nturns - turn s) < 2147483647 ->
  up_loop_int add sub mul sin fuel m dturns rec_prof nturns nparts ftn s = up_loop add sub mul sin fuel m dturns rec_prof nturns nparts ftn s.
Proof.
  intros Hn. induction fuel; intros s H1 H2 H3 H4 H5; cbn [up_loop_int up_loop]; [reflexivity|].
  destruct (Z.ltb_spec (turn s) nturns); [|reflexivity]. rewrite up_step_same by lia.
  destruct (up_step add sub mul sin m dturns rec_prof nturns nparts ftn s) as [s'|] eqn:E; [|reflexivity]. cbn [bind].
  apply up_step_next in E. apply IHfuel; lia.
Qed.
Lemma up_loop_next nturns : forall fuel s s', up_loop add sub mul sin fuel m dturns rec_prof nturns nparts ftn s = Ok s' ->
  progress s <= progress s' <= progress s + Z.max 0 (nturns - turn s).
Proof.
  induction fuel; intros s s'; cbn [up_loop]; destruct (Z.ltb_spec (turn s) nturns); intros E; try discriminate; try (inversion E; subst; lia).
  inv E. apply IHfuel in E. match goal with H : up_step _ _ _ _ _ _ _ _ _ _ _ = _ |- _ => apply up_step_next in H end. lia.
Qed.
Lemma down_loop_same total : forall fuel s, turn s <= 2147483647 -> 0 <= progress s -> profile s <= rec_prof ->
  progress s + turn s <= 2147483647 -> -2147483648 <= profile s - turn s ->
  down_loop_int add sub mul sin fuel m dturns rec_prof total nparts ftn s = down_loop add sub mul sin fuel m dturns rec_prof total nparts ftn s.
Proof.
  induction fuel; intros s H1 H2 H3 H4 H5; cbn [down_loop_int down_loop]; [reflexivity|].
  destruct (Z.ltb_spec 0 (turn s)); [|reflexivity]. rewrite down_step_same by lia.
  destruct (down_step add sub mul sin m dturns rec_prof total nparts ftn s) as [s'|] eqn:E; [|reflexivity]. cbn [bind].
  apply down_step_next in E. apply IHfuel; lia.
Qed.

Lemma kick_and_drift_same xp0 yp0 de ph deltaturn nturns : 1 <= dturns -> - dturns < deltaturn < dturns -> 0 <= rec_prof * dturns + deltaturn < nturns ->
  rec_prof * dturns <= nturns -> nturns + dturns <= 2147483647 ->
  kick_and_drift_int add sub mul sin m xp0 yp0 de ph dturns rec_prof deltaturn nturns nparts ftn =
  kick_and_drift add sub mul sin m xp0 yp0 de ph dturns rec_prof deltaturn nturns nparts ftn.
Proof.
  intros Hd Hdt Ht Hr Hn. unfold kick_and_drift_int, kick_and_drift. assert (rec_prof <= rec_prof * dturns) by nia.
  rewrite imul_ok by lia. cbn [bind]. rewrite iadd_ok by lia. cbn [bind]. cbv zeta.
  replace (if deltaturn <? 0 then isub rec_prof 1 else Ok rec_prof) with (Ok (if deltaturn <? 0 then rec_prof - 1 else rec_prof)).
  2:{ destruct (deltaturn <? 0); auto. rewrite isub_ok by lia. auto. }
  cbn [bind]. assert (-1 <= (if deltaturn <? 0 then rec_prof - 1 else rec_prof) <= rec_prof) by (destruct (deltaturn <? 0); lia).
  nx. nx. rewrite up_loop_same by (simpl; lia).
  match goal with |- bind ?a _ = bind ?a _ => destruct a as [s1|] eqn:E1; [cbn [bind]|reflexivity] end.
  apply up_loop_next in E1. simpl in E1. destruct (0 <? rec_prof) eqn:Ez; [|reflexivity].
  nx. nx. nx. nx. apply down_loop_same; simpl; lia.
Qed.
End Track.

Lemma row_pointers_ok (n nparts : nat) : (Z.of_nat n - 1) * Z.of_nat nparts <= 2147483647 -> row_pointers (Z.of_nat n) nparts = Ok tt.
Proof.
  intros H. unfold row_pointers. rewrite Nat2Z.id.
  assert (G : forall k i, (i + k <= n)%nat -> for_ i k (fun i (_ : unit) => _ <- imul (Z.of_nat i) (Z.of_nat nparts) ;; Ok tt) tt = Ok tt); [|apply G; lia].
  induction k; intros i Hi; simpl; auto. rewrite imul_ok by nia. cbn [bind]. apply IHk. lia.
Qed.
Lemma row_pointers_out (n nparts : nat) : 2147483647 < (Z.of_nat n - 1) * Z.of_nat nparts -> row_pointers (Z.of_nat n) nparts = Fail IntOverflow.
Proof.
  intros H. unfold row_pointers. rewrite Nat2Z.id. destruct n as [|n]; [nia|].
  assert (G : forall k i, (i + k = n)%nat -> for_ i (S k) (fun i (_ : unit) => _ <- imul (Z.of_nat i) (Z.of_nat nparts) ;; Ok tt) tt = Fail IntOverflow); [|apply G; lia].
  induction k; intros i Hi.
  - cbn [for_]. unfold imul. rewrite c_int_out by lia. reflexivity.
  - change (for_ i (S (S k)) ?b tt) with (s' <- b i tt ;; for_ (S i) (S k) b s'). cbv beta. unfold imul at 1. unfold c_int.
    destruct (in_int _); [|reflexivity]. cbn [bind]. apply IHk. lia.
Qed.

(** ** The image *)
Lemma image_same xp yp weight nbins : Z.of_nat nbins * Z.of_nat nbins <= 2147483647 -> Z.of_nat (length xp) <= 2147483647 ->
  Forall (fun x => 0 <= x < Z.of_nat nbins) xp -> Forall (fun x => 0 <= x < Z.of_nat nbins) yp ->
  wrapper_make_phase_space_int xp yp weight nbins = wrapper_make_phase_space xp yp weight nbins.
Proof.
  intros H1 H2 Hx Hy. unfold wrapper_make_phase_space_int, wrapper_make_phase_space, int_arg. rewrite in_int_true by nia. cbn [bind].
  rewrite narrow_id by lia. match goal with |- bind ?a _ = bind ?b _ => replace a with b; auto end.
  unfold make_phase_space_int, make_phase_space. rewrite !imul_ok by nia. cbn [bind]. rewrite Nat2Z.id.
  replace (Z.of_nat nbins * Z.of_nat nbins) with (Z.of_nat (nbins * nbins)) by lia. rewrite Nat2Z.id. symmetry.
  apply for_ext. intros i ps Hi.
  destruct (get yp (Z.of_nat i)) as [y|] eqn:Ey; [|reflexivity]. cbn [bind].
  destruct (get xp (Z.of_nat i)) as [x|] eqn:Ex; [|reflexivity]. cbn [bind].
  apply get_ok_inv in Ey. destruct Ey as (_ & Ey & _). apply nth_error_In in Ey.
  apply get_ok_inv in Ex. destruct Ex as (_ & Ex & _). apply nth_error_In in Ex.
  assert (0 <= x < Z.of_nat nbins) by (revert x Ex; apply Forall_forall; auto).
  assert (0 <= y < Z.of_nat nbins) by (revert y Ey; apply Forall_forall; auto).
  rewrite imul_ok by nia. cbn [bind]. rewrite iadd_ok by nia. reflexivity.
Qed.
