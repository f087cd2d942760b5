(** Lemmas on reading input files. *)
From Coq Require Import List ZArith Bool QArith Qcanon String Ascii Lia.
From Verif Require Import Base.Res Base.QcLib Base.ResLemmas Base.QcLemmas Base.Loops Model.MRecon Model.MParticles Model.MPreproc Model.MInput Spec.InputSpec Proof.PParticles.
Import ListNotations.
Local Open Scope Z_scope.

(** ** Stripping *)

Lemma is_eol_iff : forall c, is_eol c = true <-> eol c.
Proof.
  intros. unfold is_eol, eol. rewrite orb_true_iff, !Ascii.eqb_eq. split.
  - intros [-> | ->]; auto.
  - intros [H|H]; [right|left]; rewrite <- (ascii_nat_embedding c), H; reflexivity.
Qed.

Lemma drop_eol_spec : forall l, exists a, l = a ++ drop_eol l /\ Forall eol a /\ (forall c r, drop_eol l = c :: r -> ~ eol c).
Proof.
  induction l as [|c r IH]; cbn [drop_eol].
  - exists []. repeat split; auto. discriminate.
  - destruct (is_eol c) eqn:E.
    + destruct IH as [a [H1 [H2 H3]]]. exists (c :: a). cbn [app]. rewrite <- H1. repeat split; auto.
      constructor; auto. apply is_eol_iff; auto.
    + exists []. repeat split; auto. intros c' r' H. injection H as <- <-. rewrite <- is_eol_iff, E. discriminate.
Qed.

Lemma drop_eol_unique : forall l a s, l = a ++ s -> Forall eol a -> (forall c r, s = c :: r -> ~ eol c) -> drop_eol l = s.
Proof.
  intros l a s -> Ha Hs. induction Ha as [|c a Hc Ha IH]; cbn [app].
  - destruct s as [|c r]; auto. cbn [drop_eol]. destruct (is_eol c) eqn:E; auto.
    exfalso. apply (Hs c r eq_refl). apply is_eol_iff. auto.
  - cbn [drop_eol]. rewrite (proj2 (is_eol_iff c) Hc). auto.
Qed.

Lemma rev_eol : forall a, Forall eol a -> Forall eol (rev a).
Proof. intros. apply Forall_rev. auto. Qed.

Lemma strip_trimmed : forall raw, trimmed raw (strip raw).
Proof.
  intros. unfold trimmed, strip. set (l := list_ascii_of_string raw).
  destruct (drop_eol_spec l) as [a [Ha [Ea Sa]]]. set (u := drop_eol l) in *.
  destruct (drop_eol_spec (rev u)) as [b [Hb [Eb Sb]]]. set (v := drop_eol (rev u)) in *.
  rewrite list_ascii_of_string_of_list_ascii.
  assert (Hu : u = rev v ++ rev b) by (rewrite <- rev_app_distr, <- Hb, rev_involutive; auto).
  exists a, (rev b). split; [rewrite <- Hu; auto|]. split; auto. split; [apply rev_eol; auto|]. split.
  - intros c r H. apply (Sa c (r ++ rev b)). rewrite Hu, H. reflexivity.
  - intros c r H. apply (Sb c (rev r)). apply (f_equal (@rev ascii)) in H.
    rewrite rev_involutive, rev_app_distr in H. auto.
Qed.

Lemma trimmed_strip : forall raw s, trimmed raw s -> s = strip raw.
Proof.
  intros raw s [a [b [E [Ha [Hb [H1 H2]]]]]]. unfold strip. rewrite E.
  assert (Hd : drop_eol (a ++ list_ascii_of_string s ++ b) = list_ascii_of_string s ++ b \/
               (list_ascii_of_string s = [] /\ drop_eol (a ++ list_ascii_of_string s ++ b) = [])).
  { destruct (list_ascii_of_string s) as [|c r] eqn:Es.
    - right. split; auto. cbn [app]. apply (drop_eol_unique _ (a ++ b) []).
      + rewrite app_nil_r. auto.
      + apply Forall_app. auto.
      + discriminate.
    - left. apply (drop_eol_unique _ a); auto. cbn [app]. intros c' r' H. injection H as <- <-. apply (H1 c r). auto. }
  destruct Hd as [-> | [Es ->]].
  - rewrite (drop_eol_unique _ (rev b) (rev (list_ascii_of_string s))).
    + rewrite rev_involutive. symmetry. apply string_of_list_ascii_of_string.
    + rewrite rev_app_distr. auto.
    + apply rev_eol. auto.
    + intros c r H. apply (H2 c (rev r)). apply (f_equal (@rev ascii)) in H. rewrite rev_involutive in H. auto.
  - cbn. rewrite <- (string_of_list_ascii_of_string s), Es. reflexivity.
Qed.

Lemma trimmed_iff : forall raw s, trimmed raw s <-> s = strip raw.
Proof. split; [apply trimmed_strip|]. intros ->. apply strip_trimmed. Qed.

(** ** Lines *)

Lemma np_get_nth : forall A (l : list A) k x, 0 <= k ->
  np_get l k = Ok x <-> nth_error l (Z.to_nat k) = Some x.
Proof.
  intros. unfold np_get. cbv zeta. destruct (Z.ltb_spec k 0); [lia|]. cbn iota. destruct (Z.ltb_spec k 0); [lia|]. cbn [orb].
  assert (L : nth_error l (Z.to_nat k) = None <-> (List.length l <= Z.to_nat k)%nat) by apply nth_error_None.
  destruct (Z.leb_spec (Z.of_nat (List.length l)) k).
  - split; [discriminate|]. intros E. rewrite (proj2 L) in E by lia. discriminate.
  - cbn [orb]. unfold get. destruct (Z.ltb_spec k 0); [lia|].
    destruct (nth_error l (Z.to_nat k)) eqn:E; split; intros X; inversion X; auto.
Qed.

Lemma line_at : forall lines k s, 0 <= k ->
  np_get (map strip lines) k = Ok s <-> line lines (k + 1) s.
Proof.
  intros. rewrite np_get_nth by auto. unfold line. replace (k + 1 - 1) with k by lia.
  rewrite nth_error_map. split.
  - intros E. split; [lia|]. destruct (nth_error lines (Z.to_nat k)) as [raw|]; [|discriminate].
    exists raw. split; auto. apply trimmed_iff. injection E as ->. auto.
  - intros [_ [raw [-> Ht]]]. cbn. f_equal. symmetry. apply trimmed_iff. auto.
Qed.

Lemma conv_at : forall A (conv : string -> res A) lines k v, 0 <= k ->
  (l <- np_get (map strip lines) k ;; conv l) = Ok v <-> exists s, line lines (k + 1) s /\ conv s = Ok v.
Proof.
  intros. split.
  - intros E. apply bind_ok in E. destruct E as [s [E1 E2]]. exists s. split; auto. apply line_at; auto.
  - intros [s [E1 E2]]. apply line_at in E1; auto. rewrite E1. auto.
Qed.

(** ** Reading stdin *)

Section Stdin.
Variable to_int : string -> res Z.
Variable stdin : list string.
Let L (i : nat) : string := nth i stdin EmptyString.
Notation st n nd p nf := (RState (tab n L) (skipn n stdin) (Z.of_nat n) nd p nf).

Lemma readline_at : forall n, readline (skipn n stdin) = (L n, skipn (S n) stdin).
Proof.
  intros n. unfold L. clear L. revert n. induction stdin as [|l r IH]; intros n.
  - destruct n; reflexivity.
  - destruct n; [reflexivity|]. cbn [skipn nth]. rewrite IH. reflexivity.
Qed.

Lemma read_quiet : forall (k fuel n : nat) (nd : Z) (p : bool) (nf : option Z), Z.of_nat (n + k) <= nd ->
  (forall i, (n <= i < n + k)%nat ->
     if p then i <> 16%nat /\ i <> 20%nat else i <> 12%nat \/ contains "pipe" (L 12) = false) ->
  read_loop to_int (k + fuel) (st n nd p nf) = read_loop to_int fuel (st (n + k)%nat nd p nf).
Proof.
  induction k as [|k IH]; intros fuel n nd p nf Hn Hq.
  - rewrite Nat.add_0_r. auto.
  - assert (E : read_step to_int (st n nd p nf) = Ok (st (S n) nd p nf)).
    { unfold read_step. cbn [r_stdin r_num r_piped r_nframes r_ndata r_read]. rewrite readline_at.
      specialize (Hq n ltac:(lia)).
      rewrite <- tab_S. replace (Z.of_nat n + 1) with (Z.of_nat (S n)) by lia.
      unfold RAW_DATA_FILE_IDX. destruct p.
      - rewrite !orb_true_r. destruct (Z.eqb_spec (Z.of_nat n) 16); [lia|].
        destruct (Z.eqb_spec (Z.of_nat n) 20); [lia|]. reflexivity.
      - rewrite !orb_false_r. destruct (Z.eqb_spec (Z.of_nat n) 12).
        + replace n with 12%nat in * by lia. destruct Hq as [| ->]; [lia|]. reflexivity.
        + reflexivity. }
    cbn [Nat.add read_loop]. cbn [r_num r_ndata].
    destruct (Z.ltb_spec (Z.of_nat n) nd); [|lia]. rewrite E. cbn [bind].
    rewrite IH; [|lia|intros; apply Hq; lia]. replace (n + S k)%nat with (S n + k)%nat by lia. reflexivity.
Qed.

Lemma read_one : forall fuel n nd p nf s', Z.of_nat n < nd ->
  read_step to_int (st n nd p nf) = Ok s' ->
  read_loop to_int (S fuel) (st n nd p nf) = read_loop to_int fuel s'.
Proof.
  intros. cbn [read_loop r_num r_ndata]. destruct (Z.ltb_spec (Z.of_nat n) nd); [|lia]. rewrite H0. reflexivity.
Qed.

Lemma read_stop : forall fuel n nd p nf, nd <= Z.of_nat n ->
  read_loop to_int fuel (st n nd p nf) = Ok (st n nd p nf).
Proof.
  intros. destruct fuel; cbn [read_loop r_num r_ndata]; (destruct (Z.ltb_spec (Z.of_nat n) nd); [lia|reflexivity]).
Qed.

Lemma read_no_pipe : forall fuel, contains "pipe" (L 12) = false ->
  get_input_stdin to_int (98 + fuel) stdin = Ok (tab 98 L, skipn 98 stdin).
Proof.
  intros. unfold get_input_stdin. change (RState [] stdin 0 PARAMETER_LENGTH false None) with (st 0%nat PARAMETER_LENGTH false None).
  unfold PARAMETER_LENGTH. rewrite read_quiet; [|lia|intros; auto]. rewrite read_stop by lia. reflexivity.
Qed.

Lemma read_pipe : forall fuel nf nb n, contains "pipe" (L 12) = true ->
  to_int (L 16) = Ok nf -> to_int (L 20) = Ok nb -> nf * nb = Z.of_nat n ->
  get_input_stdin to_int ((98 + n) + fuel) stdin = Ok (tab (98 + n) L, skipn (98 + n) stdin).
Proof.
  intros fuel nf nb n Hp H16 H20 Hn. unfold get_input_stdin.
  change (RState [] stdin 0 PARAMETER_LENGTH false None) with (st 0%nat PARAMETER_LENGTH false None).
  unfold PARAMETER_LENGTH.
  replace (98 + n + fuel)%nat with (12 + S (3 + S (3 + S ((77 + n) + fuel))))%nat by lia.
  rewrite read_quiet; [|lia|intros; lia].
  rewrite (read_one _ _ _ _ _ (st 13%nat 98 true None)); [|lia|].
  2:{ unfold read_step. cbn [r_stdin r_num r_piped r_nframes r_ndata r_read Nat.add]. rewrite readline_at, Hp, <- tab_S. reflexivity. }
  rewrite read_quiet; [|lia|intros; lia].
  rewrite (read_one _ _ _ _ _ (st 17%nat 98 true (Some nf))); [|lia|].
  2:{ unfold read_step. cbn [r_stdin r_num r_piped r_nframes r_ndata r_read Nat.add]. rewrite readline_at, <- tab_S.
      replace ((_ && _) || true)%bool with true by (rewrite orb_true_r; auto).
      change ((true && (Z.of_nat 16 =? 16))%bool) with true. cbn iota. rewrite H16. reflexivity. }
  rewrite read_quiet; [|lia|intros; lia].
  rewrite (read_one _ _ _ _ _ (st 21%nat (98 + nf * nb) true (Some nf))); [|lia|].
  2:{ unfold read_step. cbn [r_stdin r_num r_piped r_nframes r_ndata r_read Nat.add]. rewrite readline_at, <- tab_S.
      replace ((_ && _) || true)%bool with true by (rewrite orb_true_r; auto).
      change ((true && (Z.of_nat 20 =? 16))%bool) with false. change ((true && (Z.of_nat 20 =? 20))%bool) with true.
      cbn iota. rewrite H20. reflexivity. }
  rewrite read_quiet; [|lia|intros; lia].
  rewrite read_stop by lia. reflexivity.
Qed.
End Stdin.

(** ** Splitting *)

Lemma mapM_forall2 : forall A B (f : A -> res B) l r, mapM f l = Ok r <-> Forall2 (fun a b => f a = Ok b) l r.
Proof.
  intros A B f. induction l as [|a l IH]; intros r; split; intros H.
  - injection H as <-. constructor.
  - inversion H; subst. reflexivity.
  - unfold mapM in H. cbn [map sequence] in H. apply bind_ok in H. destruct H as [b [Hb H]].
    apply bind_ok in H. destruct H as [r' [Hr H]]. injection H as <-. constructor; auto. apply IH. auto.
  - inversion H as [|? b ? r' Hb Hr]; subst. apply IH in Hr. unfold mapM in *. cbn [map sequence]. rewrite Hb. cbn [bind]. rewrite Hr. reflexivity.
Qed.

Lemma py_range_up : forall n, py_range 0 (Z.of_nat n) 1 = tab n Z.of_nat.
Proof.
  intros. unfold py_range. cbn [Z.ltb Z.compare]. rewrite Z.div_1_r. replace (Z.of_nat n - 0 + 1 - 1) with (Z.of_nat n) by lia.
  rewrite Nat2Z.id. unfold tab. apply map_ext. intros. lia.
Qed.

Lemma mapM_np_get : forall A B (g : A -> B) (l : list A),
  mapM (fun i => x <- np_get l i ;; Ok (g x)) (tab (List.length l) Z.of_nat) = Ok (map g l).
Proof.
  intros. destruct l as [|d r]; [reflexivity|]. set (l := d :: r).
  rewrite (mapM_tab _ _ _ _ _ (fun i => g (nth i l d))).
  - f_equal. transitivity (map g (tab (List.length l) (fun i => nth i l d))); [rewrite map_tab; reflexivity|rewrite tab_nth; reflexivity].
  - intros i Hi. rewrite (proj2 (np_get_nth _ l (Z.of_nat i) (nth i l d) ltac:(lia))); [reflexivity|].
    rewrite Nat2Z.id. apply nth_error_nth'. auto.
Qed.

Lemma mapM_np_get_all : forall A B (g : A -> B) (l : list A) n v,
  mapM (fun i => x <- np_get l i ;; Ok (g x)) (tab n Z.of_nat) = Ok v -> (n <= List.length l)%nat.
Proof.
  intros. destruct n as [|n]; [lia|].
  assert (H' := proj1 (mapM_forall2 _ _ _ _ _) H).
  rewrite tab_S in H'. apply Forall2_app_inv_l in H'. destruct H' as [r1 [r2 [_ [H' _]]]].
  inversion H' as [|? b ? ? Hb _]; subst.
  apply bind_ok in Hb. destruct Hb as [x [Hx _]]. apply np_get_nth in Hx; [|lia].
  rewrite Nat2Z.id in Hx. apply nth_error_lt in Hx. lia.
Qed.

Lemma pyidx_pos : forall n k, (k <= n)%nat -> pyidx n (Z.of_nat k) = k.
Proof. intros. unfold pyidx. destruct (Z.ltb_spec (Z.of_nat k) 0); lia. Qed.

Lemma slice_first : forall A (l : list A) k, (k <= List.length l)%nat -> slice l 0 (Z.of_nat k) = firstn k l.
Proof. intros. unfold slice. rewrite (pyidx_pos _ k) by auto. change 0 with (Z.of_nat 0). rewrite pyidx_pos by lia. cbn [skipn]. f_equal. lia. Qed.

Lemma slice_short : forall A (l : list A) k, (List.length l <= k)%nat -> slice l 0 (Z.of_nat k) = l.
Proof.
  intros. unfold slice. cbv zeta. assert (E : pyidx (List.length l) 0 = 0%nat) by (apply (pyidx_pos _ 0); lia). rewrite E. cbn [skipn].
  apply firstn_all2. unfold pyidx. destruct (Z.ltb_spec (Z.of_nat k) 0); lia.
Qed.

