(** Interpolation over the reals. *)
From Coq Require Import Ascii String List ZArith Bool Reals Lra Lia Sorted.
From Verif Require Import Base.Num Base.Res Base.RSum Base.SMap Base.Str Base.ListLemmas
  Model.Shell Model.Element Spec.ShellSpec Spec.ElementSpec Proofs.ElementProofs Proofs.MathProofs Proofs.LayerProofs.
Import ListNotations.
Local Existing Instance RNum.
Local Open Scope R_scope.
Local Open Scope string_scope.

(** ** lower_bound and indices, for every Num *)
Section Gen.
Context {N : Num}.
Lemma lower_bound_le (v : list num) x : (lower_bound v x <= length v)%nat.
Proof. induction v as [|y v IH]; cbn; [lia|]. destruct (nltb y x); lia. Qed.
Lemma lower_bound_before (v : list num) x i y : (i < lower_bound v x)%nat -> nth_error v i = Some y -> nltb y x = true.
Proof.
  revert i; induction v as [|z v IH]; intros i; cbn; [lia|]. destruct (nltb z x) eqn:E; [|lia].
  destruct i as [|i]; cbn; intros Hi H; [congruence|]. apply IH with i; [lia|assumption].
Qed.
Lemma lower_bound_at (v : list num) x y : nth_error v (lower_bound v x) = Some y -> nltb y x = false.
Proof.
  induction v as [|z v IH]; cbn; [discriminate|]. destruct (nltb z x) eqn:E; cbn; [assumption|congruence].
Qed.
End Gen.

Definition ascending (l : list R) : Prop := StronglySorted Rle l.
Lemma strictly_ascending l : strictly_increasing l -> ascending l.
Proof. induction 1; constructor; [assumption|]. eapply Forall_impl; [|eassumption]. cbn; intros; lra. Qed.
Lemma sorted_nth (P : R -> R -> Prop) l i j a b : StronglySorted P l -> (i < j)%nat -> nth_error l i = Some a -> nth_error l j = Some b -> P a b.
Proof.
  intros H; revert i j; induction H as [|x l Hs IH Hf]; intros i j Hij Ha Hb; [destruct i; discriminate|].
  destruct j as [|j]; [lia|]. destruct i as [|i]; cbn in Ha, Hb.
  - injection Ha as <-. rewrite Forall_forall in Hf. apply Hf. eapply nth_error_In, Hb.
  - apply (IH i j); [lia|assumption|assumption].
Qed.

Lemma indices_spec (v : list R) (x : R) i1 i2 : ascending v -> getInterpolationIndices v x = (i1, i2) -> (2 <= length v)%nat ->
  exists i a b, i1 = Z.of_nat i /\ i2 = Z.of_nat (S i) /\ nth_error v i = Some a /\ nth_error v (S i) = Some b /\
    (i = 0%nat \/ a < x) /\ (S (S i) = length v \/ x <= b).
Proof.
  intros Hs H Hn. unfold getInterpolationIndices in H. rnorm_in H. set (k := lower_bound v x) in *.
  assert (Hk : (k <= length v)%nat) by apply (lower_bound_le v x).
  assert (G : forall i, (i < length v)%nat -> exists a, nth_error v i = Some a).
  { intros i Hi. destruct (nth_error v i) eqn:E; [eexists; reflexivity|]. apply nth_error_None in E. lia. }
  assert (B : forall i a, (i < k)%nat -> nth_error v i = Some a -> a < x).
  { intros i a Hi Ha. apply Rltb_true. exact (lower_bound_before v x i a Hi Ha). }
  assert (A : forall a, nth_error v k = Some a -> x <= a).
  { intros a Ha. apply Rnot_lt_le, Rltb_false. exact (lower_bound_at v x a Ha). }
  clearbody k.
  destruct (Nat.eqb_spec k (length v)) as [E|E].
  - injection H as <- <-. destruct (G (length v - 2)%nat) as [a Ha]; [lia|].
    destruct (G (S (length v - 2))) as [b Hb]; [lia|].
    exists (length v - 2)%nat, a, b. split; [lia|]. split; [lia|]. split; [assumption|]. split; [assumption|].
    split; [|left; lia]. right. apply (B (length v - 2)%nat); [lia|assumption].
  - destruct (Nat.ltb_spec 0 k) as [E'|E'].
    + injection H as <- <-. destruct (G (k - 1)%nat) as [a Ha]; [lia|]. destruct (G (S (k - 1))) as [b Hb]; [lia|].
      exists (k - 1)%nat, a, b. split; [lia|]. split; [lia|]. split; [assumption|]. split; [assumption|].
      split; right; [apply (B (k - 1)%nat); [lia|assumption]|]. apply A. replace k with (S (k - 1)) by lia. exact Hb.
    + injection H as <- <-. destruct (G 0%nat) as [a Ha]; [lia|]. destruct (G 1%nat) as [b Hb]; [lia|].
      assert (k = 0)%nat by lia. subst k. exists 0%nat, a, b. split; [lia|]. split; [lia|]. split; [assumption|].
      split; [assumption|]. split; [left; reflexivity|]. right. specialize (A a Ha).
      assert (a <= b) by (eapply (sorted_nth Rle); [exact Hs|apply Nat.lt_0_1|exact Ha|exact Hb]). lra.
Qed.

(** a vector with fewer than two points: every access is out of range *)
Lemma indices_short {N : Num} (v : list num) x : (length v <= 1)%nat ->
  bracket v x = UB.
Proof.
  intros H. unfold bracket, getInterpolationIndices. destruct v as [|y [|z v]]; cbn in H; [| |lia].
  - reflexivity.
  - cbn. destruct (nltb y x); reflexivity.
Qed.

(** ** The two-point formula *)
Lemma ln_quot a b : 0 < a -> 0 < b -> ln (a / b) = ln a - ln b.
Proof. intros Ha Hb. unfold Rdiv. rewrite ln_mult, ln_Rinv; try assumption; [lra|]. apply Rinv_0_lt_compat; assumption. Qed.
Lemma ln_quot_pos x0 x1 : 0 < x0 -> x0 < x1 -> 0 < ln x1 - ln x0.
Proof. intros H0 H1. assert (ln x0 < ln x1) by (apply ln_increasing; assumption). lra. Qed.

Lemma loglog_exp E x0 x1 y0 y1 : 0 < x0 -> x0 < x1 -> 0 < E ->
  loglog E x0 x1 y0 y1 = exp (ln y0 + (ln y1 - ln y0) * ((ln E - ln x0) / (ln x1 - ln x0))).
Proof.
  intros H0 H1 HE. unfold loglog, coefA, coefB. cbn -[ln exp]. f_equal.
  rewrite !ln_quot by lra. pose proof (ln_quot_pos _ _ H0 H1). field. lra.
Qed.
Lemma loglog_power_law E x0 x1 y0 y1 : 0 < x0 -> x0 < x1 -> 0 < E -> 0 < y0 -> 0 < y1 ->
  loglog E x0 x1 y0 y1 = power_law x0 x1 y0 y1 E.
Proof.
  intros H0 H1 HE Hy0 Hy1. rewrite loglog_exp by assumption. unfold power_law.
  rewrite exp_plus, exp_ln by assumption. rewrite !ln_quot by lra. reflexivity.
Qed.
Lemma loglog_left x0 x1 y0 y1 : 0 < x0 -> x0 < x1 -> 0 < y0 -> loglog x0 x0 x1 y0 y1 = y0.
Proof.
  intros H0 H1 Hy. rewrite loglog_exp by lra. pose proof (ln_quot_pos _ _ H0 H1).
  replace (_ + _) with (ln y0) by (field; lra). apply exp_ln, Hy.
Qed.
Lemma loglog_right x0 x1 y0 y1 : 0 < x0 -> x0 < x1 -> 0 < y1 -> loglog x1 x0 x1 y0 y1 = y1.
Proof.
  intros H0 H1 Hy. rewrite loglog_exp by lra. pose proof (ln_quot_pos _ _ H0 H1).
  replace (_ + _) with (ln y1) by (field; lra). apply exp_ln, Hy.
Qed.
Lemma exp_le a b : a <= b -> exp a <= exp b.
Proof. intros [H|H]; [left; apply exp_increasing, H|right; congruence]. Qed.
Lemma ln_le a b : 0 < a -> a <= b -> ln a <= ln b.
Proof. intros Ha [H|H]; [left; apply ln_increasing; assumption|right; congruence]. Qed.
Lemma loglog_between E x0 x1 y0 y1 : 0 < x0 -> x0 < x1 -> x0 <= E <= x1 -> 0 < y0 -> 0 < y1 ->
  Rmin y0 y1 <= loglog E x0 x1 y0 y1 <= Rmax y0 y1.
Proof.
  intros H0 H1 HE Hy0 Hy1. rewrite loglog_exp by lra. pose proof (ln_quot_pos _ _ H0 H1) as HL.
  set (t := (ln E - ln x0) / (ln x1 - ln x0)).
  assert (Ht : 0 <= t <= 1).
  { unfold t. assert (ln x0 <= ln E) by (apply ln_le; lra). assert (ln E <= ln x1) by (apply ln_le; lra). split.
    - apply Rmult_le_pos; [lra|]. left. apply Rinv_0_lt_compat. lra.
    - apply Rmult_le_reg_r with (ln x1 - ln x0); [assumption|]. unfold Rdiv. rewrite Rmult_assoc, Rinv_l by lra. lra. }
  assert (L0 : ln (Rmin y0 y1) <= ln y0) by (apply ln_le; [apply Rmin_case; assumption|apply Rmin_l]).
  assert (L1 : ln (Rmin y0 y1) <= ln y1) by (apply ln_le; [apply Rmin_case; assumption|apply Rmin_r]).
  assert (U0 : ln y0 <= ln (Rmax y0 y1)) by (apply ln_le; [assumption|apply Rmax_l]).
  assert (U1 : ln y1 <= ln (Rmax y0 y1)) by (apply ln_le; [assumption|apply Rmax_r]).
  assert (P0 : 0 < Rmin y0 y1) by (apply Rmin_case; assumption).
  assert (P1 : 0 < Rmax y0 y1) by (pose proof (Rmax_l y0 y1); lra).
  split.
  - rewrite <- (exp_ln _ P0). apply exp_le. nra.
  - rewrite <- (exp_ln _ P1). apply exp_le. nra.
Qed.

(** ** Grids *)
(** spacing of the points *)
Lemma spaced_ascending l : spaced l -> strictly_increasing l.
Proof.
  induction l as [|x l IH]; intros H; [constructor|].
  assert (Hl : strictly_increasing l). { apply IH. intros i a b Ha Hb. exact (H (S i) a b Ha Hb). }
  constructor; [assumption|]. destruct l as [|y l]; [constructor|].
  assert (x < y) by (specialize (H 0%nat x y eq_refl eq_refl); lra).
  constructor; [assumption|]. inversion Hl; subst. eapply Forall_impl; [|eassumption]. cbn; intros; lra.
Qed.

Lemma lit_gap : nlit 5 (-10) = 5 / 10000000000.
Proof. change (Rlit 5 (-10) = 5 / 10000000000). unfold Rlit. simpl. lra. Qed.

Lemma zget_nat {A} (v : list A) i : zget v (Z.of_nat i) = vget v i.
Proof. unfold zget. destruct (Z.ltb_spec (Z.of_nat i) 0); [lia|]. rewrite Nat2Z.id. reflexivity. Qed.

(** on a spaced grid the bracket is the one of the indices *)
Lemma bracket_spaced (v : list R) (E : R) : spaced v -> (2 <= length v)%nat ->
  exists i a b, bracket v E = Ok (Z.of_nat i, Z.of_nat (S i), a, b) /\ nth_error v i = Some a /\ nth_error v (S i) = Some b /\
    (i = 0%nat \/ a < E) /\ (S (S i) = length v \/ E <= b).
Proof.
  intros Hs Hn. destruct (getInterpolationIndices v E) as [i1 i2] eqn:HI.
  assert (Ha : ascending v) by (apply strictly_ascending, spaced_ascending, Hs).
  destruct (indices_spec v E i1 i2 Ha HI Hn) as (i & a & b & -> & -> & H1 & H2 & H3 & H4).
  exists i, a, b. split; [|auto]. unfold bracket. rewrite HI. rewrite !zget_nat. unfold vget. rnorm.
  rewrite H1, H2. cbn [of_opt rbind].
  assert (next_equal v (Z.of_nat (S i)) b = false) as ->.
  { unfold next_equal. replace (Z.of_nat (S i) + 1)%Z with (Z.of_nat (S (S i))) by lia. rewrite zget_nat. unfold vget. rnorm.
    destruct (nth_error v (S (S i))) as [c|] eqn:Hc; cbn [of_opt]; [|reflexivity].
    apply Reqb_false. specialize (Hs _ _ _ H2 Hc). lra. }
  rewrite andb_false_r. reflexivity.
Qed.

Lemma all_pos_nth (y : list R) i v : Forall (fun x => 0 < x) y -> nth_error y i = Some v -> 0 < v.
Proof. intros H Hv. rewrite Forall_forall in H. apply H. eapply nth_error_In, Hv. Qed.

Lemma otherValue_spaced (b : bool) (g y : list R) (E : R) : spaced g -> (2 <= length g)%nat -> length y = length g ->
  Forall (fun x => 0 < x) y ->
  exists i x0 x1 y0 y1, nth_error g i = Some x0 /\ nth_error g (S i) = Some x1 /\ nth_error y i = Some y0 /\ nth_error y (S i) = Some y1 /\
    (i = 0%nat \/ x0 < E) /\ (S (S i) = length g \/ E <= x1) /\
    otherValue b g y E = Ok (loglog E x0 x1 y0 y1) /\ partialShell g y E = Ok (loglog E x0 x1 y0 y1).
Proof.
  intros Hs Hn Hl Hy. destruct (bracket_spaced g E Hs Hn) as (i & x0 & x1 & HB & H0 & H1 & H2 & H3).
  assert (G : forall j, (j < length y)%nat -> exists a, nth_error y j = Some a).
  { intros j Hj. destruct (nth_error y j) eqn:F; [eexists; reflexivity|]. apply nth_error_None in F. lia. }
  assert (S i < length g)%nat by (apply nth_error_Some; rewrite H1; discriminate).
  destruct (G i) as [y0 Y0]; [lia|]. destruct (G (S i)) as [y1 Y1]; [lia|].
  exists i, x0, x1, y0, y1. do 6 (split; [assumption|]).
  unfold otherValue, partialShell. rewrite HB. cbn [rbind].
  assert (F : (Z.of_nat i =? Z.of_nat (S i))%Z || nltb (x1 - x0) (nlit 5 (-10)) = false).
  { rewrite lit_gap. apply orb_false_intro; [apply Z.eqb_neq; lia|]. apply Rltb_false. pose proof (Hs _ _ _ H0 H1). lra. }
  rnorm. rnorm_in F. rewrite F. rewrite !zget_nat. unfold vget. rnorm. rewrite Y0, Y1. cbn [of_opt rbind].
  assert (P0 : Rltb 0 y0 = true) by (apply Rltb_true; eapply all_pos_nth; eassumption).
  assert (P1 : Rltb 0 y1 = true) by (apply Rltb_true; eapply all_pos_nth; eassumption).
  rewrite P0, P1. split; reflexivity.
Qed.

Lemma spaced_nth_inj g i j a : spaced g -> nth_error g i = Some a -> nth_error g j = Some a -> i = j.
Proof.
  intros Hs Hi Hj. apply spaced_ascending in Hs. destruct (Nat.lt_trichotomy i j) as [H|[H|H]]; [|assumption|];
    exfalso.
  - assert (a < a) by (eapply (sorted_nth Rlt); eassumption). lra.
  - assert (a < a) by (eapply (sorted_nth Rlt); eassumption). lra.
Qed.

(** exact on the grid *)
Lemma grid_exact (b : bool) (g y : list R) i (E : R) v : spaced g -> (2 <= length g)%nat -> length y = length g ->
  Forall (fun x => 0 < x) g -> Forall (fun x => 0 < x) y -> nth_error g i = Some E -> nth_error y i = Some v ->
  otherValue b g y E = Ok v /\ partialShell g y E = Ok v.
Proof.
  intros Hs Hn Hl Hg Hy HE Hv.
  destruct (otherValue_spaced b g y E Hs Hn Hl Hy) as (j & x0 & x1 & y0 & y1 & H0 & H1 & H2 & H3 & H4 & H5 & -> & ->).
  assert (P0 : 0 < x0) by (eapply (all_pos_nth g); eassumption).
  assert (L : x0 < x1) by (pose proof (Hs _ _ _ H0 H1); lra).
  pose proof (spaced_ascending _ Hs) as Hi.
  assert (i = j \/ i = S j) as [->| ->].
  { destruct (Nat.lt_trichotomy i j) as [H|[H|H]]; [|left; assumption|].
    - exfalso. assert (E < x0) by (eapply (sorted_nth Rlt); eassumption). destruct H4 as [->|H4]; [lia|lra].
    - destruct (Nat.eq_dec i (S j)) as [->|Hne]; [right; reflexivity|]. exfalso.
      assert (i < length g)%nat by (apply nth_error_Some; rewrite HE; discriminate).
      assert (x1 < E) by (eapply (sorted_nth Rlt); [exact Hi| |exact H1|exact HE]; lia).
      destruct H5 as [H5|H5]; [lia|lra]. }
  - assert (E = x0) by congruence. assert (v = y0) by congruence. subst.
    rewrite loglog_left by (try assumption; eapply (all_pos_nth y); eassumption). split; reflexivity.
  - assert (E = x1) by congruence. assert (v = y1) by congruence. subst.
    rewrite loglog_right by (try assumption; eapply (all_pos_nth y); eassumption). split; reflexivity.
Qed.

(** between the neighbours inside the grid *)
Lemma grid_between (b : bool) (g y : list R) i (E : R) x0 x1 y0 y1 : spaced g -> length y = length g ->
  Forall (fun x => 0 < x) g -> Forall (fun x => 0 < x) y ->
  nth_error g i = Some x0 -> nth_error g (S i) = Some x1 -> nth_error y i = Some y0 -> nth_error y (S i) = Some y1 ->
  x0 < E <= x1 ->
  otherValue b g y E = Ok (power_law x0 x1 y0 y1 E) /\ partialShell g y E = Ok (power_law x0 x1 y0 y1 E) /\
  Rmin y0 y1 <= power_law x0 x1 y0 y1 E <= Rmax y0 y1.
Proof.
  intros Hs Hl Hg Hy G0 G1 Y0 Y1 HE.
  assert (Hn : (2 <= length g)%nat). { assert (S i < length g)%nat by (apply nth_error_Some; rewrite G1; discriminate). lia. }
  assert (P0 : 0 < x0) by (eapply (all_pos_nth g); eassumption).
  assert (Q0 : 0 < y0) by (eapply (all_pos_nth y); eassumption).
  assert (Q1 : 0 < y1) by (eapply (all_pos_nth y); eassumption).
  rewrite <- loglog_power_law by lra.
  destruct (otherValue_spaced b g y E Hs Hn Hl Hy) as (j & a0 & a1 & b0 & b1 & H0 & H1 & H2 & H3 & H4 & H5 & -> & ->).
  pose proof (spaced_ascending _ Hs) as Hi.
  assert (j = i) as ->.
  { destruct (Nat.lt_trichotomy i j) as [H|[H|H]]; [|symmetry; assumption|]; exfalso.
    - destruct (Nat.eq_dec j (S i)) as [->|Hne].
      + assert (x1 = a0) by congruence. destruct H4 as [H4|H4]; [lia|lra].
      + assert (x1 < a0) by (eapply (sorted_nth Rlt); [exact Hi| |exact G1|exact H0]; lia). destruct H4 as [H4|H4]; [lia|lra].
    - assert (S i < length g)%nat by (apply nth_error_Some; rewrite G1; discriminate).
      destruct H5 as [H5|H5]; [lia|].
      destruct (Nat.eq_dec i (S j)) as [->|Hne].
      + assert (x0 = a1) by congruence. lra.
      + assert (a1 < x0) by (eapply (sorted_nth Rlt); [exact Hi| |exact H1|exact G0]; lia). lra. }
  assert (a0 = x0) by congruence. assert (a1 = x1) by congruence. assert (b0 = y0) by congruence. assert (b1 = y1) by congruence. subst.
  split; [reflexivity|]. split; [reflexivity|]. apply loglog_between; lra.
Qed.

(** outside the grid: the power law of the first / last two points is continued *)
Lemma grid_outside (b : bool) (g y : list R) (E : R) : spaced g -> (2 <= length g)%nat -> length y = length g ->
  Forall (fun x => 0 < x) g -> Forall (fun x => 0 < x) y -> 0 < E ->
  (forall x0 x1 y0 y1, nth_error g 0 = Some x0 -> nth_error g 1 = Some x1 -> nth_error y 0 = Some y0 -> nth_error y 1 = Some y1 ->
    E <= x0 -> otherValue b g y E = Ok (power_law x0 x1 y0 y1 E) /\ partialShell g y E = Ok (power_law x0 x1 y0 y1 E)) /\
  (forall x0 x1 y0 y1 n, length g = S (S n) -> nth_error g n = Some x0 -> nth_error g (S n) = Some x1 ->
    nth_error y n = Some y0 -> nth_error y (S n) = Some y1 ->
    x1 < E -> otherValue b g y E = Ok (power_law x0 x1 y0 y1 E) /\ partialShell g y E = Ok (power_law x0 x1 y0 y1 E)).
Proof.
  intros Hs Hn Hl Hg Hy HE. pose proof (spaced_ascending _ Hs) as Hi.
  destruct (otherValue_spaced b g y E Hs Hn Hl Hy) as (j & a0 & a1 & b0 & b1 & H0 & H1 & H2 & H3 & H4 & H5 & -> & ->).
  split.
  - intros x0 x1 y0 y1 G0 G1 Y0 Y1 HE'.
    assert (j = 0%nat) as ->.
    { destruct j as [|j]; [reflexivity|]. exfalso. destruct H4 as [H4|H4]; [lia|].
      assert (x0 < a0) by (eapply (sorted_nth Rlt); [exact Hi| |exact G0|exact H0]; lia). lra. }
    assert (a0 = x0) by congruence. assert (a1 = x1) by congruence. assert (b0 = y0) by congruence. assert (b1 = y1) by congruence. subst.
    rewrite loglog_power_law; try (split; reflexivity); try assumption; try (eapply (all_pos_nth g); eassumption); try (eapply (all_pos_nth y); eassumption).
    pose proof (Hs _ _ _ G0 G1); lra.
  - intros x0 x1 y0 y1 n Hln G0 G1 Y0 Y1 HE'.
    assert (j = n) as ->.
    { destruct H5 as [H5|H5]; [lia|]. exfalso.
      assert (S j < length g)%nat by (apply nth_error_Some; rewrite H1; discriminate).
      destruct (Nat.eq_dec (S j) (S n)) as [Heq|Hne].
      - rewrite Heq in H1. assert (a1 = x1) by congruence. lra.
      - assert (a1 < x1) by (eapply (sorted_nth Rlt); [exact Hi| |exact H1|exact G1]; lia). lra. }
    assert (a0 = x0) by congruence. assert (a1 = x1) by congruence. assert (b0 = y0) by congruence. assert (b1 = y1) by congruence. subst.
    rewrite loglog_power_law; try (split; reflexivity); try assumption; try (eapply (all_pos_nth g); eassumption); try (eapply (all_pos_nth y); eassumption).
    pose proof (Hs _ _ _ G0 G1); lra.
Qed.
