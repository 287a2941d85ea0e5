(** Interpolation at a point of a grid that is only nearly ascending before it. *)
From Coq Require Import String List ZArith Reals Bool Arith Lia Lra Sorted.
From Verif Require Import Base.Num Base.Res Base.SMap Model.Element Spec.ElementSpec Proofs.MathProofs Proofs.ElementProofs Proofs.ElementProofs2 Proofs.ElementProofs3 Proofs.ElementProofs4 Proofs.ElementProofs8.
Import ListNotations.
Set Implicit Arguments.
Local Open Scope R_scope.
Local Existing Instance RNum.
Ltac toR := change (@num RNum) with R in *.

Lemma lower_bound_at (x : R) : forall (v : list R) n, (forall m a, (m < n)%nat -> nth_error v m = Some a -> a < x) -> nth_error v n = Some x -> lower_bound v x = n.
Proof.
  induction v as [|a v IH]; intros [|n] H E; try discriminate; cbn [lower_bound nth_error] in *.
  - injection E as ->. change (nltb x x) with (Rltb x x). destruct (Rltb_spec x x); [lra|reflexivity].
  - change (nltb a x) with (Rltb a x). destruct (Rltb_spec a x) as [L|L].
    + f_equal. apply IH; [|exact E]. intros m b Hm Hb. apply (H (S m) b); [lia|exact Hb].
    + exfalso. apply L, (H 0%nat a); [lia|reflexivity].
Qed.
Lemma bracket_at (v : list R) i (x0 x : R) : nth_error v i = Some x0 -> nth_error v (S i) = Some x ->
  (forall m a, (m <= i)%nat -> nth_error v m = Some a -> a < x) -> (forall c, nth_error v (S (S i)) = Some c -> x < c) ->
  bracket v x = Ok (Z.of_nat i, Z.of_nat (S i), x0, x).
Proof.
  intros H0 H1 HL HR. assert (LB : lower_bound v x = S i) by (apply lower_bound_at; [intros m a Hm; apply HL; lia|exact H1]).
  assert (LN : (S i < length v)%nat) by (apply nth_error_Some; toR; congruence).
  unfold bracket, getInterpolationIndices. toR. rewrite LB. destruct (Nat.eqb_spec (S i) (length v)); [lia|]. cbn [Nat.ltb Nat.leb].
  replace (Z.of_nat (S i) - 1)%Z with (Z.of_nat i) by lia. rewrite !zget_nat. unfold vget. toR. rewrite H0, H1. cbn [of_opt rbind].
  assert (next_equal v (Z.of_nat (S i)) x = false) as ->.
  { unfold next_equal. replace (Z.of_nat (S i) + 1)%Z with (Z.of_nat (S (S i))) by lia. rewrite zget_nat. unfold vget. toR.
    destruct (nth_error v (S (S i))) as [c|] eqn:C; cbn [of_opt]; [|reflexivity]. apply Reqb_false. specialize (HR c eq_refl). lra. }
  rewrite andb_false_r. reflexivity.
Qed.
Lemma coefB_right (x0 x : R) : 0 < x0 -> x0 < x -> coefB x x0 x = 1.
Proof.
  intros H0 H1. unfold coefB. rnorm. assert (0 < ln (x / x0)).
  { rewrite <- ln_1. apply ln_increasing; [lra|]. apply Rmult_lt_reg_r with x0; [lra|]. unfold Rdiv. rewrite Rmult_assoc, Rinv_l by lra. lra. }
  field. lra.
Qed.
Section At.
Variables (v y : list R) (i : nat) (x0 x y0 y1 : R).
Hypothesis B : bracket v x = Ok (Z.of_nat i, Z.of_nat (S i), x0, x).
Hypothesis P : 0 < x0.
Hypothesis Y0 : nth_error y i = Some y0.
Hypothesis Y1 : nth_error y (S i) = Some y1.
Lemma other_at b : x0 + 1 / 100000 < x -> 0 <= y1 -> otherValue b v y x = Ok y1.
Proof.
  intros G NN. unfold otherValue. rewrite B. cbn [rbind]. destruct (Z.eqb_spec (Z.of_nat i) (Z.of_nat (S i))); [lia|]. cbn [orb].
  change (nltb (nsub x x0) (nlit 5 (-10))) with (Rltb (x - x0) (Rlit 5 (-10))). destruct (Rltb_spec (x - x0) (Rlit 5 (-10))) as [L|_]; [unfold Rlit in L; simpl in L; lra|].
  rewrite !zget_nat. unfold vget. toR. rewrite Y0, Y1. cbn [of_opt rbind]. change (nltb (nlit 1 (-5)) (nsub x x0)) with (Rltb (Rlit 1 (-5)) (x - x0)). change (nltb n0 y0) with (Rltb 0 y0). change (nltb n0 y1) with (Rltb 0 y1).
  destruct (Rltb_spec 0 y1) as [L1|L1].
  - destruct (Rltb_spec 0 y0) as [L0|L0]; cbn [andb]; [f_equal; apply loglog_right; lra|].
    destruct (Rltb_spec (Rlit 1 (-5)) (x - x0)) as [_|L]; [|exfalso; apply L; unfold Rlit; simpl; lra]. rewrite coefB_right by lra. rnorm. f_equal. rewrite Rmult_1_l. apply exp_ln, L1.
  - rewrite andb_false_r. cbn [andb]. f_equal. rnorm. lra.
Qed.
Lemma shell_at c y2 : nth_error v (S i) = Some x -> nth_error v (S (S i)) = Some c -> nth_error y (S (S i)) = Some y2 -> x0 + 1 / 1000000 < x -> x + 1 / 100000 < c -> 0 < y1 ->
  partialShell v y x = Ok y1.
Proof.
  intros X1 X2 Y2 G G2 PY. unfold partialShell. rewrite B. cbn [rbind]. destruct (Z.eqb_spec (Z.of_nat i) (Z.of_nat (S i))); [lia|]. cbn [orb].
  change (nltb (nsub x x0) (nlit 5 (-10))) with (Rltb (x - x0) (Rlit 5 (-10))). destruct (Rltb_spec (x - x0) (Rlit 5 (-10))) as [L|_]; [unfold Rlit in L; simpl in L; lra|].
  rewrite !zget_nat. unfold vget. toR. rewrite Y0, Y1. cbn [of_opt rbind]. change (nltb n0 y0) with (Rltb 0 y0). destruct (Rltb_spec 0 y0) as [L0|L0]; [f_equal; apply loglog_right; lra|].
  rewrite Nat2Z.id.
  assert (FP : first_positive_from y i = Ok (S i)).
  { clear -Y0 Y1 L0 PY. revert i Y0 Y1. induction y as [|a l IH]; intros [|i] A C; try discriminate; cbn [first_positive_from nth_error] in *.
    - injection A as ->. change (nleb y0 n0) with (Rleb y0 0). destruct (Rleb_spec y0 0) as [_|]; [|lra]. destruct l as [|b l]; [discriminate|]. injection C as ->.
      cbn [first_positive_from]. change (nleb y1 n0) with (Rleb y1 0). destruct (Rleb_spec y1 0); [lra|]. reflexivity.
    - rewrite (IH i A C). reflexivity. }
  rewrite FP. cbn [rbind]. rewrite X1, X2. cbn [of_opt rbind]. change (nltb (nsub c x) (nlit 1 (-10))) with (Rltb (c - x) (Rlit 1 (-10))).
  destruct (Rltb_spec (c - x) (Rlit 1 (-10))) as [L|_]; [unfold Rlit in L; simpl in L; lra|]. rewrite X1, X2. cbn [of_opt rbind]. rewrite Y1, Y2. cbn [of_opt rbind]. f_equal. rnorm.
  replace (x / x) with 1 by (field; lra). rewrite ln_1, Rmult_0_r, Rplus_0_r. apply exp_ln, PY.
Qed.
End At.

(** ** The stored table of a shell *)
Lemma edgeFix_keep (b : R) l : forall pe pv : R, StronglySorted Rlt (pe :: map fst l) -> Forall (fun x => fst x < b -> snd x = 0) l -> edgeFix b pe pv l = (pe, pv) :: l.
Proof.
  induction l as [|[e v] l IH]; intros pe pv Hs Hb; [reflexivity|]. cbn [map fst] in Hs. inversion Hs as [|? ? Hs' Hf]; subst.
  inversion Hb as [|? ? H1 H2]; subst. inversion Hf as [|? ? F1 F2]; subst. cbn [fst snd] in H1. cbn [edgeFix].
  change (nltb e b) with (Rltb e b). change (neqb e pe) with (Reqb e pe).
  destruct (Rltb_spec e b) as [L|L]; [|destruct (Reqb_spec e pe); [lra|]; f_equal; apply IH; assumption].
  change (@n0 RNum) with 0. rewrite (H1 L). f_equal. apply IH; assumption.
Qed.
Lemma edgeFix_suffix (b M : R) f vf (suf : list (R * R)) : M < f -> StronglySorted Rlt (f :: map fst suf) -> Forall (fun x => fst x < b -> snd x = 0) ((f, vf) :: suf) ->
  forall pre pe pv, pe < M -> Forall (fun x => 0 < fst x /\ fst x + 1 / 1000000 < M) pre -> 0 < pe ->
  exists pre', edgeFix b pe pv (pre ++ (f, vf) :: suf) = (pre' ++ (f, vf) :: suf)%list /\ length pre' = S (length pre) /\ Forall (fun x => 0 < fst x < M) pre'.
Proof.
  intros HM HS HZ. induction pre as [|[e v] pre IH]; intros pe pv HP HF H0.
  - exists [(pe, pv)]. split; [|split; [reflexivity|constructor; [cbn; lra|constructor]]]. change ([] ++ (f, vf) :: suf)%list with ((f, vf) :: suf). cbn [app].
    apply edgeFix_keep; [|exact HZ]. cbn [map fst]. constructor; [exact HS|]. inversion HS; subst. constructor; [lra|]. eapply Forall_impl; [|eassumption]. intros; cbn in *; lra.
  - inversion HF as [|? ? H1 H2]; subst. cbn [fst] in H1. cbn [app edgeFix]. change (nltb e b) with (Rltb e b). change (neqb e pe) with (Reqb e pe).
    destruct (Rltb_spec e b) as [L|L]; [|destruct (Reqb_spec e pe) as [->|]].
    + destruct (IH e 0 ltac:(lra) H2 ltac:(lra)) as (p & A & C & D). exists ((pe, pv) :: p). change (@n0 RNum) with 0. toR. rewrite A. split; [reflexivity|]. split; [cbn; lia|]. constructor; [cbn; lra|exact D].
    + assert (X : nadd pe (nlit 1 (-6)) = pe + 1 / 1000000) by (change (nadd pe (nlit 1 (-6))) with (pe + Rlit 1 (-6)); unfold Rlit; simpl; lra). toR. rewrite X.
      destruct (IH (pe + 1 / 1000000) v ltac:(lra) H2 ltac:(lra)) as (p & A & C & D). exists ((pe, v) :: p). toR. rewrite A. split; [reflexivity|]. split; [cbn; lia|]. constructor; [cbn; lra|exact D].
    + destruct (IH e v ltac:(lra) H2 ltac:(lra)) as (p & A & C & D). exists ((pe, pv) :: p). toR. rewrite A. split; [reflexivity|]. split; [cbn; lia|]. constructor; [cbn; lra|exact D].
Qed.
