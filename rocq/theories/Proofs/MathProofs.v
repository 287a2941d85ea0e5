From Coq Require Import List Bool Arith ZArith Reals Lra Lia Psatz.
From Verif Require Import Base.Num Base.Res Base.ListLemmas Model.Math.
Import ListNotations.
Local Existing Instance RNum.
Local Open Scope R_scope.

Lemma nofZ_R (z : Z) : @nofZ RNum z = IZR z.
Proof. unfold nofZ. cbn. unfold Rlit. cbn. lra. Qed.
Lemma lit0_R (z : Z) : Rlit z 0 = IZR z.
Proof. unfold Rlit. cbn. lra. Qed.
Lemma nabs_R (x : R) : @nabs RNum x = Rabs x.
Proof.
  unfold nabs. cbn. rcases; [rewrite Rabs_left|rewrite Rabs_pos_eq]; lra.
Qed.
Lemma Rlit_neg (m : Z) (p : positive) : Rlit m (Zneg p) = IZR m / 10 ^ (Pos.to_nat p).
Proof. reflexivity. Qed.
Lemma Rlit8 m : Rlit m (-8) = IZR m / 100000000.
Proof. rewrite Rlit_neg. f_equal. simpl. lra. Qed.

(** ** E1, En *)
Lemma E1_zero : E1 0 = Throw InvalidArgument.
Proof. unfold E1. cbn. destruct (Reqb_spec 0 0); [reflexivity|lra]. Qed.

Lemma E1_one : E1 1 = Throw RuntimeError.
Proof.
  unfold E1, deBoerD_default, deBoerD_cf. cbn -[lentz].
  destruct (Reqb_spec 1 0); [lra|]. destruct (Rltb_spec 1 0); [lra|]. destruct (Rltb_spec 1 1); [lra|].
  destruct (Rleb_spec 1 1); [reflexivity|lra].
Qed.

Lemma deBoerD_cf_ok (x eps : R) n : 1 < x -> exists r : R, deBoerD_cf x eps n = Ok r.
Proof.
  intros H. unfold deBoerD_cf. cbn -[lentz]. destruct (Rleb_spec x 1); [lra|].
  match goal with |- context [match ?l with _ => _ end] => destruct l end; eexists; reflexivity.
Qed.

Lemma E1_ok_iff (x : R) : (exists r : R, E1 x = Ok r) <-> x <> 0 /\ x <> 1.
Proof.
  split.
  - intros [r Hr]. split; intros ->; [rewrite E1_zero in Hr|rewrite E1_one in Hr]; discriminate.
  - intros [H0 H1]. unfold E1. cbn -[deBoerD_default E1_series AS_5_1_53].
    destruct (Reqb_spec x 0); [contradiction|]. destruct (Rltb_spec x 0); [eexists; reflexivity|].
    destruct (Rltb_spec x 1).
    + unfold AS_5_1_53. cbn -[fold_left]. destruct (Rltb_spec 1 x); [lra|]. eexists; reflexivity.
    + destruct (deBoerD_cf_ok x (Rlit 1 (-7)) 100) as [s Hs]; [lra|].
      unfold deBoerD_default. cbn -[deBoerD_cf]. rewrite Hs. eexists; reflexivity.
Qed.

Lemma E1_outcome (x : R) : (exists r : R, E1 x = Ok r) \/ (exists e, E1 x = Throw e).
Proof.
  destruct (Req_dec x 0) as [->|H0]; [right; rewrite E1_zero; eexists; reflexivity|].
  destruct (Req_dec x 1) as [->|H1]; [right; rewrite E1_one; eexists; reflexivity|].
  left. apply E1_ok_iff. tauto.
Qed.

Lemma En_order (n : Z) (x : R) : (n < 1)%Z -> En n x = Throw RuntimeError.
Proof. intros H. unfold En. destruct (Z.ltb_spec n 1); [reflexivity|lia]. Qed.

Lemma En_1 (x : R) : En 1 x = E1 x.
Proof. reflexivity. Qed.

Lemma En_pos_S k (x : R) : (k > 0)%nat -> En_pos (S k) x =
  if Reqb x 0 then Ok (1 / IZR (Z.of_nat k))
  else rbind (En_pos k x) (fun r => Ok ((exp (- x) - x * r) / IZR (Z.of_nat k))).
Proof.
  intros H. destruct k as [|k]; [lia|]. cbn [En_pos]. rewrite !nofZ_R. reflexivity.
Qed.

Lemma En_zero (n : Z) : (1 < n)%Z -> En n 0 = Ok (1 / (IZR n - 1)).
Proof.
  intros H. unfold En. destruct (Z.ltb_spec n 1); [lia|].
  destruct (Z.to_nat n) as [|k] eqn:E; [lia|]. rewrite En_pos_S by lia.
  destruct (Reqb_spec 0 0); [|lra]. do 3 f_equal. replace (IZR n - 1) with (IZR (n - 1)) by apply minus_IZR. f_equal. lia.
Qed.

Lemma En_step (n : Z) (x : R) : (1 <= n)%Z -> x <> 0 ->
  En (n + 1) x = rbind (En n x) (fun r => Ok ((exp (- x) - x * r) / IZR n)).
Proof.
  intros H Hx. unfold En. destruct (Z.ltb_spec (n + 1) 1); [lia|]. destruct (Z.ltb_spec n 1); [lia|].
  replace (Z.to_nat (n + 1)) with (S (Z.to_nat n)) by lia. rewrite En_pos_S by lia.
  destruct (Reqb_spec x 0); [contradiction|]. rewrite Z2Nat.id by lia. reflexivity.
Qed.

Lemma En_recurrence (n : Z) (x r r' : R) : (1 <= n)%Z -> x <> 0 ->
  En n x = Ok r -> En (n + 1) x = Ok r' -> IZR n * r' = exp (- x) - x * r.
Proof.
  intros H Hx E F. rewrite En_step, E in F by assumption. cbn [rbind] in F. injection F as <-.
  assert (IZR n <> 0) by (apply IZR_neq; lia). field. assumption.
Qed.

Lemma En_ok_iff (n : Z) (x : R) :
  (exists r : R, En n x = Ok r) <-> (n = 1%Z /\ x <> 0 /\ x <> 1) \/ ((1 < n)%Z /\ x <> 1).
Proof.
  destruct (Z_lt_le_dec n 1) as [Hn|Hn].
  { rewrite En_order by assumption. split; [intros [r Hr]; discriminate|]. intros [[? _]|[? _]]; lia. }
  destruct (Z.eq_dec n 1) as [->|Hn1].
  { rewrite En_1, E1_ok_iff. split; [intros [? ?]; left; auto|intros [[_ ?]|[? _]]; [assumption|lia]]. }
  assert (Hg : (1 < n)%Z) by lia. clear Hn Hn1.
  destruct (Req_dec x 0) as [->|H0].
  { rewrite En_zero by assumption. split; [intros _; right; split; [assumption|lra]|intros _; eexists; reflexivity]. }
  assert (G : (exists r : R, En n x = Ok r) <-> x <> 1).
  { replace n with (Z.of_nat (Z.to_nat (n - 1)) + 1)%Z by lia.
    assert (Hm : (1 <= Z.to_nat (n - 1))%nat) by lia. revert Hm. generalize (Z.to_nat (n - 1)) as m. clear n Hg.
    induction m as [|m IH]; intros Hm; [lia|]. rewrite En_step by (auto; lia).
    destruct m as [|m].
    - change (Z.of_nat 1) with 1%Z. rewrite En_1. pose proof (E1_ok_iff x) as K.
      destruct (E1 x); cbn [rbind]; split; intros HH; try (destruct HH; discriminate);
        try (apply K; now eexists); try (eexists; reflexivity).
      all: exfalso; assert (KK : exists r : R, _) by (apply K; split; [exact H0|exact HH]); destruct KK; discriminate.
    - replace (Z.of_nat (S (S m))) with (Z.of_nat (S m) + 1)%Z by lia.
      assert (IH' := IH ltac:(lia)). clear IH.
      destruct (En (Z.of_nat (S m) + 1) x); cbn [rbind]; split; intros HH; try (destruct HH; discriminate);
        try (apply IH'; now eexists); try (eexists; reflexivity).
      all: exfalso; apply IH' in HH; destruct HH; discriminate. }
  rewrite G. split; [intros ?; right; auto|intros [[? _]|[_ ?]]; [lia|assumption]].
Qed.

Lemma En_one (n : Z) : (1 <= n)%Z -> exists e, En n 1 = Throw e.
Proof.
  intros H. replace n with (Z.of_nat (Z.to_nat (n - 1)) + 1)%Z by lia. generalize (Z.to_nat (n - 1)) as m.
  induction m as [|m [e IH]].
  - change (Z.of_nat 0 + 1)%Z with 1%Z. rewrite En_1, E1_one. eexists; reflexivity.
  - rewrite En_step by (try lra; lia). replace (Z.of_nat (S m)) with (Z.of_nat m + 1)%Z by lia. rewrite IH.
    eexists; reflexivity.
Qed.

(** ** Continued fraction: bounds *)
Lemma seq_step (x i s0 s1 : R) : 1 < x -> 1 <= i -> 0 <= s0 -> Rmax 1 (i - 1) * s1 <= s0 ->
  i * s0 <= (x + 2 * i + 1) * s0 - i * i * s1.
Proof.
  intros Hx Hi H0 H1. destruct (Rle_dec s1 0) as [Hs|Hs]; [nra|].
  unfold Rmax in H1. destruct (Rle_dec 1 (i - 1)); [|].
  - assert (K : (i - 1) * (i * i * s1) <= i * i * s0) by nra.
    assert (L0 : i * i <= (i - 1) * (x + i + 1)) by nra.
    assert (L : i * i * s0 <= (i - 1) * (x + i + 1) * s0) by (apply Rmult_le_compat_r; assumption).
    assert (M : (i - 1) * (i * i * s1) <= (i - 1) * ((x + i + 1) * s0)) by nra.
    assert (i * i * s1 <= (x + i + 1) * s0) by (apply Rmult_le_reg_l with (i - 1); lra). nra.
  - assert (K : i * i * s1 <= i * i * s0) by (apply Rmult_le_compat_l; nra).
    assert (L0 : i * i <= x + i + 1) by nra.
    assert (L : i * i * s0 <= (x + i + 1) * s0) by (apply Rmult_le_compat_r; assumption). nra.
Qed.

Definition cf_inv (x i b f C D : R) : Prop :=
  1 <= i /\ b = x + 2 * i - 1 /\
  exists A0 A1 B0 B1, f = A0 / B0 /\ C = A0 / A1 /\ D = B1 / B0 /\
    0 < B0 /\ 0 <= B1 /\ Rmax 1 (i - 1) * B1 <= B0 /\
    0 < A0 - x * B0 /\ 0 < A1 - x * B1 /\ Rmax 1 (i - 1) * (A1 - x * B1) <= A0 - x * B0 /\
    0 <= (1 + x) * B0 - A0 /\ Rmax 1 (i - 1) * ((1 + x) * B1 - A1) <= (1 + x) * B0 - A0.

Lemma cf_inv_init x : 1 < x -> cf_inv x 1 (1 + x) (1 + x) (1 + x) 0.
Proof.
  intros H. split; [lra|]. split; [lra|]. exists (1 + x), 1, 1, 0.
  assert (E : Rmax 1 (1 - 1) = 1) by (unfold Rmax; destruct (Rle_dec 1 (1 - 1)); lra).
  rewrite E. repeat split; try lra; field.
Qed.

Lemma cf_inv_step x i b f C D : 1 < x -> cf_inv x i b f C D ->
  let b' := b + 2 in let C' := b' + - (i * i) / C in let D' := 1 / (b' + - (i * i) * D) in
  C <> 0 /\ b' + - (i * i) * D <> 0 /\ cf_inv x (i + 1) b' (f * (C' * D')) C' D'.
Proof.
  intros Hx (Hi & Hb & A0 & A1 & B0 & B1 & Hf & HC & HD & PB0 & PB1 & MB & PE0 & PE1 & ME & PF0 & MF).
  cbv zeta. subst b f C D.
  assert (XB0 : 0 <= x * B0) by (apply Rmult_le_pos; lra). assert (XB1 : 0 <= x * B1) by (apply Rmult_le_pos; lra).
  assert (PA0 : 0 < A0) by lra. assert (PA1 : 0 < A1) by lra.
  assert (IB0 : 0 < i * B0) by (apply Rmult_lt_0_compat; lra).
  assert (IE0 : 0 < i * (A0 - x * B0)) by (apply Rmult_lt_0_compat; lra).
  assert (IF0 : 0 <= i * ((1 + x) * B0 - A0)) by (apply Rmult_le_pos; lra).
  pose proof (seq_step x i B0 B1 Hx Hi ltac:(lra) MB) as SB.
  pose proof (seq_step x i _ _ Hx Hi (Rlt_le _ _ PE0) ME) as SE.
  pose proof (seq_step x i _ _ Hx Hi PF0 MF) as SF.
  assert (M1 : Rmax 1 (i + 1 - 1) = i) by (unfold Rmax; destruct (Rle_dec 1 (i + 1 - 1)); lra).
  set (A2 := (x + 2 * i + 1) * A0 - i * i * A1). set (B2 := (x + 2 * i + 1) * B0 - i * i * B1).
  assert (PB2 : 0 < B2) by (unfold B2; lra).
  assert (PE2 : 0 < A2 - x * B2) by (unfold A2, B2; lra).
  assert (XB2 : 0 <= x * B2) by (apply Rmult_le_pos; lra).
  assert (PA2 : 0 < A2) by lra.
  assert (ED : x + 2 * i - 1 + 2 + - (i * i) * (B1 / B0) = B2 / B0) by (unfold B2; field; lra).
  assert (EC : x + 2 * i - 1 + 2 + - (i * i) / (A0 / A1) = A2 / A0) by (unfold A2; field; lra).
  split; [apply Rgt_not_eq, Rdiv_lt_0_compat; assumption|].
  rewrite ED, EC. split; [apply Rgt_not_eq, Rdiv_lt_0_compat; assumption|].
  split; [lra|]. split; [lra|]. exists A2, A0, B2, B0. rewrite M1.
  split; [field; repeat split; lra|]. split; [reflexivity|]. split; [field; repeat split; lra|].
  repeat split; try assumption; try lra.
  - unfold A2, B2. lra.
  - unfold A2, B2. lra.
  - unfold A2, B2. lra.
Qed.

Lemma cf_inv_bounds x i b f C D : 1 < x -> cf_inv x i b f C D -> x <= f <= 1 + x.
Proof.
  intros Hx (Hi & Hb & A0 & A1 & B0 & B1 & Hf & _ & _ & PB0 & _ & _ & PE0 & _ & _ & PF0 & _). subst f.
  split; [apply (Rmult_le_reg_r B0); [assumption|]|apply (Rmult_le_reg_r B0); [assumption|]];
    unfold Rdiv; rewrite ?Rmult_assoc, ?Rinv_l by lra; lra.
Qed.

Lemma lentz_bounds (x eps : R) fuel : forall (i : Z) (b f C D r : R), 1 < x -> cf_inv x (IZR i) b f C D ->
  lentz eps fuel i b f C D = Some r -> / (1 + x) <= r <= / x.
Proof.
  induction fuel as [|k IH]; intros i b f C D r Hx Hinv; [discriminate|].
  cbn [lentz]. rewrite nofZ_R, nabs_R. cbn. rewrite lit0_R.
  replace (IZR (- (i * i))) with (- (IZR i * IZR i)) by (rewrite opp_IZR, mult_IZR; reflexivity).
  destruct (cf_inv_step _ _ _ _ _ _ Hx Hinv) as (_ & _ & Hn).
  destruct (Rltb_spec (Rabs ((b + 2 + - (IZR i * IZR i) / C) * (1 / (b + 2 + - (IZR i * IZR i) * D)) - 1)) eps).
  - intros E. injection E as <-. pose proof (cf_inv_bounds _ _ _ _ _ _ Hx Hn) as [L U].
    match goal with |- context [1 / ?q] => set (F := q) in * end.
    replace (1 / F) with (/ F) by (unfold Rdiv; ring).
    split; apply Rinv_le_contravar; lra.
  - intros E. eapply (IH (i + 1)%Z); [exact Hx| |exact E]. rewrite plus_IZR. exact Hn.
Qed.

Lemma ln_le_minus1 y : 0 < y -> ln y <= y - 1.
Proof.
  intros H. pose proof (exp_ineq1_le (ln y)) as E. rewrite exp_ln in E by assumption. lra.
Qed.
Lemma ln_ge_inv y : 0 < y -> 1 - / y <= ln y.
Proof.
  intros H. pose proof (ln_le_minus1 (/ y) (Rinv_0_lt_compat _ H)) as E. rewrite ln_Rinv in E by assumption. lra.
Qed.
(** ln w >= 2 (w-1)/(w+1) for w > 1 *)
Lemma ln_ge_pade w : 1 < w -> 2 * (w - 1) / (w + 1) <= ln w.
Proof.
  intros H.
  destruct (MVT_cor2 (fun y => ln y - 2 * (y - 1) / (y + 1)) (fun y => / y - 4 / ((y + 1) * (y + 1))) 1 w H) as (c & Hc & Hr).
  { intros c Hc.
    assert (Hq : derivable_pt_lim (fun y => 2 * (y - 1) / (y + 1)) c (4 / ((c + 1) * (c + 1)))).
    { assert (Hn : derivable_pt_lim (fun y => 2 * (y - 1)) c 2).
      { assert (Hm : derivable_pt_lim (fun y => y - 1) c (1 - 0))
          by (apply (derivable_pt_lim_minus (fun y => y) (fun _ => 1)); [apply derivable_pt_lim_id|apply derivable_pt_lim_const]).
        pose proof (derivable_pt_lim_scal _ 2 c _ Hm) as K. replace (2 * (1 - 0)) with 2 in K by lra. exact K. }
      assert (Hd : derivable_pt_lim (fun y => y + 1) c 1).
      { replace 1 with (1 + 0) at 1 by lra.
        assert (K : derivable_pt_lim (fun y => y + 1) c (1 + 0))
          by (apply (derivable_pt_lim_plus (fun y => y) (fun _ => 1)); [apply derivable_pt_lim_id|apply derivable_pt_lim_const]).
        replace (1 + 0) with 1 in * by lra. exact K. }
      pose proof (derivable_pt_lim_div _ _ c _ _ Hn Hd ltac:(lra)) as K. unfold div_fct in K.
      replace (4 / ((c + 1) * (c + 1))) with ((2 * (c + 1) - 1 * (2 * (c - 1))) / Rsqr (c + 1)); [exact K|].
      unfold Rsqr. field. lra. }
    apply derivable_pt_lim_minus with (f1 := ln) (f2 := fun y => 2 * (y - 1) / (y + 1)); [apply derivable_pt_lim_ln; lra|exact Hq]. }
  assert (Hp : 0 <= / c - 4 / ((c + 1) * (c + 1))).
  { replace (/ c - 4 / ((c + 1) * (c + 1))) with ((c - 1) * (c - 1) * / (c * ((c + 1) * (c + 1)))) by (field; lra).
    apply Rmult_le_pos; [nra|]. left. apply Rinv_0_lt_compat. nra. }
  rewrite ln_1 in Hc. nra.
Qed.

Lemma Rlit_half : Rlit 5 (-1) = / 2.
Proof. rewrite Rlit_neg. simpl. lra. Qed.

(** AS 5.1.19 for the value computed by the continued fraction, convergence or not *)
Lemma deBoerD_cf_bounds (x eps r : R) n : deBoerD_cf x eps n = Ok r -> 1 < x /\ / (1 + x) <= r <= / x.
Proof.
  unfold deBoerD_cf. cbn -[lentz]. destruct (Rleb_spec x 1) as [|Hx]; [discriminate|]. apply Rnot_le_lt in Hx.
  intros H. split; [exact Hx|]. revert H.
  destruct (lentz eps (n - 1) 1 (1 + x) (1 + x) (1 + x) 0) as [s|] eqn:E.
  - intros K. injection K as <-.
    apply (lentz_bounds _ _ _ _ _ _ _ _ _ Hx (cf_inv_init x Hx) E).
  - intros K. injection K as <-. rewrite Rlit_half, lit0_R.
    assert (Px : 0 < / x) by (apply Rinv_0_lt_compat; lra).
    assert (I1 : / x <= 1) by (rewrite <- Rinv_1; apply Rinv_le_contravar; lra).
    assert (L1 : ln (1 + 2 / x) <= 2 / x) by (pose proof (ln_le_minus1 (1 + 2 / x)); unfold Rdiv in *; lra).
    assert (L2 : ln (1 + 1 / x) <= 1 / x) by (pose proof (ln_le_minus1 (1 + 1 / x)); unfold Rdiv in *; lra).
    assert (L3 : 2 * / (1 + x) <= ln (1 + 2 / x)).
    { pose proof (ln_ge_pade (1 + 2 / x)) as P. replace (2 * / (1 + x)) with (2 * (1 + 2 / x - 1) / (1 + 2 / x + 1)) by (field; lra).
      apply P. unfold Rdiv. lra. }
    assert (L4 : / (1 + x) <= ln (1 + 1 / x)).
    { pose proof (ln_ge_inv (1 + 1 / x)) as P. replace (/ (1 + x)) with (1 - / (1 + 1 / x)) by (field; lra).
      apply P. unfold Rdiv. lra. }
    unfold Rdiv in *. lra.
Qed.

Lemma E1_bounds_gt1 (x r : R) : 1 < x -> E1 x = Ok r -> exp (- x) / (1 + x) <= r <= exp (- x) / x.
Proof.
  intros Hx. unfold E1. cbn -[deBoerD_default E1_series AS_5_1_53].
  destruct (Reqb_spec x 0); [lra|]. destruct (Rltb_spec x 0); [lra|]. destruct (Rltb_spec x 1); [lra|].
  unfold deBoerD_default. destruct (deBoerD_cf x _ 100) as [s| | |] eqn:E; try discriminate.
  cbn. intros K. injection K as <-. destruct (deBoerD_cf_bounds _ _ _ _ E) as [_ [L U]].
  pose proof (exp_pos (- x)). unfold Rdiv. split; apply Rmult_le_compat_l; lra.
Qed.

Definition AS_poly (x : R) : R :=
  (((( 107857/100000000 * x - 976004/100000000) * x + 5519968/100000000) * x - 24991055/100000000) * x + 99999193/100000000) * x - 57721566/100000000.
Lemma AS_5_1_53_R (x : R) : x <= 1 -> AS_5_1_53 x = Ok (AS_poly x).
Proof.
  intros H. unfold AS_5_1_53. cbn. destruct (Rltb_spec 1 x); [lra|]. f_equal. rewrite !Rlit8. unfold AS_poly. lra.
Qed.

Lemma E1_small (x : R) : 0 < x < 1 -> E1 x = Ok (AS_poly x - ln x).
Proof.
  intros H. unfold E1. cbn -[deBoerD_default E1_series AS_5_1_53].
  destruct (Reqb_spec x 0); [lra|]. destruct (Rltb_spec x 0); [lra|]. destruct (Rltb_spec x 1); [|lra].
  rewrite AS_5_1_53_R by lra. reflexivity.
Qed.

Lemma E1_small_pos (x r : R) : 0 < x < 1 -> E1 x = Ok r -> 0 < r.
Proof.
  intros H E. rewrite E1_small in E by assumption. injection E as <-.
  pose proof (ln_le_minus1 x ltac:(lra)) as L. unfold AS_poly. 
  assert (0 < x * x <= x) by nra. assert (0 < x * x * x <= x * x) by nra. assert (0 < x * x * x * x <= x * x * x) by nra.
  assert (0 < x * x * x * x * x) by nra. lra.
Qed.

Lemma E1_small_decreasing (x y r s : R) : 0 < x -> x < y -> y < 1 -> E1 x = Ok r -> E1 y = Ok s -> s < r.
Proof.
  intros H0 H1 H2 E F. rewrite E1_small in E, F by lra. injection E as <-. injection F as <-.
  assert (L : (y - x) <= ln y - ln x).
  { replace (ln y - ln x) with (ln (y / x)) by (unfold Rdiv; rewrite ln_mult, ln_Rinv by (try apply Rinv_0_lt_compat; lra); ring).
    pose proof (ln_ge_inv (y / x) ltac:(apply Rdiv_lt_0_compat; lra)) as P.
    assert (Q : (y - x) / y <= ln (y / x)).
    { replace ((y - x) / y) with (1 - / (y / x)) by (field; lra). exact P. }
    assert (1 <= / y) by (rewrite <- Rinv_1; apply Rinv_le_contravar; lra). unfold Rdiv in Q at 1. nra. }
  assert (K : AS_poly y - AS_poly x < y - x); [|lra].
  replace (AS_poly y - AS_poly x) with ((y - x) * (99999193/100000000 - 24991055/100000000 * (x + y) + 5519968/100000000 * (x*x+x*y+y*y)
     - 976004/100000000 * (x*x*x+x*x*y+x*y*y+y*y*y) + 107857/100000000 * (x*x*x*x+x*x*x*y+x*x*y*y+x*y*y*y+y*y*y*y))) by (unfold AS_poly; field).
  assert (Q : forall a b, 0 <= a <= 1 -> 0 <= b <= 1 -> 0 <= a * b <= b) by (intros; nra).
  assert (a1 := Q x x ltac:(lra) ltac:(lra)). assert (a2 := Q x y ltac:(lra) ltac:(lra)). assert (a3 := Q y y ltac:(lra) ltac:(lra)).
  assert (b1 := Q x (x*x) ltac:(lra) ltac:(lra)). assert (b2 := Q x (x*y) ltac:(lra) ltac:(lra)). assert (b3 := Q x (y*y) ltac:(lra) ltac:(lra)).
  assert (b4 := Q y (y*y) ltac:(lra) ltac:(lra)).
  assert (c1 := Q x (x*(x*x)) ltac:(lra) ltac:(lra)). assert (c2 := Q x (x*(x*y)) ltac:(lra) ltac:(lra)).
  assert (c3 := Q x (x*(y*y)) ltac:(lra) ltac:(lra)). assert (c4 := Q x (y*(y*y)) ltac:(lra) ltac:(lra)). assert (c5 := Q y (y*(y*y)) ltac:(lra) ltac:(lra)).
  match goal with |- (y - x) * ?q < _ => assert (q < 1) end; [|nra].
  replace (x*x*x+x*x*y+x*y*y+y*y*y) with (x*(x*x)+x*(x*y)+x*(y*y)+y*(y*y)) by ring.
  replace (x*x*x*x+x*x*x*y+x*x*y*y+x*y*y*y+y*y*y*y) with (x*(x*(x*x))+x*(x*(x*y))+x*(x*(y*y))+x*(y*(y*y))+y*(y*(y*y))) by ring.
  lra.
Qed.

(** ** erf *)
Definition erf_poly (t : R) : R :=
  t * (100002368/100000000 + t * (37409160/100000000 + t * (9678418/100000000 + t * (-18628806/100000000 + t * (27886807/100000000 +
  t * (-113520398/100000000 + t * (148851587/100000000 + t * (-82215223/100000000 + t * (17087277/100000000))))))))).
Definition erf_tail (z : R) : R := let t := 1 / (1 + z / 2) in t * exp (- z * z - 126551223/100000000 + erf_poly t).

Lemma Rlit7 : Rlit 3740916 (-7) = 37409160/100000000.
Proof. rewrite Rlit_neg. simpl. lra. Qed.
Lemma erf_core_R (x : R) : erf_core x = if Rltb x 0 then 2 - erf_tail (Rabs x) else erf_tail (Rabs x).
Proof.
  unfold erf_core. rewrite nabs_R. cbn -[Rltb]. rewrite Rlit_half, lit0_R, Rlit7, !Rlit8.
  unfold erf_tail, erf_poly. cbv zeta. replace (1 + / 2 * Rabs x) with (1 + Rabs x / 2) by lra. reflexivity.
Qed.

(** Bernstein certificate *)
Lemma erf_poly_le t : 0 <= t <= 1 -> erf_poly t <= 126551223/100000000 - 33/100000000 * t ^ 9.
Proof.
  intros Ht. set (s := 1 - t). assert (Hs : 0 <= s) by (unfold s; lra).
  assert (E : 126551223/100000000 - 33/100000000 * t ^ 9 - erf_poly t =
    (126551223/100000000) * (t^0 * s^9) + (1038958639/100000000) * (t^1 * s^8) + (929603981/25000000) * (t^2 * s^7) + (755869389/10000000) * (t^3 * s^6) + (2380071857/25000000) * (t^4 * s^5) + (7556048691/100000000) * (t^5 * s^4) + (1857771197/50000000) * (t^6 * s^3) + (1035685919/100000000) * (t^7 * s^2) + (3141937/2500000) * (t^8 * s^1)).
  { unfold s, erf_poly. field. }
  assert (P : forall a b, 0 <= t ^ a * s ^ b) by (intros; apply Rmult_le_pos; apply pow_le; lra).
  pose proof (P 0%nat 9%nat).
  pose proof (P 1%nat 8%nat).
  pose proof (P 2%nat 7%nat).
  pose proof (P 3%nat 6%nat).
  pose proof (P 4%nat 5%nat).
  pose proof (P 5%nat 4%nat).
  pose proof (P 6%nat 3%nat).
  pose proof (P 7%nat 2%nat).
  pose proof (P 8%nat 1%nat).
  lra.
Qed.

Lemma erf_tail_range z : 0 <= z -> 0 < erf_tail z <= exp (- (z * z)) /\ erf_tail z < 1.
Proof.
  intros Hz. unfold erf_tail. cbv zeta. set (t := 1 / (1 + z / 2)).
  assert (T : 0 < t <= 1).
  { unfold t. split; [apply Rdiv_lt_0_compat; lra|]. apply (Rmult_le_reg_r (1 + z / 2)); [lra|]. unfold Rdiv at 1.
    rewrite Rmult_assoc, Rinv_l; lra. }
  pose proof (erf_poly_le t ltac:(lra)) as P. assert (P9 : 0 < t ^ 9) by (apply pow_lt; lra).
  pose proof (exp_pos (- z * z - 126551223 / 100000000 + erf_poly t)) as Pe.
  assert (L : exp (- z * z - 126551223 / 100000000 + erf_poly t) < exp (- (z * z))) by (apply exp_increasing; lra).
  assert (M : exp (- (z * z)) <= 1).
  { destruct (Req_dec z 0) as [->|]; [rewrite Rmult_0_l, Ropp_0, exp_0; lra|]. left. rewrite <- exp_0. apply exp_increasing. nra. }
  split; [split|]; nra.
Qed.

Lemma erf_erfc (x : R) : erf x + erfc x = 1.
Proof. unfold erf, erfc. rnorm. ring. Qed.
Lemma erfc_reflect (x : R) : x <> 0 -> erfc (- x) = 2 - erfc x.
Proof.
  intros H. unfold erfc. rewrite !erf_core_R, Rabs_Ropp. destruct (Rltb_spec (- x) 0), (Rltb_spec x 0); lra.
Qed.
Lemma erf_odd (x : R) : x <> 0 -> erf (- x) = - erf x.
Proof. intros H. unfold erf. pose proof (erfc_reflect x H). unfold erfc in *. cbn in *. lra. Qed.
Lemma erfc_range (x : R) : (0 <= x -> 0 < erfc x <= exp (- (x * x)) /\ erfc x < 1) /\ (x < 0 -> 2 - exp (- (x * x)) <= erfc x < 2 /\ 1 < erfc x).
Proof.
  unfold erfc. rewrite erf_core_R. pose proof (erf_tail_range (Rabs x) (Rabs_pos x)) as H.
  replace (Rabs x * Rabs x) with (x * x) in H by (destruct (Rcase_abs x); [rewrite Rabs_left by lra|rewrite Rabs_right by lra]; ring).
  split; intros Hx; destruct (Rltb_spec x 0); lra.
Qed.
Lemma erf_zero : 0 < erf 0.
Proof. unfold erf. pose proof (proj1 (erfc_range 0) (Rle_refl 0)) as [_ H]. unfold erfc in H. rnorm. cbn in H. lra. Qed.

(** ** deBoer *)
Lemma deBoerL0_finite (N : Num) dbg (mu1 mu2 muj de th r : @num N) : nfinite n0 = true ->
  deBoerL0 dbg mu1 mu2 muj de th = Ok r -> nfinite r = true.
Proof.
  intros Hz. unfold deBoerL0.
  destruct (negb (nfinite mu1)); [discriminate|]. destruct (negb (nfinite mu2)); [discriminate|].
  destruct (negb (nfinite muj)); [discriminate|]. destruct (_ || _); [discriminate|].
  destruct (nltb _ _).
  { match goal with |- context [nfinite ?t] => destruct (nfinite t) eqn:E end; cbn; [intros K; injection K as <-; exact E|discriminate]. }
  destruct (nltb _ _); [intros K; injection K as <-; exact Hz|].
  do 3 (match goal with |- context [rbind ?t] => destruct t; cbn [rbind]; try discriminate end).
  match goal with |- context [nfinite ?t] => destruct (nfinite t) eqn:E end; cbn [negb].
  - destruct (nltb _ n0); [discriminate|]. intros K; injection K as <-; exact E.
  - destruct (nltb _ n0); discriminate.
Qed.

Lemma deBoerL0_nonneg dbg (mu1 mu2 muj de th r : R) : deBoerL0 dbg mu1 mu2 muj de th = Ok r -> 0 <= r.
Proof.
  unfold deBoerL0. cbn -[deBoerD].
  destruct (Rleb_spec mu1 0); [discriminate|]. destruct (Rleb_spec mu2 0); [discriminate|]. destruct (Rleb_spec muj 0); [discriminate|].
  cbn [orb]. apply Rnot_le_lt in n, n0, n1.
  destruct (Rltb_spec (Rlit 10 0) ((mu1 + mu2) * (th * de))).
  { intros K. injection K as <-. assert (0 < mu1 / muj) by (apply Rdiv_lt_0_compat; assumption).
    assert (0 < ln (1 + mu1 / muj)) by (rewrite <- ln_1; apply ln_increasing; lra).
    unfold Rdiv at 1. apply Rmult_le_pos; [apply Rmult_le_pos; [left; apply Rdiv_lt_0_compat; assumption|lra]|].
    left. apply Rinv_0_lt_compat. nra. }
  destruct (Rltb_spec ((mu1 + mu2) * (th * de)) (Rlit 1 (-2))); [intros K; injection K as <-; lra|].
  do 3 (match goal with |- context [rbind ?t] => destruct t; cbn [rbind]; try discriminate end).
  match goal with |- context [Rltb ?a 0] => destruct (Rltb_spec a 0) end; [discriminate|].
  intros K; injection K as <-. lra.
Qed.

Lemma deBoerL0_rejects dbg (mu1 mu2 muj de th : R) : mu1 <= 0 \/ mu2 <= 0 \/ muj <= 0 ->
  deBoerL0 dbg mu1 mu2 muj de th = Throw RuntimeError.
Proof.
  intros H. unfold deBoerL0. cbn -[deBoerD].
  destruct (Rleb_spec mu1 0); [reflexivity|]. destruct (Rleb_spec mu2 0); [reflexivity|]. destruct (Rleb_spec muj 0); [reflexivity|]. lra.
Qed.

Lemma deBoerL0_thin dbg (mu1 mu2 muj de th : R) : 0 < mu1 -> 0 < mu2 -> 0 < muj -> (mu1 + mu2) * (th * de) < 1 / 100 ->
  deBoerL0 dbg mu1 mu2 muj de th = Ok 0.
Proof.
  intros H1 H2 H3 H. unfold deBoerL0. cbn -[deBoerD].
  destruct (Rleb_spec mu1 0); [lra|]. destruct (Rleb_spec mu2 0); [lra|]. destruct (Rleb_spec muj 0); [lra|].
  cbn [orb]. rewrite lit0_R. replace (Rlit 1 (-2)) with (1 / 100) by (rewrite Rlit_neg; simpl; lra).
  destruct (Rltb_spec 10 ((mu1 + mu2) * (th * de))); [lra|].
  destruct (Rltb_spec ((mu1 + mu2) * (th * de)) (1 / 100)); [reflexivity|lra].
Qed.

Lemma deBoerL0_thick dbg (mu1 mu2 muj de th : R) : 0 < mu1 -> 0 < mu2 -> 0 < muj -> 10 < (mu1 + mu2) * (th * de) ->
  deBoerL0 dbg mu1 mu2 muj de th = Ok (ln (1 + mu1 / muj) / (mu1 * (mu1 + mu2))).
Proof.
  intros H1 H2 H3 H. unfold deBoerL0. cbn -[deBoerD].
  destruct (Rleb_spec mu1 0); [lra|]. destruct (Rleb_spec mu2 0); [lra|]. destruct (Rleb_spec muj 0); [lra|].
  cbn [orb]. rewrite lit0_R. destruct (Rltb_spec 10 ((mu1 + mu2) * (th * de))); [|lra].
  f_equal. field. repeat split; lra.
Qed.

Lemma deBoerX_combination dbg (p q d1 d2 m1 m2 mb r : R) : deBoerX dbg p q d1 d2 m1 m2 mb = Ok r <->
  exists a b c d, deBoerV dbg p q d1 d2 m1 m2 mb = Ok a /\ deBoerV dbg p q d1 0 m1 m2 mb = Ok b /\
    deBoerV dbg p q 0 d2 m1 m2 mb = Ok c /\ deBoerV dbg p q 0 0 m1 m2 mb = Ok d /\ r = a - b - c + d.
Proof.
  unfold deBoerX. change (@n0 RNum) with 0.
  destruct (deBoerV dbg p q d1 d2 m1 m2 mb) as [a| | |], (deBoerV dbg p q d1 0 m1 m2 mb) as [b| | |],
    (deBoerV dbg p q 0 d2 m1 m2 mb) as [c| | |], (deBoerV dbg p q 0 0 m1 m2 mb) as [d| | |]; cbn [rbind];
  (split; [intros K; try discriminate; injection K as <-; exists a, b, c, d; repeat split; reflexivity|
          intros (? & ? & ? & ? & K1 & K2 & K3 & K4 & ->); try discriminate;
          injection K1 as <-; injection K2 as <-; injection K3 as <-; injection K4 as <-; reflexivity]).
Qed.

Lemma deBoerX_zero dbg (p q d1 d2 m1 m2 mb r : R) : d1 = 0 \/ d2 = 0 -> deBoerX dbg p q d1 d2 m1 m2 mb = Ok r -> r = 0.
Proof.
  intros H E. apply deBoerX_combination in E. destruct E as (a & b & c & d & A & B & C & D & ->).
  destruct H as [-> | ->].
  - rewrite C in A. injection A as ->. rewrite D in B. injection B as ->. ring.
  - rewrite B in A. injection A as ->. rewrite D in C. injection C as ->. ring.
Qed.

(** ** deBoerD and E1 *)
Lemma deBoerD_E1 (x : R) : x <> 0 -> x <> 1 -> exists r : R, E1 x = Ok r /\ deBoerD false x = Ok (exp x * r).
Proof.
  intros H0 H1. destruct (proj2 (E1_ok_iff x) (conj H0 H1)) as [r Hr]. exists r. split; [exact Hr|].
  unfold deBoerD. cbn -[deBoerD_default E1 AS_5_1_53 exp].
  destruct (Rltb_spec x 0) as [L|L]; [rewrite Hr; reflexivity|].
  destruct (Rltb_spec 1 x) as [G|G].
  - revert Hr. unfold E1. cbn -[deBoerD_default E1_series AS_5_1_53 exp].
    destruct (Reqb_spec x 0); [lra|]. destruct (Rltb_spec x 0); [lra|]. destruct (Rltb_spec x 1); [lra|].
    destruct (deBoerD_default x) as [s| | |]; try discriminate. cbn. intros Hr. injection Hr as <-.
    f_equal. rewrite <- Rmult_assoc, <- exp_plus, Rplus_opp_r, exp_0. lra.
  - rewrite E1_small in Hr by lra. injection Hr as <-. rewrite AS_5_1_53_R by lra. reflexivity.
Qed.
Lemma deBoerD_one : exists r : R, deBoerD false 1 = Ok r /\ 0 < r.
Proof.
  unfold deBoerD. cbn -[deBoerD_default E1 AS_5_1_53 exp]. destruct (Rltb_spec 1 0); [lra|]. destruct (Rltb_spec 1 1); [lra|].
  rewrite AS_5_1_53_R by lra. cbn. eexists; split; [reflexivity|]. rewrite ln_1. apply Rmult_lt_0_compat; [apply exp_pos|].
  unfold AS_poly. lra.
Qed.
