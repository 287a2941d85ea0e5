(** C13 - C15, C45: Math. *)
From Coq Require Import PrimFloat List ZArith Reals Lra Lia.
From Verif Require Import Base.Num Base.Res Model.Math Proofs.MathProofs.
Import ListNotations.
Local Existing Instance RNum.
Local Open Scope R_scope.

(** C13 *)
Theorem C13_E1_domain : forall x : R, (exists r : R, E1 x = Ok r) <-> x <> 0 /\ x <> 1.
Proof. exact E1_ok_iff. Qed.
Print Assumptions C13_E1_domain.

(** The documented domain is x <> 0; x = 1 is refuted, also in binary64. *)
Theorem C13_E1_of_one_refuted :
  E1 1 = Throw RuntimeError /\ @E1 FNum 1%float = Throw RuntimeError.
Proof. split; [exact E1_one|vmrefl]. Qed.
Print Assumptions C13_E1_of_one_refuted.

Theorem C13_En_domain :
  forall (n : Z) (x : R),
  (exists r : R, En n x = Ok r) <-> (n = 1%Z /\ x <> 0 /\ x <> 1) \/ ((1 < n)%Z /\ x <> 1).
Proof. exact En_ok_iff. Qed.
Print Assumptions C13_En_domain.

Theorem C13_En_bad_order : forall (N : Num) (n : Z) (x : num), (n < 1)%Z -> En n x = Throw RuntimeError.
Proof. intros N n x H. unfold En. destruct (Z.ltb_spec n 1); [reflexivity|lia]. Qed.
Print Assumptions C13_En_bad_order.

Theorem C13_En_of_one_throws : forall n : Z, (1 <= n)%Z -> exists e, En n 1 = Throw e.
Proof. exact En_one. Qed.
Print Assumptions C13_En_of_one_throws.

Theorem C13_En_first_order : forall x : R, En 1 x = E1 x.
Proof. exact En_1. Qed.
Print Assumptions C13_En_first_order.

Theorem C13_En_at_zero : forall n : Z, (1 < n)%Z -> En n 0 = Ok (1 / (IZR n - 1)).
Proof. exact En_zero. Qed.
Print Assumptions C13_En_at_zero.

Theorem C13_En_recurrence :
  forall (n : Z) (x r r' : R), (1 <= n)%Z -> x <> 0 ->
  En n x = Ok r -> En (n + 1) x = Ok r' -> IZR n * r' = exp (- x) - x * r.
Proof. exact En_recurrence. Qed.
Print Assumptions C13_En_recurrence.

Example C13_case : exists r r' : R, En 3 2 = Ok r /\ En (3 + 1) 2 = Ok r' /\ 3 * r' = exp (- 2) - 2 * r.
Proof.
  destruct (proj2 (En_ok_iff 3 2)) as [r Hr]; [right; split; [lia|lra]|].
  destruct (proj2 (En_ok_iff (3 + 1) 2)) as [r' Hr']; [right; split; [lia|lra]|].
  exists r, r'. split; [exact Hr|]. split; [exact Hr'|]. apply (En_recurrence 3 2 r r'); [lia|lra|exact Hr|exact Hr'].
Qed.

(** C14 *)
Theorem C14_erf_plus_erfc : forall x : R, erf x + erfc x = 1.
Proof. exact erf_erfc. Qed.
Print Assumptions C14_erf_plus_erfc.

Theorem C14_reflection : forall x : R, x <> 0 -> erfc (- x) = 2 - erfc x /\ erf (- x) = - erf x.
Proof. exact (fun x H => conj (erfc_reflect x H) (erf_odd x H)). Qed.
Print Assumptions C14_reflection.

Theorem C14_erfc_bounds :
  forall x : R,
  (0 <= x -> 0 < erfc x <= exp (- (x * x)) /\ erfc x < 1) /\
  (x < 0 -> 2 - exp (- (x * x)) <= erfc x < 2 /\ 1 < erfc x).
Proof. exact erfc_range. Qed.
Print Assumptions C14_erfc_bounds.

(** At x = 0 the approximation is not odd: erf(0) > 0. *)
Theorem C14_erf_of_zero_is_not_zero : 0 < erf 0.
Proof. exact erf_zero. Qed.
Print Assumptions C14_erf_of_zero_is_not_zero.

(** C15 *)
Theorem C15_L0_is_never_negative :
  forall debug (mu1 mu2 muj density thickness r : R),
  deBoerL0 debug mu1 mu2 muj density thickness = Ok r -> 0 <= r.
Proof. exact deBoerL0_nonneg. Qed.
Print Assumptions C15_L0_is_never_negative.

(** In any arithmetic (in particular with infinities and NaN) a returned value passed
    isFiniteNumber. *)
Theorem C15_L0_is_always_finite :
  forall (N : Num) debug (mu1 mu2 muj density thickness r : num), nfinite n0 = true ->
  deBoerL0 debug mu1 mu2 muj density thickness = Ok r -> nfinite r = true.
Proof. exact (fun N => @deBoerL0_finite N). Qed.
Print Assumptions C15_L0_is_always_finite.

Theorem C15_L0_rejects_non_positive_coefficients :
  forall debug (mu1 mu2 muj density thickness : R), mu1 <= 0 \/ mu2 <= 0 \/ muj <= 0 ->
  deBoerL0 debug mu1 mu2 muj density thickness = Throw RuntimeError.
Proof. exact deBoerL0_rejects. Qed.
Print Assumptions C15_L0_rejects_non_positive_coefficients.

Theorem C15_L0_thin_layer :
  forall debug (mu1 mu2 muj density thickness : R), 0 < mu1 -> 0 < mu2 -> 0 < muj ->
  (mu1 + mu2) * (thickness * density) < 1 / 100 ->
  deBoerL0 debug mu1 mu2 muj density thickness = Ok 0.
Proof. exact deBoerL0_thin. Qed.
Print Assumptions C15_L0_thin_layer.

Theorem C15_L0_thick_layer :
  forall debug (mu1 mu2 muj density thickness : R), 0 < mu1 -> 0 < mu2 -> 0 < muj ->
  10 < (mu1 + mu2) * (thickness * density) ->
  deBoerL0 debug mu1 mu2 muj density thickness = Ok (ln (1 + mu1 / muj) / (mu1 * (mu1 + mu2))).
Proof. exact deBoerL0_thick. Qed.
Print Assumptions C15_L0_thick_layer.

Theorem C15_X_is_inclusion_exclusion :
  forall debug (p q d1 d2 mu1j mu2j mub r : R),
  deBoerX debug p q d1 d2 mu1j mu2j mub = Ok r <->
  exists a b c d, deBoerV debug p q d1 d2 mu1j mu2j mub = Ok a /\ deBoerV debug p q d1 0 mu1j mu2j mub = Ok b /\
    deBoerV debug p q 0 d2 mu1j mu2j mub = Ok c /\ deBoerV debug p q 0 0 mu1j mu2j mub = Ok d /\ r = a - b - c + d.
Proof. exact deBoerX_combination. Qed.
Print Assumptions C15_X_is_inclusion_exclusion.

Theorem C15_X_vanishes_without_depth :
  forall debug (p q d1 d2 mu1j mu2j mub r : R), d1 = 0 \/ d2 = 0 ->
  deBoerX debug p q d1 d2 mu1j mu2j mub = Ok r -> r = 0.
Proof. exact deBoerX_zero. Qed.
Print Assumptions C15_X_vanishes_without_depth.

Example C15_case : deBoerL0 false 1 2 3 4 1 = Ok (ln (1 + 1 / 3) / (1 * (1 + 2))).
Proof. apply C15_L0_thick_layer; lra. Qed.

(** C45 *)
Theorem C45_E1_between_classical_bounds :
  forall x r : R, 1 < x -> E1 x = Ok r -> exp (- x) / (1 + x) <= r <= exp (- x) / x.
Proof. exact E1_bounds_gt1. Qed.
Print Assumptions C45_E1_between_classical_bounds.

(** the private continued fraction, any tolerance and any number of iterations *)
Theorem C45_continued_fraction_bounds :
  forall (x eps r : R) maxIter, deBoerD_cf x eps maxIter = Ok r -> 1 < x /\ / (1 + x) <= r <= / x.
Proof. exact deBoerD_cf_bounds. Qed.
Print Assumptions C45_continued_fraction_bounds.

(** The denominators of the Lentz recurrence never vanish (comment "This check is not needed",
    fisx_math.cpp 534-538): the invariant [cf_inv] holds initially and is kept by each iteration. *)
Theorem C45_no_zero_denominator :
  forall x i b f C D : R, 1 < x -> cf_inv x i b f C D ->
  let b' := b + 2 in let C' := b' + - (i * i) / C in let D' := 1 / (b' + - (i * i) * D) in
  C <> 0 /\ b' + - (i * i) * D <> 0 /\ cf_inv x (i + 1) b' (f * (C' * D')) C' D'.
Proof. exact cf_inv_step. Qed.
Print Assumptions C45_no_zero_denominator.

Theorem C45_E1_positive_and_decreasing_below_one :
  (forall x r : R, 0 < x < 1 -> E1 x = Ok r -> 0 < r) /\
  (forall x y r s : R, 0 < x -> x < y -> y < 1 -> E1 x = Ok r -> E1 y = Ok s -> s < r).
Proof. exact (conj E1_small_pos E1_small_decreasing). Qed.
Print Assumptions C45_E1_positive_and_decreasing_below_one.

Example C45_case : (exists r : R, E1 2 = Ok r) /\ (exists r : R, E1 (1/2) = Ok r) /\
  cf_inv 2 1 (1 + 2) (1 + 2) (1 + 2) 0.
Proof. split; [apply E1_ok_iff; lra|]. split; [apply E1_ok_iff; lra|]. apply cf_inv_init; lra. Qed.

(** C47 *)
Theorem C47_deBoerD_is_exp_times_E1 :
  forall x : R, x <> 0 -> x <> 1 -> exists r : R, E1 x = Ok r /\ deBoerD false x = Ok (exp x * r).
Proof. exact deBoerD_E1. Qed.
Print Assumptions C47_deBoerD_is_exp_times_E1.

Theorem C47_deBoerD_at_one : exists r : R, deBoerD false 1 = Ok r /\ 0 < r.
Proof. exact deBoerD_one. Qed.
Print Assumptions C47_deBoerD_at_one.
