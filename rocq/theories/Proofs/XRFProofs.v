(** Geometric efficiency. *)
From Coq Require Import String List ZArith Reals Bool Lia Lra.
From Verif Require Import Base.Num Base.Res Base.RSum Base.SMap Base.ListLemmas Model.Beam Model.Material Model.TransmissionTable Model.Layer Model.XRF
  Spec.XRFSpec Proofs.MathProofs.
Import ListNotations.
Local Existing Instance RNum.
Local Open Scope R_scope.

Lemma addThickness_spec add (sample : list (@layer RNum)) (s : R) n : forall a (d : R), (a + n <= length sample)%nat ->
  addThickness add sample s (seq a n) d =
  Ok (let t := Rsum (map (fun l : @layer RNum => l_thickness l) (firstn n (skipn a sample))) / s in if add then d + t else d - t).
Proof.
  induction n as [|n IH]; intros a d H.
  - cbn. unfold Rdiv. rewrite Rmult_0_l, Rplus_0_r, Rminus_0_r. destruct add; reflexivity.
  - cbn [seq addThickness]. destruct (nth_error sample a) as [l|] eqn:E; [|apply nth_error_None in E; lia].
    unfold vget. rewrite E. cbn [of_opt rbind]. rewrite IH by lia. f_equal.
    assert (K : skipn a sample = l :: skipn (S a) sample).
    { clear - E. revert a E. induction sample as [|x sample IHs]; intros [|a] E; try discriminate.
      - injection E as ->. reflexivity.
      - cbn [nth_error] in E. cbn [skipn]. rewrite (IHs a E). reflexivity. }
    rewrite K. cbn [firstn map Rsum]. cbv zeta. rnorm. destruct add; unfold Rdiv; ring.
Qed.

Lemma pow2_gt_0 x : x <> 0 -> 0 < x ^ 2.
Proof. intros H. destruct (Rtotal_order x 0) as [K|[K|K]]; [nra|contradiction|nra]. Qed.
Lemma hyp_pos D d : D <> 0 -> 0 < d ^ 2 + (D / 2) ^ 2.
Proof. intros H. assert (0 < (D / 2) ^ 2) by (apply pow2_gt_0; lra). nra. Qed.
Lemma efficiency_spec (c : @config RNum) index ref :
  getDiameter (c_detector c) <> 0 -> (getDistance (c_detector c) <> 0 \/ index <> 0%Z) ->
  c_reference c = Some ref -> (0 <= index <= Z.of_nat (length (c_sample c)))%Z -> (0 <= ref <= Z.of_nat (length (c_sample c)))%Z ->
  getGeometricEfficiency c index =
  Ok (sphere_fraction (getDiameter (c_detector c)) (distance_to (c_sample c) (sinDegrees (c_alphaOut c)) (getDistance (c_detector c)) ref index)).
Proof.
  intros HD Hd Hr Hi Hf. unfold getGeometricEfficiency. cbv zeta. rnorm.
  destruct (Reqb_spec (getDiameter (c_detector c)) 0) as [Q|_]; [contradiction|].
  assert (B : (Reqb (getDistance (c_detector c)) 0 && (index =? 0)%Z) = false).
  { destruct (Reqb_spec (getDistance (c_detector c)) 0); destruct (Z.eqb_spec index 0); try reflexivity. destruct Hd; contradiction. }
  change (@n0 RNum) with 0. rewrite B. destruct (Z.ltb_spec index 0) as [Q|_]; [lia|]. rewrite Hr. cbn [of_opt rbind].
  assert (D : (if (index =? ref)%Z then Ok (getDistance (c_detector c))
     else if (ref <? index)%Z then addThickness true (c_sample c) (sinDegrees (c_alphaOut c)) (indices ref index) (getDistance (c_detector c))
     else addThickness false (c_sample c) (sinDegrees (c_alphaOut c)) (indices index ref) (getDistance (c_detector c))) =
     Ok (distance_to (c_sample c) (sinDegrees (c_alphaOut c)) (getDistance (c_detector c)) ref index)).
  { unfold distance_to, thickness_between, indices. destruct (Z.eqb_spec index ref) as [->|Q].
    - rewrite Z.leb_refl, Z.sub_diag. cbn. unfold Rdiv. rewrite Rmult_0_l, Rplus_0_r. reflexivity.
    - destruct (Z.ltb_spec ref index) as [L|L].
      + destruct (Z.leb_spec ref index); [|lia]. destruct (Z.ltb_spec ref 0); [lia|]. rewrite addThickness_spec by lia. rewrite Z2Nat.inj_sub by lia. reflexivity.
      + destruct (Z.leb_spec ref index); [lia|]. destruct (Z.ltb_spec index 0); [lia|]. rewrite addThickness_spec by lia. rewrite Z2Nat.inj_sub by lia. reflexivity. }
  refine (eq_trans (f_equal (fun z => rbind z _) D) _). cbn [rbind]. f_equal. unfold sphere_fraction.
  assert (H5 : nlit 5 (-1) = (1 / 2)) by (change (Rlit 5 (-1) = 1 / 2); unfold Rlit; simpl; lra). rewrite H5. rnorm.
  set (d := distance_to _ _ _ _ _). replace (1 / 2 * getDiameter (c_detector c) * (1 / 2 * getDiameter (c_detector c))) with ((getDiameter (c_detector c) / 2) ^ 2) by (cbn; field).
  replace (d * d) with (d ^ 2) by (cbn; ring). field.
  pose proof (sqrt_lt_R0 _ (hyp_pos (getDiameter (c_detector c)) d HD)). lra.
Qed.

(** *** the fraction of the sphere *)
Lemma hyp_gt D d : D <> 0 -> Rabs d < sqrt (d ^ 2 + (D / 2) ^ 2).
Proof.
  intros H. assert (0 < (D / 2) ^ 2) by (apply pow2_gt_0; lra).
  rewrite <- (sqrt_Rsqr_abs d). apply sqrt_lt_1; [apply Rle_0_sqr|pose proof (pow2_ge_0 d); lra|]. unfold Rsqr. nra.
Qed.
Lemma ratio_bounds D d : D <> 0 -> -1 < d / sqrt (d ^ 2 + (D / 2) ^ 2) < 1.
Proof.
  intros H. pose proof (hyp_gt D d H) as G. pose proof (sqrt_lt_R0 _ (hyp_pos D d H)) as P.
  set (h := sqrt _) in *. apply Rabs_def2 in G. split.
  - apply Rmult_lt_reg_r with h; [exact P|]. unfold Rdiv. rewrite Rmult_assoc, Rinv_l by lra. lra.
  - apply Rmult_lt_reg_r with h; [exact P|]. unfold Rdiv. rewrite Rmult_assoc, Rinv_l by lra. lra.
Qed.
Lemma fraction_bounds D d : D <> 0 -> 0 < sphere_fraction D d < 1.
Proof. intros H. pose proof (ratio_bounds D d H). unfold sphere_fraction. lra. Qed.
Lemma fraction_half D d : D <> 0 -> 0 <= d -> sphere_fraction D d <= 1 / 2.
Proof.
  intros H Hd. unfold sphere_fraction. pose proof (sqrt_lt_R0 _ (hyp_pos D d H)) as P.
  assert (0 <= d / sqrt (d ^ 2 + (D / 2) ^ 2)) by (apply Rle_mult_inv_pos; assumption). lra.
Qed.
Lemma fraction_contact D : D <> 0 -> sphere_fraction D 0 = 1 / 2.
Proof. intros H. unfold sphere_fraction, Rdiv at 2. rewrite Rmult_0_l. lra. Qed.
(** d / sqrt(d^2 + r^2) is increasing in d *)
Lemma ratio_mono D d d' : D <> 0 -> d < d' -> d / sqrt (d ^ 2 + (D / 2) ^ 2) < d' / sqrt (d' ^ 2 + (D / 2) ^ 2).
Proof.
  intros H L. pose proof (hyp_pos D d H) as P. pose proof (hyp_pos D d' H) as P'.
  pose proof (sqrt_lt_R0 _ P) as S. pose proof (sqrt_lt_R0 _ P') as S'.
  set (r2 := (D / 2) ^ 2) in *. assert (R2 : 0 < r2) by (apply pow2_gt_0; lra).
  set (h := sqrt (d ^ 2 + r2)) in *. set (h' := sqrt (d' ^ 2 + r2)) in *.
  assert (E : h * h = d ^ 2 + r2) by (apply sqrt_sqrt; lra). assert (E' : h' * h' = d' ^ 2 + r2) by (apply sqrt_sqrt; lra).
  assert (G : d * h' < d' * h).
  { destruct (Rlt_le_dec d 0) as [Nd|Nd].
    - destruct (Rle_lt_dec 0 d') as [Pd|Pd]; [nra|].
      (* both negative: (-d') h < (-d) h' *)
      apply Ropp_lt_cancel. replace (- (d' * h)) with ((- d') * h) by ring. replace (- (d * h')) with ((- d) * h') by ring.
      apply Rsqr_incrst_0; [|nra|nra]. unfold Rsqr.
      replace (- d' * h * (- d' * h)) with (d' ^ 2 * (h * h)) by ring. replace (- d * h' * (- d * h')) with (d ^ 2 * (h' * h')) by ring.
      rewrite E, E'. assert (d' ^ 2 < d ^ 2) by nra. nra.
    - apply Rsqr_incrst_0; [|nra|nra]. unfold Rsqr.
      replace (d * h' * (d * h')) with (d ^ 2 * (h' * h')) by ring. replace (d' * h * (d' * h)) with (d' ^ 2 * (h * h)) by ring.
      rewrite E, E'. assert (d ^ 2 < d' ^ 2) by nra. nra. }
  apply Rmult_lt_reg_r with (h * h'); [apply Rmult_lt_0_compat; assumption|].
  replace (d / h * (h * h')) with (d * h') by (field; lra). replace (d' / h' * (h * h')) with (d' * h) by (field; lra). exact G.
Qed.
Lemma fraction_farther D d d' : D <> 0 -> d < d' -> sphere_fraction D d' < sphere_fraction D d.
Proof. intros H L. pose proof (ratio_mono D d d' H L). unfold sphere_fraction. lra. Qed.
Lemma fraction_larger D D' d : 0 < D -> D < D' -> 0 < d -> sphere_fraction D d < sphere_fraction D' d.
Proof.
  intros H L Hd. unfold sphere_fraction.
  assert (P : 0 < d ^ 2 + (D / 2) ^ 2) by (apply hyp_pos; lra).
  assert (sqrt (d ^ 2 + (D / 2) ^ 2) < sqrt (d ^ 2 + (D' / 2) ^ 2)) by (apply sqrt_lt_1_alt; nra).
  pose proof (sqrt_lt_R0 _ P). assert (d / sqrt (d ^ 2 + (D' / 2) ^ 2) < d / sqrt (d ^ 2 + (D / 2) ^ 2)).
  { apply Rmult_lt_compat_l; [exact Hd|]. apply Rinv_lt_contravar; [apply Rmult_lt_0_compat; lra|assumption]. }
  lra.
Qed.
