From Coq Require Import String List Bool Arith ZArith Reals Lra Lia.
From Verif Require Import Base.Num Base.Res Base.RSum Base.SMap Base.ListLemmas Model.Material Model.Layer Spec.LayerSpec.
Import ListNotations.

Section LayerR.
Local Existing Instance RNum.
Local Open Scope R_scope.

Lemma lit_R (m : Z) : @nlit RNum m 0 = IZR m.
Proof. cbn. unfold Rlit. cbn. lra. Qed.

Lemma sin_90 : sin (90 * PI / 180) = 1.
Proof. replace (90 * PI / 180) with (PI / 2) by lra. apply sin_PI2. Qed.

Lemma pathThickness_R (l : layer) (a : R) :
  pathThickness l a = l_density l * l_thickness l / sin (Rabs a * PI / 180).
Proof.
  unfold pathThickness. rewrite !lit_R. destruct l as [? ? ? ? f d t]; cbn.
  destruct (Reqb_spec a 90) as [->|_]; [rewrite Rabs_pos_eq, sin_90 by lra; unfold Rdiv; rewrite Rinv_1, Rmult_1_r; reflexivity|].
  rcases; [rewrite Rabs_left by lra|rewrite Rabs_pos_eq by lra]; reflexivity.
Qed.

Lemma attenuate_R (l : layer) (t mu : R) : attenuate l t mu = beer_lambert (l_funnyFactor l) t mu.
Proof. reflexivity. Qed.

Lemma getTransmission_R (lib : library) (l : layer) (e mu a : R) : layer_mu lib l e = Ok mu ->
  getTransmission lib l e a =
  if Rleb (l_density l * l_thickness l / sin (Rabs a * PI / 180)) 0 then Throw RuntimeError
  else Ok (beer_lambert (l_funnyFactor l) (l_density l * l_thickness l / sin (Rabs a * PI / 180)) mu).
Proof. intros H. unfold getTransmission. rewrite H. cbn [rbind]. rewrite pathThickness_R. reflexivity. Qed.

Lemma sin_angle_pos (a : R) : 0 < Rabs a < 180 -> 0 < sin (Rabs a * PI / 180).
Proof. intros H. generalize PI_RGT_0; intros Hp. apply sin_gt_0; [nra|]. nra. Qed.

Lemma transmission_any_angle (lib : library) (l : layer) (e mu a : R) :
  layer_mu lib l e = Ok mu -> 0 < l_density l * l_thickness l -> 0 < Rabs a < 180 ->
  getTransmission lib l e a = Ok (beer_lambert (l_funnyFactor l) (l_density l * l_thickness l / sin (Rabs a * PI / 180)) mu).
Proof.
  intros Hm Hd Ha. rewrite (getTransmission_R _ _ _ _ _ Hm). rcases; [|reflexivity].
  pose proof (sin_angle_pos a Ha) as Hs.
  assert (0 < l_density l * l_thickness l / sin (Rabs a * PI / 180)) by (apply Rdiv_lt_0_compat; assumption).
  exfalso. eapply Rlt_irrefl. eapply Rlt_le_trans; [exact H|exact r].
Qed.

Lemma transmission_normal (lib : library) (l : layer) (e mu : R) :
  layer_mu lib l e = Ok mu -> 0 < l_density l * l_thickness l ->
  getTransmission lib l e 90 = Ok (beer_lambert (l_funnyFactor l) (l_density l * l_thickness l) mu).
Proof.
  intros Hm Hd. rewrite (transmission_any_angle _ _ _ _ 90 Hm Hd) by (rewrite Rabs_pos_eq; lra).
  rewrite Rabs_pos_eq, sin_90 by lra. unfold Rdiv; rewrite Rinv_1, Rmult_1_r. reflexivity.
Qed.

Lemma transmission_thin_throws (lib : library) (l : layer) (e mu a : R) :
  layer_mu lib l e = Ok mu -> sin (Rabs a * PI / 180) <> 0 ->
  l_density l * l_thickness l / sin (Rabs a * PI / 180) <= 0 ->
  getTransmission lib l e a = Throw RuntimeError.
Proof. intros Hm _ Hd. rewrite (getTransmission_R _ _ _ _ _ Hm). rcases; [reflexivity|contradiction]. Qed.

Lemma transmission_sign (lib : library) (l : layer) (e a : R) :
  getTransmission lib l e (- a) = getTransmission lib l e a.
Proof. unfold getTransmission. rewrite !pathThickness_R, Rabs_Ropp. reflexivity. Qed.

Lemma exp_le_1 x : 0 <= x -> 0 < exp (- x) <= 1.
Proof.
  intros H. split; [apply exp_pos|]. destruct (Req_dec x 0) as [->|Hx]; [rewrite Ropp_0, exp_0; lra|].
  left. rewrite <- exp_0. apply exp_increasing. lra.
Qed.

Lemma beer_lambert_range f rt mu : 0 <= f <= 1 -> 0 <= rt -> 0 <= mu -> 1 - f <= beer_lambert f rt mu <= 1.
Proof.
  intros Hf Hr Hm. unfold beer_lambert. assert (H : 0 <= rt * mu) by (apply Rmult_le_pos; lra).
  pose proof (exp_le_1 _ H). nra.
Qed.

Lemma beer_lambert_mono f rt mu rt' mu' : 0 <= f -> 0 <= rt <= rt' -> 0 <= mu <= mu' ->
  beer_lambert f rt' mu' <= beer_lambert f rt mu.
Proof.
  intros Hf Hr Hm. unfold beer_lambert.
  assert (Hx : rt * mu <= rt' * mu') by (apply Rmult_le_compat; lra).
  assert (exp (- (rt' * mu')) <= exp (- (rt * mu))).
  { destruct (Req_dec (rt * mu) (rt' * mu')) as [E|E]; [rewrite E; lra|]. left. apply exp_increasing. lra. }
  nra.
Qed.

Lemma beer_lambert_stack rt1 rt2 mu : beer_lambert 1 (rt1 + rt2) mu = beer_lambert 1 rt1 mu * beer_lambert 1 rt2 mu.
Proof.
  unfold beer_lambert. replace (- ((rt1 + rt2) * mu)) with (- (rt1 * mu) + - (rt2 * mu)) by lra. rewrite exp_plus. lra.
Qed.

(** any two layers: range, monotonicity and product rule of the returned values *)
Lemma transmission_range (lib : library) (l : layer) (e mu a r : R) :
  layer_mu lib l e = Ok mu -> sin (Rabs a * PI / 180) <> 0 -> 0 <= mu -> 0 <= l_funnyFactor l <= 1 ->
  getTransmission lib l e a = Ok r -> 1 - l_funnyFactor l <= r <= 1.
Proof.
  intros Hm _ Hmu Hf H. rewrite (getTransmission_R _ _ _ _ _ Hm) in H. rcases; [discriminate|].
  injection H as <-. apply beer_lambert_range; [assumption| |assumption].
  apply Rlt_le, Rnot_le_lt. assumption.
Qed.

Lemma transmission_monotone (lib lib' : library) (l l' : layer) (e e' mu mu' r r' : R) :
  layer_mu lib l e = Ok mu -> layer_mu lib' l' e' = Ok mu' -> 0 <= mu <= mu' ->
  l_funnyFactor l = l_funnyFactor l' -> 0 <= l_funnyFactor l ->
  0 < l_density l -> l_density l <= l_density l' -> 0 < l_thickness l -> l_thickness l <= l_thickness l' ->
  getTransmission lib l e 90 = Ok r -> getTransmission lib' l' e' 90 = Ok r' -> r' <= r.
Proof.
  intros Hm Hm' Hmu Hf Hf0 Hd Hd' Ht Ht' H H'.
  assert (P : 0 < l_density l * l_thickness l) by (apply Rmult_lt_0_compat; assumption).
  assert (Q : l_density l * l_thickness l <= l_density l' * l_thickness l')
    by (apply Rmult_le_compat; [apply Rlt_le, Hd|apply Rlt_le, Ht|exact Hd'|exact Ht']).
  assert (P' : 0 < l_density l' * l_thickness l') by (eapply Rlt_le_trans; [exact P|exact Q]).
  rewrite (transmission_normal _ _ _ _ Hm P) in H. rewrite (transmission_normal _ _ _ _ Hm' P') in H'.
  injection H as <-. injection H' as <-. rewrite <- Hf. apply beer_lambert_mono; [exact Hf0| |exact Hmu].
  split; [apply Rlt_le, P|exact Q].
Qed.

Lemma transmission_stack (lib : library) (l l1 l2 : layer) (e mu r r1 r2 : R) :
  layer_mu lib l e = Ok mu -> layer_mu lib l1 e = Ok mu -> layer_mu lib l2 e = Ok mu ->
  l_funnyFactor l = 1 -> l_funnyFactor l1 = 1 -> l_funnyFactor l2 = 1 ->
  0 < l_density l -> l_density l1 = l_density l -> l_density l2 = l_density l ->
  0 < l_thickness l1 -> 0 < l_thickness l2 -> l_thickness l = l_thickness l1 + l_thickness l2 ->
  getTransmission lib l e 90 = Ok r -> getTransmission lib l1 e 90 = Ok r1 -> getTransmission lib l2 e 90 = Ok r2 ->
  r = r1 * r2.
Proof.
  intros Hm Hm1 Hm2 Hf Hf1 Hf2 Hd Hd1 Hd2 Ht1 Ht2 Ht H H1 H2.
  destruct l as [n1 n2 n3 n4 f d t], l1 as [m1 m2 m3 m4 f1 d1 t1], l2 as [k1 k2 k3 k4 f2 d2 t2].
  rewrite (transmission_normal _ _ _ _ Hm) in H.
  2: { cbn in *. apply Rmult_lt_0_compat; [exact Hd|]. rewrite Ht. lra. }
  rewrite (transmission_normal _ _ _ _ Hm1) in H1.
  2: { cbn in *. apply Rmult_lt_0_compat; [rewrite Hd1; exact Hd|exact Ht1]. }
  rewrite (transmission_normal _ _ _ _ Hm2) in H2.
  2: { cbn in *. apply Rmult_lt_0_compat; [rewrite Hd2; exact Hd|exact Ht2]. }
  injection H as <-. injection H1 as <-. injection H2 as <-. cbn in *.
  rewrite Hf, Hf1, Hf2, Hd1, Hd2, Ht, Rmult_plus_distr_l. apply beer_lambert_stack.
Qed.

(** C10 *)
Lemma setMaterial_thickness (l : layer) (m : @material RNum) :
  l_thickness (setMaterial_mat l m) = (if Rle_dec (l_thickness l) 0 then getDefaultThickness m else l_thickness l).
Proof.
  destruct l as [? ? ? ? f d t]; cbn. unfold Rleb. destruct (Rle_dec t 0); reflexivity.
Qed.
Lemma setMaterial_density (l : layer) (m : @material RNum) :
  l_density (setMaterial_mat l m) = (if Rlt_dec (l_density l) 0 then getDefaultDensity m else l_density l).
Proof.
  destruct l as [? ? ? ? f d t]; cbn. unfold Rltb. destruct (Rlt_dec d 0); reflexivity.
Qed.

Lemma default_density_throws (lib : library) (name : string) (m : @material RNum) (e a mu : R) :
  layer_mu lib (setMaterial_mat (layer_default name) m) e = Ok mu ->
  sin (Rabs a * PI / 180) <> 0 ->
  getTransmission lib (setMaterial_mat (layer_default name) m) e a = Throw RuntimeError.
Proof.
  intros Hm Hs. apply (transmission_thin_throws _ _ _ mu); [exact Hm|exact Hs|].
  cbn. rcases; [exfalso; lra|]. unfold Rdiv. rewrite !Rmult_0_l. apply Rle_refl.
Qed.

(** C11 *)
Lemma Rlit_quarter : Rlit 25 (-2) = / 4.
Proof. unfold Rlit. simpl. lra. Qed.
Lemma area_of_diameter (a : R) : 0 <= a -> Rlit 25 (-2) * PI * (2 * R_sqrt.sqrt (a / PI) * (2 * R_sqrt.sqrt (a / PI))) = a.
Proof.
  intros H. pose proof PI_RGT_0 as Hp.
  replace (2 * R_sqrt.sqrt (a / PI) * (2 * R_sqrt.sqrt (a / PI))) with (4 * (R_sqrt.sqrt (a / PI) * R_sqrt.sqrt (a / PI))) by lra.
  rewrite R_sqrt.sqrt_sqrt by (apply Rmult_le_pos; [assumption|left; apply Rinv_0_lt_compat; assumption]).
  rewrite Rlit_quarter. field. lra.
Qed.

Lemma setActiveArea_exact (d : detector) (a : R) :
  (0 <= a -> exists d', setActiveArea d a = (d', Ok tt) /\ getActiveArea d' = a /\ 0 <= getDiameter d' /\ getDistance d' = getDistance d) /\
  (a < 0 -> setActiveArea d a = (d, Throw InvalidArgument)).
Proof.
  unfold setActiveArea. cbn. split; intros H; rcases; try lra; try reflexivity.
  eexists. split; [reflexivity|]. cbn. replace (Rlit 2 0) with 2 by (unfold Rlit; cbn; lra).
  split; [apply area_of_diameter; assumption|]. split; [|reflexivity].
  pose proof (R_sqrt.sqrt_pos (a / PI)). lra.
Qed.

Lemma setDiameter_exact (d : detector) (v : R) :
  (0 <= v -> exists d', setDiameter d v = (d', Ok tt) /\ getDiameter d' = v /\ getActiveArea d' = PI * v * v / 4 /\ getDistance d' = getDistance d) /\
  (v < 0 -> setDiameter d v = (d, Throw InvalidArgument)).
Proof.
  unfold setDiameter. cbn. split; intros H; rcases; try lra; try reflexivity.
  eexists. split; [reflexivity|]. cbn. split; [reflexivity|]. split; [rewrite Rlit_quarter; lra|reflexivity].
Qed.

Lemma setDistance_exact (d : detector) (v : R) :
  (0 < v -> exists d', setDistance d v = (d', Ok tt) /\ getDistance d' = v /\ getDiameter d' = getDiameter d) /\
  (v <= 0 -> setDistance d v = (d, Throw InvalidArgument)).
Proof.
  unfold setDistance. cbn. split; intros H; rcases; try lra; try reflexivity.
  eexists. split; [reflexivity|]. split; reflexivity.
Qed.

Lemma det_step_geometry lf (lib : library) (d : detector) o :
  0 <= getDiameter d /\ 0 < getDistance d ->
  0 <= getDiameter (det_step lf lib d o) /\ 0 < getDistance (det_step lf lib d o).
Proof.
  intros H. destruct d as [ly di ds te ti nt al ca]. cbn in H.
  destruct o; cbn [det_step]; try exact H.
  - destruct (Rlt_dec a 0) as [Ha|Ha].
    + rewrite (proj2 (setActiveArea_exact _ a) Ha). exact H.
    + destruct (proj1 (setActiveArea_exact (mkDetector ly di ds te ti nt al ca) a) (Rnot_lt_le _ _ Ha)) as (d' & -> & _ & Hd & Hs).
      cbn [fst]. split; [exact Hd|rewrite Hs; apply H].
  - destruct (Rlt_dec v 0) as [Ha|Ha].
    + rewrite (proj2 (setDiameter_exact _ v) Ha). exact H.
    + destruct (proj1 (setDiameter_exact (mkDetector ly di ds te ti nt al ca) v) (Rnot_lt_le _ _ Ha)) as (d' & -> & Hd & _ & Hs).
      cbn [fst]. rewrite Hd, Hs. split; [apply Rnot_lt_le, Ha|apply H].
  - destruct (Rle_dec v 0) as [Ha|Ha].
    + rewrite (proj2 (setDistance_exact _ v) Ha). exact H.
    + destruct (proj1 (setDistance_exact (mkDetector ly di ds te ti nt al ca) v) (Rnot_le_lt _ _ Ha)) as (d' & -> & Hd & Hs).
      cbn [fst]. rewrite Hd, Hs. split; [apply H|apply Rnot_le_lt, Ha].
  - unfold det_setDensity. destruct (setDensity _ v). exact H.
  - unfold det_setThickness. destruct (setThickness _ v). exact H.
  - unfold det_getEscape. destruct (Nat.ltb _ _); [|exact H]. destruct (Z.eqb update 0); cbn [d_cache with_cache];
      (destruct (cacheFind _ label energy); [exact H|]);
      (destruct (computeEscape _ _ energy); destruct lf; exact H).
Qed.

Lemma det_run_geometry lf (lib : library) name (de th ff : R) l :
  let d := det_run lf lib (detector_new name de th ff) l in 0 <= getDiameter d /\ 0 < getDistance d.
Proof.
  cbv zeta. assert (H0 : 0 <= getDiameter (detector_new name de th ff) /\ 0 < getDistance (detector_new name de th ff)).
  { cbn. unfold Rlit; cbn; lra. }
  revert H0. generalize (detector_new name de th ff). induction l as [|o l IH]; intros d H; [exact H|].
  cbn. apply IH, det_step_geometry, H.
Qed.
End LayerR.

Section Vec.
Context {N : Num}.
(** element-wise answer of the library's vector overload *)
Lemma transmission_vector (lib : library) (l : layer) (es : list num) (angle : num) :
  layer_muv lib l es = rmapM (layer_mu lib l) es -> es <> [] ->
  (forall e, In e es -> exists mu, layer_mu lib l e = Ok mu) ->
  getTransmission_vec lib l es angle = rmapM (fun e => getTransmission lib l e angle) es.
Proof.
  intros Hv Hne Hok. unfold getTransmission_vec, getTransmission. rewrite Hv.
  destruct (nleb (pathThickness l angle) n0) eqn:E.
  - destruct es as [|e es]; [congruence|]. cbn. destruct (Hok e) as [mu ->]; [now left|]. reflexivity.
  - clear Hv Hne. induction es as [|e es IH]; [reflexivity|]. cbn.
    destruct (Hok e) as [mu ->]; [now left|]. cbn.
    rewrite <- IH by (intros x Hx; apply Hok; now right).
    destruct (rmapM (layer_mu lib l) es); reflexivity.
Qed.

(** C12 *)
Hypothesis ST : StrictTotal (@nltb N).
Variable lib : @library N.
Variable lf : bool.
Hypothesis no_failure : lf = true -> forall d e, exists v, computeEscape lib d e = Ok v.

Definition cache_sorted (c : list (string * list (num * escape))) : Prop :=
  msorted sltb c /\ forall lab m, mfind sltb lab c = Some m -> msorted nltb m.

Definition cache_inv (d : detector) : Prop :=
  cache_sorted (d_cache d) /\
  forall lab e v, cacheFind (d_cache d) lab e = Some v -> computeEscape lib d e = Ok v.

Lemma cacheSet_sorted c lab e v : cache_sorted c -> cache_sorted (cacheSet c lab e v).
Proof.
  intros [H1 H2]. unfold cacheSet. split; [apply smset_sorted, H1|].
  intros lab' m Hm. destruct (string_dec lab lab') as [<-|Hn].
  - rewrite smfind_mset_same in Hm. injection Hm as <-. apply mset_sorted; [exact ST|].
    destruct (mfind sltb lab c) eqn:E; [eapply H2, E|apply msorted_nil].
  - rewrite smfind_mset_other in Hm; auto. eapply H2, Hm.
Qed.

Lemma cacheFind_set c lab e v lab' e' : cache_sorted c ->
  cacheFind (cacheSet c lab e v) lab' e' =
  if string_dec lab lab' then (if st_eq_dec (ST:=ST) e e' then Some v else cacheFind c lab' e')
  else cacheFind c lab' e'.
Proof.
  intros [H1 H2]. unfold cacheFind, cacheSet. destruct (string_dec lab lab') as [<-|Hn].
  - rewrite smfind_mset_same. destruct (st_eq_dec e e') as [<-|He].
    + apply mfind_mset_same. exact ST.
    + rewrite mfind_mset_other; auto.
      * destruct (mfind sltb lab c); reflexivity.
      * destruct (mfind sltb lab c) eqn:E; [eapply H2, E|apply msorted_nil].
  - rewrite smfind_mset_other; auto.
Qed.

Lemma cache_inv_nil d : d_cache d = [] -> cache_inv d.
Proof.
  intros H. unfold cache_inv, cache_sorted, cacheFind. rewrite H. cbn.
  repeat split; try discriminate. apply smsorted_nil.
Qed.

Lemma computeEscape_with_cache d c e : computeEscape lib (with_cache d c) e = computeEscape lib d e.
Proof. reflexivity. Qed.

Lemma getEscape_correct d e lab u : cache_inv d ->
  snd (det_getEscape lf lib d e lab u) = computeEscape lib d e /\ cache_inv (fst (det_getEscape lf lib d e lab u)).
Proof.
  intros Hinv. unfold det_getEscape. destruct (Nat.ltb 0 (String.length lab)); [|split; [reflexivity|exact Hinv]].
  set (d1 := if Z.eqb u 0 then d else with_cache d []).
  assert (H1 : cache_inv d1) by (unfold d1; destruct (Z.eqb u 0); [exact Hinv|apply cache_inv_nil; reflexivity]).
  assert (HC : forall x, computeEscape lib d1 x = computeEscape lib d x) by (intros; unfold d1; destruct (Z.eqb u 0); reflexivity).
  clearbody d1. destruct H1 as [Hs Hc]. destruct (cacheFind (d_cache d1) lab e) as [v|] eqn:E.
  - cbn. split; [rewrite <- HC; symmetry; eapply Hc, E|split; assumption].
  - destruct (computeEscape lib d1 e) as [v|x| |] eqn:F.
    1: { cbn. split; [rewrite <- HC; auto|]. split; [apply cacheSet_sorted, Hs|].
      intros lab' e' v' Hf. cbn [d_cache with_cache] in Hf. rewrite computeEscape_with_cache.
      rewrite cacheFind_set in Hf by exact Hs. destruct (string_dec lab lab').
      - destruct (st_eq_dec e e') as [<-|]; [injection Hf as <-; exact F|eapply Hc, Hf].
      - eapply Hc, Hf. }
    all: assert (Hlf : lf = false) by (destruct lf; [destruct (no_failure eq_refl d1 e); congruence|reflexivity]).
    all: rewrite Hlf; cbn; split; [rewrite <- HC; auto|split; assumption].
Qed.

Lemma det_step_inv d o : cache_inv d -> cache_inv (det_step lf lib d o).
Proof.
  intros H. destruct o; cbn [det_step]; try (apply cache_inv_nil; reflexivity).
  - unfold setActiveArea. destruct (nltb a n0); exact H.
  - unfold setDiameter. destruct (nltb v n0); exact H.
  - unfold setDistance. destruct (nleb v n0); exact H.
  - unfold det_setDensity, setDensity. destruct (nleb v n0); exact H.
  - unfold det_setThickness, setThickness. destruct (nleb v n0); exact H.
  - apply getEscape_correct, H.
Qed.

Lemma det_run_transparent name de th ff hist e lab u :
  let d := det_run lf lib (detector_new name de th ff) hist in
  snd (det_getEscape lf lib d e lab u) = computeEscape lib d e.
Proof.
  cbv zeta. apply getEscape_correct. unfold det_run.
  assert (H : cache_inv (detector_new name de th ff)) by (apply cache_inv_nil; reflexivity).
  revert H. generalize (detector_new name de th ff). induction hist as [|o l IH]; intros d H; [exact H|].
  cbn. apply IH, det_step_inv, H.
Qed.
End Vec.
