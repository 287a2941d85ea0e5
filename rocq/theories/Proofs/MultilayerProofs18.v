(** Multilayer: filters, structure of the answer, wrappers. *)
From Coq Require Import Ascii String List ZArith Reals Bool Arith Lia Lra Permutation.
From Verif Require Import Base.Num Base.Res Base.RSum Base.SMap Base.Str Base.ListLemmas Model.Beam Model.Material Model.TransmissionTable
  Model.Math Model.Shell Model.Element Model.Layer Model.XRF Model.Multilayer Spec.LayerSpec Spec.MultilayerSpec Proofs.LayerProofs Proofs.MultilayerProofs
  Proofs.MultilayerProofs2 Proofs.MultilayerProofs3 Proofs.MultilayerProofs9.
Import ListNotations.
Set Implicit Arguments.
Local Open Scope string_scope.
Local Open Scope R_scope.
Local Existing Instance RNum.

Lemma answer_filters_Ok sortf debug lf xl c elements families layers secondary useGeo useMass limit over r :
  @getMultilayerFluorescence RNum sortf debug lf xl c elements families layers secondary useGeo useMass limit over = Ok r ->
  exists w, filteredWeights xl c (map Beam.r_energy (rays_of c over)) (map Beam.r_weight (rays_of c over)) = Ok w.
Proof.
  intros H. unfold getMultilayerFluorescence in H. fold (rays_of c over) in H. cbv zeta in H. obind H comps CO. obind H ws FW. exists ws. reflexivity.
Qed.
Lemma filters_as_beam sortf debug lf xl c elements families layers secondary useGeo useMass limit over over' r : pointwise xl ->
  map (fun x => (Beam.r_energy x, Beam.r_weight x)) (rays_of c over') = sample_rays xl c over ->
  @getMultilayerFluorescence RNum sortf debug lf xl c elements families layers secondary useGeo useMass limit over = Ok r ->
  @getMultilayerFluorescence RNum sortf debug lf xl (unfiltered c) elements families layers secondary useGeo useMass limit over' = Ok r.
Proof.
  intros PW HR H. destruct (answer_filters_Ok _ _ _ _ _ _ _ _ _ _ _ _ _ H) as [w FW].
  assert (HE : map Beam.r_energy (rays_of c over) = map Beam.r_energy (rays_of c over')).
  { assert (Q := f_equal (map fst) HR). rewrite map_map in Q. unfold sample_rays in Q. rewrite map_map in Q. cbn [fst] in Q. symmetry. exact Q. }
  assert (HW : map Beam.r_weight (rays_of c over') = map snd (sample_rays xl c over)).
  { rewrite <- HR. rewrite map_map. reflexivity. }
  refine (@filters_only_weights sortf debug lf xl c [] [] elements families layers secondary useGeo useMass limit over over' w _ HE FW _ H).
  unfold filteredWeights. cbn [c_filters c_userFilters setBeamFilters setUserBeamFilters rfold rbind]. f_equal. rewrite HW. symmetry.
  destruct (@filtered_product xl c _ _ _ PW FW) as [L P]. apply list_ext.
  - unfold sample_rays. rewrite !map_length. rewrite map_length in L. exact L.
  - intros k. destruct (nth_error (rays_of c over) k) as [x|] eqn:N.
    + refine (eq_trans (P k (Beam.r_energy x) _) _); [rewrite nth_error_map, N; reflexivity|]. unfold sample_rays. rewrite map_map. cbn [snd].
      transitivity (Beam.r_weight x * Rprod (map (fun l => filter_transmission xl c l (Beam.r_energy x)) (c_filters c)) *
         Rprod (map (fun t => TransmissionTable.getTransmission t (Beam.r_energy x)) (c_userFilters c))).
      * f_equal. f_equal. apply nth_error_nth. rewrite nth_error_map, N. reflexivity.
      * symmetry. apply nth_error_nth. rewrite nth_error_map, N. reflexivity.
    + apply nth_error_None in N. rewrite !nth_overflow; [reflexivity| |]; [unfold sample_rays; rewrite !map_length; exact N|].
      rewrite map_length in L. toR. rewrite L. exact N.
Qed.
Lemma filters_order sortf debug lf xl c F U elements families layers secondary useGeo useMass limit over r :
  Permutation (c_filters c) F -> Permutation (c_userFilters c) U ->
  @getMultilayerFluorescence RNum sortf debug lf xl c elements families layers secondary useGeo useMass limit over = Ok r ->
  @getMultilayerFluorescence RNum sortf debug lf xl (setBeamFilters (setUserBeamFilters c U) F) elements families layers secondary useGeo useMass limit over = Ok r.
Proof.
  intros PF PU H. destruct (answer_filters_Ok _ _ _ _ _ _ _ _ _ _ _ _ _ H) as [w FW].
  refine (@filters_only_weights sortf debug lf xl c F U elements families layers secondary useGeo useMass limit over over w _ eq_refl FW _ H).
  exact (@filtered_perm xl c F U _ _ _ PF PU FW).
Qed.
Lemma Rprod_range l : (forall x, In x l -> 0 <= x <= 1) -> 0 <= Rprod l <= 1.
Proof.
  induction l as [|a l IH]; intros H; cbn; [lra|]. pose proof (H a (or_introl eq_refl)). specialize (IH (fun x I => H x (or_intror I))). split; [apply Rmult_le_pos; lra|].
  replace 1 with (1 * 1) by ring. apply Rmult_le_compat; lra.
Qed.
Lemma filter_transmission_range xl c l E : 0 <= l_funnyFactor l <= 1 ->
  (forall comp m v, x_muv xl comp [E] = Ok m -> In v (vval m "total") -> 0 <= v) -> 0 <= filter_transmission xl c l E <= 1.
Proof.
  intros HF HM. unfold filter_transmission, getLayerTransmission, getLayerTransmission_vec. rnorm. change (@nlit RNum 90 0) with (Rlit 90 0).
  destruct (Rleb (pathThickness l (Rlit 90 0)) 0) eqn:PT; [cbn; lra|]. apply Rleb_false in PT. unfold getLayerMu_vec.
  destruct (getLayerComposition xl c l) as [k| | |]; cbn [rbind]; try lra.
  match goal with |- context [x_muv ?a ?b ?e] => destruct (x_muv a b e) as [m| | |] eqn:M end; cbn [rbind]; try lra.
  match goal with |- context [vval ?a ?b] => destruct (vval a b) as [|v r] eqn:V end; cbn [map rbind]; [cbn; lra|]. change (vget _ 0) with (Ok (attenuate l (pathThickness l (Rlit 90 0)) v)). cbv iota. rewrite attenuate_R.
  assert (0 <= v) by (apply (HM k m v M); rewrite V; left; reflexivity).
  pose proof (@beer_lambert_range (l_funnyFactor l) (pathThickness l (Rlit 90 0)) v HF) as Q.
  assert (0 <= pathThickness l (Rlit 90 0)) by (apply Rlt_le, Rnot_le_lt, PT). specialize (Q H0 H). destruct HF, Q. split; toR; [|assumption]. 
  apply Rle_trans with (1 - l_funnyFactor l); [lra|assumption].
Qed.

(** ** Signs and bounds of the primary fluorescence *)
Lemma escape_factor chi m : 0 < chi -> 0 <= m -> 0 <= (1 - exp (- chi * m)) / chi <= m /\ (1 - exp (- chi * m)) / chi <= 1 / chi.
Proof.
  intros Hc Hm. assert (P : 0 <= chi * m) by (apply Rmult_le_pos; lra). destruct (exp_le_1 _ P) as [E1 E2].
  replace (- chi * m) with (- (chi * m)) by ring.
  assert (E3 : 1 - chi * m <= exp (- (chi * m))) by (pose proof (exp_ineq1_le (- (chi * m))); lra).
  assert (I : 0 < / chi) by (apply Rinv_0_lt_compat, Hc). unfold Rdiv. repeat split.
  - apply Rmult_le_pos; lra.
  - apply Rmult_le_reg_r with chi; [exact Hc|]. rewrite Rmult_assoc, Rinv_l by lra. lra.
  - apply Rmult_le_compat_r; lra.
Qed.
Section Bounds.
Variables (xl : @xlib RNum) (c : @config RNum) (elements families : list string) (layers : list Z) (useMass : Z) (comps : list (list (string * R))).
Hypothesis SI : 0 < sin_degrees (c_alphaIn c).
Hypothesis SO : 0 < sin_degrees (c_alphaOut c).
Hypothesis MU : forall i E, 0 < mu_at xl c comps i E.
Hypothesis MT : forall i, 0 <= mass_thickness c i.
Hypothesis FR : forall i element, 0 <= field (comp_at comps i) element.
Hypothesis RT : forall element line E w t, 0 <= w -> factor_row xl element line E w = Some t -> 0 <= field t "rate".
Lemma primary_of_bounds n E w i line EL : 0 <= w ->
  0 <= primary_of xl c elements useMass comps n E w i line EL <= primary_thin xl c elements useMass comps n E w i line.
Proof.
  intros Hw. unfold primary_of, primary_thin. set (chi := mu_at xl c comps i E / _ + _).
  assert (HC : 0 < chi) by (unfold chi; apply Rplus_lt_0_compat; apply Rdiv_lt_0_compat; auto).
  destruct (@escape_factor chi (mass_thickness c i) HC (MT i)) as [[A B] _].
  set (m := if (useMass =? 0)%Z then 1 else _).
  assert (Hm : 0 <= m) by (unfold m; destruct (useMass =? 0)%Z; [lra|apply FR]).
  assert (Hm' : 0 <= m / sin_degrees (c_alphaIn c)) by (unfold Rdiv; apply Rmult_le_pos; [exact Hm|left; apply Rinv_0_lt_compat, SI]).
  set (rt := match factor_row _ _ _ _ _ with Some t => _ | None => 0 end).
  assert (Hr : 0 <= rt) by (unfold rt; destruct (factor_row xl (element_of elements n) line E w) eqn:F; [exact (RT _ _ _ Hw F)|lra]).
  assert (Hb : 0 <= beam_at xl c comps i E) by (unfold beam_at; left; apply exp_pos).
  split; [apply Rmult_le_pos; [apply Rmult_le_pos; [apply Rmult_le_pos|]|]; assumption|]. repeat (apply Rmult_le_compat_r; [assumption|]). exact B.
Qed.
Lemma beam_at_range i E : 0 < beam_at xl c comps i E <= 1 /\ beam_at xl c comps (S i) E <= beam_at xl c comps i E.
Proof.
  assert (P : forall j, 0 <= mass_thickness c j * mu_at xl c comps j E / sin_degrees (c_alphaIn c)).
  { intros j. unfold Rdiv. apply Rmult_le_pos; [apply Rmult_le_pos; [apply MT|left; apply MU]|left; apply Rinv_0_lt_compat, SI]. }
  unfold beam_at. split; [apply exp_le_1, Rsum_map_nonneg; intros; apply P|].
  rewrite seq_S, map_app, Rsum_app. cbn [map Rsum].
  set (a := Rsum _). specialize (P (0 + i)%nat). set (b := _ / _) in *. toR.
  replace (- (a + (b + 0))) with (- a + - b) by ring. rewrite exp_plus. pose proof (exp_le_1 _ P). pose proof (exp_pos (- a)).
  rewrite <- (Rmult_1_r (exp (- a))) at 2. apply Rmult_le_compat_l; lra.
Qed.
End Bounds.
