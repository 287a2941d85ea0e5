(** C53: XRF::getMultilayerFluorescence with the class Elements as its library. *)
From Coq Require Import Ascii String List ZArith Reals Bool Arith Lia Lra Permutation.
From Verif Require Import Base.Num Base.Res Base.RSum Base.SMap Base.Str Base.ListLemmas Model.Beam Model.Material Model.TransmissionTable
  Model.Math Model.Shell Model.Element Model.Formula Model.Elements Model.Layer Model.XRF Model.Multilayer Model.XRFLibrary Spec.ShellSpec Spec.ElementSpec
  Spec.MaterialSpec Spec.LayerSpec Spec.BeamSpec Spec.ElementsSpec Spec.FormulaSpec Spec.MultilayerSpec Spec.LibrarySpec Proofs.BeamProofs Proofs.LayerProofs Proofs.ElementProofs Proofs.ElementsProofs Proofs.ElementsProofs4
  Proofs.ElementsProofs5 Proofs.MultilayerProofs Proofs.LibraryProofs Proofs.LibraryProofs2 Proofs.LibraryProofs3 Proofs.LibraryExample Properties.MultilayerProps.
Import ListNotations.
Local Open Scope string_scope.
Local Open Scope R_scope.
Local Existing Instance RNum.
Local Ltac toR := change (@num RNum) with R in *.

Section Library.
(** a library after an arbitrary history of calls *)
Variables (tostr : R -> string) (depth fuel : nat) (lf : bool) (ops : list (@es_op RNum)) (sortf : list (string * R) -> list (string * R)).
Local Notation es := (es_run tostr depth fuel lf elements_empty ops).
Local Notation xl := (@xlib_of RNum tostr depth fuel sortf es).
Variables (sortr : list R -> list R) (debug lfd : bool) (c : @config RNum).
Local Notation calculate := (@getMultilayerFluorescence RNum sortr debug lfd xl c).
Variables (elements families : list string) (layers : list Z) (secondary useGeo useMass : Z) (limit : R) (over : @beam RNum).

Lemma binding_nonneg b k : nonneg_dist b -> 0 <= val0 b k.
Proof.
  intros H. unfold val0. match goal with |- 0 <= match ?o with _ => _ end => destruct o as [v|] eqn:F end; [|cbn; lra].
  apply mfind_any in F. unfold nonneg_dist in H. rewrite Forall_forall in H. exact (H _ F).
Qed.
Lemma thresholds_nonneg n : plain_library es -> 0 <= threshold xl elements families n.
Proof.
  intros PL. unfold threshold, getEnergyThreshold. cbn [x_binding xlib_of]. unfold elementBinding.
  destruct (Elements.getElement es (element_of elements n)) as [e| | |] eqn:HE; cbn [rmap rbind]; try lra.
  pose proof (pe_binding _ (pl_elements _ PL _ _ HE)) as NB.
  repeat match goal with |- context [if ?b then _ else _] => destruct b end; try (apply binding_nonneg; exact NB). cbn. lra.
Qed.
Lemma all_registered name : name <> "" -> mmem sltb name (es_dict es) = true -> exists e, Elements.getElement es name = Ok e.
Proof.
  intros NE M. pose proof (run_reg tostr depth fuel lf ops _ _ empty_reg) as RG.
  rewrite (proj1 (getElement_registered _ _ name RG)). destruct (String.eqb_spec name ""); [congruence|].
  unfold mmem in M. destruct (mfind sltb name (es_dict es)) as [j|] eqn:F; [|discriminate]. destruct (ro_in _ _ RG _ _ F) as (e & _ & _ & ->). eauto.
Qed.

(** ** C53 The calculation with the Elements library *)
(** The primary fluorescence of every answer is the fundamental parameter sum (C49) with the coefficients,
    excitation factors and compositions that Elements answers; the energies of the lines are the differences of the binding energies. *)
Theorem C53_primary r : plain_library es -> (forall e, In e elements -> one_word e) ->
  calculate elements families layers secondary useGeo useMass limit over = Ok r ->
  let rays := sample_rays xl c over in let comps := sample_compositions xl c in let geo := solid_angles c useGeo in
  forall key i L, one_word L ->
  (line_entry r key i L <> None <-> excited xl c elements families layers useMass comps rays key i L) /\
  forall t, line_entry r key i L = Some t ->
    field t "primary" = primary_sum xl c elements families layers useMass comps (line_energy_in es) rays key i L /\
    exists n, (n < length elements)%nat /\ key = element_of elements n ++ " " ++ family_of families n /\ (i < length (c_sample c))%nat /\
      field t "energy" = line_energy_in es (element_of elements n) L /\
      field t "mu_1_i" = mu_at xl c comps i (line_energy_in es (element_of elements n) L) /\
      field t "efficiency" = detection xl c comps geo i (line_energy_in es (element_of elements n) L) /\
      field t "massFraction" = field (comp_at comps i) (element_of elements n) /\
      field t "energy_threshold" = threshold xl elements families n /\
      ((secondary <= 0)%Z -> field t "secondary" = 0).
Proof.
  intros PL WORDS H. exact (C49_primary _ _ _ _ _ (line_energy_in es) _ _ _ _ _ _ _ _ _ (library_well_formed _ _ _ _ PL) (library_pointwise _ _ _ _ _)
    (library_line_energies _ _ _ _ PL) WORDS (fun n _ => thresholds_nonneg n PL) H).
Qed.
(** The photons of a line that reach the detector are split between the line and its escape peaks (C38). *)
Theorem C53_conservation r key i L t : plain_library es ->
  ((1 < secondary)%Z -> 0 <= d_thrI (c_detector c) /\ contains "esc" L = false) ->
  calculate elements families layers secondary useGeo useMass limit over = Ok r -> one_word L -> line_entry r key i L = Some t ->
  exists esc, escape_peaks xl (c_detector c) (field t "energy") = Ok esc /\
    field t "rate" = (1 - Rsum (map peak_rate esc)) * arriving secondary t /\
    field t "rate" + Rsum (map (fun e => match line_entry r key i (L ++ " " ++ fst e) with Some u => field u "rate" | None => 0 end) esc) = arriving secondary t /\
    field t "secondary" = contributions t.
Proof.
  intros PL ES H OW HL.
  assert (EN : (1 < secondary)%Z -> escape_names xl (c_detector c) /\ contains "esc" L = false).
  { intros Q. destruct (ES Q) as [A B]. split; [apply library_escape_names; assumption|exact B]. }
  destruct (C38_line _ _ _ _ _ _ _ _ _ _ _ _ _ _ _ _ _ _ (library_well_formed _ _ _ _ PL) EN H OW HL) as (esc & E1 & E2 & _ & E3).
  exists esc. split; [exact E1|]. split; [exact E2|]. split; [exact E3|].
  exact (C38_secondary _ _ _ _ _ _ _ _ _ _ _ _ _ _ _ _ _ _ (library_well_formed _ _ _ _ PL) EN H OW HL).
Qed.
(** With complete elements and known compositions the calculation answers: always for primary excitation, and for
    secondary and tertiary excitation in one thick layer. *)
Theorem C53_answers : plain_library es -> complete_library tostr depth fuel es ->
  std_sort_contract (fun a b : string * R => Rltb (snd a) (snd b)) sortf ->
  complete_config tostr depth fuel sortf es c elements families layers useGeo ->
  ((secondary <= 0)%Z \/
   length (c_sample c) = 1%nat /\ 0 < sin_degrees (c_alphaIn c) /\ 0 < sin_degrees (c_alphaOut c) /\
   forall E E', 10 < (mu_at xl c (sample_compositions xl c) 0 E / sin_degrees (c_alphaIn c) +
                      mu_at xl c (sample_compositions xl c) 0 E' / sin_degrees (c_alphaOut c)) * mass_thickness c 0) ->
  exists r, calculate elements families layers secondary useGeo useMass limit over = Ok r.
Proof.
  intros PL CL SORT CC SEC. apply (C50_answers _ _ _ _ _ (line_energy_in es)).
  - apply library_well_formed, PL.
  - apply library_line_energies, PL.
  - intros e I. exact (proj1 (cc_elements _ _ _ _ _ _ _ _ _ _ CC e I)).
  - intros n _. apply thresholds_nonneg, PL.
  - exact (library_complete PL CL CC all_registered).
  - destruct SEC as [SEC|(S1 & S2 & S3 & S4)]; [left; exact SEC|right]. exact (library_bulk PL CL SORT CC S1 S2 S3 S4).
Qed.
End Library.
(** The excitation factors that enter: for photons of energy [E] and weight [w], the line of branching ratio [ratio] of shell [k] has the factor
    ratio x vacancies of [k] after the cascade x fluorescence yield x w, and this times the photoelectric coefficient as its rate.
    The vacancies before the cascade are the shares of the shells in the photoelectric coefficient. *)
Theorem C53_rates (e : @element RNum) (E w : R) mu : good_shells e -> own_labels e -> line_energies_defined e -> el_cascFlag e = false -> el_cacheFlag e = false ->
  Element.getMassAttenuationCoefficients e E = Ok mu -> (forall k, In k photo_names -> 0 <= field mu k) ->
  exists l d v, getPhotoelectricExcitationFactors e E w = Ok l /\ getInitialPhotoelectricVacancyDistribution e E = Ok d /\ getCascadeModifiedVacancyDistribution e d = Ok v /\
    (forall k, In k photo_names -> field d k = if Rltb 0 (field mu "photoelectric") then field mu k / field mu "photoelectric" else 0) /\
    (forall line t, mfind sltb line l = Some t -> exists k sh, mfind sltb k (el_shells e) = Some sh /\ In line (map fst (Shell.getFluorescenceRatios sh))) /\
    forall k sh line ratio, mfind sltb k (el_shells e) = Some sh -> In (line, ratio) (Shell.getFluorescenceRatios sh) ->
      let r := ratio * field v k * field (Shell.getShellConstants sh) "omega" in
      0 <= r /\ (r = 0 -> mfind sltb line l = None) /\
      (0 < r -> exists energy, mfind sltb line l = Some [("energy", energy); ("factor", r * w); ("rate", r * w * field mu "photoelectric")] /\
                forall from, line = (k ++ from)%string -> String.length from = 2%nat -> getTransitionEnergy e line = Ok energy).
Proof. exact (excitation_rates e E w mu). Qed.
Print Assumptions C53_primary.
Print Assumptions C53_conservation.
Print Assumptions C53_answers.
Print Assumptions C53_rates.

(** ** A library built through the API that meets the hypotheses *)
Local Opaque fe.
Definition C53_history : list (@es_op RNum) := [RAdd fe; XEnable 0].
Definition C53_config : @config RNum :=
  mkConfig (mkBeam [mkRay 10 1 0%Z 0; mkRay 20 3 0%Z 0] true) [] [layer_new "Fe" 1 1 1] [layer_new "Fe" 1 10 1] [] [] []
    (Some 0%Z) 90 90 180 (detector_new "Fe" 1 1 1).
Section Example53.
Variables (tostr : R -> string) (lf : bool) (sortf : list (string * R) -> list (string * R)).
Hypothesis SORT : std_sort_contract (fun a b : string * R => Rltb (snd a) (snd b)) sortf.
Local Notation es := (es_run tostr 1 1 lf elements_empty C53_history).
Local Notation xl := (@xlib_of RNum tostr 1 1 sortf es).
Lemma C53_elements name e : Elements.getElement es name = Ok e <-> name = "Fe" /\ e = fe_explicit.
Proof.
  rewrite (proj1 (getElement_registered _ _ name (run_reg tostr 1 1 lf C53_history _ _ empty_reg))).
  destruct (String.eqb_spec name ""); [split; [discriminate|intros [-> _]; discriminate]|]. cbn [fold_left C53_history registered_step].
  rewrite fe_eq. change (el_name fe_explicit) with "Fe". destruct (String.eqb_spec name "Fe") as [->|NE]; [|split; [discriminate|intros [-> _]; congruence]].
  split; [intros H; apply Ok_inj in H; auto|intros [_ ->]; reflexivity].
Qed.
Lemma C53_formula : getCompositionFromFormula tostr 1 es "Fe" = Ok [("Fe", 1)].
Proof.
  pose proof (run_reg tostr 1 1 lf C53_history _ _ empty_reg) as RG.
  assert (SF : symbol "Fe") by (exists "F"%char, "e"; split; [reflexivity|split; [reflexivity|intros x [<-|[]]; reflexivity]]).
  assert (R1 : fold_left (registered_step lf) C53_history (fun _ => None) "Fe" = Some fe) by (cbn [fold_left C53_history registered_step]; rewrite fe_eq; reflexivity).
  assert (M1 : getAtomicMass fe = Ok 56) by (rewrite fe_eq; reflexivity).
  exact (symbol_formula tostr 1 _ _ RG "Fe" fe 56 (le_n 1) SF R1 M1 ltac:(lra)).
Qed.
Lemma C53_Fe : Elements.getComposition tostr 1 1 es "Fe" = Ok [("Fe", 1)].
Proof. cbn [Elements.getComposition]. refine (eq_trans (f_equal (fun z => rbind z _) C53_formula) _). reflexivity. Qed.
Lemma C53_plain : plain_library es.
Proof.
  constructor; [intros name e H; apply C53_elements in H; destruct H as [_ ->]; exact fe_plain|]. left. reflexivity.
Qed.
Lemma C53_complete : complete_library tostr 1 1 es.
Proof. intros name e H. apply C53_elements in H. destruct H as [-> ->]. split; [exact fe_complete|]. split; [reflexivity|exact C53_Fe]. Qed.
Lemma C53_known : known es [("Fe", 1)].
Proof. split; [discriminate|]. intros s x [Q|[]]. injection Q as <- <-. split; [lra|]. exists fe_explicit. apply C53_elements. auto. Qed.
Lemma C53_layer l : l_hasMaterial l = false -> l_materialName l = "Fe" -> getLayerComposition xl C53_config l = Ok [("Fe", 1)].
Proof.
  intros A B. unfold getLayerComposition. rewrite A, B. cbn [x_comp_name xlib_of c_materials C53_config]. 
  cbn [getComposition_with]. refine (eq_trans (f_equal (fun z => rbind z _) C53_formula) _). reflexivity.
Qed.
Lemma C53_configured : complete_config tostr 1 1 sortf es C53_config ["Fe"] ["K"] [0%Z] 1.
Proof.
  constructor.
  - cbn. lia.
  - left. reflexivity.
  - intros f [<-|[]]. discriminate.
  - intros e [<-|[]]. split; [reflexivity|]. exists fe_explicit. apply C53_elements. auto.
  - right. intros i _. eexists. unfold getGeometricEfficiency. cbn. rnorm. rcases; [reflexivity|lra].
  - intros l I. assert (Q : l_density l = 1 /\ 0 < l_thickness l /\ l_hasMaterial l = false /\ l_materialName l = "Fe").
    { destruct I as [<-|[<-|[]]]; cbn; repeat split; lra. }
    destruct Q as (-> & PT & A & B). split; [lra|]. split; [exact PT|]. exists [("Fe", 1)]. split; [apply C53_layer; assumption|exact C53_known].
  - cbn [c_alphaOut C53_config]. rewrite Rabs_pos_eq by lra. replace (90 * PI / 180) with (PI / 2) by field. rewrite sin_PI2. lra.
  - split; [reflexivity|]. right. exists [("Fe", 1)]. split; [exact C53_Fe|exact C53_known].
  - intros _. discriminate.
Qed.
Lemma C53_comps : sample_compositions xl C53_config = [[("Fe", 1)]].
Proof.
  unfold sample_compositions. cbn [c_sample C53_config map]. rewrite (C53_layer (layer_new "Fe" 1 10 1)) by reflexivity. reflexivity.
Qed.
Lemma C53_mu (E : R) : 3 <= mu_at xl C53_config (sample_compositions xl C53_config) 0 E.
Proof.
  rewrite C53_comps. unfold mu_at, getLayerMu, comp_at. cbn [nth x_mu_given xlib_of]. unfold getMu_map, getMu_map_list. cbn [Z.eqb mixtureElements rbind fst snd rmapM].
  unfold mixtureAt. cbn [mixtureSum].
  assert (EA : elementAt es "Fe" = Ok fe_explicit) by (apply element_at, C53_elements; auto). toR. rewrite EA. cbn [rbind].
  destruct (fe_mu E) as (t & HT & _ & _ & TT & _ & _). toR. rewrite HT. cbn [rbind].
  assert (HE : Elements.getElement es "Fe" = Ok fe_explicit) by (apply C53_elements; auto).
  pose proof (element_total C53_plain _ _ HE HT) as ET. rewrite TT in ET.
  unfold vget, muTerm, rmap. cbn [rbind nth_error]. unfold field at 1. cbn. change (@val0 RNum t) with (field t). pose proof (fe_K_range E). 
  toR. lra.
Qed.
Lemma C53_thick : length (c_sample C53_config) = 1%nat /\ 0 < sin_degrees (c_alphaIn C53_config) /\ 0 < sin_degrees (c_alphaOut C53_config) /\
   forall E E', 10 < (mu_at xl C53_config (sample_compositions xl C53_config) 0 E / sin_degrees (c_alphaIn C53_config) +
                      mu_at xl C53_config (sample_compositions xl C53_config) 0 E' / sin_degrees (c_alphaOut C53_config)) * mass_thickness C53_config 0.
Proof.
  assert (S1 : sin_degrees 90 = 1) by (unfold sin_degrees; replace (90 * (PI / 180)) with (PI / 2) by field; apply sin_PI2).
  split; [reflexivity|]. cbn [c_alphaIn c_alphaOut C53_config]. rewrite S1. split; [lra|]. split; [lra|]. intros E E'.
  pose proof (C53_mu E) as A. pose proof (C53_mu E') as B. change (mass_thickness C53_config 0) with (1 * 10). unfold Rdiv. rewrite Rinv_1. toR. lra.
Qed.
(** it answers, with any level of secondary excitation, and the line KL3 is in the answer *)
Theorem C53_example sortr debug lfd secondary limit :
  plain_library es /\ complete_library tostr 1 1 es /\ complete_config tostr 1 1 sortf es C53_config ["Fe"] ["K"] [0%Z] 1 /\
  exists r, @getMultilayerFluorescence RNum sortr debug lfd xl C53_config ["Fe"] ["K"] [0%Z] secondary 1 0 limit beam_init = Ok r /\ line_entry r "Fe K" 0 "KL3" <> None.
Proof.
  split; [exact C53_plain|]. split; [exact C53_complete|]. split; [exact C53_configured|].
  destruct (C53_answers tostr 1 1 lf C53_history sortf sortr debug lfd C53_config ["Fe"] ["K"] [0%Z] secondary 1 0 limit beam_init
    C53_plain C53_complete SORT C53_configured (or_intror C53_thick)) as [r H].
  exists r. split; [exact H|].
  assert (W : forall e, In e ["Fe"] -> one_word e) by (intros e [<-|[]]; reflexivity).
  apply (C53_primary tostr 1 1 lf C53_history sortf sortr debug lfd C53_config ["Fe"] ["K"] [0%Z] secondary 1 0 limit beam_init r C53_plain W H "Fe K" 0%nat "KL3" eq_refl).
  unfold sample_rays. cbn [rays_of b_rays beam_init c_beam C53_config map].
  eexists. exists 0%nat. split; [left; reflexivity|]. split; [cbn; lia|]. cbn [fst snd r_energy r_weight c_filters c_userFilters C53_config map Rprod].
  set (w := filter_transmission _ _ _ _).
  assert (PW : 0 < 1 * (w * 1) * 1).
  { unfold w, filter_transmission, getLayerTransmission, getLayerTransmission_vec. change (@nlit RNum 90 0) with (Rlit 90 0). rewrite lit90.
    assert (P90 : pathThickness (layer_new "Fe" 1 1 1) 90 = 1).
    { rewrite pathThickness_R. cbn [l_density l_thickness layer_new]. rewrite Rabs_pos_eq by lra. replace (90 * PI / 180) with (PI / 2) by field. rewrite sin_PI2. toR. lra. }
    rewrite P90. rnorm. destruct (Rleb_spec 1 0); [lra|].
    destruct (@layer_muv_total tostr 1%nat 1%nat sortf es C53_plain C53_complete C53_config (layer_new "Fe" 1 1 1) [] [10]) as (m & HM & LM & _).
    { intros _. exists [("Fe", 1)]. split; [apply C53_layer; reflexivity|exact C53_known]. }
    { intros Q. congruence. }
    cbn [r_energy]. toR. match goal with |- context [rbind (rbind ?z _) _] => replace z with (Ok m) by (symmetry; exact HM) | |- context [rbind ?z _] => replace z with (Ok m) by (symmetry; exact HM) end. cbn [rbind]. destruct (vval m "total") as [|v [|]]; try discriminate LM. cbn [map vget nth_error rbind of_opt]. 
    rewrite attenuate_R. unfold beer_lambert. cbn [l_funnyFactor layer_new]. pose proof (exp_pos (- (1 * v))). toR. lra. }
  destruct (proj1 (C53_complete "Fe" fe_explicit (proj2 (C53_elements "Fe" fe_explicit) (conj eq_refl eq_refl)))) as [_ FA _ _].
  assert (HE : Elements.getElement es "Fe" = Ok fe_explicit) by (apply C53_elements; auto).
  assert (TH : threshold xl ["Fe"] ["K"] 0 = 71 / 10).
  { unfold threshold, getEnergyThreshold. cbn [x_binding xlib_of element_of nth]. unfold elementBinding. toR. rewrite HE. reflexivity. }
  unfold excites. rewrite TH. destruct (Rleb_spec (71 / 10) 10) as [_|Q]; [|lra].
  destruct (@factors_total _ _ _ sortf es C53_complete "Fe" fe_explicit 10 (1 * (w * 1) * 1) HE) as [rows HR].
  destruct (factors_of _ _ _ _ C53_plain _ _ _ HR) as (e' & HE' & _ & HF). rewrite HE in HE'. apply Ok_inj in HE'. subst e'.
  destruct (fe_KL3 10 _ rows ltac:(lra) PW HF) as (t & HT & PF).
  unfold factor_row. change (element_of ["Fe"] 0) with "Fe". cbn [Beam.r_energy]. toR. rewrite HR. rewrite HT. destruct (Rltb_spec 0 (field t "factor")); [|contradiction].
  replace (Rleb (71 / 10) 10) with true by (symmetry; apply Rleb_true; lra). reflexivity.
Qed.
End Example53.
Print Assumptions C53_example.
