(** C38, C39, C49-C52: XRF::getMultilayerFluorescence. *)
From Coq Require Import Ascii String List ZArith Reals Bool Arith Lia Lra Permutation.
From Verif Require Import Base.Num Base.Res Base.RSum Base.SMap Base.Str Base.ListLemmas Model.Beam Model.Material Model.TransmissionTable
  Model.Math Model.Shell Model.Element Model.Layer Model.XRF Model.Multilayer Spec.MultilayerSpec Proofs.LayerProofs Proofs.MultilayerProofs
  Proofs.MultilayerProofs2 Proofs.MultilayerProofs4 Proofs.MultilayerProofs5 Proofs.MultilayerProofs7 Proofs.MultilayerProofs8 Proofs.MultilayerProofs11 Proofs.MultilayerProofs12
  Proofs.MultilayerProofs15 Proofs.MultilayerProofs16 Proofs.MultilayerProofs17 Proofs.MultilayerProofs18 Proofs.MultilayerExample.
Import ListNotations.
Local Open Scope string_scope.
Local Open Scope R_scope.
Local Existing Instance RNum.

Section Calculation.
Variables (sortf : list R -> list R) (debug lf : bool) (xl : @xlib RNum) (c : @config RNum).
Local Notation calculate := (@getMultilayerFluorescence RNum sortf debug lf xl).

(** ** C38 Escape redistribution conserves intensity *)
(** One line: what the line keeps and what its escape peaks get add up to the photons that arrive;
    every escape peak has its share of them and its ratio. *)
Theorem C38_line elements families layers secondary useGeo useMass limit over r key i L t :
  well_formed xl ->
  ((1 < secondary)%Z -> escape_names xl (c_detector c) /\ contains "esc" L = false) ->
  calculate c elements families layers secondary useGeo useMass limit over = Ok r ->
  one_word L -> line_entry r key i L = Some t ->
  exists esc, escape_peaks xl (c_detector c) (field t "energy") = Ok esc /\
    field t "rate" = (1 - Rsum (map peak_rate esc)) * arriving secondary t /\
    Forall (fun e => exists u, line_entry r key i (L ++ " " ++ fst e) = Some u /\ field u "ratio" = peak_rate e /\
                       field u "rate" = peak_rate e * arriving secondary t /\ field u "energy" = field (snd e) "energy" /\
                       field u "primary" = peak_rate e * field t "primary" /\ field u "secondary" = peak_rate e * field t "secondary") esc /\
    field t "rate" + Rsum (map (fun e => match line_entry r key i (L ++ " " ++ fst e) with Some u => field u "rate" | None => 0 end) esc) = arriving secondary t.
Proof.
  intros WF EN H OW HL. pose proof (@answer_settled sortf debug lf xl c WF _ _ _ _ _ _ _ _ _ _ _ _ _ EN H OW HL) as (_ & esc & ES & RT & FA).
  exists esc. split; [exact ES|]. fold (arriving secondary t) in *. unfold tertiary_of in *. split; [exact RT|].
  assert (G : forall e, In e esc -> exists u, line_entry r key i (L ++ " " ++ fst e) = Some u /\ field u "ratio" = peak_rate e /\
                       field u "rate" = peak_rate e * arriving secondary t /\ field u "energy" = field (snd e) "energy" /\
                       field u "primary" = peak_rate e * field t "primary" /\ field u "secondary" = peak_rate e * field t "secondary").
  { intros e I. rewrite Forall_forall in FA. destruct (FA e I) as (u & q & HR & FU & K1 & K2 & K3 & K4 & K5).
    assert (PR : peak_rate e = q) by (unfold peak_rate, field; rewrite HR; reflexivity). rewrite PR. exists u. rewrite line_entry_layerTable.
    repeat split; assumption. }
  split; [rewrite Forall_forall; exact G|].
  assert (Q : Rsum (map (fun e => match line_entry r key i (L ++ " " ++ fst e) with Some u => field u "rate" | None => 0 end) esc) = Rsum (map peak_rate esc) * arriving secondary t).
  { transitivity (Rsum (map (fun e => arriving secondary t * peak_rate e) esc)); [|rewrite Rsum_mult_l; ring]. apply Rsum_ext. intros e I.
    destruct (G e I) as (u & FU & _ & K & _). rewrite FU, K. ring. }
  toR. rewrite Q, RT. unfold arriving. ring.
Qed.
(** One layer: the rates of all the entries, lines and escape peaks, add up to the photons of the lines that arrive:
    nothing is lost, nothing is counted twice. *)
Theorem C38_layer elements families layers secondary useGeo useMass limit over r key i :
  well_formed xl ->
  ((1 < secondary)%Z -> escape_names xl (c_detector c) /\ forall L t, line_entry r key i L = Some t -> one_word L -> contains "esc" L = false) ->
  calculate c elements families layers secondary useGeo useMass limit over = Ok r ->
  Rsum (map (fun e => field (snd e) "rate") (entries r key i)) =
  Rsum (map (fun e => arriving secondary (snd e)) (filter (fun e => negb (has_space (fst e))) (entries r key i))).
Proof.
  intros WF EN H. change (entries r key i) with (layerTable r key i).
  pose proof (@layerTable_answer sortf debug lf xl c WF _ _ _ _ _ _ _ _ _ key i H) as WH.
  apply (@layer_total xl c WF _ (tertiary_of secondary) WH). intros L t I OW.
  assert (HL : line_entry r key i L = Some t) by (rewrite line_entry_layerTable; apply (smfind_In _ _ (proj1 (proj1 WH))), I).
  apply (@answer_settled sortf debug lf xl c WF elements families layers secondary useGeo useMass limit over r key i L t); auto.
  intros Q. destruct (EN Q) as [A B]. split; [exact A|]. exact (B L t HL OW).
Qed.
(** No rate is negative if the ratios add up to at most 1 and the arriving photons are not negative. *)
Theorem C38_nonnegative elements families layers secondary useGeo useMass limit over r key i L t esc :
  well_formed xl ->
  ((1 < secondary)%Z -> escape_names xl (c_detector c) /\ contains "esc" L = false) ->
  calculate c elements families layers secondary useGeo useMass limit over = Ok r ->
  one_word L -> line_entry r key i L = Some t ->
  escape_peaks xl (c_detector c) (field t "energy") = Ok esc ->
  Forall (fun e => 0 <= peak_rate e) esc -> Rsum (map peak_rate esc) <= 1 -> 0 <= arriving secondary t ->
  0 <= field t "rate" <= arriving secondary t /\
  Forall (fun e => exists u, line_entry r key i (L ++ " " ++ fst e) = Some u /\ 0 <= field u "rate" <= arriving secondary t) esc.
Proof.
  intros WF EN H OW HL ES NN LE PA. destruct (C38_line _ _ _ _ _ _ _ _ _ _ _ _ _ WF EN H OW HL) as (esc' & ES' & RT & FA & _).
  rewrite ES in ES'. injection ES' as <-. assert (S0 : 0 <= Rsum (map peak_rate esc)) by (apply Rsum_map_nonneg; rewrite Forall_forall in NN; exact NN).
  split; [rewrite RT; nra|]. rewrite Forall_forall in *. intros e I. destruct (FA e I) as (u & FU & _ & K & _). exists u. split; [exact FU|]. rewrite K.
  assert (peak_rate e <= 1). { apply Rle_trans with (Rsum (map peak_rate esc)); [|exact LE]. apply Rsum_in_le; [|apply in_map, I]. rewrite Forall_forall. intros y Iy. apply in_map_iff in Iy. destruct Iy as (z & <- & Iz). exact (NN z Iz). }
  specialize (NN e I). nra.
Qed.
(** The secondary excitation of a line is the sum of the contributions listed in its entry. *)
Theorem C38_secondary elements families layers secondary useGeo useMass limit over r key i L t :
  well_formed xl ->
  ((1 < secondary)%Z -> escape_names xl (c_detector c) /\ contains "esc" L = false) ->
  calculate c elements families layers secondary useGeo useMass limit over = Ok r ->
  one_word L -> line_entry r key i L = Some t -> field t "secondary" = contributions t.
Proof.
  intros WF EN H OW HL. symmetry. exact (proj1 (@answer_settled sortf debug lf xl c WF _ _ _ _ _ _ _ _ _ _ _ _ _ EN H OW HL)).
Qed.

(** ** C39 Beam filters multiply independently *)
(** The answer with beam filters is the answer without them for the beam in which every weight is
    multiplied by the product of the transmissions of all the filters ([sample_rays]). *)
Theorem C39_product elements families layers secondary useGeo useMass limit over over' r : pointwise xl ->
  map (fun x => (Beam.r_energy x, Beam.r_weight x)) (rays_of c over') =
  map (fun x => (Beam.r_energy x, Beam.r_weight x * Rprod (map (fun l => filter_transmission xl c l (Beam.r_energy x)) (c_filters c)) *
                                  Rprod (map (fun f => TransmissionTable.getTransmission f (Beam.r_energy x)) (c_userFilters c)))) (rays_of c over) ->
  calculate c elements families layers secondary useGeo useMass limit over = Ok r ->
  calculate (unfiltered c) elements families layers secondary useGeo useMass limit over' = Ok r.
Proof. intros PW HR. exact (@filters_as_beam sortf debug lf xl c _ _ _ _ _ _ _ over over' r PW HR). Qed.
(** The order of the filters is irrelevant. *)
Theorem C39_order F U elements families layers secondary useGeo useMass limit over r :
  Permutation (c_filters c) F -> Permutation (c_userFilters c) U ->
  calculate c elements families layers secondary useGeo useMass limit over = Ok r ->
  calculate (setBeamFilters (setUserBeamFilters c U) F) elements families layers secondary useGeo useMass limit over = Ok r.
Proof. apply filters_order. Qed.
(** No filter increases a weight. *)
Theorem C39_no_gain over E w :
  (forall comp m v E', x_muv xl comp [E'] = Ok m -> In v (vval m "total") -> 0 <= v) ->
  (forall l, In l (c_filters c) -> 0 <= l_funnyFactor l <= 1) ->
  (forall f E', In f (c_userFilters c) -> 0 <= TransmissionTable.getTransmission f E' <= 1) ->
  In (E, w) (sample_rays xl c over) -> exists x, In x (rays_of c over) /\ Beam.r_energy x = E /\ (0 <= Beam.r_weight x -> 0 <= w <= Beam.r_weight x).
Proof.
  intros MU FU UT I. unfold sample_rays in I. apply in_map_iff in I. destruct I as (x & Q & I). injection Q as <- <-. exists x. split; [exact I|]. split; [reflexivity|].
  intros Hw. set (p := Rprod _). set (q := Rprod _).
  assert (P : 0 <= p <= 1). { apply Rprod_range. intros y Iy. apply in_map_iff in Iy. destruct Iy as (l & <- & Il). apply filter_transmission_range; [apply FU, Il|]. intros comp m v. apply MU. }
  assert (Q : 0 <= q <= 1). { apply Rprod_range. intros y Iy. apply in_map_iff in Iy. destruct Iy as (l & <- & Il). apply UT, Il. }
  assert (PQ : 0 <= p * q <= 1) by nra. rewrite Rmult_assoc. toR. split; [apply Rmult_le_pos; [exact Hw|apply PQ]|].
  rewrite <- (Rmult_1_r (Beam.r_weight x)) at 2. apply Rmult_le_compat_l; [exact Hw|apply PQ].
Qed.

(** ** C49 Primary fluorescence is the fundamental parameter sum *)
(** For every answer, whatever the secondary excitation asked for: a line is present exactly when some
    ray excites it for some of the requested element/family/layer triples, and its primary field is the sum over rays
    and requests of absorption in the layers above, self absorption, mass fraction and excitation rate ([primary_of]);
    the other fields are the energy of the line, the coefficient of the layer at it, the probability of detection
    ([detection]), the mass fraction and the excitation threshold. *)
Theorem C49_primary EL elements families layers secondary useGeo useMass limit over r :
  well_formed xl -> pointwise xl -> line_energies xl EL ->
  (forall e, In e elements -> one_word e) -> (forall n, (n < length elements)%nat -> 0 <= threshold xl elements families n) ->
  calculate c elements families layers secondary useGeo useMass limit over = Ok r ->
  let rays := sample_rays xl c over in let comps := sample_compositions xl c in let geo := solid_angles c useGeo in
  forall key i L, one_word L ->
  (line_entry r key i L <> None <-> excited xl c elements families layers useMass comps rays key i L) /\
  forall t, line_entry r key i L = Some t ->
    field t "primary" = primary_sum xl c elements families layers useMass comps EL rays key i L /\
    exists n, (n < length elements)%nat /\ key = element_of elements n ++ " " ++ family_of families n /\ (i < length (c_sample c))%nat /\
      field t "energy" = EL (element_of elements n) L /\
      field t "mu_1_i" = mu_at xl c comps i (EL (element_of elements n) L) /\
      field t "efficiency" = detection xl c comps geo i (EL (element_of elements n) L) /\
      field t "massFraction" = field (comp_at comps i) (element_of elements n) /\
      field t "energy_threshold" = threshold xl elements families n /\
      ((secondary <= 0)%Z -> field t "secondary" = 0).
Proof.
  intros WF PW LE WORDS POS H rays comps geo key i L OW.
  destruct (@primary_answer sortf lf debug xl c WF PW EL LE elements families layers secondary useGeo useMass limit over r WORDS POS H key i L OW) as [A B].
  split; [exact A|]. intros t HT. destruct (B t HT) as (P & n & K). split; [exact P|]. exists n. exact K.
Qed.
(** With physical data (positive coefficients, angles between the surface and the beam or detector, fractions, thicknesses and rates that are not
    negative) the primary fluorescence of a ray is not negative and at most that of a layer that does not absorb its own lines;
    the beam only loses intensity from layer to layer. *)
Theorem C49_bounds EL elements useMass comps n E w i line :
  0 < sin_degrees (c_alphaIn c) -> 0 < sin_degrees (c_alphaOut c) -> (forall i E, 0 < mu_at xl c comps i E) ->
  (forall i, 0 <= mass_thickness c i) -> (forall i element, 0 <= field (comp_at comps i) element) ->
  (forall element line E w t, 0 <= w -> factor_row xl element line E w = Some t -> 0 <= field t "rate") -> 0 <= w ->
  0 <= primary_of xl c elements useMass comps n E w i line EL <= primary_thin xl c elements useMass comps n E w i line /\
  0 < beam_at xl c comps i E <= 1 /\ beam_at xl c comps (S i) E <= beam_at xl c comps i E.
Proof.
  intros SI SO MU MT FR RT Hw. split; [apply primary_of_bounds; assumption|apply beam_at_range; assumption].
Qed.
(** so no primary field of an answer is negative *)
Theorem C49_nonnegative EL elements families layers secondary useGeo useMass limit over r key i L t :
  well_formed xl -> pointwise xl -> line_energies xl EL ->
  (forall e, In e elements -> one_word e) -> (forall n, (n < length elements)%nat -> 0 <= threshold xl elements families n) ->
  let comps := sample_compositions xl c in
  0 < sin_degrees (c_alphaIn c) -> 0 < sin_degrees (c_alphaOut c) -> (forall i E, 0 < mu_at xl c comps i E) ->
  (forall i, 0 <= mass_thickness c i) -> (forall i element, 0 <= field (comp_at comps i) element) ->
  (forall element line E w t, 0 <= w -> factor_row xl element line E w = Some t -> 0 <= field t "rate") ->
  (forall E w, In (E, w) (sample_rays xl c over) -> 0 <= w) ->
  calculate c elements families layers secondary useGeo useMass limit over = Ok r ->
  one_word L -> line_entry r key i L = Some t -> 0 <= field t "primary".
Proof.
  intros WF PW LE WORDS POS comps SI SO MU MT FR RT HW H OW HT.
  destruct (C49_primary EL _ _ _ _ _ _ _ _ _ WF PW LE WORDS POS H key i L OW) as [_ B]. destruct (B t HT) as [-> _].
  unfold primary_sum. apply Rsum_map_nonneg. intros [E w] I. apply Rsum_map_nonneg. intros n _. destruct (excites _ _ _ _ _ _ _ _ _ _ _ _ _); [|lra].
  apply (C49_bounds (EL (element_of elements n) L) elements useMass comps n E w i L); auto. exact (HW E w I).
Qed.

(** ** C50 The calculation answers whenever the data are complete *)
(** No exception and no undefined behaviour for primary excitation in any sample, and for secondary and tertiary
    excitation in a thick single layer. *)
Theorem C50_answers EL elements families layers secondary useGeo useMass limit over :
  well_formed xl -> line_energies xl EL ->
  (forall e, In e elements -> one_word e) -> (forall n, (n < length elements)%nat -> 0 <= threshold xl elements families n) ->
  complete_data xl c elements families layers useGeo -> ((secondary <= 0)%Z \/ bulk_sample xl c) ->
  exists r, calculate c elements families layers secondary useGeo useMass limit over = Ok r.
Proof. intros WF LE WORDS POS CD SEC. exact (@calculation_total sortf lf debug xl c WF EL LE _ _ _ _ _ _ _ WORDS POS CD SEC over). Qed.

(** ** C51 Earlier calculations leave no trace *)
(** The escape peaks remembered by the detector do not influence the answer. *)
Theorem C51_detector_memory d elements families layers secondary useGeo useMass limit over :
  clearEscapePeakCache d = clearEscapePeakCache (c_detector c) ->
  calculate (setDetector c d) elements families layers secondary useGeo useMass limit over =
  calculate c elements families layers secondary useGeo useMass limit over.
Proof.
  intros H. symmetry. apply (@cache_irrelevant lf debug xl c (setDetector c d)); [reflexivity|]. symmetry. exact H.
Qed.

(** ** C52 Shape of the answer and of the requests *)
(** Every entry is a line or an escape peak of a line present, named "line peak". *)
Theorem C52_names elements families layers secondary useGeo useMass limit over r key i n t :
  well_formed xl -> calculate c elements families layers secondary useGeo useMass limit over = Ok r ->
  line_entry r key i n = Some t ->
  one_word n \/ exists L e tL esc, n = L ++ " " ++ e /\ one_word L /\ line_entry r key i L = Some tL /\
                   escape_peaks xl (c_detector c) (field tL "energy") = Ok esc /\ In e (map fst esc).
Proof.
  intros WF H HL. unfold one_word. destruct (has_space n) eqn:HS; [right|left; reflexivity]. rewrite line_entry_layerTable in HL.
  destruct (@layerTable_answer sortf debug lf xl c WF _ _ _ _ _ _ _ _ _ key i H) as [_ W].
  destruct (W n t HL HS) as (L & e & tL & esc & A & B & C0 & D). exists L, e, tL, esc. rewrite line_entry_layerTable. auto.
Qed.
(** With tertiary excitation the layers of every key are numbered from 0 without gaps. *)
Theorem C52_layers elements families layers secondary useGeo useMass limit over r key m :
  well_formed xl -> (1 < secondary)%Z -> calculate c elements families layers secondary useGeo useMass limit over = Ok r ->
  mfind sltb key r = Some m -> map fst m = seq 0 (length m).
Proof.
  intros WF Q H HM. destruct (@answer_state sortf debug lf xl c WF _ _ _ _ _ _ _ _ _ H) as (st & (I1 & I2 & I3) & A & B).
  destruct (@tertiary_spec (st_ar st) I1) as (ar1 & r' & _ & E & _ & _ & K & _). rewrite (B Q) in E. injection E as <-. exact (K key m HM).
Qed.
(** The call for one element is the call with lists of one entry; it rejects an empty family and a negative layer. *)
Theorem C52_one element layer family secondary useGeo useMass limit over :
  let one := @getMultilayerFluorescence_one RNum sortf debug lf xl c element layer family secondary useGeo useMass limit over in
  (family <> "" -> (0 <= layer)%Z -> one = calculate c [element] [family] [layer] secondary useGeo useMass limit over) /\
  (family = "" \/ (layer < 0)%Z -> one = Throw InvalidArgument).
Proof.
  unfold getMultilayerFluorescence_one. cbv zeta. destruct (String.eqb_spec family "") as [->|N]; [split; [intros X; congruence|reflexivity]|].
  destruct (Z.ltb_spec layer 0); split; intros; try reflexivity; try lia. destruct H0; [congruence|lia].
Qed.
End Calculation.
Print Assumptions C38_line.
Print Assumptions C38_layer.
Print Assumptions C38_nonnegative.
Print Assumptions C38_secondary.
Print Assumptions C39_product.
Print Assumptions C39_order.
Print Assumptions C39_no_gain.
Print Assumptions C49_primary.
Print Assumptions C49_bounds.
Print Assumptions C49_nonnegative.
Print Assumptions C50_answers.
Print Assumptions C51_detector_memory.
Print Assumptions C52_names.
Print Assumptions C52_layers.
Print Assumptions C52_one.

(** ** The hypotheses of the theorems of this file are met *)
(** by a calculation with two rays, a filter, a thick sample and a detector with escape, at every level of excitation;
    C38-C52 therefore speak of answers that exist and have lines *)
Theorem C50_example sortf debug lf secondary useMass limit :
  well_formed toy /\ pointwise toy /\ line_energies toy toy_energy /\ escape_names toy (c_detector toy_config) /\
  complete_data toy toy_config ["Fe"] ["K"] [0%Z] 1 /\ bulk_sample toy toy_config /\
  exists r, @getMultilayerFluorescence RNum sortf debug lf toy toy_config ["Fe"] ["K"] [0%Z] secondary 1 useMass limit beam_init = Ok r /\
  line_entry r "Fe K" 0 "KL3" <> None /\ line_entry r "Fe K" 0 "KM3" <> None.
Proof.
  repeat (split; [first [exact toy_well_formed|exact toy_pointwise|exact toy_line_energies|exact toy_escape_names|exact toy_complete|exact toy_bulk]|]).
  apply toy_answer.
Qed.
Print Assumptions C50_example.
