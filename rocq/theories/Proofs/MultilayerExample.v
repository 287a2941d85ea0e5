(** A small library and configuration that meet the hypotheses of the theorems about the calculation. *)
From Coq Require Import Ascii String List ZArith Reals Bool Arith Lia Lra Permutation.
From Verif Require Import Base.Num Base.Res Base.RSum Base.SMap Base.Str Base.ListLemmas Model.Beam Model.Material Model.TransmissionTable
  Model.Math Model.Shell Model.Element Model.Layer Model.XRF Model.Multilayer Spec.MultilayerSpec Proofs.LayerProofs Proofs.MultilayerProofs Proofs.MultilayerProofs12
  Proofs.MultilayerProofs15.
Import ListNotations.
Local Open Scope string_scope.
Local Open Scope R_scope.
Local Existing Instance RNum.

(** a library in which every element has the two lines KL3 (6.4 keV) and KM3 (7.06 keV) and the K edge at 7.1 keV,
    every material is an element, the coefficients do not depend on the energy, and every detector has one escape peak *)
Definition toy_mu : list (string * R) := [("coherent", 1 / 2); ("total", 2)].
Definition toy_library : @library RNum :=
  mkLibrary (N := RNum) (fun _ _ => Ok 3) (fun _ _ => Ok 3) (fun _ es => Ok (map (fun _ => 3) es)) (fun _ es => Ok (map (fun _ => 3) es))
    (fun c => Ok c) (fun s => Ok [(s, 1)]) (fun _ _ => Ok []) (fun _ _ => Ok [])
    (fun _ E _ _ _ _ => Ok [("Si_KL3esc", [("energy", E - 1); ("rate", 1 / 10)])]).
Definition toy : @xlib RNum :=
  mkXlib (N := RNum) (fun c _ => Ok c) (fun s _ => Ok [(s, 1)]) (fun _ _ => Ok toy_mu)
    (fun _ es => Ok [("coherent", (1 / 2) :: map (fun _ => 1 / 2) es); ("total", map (fun _ => 2) es)]) (fun _ _ => Ok toy_mu)
    (fun _ es => Ok [("coherent", (1 / 2) :: map (fun _ => 1 / 2) es); ("total", map (fun _ => 2) es)])
    (fun l _ => Ok (map (fun e => (e ++ " K", 71 / 10)) l)) (fun _ => Ok [("K", 71 / 10)])
    (fun _ E w => Ok [("KL3", [("energy", 64 / 10); ("factor", 1); ("rate", w * (8 / 10))]); ("KM3", [("energy", 706 / 100); ("factor", 1); ("rate", w * (2 / 10))])])
    toy_library.
(** two rays, one filter, one thick layer of iron, a silicon detector *)
Definition toy_config : @config RNum :=
  mkConfig (mkBeam [mkRay 10 1 0%Z 0; mkRay 20 3 0%Z 0] true) [] [layer_new "Al" 1 1 1] [layer_new "Fe" 1 10 1] [] [] []
    (Some 0%Z) 90 90 180 (detector_new "Si" 1 1 1).
Definition toy_energy (element line : string) : R := if String.eqb line "KL3" then 64 / 10 else 706 / 100.

Lemma sin90 : sin (90 * (PI / 180)) = 1.
Proof. replace (90 * (PI / 180)) with (PI / 2) by field. apply sin_PI2. Qed.
Lemma sinabs90 : sin (Rabs 90 * PI / 180) = 1.
Proof. rewrite Rabs_pos_eq by lra. replace (90 * PI / 180) with (PI / 2) by field. apply sin_PI2. Qed.
Lemma Rlit90 : Rlit 90 0 = 90. Proof. unfold Rlit; simpl; lra. Qed.

Lemma toy_well_formed : well_formed toy.
Proof.
  constructor.
  - intros ele E w l H. injection H as <-. unfold msorted; cbn; repeat constructor.
  - intros ele E w l line t H I. injection H as <-. destruct I as [I|[I|[]]]; injection I as <- _; reflexivity.
  - intros comp E a b n s l H. injection H as <-. unfold msorted; cbn; repeat constructor.
Qed.
Lemma toy_line_energies : line_energies toy toy_energy.
Proof. intros ele E w l line t H I. injection H as <-. destruct I as [I|[I|[]]]; injection I as <- <-; reflexivity. Qed.
Lemma Forall2_map_r {A B} (Q : A -> B -> Prop) (f : A -> B) l : (forall a, Q a (f a)) -> Forall2 Q l (map f l).
Proof. intros H. induction l; cbn; constructor; auto. Qed.
Lemma toy_pointwise : pointwise toy.
Proof.
  intros comp Es m H. assert (Q : Ok [("coherent", (1 / 2) :: map (fun _ => 1 / 2) Es); ("total", map (fun _ => 2) Es)] = Ok m) by (destruct H as [H|H]; exact H).
  injection Q as <-. match goal with |- Forall2 _ _ ?x => change x with (map (fun _ : R => 2) Es) end.
  apply Forall2_map_r. intros E. split; intros _; eexists; split; reflexivity.
Qed.
Lemma toy_escape E : escape_peaks toy (c_detector toy_config) E = Ok [("Si_KL3esc", [("energy", E - 1); ("rate", 1 / 10)])].
Proof. reflexivity. Qed.
Lemma toy_escape_names : escape_names toy (c_detector toy_config).
Proof.
  constructor. intros E l e H I. rewrite toy_escape in H. injection H as <-. destruct I as [<-|[]]. cbn. split; [reflexivity|]. unfold peak_rate, field. cbn. lra.
Qed.
Lemma toy_path (l : @layer RNum) d t : l = layer_new (l_materialName l) d t 1 -> pathThickness l 90 = d * t.
Proof. intros H. rewrite H. rewrite pathThickness_R. cbn [l_density l_thickness layer_new]. rewrite sinabs90. unfold Rdiv. rewrite Rinv_1. toR. apply Rmult_1_r. Qed.

Lemma toy_att comp E l d t : l = layer_new (l_materialName l) d t 1 -> 0 < d * t -> exists v, getLayerTransmission toy toy_config l E 90 comp = Ok v.
Proof.
  intros H P. unfold getLayerTransmission, getLayerTransmission_vec. rewrite (toy_path l d t H). rnorm. rcases; [lra|].
  unfold getLayerMu_vec, getLayerComposition. destruct comp; [destruct (l_hasMaterial l)|]; eexists; reflexivity.
Qed.
Lemma toy_attv comp Es l d t : l = layer_new (l_materialName l) d t 1 -> 0 < d * t -> exists v, getLayerTransmission_vec toy toy_config l Es 90 comp = Ok v /\ length v = length Es.
Proof.
  intros H P. unfold getLayerTransmission_vec. rewrite (toy_path l d t H). rnorm. rcases; [lra|].
  unfold getLayerMu_vec, getLayerComposition. destruct comp; [destruct (l_hasMaterial l)|]; (eexists; split; [reflexivity|]; cbn; rewrite !map_length; reflexivity).
Qed.
Lemma toy_complete : complete_data toy toy_config ["Fe"] ["K"] [0%Z] 1.
Proof.
  constructor.
  - cbn. lia.
  - left. reflexivity.
  - intros f [<-|[]]. discriminate.
  - intros l [<-|[]]. eexists. reflexivity.
  - right. intros i _. eexists. unfold getGeometricEfficiency. cbn. rnorm. rcases; [reflexivity|lra].
  - intros i E _. unfold getLayerMu. destruct (comp_at _ _); eexists; [|reflexivity]. unfold getLayerComposition. destruct (l_hasMaterial _); reflexivity.
  - intros i E _. unfold getLayerMu_vec. destruct (comp_at _ _); eexists; [|reflexivity]. unfold getLayerComposition. destruct (l_hasMaterial _); reflexivity.
  - intros [|[|i]] E H; cbn in H; try lia. apply (toy_att _ _ _ 1 10); [reflexivity|lra].
  - intros l Es [<-|[]]. change (@nlit RNum 90 0) with (Rlit 90 0). rewrite Rlit90. apply (toy_attv _ _ _ 1 1); [reflexivity|lra].
  - intros l E [].
  - intros _ _ _ E. change (@nlit RNum 90 0) with (Rlit 90 0). rewrite Rlit90. unfold Layer.getTransmission.
    rewrite (toy_path (d_layer (c_detector toy_config)) 1 1) by reflexivity. cbn. rnorm. rcases; [lra|]. eexists. reflexivity.
  - intros E. rewrite toy_escape. eexists. reflexivity.
  - intros E l e H I. rewrite toy_escape in H. injection H as <-. destruct I as [<-|[]]. split; discriminate.
  - intros e _. eexists. reflexivity.
  - intros e E w _. eexists. reflexivity.
  - intros e E w l line t H I. injection H as <-. destruct I as [I|[I|[]]]; injection I as <- <-; repeat split; discriminate.
Qed.
Lemma toy_bulk : bulk_sample toy toy_config.
Proof.
  assert (S1 : sin_degrees 90 = 1) by (unfold sin_degrees; apply sin90).
  constructor.
  - reflexivity.
  - change (c_alphaIn toy_config) with 90. rewrite S1. lra.
  - change (c_alphaOut toy_config) with 90. rewrite S1. lra.
  - intros Es m _ H. injection H as <-. change (vval _ "total") with (map (fun _ : R => 2) Es). split; [apply map_length|]. split; [|discriminate].
    intros v I. apply in_map_iff in I. destruct I as (x & <- & _). lra.
  - intros E. change (0 < 2). lra.
  - intros E E'. change (c_alphaIn toy_config) with 90. change (c_alphaOut toy_config) with 90. rewrite S1. change (10 < (2 / 1 + 2 / 1) * (1 * 10)). lra.
  - intros E. eexists. reflexivity.
  - intros E l name v ele rest _ _ _ _ _. eexists. reflexivity.
Qed.
Lemma toy_threshold n : (n < 1)%nat -> 0 <= threshold toy ["Fe"] ["K"] n.
Proof. intros H. destruct n; [|lia]. unfold threshold, getEnergyThreshold. cbn. rnorm. lra. Qed.
Lemma toy_words e : In e ["Fe"] -> one_word e.
Proof. intros [<-|[]]. reflexivity. Qed.
Lemma toy_answer sortf debug lf (secondary useMass : Z) (limit : R) : exists r,
  @getMultilayerFluorescence RNum sortf debug lf toy toy_config ["Fe"] ["K"] [0%Z] secondary 1 useMass limit beam_init = Ok r /\
  line_entry r "Fe K" 0 "KL3" <> None /\ line_entry r "Fe K" 0 "KM3" <> None.
Proof.
  destruct (@calculation_total sortf lf debug toy toy_config toy_well_formed toy_energy toy_line_energies ["Fe"] ["K"] [0%Z] secondary 1 useMass limit
    toy_words toy_threshold toy_complete (or_intror toy_bulk) beam_init) as [r H].
  exists r. split; [exact H|].
  pose proof (@primary_answer sortf lf debug toy toy_config toy_well_formed toy_pointwise toy_energy toy_line_energies ["Fe"] ["K"] [0%Z] secondary 1 useMass limit
    beam_init r toy_words toy_threshold H) as P. cbv zeta in P.
  assert (X : forall L, In L ["KL3"; "KM3"] -> excited toy toy_config ["Fe"] ["K"] [0%Z] useMass (sample_compositions toy toy_config) (sample_rays toy toy_config beam_init) "Fe K" 0 L).
  { intros L I. unfold sample_rays. eexists. exists 0%nat. split; [left; reflexivity|]. split; [cbn; lia|]. cbn [fst snd r_energy].
    unfold excites. unfold threshold, getEnergyThreshold. cbn [x_binding toy rbind]. unfold element_of, family_of, layer_of. cbn [nth length Nat.ltb Nat.leb].
    replace (Rleb _ 10) with true by (symmetry; apply Rleb_true; cbn; lra).
    replace (Reqb _ 0) with false by (symmetry; apply Reqb_false; cbn; lra).
    destruct I as [<-|[<-|[]]]; cbn; (replace (Rltb 0 1) with true by (symmetry; apply Rltb_true; lra)); destruct useMass; reflexivity. }
  split; apply P; try reflexivity; apply X; cbn; auto.
Qed.
