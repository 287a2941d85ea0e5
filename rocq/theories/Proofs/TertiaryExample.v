(** A library and a configuration with tertiary excitation: the lines of iron excite iron again. *)
From Coq Require Import Ascii String List ZArith Reals Bool Arith Lia Lra Permutation.
From Verif Require Import Base.Num Base.Res Base.RSum Base.SMap Base.Str Base.ListLemmas Model.Beam Model.Material Model.TransmissionTable
  Model.Math Model.Shell Model.Element Model.Layer Model.XRF Model.Multilayer Spec.MultilayerSpec Spec.SecondarySpec Spec.TertiarySpec Proofs.LayerProofs Proofs.MathProofs Proofs.MultilayerProofs Proofs.MultilayerProofs12
  Proofs.MultilayerProofs15 Proofs.MultilayerProofs19 Proofs.MultilayerProofs21 Proofs.MultilayerProofs23 Proofs.MultilayerProofs25 Proofs.MultilayerProofs26 Proofs.MultilayerProofs27 Proofs.MultilayerExample.
Import ListNotations.
Local Open Scope string_scope.
Local Open Scope R_scope.
Local Existing Instance RNum.
Local Ltac toR := change (@num RNum) with R in *.

Definition hot : @xlib RNum :=
  mkXlib (N := RNum) (fun c _ => Ok c) (fun s _ => Ok [(s, 1)]) (fun _ _ => Ok toy_mu)
    (fun _ es => Ok [("coherent", map (fun _ => 1 / 2) es); ("total", map (fun _ => 2) es)]) (fun _ _ => Ok toy_mu)
    (fun _ es => Ok [("coherent", map (fun _ => 1 / 2) es); ("total", map (fun _ => 2) es)])
    (fun l _ => Ok (map (fun e => (e ++ " K", 71 / 10)) l)) (fun _ => Ok [("K", 71 / 10)])
    (fun _ E w => Ok [("KL3", [("energy", 8); ("factor", 1); ("rate", w * (8 / 10))]); ("KM3", [("energy", 9); ("factor", 1); ("rate", w * (2 / 10))])])
    toy_library.
Definition hot_config : @config RNum :=
  mkConfig (mkBeam [mkRay 10 1 0%Z 0] true) [] [] [layer_new "Fe" 1 10 1] [] [] [] (Some 0%Z) 90 90 180 (detector_new "Si" 1 1 1).
Definition hot_energy (element line : string) : R := if String.eqb line "KL3" then 8 else 9.

Lemma hot_well_formed : well_formed hot.
Proof.
  constructor.
  - intros ele E w l H. injection H as <-. unfold msorted; cbn; repeat constructor.
  - intros ele E w l line t H I. injection H as <-. destruct I as [I|[I|[]]]; injection I as <- _; reflexivity.
  - intros comp E a b n s l H. injection H as <-. unfold msorted; cbn; repeat constructor.
Qed.
Lemma hot_line_energies : line_energies hot hot_energy.
Proof. intros ele E w l line t H I. injection H as <-. destruct I as [I|[I|[]]]; injection I as <- <-; reflexivity. Qed.
Lemma hot_pointwise : pointwise hot.
Proof.
  intros comp Es m H. assert (Q : Ok [("coherent", map (fun _ => 1 / 2) Es); ("total", map (fun _ => 2) Es)] = Ok m) by (destruct H as [H|H]; exact H).
  injection Q as <-. match goal with |- Forall2 _ _ ?x => change x with (map (fun _ : R => 2) Es) end.
  apply Forall2_map_r. intros E. split; intros _; eexists; split; reflexivity.
Qed.
Lemma hot_answers_each : answers_each hot.
Proof.
  intros comp Es m name N. split; intros H; injection H as <-;
  (destruct N as [-> | ->]; [change (vval _ "total") with (map (fun _ : R => 2) Es)|change (vval _ "coherent") with (map (fun _ : R => 1 / 2) Es)];
  apply Forall2_map_r; intros E; exists toy_mu; split; reflexivity).
Qed.
Lemma hot_escape E : escape_peaks hot (c_detector hot_config) E = Ok [("Si_KL3esc", [("energy", E - 1); ("rate", 1 / 10)])].
Proof. reflexivity. Qed.
Lemma hot_escape_names : escape_names hot (c_detector hot_config).
Proof.
  constructor. intros E l e H I. rewrite hot_escape in H. injection H as <-. destruct I as [<-|[]]. cbn. split; [reflexivity|]. unfold peak_rate, field. cbn. lra.
Qed.
Lemma hot_att comp E l d t : l = layer_new (l_materialName l) d t 1 -> 0 < d * t -> exists v, getLayerTransmission hot hot_config l E 90 comp = Ok v.
Proof.
  intros H P. unfold getLayerTransmission, getLayerTransmission_vec. rewrite (toy_path l d t H). rnorm. rcases; [lra|].
  unfold getLayerMu_vec, getLayerComposition. destruct comp; [destruct (l_hasMaterial l)|]; eexists; reflexivity.
Qed.
Lemma hot_complete : complete_data hot hot_config ["Fe"] ["K"] [0%Z] 1.
Proof.
  constructor.
  - cbn. lia.
  - left. reflexivity.
  - intros f [<-|[]]. discriminate.
  - intros l [<-|[]]. eexists. reflexivity.
  - right. intros i _. eexists. unfold getGeometricEfficiency. cbn. rnorm. rcases; [reflexivity|lra].
  - intros i E _. unfold getLayerMu. destruct (comp_at _ _); eexists; [|reflexivity]. unfold getLayerComposition. destruct (l_hasMaterial _); reflexivity.
  - intros i E _. unfold getLayerMu_vec. destruct (comp_at _ _); eexists; [|reflexivity]. unfold getLayerComposition. destruct (l_hasMaterial _); reflexivity.
  - intros [|[|i]] E H; cbn in H; try lia. apply (hot_att _ _ _ 1 10); [reflexivity|lra].
  - intros l Es [].
  - intros l E [].
  - intros _ _ _ E. change (@nlit RNum 90 0) with (Rlit 90 0). rewrite Rlit90. unfold Layer.getTransmission.
    rewrite (toy_path (d_layer (c_detector hot_config)) 1 1) by reflexivity. cbn. rnorm. rcases; [lra|]. eexists. reflexivity.
  - intros E. rewrite hot_escape. eexists. reflexivity.
  - intros E l e H I. rewrite hot_escape in H. injection H as <-. destruct I as [<-|[]]. split; discriminate.
  - intros e _. eexists. reflexivity.
  - intros e E w _. eexists. reflexivity.
  - intros e E w l line t H I. injection H as <-. destruct I as [I|[I|[]]]; injection I as <- <-; repeat split; discriminate.
Qed.
Lemma hot_sin : sin_degrees 90 = 1.
Proof. unfold sin_degrees. apply sin90. Qed.
Lemma hot_bulk : bulk_sample hot hot_config.
Proof.
  constructor.
  - reflexivity.
  - change (c_alphaIn hot_config) with 90. rewrite hot_sin. lra.
  - change (c_alphaOut hot_config) with 90. rewrite hot_sin. lra.
  - intros Es m NE H. injection H as <-. change (vval _ "total") with (map (fun _ : R => 2) Es). change (vval _ "coherent") with (map (fun _ : R => 1 / 2) Es).
    split; [apply map_length|]. split; [|destruct Es; [congruence|discriminate]].
    intros v I. apply in_map_iff in I. destruct I as (x & <- & _). lra.
  - intros E. change (0 < 2). lra.
  - intros E E'. change (c_alphaIn hot_config) with 90. change (c_alphaOut hot_config) with 90. rewrite hot_sin. change (10 < (2 / 1 + 2 / 1) * (1 * 10)). lra.
  - intros E. eexists. reflexivity.
  - intros E l name v ele rest _ _ _ _ _. eexists. reflexivity.
Qed.
Lemma hot_threshold n : (n < 1)%nat -> 0 <= threshold hot ["Fe"] ["K"] n.
Proof. intros H. destruct n; [|lia]. unfold threshold, getEnergyThreshold. cbn. rnorm. lra. Qed.
Lemma hot_families j E f : (j < length (c_sample hot_config))%nat -> In f (families_at hot hot_config (sample_compositions hot hot_config) j E) -> first_word (fst f) <> "dummytext".
Proof. intros Hj I. destruct j; [|cbn in Hj; lia]. cbn in I. destruct I as [<-|[]]. discriminate. Qed.

(** ** The numbers *)
Definition hot_comps : list (list (string * R)) := [[("Fe", 1)]].
Lemma hot_comps_eq : sample_compositions hot hot_config = hot_comps. Proof. reflexivity. Qed.
Lemma hot_rays : sample_rays hot hot_config beam_init = [(10, 1)].
Proof. unfold sample_rays. cbn. rewrite ?Rmult_1_r. reflexivity. Qed.
Lemma hot_excites L : In L ["KL3"; "KM3"] -> excites hot hot_config ["Fe"] ["K"] [0%Z] 0 hot_comps 0 10 1 "Fe K" 0 L = true.
Proof.
  intros I. unfold excites. unfold threshold, getEnergyThreshold. cbn [x_binding hot rbind]. unfold element_of, family_of, layer_of. cbn [nth length Nat.ltb Nat.leb].
  replace (Rleb _ 10) with true by (symmetry; apply Rleb_true; cbn; lra).
  replace (Reqb _ 0) with false by (symmetry; apply Reqb_false; cbn; lra).
  destruct I as [<-|[<-|[]]]; cbn; (replace (Rltb 0 1) with true by (symmetry; apply Rltb_true; lra)); reflexivity.
Qed.
(** the geometrical factor is the same for all the photons *)
Definition hot_G : R := ln 2 / 8 + ln 2 / (2 * (2 + 2 / Rlit 99999 (-5))).
Lemma hot_G_low : 1 / 16 < hot_G.
Proof.
  unfold hot_G. assert (L5 : 0 < Rlit 99999 (-5) < 1) by (unfold Rlit; simpl; lra). pose proof ln_lt_2 as L2.
  assert (0 < ln 2 / (2 * (2 + 2 / Rlit 99999 (-5)))).
  { apply Rdiv_lt_0_compat; [lra|]. assert (0 < 2 / Rlit 99999 (-5)) by (apply Rdiv_lt_0_compat; lra). lra. }
  lra.
Qed.
Lemma hot_geometry debug E EL e : geometry debug hot hot_config hot_comps 0 0 E EL e = hot_G.
Proof.
  unfold geometry. rewrite Nat.eqb_refl. change (mu_at hot hot_config hot_comps 0 E) with 2. change (mu_at hot hot_config hot_comps 0 EL) with 2. change (mu_at hot hot_config hot_comps 0 e) with 2.
  change (c_alphaIn hot_config) with 90. change (c_alphaOut hot_config) with 90. rewrite hot_sin. replace (2 / 1) with 2 by lra.
  assert (L5 : 0 < Rlit 99999 (-5) < 1) by (unfold Rlit; simpl; lra).
  replace (Reqb 2 2) with true by (symmetry; apply Reqb_true; reflexivity). unfold sin_in. change (c_alphaIn hot_config) with 90. rewrite hot_sin. unfold L0. cbn [layer_at c_sample hot_config nth l_density l_thickness layer_new].
  rewrite (@deBoerL0_thick debug 2 2 2 1 10) by lra. rewrite Rmult_1_r.
  assert (P : 0 < 2 / Rlit 99999 (-5)) by (apply Rdiv_lt_0_compat; lra).
  rewrite (@deBoerL0_thick debug 2 (2 / Rlit 99999 (-5)) 2 1 10) by lra.
  unfold hot_G. replace (1 + 2 / 2) with 2 by lra. replace (2 * (2 + 2)) with 8 by lra. reflexivity.
Qed.
Lemma hot_gains debug L rate : In (L, rate) [("KL3", 8 / 10); ("KM3", 2 / 10)] -> let k := hot_G * (1 / 2) * rate in
  gains debug hot hot_config ["Fe"] ["K"] 0 0 hot_comps 0 10 1 0 L (hot_energy "Fe" L) =
  [("Fe KL3 00", k * (8 / 10)); ("Fe KM3 00", k * (2 / 10)); ("coherent scattering 00", k * (1 / 2))].
Proof.
  intros I k. unfold gains. cbn [c_sample hot_config length seq flat_map]. unfold neglected_layer. cbn [Nat.eqb negb andb]. rewrite app_nil_r.
  assert (B1 : beam_at hot hot_config hot_comps 0 10 = 1) by (unfold beam_at; cbn; rewrite Ropp_0; apply exp_0).
  assert (TH : threshold hot ["Fe"] ["K"] 0 = 71 / 10) by reflexivity.
  assert (PH : photons hot hot_config 0 hot_comps 0 10 1 = [(8, 8 / 10, "Fe KL3"); (9, 2 / 10, "Fe KM3"); (10, 1 / 2, "coherent scattering")]).
  { unfold photons, fluorescent, scattered. rewrite B1. cbn -[Rltb]. 
    assert (C1 : forall x, 0 < x -> Rltb 0 x = true) by (intros; apply Rltb_true; assumption).
    rewrite (C1 (1 * (8 / 10) * 1)) by lra. rewrite (C1 (1 * (2 / 10) * 1)) by lra. replace (Rltb 0 0) with false by (symmetry; apply Rltb_false; lra). cbn.
    replace (1 * (8 / 10) * 1 * 1 * 1) with (8 / 10) by lra. replace (1 * (2 / 10) * 1 * 1 * 1) with (2 / 10) by lra. replace (1 * 1 * (1 / 2)) with (1 / 2) by lra. reflexivity. }
  rewrite PH. unfold gain_from. rewrite TH. cbn [flat_map]. rewrite !hot_geometry. 
  change (sin_degrees (c_alphaIn hot_config)) with (sin_degrees 90). rewrite hot_sin.
  replace (Rleb (71 / 10) 8) with true by (symmetry; apply Rleb_true; lra). replace (Rleb (71 / 10) 9) with true by (symmetry; apply Rleb_true; lra). replace (Rleb (71 / 10) 10) with true by (symmetry; apply Rleb_true; lra).
  assert (L5 : Rlit 5 (-1) = 1 / 2) by (unfold Rlit; simpl; lra). rewrite L5. unfold k.
  destruct I as [I|[I|[]]]; injection I as <- <-; unfold factor_row; cbn; unfold field; cbn; (apply f_equal2; [f_equal; lra|]; apply f_equal2; [f_equal; lra|]; apply f_equal2; [f_equal; lra|reflexivity]).
Qed.

(** ** The answer *)
Section Hot.
Variables (sortf : list R -> list R) (lf debug : bool).
Local Notation calc := (@getMultilayerFluorescence RNum sortf debug lf hot hot_config ["Fe"] ["K"] [0%Z] 2 1 0 0 beam_init).
Lemma hot_sum L rate (am : list (string * R) -> R) : In (L, rate) [("KL3", 8 / 10); ("KM3", 2 / 10)] ->
  sum_over debug hot hot_config ["Fe"] ["K"] [0%Z] 0 0 hot_comps hot_energy [(10, 1)] "Fe K" 0 L am =
  am (gains debug hot hot_config ["Fe"] ["K"] 0 0 hot_comps 0 10 1 0 L (hot_energy "Fe" L)).
Proof.
  intros I. unfold sum_over. cbn [map length seq fst snd Rsum]. rewrite hot_excites.
  - change (element_of ["Fe"] 0) with "Fe". cbn. lra.
  - destruct I as [I|[I|[]]]; injection I as <- _; cbn; auto.
Qed.
Lemma hot_primary L rate : In (L, rate) [("KL3", 8 / 10); ("KM3", 2 / 10)] ->
  0 < primary_sum hot hot_config ["Fe"] ["K"] [0%Z] 0 hot_comps hot_energy [(10, 1)] "Fe K" 0 L <= rate / 4.
Proof.
  intros I. unfold primary_sum. cbn [map length seq fst snd Rsum]. rewrite hot_excites; [|destruct I as [I|[I|[]]]; injection I as <- _; cbn; auto].
  unfold primary_of. change (mu_at hot hot_config hot_comps 0 10) with 2.
  assert (M : mu_at hot hot_config hot_comps 0 (hot_energy (element_of ["Fe"] 0) L) = 2) by reflexivity. rewrite M.
  change (c_alphaIn hot_config) with 90. change (c_alphaOut hot_config) with 90. rewrite hot_sin.
  assert (B1 : beam_at hot hot_config hot_comps 0 10 = 1) by (unfold beam_at; cbn; rewrite Ropp_0; apply exp_0). rewrite B1.
  assert (MT : mass_thickness hot_config 0 = 10) by (unfold mass_thickness; cbn; lra). rewrite MT.
  assert (X : 0 < exp (- (2 / 1 + 2 / 1) * 10) < 1) by (split; [apply exp_pos|refine (Rlt_le_trans _ (exp 0) _ (exp_increasing _ _ _) (Req_le _ _ exp_0)); lra]).
  cbn [Z.eqb]. set (ex := exp _) in *. clearbody ex.
  destruct I as [I|[I|[]]]; injection I as <- <-; unfold factor_row; cbn; unfold field; cbn; lra.
Qed.
Theorem hot_answer : exists r t, calc = Ok r /\ line_entry r "Fe K" 0 "KL3" = Some t /\
  0 < field t "primary" /\ 0 < field t "secondary" /\ 0 < field t "tertiary".
Proof.
  destruct (@calculation_total sortf lf debug hot hot_config hot_well_formed hot_energy hot_line_energies ["Fe"] ["K"] [0%Z] 2 1 0 0
    toy_words hot_threshold hot_complete (or_intror hot_bulk) beam_init) as [r H].
  exists r.
  pose proof (@primary_answer sortf lf debug hot hot_config hot_well_formed hot_pointwise hot_energy hot_line_energies ["Fe"] ["K"] [0%Z] 2 1 0 0
    beam_init r toy_words hot_threshold H) as P. cbv zeta in P. rewrite hot_comps_eq, hot_rays in P.
  pose proof (@secondary_answer sortf lf debug hot hot_config hot_well_formed hot_pointwise hot_answers_each hot_energy hot_line_energies ["Fe"] ["K"] [0%Z] 2 1 0 0
    beam_init r toy_words hot_threshold (fun j E Hj f => hot_families j E f Hj) H) as Q. cbv zeta in Q. rewrite hot_comps_eq, hot_rays in Q. change (0 <? 2)%Z with true in Q. cbn iota in Q.
  pose proof (P "Fe K" 0%nat "KL3" eq_refl) as [[_ P1] P2].
  destruct (line_entry r "Fe K" 0 "KL3") as [t|] eqn:HT.
  2: { exfalso. refine (P1 _ eq_refl). eexists (10, 1), 0%nat. split; [left; reflexivity|]. split; [cbn; lia|]. cbn [fst snd]. apply hot_excites. cbn; auto. }
  exists t. split; [exact H|]. split; [reflexivity|]. clear P1.
  destruct (P2 t eq_refl) as [PR (n & Hn & _ & _ & DE)]. 
  pose proof (hot_primary "KL3" (8 / 10) ltac:(cbn; auto)) as PB. rewrite <- PR in PB.
  assert (SE : forall f, tracked f -> field t f = amount f [("Fe KL3 00", hot_G * (1 / 2) * (8 / 10) * (8 / 10)); ("Fe KM3 00", hot_G * (1 / 2) * (8 / 10) * (2 / 10)); ("coherent scattering 00", hot_G * (1 / 2) * (8 / 10) * (1 / 2))]).
  { intros f TF. rewrite (Q "Fe K" 0%nat "KL3" t f eq_refl TF HT). rewrite (hot_sum "KL3" (8 / 10)) by (cbn; auto). rewrite (hot_gains debug "KL3" (8 / 10)) by (cbn; auto). reflexivity. }
  pose proof hot_G_low as GL.
  assert (SS : field t "secondary" = hot_G * (6 / 10)).
  { rewrite (SE _ (or_introl eq_refl)). unfold amount. cbn. lra. }
  split; [apply PB|]. split; [rewrite SS; nra|].
  destruct (@tertiary_answer sortf lf debug hot hot_config hot_well_formed hot_pointwise hot_energy hot_line_energies hot_escape_names ["Fe"] ["K"] [0%Z] 2 1 0 0
    beam_init r toy_words hot_threshold ltac:(lia) H) as (enh & EN & TE).
  assert (NE : ~ escape_line "KL3") by (rewrite <- isEscape_false; reflexivity).
  destruct (TE _ _ _ _ HT NE) as [ST TT]. rewrite TT.
  assert (ET : 101 / 100 <= enhancement t).
  { unfold enhancement. destruct (Rltb_spec 0 (field t "primary")) as [_|]; [|lra]. rewrite SS.
    apply (Rmult_le_reg_r (field t "primary")); [apply PB|]. unfold Rdiv at 2. rewrite Rmult_assoc, Rinv_l by lra. lra. }
  destruct (Rltb_spec (enhancement t) (101 / 100)) as [|_]; [lra|].
  (* the enhancements *)
  assert (E1 : forall name, 1 <= enh name).
  { intros name. destruct (EN name) as [(k & j & l & u & (_ & _ & _ & _ & C) & -> & _)|[_ ->]]; lra. }
  assert (E2 : 1 < enh "Fe KL3 00").
  { destruct (EN "Fe KL3 00") as [(k & j & l & u & (_ & _ & _ & _ & C) & -> & _)|[NO _]]; [lra|].
    exfalso. apply (NO "Fe K" 0%nat "KL3" t). split; [exact HT|]. split; [exact NE|]. split; [reflexivity|]. split; [|exact ET].
    assert (n = 0%nat) by (cbn in Hn; lia). subst n. destruct DE as (_ & _ & _ & MF & _). rewrite MF. cbn. unfold field. cbn. lra. }
  assert (NN : forall nv, In nv t -> 0 <= (if has_space (fst nv) then snd nv * (enh (fst nv) - 1) else 0)).
  { intros [f v] I. cbn [fst snd]. destruct (has_space f) eqn:HS; [|lra]. apply Rmult_le_pos; [|specialize (E1 f); lra].
    apply (smfind_In f v ST) in I. assert (V : v = field t f) by (unfold field; toR; rewrite I; reflexivity). rewrite V, (SE f (or_intror HS)).
    unfold amount. destruct (String.eqb f "secondary"); [cbn; lra|]. apply Rsum_map_nonneg. intros x J. apply filter_In in J. destruct J as [J _]. destruct J as [<-|[<-|[<-|[]]]]; cbn; lra. }
  assert (V0 : field t "Fe KL3 00" = hot_G * (1 / 2) * (8 / 10) * (8 / 10)).
  { rewrite (SE "Fe KL3 00" (or_intror eq_refl)). cbn. lra. }
  destruct (mfind sltb "Fe KL3 00" t) as [v|] eqn:FV; [|unfold field in V0; toR; rewrite FV in V0; lra].
  assert (V : v = field t "Fe KL3 00") by (unfold field; toR; rewrite FV; reflexivity).
  apply (smfind_In "Fe KL3 00" v ST) in FV.
  refine (Rlt_le_trans _ _ _ _ (@Rsum_in_le _ (map _ t) _ (in_map _ _ _ FV))).
  2: { apply Forall_forall. intros y J. apply in_map_iff in J. destruct J as (nv & <- & J). exact (NN nv J). }
  cbn [fst snd has_space]. rewrite V, V0. cbn. nra.
Qed.
End Hot.
