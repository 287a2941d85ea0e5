(** C58: lines excited by the radiation of the sample itself, in XRF::getMultilayerFluorescence. *)
From Coq Require Import Ascii String List ZArith Reals Bool Arith Lia Lra Permutation.
From Verif Require Import Base.Num Base.Res Base.RSum Base.SMap Base.Str Base.ListLemmas Model.Beam Model.Material Model.TransmissionTable
  Model.Math Model.Shell Model.Element Model.Formula Model.Elements Model.Layer Model.XRF Model.Multilayer Model.XRFLibrary Spec.ShellSpec Spec.ElementSpec
  Spec.MaterialSpec Spec.LayerSpec Spec.BeamSpec Spec.ElementsSpec Spec.FormulaSpec Spec.MultilayerSpec Spec.SecondarySpec Spec.LibrarySpec Proofs.BeamProofs Proofs.MathProofs Proofs.LayerProofs Proofs.ElementProofs Proofs.ElementsProofs Proofs.ElementsProofs6
  Proofs.MultilayerProofs Proofs.MultilayerProofs19 Proofs.MultilayerProofs21 Proofs.MultilayerProofs23 Proofs.MultilayerProofs25 Proofs.LibraryProofs Proofs.LibraryProofs2 Proofs.LibraryProofs3 Proofs.LibraryProofs4 Proofs.LibraryExample
  Properties.MultilayerProps Properties.LibraryProps.
Import ListNotations.
Local Open Scope string_scope.
Local Open Scope R_scope.
Local Existing Instance RNum.
Local Ltac toR := change (@num RNum) with R in *.

(** ** C58 Secondary excitation *)
Section Secondary.
Variables (sortf : list R -> list R) (debug lf : bool) (xl : @xlib RNum) (c : @config RNum).
Local Notation calculate := (@getMultilayerFluorescence RNum sortf debug lf xl c).
Variables (elements families : list string) (layers : list Z) (secondary useGeo useMass : Z) (limit : R) (over : @beam RNum).
Let rays := sample_rays xl c over.
Let comps := sample_compositions xl c.

(** The secondary part of a line is the sum over the rays of the beam, over the layers and over the photons
    that each layer emits or scatters under the ray; and the answer lists it photon name by photon name. *)
Theorem C58_secondary EL r : well_formed xl -> pointwise xl -> answers_each xl -> line_energies xl EL ->
  (forall e, In e elements -> one_word e) -> (forall n, (n < length elements)%nat -> 0 <= threshold xl elements families n) ->
  (forall j E f, (j < length (c_sample c))%nat -> In f (families_at xl c comps j E) -> first_word (fst f) <> "dummytext") ->
  calculate elements families layers secondary useGeo useMass limit over = Ok r ->
  forall key i L t, one_word L -> line_entry r key i L = Some t ->
  ((0 < secondary)%Z ->
     field t "secondary" = secondary_sum debug xl c elements families layers useMass limit comps EL rays key i L /\
     forall name, has_space name = true -> field t name = contribution_sum debug xl c elements families layers useMass limit comps name EL rays key i L) /\
  ((secondary <= 0)%Z -> field t "secondary" = 0 /\ forall name, has_space name = true -> field t name = 0).
Proof.
  intros WF PW AE LE WORDS POS PF H key i L t O Ht.
  assert (PF' : forall j E, (j < length (c_sample c))%nat -> plain_families xl c (sample_compositions xl c) j E) by (intros j E Hj f; apply PF, Hj).
  pose proof (fun f TF => @secondary_answer sortf lf debug xl c WF PW AE EL LE elements families layers secondary useGeo useMass limit over r WORDS POS PF' H key i L t f O TF Ht) as Q.
  cbv zeta in Q. split; intros S.
  - destruct (Z.ltb_spec 0 secondary) as [_|Z0]; [|lia]. split; [exact (Q "secondary" (or_introl eq_refl))|].
    intros name SP. rewrite (Q name (or_intror SP)). unfold contribution_sum, sum_over. apply Rsum_ext. intros ray _. apply Rsum_ext. intros n _.
    destruct (excites _ _ _ _ _ _ _ _ _ _ _ _ _); [|reflexivity]. unfold amount. destruct (String.eqb_spec name "secondary") as [->|_]; [discriminate SP|reflexivity].
  - destruct (Z.ltb_spec 0 secondary) as [Z0|_]; [lia|]. split; [exact (Q "secondary" (or_introl eq_refl))|]. intros name SP. exact (Q name (or_intror SP)).
Qed.

(** In an infinitely thick layer the geometrical factor is the one of the fundamental parameter equations. *)
Theorem C58_thick i E EL e : let a := mu_at xl c comps i E / sin_degrees (c_alphaIn c) in let b := mu_at xl c comps i EL / sin_degrees (c_alphaOut c) in
  let m := mu_at xl c comps i e in
  0 < a -> 0 < b -> 0 < m -> a <> m -> 10 < (a + b) * mass_thickness c i ->
  geometry debug xl c comps i i E EL e = (ln (1 + a / m) / a + ln (1 + b / m) / b) / (a + b).
Proof.
  intros a b m Ha Hb Hm NE TH. unfold geometry. rewrite Nat.eqb_refl. fold a b m. replace (Reqb a m) with false by (symmetry; apply Reqb_false; exact NE).
  unfold sin_in. fold a. unfold L0. unfold mass_thickness in TH.
  rewrite (@deBoerL0_thick debug a b m) by (try assumption; rewrite (Rmult_comm (l_thickness _)); exact TH).
  rewrite (@deBoerL0_thick debug b a m) by (try assumption; rewrite (Rmult_comm (l_thickness _)), (Rplus_comm b a); exact TH).
  field. repeat split; lra.
Qed.
End Secondary.
Print Assumptions C58_secondary.
Print Assumptions C58_thick.

(** The same with the class Elements, after an arbitrary history of calls, as the library. *)
Theorem C58_library (tostr : R -> string) (depth fuel : nat) (lf : bool) (ops : list (@es_op RNum)) (sortf : list (string * R) -> list (string * R))
  (sortr : list R -> list R) (debug lfd : bool) (c : @config RNum) elements families layers secondary useGeo useMass limit over r :
  let es := es_run tostr depth fuel lf elements_empty ops in let xl := @xlib_of RNum tostr depth fuel sortf es in
  let rays := sample_rays xl c over in let comps := sample_compositions xl c in
  plain_library es -> std_sort_contract (fun a b : string * R => Rltb (snd a) (snd b)) sortf ->
  (forall name e, Elements.getElement es name = Ok e -> first_word name <> "dummytext") -> (forall e, In e elements -> one_word e) ->
  @getMultilayerFluorescence RNum sortr debug lfd xl c elements families layers secondary useGeo useMass limit over = Ok r ->
  forall key i L t, one_word L -> line_entry r key i L = Some t ->
  ((0 < secondary)%Z ->
     field t "secondary" = secondary_sum debug xl c elements families layers useMass limit comps (line_energy_in es) rays key i L /\
     forall name, has_space name = true -> field t name = contribution_sum debug xl c elements families layers useMass limit comps name (line_energy_in es) rays key i L) /\
  ((secondary <= 0)%Z -> field t "secondary" = 0 /\ forall name, has_space name = true -> field t name = 0).
Proof.
  intros es xl rays comps PL SORT ND WORDS H key i L t O Ht.
  refine (C58_secondary sortr debug lfd xl c elements families layers secondary useGeo useMass limit over (line_energy_in es) r
    (library_well_formed _ _ _ _ PL) (library_pointwise _ _ _ _ _) (library_answers_each _ _ _ _ _) (library_line_energies _ _ _ _ PL) WORDS (fun n _ => thresholds_nonneg tostr depth fuel lf ops sortf elements families n PL) _ H key i L t O Ht).
  intros j E f _. apply (library_plain_families tostr depth fuel sortf es c comps j E); [|exact ND]. intros l. exact (proj1 (SORT l (by_energy_swo l))).
Qed.
Print Assumptions C58_library.

(** Iron alone, as in C53: the line KL3 is excited by the scattered beam and by the lines KL3 and KM3 *)
Section Example58.
Variables (tostr : R -> string) (lf : bool) (sortf : list (string * R) -> list (string * R)).
Hypothesis SORT : std_sort_contract (fun a b : string * R => Rltb (snd a) (snd b)) sortf.
Local Notation es := (es_run tostr 1 1 lf elements_empty C53_history).
Local Notation xl := (@xlib_of RNum tostr 1 1 sortf es).
Theorem C58_example sortr debug lfd secondary limit : (0 < secondary)%Z ->
  plain_library es /\ (forall name e, Elements.getElement es name = Ok e -> first_word name <> "dummytext") /\
  exists r t, @getMultilayerFluorescence RNum sortr debug lfd xl C53_config ["Fe"] ["K"] [0%Z] secondary 1 0 limit beam_init = Ok r /\
    line_entry r "Fe K" 0 "KL3" = Some t /\
    field t "secondary" = secondary_sum debug xl C53_config ["Fe"] ["K"] [0%Z] 0 limit [[("Fe", 1)]] (line_energy_in es) (sample_rays xl C53_config beam_init) "Fe K" 0 "KL3" /\
    forall w, exists v, In ("coherent scattering 00", v) (gains debug xl C53_config ["Fe"] ["K"] 0 limit [[("Fe", 1)]] 0 10 w 0 "KL3" (71 / 10)).
Proof.
  intros S. split; [apply C53_plain|]. assert (ND : forall name e, Elements.getElement es name = Ok e -> first_word name <> "dummytext").
  { intros name e H. apply C53_elements in H. destruct H as [-> _]. discriminate. }
  split; [exact ND|]. destruct (C53_example tostr lf sortf SORT sortr debug lfd secondary limit) as (PL & CL & _ & r & HR & HL).
  destruct (line_entry r "Fe K" 0 "KL3") as [t|] eqn:HT; [|exfalso; apply HL; reflexivity]. exists r, t. split; [exact HR|]. split; [exact HT|].
  assert (W : forall e, In e ["Fe"] -> one_word e) by (intros e [<-|[]]; reflexivity).
  destruct (C58_library tostr 1 1 lf C53_history sortf sortr debug lfd C53_config ["Fe"] ["K"] [0%Z] secondary 1 0 limit beam_init r PL SORT ND W HR "Fe K" 0%nat "KL3" t eq_refl HT) as [Q _].
  split; [rewrite <- (C53_comps tostr lf sortf); exact (proj1 (Q S))|]. clear Q. intros w.
  assert (HE : Elements.getElement es "Fe" = Ok fe_explicit) by (apply C53_elements; auto).
  assert (TH : threshold xl ["Fe"] ["K"] 0 = 71 / 10).
  { unfold threshold, getEnergyThreshold. cbn [x_binding xlib_of element_of nth]. unfold elementBinding. toR. rewrite HE. reflexivity. }
  destruct (@factors_total _ _ _ sortf es CL "Fe" fe_explicit 10 1 HE) as [rows HRw].
  destruct (factors_of _ _ _ _ PL _ _ _ HRw) as (e' & HE' & _ & HF). rewrite HE in HE'. apply Ok_inj in HE'. subst e'.
  destruct (fe_KL3 10 1 rows ltac:(lra) ltac:(lra) HF) as (row & HRow & PF).
  unfold gains. cbn [c_sample C53_config length seq flat_map]. unfold neglected_layer. cbn [Nat.eqb negb andb]. rewrite app_nil_r. unfold photons. rewrite flat_map_app. 
  eexists. apply in_or_app. right. cbn [flat_map]. rewrite app_nil_r. unfold scattered, gain_from. rewrite TH.
  unfold factor_row. change (element_of ["Fe"] 0) with "Fe". toR. rewrite HRw, HRow. unfold neglected. cbn [Nat.eqb negb andb].
  destruct (Rltb_spec 0 (field row "factor")) as [_|]; [|contradiction]. replace (Rleb (71 / 10) 10) with true by (symmetry; apply Rleb_true; lra). left. reflexivity.
Qed.
End Example58.
Print Assumptions C58_example.
