(** The class Elements as library: with complete data every question of the calculation is answered. *)
From Coq Require Import Ascii String List ZArith Reals Bool Arith Lia Lra Permutation.
From Verif Require Import Base.Num Base.Res Base.RSum Base.SMap Base.Str Base.ListLemmas Model.Beam Model.Material Model.TransmissionTable
  Model.Math Model.Shell Model.Element Model.Formula Model.Elements Model.Layer Model.XRF Model.Multilayer Model.XRFLibrary Spec.ShellSpec Spec.ElementSpec
  Spec.MaterialSpec Spec.BeamSpec Spec.MultilayerSpec Spec.LibrarySpec Proofs.LayerProofs Proofs.ElementProofs Proofs.ElementProofs3 Proofs.ElementsProofs4 Proofs.ElementsProofs6 Proofs.MultilayerProofs Proofs.MultilayerProofs2 Proofs.MultilayerProofs3
  Proofs.MultilayerProofs5 Proofs.MultilayerProofs7 Proofs.MultilayerProofs15 Proofs.LibraryProofs.
Import ListNotations.
Set Implicit Arguments.
Local Open Scope string_scope.
Local Open Scope R_scope.
Local Existing Instance RNum.
Local Notation tab := (list (string * R)).
Local Ltac toR := change (@num RNum) with R in *.

Section Complete.
Variables (tostr : R -> string) (depth fuel : nat) (sortf : tab -> tab) (es : @elements RNum).
Hypothesis PL : plain_library es.
Hypothesis CL : complete_library tostr depth fuel es.
Hypothesis SORT : std_sort_contract (fun a b : string * R => Rltb (snd a) (snd b)) sortf.
Local Notation xl := (@xlib_of RNum tostr depth fuel sortf es).
Local Notation known := (known es).

Lemma lit90 : Rlit 90 0 = 90.
Proof. unfold Rlit. simpl. lra. Qed.
Lemma element_at name e : Elements.getElement es name = Ok e -> elementAt es name = Ok e.
Proof. unfold Elements.getElement. destruct (isElementNameDefined es name); [auto|discriminate]. Qed.
Lemma element_total name e E t : Elements.getElement es name = Ok e -> Element.getMassAttenuationCoefficients e E = Ok t ->
  field t "total" = field t "photoelectric" + field t "coherent" + field t "compton" + field t "pair".
Proof.
  intros HE H. unfold Element.getMassAttenuationCoefficients in H. destruct (Nat.ltb _ 1) in H; [discriminate|].
  rewrite (pe_cache _ (pl_elements _ PL _ _ HE)) in H. apply computeMu_sums in H. destruct H as [_ H].
  assert (G : forall (o : option R) x, o = Some x -> match o with Some v => v | None => 0 end = x) by (intros ? ? ->; reflexivity). exact (G _ _ H).
Qed.

(** ** Mixtures *)
Definition quad (a : R * R * R * R) : R := let '(co, cp, pa, ph) := a in co + cp + pa + ph.
Lemma mixtureSum_total (total E : R) : 0 < total -> forall k acc, (forall s x, In (s, x) k -> 0 < x /\ exists e, Elements.getElement es s = Ok e) ->
  exists acc', @mixtureSum RNum es total E k acc = Ok acc' /\ quad acc <= quad acc' /\ (k <> [] -> quad acc < quad acc').
Proof.
  intros HT. induction k as [|[s x] k IH]; intros acc HK; cbn [mixtureSum]; [exists acc; split; [reflexivity|split; [lra|congruence]]|].
  destruct (HK s x (or_introl eq_refl)) as (HX & e & HE). rewrite (element_at _ HE). cbn [rbind].
  destruct (proj1 (CL _ HE)) as [MU _ _ _]. destruct (MU E) as (t & HM & PT). toR. rewrite HM. cbn [rbind].
  destruct acc as [[[co cp] pa] ph]. rewrite (element_total _ _ HE HM) in PT.
  match goal with |- context [mixtureSum es total E k ?a] => destruct (IH a) as (acc' & HA & Q1 & _) end; [intros s' x' I; apply (HK s'), or_intror, I|].
  toR. rewrite HA. exists acc'. split; [reflexivity|].
  assert (Q : quad (co, cp, pa, ph) < quad acc').
  { eapply Rlt_le_trans; [|exact Q1]. unfold quad, muTerm. rnorm. change (@val0 RNum t) with (field t). toR.
    assert (P : 0 < x / total) by (apply Rdiv_lt_0_compat; assumption). set (w := x / total) in *.
    assert (0 < w * (field t "photoelectric" + field t "coherent" + field t "compton" + field t "pair")) by (apply Rmult_lt_0_compat; assumption). lra. }
  split; [lra|auto].
Qed.
Lemma mixtureAt_total (total E : R) k : 0 < total -> known k -> exists t, @mixtureAt RNum es total k E = Ok t /\ 0 < field t "total".
Proof.
  intros HT [NE HK]. unfold mixtureAt. destruct (@mixtureSum_total total E HT k (0, 0, 0, 0) HK) as (acc & HA & _ & Q). change (@n0 RNum) with 0. toR. rewrite HA.
  destruct acc as [[[co cp] pa] ph]. unfold rmap. cbn [rbind]. eexists. split; [reflexivity|]. unfold field. cbn. specialize (Q NE). unfold quad in Q. lra.
Qed.
Lemma mixtureElements_total : forall k acc total, (forall s x, In (s, x) k -> 0 < x /\ exists e, Elements.getElement es s = Ok e) ->
  msorted sltb acc -> (forall s x, In (s, x) acc -> 0 < x /\ exists e, Elements.getElement es s = Ok e) -> 0 <= total -> (acc <> [] \/ k <> []) -> (0 < total \/ k <> []) ->
  exists acc' total', mixtureElements (Elements.getComposition tostr depth fuel es) k acc total = Ok (acc', total') /\ 0 < total' /\ known acc'.
Proof.
  induction k as [|[s x] k IH]; intros acc total HK SA HA T0 NE TP; cbn [mixtureElements].
  - exists acc, total. split; [reflexivity|]. split; [destruct TP as [TP|TP]; [exact TP|congruence]|]. split; [destruct NE as [NE|NE]; [exact NE|congruence]|exact HA].
  - destruct (HK s x (or_introl eq_refl)) as (HX & e & HE). destruct (CL _ HE) as (_ & _ & HC).
    rnorm. destruct (Rltb_spec x 0) as [Q|_]; [lra|]. toR. rewrite HC. cbn [rbind].
    destruct (addScaled_facts x [(s, 1)] acc SA) as (F1 & _ & _ & F4).
    apply IH.
    + intros s' x' I. apply (HK s'). right. exact I.
    + exact F1.
    + intros s' x' I. split.
      * refine (@addScaled_pos x [(s, 1)] HX acc SA _ _ s' x' I); [intros q y [Z|[]]; injection Z as <- <-; lra|intros q y Iq; exact (proj1 (HA q y Iq))].
      * assert (K : In s' (map fst (@addScaled RNum x [(s, 1)] acc))) by (apply in_map_iff; exists (s', x'); auto).
        apply F4 in K. destruct K as [[<-|[]]|K]; [eauto|]. apply in_map_iff in K. destruct K as ([q y] & <- & Iq). exact (proj2 (HA q y Iq)).
    + lra.
    + left. intros Z. assert (K : In s (map fst (@addScaled RNum x [(s, 1)] acc))) by (apply F4; left; left; reflexivity). rewrite Z in K. destruct K.
    + left. lra.
Qed.
Lemma mu_list_total k Es flag : known k -> exists l, getMu_map_list tostr depth fuel es k Es flag = Ok l /\ length l = length Es /\ forall t, In t l -> 0 < field t "total".
Proof.
  intros HK. unfold getMu_map_list.
  assert (A : exists k' t', (if (flag =? 0)%Z then rbind (mixtureElements (Elements.getComposition tostr depth fuel es) k [] n0) (fun a => if nleb (snd a) n0 then Throw InvalidArgument else Ok a) else Ok (k, n1)) = Ok (k', t') /\ 0 < t' /\ known k').
  { destruct (flag =? 0)%Z; [|exists k, 1; split; [reflexivity|split; [lra|exact HK]]].
    destruct (@mixtureElements_total k [] 0 (proj2 HK) smsorted_nil) as (k' & t' & HM & PT & KK); [intros ? ? []|lra|right; exact (proj1 HK)|right; exact (proj1 HK)|].
    change (@n0 RNum) with 0. toR. rewrite HM. cbn [rbind snd]. exists k', t'. split; [|split; assumption].
    rnorm. destruct (Rleb_spec t' 0); [lra|reflexivity]. }
  destruct A as (k' & t' & HA & PT & KK). toR. rewrite HA. cbn [rbind fst snd]. clear HA.
  induction Es as [|E Es IH]; cbn [rmapM]; [exists []; split; [reflexivity|split; [reflexivity|intros t []]]|].
  destruct (@mixtureAt_total t' E k' PT KK) as (t & HM & P). toR. rewrite HM. cbn [rbind]. destruct IH as (l & HL & LL & PP). toR. rewrite HL. cbn [rbind].
  exists (t :: l). split; [reflexivity|]. split; [cbn; rewrite LL; reflexivity|]. intros u [<-|I]; [exact P|apply PP, I].
Qed.
Lemma mu_total k E flag : known k -> exists t, getMu_map tostr depth fuel es k E flag = Ok t /\ 0 < field t "total".
Proof.
  intros HK. unfold getMu_map. destruct (mu_list_total [E] flag HK) as (l & HL & LL & PP). toR. rewrite HL. cbn [rbind].
  destruct l as [|t l]; [discriminate|]. exists t. split; [reflexivity|apply PP; left; reflexivity].
Qed.
Lemma mu_vec_total k Es flag : known k -> exists m, getMu_map_vec tostr depth fuel es k Es flag = Ok m /\ length (vval m "total") = length Es /\
  (forall v, In v (vval m "total") -> 0 < v) /\ length (vval m "coherent") = length Es.
Proof.
  intros HK. unfold getMu_map_vec. destruct (mu_list_total Es flag HK) as (l & HL & LL & PP). toR. rewrite HL. unfold rmap. cbn [rbind]. eexists. split; [reflexivity|].
  change (vval (transpose_mu l) "total") with (map (fun t => @val0 RNum t "total") l). change (vval (transpose_mu l) "coherent") with (map (fun t => @val0 RNum t "coherent") l).
  rewrite !map_length. split; [exact LL|]. split; [|exact LL]. intros v I. apply in_map_iff in I. destruct I as (t & <- & I). exact (PP t I).
Qed.

(** ** Factors and families *)
Lemma factors_total ele x (E w : R) : Elements.getElement es ele = Ok x -> exists l, x_factors xl ele E w = Ok l.
Proof.
  intros HE. cbn [x_factors xlib_of]. unfold getExcitationFactors. toR. rewrite HE. cbn [rbind]. unfold getPhotoelectricExcitationFactors_vec. cbn [rmapM].
  destruct (proj1 (CL _ HE)) as [_ FA _ _]. destruct (FA E w) as [l HL]. toR. rewrite HL. cbn. eauto.
Qed.
Lemma families_total names (E : R) : (forall s, In s names -> exists e, Elements.getElement es s = Ok e) -> exists l, Elements.getPeakFamilies sortf es names E = Ok l.
Proof.
  intros H. apply peaks_succeed. intros n I. destruct (H n I) as [e HE]. exists e. split; [exact HE|]. destruct (proj1 (CL _ HE)) as [_ _ IM SH].
  split; [exact IM|]. intros s b Ib Hb K. apply (SH s b Ib (proj1 Hb)). apply klm_iff, K.
Qed.
Lemma familiesOf_names name e shells out f : familiesOf name e shells = Ok out -> In f out -> exists s, fst f = name ++ " " ++ s.
Proof. intros H I. apply (familiesOf_spec _ _ _ _ H f) in I. destruct I as (s & _ & _ & Q & _). eauto. Qed.
Lemma families_names names (E : R) l f : Elements.getPeakFamilies sortf es names E = Ok l -> In f l -> exists ele s, In ele names /\ fst f = ele ++ " " ++ s.
Proof.
  unfold Elements.getPeakFamilies. intros H I. obind H l0 H0. apply Ok_inj in H. subst l.
  assert (I0 : In f l0) by (refine (Permutation_in f (Permutation_sym (proj1 (SORT (by_energy_swo l0)))) I)).
  clear I. revert l0 H0 I0. assert (G : forall acc l0, rfold (fun out name => rbind (Elements.getElement es name) (fun e => rbind (familiesOf name e (getExcitedShells e E)) (fun f => Ok (out ++ f)%list))) names acc = Ok l0 -> In f l0 -> In f acc \/ exists ele s, In ele names /\ fst f = ele ++ " " ++ s).
  { induction names as [|n names IH]; intros acc l0 H I; cbn [rfold] in H; [apply Ok_inj in H; subst l0; left; exact I|].
    obind H a HA. obind HA e HE. obind HA fs HF. apply Ok_inj in HA. subst a. destruct (IH _ _ H I) as [K|(ele & s & I1 & I2)].
    - apply in_app_or in K. destruct K as [K|K]; [left; exact K|]. destruct (familiesOf_names _ _ _ _ HF K) as [s Q]. right. exists n, s. split; [left; reflexivity|exact Q].
    - right. exists ele, s. split; [right; exact I1|exact I2]. }
  intros l0 H0 I0. destruct (G _ _ H0 I0) as [[]|K]. exact K.
Qed.

(** ** Layers *)
Section Config.
Variables (c : @config RNum) (elements families : list string) (layers : list Z) (useGeo : Z).
Hypothesis CC : complete_config tostr depth fuel sortf es c elements families layers useGeo.
Local Notation comps := (sample_compositions xl c).

Lemma comps_known i : (i < length (c_sample c))%nat -> known (comp_at comps i) /\ In (layer_at c i) (c_sample c).
Proof.
  intros Hi. assert (IL : In (layer_at c i) (c_sample c)) by (apply nth_In, Hi). split; [|exact IL].
  unfold comp_at, sample_compositions. rewrite (nth_indep _ [] ((fun l => match getLayerComposition xl c l with Ok t => t | _ => [] end) (layer_new "" 0 0 0))) by (rewrite map_length; exact Hi).
  refine (eq_ind_r (fun k => known k) _ (map_nth _ _ _ _)). fold (layer_at c i). destruct (cc_known _ _ _ _ _ _ _ _ _ _ CC (layer_at c i)) as (_ & _ & k & HK & KK); [apply in_or_app; left; exact IL|].
  toR. rewrite HK. exact KK.
Qed.
Lemma layer_mu_total l comp E : (comp = [] -> exists k, getLayerComposition xl c l = Ok k /\ known k) -> (comp <> [] -> known comp) ->
  exists t, getLayerMu xl c l E comp = Ok t /\ 0 < field t "total".
Proof.
  intros H0 H1. unfold getLayerMu. destruct comp as [|p comp].
  - destruct (H0 eq_refl) as (k & HK & KK). toR. rewrite HK. cbn [rbind x_mu xlib_of]. apply mu_total, KK.
  - cbn [x_mu_given xlib_of]. apply mu_total, H1. discriminate.
Qed.
Lemma layer_muv_total l comp Es : (comp = [] -> exists k, getLayerComposition xl c l = Ok k /\ known k) -> (comp <> [] -> known comp) ->
  exists m, getLayerMu_vec xl c l Es comp = Ok m /\ length (vval m "total") = length Es /\ (forall v, In v (vval m "total") -> 0 < v) /\ length (vval m "coherent") = length Es.
Proof.
  intros H0 H1. unfold getLayerMu_vec. destruct comp as [|p comp].
  - destruct (H0 eq_refl) as (k & HK & KK). toR. rewrite HK. cbn [rbind x_muv xlib_of]. apply mu_vec_total, KK.
  - cbn [x_muv_given xlib_of]. apply mu_vec_total, H1. discriminate.
Qed.
Lemma layer_transmission_total l comp Es a : (comp = [] -> exists k, getLayerComposition xl c l = Ok k /\ known k) -> (comp <> [] -> known comp) ->
  0 < pathThickness l a -> exists v, getLayerTransmission_vec xl c l Es a comp = Ok v /\ length v = length Es.
Proof.
  intros H0 H1 P. unfold getLayerTransmission_vec. rnorm. destruct (Rleb_spec (pathThickness l a) 0); [lra|].
  destruct (@layer_muv_total l comp Es H0 H1) as (m & HM & LM & _). toR. rewrite HM. cbn [rbind]. eexists. split; [reflexivity|]. rewrite map_length. exact LM.
Qed.
Lemma path90 l : 0 < l_density l -> 0 < l_thickness l -> 0 < pathThickness l 90.
Proof.
  intros HD HT. rewrite pathThickness_R, Rabs_pos_eq, sin_90 by lra. unfold Rdiv. rewrite Rinv_1, Rmult_1_r. apply Rmult_lt_0_compat; assumption.
Qed.
Lemma one_transmission l comp E a : (exists v, getLayerTransmission_vec xl c l [E] a comp = Ok v /\ length v = 1%nat) -> exists v, getLayerTransmission xl c l E a comp = Ok v.
Proof. intros (v & HV & L). unfold getLayerTransmission. toR. rewrite HV. cbn [rbind]. destruct v; [discriminate|]. cbn. eauto. Qed.

Hypothesis REG : forall name, name <> "" -> mmem sltb name (es_dict es) = true -> exists e, Elements.getElement es name = Ok e.
Lemma name_mu_total name E k : name <> "" -> Elements.getComposition tostr depth fuel es name = Ok k -> known k -> exists t, getMu_name tostr depth fuel es name E = Ok t.
Proof.
  intros NE HC KK. unfold getMu_name. destruct (mmem sltb name (es_dict es)) eqn:M.
  - destruct (REG NE M) as [e HE]. toR. rewrite HE. cbn [rbind]. destruct (proj1 (CL _ HE)) as [MU _ _ _]. destruct (MU E) as (t & HT & _). eauto.
  - toR. rewrite HC. cbn [rbind]. destruct k; [destruct KK; congruence|]. destruct (@mu_total (p :: k) E 0%Z KK) as (t & HT & _). eauto.
Qed.

(** ** Escape peaks *)
Lemma totalMu_total k E : known k -> exists v, Elements.totalMu tostr depth fuel es k E = Ok v.
Proof. intros KK. unfold Elements.totalMu. destruct (@mu_total k E 0%Z KK) as (t & HT & _). toR. rewrite HT. unfold rmap. cbn. eauto. Qed.
Lemma escapeLines_total k (E s muI eff : R) name : known (k_composition k) -> forall l out,
  (forall line t, In (line, t) l -> mfind sltb "energy" t <> None /\ mfind sltb "rate" t <> None) ->
  exists out', escapeLines tostr depth fuel es k E s muI eff name l out = Ok out'.
Proof.
  intros KK. induction l as [|[line t] l IH]; intros out HL; cbn [escapeLines]; [eauto|].
  destruct (HL line t (or_introl eq_refl)) as [HE HR].
  destruct (mfind sltb "rate" t) as [r0|]; [|congruence]. destruct (mfind sltb "energy" t) as [eF|]; [|congruence]. cbn [of_opt rbind].
  destruct (@totalMu_total (k_composition k) eF KK) as [v HV]. toR. rewrite HV. cbn [rbind]. apply IH. intros line' t' I. apply (HL line'). right. exact I.
Qed.
Lemma row_fields ele (E w : R) l line t : x_factors xl ele E w = Ok l -> In (line, t) l ->
  mfind sltb "factor" t <> None /\ mfind sltb "energy" t <> None /\ mfind sltb "rate" t <> None.
Proof.
  intros H I. destruct (library_rows _ _ _ _ PL _ _ _ H) as (photo & _ & RW). destruct (RW line t I) as (_ & r & _ & ->).
  split; [|split]; cbn; discriminate.
Qed.
Lemma escape_total k E : es_escFlag es <> None -> known (k_composition k) -> exists l, Elements.getEscape tostr depth fuel es k E = Ok l.
Proof.
  intros FL KK. unfold Elements.getEscape.
  assert (C : isEscapeCacheCompatible es k = Ok false).
  { unfold isEscapeCacheCompatible. destruct (es_escFlag es) as [f|] eqn:F; [|congruence]. cbn [of_opt rbind].
    destruct (pl_escape _ PL) as [Z|Z]; [rewrite F in Z; injection Z as ->; reflexivity|]. rewrite Z. destruct (f =? 0)%Z; reflexivity. }
  toR. rewrite C. cbn [rbind]. unfold Elements.computeEscape. cbn zeta.
  destruct (@totalMu_total (k_composition k) E KK) as [muI HM]. toR. rewrite HM. cbn [rbind].
  match goal with |- context [rfold ?f _ _] => assert (G : forall l out, (forall s x, In (s, x) l -> exists e, Elements.getElement es s = Ok e) -> exists out', rfold f l out = Ok out') end.
  { induction l as [|[s x] l IH]; intros out HL; cbn [rfold]; [eauto|]. destruct (HL s x (or_introl eq_refl)) as [e HE]. cbn [fst snd].
    destruct (@factors_total s e E x HE) as [rows HR]. pose proof HR as HR'. cbn [x_factors xlib_of] in HR. toR. rewrite HR. cbn [rbind].
    match goal with |- context [escapeLines _ _ _ _ k ?a ?b ?c0 ?d0 ?n rows out] => destruct (@escapeLines_total k a b c0 d0 n KK rows out) as [o HO] end.
    { intros line t I. destruct (@row_fields _ _ _ _ _ _ HR' I) as (_ & A & B). split; assumption. }
    toR. rewrite HO. cbn [rbind]. apply IH. intros s' x' I. apply (HL s' x'). right. exact I. }
  apply G. intros s x I. exact (proj2 (proj2 KK s x I)).
Qed.

(** ** The data of the calculation *)
Theorem library_complete : complete_data xl c elements families layers useGeo.
Proof.
  pose proof (cc_known _ _ _ _ _ _ _ _ _ _ CC) as KN. destruct (cc_detector _ _ _ _ _ _ _ _ _ _ CC) as [NM DET].
  assert (SMP : forall i, (i < length (c_sample c))%nat -> In (layer_at c i) (c_sample c ++ c_filters c ++ c_attenuators c)%list)
    by (intros i Hi; apply in_or_app; left; apply nth_In, Hi).
  constructor.
  - exact (cc_families _ _ _ _ _ _ _ _ _ _ CC).
  - exact (cc_layers _ _ _ _ _ _ _ _ _ _ CC).
  - exact (cc_named _ _ _ _ _ _ _ _ _ _ CC).
  - intros l I. destruct (KN l) as (_ & _ & k & HK & _); [apply in_or_app; left; exact I|]. eauto.
  - exact (cc_solid _ _ _ _ _ _ _ _ _ _ CC).
  - intros i E Hi. destruct (comps_known Hi) as [KK _]. destruct (@layer_mu_total (layer_at c i) (comp_at comps i) E) as (t & HT & _); [intros Z; destruct KK; congruence|auto|eauto].
  - intros i Es Hi. destruct (comps_known Hi) as [KK _]. destruct (@layer_muv_total (layer_at c i) (comp_at comps i) Es) as (t & HT & _); [intros Z; destruct KK; congruence|auto|eauto].
  - intros i E Hi. destruct (comps_known Hi) as [KK _]. apply one_transmission. apply layer_transmission_total; [intros Z; destruct KK; congruence|auto|].
    destruct (KN _ (SMP i Hi)) as (PD & PT & _). rewrite pathThickness_R. pose proof (cc_out _ _ _ _ _ _ _ _ _ _ CC). apply Rdiv_lt_0_compat; [apply Rmult_lt_0_compat; assumption|assumption].
  - intros l Es I. destruct (KN l) as (PD & PT & k & HK & KK); [apply in_or_app; right; apply in_or_app; left; exact I|].
    apply layer_transmission_total; [eauto|intros QQ; exfalso; apply QQ; reflexivity|]. change (@nlit RNum 90 0) with (Rlit 90 0). rewrite lit90. apply path90; assumption.
  - intros l E I. destruct (KN l) as (PD & PT & k & HK & KK); [apply in_or_app; right; apply in_or_app; right; exact I|].
    apply one_transmission. apply layer_transmission_total; [eauto|intros QQ; exfalso; apply QQ; reflexivity|]. change (@nlit RNum 90 0) with (Rlit 90 0). rewrite lit90. apply path90; assumption.
  - intros M PD PT E. rewrite NM in M. cbn [orb] in M. apply Bool.negb_true_iff, String.eqb_neq in M. destruct DET as [DET|(k & HK & KK)]; [contradiction (M DET)|].
    unfold Layer.getTransmission, layer_mu. rewrite NM. cbn [x_base xlib_of library_of lib_mu_name]. destruct (@name_mu_total _ E k M HK KK) as [t HT]. toR. rewrite HT. unfold rmap. cbn [rbind].
    change (@nlit RNum 90 0) with (Rlit 90 0). rewrite lit90. rnorm. destruct (Rleb_spec (pathThickness (d_layer (c_detector c)) 90) 0) as [Q|_]; [|eauto].
    pose proof (path90 _ PD PT). exfalso. apply (Rlt_irrefl 0). eapply Rlt_le_trans; eassumption.
  - intros E. unfold escape_peaks. rewrite NM. cbn [orb]. destruct (String.eqb_spec (l_materialName (d_layer (c_detector c))) "") as [Q|Q]; cbn [negb]; [eauto|].
    destruct DET as [DET|(k & HK & KK)]; [congruence|]. unfold det_getEscape. cbn [String.length Nat.ltb Nat.leb snd]. unfold Layer.computeEscape.
    unfold layer_getComposition. cbn [d_layer clearEscapePeakCache with_cache]. rewrite NM. cbn [x_base xlib_of library_of lib_comp_name lib_escape]. toR. rewrite HK. cbn [rbind].
    apply escape_total; [exact (cc_flag _ _ _ _ _ _ _ _ _ _ CC Q)|exact KK].
  - intros E l e H I. unfold escape_peaks in H. destruct (_ || _)%bool in H; [|apply Ok_inj in H; subst l; contradiction].
    unfold det_getEscape in H. cbn [String.length Nat.ltb Nat.leb snd] in H. unfold Layer.computeEscape in H. obind H k HC.
    cbn [x_base xlib_of library_of lib_escape] in H. apply getEscape_peaks in H; [|exact PL]. destruct H as [_ RW]. destruct e as [n t]. destruct (RW n t I) as (_ & en & r & -> & _).
    split; cbn; discriminate.
  - intros e I. destruct (proj2 (cc_elements _ _ _ _ _ _ _ _ _ _ CC e I)) as [x HX]. cbn [x_binding xlib_of]. unfold elementBinding. toR. rewrite HX. unfold rmap. cbn. eauto.
  - intros e E w I. destruct (proj2 (cc_elements _ _ _ _ _ _ _ _ _ _ CC e I)) as [x HX]. exact (@factors_total _ _ E w HX).
  - intros e E w l line t H I. exact (@row_fields _ _ _ _ _ _ H I).
Qed.

(** one thick layer *)
Theorem library_bulk : length (c_sample c) = 1%nat -> 0 < sin_degrees (c_alphaIn c) -> 0 < sin_degrees (c_alphaOut c) ->
  (forall E E', 10 < (Spec.MultilayerSpec.mu_at xl c comps 0 E / sin_degrees (c_alphaIn c) + Spec.MultilayerSpec.mu_at xl c comps 0 E' / sin_degrees (c_alphaOut c)) * mass_thickness c 0) ->
  bulk_sample xl c.
Proof.
  intros L1 SI SO TH. assert (H0 : (0 < length (c_sample c))%nat) by (rewrite L1; constructor). destruct (comps_known H0) as [KK _].
  assert (NE : comp_at comps 0 <> []) by exact (proj1 KK).
  assert (FAM : forall E, getLayerPeakFamilies xl c (layer_at c 0) E (comp_at comps 0) = Elements.getPeakFamilies sortf es (fold_left push_new (map fst (comp_at comps 0)) []) E).
  { intros E. unfold getLayerPeakFamilies. destruct (comp_at comps 0); [congruence|]. reflexivity. }
  assert (NAMES : forall s, In s (fold_left push_new (map fst (comp_at comps 0)) []) -> exists e, Elements.getElement es s = Ok e).
  { assert (G : forall l acc, (forall s, In s l -> exists e, Elements.getElement es s = Ok e) -> (forall s, In s acc -> exists e, Elements.getElement es s = Ok e) ->
      forall s, In s (fold_left push_new l acc) -> exists e, Elements.getElement es s = Ok e).
    { induction l as [|a l IH]; intros acc HL HA s I; cbn [fold_left] in I; [apply HA, I|]. refine (IH (push_new acc a) _ _ s I); [intros q Iq; apply HL; right; exact Iq|].
      intros q Iq. unfold push_new in Iq. destruct (existsb _ _); [apply HA, Iq|]. apply in_app_or in Iq. destruct Iq as [Iq|[<-|[]]]; [apply HA, Iq|apply HL; left; reflexivity]. }
    apply G; [|intros s []]. intros s I. apply in_map_iff in I. destruct I as ([q x] & <- & I). exact (proj2 (proj2 KK q x I)). }
  constructor.
  - exact L1.
  - exact SI.
  - exact SO.
  - intros Es m N0 H. destruct (@layer_muv_total (layer_at c 0) (comp_at comps 0) Es) as (m' & HM & LT & PP & LC); [congruence|auto|].
    toR. rewrite HM in H. apply Ok_inj in H. subst m'. split; [exact LT|]. split; [exact PP|]. intros Z. rewrite Z in LC. destruct Es; [congruence|discriminate].
  - intros E. unfold Spec.MultilayerSpec.mu_at. destruct (@layer_mu_total (layer_at c 0) (comp_at comps 0) E) as (t & HT & PT); [congruence|auto|]. toR. rewrite HT. exact PT.
  - exact TH.
  - intros E. rewrite FAM. apply families_total. exact NAMES.
  - intros E l name v element rest H I -> OW RS. rewrite FAM in H. destruct (families_names _ _ _ H I) as (ele & s & IE & Q). cbn [fst] in Q.
    destruct (NAMES ele IE) as [x HX]. destruct (CL _ HX) as (_ & OE & _).
    assert (element = ele) as ->.
    { destruct RS as [->|(r & ->)].
      - exfalso. assert (SN : forall a, a ++ "" = a) by (induction a as [|ch a IHa]; cbn; congruence). rewrite SN in Q. rewrite Q in OW. unfold one_word in OW. rewrite has_space_mid in OW. discriminate.
      - exact (proj1 (@word_inj _ _ _ _ OW OE Q)). }
    exact (@factors_total _ _ E 1 HX).
Qed.
End Config.
End Complete.
