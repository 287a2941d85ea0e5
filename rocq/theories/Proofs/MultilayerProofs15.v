(** Multilayer: with complete data the calculation ends normally (the whole calculation). *)
From Coq Require Import Ascii String List ZArith Reals Bool Arith Lia Lra Permutation.
From Verif Require Import Base.Num Base.Res Base.RSum Base.SMap Base.Str Base.ListLemmas Model.Beam Model.Material Model.TransmissionTable
  Model.Math Model.Shell Model.Element Model.Layer Model.XRF Model.Multilayer Spec.MultilayerSpec Proofs.MathProofs Proofs.MultilayerProofs Proofs.MultilayerProofs2
  Proofs.MultilayerProofs3 Proofs.MultilayerProofs4 Proofs.MultilayerProofs5 Proofs.MultilayerProofs6 Proofs.MultilayerProofs7 Proofs.MultilayerProofs8
  Proofs.MultilayerProofs9 Proofs.MultilayerProofs10 Proofs.MultilayerProofs11 Proofs.MultilayerProofs12 Proofs.MultilayerProofs13 Proofs.MultilayerProofs14.
Import ListNotations.
Set Implicit Arguments.
Local Open Scope string_scope.
Local Open Scope R_scope.
Local Existing Instance RNum.

Section All.
Variable sortf : list R -> list R.
Variable lf debug : bool.
Variable xl : @xlib RNum.
Variable c : @config RNum.
Hypothesis WF : well_formed xl.
Variable EL : string -> string -> R.
Hypothesis LE : line_energies xl EL.
Variables (elements families : list string) (layers : list Z) (secondary useGeo useMass : Z) (limit : R).
Hypothesis WORDS : forall e, In e elements -> one_word e.
Hypothesis POS : forall n, (n < length elements)%nat -> 0 <= threshold xl elements families n.
Hypothesis CD : complete_data xl c elements families layers useGeo.
Hypothesis SEC : (secondary <= 0)%Z \/ bulk_sample xl c.
Local Notation comps := (sample_compositions xl c).
Local Notation geo := (solid_angles c useGeo).
Local Notation thr := (threshold xl elements families).
Local Notation known := (known xl c EL elements families secondary comps geo).
Local Notation counted := (counted xl c EL elements families layers useMass comps).

Lemma comps_length : length comps = length (c_sample c).
Proof. apply map_length. Qed.
Lemma geo_length : length geo = length (c_sample c).
Proof. unfold solid_angles. rewrite map_length, seq_length. reflexivity. Qed.
Lemma muTotal_total i E : (i < length (c_sample c))%nat -> muTotal xl c (layer_at c i) (comp_at comps i) E = Ok (mu_at xl c comps i E).
Proof. intros H. unfold muTotal, mu_at. destruct (@cd_mu _ _ _ _ _ _ CD i E H) as [t ->]. reflexivity. Qed.

(** ** One ray *)
Definition laid (ls : list (@layer RNum * tbl * R)) (i0 : nat) : Prop := forall i x, nth_error ls i = Some x -> (i0 + i < length (c_sample c))%nat /\
  fst (fst x) = layer_at c (i0 + i) /\ snd (fst x) = comp_at comps (i0 + i).
Lemma incident_total E : forall ls i0 first tmp, laid ls i0 -> exists slabs, incident xl c E first tmp ls = Ok slabs.
Proof.
  induction ls as [|[[l comp] g] ls IH]; intros i0 first tmp H; cbn [incident]; [eauto|].
  destruct (H 0%nat _ eq_refl) as (H0 & H1 & H2). cbn [fst snd] in H1, H2. rewrite Nat.add_0_r in *. subst l comp. rewrite (muTotal_total E H0). cbn [rbind].
  match goal with |- context [incident xl c E false ?t ls] => destruct (IH (S i0) false t) as [sl HS] end.
  { intros i x Hx. replace (S i0 + i)%nat with (i0 + S i)%nat by lia. apply (H (S i) x Hx). }
  toR. rewrite HS. cbn. eauto.
Qed.
Lemma emittedLines_total mn lim fr w lw ele fam : forall l : lns,
  (forall line t, In (line, t) l -> mfind sltb "factor" t <> None /\ mfind sltb "energy" t <> None /\ mfind sltb "rate" t <> None) ->
  exists em, @emittedLines RNum mn lim fr w lw ele fam l = Ok em.
Proof.
  induction l as [|[line t] l IH]; intros H; cbn [emittedLines]; [eauto|]. destruct IH as [em IH]; [intros; eapply H; right; eassumption|].
  destruct (H line t (or_introl eq_refl)) as (_ & H2 & H3). toR.
  destruct (String.prefix fam line); [|eauto]. destruct (mfind sltb "rate" t); [|contradiction]. cbn [of_opt rbind].
  match goal with |- context [if ?b then _ else _] => destruct b end; [eauto|]. match goal with |- context [if ?b then _ else _] => destruct b end; [eauto|].
  destruct (mfind sltb "energy" t); [|contradiction]. cbn [of_opt rbind]. match goal with |- context [if ?b then _ else _] => destruct b end; [eauto|].
  rewrite IH. cbn. eauto.
Qed.
Definition rows (l : lns) : Prop := forall line t, In (line, t) l -> mfind sltb "factor" t <> None /\ mfind sltb "energy" t <> None /\ mfind sltb "rate" t <> None.
Lemma elementOf_cut (s : string) : exists rest, s = elementOf s ++ rest /\ one_word (elementOf s) /\ (rest = "" \/ exists r, rest = " " ++ r).
Proof.
  unfold elementOf, one_word. induction s as [|a s IH]; [exists ""; cbn; auto|]. cbn [cutSpace]. destruct (Ascii.eqb_spec a " "%char) as [->|NE].
  - cbn. exists (" " ++ s). split; [reflexivity|]. split; [reflexivity|]. right. exists s. reflexivity.
  - destruct (cutSpace s) as [x y]. cbn [fst] in *. destruct IH as (rest & I1 & I2 & I3). exists rest. cbn. rewrite <- I1. split; [reflexivity|].
    split; [|exact I3]. rewrite I2. destruct (Ascii.eqb_spec a " "%char); [contradiction|reflexivity].
Qed.
Lemma emittedFamilies_total (BK : bulk_sample xl c) E mn lim w lw comp fams0 : getLayerPeakFamilies xl c (layer_at c 0) E (comp_at comps 0) = Ok fams0 ->
  forall fams, (forall nv, In nv fams -> In nv fams0) -> forall last (cur : lns), rows cur ->
  exists em, emittedFamilies xl E mn lim w lw comp last cur fams = Ok em.
Proof.
  intros HF0. induction fams as [|[name v] fams IH]; intros SUB last cur HR; cbn [emittedFamilies]; [eauto|].
  assert (A : exists cur', (if String.eqb (elementOf name) last then Ok cur else x_factors xl (elementOf name) E n1) = Ok cur' /\ rows cur').
  { destruct (String.eqb (elementOf name) last); [eauto|]. destruct (elementOf_cut name) as (rest & D1 & D2 & D3).
    destruct (@bk_factors xl c BK E fams0 name v (elementOf name) rest HF0 (SUB _ (or_introl eq_refl)) D1 D2 D3) as [l HL]. exists l. split; [exact HL|].
    intros line t I. exact (@cd_row _ _ _ _ _ _ CD _ _ _ _ _ _ HL I). }
  destruct A as (cur' & HA & HR'). toR. rewrite HA. cbn [rbind].
  match goal with |- context [emittedLines ?a1 ?a2 ?a3 ?a4 ?a5 ?a6 ?a7 cur'] => destruct (@emittedLines_total a1 a2 a3 a4 a5 a6 a7 cur' HR') as [em1 H1] end.
  toR. rewrite H1. cbn [rbind]. destruct (IH (fun nv H => SUB nv (or_intror H)) (elementOf name) cur' HR') as [em2 H2]. toR. rewrite H2. cbn. eauto.
Qed.
Lemma emit_total (BK : bulk_sample xl c) E w mn lim s : sl_layer s = layer_at c 0 -> sl_comp s = comp_at comps 0 ->
  exists s', emit xl c E w mn lim s = Ok s'.
Proof.
  intros SL SC. unfold emit. rewrite SL, SC. destruct (@bk_families xl c BK E) as [fams HF]. toR. rewrite HF. cbn [rbind].
  match goal with |- context [emittedFamilies xl E ?a1 ?a2 ?a3 ?a4 ?a5 ?a6 [] fams] => destruct (@emittedFamilies_total BK E a1 a2 a3 a4 a5 fams HF fams (fun nv H => H) a6 []) as [em HE] end; [intros line t []|].
  toR. rewrite HE. cbn [rbind].
  match goal with |- context [getLayerMu_vec xl c _ ?es _] => destruct (@cd_muv _ _ _ _ _ _ CD 0%nat es) as [m HM] end; [rewrite (@bk_one xl c BK); lia|].
  destruct (fun ne => @bk_vec xl c BK _ _ ne HM) as (_ & _ & NC); [intros Q; apply app_eq_nil in Q; destruct Q as [_ Q]; discriminate Q|]. toR. rewrite HM. cbn [rbind].
  unfold lastOf. destruct (nth_error (vval m "coherent") (length (vval m "coherent") - 1)) as [v|] eqn:Q.
  - cbn. eauto.
  - exfalso. apply nth_error_None in Q. destruct (vval m "coherent") as [|a l]; [apply NC; reflexivity|]. cbn [length] in Q. lia.
Qed.
Lemma emit_bulk (BK : bulk_sample xl c) E w mn lim s s' : sl_layer s = layer_at c 0 -> sl_comp s = comp_at comps 0 ->
  emit xl c E w mn lim s = Ok s' -> length (sl_em s') = length (sl_muj s') /\ forall v, In v (sl_muj s') -> 0 < v.
Proof.
  intros SL SC H. unfold emit in H. rewrite SL, SC in H. obind H fams HF. obind H em HE. obind H m HM. obind H coh HC. injection H as <-. cbn [sl_em sl_muj].
  destruct (fun ne => @bk_vec xl c BK _ _ ne HM) as (L & P & _); [intros Q; apply app_eq_nil in Q; destruct Q as [_ Q]; discriminate Q|]. split; [|exact P]. rewrite app_length in *. cbn [length] in *. rewrite map_length in L. symmetry. exact L.
Qed.

Lemma base_laid : laid (base c comps geo) 0.
Proof.
  intros i x Hx. assert (Hi : (i < length (c_sample c))%nat).
  { rewrite <- (@base_length c comps geo comps_length geo_length). apply nth_error_Some. congruence. }
  rewrite (@base_nth c comps geo comps_length geo_length i Hi) in Hx. injection Hx as <-. auto.
Qed.
Lemma base_env E first tmp slabs : (first = true -> tmp = 0) -> incident xl c E first tmp (base c comps geo) = Ok slabs ->
  length slabs = length (c_sample c) /\ forall i s, nth_error slabs i = Some s -> (i < length (c_sample c))%nat /\ sl_layer s = layer_at c i /\ sl_comp s = comp_at comps i.
Proof.
  intros HF H. destruct (@incident_spec xl c E _ _ _ _ HF H) as [A B]. pose proof (eq_trans A (@base_length c comps geo comps_length geo_length)) as A'. clear A. rename A' into A. toR. split; [exact A|].
  intros i s Hs. assert (Hi : (i < length (c_sample c))%nat) by (rewrite <- A; apply nth_error_Some; congruence). split; [exact Hi|].
  destruct (B i _ _ _ s (@base_nth c comps geo comps_length geo_length i Hi) Hs) as (C1 & C2 & _). auto.
Qed.
Lemma rayEnv_total mn E w : exists env, rayEnv sortf xl c secondary limit mn (base c comps geo) E w = Ok env.
Proof.
  unfold rayEnv. destruct (@incident_total E (base c comps geo) 0 true 0 base_laid) as [slabs HI]. change (@n0 RNum) with 0. toR. rewrite HI. cbn [rbind].
  destruct (@base_env E true 0 slabs (fun _ => eq_refl) HI) as [LS NS].
  assert (A : exists slabs', (if (0 <? secondary)%Z then rmapM (emit xl c E w mn limit) slabs else Ok slabs) = Ok slabs' /\
     length slabs' = length slabs /\ forall i s, nth_error slabs' i = Some s -> (i < length (c_sample c))%nat /\ sl_layer s = layer_at c i /\ sl_comp s = comp_at comps i).
  { destruct (Z.ltb_spec 0 secondary) as [Q|Q]; [|eauto]. destruct SEC as [SE|BK]; [lia|].
    assert (O1 := @bk_one xl c BK). rewrite O1 in LS. destruct slabs as [|s [|? ?]]; try discriminate LS.
    destruct (NS 0%nat s eq_refl) as (_ & N1 & N2). destruct (@emit_total BK E w mn limit s N1 N2) as [s' HE]. toR. cbn [rmapM]. rewrite HE. cbn.
    eexists. split; [reflexivity|]. split; [reflexivity|]. destruct (@emit_ok xl c _ _ _ _ _ _ HE) as (M1 & M2 & _).
    intros [|[|i]] s0 Hs; try discriminate. injection Hs as <-. rewrite O1. split; [lia|]. rewrite M1, M2. auto. }
  destruct A as (slabs' & HA & LA & NA). toR. rewrite HA. cbn [rbind].
  match goal with |- context [rmapM ?f slabs'] => destruct (@rmapM_total _ _ f slabs') as [cache HC] end.
  { intros s Is. apply In_nth_error in Is. destruct Is as [i Hi]. destruct (NA i s Hi) as (B1 & B2 & B3). rewrite B2, B3.
    match goal with |- context [getLayerMu_vec xl c _ ?es _] => destruct (@cd_muv _ _ _ _ _ _ CD i es B1) as [m HM] end. toR. rewrite HM. cbn. eauto. }
  toR. rewrite HC. cbn. eauto.
Qed.
(** what the loop over the photons needs *)
Lemma rayEnv_bulk (BK : bulk_sample xl c) mn E w env : (0 < secondary)%Z -> rayEnv sortf xl c secondary limit mn (base c comps geo) E w = Ok env ->
  exists s, e_slabs env = [s] /\ length (sl_em s) = length (sl_muj s) /\ forall v, In v (sl_muj s) -> 0 < v.
Proof.
  intros Q H. unfold rayEnv in H. obind H slabs HI. destruct (@base_env E true 0 slabs (fun _ => eq_refl) HI) as [LS NS]. rewrite (@bk_one xl c BK) in LS.
  destruct slabs as [|s [|? ?]]; try discriminate LS. destruct (Z.ltb_spec 0 secondary); [|lia]. cbn [rmapM] in H.
  obind H slabs' HA. obind HA s' HE. cbn in HA. injection HA as <-. obind H cache HC. injection H as <-. exists s'. cbn [e_slabs]. split; [reflexivity|].
  destruct (NS 0%nat s eq_refl) as (_ & N1 & N2). exact (@emit_bulk BK _ _ _ _ _ _ N1 N2 HE).
Qed.

(** ** Detection *)
Lemma detection_total env i : env_ok xl c comps geo env -> (i < length (c_sample c))%nat -> forall g E, exists e, detectionEfficiency xl c env i g (c_detector c) E = Ok e.
Proof.
  intros (HL & HO) Hi g E. unfold detectionEfficiency.
  match goal with |- context [rfold ?f (rev (firstn i (e_slabs env))) n1] =>
    destruct (@rfold_total_in _ _ f (fun _ => True) (rev (firstn i (e_slabs env)))) with (a := @n1 RNum) as (a & HA & _) end; [|exact I|].
  { intros a s Is _. apply in_rev in Is. apply In_nth_error in Is. destruct Is as [j Hj].
    assert (Hs : nth_error (e_slabs env) j = Some s /\ (j < i)%nat).
    { assert (j < i)%nat. { assert (j < length (firstn i (e_slabs env)))%nat by (apply nth_error_Some; congruence). rewrite firstn_length in H. lia. }
      split; [|assumption]. rewrite <- Hj. clear -H. revert j H. generalize (e_slabs env). revert i. intros i l. revert i. induction l as [|x l IH]; intros [|i] [|j] H; cbn; try lia; try reflexivity. apply IH. lia. }
    destruct Hs as [Hs Hj']. destruct (HO j s Hs) as (S1 & S2 & _). rewrite S1, S2.
    destruct (@cd_out _ _ _ _ _ _ CD j E) as [v HV]; [lia|]. toR. rewrite HV. cbn. eauto. }
  rewrite HA. cbn [rbind].
  match goal with |- context [rfold ?f (c_attenuators c) a] => destruct (@rfold_total_in _ _ f (fun _ => True) (c_attenuators c)) with (a := a) as (b & HB & _) end; [|exact I|].
  { intros a' l Il _. destruct (@cd_att _ _ _ _ _ _ CD l E Il) as [v HV]. toR. rewrite HV. cbn. eauto. }
  rewrite HB. cbn [rbind]. cbv zeta. match goal with |- context [if ?b then _ else _] => destruct b eqn:DD end; [|eauto].
  apply andb_prop in DD. destruct DD as [DD D3]. apply andb_prop in DD. destruct DD as [D1 D2]. apply Rltb_true in D2. apply Rltb_true in D3.
  destruct (@cd_det _ _ _ _ _ _ CD D1 D2 D3 E) as [v HV]. toR. rewrite HV. cbn. eauto.
Qed.

(** ** One question *)
Lemma question_total mn E w env n st : rayEnv sortf xl c secondary limit mn (base c comps geo) E w = Ok env -> (n < length elements)%nat ->
  inv xl c st -> known (st_ar st) -> (nth_error (st_thr st) n = None \/ nth_error (st_thr st) n = Some (thr n)) ->
  exists st', @elementStep RNum debug lf xl c families layers secondary useMass env st n (element_of elements n) = Ok st'.
Proof.
  intros RE Hn I0 K HT. destruct (@rayEnv_ok xl c comps geo comps_length geo_length _ _ _ _ _ _ _ RE) as (EE & EW & EO).
  set (ele := element_of elements n). assert (IE : In ele elements) by (apply nth_In, Hn).
  unfold elementStep. assert (HF : nth_error families n = Some (family_of families n)).
  { unfold family_of. apply nth_error_nth'. pose proof (@cd_families _ _ _ _ _ _ CD). lia. }
  unfold vget at 1. rewrite HF. cbn [of_opt rbind].
  assert (CL : exists cl, (if Nat.ltb 1 (length layers) then vget layers n else vget layers 0) = Ok cl).
  { unfold vget. destruct (@cd_layers _ _ _ _ _ _ CD) as [Q|[Q1 Q2]].
    - rewrite Q. cbn [Nat.ltb Nat.leb]. destruct layers; [discriminate|]. cbn. eauto.
    - destruct (Nat.ltb_spec 1 (length layers)); [|lia]. destruct (nth_error layers n) eqn:Q; [cbn; eauto|]. apply nth_error_None in Q. lia. }
  destruct CL as [cl CL]. rewrite CL. cbn [rbind]. set (fam := family_of families n) in *.
  assert (NF : fam <> "") by (apply (@cd_named _ _ _ _ _ _ CD), (nth_error_In _ _ HF)).
  assert (AF : actualFamily fam <> "") by (unfold actualFamily; destruct (String.eqb fam "Ka"); [discriminate|]; destruct (String.eqb fam "Kb"); [discriminate|exact NF]).
  destruct (String.eqb_spec (actualFamily fam) "") as [|_]; [contradiction|].
  assert (A : exists t st1, match nth_error (st_thr st) n with
      | Some t => Ok (t, st)
      | None => rmap (fun t => (t, mkState (st_ar st) (st_esc st) (st_fc st) (st_thr st ++ [t])%list)) (getEnergyThreshold xl ele (String.substring 0 1 (actualFamily fam)))
      end = Ok (t, st1) /\ st_ar st1 = st_ar st /\ inv xl c st1).
  { destruct (nth_error (st_thr st) n) as [t|]; [eauto|]. unfold getEnergyThreshold. destruct (@cd_binding _ _ _ _ _ _ CD ele IE) as [b HB]. toR. rewrite HB. cbn [rbind rmap]. eauto. }
  destruct A as (t & st1 & HA & AR & I1). toR. rewrite HA. cbn [rbind].
  match goal with |- context [if ?b then _ else _] => destruct b end; [eauto|].
  destruct (@cd_factors _ _ _ _ _ _ CD ele (e_energy env) (e_weight env) IE) as [factors FF]. toR. rewrite FF. cbn [rbind].
  pose proof (@wf_factors xl WF _ _ _ _ FF) as SF.
  assert (OW : forall L, In L (map fst factors) -> one_word L).
  { intros L IL. apply in_map_iff in IL. destruct IL as [[L' t'] [<- IL]]. exact (@wf_words xl WF _ _ _ _ _ _ FF IL). }
  assert (ROW : rows factors) by (intros line t' IL; exact (@cd_row _ _ _ _ _ _ CD _ _ _ _ _ _ FF IL)).
  assert (TOT : forall i s st2, nth_error (e_slabs env) i = Some s -> inv xl c st2 -> ((0 < secondary)%Z -> st_ar st2 = st_ar st) ->
     exists st3, elementLayer debug lf xl c secondary useMass env ele fam cl t factors i s st2 = Ok st3).
  { intros i s st2 Hs I2 AR2. destruct EO as [EO1 EO2]. destruct (EO2 i s Hs) as (S1 & S2 & S3 & S4).
    assert (Hi : (i < length (c_sample c))%nat) by (rewrite <- EO1; apply nth_error_Some; congruence).
    apply (@elementLayer_total lf debug xl c (@cd_esc _ _ _ _ _ _ CD) (@cd_peak _ _ _ _ _ _ CD)); try assumption.
    - intros E0. rewrite S1, S2. eexists. apply muTotal_total, Hi.
    - intros E0. apply detection_total; [split; assumption|exact Hi].
    - intros Q mu1 fc rs ls HM RS. destruct SEC as [SE|BK]; [lia|].
      destruct (@rayEnv_bulk BK mn E w env Q RE) as (s' & ES & LM & PM). rewrite (@bk_one xl c BK) in Hi. assert (i = 0%nat) by lia. subst i.
      rewrite ES in Hs. injection Hs as ->.
      rewrite S1, S2 in HM. rewrite muTotal_total in HM by (rewrite (@bk_one xl c BK); lia). injection HM as <-. 
      apply (@secondaryLoop_total debug xl c BK env s (mfactor useMass s ele) ele t fc rs ls (e_energy env)); try assumption; [intros E9; exact (@cd_factors _ _ _ _ _ _ CD ele E9 1 IE)|].
      intros L x Ix. destruct (RS L x Ix) as [O1 [(t0 & Q1 & Q2)|(E0 & Q1)]].
      + rewrite (AR2 Q) in Q1. destruct (K _ _ L t0 O1 Q1) as (n0 & _ & _ & _ & (_ & MU & _)). exists (EL (element_of elements n0) L). rewrite Q2. exact MU.
      + rewrite S1, S2 in Q1. rewrite muTotal_total in Q1 by (rewrite (@bk_one xl c BK); lia). injection Q1 as <-. exists E0. reflexivity. }
  (* all the layers *)
  assert (ALL : forall slabs i0 st2, (forall i s, nth_error slabs i = Some s -> nth_error (e_slabs env) (i0 + i) = Some s) -> inv xl c st2 ->
     ((0 < secondary)%Z -> slabs = [] \/ st_ar st2 = st_ar st) -> ((0 < secondary)%Z -> (length slabs <= 1)%nat) ->
     exists st3, elementLayers debug lf xl c secondary useMass env ele fam cl t factors i0 slabs st2 = Ok st3).
  { induction slabs as [|s slabs IH]; intros i0 st2 HS I2 AR2 L2; cbn [elementLayers]; [eauto|].
    destruct (TOT i0 s st2) as [st3 HX]; [rewrite <- (Nat.add_0_r i0); apply (HS 0%nat); reflexivity|exact I2| |].
    { intros Q. destruct (AR2 Q) as [Q1|Q1]; [discriminate Q1|exact Q1]. }
    toR. rewrite HX. cbn [rbind]. apply IH.
    - intros i s' Hs'. replace (S i0 + i)%nat with (i0 + S i)%nat by lia. apply (HS (S i)). exact Hs'.
    - exact (proj1 (@elementLayer_spec lf debug xl c WF secondary useMass env ele fam cl t factors i0 s st2 st3 AF SF OW I2 HX)).
    - intros Q. left. specialize (L2 Q). cbn [length] in L2. destruct slabs; [reflexivity|cbn in L2; lia].
    - intros Q. specialize (L2 Q). cbn [length] in L2. lia. }
  apply ALL; [intros i s Hs; exact Hs|exact I1|intros _; right; exact AR|].
  intros Q. destruct SEC as [SE|BK]; [lia|]. destruct (@rayEnv_bulk BK mn E w env Q RE) as (s' & ES & _). rewrite ES. cbn. lia.
Qed.

Lemma steps_total mn E w env : rayEnv sortf xl c secondary limit mn (base c comps geo) E w = Ok env -> forall m n st done, (n + m = length elements)%nat ->
  inv xl c st -> known (st_ar st) -> counted done (st_ar st) -> (st_thr st = thrs xl elements families n \/ st_thr st = thrs xl elements families (length elements)) ->
  exists st', @elementSteps RNum debug lf xl c families layers secondary useMass env n (skipn n elements) st = Ok st'.
Proof.
  intros RE. destruct (@rayEnv_ok xl c comps geo comps_length geo_length _ _ _ _ _ _ _ RE) as (EE & EW & EO).
  induction m as [|m IH]; intros n st done HN I K CN HT.
  - rewrite skipn_all2 by lia. cbn [elementSteps]. eauto.
  - assert (Hn : (n < length elements)%nat) by lia.
    assert (SK : skipn n elements = element_of elements n :: skipn (S n) elements).
    { unfold element_of. clear -Hn. revert n Hn. induction elements as [|e l IHl]; intros [|n] Hn; cbn in *; [lia|lia|reflexivity|]. apply IHl. lia. }
    assert (HT' : nth_error (st_thr st) n = None \/ nth_error (st_thr st) n = Some (thr n)).
    { destruct HT as [-> | ->]; [left; apply nth_error_None; rewrite thrs_length; lia|right; apply thrs_nth; exact Hn]. }
    destruct (@question_total mn E w env n st RE Hn I K HT') as [st1 H1]. rewrite SK. cbn [elementSteps]. toR. rewrite H1. cbn [rbind].
    destruct (@question_step lf debug xl c WF EL LE elements families layers secondary useMass WORDS comps geo comps_length geo_length env n st st1 done EO Hn I K CN HT' H1) as (I1 & K1 & C1 & T1).
    eapply IH; [lia|exact I1|exact K1|exact C1|]. rewrite T1. destruct HT as [-> | ->]; rewrite thrs_length.
    + destruct (Nat.ltb_spec n n); [lia|]. left. symmetry. apply thrs_S.
    + destruct (Nat.ltb_spec n (length elements)); [right; reflexivity|lia].
Qed.

Lemma rays_total : forall rays done st m, inv xl c st -> known (st_ar st) -> counted done (st_ar st) ->
  (st_thr st = [] \/ st_thr st = thrs xl elements families (length elements)) -> low xl elements families m ->
  exists a, rfold (@rayStep RNum sortf debug lf xl c elements families layers secondary useMass limit (base c comps geo)) rays (st, m) = Ok a.
Proof.
  induction rays as [|ray rays IH]; intros done st m I K CN HT HM; cbn [rfold]; [eauto|].
  assert (A : exists st1 m1, @rayStep RNum sortf debug lf xl c elements families layers secondary useMass limit (base c comps geo) (st, m) ray = Ok (st1, m1)).
  { unfold rayStep. cbn [fst snd]. match goal with |- context [if ?b then _ else _] => destruct b end; [eauto|].
    match goal with |- context [rayEnv sortf xl c secondary limit ?mn _ ?e ?w] => destruct (rayEnv_total mn e w) as [env RE] end. toR. rewrite RE. cbn [rbind].
    destruct (@steps_total _ _ _ env RE (length elements) 0 st done eq_refl I K CN HT) as [st1 H1]. cbn [skipn] in H1. toR. rewrite H1. cbn. eauto. }
  destruct A as (st1 & m1 & HA). toR. rewrite HA. cbn [rbind].
  destruct (@rayStep_counted sortf lf debug xl c WF EL LE elements families layers secondary useMass limit WORDS POS comps geo comps_length geo_length ray done st m st1 m1 I K CN HT HM HA) as (A & B & C0 & D & F).
  exact (IH _ st1 m1 A B C0 D F).
Qed.

Lemma filteredWeights_total over : exists w, filteredWeights xl c (map Beam.r_energy (rays_of c over)) (map Beam.r_weight (rays_of c over)) = Ok w.
Proof.
  set (Es := map Beam.r_energy (rays_of c over)). set (ws := map Beam.r_weight (rays_of c over)).
  assert (L0 : length ws = length Es) by (unfold ws, Es; rewrite !map_length; reflexivity). unfold filteredWeights.
  match goal with |- context [rfold ?f (c_filters c) ws] => destruct (@rfold_total_in _ _ f (fun w => length w = length Es) (c_filters c)) with (a := ws) as (a & HA & LA) end; [|exact L0|].
  { intros a l Il La. destruct (@cd_filter _ _ _ _ _ _ CD l Es Il) as (v & HV & LV). toR. rewrite HV. cbn [rbind].
    assert (HL : (length a <= length v)%nat) by (rewrite LV; toR; rewrite La; apply le_n). rewrite (mulVec_Ok a v HL). eexists. split; [reflexivity|].
    rewrite map_length, combine_length. toR. lia. }
  toR. rewrite HA. cbn [rbind].
  match goal with |- context [rfold ?f (c_userFilters c) a] => destruct (@rfold_total_in _ _ f (fun w => length w = length Es) (c_userFilters c)) with (a := a) as (b & HB & LB) end; [|exact LA|].
  { intros b l Il La. assert (HL : (length b <= length (TransmissionTable.getTransmission_vec l Es))%nat) by (unfold TransmissionTable.getTransmission_vec; rewrite map_length; toR; rewrite La; apply le_n).
    rewrite (mulVec_Ok b _ HL). eexists. split; [reflexivity|]. rewrite map_length, combine_length. unfold TransmissionTable.getTransmission_vec in *. rewrite map_length in *. toR. lia. }
  eauto.
Qed.
Theorem calculation_total over : 
  exists r, @getMultilayerFluorescence RNum sortf debug lf xl c elements families layers secondary useGeo useMass limit over = Ok r.
Proof.
  unfold getMultilayerFluorescence. fold (rays_of c over). cbv zeta.
  destruct (@rmapM_total _ _ (getLayerComposition xl c) (c_sample c) (@cd_comp _ _ _ _ _ _ CD)) as [comps' HC].
  assert (EC : comps' = comps) by (apply (rmapM_map _ []) in HC; exact HC). toR. rewrite HC. cbn [rbind]. subst comps'.
  destruct (filteredWeights_total over) as [ws HW]. toR. rewrite HW. cbn [rbind].
  assert (HG : exists g, geometricEfficiencies c useGeo = Ok g).
  { unfold geometricEfficiencies. apply rmapM_total. intros i Hi. apply in_seq in Hi. destruct (Z.eqb_spec useGeo 0) as [Q|Q]; [eauto|].
    destruct (@cd_solid _ _ _ _ _ _ CD) as [S0|S0]; [contradiction|]. apply S0. lia. }
  destruct HG as [g HG].
  assert (EG : g = geo).
  { apply (rmapM_map _ 0) in HG. unfold solid_angles. toR. rewrite HG. apply map_ext. intros i. destruct (useGeo =? 0)%Z; reflexivity. }
  toR. rewrite HG. cbn [rbind]. subst g.
  destruct (@rays_total (rev (combine (map Beam.r_energy (rays_of c over)) ws)) [] (mkState [] (c_detector c, 1%Z) [] []) (-1)) as [a HA].
  { exact (inv_init xl c). }
  { intros k i L t O Q. discriminate. }
  { intros k i L O. split; [reflexivity|]. split; [intros Q; exfalso; apply Q; reflexivity|intros (w & [] & _)]. }
  { left. reflexivity. }
  { left. reflexivity. }
  replace (@nlit RNum (-1) 0) with (-1) by (cbn; unfold Rlit; simpl; lra). unfold base in HA. toR. rewrite HA. cbn [rbind].
  destruct (1 <? secondary)%Z; [|eauto].
  assert (IA : inv xl c (fst a)). { refine (@rays_inv lf debug xl c WF _ _ _ _ _ _ _ _ _ _ _ _ HA). exact (inv_init xl c). }
  destruct (@tertiary_spec (st_ar (fst a)) (proj1 IA)) as (ar1 & r' & _ & E & _). exists r'. exact E.
Qed.
End All.
