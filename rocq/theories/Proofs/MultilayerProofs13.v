(** Multilayer: with complete data the calculation ends normally. *)
From Coq Require Import Ascii String List ZArith Reals Bool Arith Lia Lra Permutation.
From Verif Require Import Base.Num Base.Res Base.RSum Base.SMap Base.Str Base.ListLemmas Model.Beam Model.Material Model.TransmissionTable
  Model.Math Model.Shell Model.Element Model.Layer Model.XRF Model.Multilayer Spec.MultilayerSpec Proofs.MathProofs Proofs.MultilayerProofs Proofs.MultilayerProofs2
  Proofs.MultilayerProofs3 Proofs.MultilayerProofs4 Proofs.MultilayerProofs5 Proofs.MultilayerProofs6 Proofs.MultilayerProofs7 Proofs.MultilayerProofs8
  Proofs.MultilayerProofs9 Proofs.MultilayerProofs10 Proofs.MultilayerProofs11 Proofs.MultilayerProofs12.
Import ListNotations.
Set Implicit Arguments.
Local Open Scope string_scope.
Local Open Scope R_scope.
Local Existing Instance RNum.

Lemma rfold_total {A B} (f : A -> B -> res A) (P : A -> Prop) : (forall a b, P a -> exists a', f a b = Ok a' /\ P a') ->
  forall l a, P a -> exists a', rfold f l a = Ok a' /\ P a'.
Proof.
  intros H. induction l as [|b l IH]; intros a Pa; cbn [rfold]; [eauto|]. destruct (H a b Pa) as (a1 & -> & P1). cbn [rbind]. apply IH, P1.
Qed.
Lemma rfold_total_in {A B} (f : A -> B -> res A) (P : A -> Prop) l : (forall a b, In b l -> P a -> exists a', f a b = Ok a' /\ P a') ->
  forall a, P a -> exists a', rfold f l a = Ok a' /\ P a'.
Proof.
  induction l as [|b l IH]; intros H a Pa; cbn [rfold]; [eauto|]. destruct (H a b (or_introl eq_refl) Pa) as (a1 & -> & P1). cbn [rbind].
  apply IH; [|exact P1]. intros a' b' Hb. apply H. right. exact Hb.
Qed.
Lemma rmapM_total {A B} (f : A -> res B) l : (forall a, In a l -> exists b, f a = Ok b) -> exists l', rmapM f l = Ok l'.
Proof.
  induction l as [|a l IH]; intros H; cbn; [eauto|]. destruct (H a (or_introl eq_refl)) as [b ->]. cbn.
  destruct IH as [l' ->]; [intros; apply H; right; assumption|]. cbn. eauto.
Qed.

Section Total.
Variable lf debug : bool.
Variable xl : @xlib RNum.
Variable c : @config RNum.
Hypothesis WF : well_formed xl.

(** ** Escape peaks *)
Hypothesis ESC : forall E, exists l, escape_peaks xl (c_detector c) E = Ok l.
Hypothesis PEAK : forall E l e, escape_peaks xl (c_detector c) E = Ok l -> In e l -> mfind sltb "energy" (snd e) <> None /\ mfind sltb "rate" (snd e) <> None.

Lemma askEscape_total es (E : R) label : detectorDefined (fst es) = true -> esc_ok xl c es -> label <> "" -> exists d v, askEscape lf xl es E label = Ok (d, v).
Proof.
  intros DD [HD HC] HL. destruct es as [d0 u]. cbn [fst snd] in *. unfold askEscape, det_getEscape. cbn [fst snd].
  assert (L0 : Nat.ltb 0 (String.length label) = true) by (destruct label; [congruence|reflexivity]). rewrite L0.
  set (d1 := if Z.eqb u 0 then d0 else with_cache d0 []).
  assert (D1 : with_cache d1 [] = with_cache (c_detector c) []) by (unfold d1; destruct (Z.eqb u 0); [exact HD|apply with_cache_det, HD]).
  clearbody d1. toR. destruct (cacheFind (d_cache d1) label E) as [w|]; [cbn; eauto|].
  rewrite (@computeEscape_det xl d1 (c_detector c) E D1). destruct (ESC E) as [l HE]. rewrite escape_peaks_eq in HE.
  rewrite <- (@detectorDefined_det _ _ HD), DD in HE. toR. rewrite HE. cbn. eauto.
Qed.
Lemma addEscapes_total L x : forall l (ls : lns) tot, (forall e, In e l -> mfind sltb "energy" (snd e) <> None /\ mfind sltb "rate" (snd e) <> None) ->
  exists y, @addEscapes RNum L x l ls tot = Ok y.
Proof.
  induction l as [|e l IH]; intros ls tot H; cbn [addEscapes]; [eauto|].
  assert (A : exists y, @addEscape RNum L x ls e = Ok y).
  { destruct (H e (or_introl eq_refl)) as [H1 H2]. unfold addEscape. cbv zeta. toR.
    destruct (mfind sltb "energy" (snd e)) as [v|] eqn:Q1; [|contradiction]. destruct (mfind sltb "rate" (snd e)) as [r|] eqn:Q2; [|contradiction].
    match goal with |- context [mfind sltb ?n ls] => destruct (mfind sltb n ls) end; cbn [rbind]; eexists; reflexivity. }
  destruct A as [y Hy]. toR. rewrite Hy. cbn [rbind]. apply IH. intros; apply H; right; assumption.
Qed.
Lemma finishLine_total element mf ls es L x : esc_ok xl c es -> L <> "" ->
  exists ls' es', @finishLine RNum lf xl element mf ls es (L, x) = Ok (ls', es') /\ esc_ok xl c es'.
Proof.
  intros EO HL. unfold finishLine. destruct (detectorDefined (fst es)) eqn:DD.
  - destruct (@askEscape_total es (r_energy x) (element ++ L) DD EO) as (d & v & HA); [destruct element; [exact HL|discriminate]|].
    pose proof HA as HA'. apply (@askEscape_ok lf xl c) in HA'; [|exact EO|destruct element; [exact HL|discriminate]]. destruct HA' as (CE & E1 & E2).
    toR. rewrite HA. cbn [rbind fst snd].
    destruct (@addEscapes_total L x v ls 0) as [[ls1 tot] HY].
    { intros e. apply (@PEAK (r_energy x) v). rewrite escape_peaks_eq. destruct EO as [HD _]. rewrite <- (@detectorDefined_det _ _ HD), DD. exact CE. }
    toR. change (@n0 RNum) with 0. rewrite HY. cbn. eexists _, _. split; [reflexivity|]. destruct v; assumption.
  - cbn [rbind]. eexists _, _. split; [reflexivity|exact EO].
Qed.

(** ** The lines of an element in a layer *)
Lemma collect_total (env : @ray_env RNum) i s element family thr : actualFamily family <> "" ->
  (forall E, exists mu, muTotal xl c (sl_layer s) (sl_comp s) E = Ok mu) ->
  (forall E, exists eff, detectionEfficiency xl c env i (sl_geo s) (c_detector c) E = Ok eff) ->
  forall (factors ls : lns) es,
  (forall line t, In (line, t) factors -> mfind sltb "factor" t <> None /\ mfind sltb "energy" t <> None /\ mfind sltb "rate" t <> None) ->
  esc_ok xl c es -> exists x, collect lf xl c env i s element family thr factors ls es = Ok x.
Proof.
  intros HF MU EFF. induction factors as [|[line t] r IH]; intros ls es ROW EO; cbn [collect]; [eauto|].
  assert (ROW' : forall line t, In (line, t) r -> mfind sltb "factor" t <> None /\ mfind sltb "energy" t <> None /\ mfind sltb "rate" t <> None) by (intros; eapply ROW; right; eassumption).
  destruct (lineSelected family line) eqn:SEL; [|apply IH; assumption].
  destruct (ROW line t (or_introl eq_refl)) as (R1 & R2 & R3). toR.
  destruct (mfind sltb "factor" t) as [f|]; [|contradiction]. destruct (mfind sltb "energy" t) as [E|]; [|contradiction]. destruct (mfind sltb "rate" t) as [rt|]; [|contradiction].
  cbn [of_opt rbind]. match goal with |- context [if ?b then _ else _] => destruct b end; [apply IH; assumption|].
  assert (NE := @lineSelected_nonempty family line HF SEL).
  destruct (mfind sltb line ls).
  - destruct (IH ls es ROW' EO) as [[[ls1 es1] rs1] ->]. cbn [rbind]. eauto.
  - destruct (MU E) as [mu HM]. toR. rewrite HM. cbn [rbind]. destruct (EFF E) as [eff HE]. destruct EO as [HD HC].
    rewrite (@detectionEfficiency_det xl c env i (sl_geo s) (fst es) (c_detector c) E HD). toR. rewrite HE. cbn [rbind].
    assert (EO : esc_ok xl c es) by (split; assumption).
    assert (A : exists es1, (if detectorDefined (fst es) then rmap (fun x => (fst x, 0%Z)) (askEscape lf xl es E (element ++ line)) else Ok es) = Ok es1 /\ esc_ok xl c es1).
    { destruct (detectorDefined (fst es)) eqn:DD; [|eauto].
      destruct (@askEscape_total es E (element ++ line) DD EO) as (d & v & HA); [destruct element; [exact NE|discriminate]|].
      pose proof HA as HA'. apply (@askEscape_ok lf xl c) in HA'; [|exact EO|destruct element; [exact NE|discriminate]]. destruct HA' as (CE & E1 & E2).
      toR. rewrite HA. cbn. eauto. }
    destruct A as (es1 & HA & EO1). toR. rewrite HA. cbn [rbind].
    match goal with |- context [collect lf xl c env i s element family thr r ?l es1] => destruct (IH l es1 ROW' EO1) as [[[ls2 es2] rs2] HC2] end.
    toR. rewrite HC2. cbn [rbind]. eauto.
Qed.
Lemma finishLines_total element mf : forall rs ls es, (forall L, In L (map fst rs) -> L <> "") -> esc_ok xl c es ->
  exists a, rfold (fun a lx => @finishLine RNum lf xl element mf (fst a) (snd a) lx) rs (ls, es) = Ok a.
Proof.
  induction rs as [|[L x] rs IH]; intros ls es NE EO; cbn [rfold]; [eauto|]. cbn [fst snd].
  destruct (@finishLine_total element mf ls es L x EO) as (ls' & es' & HF & EO'); [apply NE; left; reflexivity|].
  toR. rewrite HF. cbn [rbind]. apply IH; [intros; apply NE; right; assumption|exact EO'].
Qed.

Lemma elementLayer_total secondary useMass env element family calculationLayer thr (factors : lns) i s st :
  actualFamily family <> "" -> msorted sltb factors -> (forall L, In L (map fst factors) -> one_word L) ->
  (forall line t, In (line, t) factors -> mfind sltb "factor" t <> None /\ mfind sltb "energy" t <> None /\ mfind sltb "rate" t <> None) ->
  (forall E, exists mu, muTotal xl c (sl_layer s) (sl_comp s) E = Ok mu) ->
  (forall E, exists eff, detectionEfficiency xl c env i (sl_geo s) (c_detector c) E = Ok eff) ->
  inv xl c st ->
  ((0 < secondary)%Z -> forall mu1 fc rs ls,
      muTotal xl c (sl_layer s) (sl_comp s) (e_energy env) = Ok mu1 ->
      (forall L x, In (L, x) rs -> one_word L /\ ((exists t, mfind sltb L (layerTable (st_ar st) (element ++ " " ++ family) i) = Some t /\ r_mu x = field t "mu_1_i") \/
                                                  exists E, muTotal xl c (sl_layer s) (sl_comp s) E = Ok (r_mu x))) ->
      exists y, secondaryLoop debug xl c env i s mu1 (mfactor useMass s element) element thr 0 (e_slabs env) fc rs ls = Ok y) ->
  exists st', elementLayer debug lf xl c secondary useMass env element family calculationLayer thr factors i s st = Ok st'.
Proof.
  intros HF SF OW ROW MU EFF (I1 & I2 & I3) SEC. unfold elementLayer.
  destruct ((0 <=? calculationLayer)%Z && negb (Z.of_nat i =? calculationLayer)%Z)%bool; [eauto|]. cbv zeta.
  change (if (useMass =? 0)%Z then n1 else val0 (sl_comp s) element) with (mfactor useMass s element).
  match goal with |- context [if ?b then _ else _] => destruct b end; [eauto|].
  set (key := element ++ " " ++ family) in *.
  destruct (@collect_total env i s element family thr HF MU EFF factors (layerTable (st_ar st) key i) (st_esc st) ROW I3) as [[[ls1 es1] rs1] HC].
  toR. rewrite HC. cbn [rbind]. destruct (I2 key i) as (S2 & _ & _).
  destruct (@collect_spec lf xl c env i s element family thr HF factors _ _ _ _ _ SF S2 I3 HC) as (S2' & EO' & NM & TD & OLD & NEW & _).
  assert (NDf : NoDup (map fst (filter (chosen family) factors))).
  { clear - SF. apply smsorted_NoDup in SF. unfold mkeys in SF.
    induction factors as [|[a t] r IH]; [constructor|]. cbn in SF. apply NoDup_cons_iff in SF. destruct SF as [A B].
    cbn [filter]. destruct (chosen family (a, t)); [|exact (IH B)]. cbn [map fst]. constructor; [|exact (IH B)].
    intros I. apply A. apply in_map_iff in I. destruct I as ([a' t'] & E & I). cbn in E. subst. apply filter_In in I. apply in_map_iff. exists (a, t'). split; [reflexivity|apply I]. }
  assert (NE : forall L, In L (map fst rs1) -> L <> "" /\ one_word L).
  { intros L IL. rewrite NM in IL. destruct (@chosen_In family factors L IL) as (t & It & Sel). split; [exact (@lineSelected_nonempty family L HF Sel)|].
    apply OW. apply in_map_iff. exists (L, t). split; [reflexivity|exact It]. }
  destruct rs1 as [|r0 rs1]; [eauto|]. destruct (MU (e_energy env)) as [mu1 HM]. toR. rewrite HM. cbn [rbind].
  set (rs := map (withPrimary c s mu1 (mfactor useMass s element) factors) (r0 :: rs1)).
  assert (MF : map fst rs = map fst (r0 :: rs1)) by (unfold rs; rewrite map_map; apply map_ext; reflexivity).
  assert (A : exists fc2 rs2 ls2, (if (0 <? secondary)%Z then secondaryLoop debug xl c env i s mu1 (mfactor useMass s element) element thr 0 (e_slabs env) (st_fc st) rs ls1
     else Ok (st_fc st, rs, ls1)) = Ok (fc2, rs2, ls2) /\ map fst rs2 = map fst rs).
  { destruct (Z.ltb_spec 0 secondary) as [Q|Q]; [|eauto].
    destruct (SEC Q mu1 (st_fc st) rs ls1 HM) as [[[fc2 rs2] ls2] HS].
    - intros L x Ix. unfold rs in Ix. apply in_map_iff in Ix. destruct Ix as ([L' x'] & EQ & Ix). unfold withPrimary in EQ. cbn [fst snd] in EQ. injection EQ as <- EQ.
      assert (IL : In L' (map fst (r0 :: rs1))) by (apply in_map_iff; exists (L', x'); split; [reflexivity|exact Ix]).
      split; [apply NE, IL|]. assert (RM : r_mu x = r_mu x') by (rewrite <- EQ; reflexivity). rewrite RM.
      destruct (TD L' x' Ix) as ((t & Ht & _ & T2 & _) & _).
      destruct (mfind sltb L' (layerTable (st_ar st) key i)) as [t0|] eqn:Q0.
      + left. exists t0. split; [exact Q0|]. specialize (OLD L' t0 Q0). same Ht OLD. exact T2.
      + right. destruct (NEW L' Q0) as [Q1|(_ & (t1 & E1 & m1 & ef1 & _ & _ & F1 & _ & F2))]; [pose proof (eq_trans (eq_sym Ht) Q1); discriminate|].
        same Ht F2. exists E1. rewrite T2. exact F1.
    - exists fc2, rs2, ls2. split; [exact HS|]. 
      assert (EV : ev rs ls1 rs2 ls2) by (eapply secondaryLoop_spec; [rewrite MF, NM; exact NDf|exact S2'| |exact HS]; intros L IL; rewrite MF in IL; apply in_map_iff in IL; destruct IL as ([L' x'] & <- & Ix); destruct (TD L' x' Ix) as ((t & Ht & _) & _); exists t; exact Ht).
      apply EV. }
  destruct A as (fc2 & rs2 & ls2 & HA & MA). toR. rewrite HA. cbn [rbind].
  destruct (@finishLines_total element (@val0 RNum (sl_comp s) element) rs2 ls2 es1) as [a HB]; [|exact EO'|].
  { intros L IL. rewrite MA, MF in IL. apply NE, IL. }
  toR. rewrite HB. cbn [rbind]. eauto.
Qed.
End Total.
