(** Multilayer, secondary excitation: one element in all the layers. *)
From Coq Require Import Ascii String List ZArith Reals Bool Arith Lia Lra.
From Verif Require Import Base.Num Base.Res Base.RSum Base.SMap Base.Str Base.ListLemmas Model.Beam Model.Material Model.TransmissionTable
  Model.Math Model.Shell Model.Element Model.Layer Model.XRF Model.Multilayer Spec.MultilayerSpec Spec.SecondarySpec Proofs.LayerProofs Proofs.MultilayerProofs Proofs.MultilayerProofs2
  Proofs.MultilayerProofs3 Proofs.MultilayerProofs4 Proofs.MultilayerProofs5 Proofs.MultilayerProofs6 Proofs.MultilayerProofs10 Proofs.MultilayerProofs11 Proofs.ElementProofs
  Proofs.MultilayerProofs19 Proofs.MultilayerProofs20 Proofs.MultilayerProofs21 Proofs.MultilayerProofs22.
Import ListNotations.
Set Implicit Arguments.
Local Open Scope string_scope.
Local Open Scope R_scope.
Local Existing Instance RNum.

Definition tracked (f : string) : Prop := f = "secondary" \/ has_space f = true.

Section Layers.
Variable lf debug : bool.
Variable xl : @xlib RNum.
Variable c : @config RNum.
Hypothesis WF : well_formed xl.
Variable EL : string -> string -> R.
Hypothesis LE : line_energies xl EL.
Variables (elements families : list string) (layers : list Z) (secondary useMass : Z) (limit : R).
Variable comps : list tbl.
Variable geo : list R.
Hypothesis LC : length comps = length (c_sample c).
Hypothesis LG : length geo = length (c_sample c).
Local Notation mu := (mu_at xl c comps).
Variable mn : R.
Variable env : @ray_env RNum.
Hypothesis EO : env_ok xl c comps geo env.
Hypothesis EF : (0 < secondary)%Z -> env_full xl c comps limit mn env.
Local Notation E := (e_energy env).
Local Notation w := (e_weight env).
Variable n : nat.
Local Notation element := (element_of elements n).
Local Notation fam := (family_of families n).
Local Notation thr := (threshold xl elements families n).
Local Notation key := (element ++ " " ++ fam).
Hypothesis LOW : mn <= thr.
Variable factors : lns.
Hypothesis FF : x_factors xl element E w = Ok factors.
Hypothesis HF : actualFamily fam <> "".

Definition my_gains (i : nat) (L : string) : hits :=
  if (0 <? secondary)%Z then gains debug xl c elements families useMass limit comps n E w i L (EL element L) else [].
Definition good_mu (ar : @table3 RNum) (i : nat) : Prop :=
  forall L t, one_word L -> mfind sltb L (layerTable ar key i) = Some t -> field t "mu_1_i" = mu i (EL element L).

Lemma factors_sorted : msorted sltb factors.
Proof. exact (@wf_factors xl WF _ _ _ _ FF). Qed.
Lemma factors_words L : In L (map fst factors) -> one_word L.
Proof. intros IL. apply in_map_iff in IL. destruct IL as [[L' t] [<- IL]]. exact (@wf_words xl WF _ _ _ _ _ _ FF IL). Qed.

Lemma elementLayer_hits cl i s st st' : nth_error (e_slabs env) i = Some s -> inv xl c st -> fc_ok xl (st_fc st) -> good_mu (st_ar st) i ->
  elementLayer debug lf xl c secondary useMass env element fam cl thr factors i s st = Ok st' ->
  fc_ok xl (st_fc st') /\
  (active useMass s element cl i -> forall L, In L (map fst (filter (chosen fam) factors)) -> forall f, tracked f ->
     field (@lineOf RNum (layerTable (st_ar st') key i) L) f = field (@lineOf RNum (layerTable (st_ar st) key i) L) f + amount f (my_gains i L)).
Proof.
  intros Hs (I1 & I2 & I3) FC GM H. pose proof factors_sorted as SF. pose proof factors_words as OW. unfold elementLayer in H. cbv zeta in H.
  destruct ((0 <=? cl)%Z && negb (Z.of_nat i =? cl)%Z)%bool eqn:SK.
  { apply Ok_inj in H. subst st'. split; [exact FC|]. intros [A _]. exfalso. apply andb_true_iff in SK. destruct SK as [S1 S2]. apply negb_true_iff in S2. rewrite Z.leb_le in S1. rewrite Z.eqb_neq in S2. lia. }
  change (if (useMass =? 0)%Z then n1 else val0 (sl_comp s) element) with (mfactor useMass s element) in H.
  change (@neqb RNum) with Reqb in H. change (@n0 RNum) with 0 in H.
  destruct (Reqb_spec (mfactor useMass s element) 0) as [MF|MF].
  { apply Ok_inj in H. subst st'. split; [exact FC|]. intros [_ A]. contradiction. }
  obind H x X. destruct x as [[ls1 es1] rs].
  destruct (@collect_spec lf xl c env i s element fam thr HF factors _ _ ls1 es1 rs SF (proj1 (I2 _ _)) I3 X) as (S1 & EO1 & N1 & T1 & K1 & F1 & _).
  destruct rs as [|r0 rs0].
  { apply Ok_inj in H. subst st'. split; [exact FC|]. cbn [map] in N1. intros _ L IL. rewrite <- N1 in IL. destruct IL. }
  remember (r0 :: rs0) as rs eqn:ER. clear ER r0 rs0.
  obind H mu1 MU. obind H y Y. destruct y as [[fc2 rs2] ls2]. obind H a FIN. destruct a as [ls3 es3]. apply Ok_inj in H. subst st'.
  cbn [st_ar st_esc st_thr st_fc fst snd].
  destruct (proj2 EO i s Hs) as (SL1 & SL2 & SL3 & SL4).
  assert (MU' := MU). rewrite SL1, SL2 in MU'. apply muTotal_at in MU'. 
  destruct (@layer_core lf debug xl c WF secondary env i s element fam thr factors _ _ _ ls1 es1 rs mu1 (field (sl_comp s) element)
              (mfactor useMass s element) fc2 rs2 ls2 ls3 es3 HF SF OW (I2 _ _) I3 X Y FIN) as (A & B & C & D & N2 & TR).
  set (rs1 := map (withPrimary c s mu1 (mfactor useMass s element) factors) rs) in *.
  assert (NR : map fst rs1 = map fst rs) by (unfold rs1; rewrite map_map; apply map_ext; intros [? ?]; reflexivity).
  assert (ND : NoDup (map fst rs1)).
  { rewrite NR, N1. clear - SF. apply smsorted_NoDup in SF. unfold mkeys in SF.
    induction factors as [|[a t] r IH]; [constructor|]. cbn in SF. apply NoDup_cons_iff in SF. destruct SF as [A B].
    cbn [filter]. destruct (chosen fam (a, t)); [|apply IH, B]. cbn [map fst]. constructor; [|apply IH, B].
    intros I. apply A. apply in_map_iff in I. destruct I as [x [EE I]]. apply filter_In in I. apply in_map_iff. exists x. tauto. }
  assert (RM : forall L x, In (L, x) rs1 -> r_mu x = mu i (EL element L) /\ r_secondary x = 0).
  { intros L x I. unfold rs1 in I. apply in_map_iff in I. destruct I as [[L' x0] [EQ I]]. unfold withPrimary in EQ. cbn [fst snd] in EQ. injection EQ as -> <-.
    cbn [r_mu r_secondary]. split; [|reflexivity]. destruct (T1 _ _ I) as ((t1 & Ht1 & B1 & B2 & B3) & _). rewrite B2.
    assert (IN : In L (map fst (filter (chosen fam) factors))) by (rewrite <- N1; apply in_map_iff; exists (L, x0); auto).
    assert (O : one_word L) by (destruct (chosen_In _ _ _ IN) as (t & IT & _); apply OW; apply in_map_iff; exists (L, t); auto).
    destruct (mfind sltb L (layerTable (st_ar st) key i)) as [t|] eqn:QT.
    - pose proof (K1 _ _ QT) as Q. same Q Ht1. apply (GM L t O QT).
    - destruct (F1 L QT) as [Q|[_ (tf & E0 & m & eff & I0 & Q1 & Q2 & Q3 & Q4)]]; [discriminate (eq_trans (eq_sym Ht1) Q)|].
      assert (Q5 := eq_trans (eq_sym Ht1) Q4). injection Q5 as ->. destruct (newLine_fields eff E0 thr m) as (_ & _ & _ & G4 & _). rewrite G4.
      rewrite SL1, SL2 in Q2. apply muTotal_at in Q2. pose proof (@LE _ _ _ _ _ _ FF I0) as EE. rewrite Q2. f_equal. toR. congruence. }
  assert (HIT : fc_ok xl fc2 /\ ev2 (my_gains i) rs1 ls1 rs2 ls2).
  { unfold my_gains. destruct (Z.ltb_spec 0 secondary) as [SEC|SEC].
    - subst mu1. replace (mfactor useMass s element) with (mass_of comps elements useMass n i) in Y by (unfold mass_of, mfactor; rewrite SL2; reflexivity).
      destruct (@secondaryLoop_hits debug xl c comps geo LC LG limit elements families useMass mn env EO (EF SEC) n i s Hs (EL element) LOW
         (length (e_slabs env)) 0%nat (st_fc st) rs1 ls1 fc2 rs2 ls2 eq_refl) as [A0 B0]; [intros L x I; apply RM, I|exact FC|exact ND|exact S1| |exact Y|].
      + intros L I. rewrite NR in I. apply in_map_iff in I. destruct I as [[L' x] [EQ I]]. cbn in EQ. subst L'. destruct (T1 _ _ I) as ((t & Ht & _) & _). exists t. exact Ht.
      + split; [exact A0|]. rewrite (proj1 EO) in B0. exact B0.
    - apply Ok_inj in Y. injection Y as <- <- <-. split; [exact FC|]. apply ev2_refl. reflexivity. }
  destruct HIT as [FC2 EV]. split; [exact FC2|]. intros _ L IL f TF.
  rewrite layerTable_put by exact I1. rewrite String.eqb_refl, Nat.eqb_refl. cbn [andb].
  rewrite <- N2 in IL. apply in_map_iff in IL. destruct IL as [[L' x2] [EQ I2']]. cbn in EQ. subst L'.
  destruct (TR L x2 I2') as (t1 & t2 & t3 & H1 & H2 & H3 & H4 & H5 & H6 & H7).
  destruct (EV L x2 I2') as (x1 & IX1 & _ & SX & FX). destruct (FX t1 H1) as (t2' & H2' & G2). same H2 H2'.
  unfold lineOf at 1. toR. rewrite H3. destruct TF as [->|HSP].
  - rewrite H6, SX, (proj2 (RM L x1 IX1)). rring.
  - destruct (H7 f HSP) as [G3 G4]. rewrite G4, (G2 f HSP), G3. reflexivity.
Qed.

Lemma elementLayers_hits cl : forall k i0 st st', k = length (skipn i0 (e_slabs env)) -> inv xl c st -> fc_ok xl (st_fc st) ->
  (forall i, (i0 <= i)%nat -> good_mu (st_ar st) i) ->
  elementLayers debug lf xl c secondary useMass env element fam cl thr factors i0 (skipn i0 (e_slabs env)) st = Ok st' ->
  fc_ok xl (st_fc st') /\
  forall i s, (i0 <= i)%nat -> nth_error (e_slabs env) i = Some s -> active useMass s element cl i -> forall L, In L (map fst (filter (chosen fam) factors)) -> forall f, tracked f ->
     field (@lineOf RNum (layerTable (st_ar st') key i) L) f = field (@lineOf RNum (layerTable (st_ar st) key i) L) f + amount f (my_gains i L).
Proof.
  pose proof factors_sorted as SF. pose proof factors_words as OW.
  induction k as [|k IH]; intros i0 st st' HK I FC GM H.
  { destruct (skipn i0 (e_slabs env)) eqn:Q; [|discriminate]. cbn [elementLayers] in H. apply Ok_inj in H. subst st'. split; [exact FC|].
    intros i s Hi Hs. exfalso. assert (LN : (length (e_slabs env) <= i0)%nat).
    { pose proof (skipn_length i0 (e_slabs env)) as QL. rewrite Q in QL. cbn in QL. lia. }
    assert (nth_error (e_slabs env) i = None) by (apply nth_error_None; toR; lia). congruence. }
  assert (SK : exists s, nth_error (e_slabs env) i0 = Some s /\ skipn i0 (e_slabs env) = s :: skipn (S i0) (e_slabs env)).
  { clear -HK. revert i0 HK. induction (e_slabs env) as [|a l IHl]; intros [|j] HK; try discriminate HK; [exists a; split; reflexivity|]. apply IHl. exact HK. }
  destruct SK as (s & Hs & SK). rewrite SK in H, HK. cbn [length] in HK. apply eq_add_S in HK. cbn [elementLayers] in H. obind H st1 H1.
  destruct (@elementLayer_spec lf debug xl c WF secondary useMass env element fam cl thr factors i0 s st st1 HF SF OW I H1) as (I1 & T1 & C1 & C2 & C3).
  destruct (@elementLayer_hits cl i0 s st st1 Hs I FC (GM i0 (le_n _)) H1) as [FC1 E1].
  destruct (IH (S i0) st1 st' HK I1 FC1) as [FC2 E2]; [|exact H|].
  { intros i Hi L t O HL. rewrite C1 in HL by (right; lia). apply (GM i ltac:(lia) L t O HL). }
  split; [exact FC2|]. intros i s' Hi Hs' AC L IL f TF.
  destruct (@elementLayers_effect lf debug xl c WF secondary useMass comps geo LC LG env element fam cl thr factors HF SF OW (skipn (S i0) (e_slabs env)) (S i0) st1 st' I1 H) as (_ & _ & D3 & _).
  destruct (Nat.eq_dec i i0) as [->|NE].
  - assert (s' = s) by congruence. subst s'. rewrite D3 by (right; left; lia). apply E1; assumption.
  - rewrite (E2 i s' ltac:(lia) Hs' AC L IL f TF). rewrite C1 by (right; exact NE). reflexivity.
Qed.
End Layers.
