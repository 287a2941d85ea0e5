(** Multilayer: the whole calculation keeps the answer balanced. *)
From Coq Require Import Ascii String List ZArith Reals Bool Arith Lia Lra.
From Verif Require Import Base.Num Base.Res Base.RSum Base.SMap Base.Str Base.ListLemmas Model.Beam Model.Material Model.TransmissionTable
  Model.Math Model.Shell Model.Element Model.Layer Model.XRF Model.Multilayer Spec.MultilayerSpec Proofs.LayerProofs Proofs.MultilayerProofs
  Proofs.MultilayerProofs2 Proofs.MultilayerProofs3 Proofs.MultilayerProofs4 Proofs.MultilayerProofs5.
Import ListNotations.
Set Implicit Arguments.
Local Open Scope string_scope.
Local Open Scope R_scope.
Local Existing Instance RNum.

Section Step.
Variable lf debug : bool.
Variable xl : @xlib RNum.
Variable c : @config RNum.
Hypothesis WF : well_formed xl.

Definition inv (st : @state RNum) : Prop :=
  ar_sorted (st_ar st) /\ (forall k i, rest xl c (layerTable (st_ar st) k i)) /\ esc_ok xl c (st_esc st).

Definition mfactor (useMass : Z) (s : @slab RNum) (element : string) : R :=
  if (useMass =? 0)%Z then 1 else field (sl_comp s) element.
Definition active (useMass : Z) (s : @slab RNum) (element : string) (calculationLayer : Z) (i : nat) : Prop :=
  (calculationLayer < 0 \/ calculationLayer = Z.of_nat i)%Z /\ mfactor useMass s element <> 0.

Definition layer_effect secondary useMass env element family calculationLayer thr (factors : lns) i s (ar ar' : @table3 RNum) : Prop :=
  let key := element ++ " " ++ family in
  (forall k' i', k' <> key \/ i' <> i -> layerTable ar' k' i' = layerTable ar k' i') /\
  (active useMass s element calculationLayer i -> forall L t, In (L, t) (filter (chosen family) factors) ->
     exists mu1, muTotal xl c (sl_layer s) (sl_comp s) (e_energy env) = Ok mu1 /\
       gain xl c secondary env i s thr mu1 (mfactor useMass s element) (field (sl_comp s) element) t (layerTable ar key i) (layerTable ar' key i) L) /\
  (forall L, one_word L -> ~ active useMass s element calculationLayer i \/ ~ In L (map fst (filter (chosen family) factors)) ->
     mfind sltb L (layerTable ar' key i) = mfind sltb L (layerTable ar key i)).

Lemma elementLayer_spec secondary useMass env element family calculationLayer thr (factors : lns) i s st st' :
  actualFamily family <> "" -> msorted sltb factors -> (forall L, In L (map fst factors) -> one_word L) -> inv st ->
  elementLayer debug lf xl c secondary useMass env element family calculationLayer thr factors i s st = Ok st' ->
  inv st' /\ st_thr st' = st_thr st /\ layer_effect secondary useMass env element family calculationLayer thr factors i s (st_ar st) (st_ar st').
Proof.
  intros HF SF OW (I1 & I2 & I3) H. unfold elementLayer in H. unfold layer_effect. cbv zeta.
  destruct ((0 <=? calculationLayer)%Z && negb (Z.of_nat i =? calculationLayer)%Z)%bool eqn:SK.
  { injection H as <-. assert (NA : ~ active useMass s element calculationLayer i).
    { intros [A _]. apply andb_true_iff in SK. destruct SK as [S1 S2]. apply negb_true_iff in S2. rewrite Z.leb_le in S1. rewrite Z.eqb_neq in S2. lia. }
    split; [split; auto|]. split; [reflexivity|]. split; [reflexivity|]. split; [tauto|reflexivity]. }
  assert (CL : (calculationLayer < 0 \/ calculationLayer = Z.of_nat i)%Z).
  { apply andb_false_iff in SK. rewrite negb_false_iff, Z.leb_gt, Z.eqb_eq in SK. lia. }
  change (if (useMass =? 0)%Z then n1 else val0 (sl_comp s) element) with (mfactor useMass s element) in H.
  change (@neqb RNum) with Reqb in H. change (@n0 RNum) with 0 in H.
  destruct (Reqb (mfactor useMass s element) 0) eqn:MF.
  { injection H as <-. assert (NA : ~ active useMass s element calculationLayer i) by (intros [_ A]; destruct (Reqb_spec (mfactor useMass s element) 0); [contradiction|discriminate]).
    split; [split; auto|]. split; [reflexivity|]. split; [reflexivity|]. split; [tauto|reflexivity]. }
  assert (MF' : mfactor useMass s element <> 0) by (destruct (Reqb_spec (mfactor useMass s element) 0); [discriminate|assumption]). clear MF.
  obind H x X. destruct x as [[ls1 es1] rs].
  destruct (@collect_spec lf xl c env i s element family thr HF factors _ _ ls1 es1 rs SF (proj1 (I2 _ _)) I3 X) as (S1 & EO1 & N1 & T1 & K1 & F1 & _).
  destruct rs as [|r0 rs0].
  { injection H as <-. cbn [st_ar st_esc st_thr]. cbn [map] in N1. symmetry in N1. apply map_eq_nil in N1.
    split; [split; [exact I1|split; [exact I2|exact EO1]]|]. split; [reflexivity|]. split; [reflexivity|].
    split; [intros _ L t I; rewrite N1 in I; destruct I|reflexivity]. }
  remember (r0 :: rs0) as rs eqn:ER. clear ER r0 rs0.
  obind H mu1 MU. obind H y Y. destruct y as [[fc2 rs2] ls2]. obind H a FIN. destruct a as [ls3 es3]. injection H as <-.
  cbn [st_ar st_esc st_thr fst snd].
  destruct (@layer_core lf debug xl c WF secondary env i s element family thr factors _ _ _ ls1 es1 rs mu1 (field (sl_comp s) element)
              (mfactor useMass s element) fc2 rs2 ls2 ls3 es3 HF SF OW (I2 _ _) I3 X Y FIN) as (A & B & C & D & _).
  split; [split; [apply putTable_sorted, I1|split; [|exact B]]|].
  { intros k' i'. cbn [st_ar]. rewrite layerTable_put by exact I1. destruct (String.eqb _ k' && Nat.eqb i i')%bool; [exact A|apply I2]. }
  split; [reflexivity|]. split; [|split].
  - intros k' i' N. rewrite layerTable_put by exact I1.
    match goal with |- context [String.eqb ?a k'] => destruct (String.eqb_spec a k') as [E|E] end; [|reflexivity].
    destruct (Nat.eqb_spec i i') as [E'|E']; [|reflexivity]. exfalso. destruct N as [N|N]; [apply N; symmetry; exact E|congruence].
  - intros _ L t I. exists mu1. split; [reflexivity|]. rewrite layerTable_put by exact I1. rewrite String.eqb_refl, Nat.eqb_refl. cbn [andb].
    apply C, I.
  - intros L O [N|N]; [exfalso; apply N; split; assumption|]. rewrite layerTable_put by exact I1. rewrite String.eqb_refl, Nat.eqb_refl. cbn [andb].
    apply D; assumption.
Qed.

(** invariants through the loops *)
Lemma elementLayers_inv secondary useMass env element family calculationLayer thr (factors : lns) : 
  actualFamily family <> "" -> msorted sltb factors -> (forall L, In L (map fst factors) -> one_word L) -> forall slabs i st st', inv st ->
  elementLayers debug lf xl c secondary useMass env element family calculationLayer thr factors i slabs st = Ok st' -> inv st' /\ st_thr st' = st_thr st.
Proof.
  intros HF SF OW. induction slabs as [|s r IH]; intros i st st' I H; cbn [elementLayers] in H.
  - injection H as <-. auto.
  - obind H st1 H1. destruct (@elementLayer_spec secondary useMass env element family calculationLayer thr factors i s st st1 HF SF OW I H1) as (A & B & _). destruct (IH _ _ _ A H) as [C D]. split; [exact C|congruence].
Qed.

Lemma elementStep_inv families layers secondary useMass env n element st st' : inv st ->
  @elementStep RNum debug lf xl c families layers secondary useMass env st n element = Ok st' -> inv st'.
Proof.
  intros I H. unfold elementStep in H. obind H fam FA. obind H cl CL.
  destruct (String.eqb_spec (actualFamily fam) "") as [|HF]; [discriminate|]. obind H ts TS. destruct ts as [thr st1].
  assert (I1 : inv st1).
  { destruct (nth_error (st_thr st) n); [injection TS as <- <-; exact I|]. obind TS t TT. injection TS as <- <-. exact I. }
  destruct (thr >? e_energy env)%num; [injection H as <-; exact I1|]. obind H factors FF.
  refine (proj1 (@elementLayers_inv secondary useMass env element fam cl thr factors HF (@wf_factors xl WF _ _ _ _ FF) _ (e_slabs env) 0%nat st1 st' I1 H)).
  intros L IL. apply in_map_iff in IL. destruct IL as [[L' t] [<- IL]]. exact (@wf_words xl WF _ _ _ _ _ _ FF IL).
Qed.
Lemma elementSteps_inv families layers secondary useMass env : forall l n st st', inv st ->
  @elementSteps RNum debug lf xl c families layers secondary useMass env n l st = Ok st' -> inv st'.
Proof.
  induction l as [|e l IH]; intros n st st' I H; cbn [elementSteps] in H; [injection H as <-; exact I|].
  obind H st1 H1. eapply IH; [|exact H]. exact (@elementStep_inv _ _ _ _ _ _ _ _ _ I H1).
Qed.
Lemma rayStep_inv sortf elements families layers secondary useMass limit base a ray a' : inv (fst a) ->
  @rayStep RNum sortf debug lf xl c elements families layers secondary useMass limit base a ray = Ok a' -> inv (fst a').
Proof.
  intros I H. destruct a as [st m]. unfold rayStep in H. destruct (_ <? _)%num in H; [injection H as <-; exact I|].
  obind H env EN. obind H st1 S1. injection H as <-. exact (@elementSteps_inv _ _ _ _ _ _ _ _ _ I S1).
Qed.
Lemma rays_inv sortf elements families layers secondary useMass limit base : forall rays a a', inv (fst a) ->
  rfold (@rayStep RNum sortf debug lf xl c elements families layers secondary useMass limit base) rays a = Ok a' -> inv (fst a').
Proof.
  induction rays as [|r l IH]; intros a a' I H; cbn [rfold] in H; [injection H as <-; exact I|].
  obind H a1 HA. eapply IH; [|exact H]. exact (@rayStep_inv _ _ _ _ _ _ _ _ _ _ _ I HA).
Qed.
Lemma inv_init : inv (mkState [] (c_detector c, 1%Z) [] []).
Proof.
  split; [apply ar_sorted_nil|split; [intros; apply rest_nil|]]. split; [reflexivity|]. left. discriminate.
Qed.
End Step.
