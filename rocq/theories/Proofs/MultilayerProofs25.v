(** Multilayer, secondary excitation: the answer. *)
From Coq Require Import Ascii String List ZArith Reals Bool Arith Lia Lra Permutation.
From Verif Require Import Base.Num Base.Res Base.RSum Base.SMap Base.Str Base.ListLemmas Model.Beam Model.Material Model.TransmissionTable
  Model.Math Model.Shell Model.Element Model.Layer Model.XRF Model.Multilayer Spec.MultilayerSpec Spec.SecondarySpec Proofs.LayerProofs Proofs.MultilayerProofs Proofs.MultilayerProofs2
  Proofs.MultilayerProofs3 Proofs.MultilayerProofs4 Proofs.MultilayerProofs5 Proofs.MultilayerProofs6 Proofs.MultilayerProofs7 Proofs.MultilayerProofs8 Proofs.MultilayerProofs9
  Proofs.MultilayerProofs10 Proofs.MultilayerProofs11 Proofs.MultilayerProofs12 Proofs.ElementProofs
  Proofs.MultilayerProofs19 Proofs.MultilayerProofs20 Proofs.MultilayerProofs21 Proofs.MultilayerProofs22 Proofs.MultilayerProofs23 Proofs.MultilayerProofs24.
Import ListNotations.
Set Implicit Arguments.
Local Open Scope string_scope.
Local Open Scope R_scope.
Local Existing Instance RNum.

Section Answer2.
Variable sortf : list R -> list R.
Variable lf debug : bool.
Variable xl : @xlib RNum.
Variable c : @config RNum.
Hypothesis WF : well_formed xl.
Hypothesis PW : pointwise xl.
Hypothesis AE : answers_each xl.
Variable EL : string -> string -> R.
Hypothesis LE : line_energies xl EL.

Theorem secondary_answer elements families layers secondary useGeo useMass limit over r :
  (forall e, In e elements -> one_word e) -> (forall n, (n < length elements)%nat -> 0 <= threshold xl elements families n) ->
  (forall j E, (j < length (c_sample c))%nat -> plain_families xl c (sample_compositions xl c) j E) ->
  @getMultilayerFluorescence RNum sortf debug lf xl c elements families layers secondary useGeo useMass limit over = Ok r ->
  let rays := sample_rays xl c over in let comps := sample_compositions xl c in
  forall key i L t f, one_word L -> tracked f -> line_entry r key i L = Some t ->
    field t f = if (0 <? secondary)%Z then sum_over debug xl c elements families layers useMass limit comps EL rays key i L (amount f) else 0.
Proof.
  intros WORDS POS PF H rays comps0. set (geo0 := solid_angles c useGeo). unfold getMultilayerFluorescence in H. fold (rays_of c over) in H. cbv zeta in H.
  obind H comps CO. obind H ws FW. obind H geo GE. obind H a AA.
  assert (EC : comps = comps0) by (apply (rmapM_map _ []) in CO; exact CO).
  assert (EG : geo = geo0).
  { apply (rmapM_map _ 0) in GE. unfold geo0, solid_angles. toR. rewrite GE. apply map_ext. intros i. destruct (useGeo =? 0)%Z; reflexivity. }
  assert (ER : combine (map Beam.r_energy (rays_of c over)) ws = rays) by (apply (@sample_rays_combine xl c PW), FW).
  assert (LC : length comps = length (c_sample c)) by (rewrite EC; apply map_length).
  assert (LG : length geo = length (c_sample c)) by (rewrite EG; unfold geo0, solid_angles; rewrite map_length, seq_length; reflexivity).
  toR. rewrite ER in AA. destruct a as [st m]. fold comps0 in PF.
  rewrite EC, EG in *. clear comps geo EC EG CO GE. cbn [fst] in H.
  assert (AA' : rfold (@rayStep RNum sortf debug lf xl c elements families layers secondary useMass limit (base c comps0 geo0)) (rev rays)
     (mkState [] (c_detector c, 1%Z) [] [], -1) = Ok (st, m)).
  { replace (-1) with (@nlit RNum (-1) 0) by (cbn; unfold Rlit; simpl; lra). exact AA. }
  assert (I0 : inv xl c (mkState [] (c_detector c, 1%Z) [] [])) by exact (inv_init xl c).
  assert (K0 : known xl c EL elements families secondary comps0 geo0 []) by (intros k i L t O Q; discriminate).
  assert (N0 : counted xl c EL elements families layers useMass comps0 [] []).
  { intros k i L O. split; [reflexivity|]. split; [intros Q; exfalso; apply Q; reflexivity|intros (w & [] & _)]. }
  assert (N2 : counted2 debug xl c EL elements families layers secondary useMass limit comps0 [] []).
  { intros k i L f O TF. reflexivity. }
  assert (T0 : @st_thr RNum (mkState [] (c_detector c, 1%Z) [] []) = [] \/ @st_thr RNum (mkState [] (c_detector c, 1%Z) [] []) = thrs xl elements families (length elements)) by (left; reflexivity).
  assert (M0 : low xl elements families (-1)) by (left; reflexivity).
  destruct (@rays_counted sortf lf debug xl c WF EL LE elements families layers secondary useMass limit WORDS POS comps0 geo0 LC LG (rev rays) []
    (mkState [] (c_detector c, 1%Z) [] []) (-1) st m I0 K0 N0 T0 M0 AA') as (I & _ & _).
  pose proof (@rays_counted2 sortf lf debug xl c WF AE EL LE elements families layers secondary useMass limit WORDS POS comps0 geo0 LC LG PF (rev rays) [] []
    (mkState [] (c_detector c, 1%Z) [] []) (-1) st m I0 K0 N0 (@fc_nil xl) N2 T0 M0 AA') as CN.
  cbn [app] in CN. clear I0 K0 N0 N2 T0 M0 AA' AA.
  assert (BEF : forall k i L t f, one_word L -> tracked f -> mfind sltb L (layerTable (st_ar st) k i) = Some t ->
     field t f = if (0 <? secondary)%Z then sum_over debug xl c elements families layers useMass limit comps0 EL rays k i L (amount f) else 0).
  { intros k i L t f O TF Ht. pose proof (CN k i L f O TF) as Q. unfold lineOf in Q. toR. rewrite Ht in Q. rewrite Q. unfold works, wterm2, work.
    rewrite (sum_swap (fun ray n => if excites xl c elements families layers useMass comps0 n (fst ray) (snd ray) k i L then
         amount f (gains_at debug xl c EL elements families secondary useMass limit comps0 n (fst ray) (snd ray) i L) else 0)).
    unfold gains_at. destruct (0 <? secondary)%Z.
    - unfold sum_over. apply Rsum_perm. apply Permutation_map, Permutation_sym, Permutation_rev.
    - apply Rsum_zero. intros ray _. apply Rsum_zero. intros n _. rewrite amount_nil. destruct (excites _ _ _ _ _ _ _ _ _ _ _ _ _); reflexivity. }
  intros key i L t f O TF. rewrite line_entry_layerTable.
  destruct (Z.ltb_spec 1 secondary) as [Q|Q].
  - destruct I as (I1 & I2 & I3). destruct (@tertiary_spec (st_ar st) I1) as (ar1 & r' & _ & E & _ & _ & _ & LT).
    rewrite H in E. injection E as <-. specialize (LT key i). set (keys := contributingAll ar1) in *. clearbody keys.
    destruct (I2 key i) as (S2 & _ & _).
    assert (ND : NoDup (map fst (layerTable (st_ar st) key i))) by (apply (smsorted_NoDup (proj1 S2))).
    assert (EX : forall n, In n (map fst (layerTable (st_ar st) key i)) -> exists t, mfind sltb n (layerTable (st_ar st) key i) = Some t).
    { intros n IN. apply in_map_iff in IN. destruct IN as [[a t'] [E IN]]. cbn in E. subst a. exists t'. apply (smfind_In n t' (proj1 S2)), IN. }
    destruct (@tertiaryFold_spec keys _ (layerTable (st_ar st) key i) S2 ND EX) as (A & B & C0). cbv zeta in A, B, C0.
    unfold tertiaryLayer in LT. rewrite LT. toR. clear LT.
    set (ls' := fold_left (tertiaryLine keys) (map fst (layerTable (st_ar st) key i)) (layerTable (st_ar st) key i)) in *. clearbody ls'.
    destruct (mfind sltb L (layerTable (st_ar st) key i)) as [t0|] eqn:HT.
    + assert (IL : In L (map fst (layerTable (st_ar st) key i))) by (apply in_map_iff; exists (L, t0); split; [reflexivity|apply (smfind_In L t0 (proj1 S2)), HT]).
      destruct (in_split _ _ IL) as (l1 & l2 & EQ). destruct (C0 l1 L l2 t0 EQ HT) as (t' & q & Ht' & (St' & FF & _) & _).
      rewrite Ht'. intros HU. injection HU as <-. assert (FE : forall f, f <> "tertiary" -> f <> "rate" -> field t' f = field t0 f) by (intros; apply mfind_field, FF; assumption).
      rewrite FE; [apply BEF; assumption|intros ->; destruct TF as [TF|TF]; discriminate TF..].
    + assert (NI : ~ In L (map fst (layerTable (st_ar st) key i))) by (intros IL; destruct (EX L IL) as [tt QQ]; discriminate (eq_trans (eq_sym HT) QQ)).
      intros QQ. discriminate (eq_trans (eq_sym QQ) (eq_trans (B L NI) HT)).
  - injection H as <-. intros Ht. apply BEF; assumption.
Qed.
End Answer2.
