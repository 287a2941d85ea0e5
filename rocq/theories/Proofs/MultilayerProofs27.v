(** Multilayer: the tertiary part of an answer. *)
From Coq Require Import Ascii String List ZArith Reals Bool Arith Lia Lra Permutation Sorting.Sorted.
From Verif Require Import Base.Num Base.Res Base.RSum Base.SMap Base.Str Base.ListLemmas Model.Beam Model.Material Model.TransmissionTable
  Model.Math Model.Shell Model.Element Model.Layer Model.XRF Model.Multilayer Proofs.ShellProofs3 Spec.MultilayerSpec Spec.SecondarySpec Spec.TertiarySpec Proofs.LayerProofs Proofs.MultilayerProofs Proofs.MultilayerProofs2
  Proofs.MultilayerProofs3 Proofs.MultilayerProofs4 Proofs.MultilayerProofs5 Proofs.MultilayerProofs6 Proofs.MultilayerProofs7 Proofs.MultilayerProofs8 Proofs.MultilayerProofs11 Proofs.MultilayerProofs12 Proofs.ElementProofs Proofs.ElementProofs5
  Proofs.MultilayerProofs17 Proofs.MultilayerProofs19 Proofs.MultilayerProofs26.
Import ListNotations.
Set Implicit Arguments.
Local Open Scope string_scope.
Local Open Scope R_scope.
Local Existing Instance RNum.

Lemma ratio_enhancement (t t' : tbl) : field t' "primary" = field t "primary" -> field t' "secondary" = field t "secondary" ->
  @excitationRatio RNum t = enhancement t'.
Proof. intros A B. unfold enhancement, excitationRatio. rewrite A, B. reflexivity. Qed.
Lemma lit101 : Rlit 101 (-2) = 101 / 100. Proof. unfold Rlit; simpl; lra. Qed.
Lemma lit5m : Rlit 5 (-3) = 5 / 1000. Proof. unfold Rlit; simpl; lra. Qed.

(** fields of several words are the same in the two tables: so is a sum over them *)
Lemma spaced_sum (g : string * R -> R) (t t' : tbl) : msorted sltb t -> msorted sltb t' -> (forall f, has_space f = true -> mfind sltb f t' = mfind sltb f t) ->
  Rsum (map (fun nv => if has_space (fst nv) then g nv else 0) t') = Rsum (map (fun nv => if has_space (fst nv) then g nv else 0) t).
Proof.
  intros S S' H. rewrite (Rsum_filter (fun nv => has_space (fst nv)) _ t), (Rsum_filter (fun nv => has_space (fst nv)) _ t').
  assert (Z : forall l : tbl, Rsum (map (fun nv => if has_space (fst nv) then g nv else 0) (filter (fun x => negb (has_space (fst x))) l)) = 0).
  { intros l. apply Rsum_zero. intros x I. apply filter_In in I. destruct I as [_ I]. apply negb_true_iff in I. rewrite I. reflexivity. }
  rewrite !Z. f_equal. apply Rsum_perm, Permutation_map. 
  assert (ND : forall l : tbl, msorted sltb l -> NoDup l) by (intros l Sl; apply (NoDup_map_inv fst), (smsorted_NoDup Sl)).
  apply NoDup_Permutation; [apply NoDup_filter, ND; assumption..|]. intros [f v]. rewrite !filter_In. cbn [fst].
  split; intros [I Q]; (split; [|exact Q]); [apply (smfind_In f v S)|apply (smfind_In f v S')]; [rewrite <- H by exact Q; apply (smfind_In f v S'), I|rewrite H by exact Q; apply (smfind_In f v S), I].
Qed.

Section Answer3.
Variable sortf : list R -> list R.
Variable lf debug : bool.
Variable xl : @xlib RNum.
Variable c : @config RNum.
Hypothesis WF : well_formed xl.
Hypothesis PW : pointwise xl.
Variable EL : string -> string -> R.
Hypothesis LE : line_energies xl EL.
Hypothesis ESC : escape_names xl (c_detector c).

(** one table of lines, before and after *)
Definition before_after (keys : tbl) (n : string) (t t' : tbl) : Prop :=
  msorted sltb t /\ msorted sltb t' /\ (forall f, f <> "tertiary" -> f <> "rate" -> mfind sltb f t' = mfind sltb f t) /\
  (isEscape n = false -> field t' "tertiary" = if small t then 0 else @tertiarySum RNum keys t).
Lemma layer_relation keys (ls : lns) n : sorted2 ls ->
  match mfind sltb n ls with
  | Some t => exists t', mfind sltb n (@tertiaryLayer RNum keys ls) = Some t' /\ before_after keys n t t'
  | None => mfind sltb n (@tertiaryLayer RNum keys ls) = None
  end.
Proof.
  intros S2. assert (ND : NoDup (map fst ls)) by (apply (smsorted_NoDup (proj1 S2))).
  assert (EX : forall n, In n (map fst ls) -> exists t, mfind sltb n ls = Some t).
  { intros m IN. apply in_map_iff in IN. destruct IN as [[a t'] [E IN]]. cbn in E. subst a. exists t'. apply (smfind_In m t' (proj1 S2)), IN. }
  destruct (@tertiaryFold_spec keys _ ls S2 ND EX) as (A & B & C0). cbv zeta in A, B, C0. unfold tertiaryLayer. toR.
  set (ls' := fold_left (tertiaryLine keys) (map fst ls) ls) in *. clearbody ls'.
  destruct (mfind sltb n ls) as [t|] eqn:HT.
  - assert (IL : In n (map fst ls)) by (apply in_map_iff; exists (n, t); split; [reflexivity|apply (smfind_In n t (proj1 S2)), HT]).
    destruct (in_split _ _ IL) as (l1 & l2 & EQ). destruct (C0 l1 n l2 t EQ HT) as (t' & q & Ht' & (St' & FF & _ & TT) & _).
    exists t'. split; [exact Ht'|]. split; [exact (proj2 S2 _ _ HT)|]. split; [exact St'|]. split; [exact FF|]. intros NE. unfold tert_of in TT. rewrite NE in TT.
    destruct (small t); apply TT.
  - refine (eq_trans (B n _) HT). intros IL. destruct (EX n IL) as [tt QQ]. discriminate (eq_trans (eq_sym HT) QQ).
Qed.

Lemma layer_back keys (ls : lns) n t' : sorted2 ls -> mfind sltb n (@tertiaryLayer RNum keys ls) = Some t' -> exists t, mfind sltb n ls = Some t /\ before_after keys n t t'.
Proof.
  intros S2 F. pose proof (@layer_relation keys ls n S2) as Q. destruct (mfind sltb n ls) as [t|]; [|discriminate (eq_trans (eq_sym Q) F)]. exists t. split; [reflexivity|].
  destruct Q as (t1 & F1 & Q). assert (t1 = t') by (apply some_inj; exact (eq_trans (eq_sym F1) F)). subst t1. exact Q.
Qed.

Theorem tertiary_answer elements families layers secondary useGeo useMass limit over r :
  (forall e, In e elements -> one_word e) -> (forall n, (n < length elements)%nat -> 0 <= threshold xl elements families n) -> (1 < secondary)%Z ->
  @getMultilayerFluorescence RNum sortf debug lf xl c elements families layers secondary useGeo useMass limit over = Ok r ->
  exists enh, enhancements r enh /\ forall key i L t, line_entry r key i L = Some t -> ~ escape_line L -> msorted sltb t /\
    field t "tertiary" = if Rltb (enhancement t) (101 / 100) then 0
                         else Rsum (map (fun nv => if has_space (fst nv) then snd nv * (enh (fst nv) - 1) else 0) t).
Proof.
  intros WORDS POS SEC H.
  pose proof (@primary_answer sortf lf debug xl c WF PW EL LE elements families layers secondary useGeo useMass limit over r WORDS POS H) as PA. cbv zeta in PA.
  set (comps := sample_compositions xl c) in *.
  destruct (@answer_state sortf debug lf xl c WF _ _ _ _ _ _ _ _ _ H) as (st & (I1 & I2 & I3) & _ & B). specialize (B SEC).
  destruct (@tertiary_spec (st_ar st) I1) as (ar1 & r' & TO & E & _ & _ & _ & LT). rewrite B in E. injection E as <-.
  set (ar := st_ar st) in *. clearbody ar. clear B H I3. set (keys := @contributingAll RNum ar1) in *.
  assert (RELS : forall k i n t, mfind sltb n (layerTable ar k i) = Some t -> exists t', line_entry r k i n = Some t' /\ before_after keys n t t').
  { intros k i n t F. pose proof (@layer_relation keys (layerTable ar k i) n (proj1 (I2 k i))) as Q. rewrite line_entry_layerTable, LT. toR. rewrite F in Q. exact Q. }
  assert (RELN : forall k i n t', line_entry r k i n = Some t' -> exists t, mfind sltb n (layerTable ar k i) = Some t /\ before_after keys n t t').
  { intros k i n t' F. rewrite line_entry_layerTable, LT in F. exact (@layer_back keys (layerTable ar k i) n t' (proj1 (I2 k i)) F). }
  (* the entries *)
  assert (S1 : msorted sltb ar1).
  { unfold msorted. pose proof (@Forall2_keys _ _ _ touching _ _ TO) as KE. pose proof (proj1 I1) as KS. unfold msorted in KS. refine (eq_ind_r (fun z => StronglySorted (klt sltb) z) _ KE). exact KS. }
  assert (LAY : forall k m1 j l, In (k, m1) ar1 -> In (j, l) m1 -> l = layerTable ar k j).
  { intros k m1 j l Ik Ij. pose proof (@mfind_Forall2 _ _ _ sltb touching k _ _ TO) as Q. unfold table3 in *. toR.
    apply (smfind_In k m1 S1) in Ik. toR. rewrite Ik in Q. unfold layerTable. toR. destruct (mfind sltb k ar) as [m|]; [|contradiction]. destruct Q as (Q1 & _ & Q3 & _).
    specialize (Q3 j). unfold layerOf in Q3. apply (@mfind_In nat _ Nat.ltb natltb_total j l m1 Q1) in Ij. toR. rewrite Ij in Q3. exact Q3. }
  assert (ITM : forall k j line u, In (k, j, line, u) (items ar1) <-> mfind sltb line (layerTable ar k j) = Some u).
  { intros k j line u. unfold items, items_key, items_layer. rewrite in_flat_map. split.
    - intros ([k' m1] & Ik & I). apply in_flat_map in I. destruct I as ([j' l] & Ij & I). apply in_map_iff in I. destruct I as ([line' u'] & Q & I). cbn in Q. injection Q as -> -> -> ->.
      pose proof (LAY _ _ _ _ Ik Ij) as ->. apply (smfind_In line u (proj1 (proj1 (I2 k j)))), I.
    - intros F. assert (F' := F). unfold layerTable in F. pose proof (@mfind_Forall2 _ _ _ sltb touching k _ _ TO) as Q. unfold table3 in *. toR.
      destruct (mfind sltb k ar) as [m|] eqn:Fk; [|discriminate]. destruct (mfind Nat.ltb j m) as [l|] eqn:Fj; [|discriminate].
      destruct (mfind sltb k ar1) as [m1|] eqn:Fk1; [|contradiction]. destruct Q as (Q1 & _ & _ & Q4). specialize (Q4 j l Fj).
      exists (k, m1). split; [apply (smfind_In k m1 S1), Fk1|]. apply in_flat_map. exists (j, l). split; [apply (@mfind_In nat _ Nat.ltb natltb_total j l m1 Q1), Q4|].
      apply in_map_iff. exists (line, u). split; [reflexivity|]. assert (SL : sorted2 (layerTable ar k j)) by apply (I2 k j). unfold layerTable, table3 in SL. toR. rewrite Fk, Fj in SL.
      apply (smfind_In line u (proj1 SL)), F. }
  assert (UNI : keys = fold_left put (items ar1) []).
  { apply contributingAll_put. intros k m1 j l Ik Ij. exists (Rltb (field (comp_at comps j) (first_word k)) (Rlit 5 (-3))). intros line u I NE.
    pose proof (LAY _ _ _ _ Ik Ij) as ->. destruct (I2 k j) as (SL & _ & OW). apply (smfind_In line u (proj1 SL)) in I.
    assert (WD : one_word line).
    { unfold one_word. destruct (has_space line) eqn:HS; [|reflexivity]. exfalso. destruct (OW line u I HS) as (L0 & e & t0 & esc & EQ & _ & _ & EP & IE).
      apply in_map_iff in IE. destruct IE as (pe & <- & IE). destruct (@esc_all xl (c_detector c) ESC _ _ pe EP IE) as [CE _].
      subst line. unfold isEscape in NE. rewrite contains_app in NE; [discriminate|]. apply contains_app, CE. }
    destruct (RELS k j line u I) as (t' & HT' & _ & _ & FF & _).
    destruct (PA k j line WD) as [_ P2]. destruct (P2 t' HT') as (_ & n & Hn & KE & _ & D). destruct D as (_ & _ & _ & MF & _).
    assert (FM : field t' "massFraction" = field u "massFraction") by (apply mfind_field, FF; discriminate). rewrite <- FM, MF, KE. f_equal. f_equal.
    rewrite <- elementOf_first. rewrite elementOf_word; [reflexivity|]. apply elem_word; assumption. }
  clearbody keys.
  assert (SK : msorted sltb keys) by (rewrite UNI; apply put_sorted, smsorted_nil).
  set (enh := fun name => match mfind sltb name keys with Some f => f | None => 1 end). exists enh.
  (* good entries and contributing lines *)
  assert (GOOD : forall name k j line u, In (k, j, line, u) (items ar1) -> item_good (k, j, line, u) = true -> item_name (k, j, line, u) = name ->
     exists u', contributes r name k j line u' /\ enhancement u' = item_value (k, j, line, u)).
  { intros name k j line u I G NM. apply ITM in I. destruct (RELS k j line u I) as (u' & HU & _ & _ & FF & _).
    exists u'. cbn in G. apply andb_true_iff in G. destruct G as [G G3]. apply andb_true_iff in G. destruct G as [G1 G2].
    apply negb_true_iff in G1, G2, G3. apply isEscape_false in G1. apply Rltb_false in G2, G3. rewrite lit5m in G2. rewrite lit101 in G3. apply Rnot_lt_le in G2, G3.
    assert (FE : forall f, f <> "tertiary" -> f <> "rate" -> field u' f = field u f) by (intros; apply mfind_field, FF; assumption).
    assert (EN : @excitationRatio RNum u = enhancement u') by (apply ratio_enhancement; apply FE; discriminate). 
    split; [|symmetry; exact EN]. split; [exact HU|]. split; [exact G1|]. split; [rewrite <- NM; cbn; rewrite elementOf_first, layerNumber_label; reflexivity|].
    split; [rewrite FE by discriminate; exact G2|rewrite <- EN; exact G3]. }
  assert (GOOD2 : forall name k j line u', contributes r name k j line u' -> exists u, In (k, j, line, u) (items ar1) /\ item_good (k, j, line, u) = true /\ item_name (k, j, line, u) = name).
  { intros name k j line u' (HU & NE & NM & MF & EN). destruct (RELN _ _ _ _ HU) as (u & F & _ & _ & FF & _). exists u. split; [apply ITM, F|].
    assert (FE : forall f, f <> "tertiary" -> f <> "rate" -> field u' f = field u f) by (intros; apply mfind_field, FF; assumption).
    split; [|cbn; rewrite NM, elementOf_first, layerNumber_label; reflexivity]. cbn. apply isEscape_false in NE. rewrite NE. cbn [negb andb]. apply andb_true_iff.
    split; apply negb_true_iff, Rltb_false, Rle_not_lt; [rewrite lit5m, <- FE by discriminate; exact MF|rewrite lit101, (@ratio_enhancement u u') by (apply FE; discriminate); exact EN]. }
  split.
  - intros name. destruct (@put_find name (items ar1) [] smsorted_nil) as [(l1 & [[[k j] line] u] & l2 & EQ & G & NM & F & LAST)|[NONE F]]; rewrite <- UNI in F.
    + left. destruct (GOOD name k j line u) as (u' & CT & EV); [rewrite EQ; apply in_or_app; right; left; reflexivity|exact G|exact NM|].
      exists k, j, line, u'. split; [exact CT|]. split; [unfold enh; toR; rewrite F; symmetry; exact EV|].
      intros k' j' line' u1 CT'. destruct (GOOD2 _ _ _ _ _ CT') as (u0 & I0 & G0 & N0).
      pose proof (items_sorted S1) as SS. rewrite EQ in SS, I0. apply in_app_or in I0. destruct I0 as [I0|[I0|I0]].
      * apply StronglySorted_app in SS. destruct SS as (_ & _ & SS). exact (SS _ _ I0 (or_introl eq_refl)).
      * injection I0 as <- _ _ _. left. reflexivity.
      * exfalso. exact (LAST _ I0 G0 N0).
    + right. split; [|unfold enh; toR; rewrite F; reflexivity]. intros k j line u CT. destruct (GOOD2 _ _ _ _ _ CT) as (u0 & I0 & G0 & N0). exact (NONE _ I0 G0 N0).
  - intros key i L t' HT' NE. apply isEscape_false in NE. destruct (RELN _ _ _ _ HT') as (t & _ & St & St' & FF & TT). split; [exact St'|]. rewrite (TT NE). 
    assert (FE : forall f, f <> "tertiary" -> f <> "rate" -> field t' f = field t f) by (intros; apply mfind_field, FF; assumption).
    unfold small. rewrite (@ratio_enhancement t t') by (apply FE; discriminate). rewrite lit101. destruct (Rltb (enhancement t') (101 / 100)); [reflexivity|].
    rewrite (tertiarySum_fields SK St). symmetry.
    rewrite (@spaced_sum (fun nv => snd nv * (enh (fst nv) - 1)) t t' St St') by (intros f HS; apply FF; intros ->; discriminate).
    apply Rsum_ext. intros [n v] _. cbn [fst snd]. unfold enh. destruct (@put_find n (items ar1) [] smsorted_nil) as [(l1 & [[[k j] line] u] & l2 & EQ & G & NM & F & LAST)|[NONE F]]; rewrite <- UNI in F; toR; rewrite F.
    + replace (has_space n) with true; [reflexivity|]. rewrite <- NM. cbn [item_name]. symmetry. apply has_space_mid.
    + cbn. destruct (has_space n); [ring|reflexivity].
Qed.

(** an escape peak has the tertiary part of its line in its own proportion *)
Lemma layer_escape keys (ls : lns) L t' esc e u' : rest xl c ls -> one_word L -> isEscape L = false ->
  mfind sltb L (@tertiaryLayer RNum keys ls) = Some t' -> escape_peaks xl (c_detector c) (field t' "energy") = Ok esc -> In e esc ->
  mfind sltb (L ++ " " ++ fst e) (@tertiaryLayer RNum keys ls) = Some u' -> field u' "tertiary" = peak_rate e * field t' "tertiary".
Proof.
  intros (S2 & R0 & W0) OW NE H' HE IE HU. unfold tertiaryLayer in *.
  assert (SS : StronglySorted (klt sltb) (map fst ls)) by apply (proj1 S2).
  assert (ND : NoDup (map fst ls)) by (apply (smsorted_NoDup (proj1 S2))).
  assert (EX : forall n, In n (map fst ls) -> exists t, mfind sltb n ls = Some t).
  { intros n I. apply in_map_iff in I. destruct I as [[a t] [E I]]. cbn in E. subst a. exists t. apply (smfind_In n t (proj1 S2)), I. }
  destruct (@tertiaryFold_spec keys _ ls S2 ND EX) as (A & B & C). cbv zeta in A, B, C. toR.
  set (ls' := fold_left (tertiaryLine keys) (map fst ls) ls) in *. clearbody ls'.
  destruct (in_dec string_dec L (map fst ls)) as [I|NI].
  2: { exfalso. rewrite B in H' by exact NI. apply NI. apply in_map_iff. exists (L, t'). split; [reflexivity|]. apply (smfind_In L t' (proj1 S2)), H'. }
  destruct (EX L I) as [t Ht]. destruct (in_split _ _ I) as (l1 & l2 & EL0).
  destruct (C l1 L l2 t EL0 Ht) as (t1 & q & Ht1 & CO & _). same H' Ht1.
  destruct (R0 L t Ht OW) as [LN (t0 & Ht0 & SC & esc0 & E1 & E2 & E3)]. same Ht Ht0.
  destruct CO as (St' & FF & CC & BR).
  assert (FE : forall f, f <> "tertiary" -> f <> "rate" -> field t' f = field t f) by (intros; apply mfind_field, FF; assumption).
  pose proof (FE "primary" ltac:(discriminate) ltac:(discriminate)) as Fp. pose proof (FE "secondary" ltac:(discriminate) ltac:(discriminate)) as Fs.
  pose proof (FE "energy" ltac:(discriminate) ltac:(discriminate)) as Fn.
  rewrite Fn, E1 in HE. injection HE as <-.
  assert (PS : small t = false -> 0 < field t "primary" + field t "secondary").
  { destruct (@small_scale t t 1) as (_ & _ & Q); [lra|lra|lra|exact Q]. }
  rewrite Forall_forall in E3. destruct (E3 e IE) as (u & r & R1 & U & K1 & K2 & K3 & K4 & K5).
  assert (IU : In (L ++ " " ++ fst e) (map fst ls)).
  { apply in_map_iff. exists (L ++ " " ++ fst e, u). split; [reflexivity|]. apply (smfind_In _ u (proj1 S2)), U. }
  destruct (in_split _ _ IU) as (k1 & k2 & EK). destruct (C k1 _ k2 u EK U) as (u1 & q' & HU' & (Su' & FU & _ & BU) & SQ). same HU HU'.
  destruct (@esc_all xl (c_detector c) ESC (field t "energy") esc0 e E1 IE) as (NM & NN).
  assert (HR : peak_rate e = r) by (unfold peak_rate, field; rewrite R1; reflexivity). rewrite HR in *.
  assert (PT : parentT q' (L ++ " " ++ fst e) = field t' "tertiary" / (field t "primary" + field t "secondary")).
  { unfold parentT. rewrite elementOf_word by exact OW.
    assert (Q : mfind sltb L q' = Some t').
    { assert (LT : sltb L (L ++ " " ++ fst e) = true) by (apply sltb_prefix; discriminate).
      rewrite SQ; [exact H'|exact (@sorted_before _ _ _ _ _ SS EK LT)|]. intros E. rewrite <- E in LT.
      rewrite (st_irrefl (StrictTotal := sltb_total)) in LT. discriminate. }
    unfold lineOf. toR. rewrite Q, Fp, Fs. reflexivity. }
  destruct (@small_scale t u r NN K3 K4) as (Q1 & Q2 & Q3).
  unfold tert_of in BU. assert (IE' : isEscape (L ++ " " ++ fst e) = true).
  { unfold isEscape in *. apply contains_app, contains_app, NM. }
  rewrite IE', PT, K3, K4 in BU. destruct (small t) eqn:SM.
  - rewrite (Q1 eq_refl) in BU. destruct BU as [-> _]. destruct BR as [-> _]. rring.
  - destruct (Q2 eq_refl) as [Q4 Q5]. specialize (PS eq_refl). destruct (Rle_lt_or_eq_dec _ _ NN) as [Hr|Hr].
    + rewrite (Q4 Hr) in BU. destruct BU as [-> _]. toR. field. lra.
    + rewrite (Q5 (eq_sym Hr)) in BU. destruct BU as [-> _]. rewrite <- Hr. rring.
Qed.
Theorem tertiary_escape elements families layers secondary useGeo useMass limit over r key i L t esc e u : (1 < secondary)%Z ->
  @getMultilayerFluorescence RNum sortf debug lf xl c elements families layers secondary useGeo useMass limit over = Ok r ->
  one_word L -> ~ escape_line L -> line_entry r key i L = Some t -> escape_peaks xl (c_detector c) (field t "energy") = Ok esc -> In e esc ->
  line_entry r key i (L ++ " " ++ fst e) = Some u -> field u "tertiary" = peak_rate e * field t "tertiary".
Proof.
  intros SEC H OW NE. destruct (@answer_state sortf debug lf xl c WF _ _ _ _ _ _ _ _ _ H) as (st & (I1 & I2 & I3) & _ & B). specialize (B SEC).
  destruct (@tertiary_spec (st_ar st) I1) as (ar1 & r' & TO & E & _ & _ & _ & LT). rewrite B in E. injection E as <-.
  rewrite !line_entry_layerTable, !LT. intros A1 A2 A3 A4. apply isEscape_false in NE. exact (@layer_escape _ _ L t esc e u (I2 key i) OW NE A1 A2 A3 A4).
Qed.
End Answer3.
