(** Multilayer: the tertiary correction. *)
From Coq Require Import Ascii String List ZArith Reals Bool Arith Lia Lra Sorted.
From Verif Require Import Base.Num Base.Res Base.RSum Base.SMap Base.Str Base.ListLemmas Model.Beam Model.Material Model.TransmissionTable
  Model.Math Model.Shell Model.Element Model.Layer Model.XRF Model.Multilayer Spec.MultilayerSpec Proofs.LayerProofs Proofs.MultilayerProofs
  Proofs.MultilayerProofs2 Proofs.MultilayerProofs3 Proofs.MultilayerProofs4 Proofs.MultilayerProofs5 Proofs.MultilayerProofs6.
Import ListNotations.
Set Implicit Arguments.
Local Open Scope string_scope.
Local Open Scope R_scope.
Local Existing Instance RNum.

(** ** Names *)
Lemma sltb_cons a s t : sltb (String a s) (String a t) = sltb s t.
Proof. unfold sltb, String.ltb. cbn. unfold Ascii.compare. rewrite BinNat.N.compare_refl. reflexivity. Qed.
Lemma sltb_prefix a : forall b, b <> "" -> sltb a (a ++ b) = true.
Proof.
  induction a as [|x a IH]; intros b H; cbn [append]; [|rewrite sltb_cons; apply IH, H].
  destruct b; [congruence|reflexivity].
Qed.
Lemma cutSpace_word L e : one_word L -> cutSpace (L ++ " " ++ e) = (L, Some e).
Proof.
  unfold one_word. induction L as [|x L IH]; cbn; intros H; [reflexivity|]. apply orb_false_iff in H. destruct H as [H1 H2].
  rewrite H1. change (String " " e) with (" " ++ e). rewrite IH by exact H2. reflexivity.
Qed.
Lemma elementOf_word L e : one_word L -> elementOf (L ++ " " ++ e) = L.
Proof. intros H. unfold elementOf. rewrite cutSpace_word by exact H. reflexivity. Qed.
Lemma contains_app p a : forall b, contains p b = true -> contains p (a ++ b) = true.
Proof. induction a as [|x a IH]; intros b H; cbn [append]; [exact H|]. cbn [contains]. rewrite IH by exact H. apply orb_true_r. Qed.

(** ** One line *)
Definition small (t : tbl) : bool := Rltb (@excitationRatio RNum t) (Rlit 101 (-2)).
Definition parentT (ls : lns) (n : string) : R :=
  let p := @lineOf RNum ls (elementOf n) in field p "tertiary" / (field p "primary" + field p "secondary").
Definition tert_of (keys : tbl) (ls : lns) (n : string) (t : tbl) : R :=
  if isEscape n then (field t "primary" + field t "secondary") * parentT ls n else @tertiarySum RNum keys t.
Definition corrected (T : R) (t t' : tbl) : Prop :=
  msorted sltb t' /\ (forall f, f <> "tertiary" -> f <> "rate" -> mfind sltb f t' = mfind sltb f t) /\ contributions t' = contributions t /\
  (if small t then field t' "tertiary" = 0 /\ field t' "rate" = field t "rate"
   else field t' "tertiary" = T /\
        field t' "rate" = field t "rate" * ((T + field t "primary" + field t "secondary") / (field t "primary" + field t "secondary"))).

Lemma tertiaryLine_spec keys (ls : lns) n t : sorted2 ls -> mfind sltb n ls = Some t ->
  sorted2 (@tertiaryLine RNum keys ls n) /\ (forall m, m <> n -> mfind sltb m (@tertiaryLine RNum keys ls n) = mfind sltb m ls) /\
  exists t', mfind sltb n (@tertiaryLine RNum keys ls n) = Some t' /\ corrected (tert_of keys ls n t) t t'.
Proof.
  intros S2 Hn. pose proof (proj2 S2 _ _ Hn) as St. unfold tertiaryLine.
  assert (LO : @lineOf RNum ls n = t) by (unfold lineOf; toR; rewrite Hn; reflexivity). rewrite LO.
  change (@excitationRatio RNum t <? nlit 101 (-2))%num with (small t).
  destruct (small t) eqn:SM.
  - split; [apply sorted2_set; [exact S2|apply smset_sorted, St]|]. split; [intros m Hm; apply find_set_other; [exact S2|congruence]|].
    eexists. split; [apply find_set_same|]. unfold corrected. rewrite SM.
    split; [apply smset_sorted, St|]. split; [intros f F1 F2; apply smfind_mset_other; [congruence|exact St]|].
    split; [rewrite contributions_mset by exact St; cbn; ring|]. split; rewrite field_mset by exact St; reflexivity.
  - match goal with |- context [if isEscape n then ?a else ?b] => change (if isEscape n then a else b) with (tert_of keys ls n t) end.
    set (T := tert_of keys ls n t). clearbody T. toR.
    assert (S1 : msorted sltb (mset sltb "tertiary" T t)) by (apply smset_sorted, St).
    cbv zeta. rewrite !val0_field. rewrite !(field_mset "tertiary" T _ St). cbn [String.eqb Ascii.eqb Bool.eqb]. rnorm.
    match goal with |- context [mset sltb "rate" ?v _] => set (v0 := v) end.
    split; [apply sorted2_set; [exact S2|apply smset_sorted, S1]|]. split; [intros m Hm; apply find_set_other; [exact S2|congruence]|].
    eexists. split; [apply find_set_same|]. unfold corrected. rewrite SM.
    split; [apply smset_sorted, S1|].
    split; [intros f F1 F2; toR; rewrite smfind_mset_other; [|congruence|exact S1]; apply smfind_mset_other; [congruence|exact St]|].
    split; [rewrite contributions_mset by exact S1; rewrite contributions_mset by exact St; cbn; ring|].
    split; rewrite field_mset by exact S1; cbn [String.eqb Ascii.eqb Bool.eqb]; [rewrite field_mset by exact St; reflexivity|reflexivity].
Qed.

Lemma tertiaryFold_spec keys : forall l (ls : lns), sorted2 ls -> NoDup l -> (forall n, In n l -> exists t, mfind sltb n ls = Some t) ->
  let ls' := fold_left (@tertiaryLine RNum keys) l ls in
  sorted2 ls' /\ (forall n, ~ In n l -> mfind sltb n ls' = mfind sltb n ls) /\
  (forall l1 n l2 t, l = (l1 ++ n :: l2)%list -> mfind sltb n ls = Some t -> exists t' q,
     mfind sltb n ls' = Some t' /\ corrected (tert_of keys q n t) t t' /\ forall m, ~ In m l2 -> m <> n -> mfind sltb m q = mfind sltb m ls').
Proof.
  induction l as [|n l IH]; intros ls S2 ND HE; cbv zeta; cbn [fold_left].
  { split; [exact S2|]. split; [reflexivity|]. intros [|? ?] n l2 t E; discriminate. }
  apply NoDup_cons_iff in ND. destruct ND as [NI ND]. destruct (HE n (or_introl eq_refl)) as [t Ht].
  destruct (@tertiaryLine_spec keys ls n t S2 Ht) as (A & B & t' & Ht' & C).
  set (ls1 := tertiaryLine keys ls n) in *. clearbody ls1.
  destruct (IH ls1 A ND) as (A' & B' & C').
  { intros m I. destruct (HE m (or_intror I)) as [u Hu]. exists u. toR. rewrite B; [exact Hu|]. intros ->. contradiction. }
  cbv zeta in A', B', C'. set (ls' := fold_left (tertiaryLine keys) l ls1) in *. clearbody ls'.
  split; [exact A'|]. split.
  - intros m NM. cbn in NM. exact (eq_trans (B' m ltac:(tauto)) (B m ltac:(intros ->; tauto))).
  - intros l1 m l2 u E Hu. destruct l1 as [|a l1]; cbn in E; injection E as E1 E2.
    + subst m l2. assert (u = t) by (enough (Some u = Some t) by congruence; exact (eq_trans (eq_sym Hu) Ht)). subst u. exists t', ls.
      split; [exact (eq_trans (B' n NI) Ht')|]. split; [exact C|]. intros m NM Nm. exact (eq_sym (eq_trans (B' m NM) (B m Nm))).
    + subst a. assert (IM : In m l) by (rewrite E2; apply in_or_app; right; left; reflexivity).
      apply (C' l1 m l2 u E2). rewrite <- Hu. apply B. intros ->. contradiction.
Qed.

(** the name of a line comes before those of its escape peaks *)
Lemma sorted_before (l : list string) l1 n l2 m : StronglySorted (klt sltb) l -> l = (l1 ++ n :: l2)%list -> sltb m n = true -> ~ In m l2.
Proof.
  intros H E M I. subst l.
  assert (H2 : StronglySorted (klt sltb) (n :: l2)).
  { clear - H. induction l1 as [|a l1 IH]; [exact H|]. apply IH. inversion H; assumption. }
  inversion H2 as [|? ? _ F]. rewrite Forall_forall in F. specialize (F m I). unfold klt in F.
  pose proof (@st_asym string sltb sltb_total n m F) as Q. congruence.
Qed.

(** ** A whole layer *)
Section Layer.
Variable xl : @xlib RNum.
Variable c : @config RNum.
Hypothesis ESC : escape_names xl (c_detector c).

(** the answer for a line, with [T] added by the correction *)
Definition peak_ok3 (T : R) (ls : lns) (L : string) (t : tbl) (e : string * tbl) : Prop :=
  exists u r, mfind sltb "rate" (snd e) = Some r /\ mfind sltb (L ++ " " ++ fst e) ls = Some u /\ field u "ratio" = r /\
    field u "rate" = r * (field t "efficiency" * (field t "primary" + field t "secondary" + T)) /\
    field u "primary" = r * field t "primary" /\ field u "secondary" = r * field t "secondary" /\
    field u "energy" = field (snd e) "energy".
Definition settled3 (T : R) (ls : lns) (L : string) (t : tbl) : Prop :=
  contributions t = field t "secondary" /\
  exists esc, escape_peaks xl (c_detector c) (field t "energy") = Ok esc /\
    field t "rate" = (1 - Rsum (map peak_rate esc)) * (field t "efficiency" * (field t "primary" + field t "secondary" + T)) /\
    Forall (peak_ok3 T ls L t) esc.

Lemma settled_settled3 ls L t : mfind sltb L ls = Some t -> settled xl c ls L -> settled3 0 ls L t.
Proof.
  intros H (t0 & H0 & A & esc & B & C & D). same H H0. split; [exact A|]. exists esc. split; [exact B|]. unfold flux in C.
  split; [rewrite C; rring|]. eapply Forall_impl; [|exact D]. intros e (u & r & R1 & U & K1 & K2 & K3 & K4 & K5).
  exists u, r. unfold flux in K2. repeat (split; [assumption|]). split; [rewrite K2; rring|]. repeat (split; [assumption|]). assumption.
Qed.

Lemma mfind_field f (t t' : tbl) : mfind sltb f t' = mfind sltb f t -> field t' f = field t f.
Proof. intros H. unfold field. rewrite H. reflexivity. Qed.

Lemma small_scale (t u : tbl) r : 0 <= r -> field u "primary" = r * field t "primary" -> field u "secondary" = r * field t "secondary" ->
  (small t = true -> small u = true) /\ (small t = false -> (0 < r -> small u = false) /\ (r = 0 -> small u = true)) /\
  (small t = false -> 0 < field t "primary" + field t "secondary").
Proof.
  intros Hr P S. unfold small, excitationRatio. change (@val0 RNum t) with (field t). change (@val0 RNum u) with (field u). rewrite P, S. rnorm.
  assert (L101 : Rlit 101 (-2) = 101 / 100) by (unfold Rlit; simpl; lra).
  set (p := field t "primary"). set (s := field t "secondary"). rewrite L101.
  assert (R1 : Rltb 1 (101 / 100) = true) by (apply Rltb_true; lra).
  assert (EQ : 0 < r -> 0 < p -> (r * p + r * s) / (r * p) = (p + s) / p) by (intros; field; lra).
  assert (ZZ : r = 0 -> Rltb 0 (r * p) = false) by (intros ->; apply Rltb_false; lra).
  destruct (Rltb_spec 0 p) as [Hp|Hp].
  - destruct (Rle_lt_or_eq_dec _ _ Hr) as [Hr'|Hr'].
    + assert (Q : Rltb 0 (r * p) = true) by (apply Rltb_true, Rmult_lt_0_compat; assumption). rewrite Q, EQ by assumption.
      split; [tauto|split; [intros; split; [intros; assumption|intros; lra]|]].
      intros H. apply Rltb_false in H. assert (101 / 100 * p <= p + s) by (apply Rle_trans with ((p + s) / p * p); [apply Rmult_le_compat_r; lra|right; field; lra]). lra.
    + rewrite ZZ by (symmetry; exact Hr'). rewrite R1. split; [tauto|split; [intros _; split; [intros; lra|tauto]|]].
      intros H. apply Rltb_false in H. assert (101 / 100 * p <= p + s) by (apply Rle_trans with ((p + s) / p * p); [apply Rmult_le_compat_r; lra|right; field; lra]). lra.
  - rewrite R1. assert (Q : Rltb 0 (r * p) = false) by (apply Rltb_false; nra). rewrite Q, R1. split; [tauto|split; intros; discriminate].
Qed.

Lemma tertiaryLayer_settled keys (ls : lns) L t' : rest xl c ls -> one_word L ->
  isEscape L = false -> mfind sltb L (@tertiaryLayer RNum keys ls) = Some t' ->
  settled3 (field t' "tertiary") (@tertiaryLayer RNum keys ls) L t' /\
  exists t, mfind sltb L ls = Some t /\ corrected (@tertiarySum RNum keys t) t t'.
Proof.
  intros (S2 & R0 & W0) OW NE H'. unfold tertiaryLayer in *.
  assert (SS : StronglySorted (klt sltb) (map fst ls)) by apply (proj1 S2).
  assert (ND : NoDup (map fst ls)) by (apply (smsorted_NoDup (proj1 S2))).
  assert (EX : forall n, In n (map fst ls) -> exists t, mfind sltb n ls = Some t).
  { intros n I. apply in_map_iff in I. destruct I as [[a t] [E I]]. cbn in E. subst a. exists t. apply (smfind_In n t (proj1 S2)), I. }
  destruct (@tertiaryFold_spec keys _ ls S2 ND EX) as (A & B & C). cbv zeta in A, B, C. toR.
  set (ls' := fold_left (tertiaryLine keys) (map fst ls) ls) in *. clearbody ls'.
  destruct (in_dec string_dec L (map fst ls)) as [I|NI].
  2: { exfalso. rewrite B in H' by exact NI. apply NI. apply in_map_iff. exists (L, t'). split; [reflexivity|]. apply (smfind_In L t' (proj1 S2)), H'. }
  destruct (EX L I) as [t Ht]. destruct (in_split _ _ I) as (l1 & l2 & EL).
  destruct (C l1 L l2 t EL Ht) as (t1 & q & Ht1 & CO & _). same H' Ht1.
  unfold tert_of in CO. rewrite NE in CO.
  split; [|exists t; split; assumption].
  destruct (R0 L t Ht OW) as [LN (t0 & Ht0 & SC & esc & E1 & E2 & E3)]. same Ht Ht0.
  destruct CO as (St' & FF & CC & BR).
  assert (FE : forall f, f <> "tertiary" -> f <> "rate" -> field t' f = field t f) by (intros; apply mfind_field, FF; assumption).
  split; [rewrite CC, FE by discriminate; exact SC|].
  pose proof (FE "primary" ltac:(discriminate) ltac:(discriminate)) as Fp. pose proof (FE "secondary" ltac:(discriminate) ltac:(discriminate)) as Fs.
  pose proof (FE "efficiency" ltac:(discriminate) ltac:(discriminate)) as Ff. pose proof (FE "energy" ltac:(discriminate) ltac:(discriminate)) as Fn.
  exists esc. rewrite Fn, Ff, Fp, Fs. split; [exact E1|].
  assert (PS : small t = false -> 0 < field t "primary" + field t "secondary").
  { destruct (@small_scale t t 1) as (_ & _ & Q); [lra|lra|lra|exact Q]. }
  split.
  - destruct (small t) eqn:SM; destruct BR as [B1 B2]; rewrite B2, E2; unfold flux; [rewrite B1; rring|].
    specialize (PS eq_refl). rewrite B1. toR. field. lra.
  - rewrite Forall_forall in E3 |- *. intros e IE. destruct (E3 e IE) as (u & r & R1 & U & K1 & K2 & K3 & K4 & K5).
    assert (IU : In (L ++ " " ++ fst e) (map fst ls)).
    { apply in_map_iff. exists (L ++ " " ++ fst e, u). split; [reflexivity|]. apply (smfind_In _ u (proj1 S2)), U. }
    destruct (in_split _ _ IU) as (k1 & k2 & EK). destruct (C k1 _ k2 u EK U) as (u' & q' & HU' & (Su' & FU & _ & BU) & SQ).
    assert (FUE : forall f, f <> "tertiary" -> f <> "rate" -> field u' f = field u f) by (intros; apply mfind_field, FU; assumption).
    destruct (@esc_all xl (c_detector c) ESC (field t "energy") esc e E1 IE) as (NM & NN).
    assert (HR : 0 <= r) by (unfold peak_rate, field in NN; rewrite R1 in NN; exact NN).
    assert (PT : parentT q' (L ++ " " ++ fst e) = field t' "tertiary" / (field t "primary" + field t "secondary")).
    { unfold parentT. rewrite elementOf_word by exact OW.
      assert (Q : mfind sltb L q' = Some t').
      { assert (LT : sltb L (L ++ " " ++ fst e) = true) by (apply sltb_prefix; discriminate).
        rewrite SQ; [exact H'|exact (@sorted_before _ _ _ _ _ SS EK LT)|]. intros E. rewrite <- E in LT.
        rewrite (st_irrefl (StrictTotal := sltb_total)) in LT. discriminate. }
      unfold lineOf. toR. rewrite Q, Fp, Fs. reflexivity. }
    exists u', r. rewrite Fp, Fs, Ff. rewrite (FUE "ratio"), (FUE "primary"), (FUE "secondary"), (FUE "energy") by discriminate. split; [exact R1|split; [exact HU'|split; [exact K1|]]].
    split; [|repeat (split; [assumption|]); assumption].
    destruct (@small_scale t u r HR K3 K4) as (Q1 & Q2 & Q3).
    unfold tert_of in BU. assert (IE' : isEscape (L ++ " " ++ fst e) = true).
    { unfold isEscape in *. apply contains_app, contains_app, NM. }
    rewrite IE', PT, K3, K4 in BU. unfold flux in K2.
    destruct (small t) eqn:SM.
    + rewrite (Q1 eq_refl) in BU. destruct BU as [_ ->]. destruct BR as [-> _]. rewrite K2. rring.
    + destruct (Q2 eq_refl) as [Q4 Q5]. specialize (PS eq_refl). destruct (Rle_lt_or_eq_dec _ _ HR) as [Hr|Hr].
      * rewrite (Q4 Hr) in BU. destruct BU as [_ ->]. rewrite K2. toR. field. split; [lra|]. 
        assert (0 < r * (field t "primary" + field t "secondary")) by (apply Rmult_lt_0_compat; assumption). lra.
      * rewrite (Q5 (eq_sym Hr)) in BU. destruct BU as [_ ->]. rewrite K2. rewrite <- Hr. rring.
Qed.
End Layer.
