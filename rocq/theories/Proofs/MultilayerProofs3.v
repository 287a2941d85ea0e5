(** Multilayer: secondary loops and the end of the treatment of a line. *)
From Coq Require Import Ascii String List ZArith Reals Bool Arith Lia Lra.
From Verif Require Import Base.Num Base.Res Base.RSum Base.SMap Base.Str Base.ListLemmas Model.Beam Model.Material Model.TransmissionTable
  Model.Math Model.Shell Model.Element Model.Layer Model.XRF Model.Multilayer Spec.MultilayerSpec Proofs.LayerProofs Proofs.MultilayerProofs
  Proofs.MultilayerProofs2.
Import ListNotations.
Set Implicit Arguments.
Local Open Scope string_scope.
Local Open Scope R_scope.
Local Existing Instance RNum.
Ltac rring := toR; apply Rminus_diag_uniq; ring.
Notation rlns := (list (string * @rline RNum)).

(** ** Secondary excitation only adds contributions *)
Definition evolved (t t' : tbl) (v : R) : Prop :=
  msorted sltb t' /\ (forall f, one_word f -> field t' f = field t f) /\ contributions t' = contributions t + v.
Definition ev (rs : rlns) (ls : lns) (rs' : rlns) (ls' : lns) : Prop :=
  sorted2 ls' /\ map fst rs' = map fst rs /\
  (forall L x', In (L, x') rs' -> exists x, In (L, x) rs /\
     r_energy x' = r_energy x /\ r_mu x' = r_mu x /\ r_eff x' = r_eff x /\ r_primary x' = r_primary x /\
     r_rate x' = r_rate x + (r_secondary x' - r_secondary x) * r_eff x /\
     forall t, mfind sltb L ls = Some t -> exists t', mfind sltb L ls' = Some t' /\ evolved t t' (r_secondary x' - r_secondary x)) /\
  (forall L, ~ In L (map fst rs) -> mfind sltb L ls' = mfind sltb L ls).

Lemma evolved_refl (t : tbl) : msorted sltb t -> evolved t t 0.
Proof. intros. split; [assumption|split; [reflexivity|ring]]. Qed.
Lemma ev_refl rs ls : sorted2 ls -> ev rs ls rs ls.
Proof.
  intros H. split; [exact H|split; [reflexivity|split; [|reflexivity]]]. intros L x I. exists x. split; [exact I|].
  repeat (split; [reflexivity|]). split; [rring|]. intros t F. exists t. split; [exact F|].
  replace (r_secondary x - r_secondary x) with 0 by (rring). apply evolved_refl. eapply (proj2 H), F.
Qed.
Lemma ev_trans rs ls rs1 ls1 rs2 ls2 : ev rs ls rs1 ls1 -> ev rs1 ls1 rs2 ls2 -> ev rs ls rs2 ls2.
Proof.
  intros (A & B & C & D) (A1 & B1 & C1 & D1). split; [exact A1|split; [congruence|split]].
  - intros L x2 I. destruct (C1 _ _ I) as (x1 & I1 & E1 & E2 & E3 & E4 & E5 & E6). destruct (C _ _ I1) as (x & I0 & F1 & F2 & F3 & F4 & F5 & F6).
    exists x. split; [exact I0|]. repeat (split; [congruence|]). split; [rewrite E5, F5, F3; rring|].
    intros t Ht. destruct (F6 t Ht) as (t1 & Ht1 & V1 & V2 & V3). destruct (E6 t1 Ht1) as (t2 & Ht2 & W1 & W2 & W3).
    exists t2. split; [exact Ht2|]. split; [exact W1|split]; [intros f Hf; rewrite W2, V2 by exact Hf; reflexivity|rewrite W3, V3; rring].
  - intros L H. rewrite D1 by (rewrite B; exact H). apply D, H.
Qed.

Lemma excite_spec term name factors : has_space name = true -> forall rs ls rs' ls',
  NoDup (map fst rs) -> sorted2 ls -> (forall L, In L (map fst rs) -> exists t, mfind sltb L ls = Some t) ->
  excite term name factors rs ls = Ok (rs', ls') -> ev rs ls rs' ls'.
Proof.
  intros HN. induction rs as [|[L x] r IH]; intros ls rs' ls' ND S2 P H.
  { cbn in H. injection H as <- <-. apply ev_refl, S2. }
  cbn [map fst] in ND. apply NoDup_cons_iff in ND. destruct ND as [N1 ND].
  cbn [excite] in H. obind H o OO. destruct o as [v|].
  - obind H y Y. destruct y as [r2 ls2]. injection H as <- <-. cbn [fst snd] in *.
    destruct (P L (or_introl eq_refl)) as [t Ht].
    assert (St : msorted sltb t) by (eapply (proj2 S2), Ht).
    assert (LO : @lineOf RNum ls L = t) by (unfold lineOf; toR; rewrite Ht; reflexivity).
    unfold addContribution in Y. rewrite LO in Y.
    set (ls1 := mset sltb L (@addField RNum t name v) ls) in Y.
    assert (S1 : sorted2 ls1) by (apply sorted2_set; [exact S2|apply addField_sorted, St]).
    destruct (IH ls1 r2 ls2 ND S1) as (A & B & C & D); [|exact Y|].
    { intros L' I'. destruct (P L' (or_intror I')) as [t' Ht']. exists t'. unfold ls1. rewrite find_set_other; [exact Ht'|exact S2|]. congruence. }
    split; [exact A|split; [cbn; congruence|split]].
    + intros L' x' [I|I].
      * injection I as <- <-. exists x. split; [left; reflexivity|]. cbn [r_energy r_mu r_eff r_primary r_secondary r_rate].
        repeat (split; [reflexivity|]). rnorm. split; [rring|]. intros t0 Ht0. rewrite Ht in Ht0. injection Ht0 as <-.
        exists (@addField RNum t name v). split; [rewrite (D L N1); apply find_set_same|].
        split; [apply addField_sorted, St|split].
        -- intros f Hf. rewrite field_addField by exact St. destruct (String.eqb_spec name f) as [->|]; [unfold one_word in Hf; congruence|ring].
        -- rewrite contributions_addField by exact St. rewrite HN. toR. ring.
      * destruct (C _ _ I) as (x0 & I0 & E1 & E2 & E3 & E4 & E5 & E6). exists x0. split; [right; exact I0|].
        repeat (split; [assumption|]). intros t0 Ht0. apply E6. unfold ls1. rewrite find_set_other; [exact Ht0|exact S2|].
        intros <-. apply N1. apply in_map_iff. exists (L, x0). split; [reflexivity|exact I0].
    + intros L' H'. cbn [map fst In] in H'. rewrite D by tauto. unfold ls1. apply find_set_other; [exact S2|tauto].
  - obind H y Y. destruct y as [r2 ls2]. injection H as <- <-. cbn [fst snd] in *.
    destruct (IH ls r2 ls2 ND S2) as (A & B & C & D); [|exact Y|].
    { intros L' I'. apply P. right. exact I'. }
    split; [exact A|split; [cbn; congruence|split]].
    + intros L' x' [I|I].
      * injection I as <- <-. exists x. split; [left; reflexivity|]. repeat (split; [reflexivity|]). split; [rring|].
        intros t0 Ht0. exists t0. rewrite (D L N1). split; [exact Ht0|].
        replace (r_secondary x - r_secondary x) with 0 by (rring). apply evolved_refl. eapply (proj2 S2), Ht0.
      * destruct (C _ _ I) as (x0 & I0 & E). exists x0. split; [right; exact I0|exact E].
    + intros L' H'. cbn [map fst In] in H'. apply D. tauto.
Qed.

Lemma ev_ready rs ls rs' ls' : ev rs ls rs' ls' -> (forall L, In L (map fst rs) -> exists t, mfind sltb L ls = Some t) ->
  forall L, In L (map fst rs') -> exists t, mfind sltb L ls' = Some t.
Proof.
  intros (A & B & C & D) P L I. apply in_map_iff in I. destruct I as [[L' x'] [E I]]. cbn in E. subst L'.
  destruct (C _ _ I) as (x & I0 & _ & _ & _ & _ & _ & Q). destruct (P L) as [t Ht]; [apply in_map_iff; exists (L, x); auto|].
  destruct (Q t Ht) as (t' & Ht' & _). exists t'. exact Ht'.
Qed.

Section Step.
Variable lf debug : bool.
Variable xl : @xlib RNum.
Variable c : @config RNum.
Hypothesis WF : well_formed xl.

Lemma exciteAll_spec term j s2 element thr : forall em k fc rs ls fc' rs' ls',
  NoDup (map fst rs) -> sorted2 ls -> (forall L, In L (map fst rs) -> exists t, mfind sltb L ls = Some t) ->
  exciteAll xl term j s2 element thr k em fc rs ls = Ok (fc', rs', ls') -> ev rs ls rs' ls'.
Proof.
  induction em as [|[[E emr] name] r IH]; intros k fc rs ls fc' rs' ls' ND S2 P H; cbn [exciteAll] in H.
  { injection H as <- <- <-. apply ev_refl, S2. }
  match type of H with (if ?b then _ else _) = _ => destruct b end; [eapply IH; eassumption|].
  obind H fl FL. obind H y Y. destruct y as [rs1 ls1]. cbn [fst snd] in *.
  assert (EV : ev rs ls rs1 ls1) by (eapply excite_spec; [apply has_space_mid|eassumption..]).
  eapply ev_trans; [exact EV|]. assert (EV' := EV). destruct EV' as (A & B & C & D).
  eapply IH; [rewrite B; exact ND|exact A|eapply ev_ready; eassumption|exact H].
Qed.
Lemma secondaryLoop_spec env i s mu1 mf element thr : forall slabs j fc rs ls fc' rs' ls',
  NoDup (map fst rs) -> sorted2 ls -> (forall L, In L (map fst rs) -> exists t, mfind sltb L ls = Some t) ->
  secondaryLoop debug xl c env i s mu1 mf element thr j slabs fc rs ls = Ok (fc', rs', ls') -> ev rs ls rs' ls'.
Proof.
  induction slabs as [|s2 r IH]; intros j fc rs ls fc' rs' ls' ND S2 P H; cbn [secondaryLoop] in H.
  { injection H as <- <- <-. apply ev_refl, S2. }
  match type of H with (if ?b then _ else _) = _ => destruct b end; [eapply IH; eassumption|].
  obind H y Y. destruct y as [[fc1 rs1] ls1].
  assert (EV : ev rs ls rs1 ls1) by (eapply exciteAll_spec; eassumption).
  eapply ev_trans; [exact EV|]. assert (EV' := EV). destruct EV' as (A & B & C & D).
  eapply IH; [rewrite B; exact ND|exact A|eapply ev_ready; eassumption|exact H].
Qed.

(** ** Escape peaks of one line *)
Definition peak_step (L : string) (x : @rline RNum) (ls ls' : lns) (e : string * tbl) : Prop :=
  exists u r, mfind sltb "rate" (snd e) = Some r /\ mfind sltb (L ++ " " ++ fst e) ls' = Some u /\
    field u "ratio" = r /\
    field u "rate" = field (@lineOf RNum ls (L ++ " " ++ fst e)) "rate" + r * r_rate x /\
    field u "primary" = field (@lineOf RNum ls (L ++ " " ++ fst e)) "primary" + r * r_primary x /\
    field u "secondary" = field (@lineOf RNum ls (L ++ " " ++ fst e)) "secondary" + r * r_secondary x /\
    field u "energy" = (match mfind sltb (L ++ " " ++ fst e) ls with Some t => field t "energy" | None => field (snd e) "energy" end).

Lemma addEscape_spec L x ls e ls' r : sorted2 ls -> @addEscape RNum L x ls e = Ok (ls', r) ->
  sorted2 ls' /\ r = peak_rate e /\ peak_step L x ls ls' e /\ forall n, n <> L ++ " " ++ fst e -> mfind sltb n ls' = mfind sltb n ls.
Proof.
  intros S2 H. unfold addEscape in H. set (name := L ++ " " ++ fst e) in *.
  obind H t T. toR. destruct (mfind sltb "rate" (snd e)) as [r0|] eqn:R; [|discriminate]. injection H as <- <-.
  assert (St : msorted sltb t /\ (forall f, f <> "energy" -> field t f = field (@lineOf RNum ls name) f) /\
     field t "energy" = (match mfind sltb name ls with Some t => field t "energy" | None => field (snd e) "energy" end)).
  { unfold lineOf. toR. destruct (mfind sltb name ls) as [u|] eqn:U.
    - injection T as <-. split; [eapply (proj2 S2), U|split; reflexivity].
    - destruct (mfind sltb "energy" (snd e)) as [E|] eqn:EE; [|discriminate]. injection T as <-.
      split; [unfold msorted; cbn; repeat constructor|]. split.
      + intros f Hf. unfold field. cbn [mfind]. repeat match goal with |- context [sltb ?a f] => destruct (sltb a f) eqn:?; [|destruct (sltb f a) eqn:?; [reflexivity|]]; try reflexivity end.
        exfalso. apply Hf. symmetry. apply (st_total (StrictTotal := sltb_total)); assumption.
      + unfold field. rewrite EE. reflexivity. }
  destruct St as (St & Sf & Se).
  set (t1 := addField t "rate" _). assert (S1 : msorted sltb t1) by (apply addField_sorted, St).
  set (t2 := mset sltb "ratio" r0 t1). assert (S2' : msorted sltb t2) by (apply smset_sorted, S1).
  set (t3 := addField t2 "primary" _). assert (S3 : msorted sltb t3) by (apply addField_sorted, S2').
  set (t4 := addField t3 "secondary" _). assert (S4 : msorted sltb t4) by (apply addField_sorted, S3).
  split; [apply sorted2_set; assumption|]. split; [unfold peak_rate, field; rewrite R; reflexivity|]. split.
  - exists t4, r0. split; [exact R|]. split; [apply find_set_same|].
    assert (Q : forall f, field t4 f = (if String.eqb "ratio" f then r0 else field t f + (if String.eqb "rate" f then r0 * r_rate x else 0))
       + (if String.eqb "primary" f then r0 * r_primary x else 0) + (if String.eqb "secondary" f then r0 * r_secondary x else 0)).
    { intros f. unfold t4. rewrite field_addField by exact S3. unfold t3. rewrite field_addField by exact S2'. unfold t2. rewrite field_mset by exact S1.
      unfold t1. rewrite field_addField by exact St. rnorm. reflexivity. }
    fold name. rewrite !Q. cbn [String.eqb Ascii.eqb Bool.eqb]. rewrite !Sf by discriminate. rewrite Se. repeat split; try ring.
  - intros n Hn. apply find_set_other; [exact S2|congruence].
Qed.

Lemma addEscapes_spec L x : forall l ls tot ls' tot', NoDup (map fst l) -> sorted2 ls -> @addEscapes RNum L x l ls tot = Ok (ls', tot') ->
  sorted2 ls' /\ tot' = tot + Rsum (map peak_rate l) /\ Forall (peak_step L x ls ls') l /\
  forall n, (forall e, In e (map fst l) -> n <> L ++ " " ++ e) -> mfind sltb n ls' = mfind sltb n ls.
Proof.
  induction l as [|e l IH]; intros ls tot ls' tot' ND S2 H; cbn [addEscapes] in H.
  { injection H as <- <-. cbn. repeat split; try apply S2; try constructor. toR. ring. }
  cbn [map] in ND. apply NoDup_cons_iff in ND. destruct ND as [N1 ND]. obind H y Y. destruct y as [ls1 r]. cbn [fst snd] in H.
  destruct (@addEscape_spec _ _ _ _ _ _ S2 Y) as (A & B & C & D).
  destruct (IH _ _ _ _ ND A H) as (A' & B' & C' & D').
  split; [exact A'|split; [rewrite B', B; cbn [map Rsum]; rnorm; rring|split]].
  - constructor.
    + destruct C as (u & r0 & U). exists u, r0. rewrite D'; [exact U|]. intros e' I E. apply str_app_inj_l in E. cbn in E. injection E as E. subst e'. apply N1. exact I.
    + rewrite Forall_forall in C' |- *. intros e' I. specialize (C' e' I). destruct C' as (u & r0 & U). exists u, r0.
      assert (NE : L ++ " " ++ fst e' <> L ++ " " ++ fst e).
      { intros E. apply str_app_inj_l in E. cbn in E. injection E as E. apply N1. exact (eq_ind _ (fun z => In z (map fst l)) (in_map fst _ _ I) _ E). }
      unfold lineOf in *. toR. rewrite (D _ NE) in U. exact U.
  - intros n Hn. rewrite D' by (intros e' I; apply Hn; right; exact I). apply D. apply Hn. left. reflexivity.
Qed.

Lemma finishLine_spec element mf ls es L x ls' es' t : sorted2 ls -> esc_ok xl c es -> one_word L -> L <> "" -> mfind sltb L ls = Some t ->
  finishLine lf xl element mf ls es (L, x) = Ok (ls', es') ->
  sorted2 ls' /\ esc_ok xl c es' /\ exists esc, escape_peaks xl (c_detector c) (r_energy x) = Ok esc /\ NoDup (map fst esc) /\
   (exists t', mfind sltb L ls' = Some t' /\
     field t' "rate" = field t "rate" + (1 - Rsum (map peak_rate esc)) * r_rate x /\
     field t' "primary" = field t "primary" + r_primary x /\
     field t' "secondary" = field t "secondary" + r_secondary x /\
     field t' "massFraction" = mf /\
     contributions t' = contributions t /\
     (forall f, f <> "rate" -> f <> "primary" -> f <> "secondary" -> f <> "massFraction" -> field t' f = field t f)) /\
   Forall (peak_step L x ls ls') esc /\
   (forall n, n <> L -> (forall e, In e (map fst esc) -> n <> L ++ " " ++ e) -> mfind sltb n ls' = mfind sltb n ls).
Proof.
  intros S2 EO OW NE HL H. unfold finishLine in H. obind H y Y. destruct y as [[ls1 tot] es1].
  assert (Q : exists esc, escape_peaks xl (c_detector c) (r_energy x) = Ok esc /\ NoDup (map fst esc) /\ esc_ok xl c es1 /\
    sorted2 ls1 /\ tot = Rsum (map peak_rate esc) /\ Forall (peak_step L x ls ls1) esc /\
    forall n, (forall e, In e (map fst esc) -> n <> L ++ " " ++ e) -> mfind sltb n ls1 = mfind sltb n ls).
  { rewrite escape_peaks_eq. rewrite <- (detectorDefined_det (proj1 EO)).
    destruct (detectorDefined (fst es)).
    - obind Y dv DV. destruct dv as [d v]. obind Y z ZZ. destruct z as [ls0 tot0]. cbn [fst snd] in *. injection Y as <- <- <-.
      assert (NEL : element ++ L <> "") by (destruct element; [exact NE|discriminate]).
      destruct (@askEscape_ok lf xl c _ _ _ _ _ EO NEL DV) as (CE & EO1 & EO2).
      pose proof (@computeEscape_sorted xl c WF _ _ CE) as SV. pose proof (smsorted_NoDup SV) as ND.
      destruct (@addEscapes_spec _ _ _ _ _ _ _ ND S2 ZZ) as (A & B & C & D).
      exists v. split; [exact CE|split; [exact ND|split; [destruct v; assumption|split; [exact A|split; [|split; assumption]]]]].
      rewrite B. rnorm. toR. ring.
    - injection Y as <- <- <-. exists []. split; [reflexivity|split; [constructor|split; [exact EO|split; [exact S2|split; [reflexivity|split; [constructor|reflexivity]]]]]]. }
  destruct Q as (esc & EP & ND & EO1 & S1 & TOT & PS & FR).
  assert (HL1 : mfind sltb L ls1 = Some t).
  { rewrite FR; [exact HL|]. intros e _ E. pose proof (has_space_mid L e) as HS. rewrite <- E in HS. unfold one_word in OW. congruence. }
  assert (LO : @lineOf RNum ls1 L = t) by (unfold lineOf; toR; rewrite HL1; reflexivity). rewrite LO in H. clear LO.
  assert (St : msorted sltb t) by (eapply (proj2 S2), HL).
  set (t1 := addField t "rate" _) in H. assert (St1 : msorted sltb t1) by (apply addField_sorted, St).
  set (t2 := addField t1 "primary" _) in H. assert (St2 : msorted sltb t2) by (apply addField_sorted, St1).
  set (t3 := addField t2 "secondary" _) in H. assert (St3 : msorted sltb t3) by (apply addField_sorted, St2).
  set (t4 := mset sltb "massFraction" mf t3) in H. assert (St4 : msorted sltb t4) by (apply smset_sorted, St3).
  assert (V : forall f, field t4 f = if String.eqb "massFraction" f then mf else field t f
     + (if String.eqb "rate" f then (1 - tot) * r_rate x else 0) + (if String.eqb "primary" f then r_primary x else 0) + (if String.eqb "secondary" f then r_secondary x else 0)).
  { intros f. unfold t4. rewrite field_mset by exact St3. unfold t3. rewrite field_addField by exact St2. unfold t2. rewrite field_addField by exact St1.
    unfold t1. rewrite field_addField by exact St. rnorm. reflexivity. }
  assert (W : contributions t4 = contributions t).
  { unfold t4. rewrite contributions_mset by exact St3. unfold t3. rewrite contributions_addField by exact St2. unfold t2. rewrite contributions_addField by exact St1.
    unfold t1. rewrite contributions_addField by exact St. cbn. toR. ring. }
  clearbody t4. injection H as <- <-.
  split; [apply sorted2_set; assumption|]. split; [exact EO1|]. exists esc. split; [exact EP|split; [exact ND|]]. split.
  - exists t4. split; [apply find_set_same|]. rewrite !V. cbn [String.eqb Ascii.eqb Bool.eqb]. rewrite TOT.
    repeat (split; [try ring; try assumption; try reflexivity|]). intros f F1 F2 F3 F4. rewrite V.
    destruct (String.eqb_spec "massFraction" f); [congruence|]. destruct (String.eqb_spec "rate" f); [congruence|].
    destruct (String.eqb_spec "primary" f); [congruence|]. destruct (String.eqb_spec "secondary" f); [congruence|]. ring.
  - split.
    + rewrite Forall_forall in PS |- *. intros e I. destruct (PS e I) as (u & r & R & U & K). exists u, r. split; [exact R|]. split; [|exact K].
      rewrite find_set_other; [exact U|exact S1|]. intros E. pose proof (has_space_mid L (fst e)) as HS. rewrite <- E in HS. unfold one_word in OW. congruence.
    + intros n N1 N2. rewrite find_set_other by (try exact S1; congruence). apply FR, N2.
Qed.
End Step.
