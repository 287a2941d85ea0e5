(** The escape peaks of Elements::getEscape. *)
From Coq Require Import Ascii String List ZArith Reals Bool Arith Lia Lra.
From Verif Require Import Base.Num Base.Res Base.RSum Base.SMap Base.Str Base.ListLemmas Model.Material Model.Shell Model.Element
  Model.Elements Model.Layer Model.XRF Model.Multilayer Model.XRFLibrary Spec.MaterialSpec Spec.ShellSpec Spec.ElementSpec Spec.MultilayerSpec Spec.LibrarySpec Spec.EscapeSpec
  Proofs.ShellProofs Proofs.ElementProofs Proofs.ElementProofs5 Proofs.ElementProofs7 Proofs.LayerProofs Proofs.MultilayerProofs Proofs.MultilayerProofs2 Proofs.MultilayerProofs7 Proofs.LibraryProofs.
Import ListNotations.
Set Implicit Arguments.
Local Open Scope string_scope.
Local Open Scope R_scope.
Local Existing Instance RNum.
Local Notation tab := (list (string * R)).
Local Notation linesR := (list (string * list (string * R))).
Local Ltac toR := change (@num RNum) with R in *.

Lemma of_opt_Some {A} (o : option A) x : of_opt o = Ok x -> o = Some x.
Proof. destruct o; cbn; intros H; [apply Ok_inj in H; subst; reflexivity|discriminate]. Qed.

(** ** Names *)
Definition peak_name (name line : string) : string := name ++ "_" ++ line ++ "esc".
Lemma app_esc_inj (a b : string) : (a ++ "esc" = b ++ "esc")%string -> a = b.
Proof. revert b. induction a as [|x a IH]; intros [|y b] H; cbn in H; try reflexivity.
  - injection H as <- H. destruct b as [|? [|? [|? [|]]]]; cbn in H; discriminate.
  - injection H as -> H. destruct a as [|? [|? [|? [|]]]]; cbn in H; discriminate.
  - injection H as <- H. f_equal. apply IH, H.
Qed.
Lemma under_inj (a : string) : forall a' b b' : string, plain_name a -> plain_name a' -> (a ++ "_" ++ b = a' ++ "_" ++ b')%string -> a = a' /\ b = b'.
Proof.
  unfold plain_name. induction a as [|x a IH]; intros [|y a'] b b' H H' E; cbn in *.
  - injection E as ->. auto.
  - injection E as <- E. exfalso. apply (H' "" a'). reflexivity.
  - injection E as -> E. exfalso. apply (H "" a). reflexivity.
  - injection E as <- E. destruct (IH a' b b') as [-> ->]; auto.
    + intros p q ->. apply (H (String x p) q). reflexivity.
    + intros p q ->. apply (H' (String x p) q). reflexivity.
Qed.
Lemma peak_name_inj a a' b b' : plain_name a -> plain_name a' -> peak_name a b = peak_name a' b' -> a = a' /\ b = b'.
Proof. intros H H' E. destruct (under_inj _ _ H H' E) as [-> E']. split; [reflexivity|apply app_esc_inj, E']. Qed.

(** ** The numbers *)
Lemma sinAlpha_R a : @sinAlpha RNum a = incidence a.
Proof.
  unfold sinAlpha, incidence. change (@nlit RNum 90 0) with (Rlit 90 0). replace (Rlit 90 0) with 90 by (unfold Rlit; simpl; lra).
  change (@neqb RNum a 90) with (Reqb a 90). destruct (Reqb_spec a 90) as [Q|Q]; destruct (Req_EM_T a 90) as [Q'|Q']; try contradiction; [reflexivity|].
  cbv zeta. change (@nsin RNum) with sin. rnorm. change (@nlit RNum) with Rlit.
  replace (Rlit 3141592653589793 (-15) / Rlit 180 0) with (3141592653589793 / 1000000000000000 / 180) by (unfold Rlit; simpl; lra).
  set (s := sin _). destruct (Rltb_spec s 0); [rewrite Rabs_left by (toR; lra); reflexivity|rewrite Rabs_right by (toR; lra); reflexivity].
Qed.
Lemma escapeRate_R s muF muI r : @escapeRate RNum s muF muI r = escape_per_photon s muF muI r.
Proof.
  unfold escapeRate, escape_per_photon, escape_fraction. cbv zeta. change (@nlog RNum) with ln. rnorm. change (@nlit RNum) with Rlit.
  replace (Rlit 5 (-1)) with (1 / 2) by (unfold Rlit; simpl; lra).
  replace (s * (muF / muI)) with (s * muF / muI) by (unfold Rdiv; ring).
  set (q := _ * ln _). clearbody q. toR. unfold Rdiv. rewrite (Rinv_mult 2 muI). set (im := / muI). clearbody im. toR. rnorm. match goal with |- ?a = ?b => change (@eq R a b) end. ring.
Qed.

(** ** The loops *)
Section Loops.
Variables (tostr : R -> string) (depth fuel : nat) (es : @elements RNum) (k : @escape_key RNum) (E muI : R).
Local Notation sine := (incidence (k_alphaIn k)).
Local Notation eff := (stopped (k_thickness k) sine muI).
Local Notation tmu := (total_coefficient tostr depth fuel es (k_composition k)).
Definition peak_of (t u : tab) : Prop :=
  exists rate eF muF, mfind sltb "rate" t = Some rate /\ mfind sltb "energy" t = Some eF /\ tmu eF muF /\
    let p := escape_per_photon sine muF muI rate in k_thrI k < p /\ u = [("energy", E - eF); ("rate", p / eff)].
Lemma tmu_fun a x y : tmu a x -> tmu a y -> x = y.
Proof. intros (t & H & <-) (t' & H' & <-). rewrite H in H'. apply Ok_inj in H'. subst t'. reflexivity. Qed.
Lemma peak_fun t u u' : peak_of t u -> peak_of t u' -> u = u'.
Proof.
  intros (r & eF & m & A & B & C & D & ->) (r' & eF' & m' & A' & B' & C' & D' & ->).
  rewrite A in A'. rewrite B in B'. injection A' as <-. injection B' as <-. rewrite (tmu_fun C C'). reflexivity.
Qed.
(** the table describes exactly the peaks of the lines in D *)
Definition covers (D : string -> string -> tab -> Prop) (out : linesR) : Prop :=
  msorted sltb out /\ forall key u, mfind sltb key out = Some u <-> exists name line t, D name line t /\ key = peak_name name line /\ peak_of t u.
Definition plus (D : string -> string -> tab -> Prop) name line t : string -> string -> tab -> Prop :=
  fun n l u => D n l u \/ (n = name /\ l = line /\ u = t).
Variable plain : forall name w, In (name, w) (k_composition k) -> plain_name name.

Lemma covers_ext (D D' : string -> string -> tab -> Prop) out : (forall n l t, D n l t <-> D' n l t) -> covers D out -> covers D' out.
Proof.
  intros EQ [SO C]. split; [exact SO|]. intros key u. rewrite C. split; intros (n & l & t & A & B); exists n, l, t; (split; [apply EQ, A|exact B]).
Qed.
Lemma covers_skip D name line t out : covers D out -> (forall u, ~ peak_of t u) -> covers (plus D name line t) out.
Proof.
  intros [SO C] NP. split; [exact SO|]. intros key u. rewrite C. split; intros (n & l & v & A & B & P).
  - exists n, l, v. split; [left; exact A|]. split; assumption.
  - destruct A as [A|(-> & -> & ->)]; [exists n, l, v; repeat split; assumption|destruct (NP u P)].
Qed.
Lemma covers_add D name line t q out : covers D out -> plain_name name -> (forall n l v, D n l v -> plain_name n) -> (forall v, ~ D name line v) -> peak_of t q ->
  mfind sltb (peak_name name line) out = None /\ covers (plus D name line t) (mset sltb (peak_name name line) q out).
Proof.
  intros [SO C] PN PD ND PQ.
  assert (FN : mfind sltb (peak_name name line) out = None).
  { destruct (mfind sltb (peak_name name line) out) as [u|] eqn:F; [|reflexivity]. apply C in F. destruct F as (n & l & v & A & B & P).
    destruct (peak_name_inj line l PN (PD _ _ _ A) B) as [-> ->]. destruct (ND v A). }
  split; [exact FN|]. split; [apply smset_sorted, SO|]. intros key u.
  destruct (string_dec key (peak_name name line)) as [->|NE].
  - rewrite smfind_mset_same. split.
    + intros [= <-]. exists name, line, t. split; [right; auto|]. split; [reflexivity|exact PQ].
    + intros (n & l & v & [A|(-> & -> & ->)] & B & P).
      * destruct (peak_name_inj line l PN (PD _ _ _ A) B) as [-> ->]. destruct (ND v A).
      * f_equal. exact (peak_fun PQ P).
  - rewrite smfind_mset_other by congruence. rewrite C. split.
    + intros (n & l & v & A & B & P). exists n, l, v. split; [left; exact A|]. split; assumption.
    + intros (n & l & v & [A|(-> & -> & ->)] & B & P); [|contradiction]. exists n, l, v. repeat split; assumption.
Qed.

Lemma escapeLines_covers name : plain_name name -> forall l D out out', covers D out -> NoDup (map fst l) ->
  (forall n ln v, D n ln v -> plain_name n) -> (forall line v, In line (map fst l) -> ~ D name line v) ->
  escapeLines tostr depth fuel es k E sine muI eff name l out = Ok out' ->
  covers (fun n ln t => D n ln t \/ (n = name /\ In (ln, t) l)) out'.
Proof.
  intros PN. induction l as [|[line t] l IH]; intros D out out' C ND PD NI H; cbn [escapeLines] in H.
  - apply Ok_inj in H. subst out'. revert C. apply covers_ext. intros n ln t. split; [auto|]. intros [A|[_ []]]; exact A.
  - obind H r0 H0. obind H eF H1. obind H muF H2.
    assert (T : tmu eF muF).
    { unfold totalMu in H2. obind H2 tb H3. apply Ok_inj in H2. exists tb. split; [exact H3|exact H2]. }
    assert (PK : forall u, peak_of t u <-> (k_thrI k < escape_per_photon sine muF muI r0 /\ u = [("energy", E - eF); ("rate", escape_per_photon sine muF muI r0 / eff)])).
    { intros u. split.
      - intros (r & eF' & m & A & B & M & P). cbv zeta in P. assert (r = r0) by (pose proof (eq_trans (eq_sym A) (of_opt_Some _ H0)) as Q; injection Q as Q; exact Q). assert (eF' = eF) by (pose proof (eq_trans (eq_sym B) (of_opt_Some _ H1)) as Q; injection Q as Q; exact Q). subst r eF'.
        rewrite (tmu_fun T M). exact P.
      - intros [A B]. exists r0, eF, muF. apply of_opt_Some in H0, H1. repeat split; assumption. }
    inversion ND as [|? ? NN ND']. subst.
    match type of H with escapeLines _ _ _ _ _ _ _ _ _ _ _ ?o = _ => set (out1 := o) in H end.
    assert (C1 : covers (plus D name line t) out1).
    { unfold out1. cbv zeta. rewrite escapeRate_R. change (@nltb RNum) with Rltb. destruct (Rltb_spec (k_thrI k) (escape_per_photon sine muF muI r0)) as [GT|LE].
      - match goal with |- context [mset sltb "rate" ?x _] => set (q := x) end.
        assert (Q : q = escape_per_photon sine muF muI r0 / eff).
        { unfold q, stopped. change (@n0 RNum) with 0. destruct (Rltb_spec 0 (k_thickness k)); destruct (Rlt_dec 0 (k_thickness k)); try contradiction; [reflexivity|]. unfold Rdiv. rewrite Rinv_1, Rmult_1_r. reflexivity. }
        rewrite Q. clear q Q.
        assert (P1 : peak_of t [("energy", E - eF); ("rate", escape_per_photon sine muF muI r0 / eff)]) by (apply PK; auto).
        destruct (@covers_add D name line t _ out C PN PD (fun v => NI line v (or_introl eq_refl)) P1) as [FN CA].
        unfold peak_name in FN, CA. toR. rewrite FN. exact CA.
      - apply covers_skip; [exact C|]. intros u P. apply PK in P. destruct P; contradiction. }
    assert (G := IH (plus D name line t) out1 out' C1 ND').
    eapply covers_ext; [|apply G].
    + intros n ln u. unfold plus. cbn [In]. split.
      * intros [[A|(-> & -> & ->)]|[-> A]]; [left; exact A|right; split; [reflexivity|left; reflexivity]|right; split; [reflexivity|right; exact A]].
      * intros [A|[-> [A|A]]]; [left; left; exact A|injection A as <- <-; left; right; auto|right; auto].
    + intros n ln v [A|(-> & _)]; [exact (PD _ _ _ A)|exact PN].
    + intros ln v I [A|(_ & -> & _)]; [exact (NI ln v (or_intror I) A)|exact (NN I)].
    + exact H.
Qed.
Definition row (name line : string) (t : tab) (comp : tab) : Prop :=
  exists w rows, In (name, w) comp /\ getExcitationFactors es name E w = Ok rows /\ In (line, t) rows.
Lemma loop_covers : (forall name w rows, In (name, w) (k_composition k) -> getExcitationFactors es name E w = Ok rows -> msorted sltb rows) ->
  forall comp (D : string -> string -> tab -> Prop) out out', incl comp (k_composition k) -> NoDup (map fst comp) -> covers D out ->
  (forall n ln v, D n ln v -> plain_name n /\ ~ In n (map fst comp)) ->
  rfold (fun out nw => rbind (getExcitationFactors es (fst nw) E (snd nw)) (fun l => escapeLines tostr depth fuel es k E sine muI eff (fst nw) l out)) comp out = Ok out' ->
  covers (fun n ln t => D n ln t \/ row n ln t comp) out'.
Proof.
  intros MAPS. induction comp as [|[name w] comp IH]; intros D out out' IN ND C PD H; cbn [rfold] in H.
  - apply Ok_inj in H. subst out'. revert C. apply covers_ext. intros n ln t. split; [auto|]. intros [A|(w & rows & [] & _)]; exact A.
  - obind H out1 H1. obind H1 rows HR. cbn [fst snd] in *.
    assert (IW : In (name, w) (k_composition k)) by (apply IN; left; reflexivity).
    inversion ND as [|? ? NN ND']. subst. assert (PN : plain_name name) by exact (@plain name w IW).
    assert (C1 : covers (fun n ln t => D n ln t \/ (n = name /\ In (ln, t) rows)) out1).
    { eapply escapeLines_covers; [exact PN|exact C|apply smsorted_NoDup, (MAPS _ _ _ IW HR)|intros n ln v A; apply (PD _ _ _ A)| |exact H1].
      intros ln v _ A. apply (PD _ _ _ A). left. reflexivity. }
    eapply covers_ext; [|eapply IH; [intros x I; apply IN; right; exact I|exact ND'|exact C1| |exact H]].
    + intros n ln t. cbn beta. split.
      * intros [[A|[-> A]]|(w' & r' & A & B)]; [left; exact A|right; exists w, rows; split; [left; reflexivity|auto]|right; exists w', r'; split; [right; exact A|exact B]].
      * intros [A|(w' & r' & [A|A] & B & I)]; [left; left; exact A| |right; exists w', r'; auto].
        injection A as <- <-. left. right. split; [reflexivity|]. rewrite HR in B. apply Ok_inj in B. subst r'. exact I.
    + intros n ln v [A|[-> _]]; [destruct (PD _ _ _ A) as [P Q]; split; [exact P|intros I; apply Q; right; exact I]|split; [exact PN|exact NN]].
Qed.
End Loops.

Lemma factors_of_plain (es : @elements RNum) ele (E w : R) l : (forall name e, Elements.getElement es name = Ok e -> plain_element e) ->
  getExcitationFactors es ele E w = Ok l ->
  msorted sltb l /\ exists e photo, Elements.getElement es ele = Ok e /\ getPhotoelectricExcitationFactors e E w = Ok l /\
    (exists mu, getMassAttenuationCoefficients e E = Ok mu /\ photo = field mu "photoelectric") /\
    forall line t, In (line, t) l -> exists r, 0 < r /\ t = [("energy", transition_energy e line); ("factor", r * w); ("rate", r * w * photo)].
Proof.
  intros PE. unfold getExcitationFactors. intros H. obind H e HE. obind H v HV. unfold getPhotoelectricExcitationFactors_vec in HV.
  cbn [rmapM] in HV. obind HV l0 H0. cbn [rbind] in HV. apply Ok_inj in HV. subst v. unfold vget in H. cbn in H. apply Ok_inj in H. subst l0.
  destruct (factors_rows _ _ (PE _ _ HE) H0) as (photo & PH & SO & RW). split; [exact SO|]. exists e, photo. split; [reflexivity|]. split; [exact H0|].
  split; [exact PH|]. intros line t I. destruct (RW line t I) as [_ R]. exact R.
Qed.

(** ** getEscape *)
Section Peaks.
Variables (tostr : R -> string) (depth fuel : nat) (es : @elements RNum).
Local Notation getEscape := (@Elements.getEscape RNum tostr depth fuel).
Local Notation computeEscape := (@Elements.computeEscape RNum tostr depth fuel).
(** the cache is not consulted *)
Lemma getEscape_off k E : es_escFlag es = Some 0%Z \/ (es_escFlag es <> None /\ es_esc es = []) -> getEscape es k E = computeEscape es k E.
Proof.
  intros H. unfold Elements.getEscape.
  replace (isEscapeCacheCompatible es k) with (Ok false : res bool); [reflexivity|].
  unfold isEscapeCacheCompatible. destruct H as [->|[F ->]]; [reflexivity|]. destruct (es_escFlag es) as [f|]; [|contradiction]. cbn. destruct (Z.eqb f 0); reflexivity.
Qed.
Lemma map_NoDup {V} (m : list (string * V)) : is_map m -> NoDup (map fst m).
Proof.
  unfold is_map. induction 1 as [|a l SS IH FA]; constructor; [|exact IH]. intros I. rewrite Forall_forall in FA. specialize (FA a I).
  change (sltb a a = true) in FA. rewrite (st_irrefl (StrictTotal := sltb_total)) in FA. discriminate.
Qed.
Theorem escape_peaks_exact (k : @escape_key RNum) E peaks :
  (forall name e, Elements.getElement es name = Ok e -> plain_element e) ->
  es_escFlag es = Some 0%Z \/ (es_escFlag es <> None /\ es_esc es = []) ->
  is_map (k_composition k) -> (forall name w, In (name, w) (k_composition k) -> plain_name name) ->
  getEscape es k E = Ok peaks ->
  is_map peaks /\ (forall key t, In (key, t) peaks -> exists element line, key = (element ++ "_" ++ line ++ "esc")%string /\ escape_peak tostr depth fuel es k E element line t) /\
  forall element line t, plain_name element -> mfind sltb (element ++ "_" ++ line ++ "esc") peaks = Some t <-> escape_peak tostr depth fuel es k E element line t.
Proof.
  intros PE OFF MC PN H. rewrite (getEscape_off k E OFF) in H. unfold Elements.computeEscape in H. cbv zeta in H. obind H muI HM.
  rewrite sinAlpha_R in H.
  assert (TI : total_coefficient tostr depth fuel es (k_composition k) E muI).
  { unfold totalMu in HM. obind HM tb H3. apply Ok_inj in HM. exists tb. split; [exact H3|exact HM]. }
  match type of H with rfold (fun out nw => rbind _ (fun l => escapeLines _ _ _ _ _ _ _ _ ?x _ _ _)) _ _ = _ =>
    replace x with (stopped (k_thickness k) (incidence (k_alphaIn k)) muI) in H end.
  2:{ unfold stopped. change (@nltb RNum) with Rltb. change (@n0 RNum) with 0. destruct (Rltb_spec 0 (k_thickness k)); destruct (Rlt_dec 0 (k_thickness k)); try contradiction; [|reflexivity].
      change (@nexp RNum) with exp. rnorm. f_equal. f_equal. unfold Rdiv. toR. match goal with |- ?a = ?b => change (@eq R a b) end. ring. }
  assert (MAPS : forall name w rows, In (name, w) (k_composition k) -> getExcitationFactors es name E w = Ok rows -> msorted sltb rows).
  { intros name w rows _ HR. destruct (@factors_of_plain es _ _ _ _ PE HR) as [A _]. exact A. }
  destruct (@loop_covers tostr depth fuel es k E muI PN MAPS (k_composition k) (fun _ _ _ => False) [] peaks (fun x I => I) (map_NoDup MC)) as [SO C].
  { split; [apply smsorted_nil|]. intros key u. split; [discriminate|intros (? & ? & ? & [] & _)]. }
  { intros ? ? ? []. }
  { exact H. }
  assert (ROW : forall name line t, row es E name line t (k_composition k) -> forall u, peak_of tostr depth fuel es k E muI t u <->
     exists rate eF muF, mfind sltb "rate" t = Some rate /\ mfind sltb "energy" t = Some eF /\ total_coefficient tostr depth fuel es (k_composition k) eF muF /\
      (let p := escape_per_photon (incidence (k_alphaIn k)) muF muI rate in k_thrI k < p /\ u = [("energy", E - eF); ("rate", p / stopped (k_thickness k) (incidence (k_alphaIn k)) muI)])) by (intros; reflexivity).
  assert (FWD : forall name line t u, row es E name line t (k_composition k) -> peak_of tostr depth fuel es k E muI t u -> escape_peak tostr depth fuel es k E name line u).
  { intros name line t u (w & rows & A & B & D) (rate & eF & muF & F1 & F2 & F3 & F4). exists rate, eF, muI, muF. split; [exists w, rows, t; repeat split; assumption|]. split; [exact TI|]. split; [exact F3|exact F4]. }
  split; [exact SO|]. split.
  - intros key t I. apply (smfind_In key t SO) in I. apply C in I. destruct I as (n & l & v & [[]|A] & -> & P). exists n, l. split; [reflexivity|exact (FWD _ _ _ _ A P)].
  - intros element line t PL. change (element ++ "_" ++ line ++ "esc")%string with (peak_name element line). rewrite C. split.
    + intros (n & l & v & [[]|A] & EQ & P). assert (PNn : plain_name n) by (destruct A as (w & rows & A & _); exact (PN _ _ A)).
      destruct (peak_name_inj line l PL PNn EQ) as [<- <-]. exact (FWD _ _ _ _ A P).
    + intros (rate & eF & muI' & muF & (w & rows & v & A & B & D & F1 & F2) & T1 & T2 & P).
      assert (muI' = muI). { destruct T1 as (x & X1 & <-). destruct TI as (y & Y1 & <-). rewrite X1 in Y1. apply Ok_inj in Y1. subst y. reflexivity. } subst muI'.
      exists element, line, v. split; [right; exists w, rows; auto|]. split; [reflexivity|]. exists rate, eF, muF. repeat split; try assumption; apply P.
Qed.
End Peaks.
