(** C54, C55: escape peaks of a detector material and their cache (class Elements). *)
From Coq Require Import Ascii String List ZArith Reals Bool Arith Lia Lra Permutation.
From Verif Require Import Base.Num Base.Res Base.RSum Base.SMap Base.Str Base.ListLemmas Model.Beam Model.Material Model.TransmissionTable
  Model.Math Model.Shell Model.Element Model.Formula Model.Elements Model.Layer Model.XRF Model.Multilayer Model.XRFLibrary Spec.ShellSpec Spec.ElementSpec
  Spec.MaterialSpec Spec.LayerSpec Spec.BeamSpec Spec.ElementsSpec Spec.FormulaSpec Spec.MultilayerSpec Spec.LibrarySpec Spec.EscapeSpec Proofs.BeamProofs Proofs.LayerProofs Proofs.ElementProofs Proofs.ElementsProofs Proofs.ElementsProofs4
  Proofs.ElementsProofs5 Proofs.MultilayerProofs Proofs.LibraryProofs Proofs.LibraryProofs2 Proofs.LibraryProofs3 Proofs.LibraryExample Proofs.EscapeProofs Proofs.EscapeProofs2 Proofs.EscapeProofs3
  Properties.MultilayerProps Properties.LibraryProps.
Import ListNotations.
Local Open Scope string_scope.
Local Open Scope R_scope.
Local Existing Instance RNum.
Local Ltac toR := change (@num RNum) with R in *.

(** ** C54 *)
(** Without remembered peaks: the peaks are those of the lines emitted by the material whose escape probability exceeds the
    threshold on the intensity, with the energy of the incident photon less that of the line. *)
Theorem C54_peaks tostr depth fuel (es : @elements RNum) (k : @escape_key RNum) E peaks :
  (forall name e, Elements.getElement es name = Ok e -> plain_element e) ->
  es_escFlag es = Some 0%Z \/ (es_escFlag es <> None /\ es_esc es = []) ->
  is_map (k_composition k) -> (forall name w, In (name, w) (k_composition k) -> plain_name name) ->
  Elements.getEscape tostr depth fuel es k E = Ok peaks ->
  is_map peaks /\
  (forall key t, In (key, t) peaks -> exists element line, key = element ++ "_" ++ line ++ "esc" /\ escape_peak tostr depth fuel es k E element line t) /\
  forall element line t, plain_name element ->
    (mfind sltb (element ++ "_" ++ line ++ "esc") peaks = Some t <-> escape_peak tostr depth fuel es k E element line t).
Proof. apply escape_peaks_exact. Qed.
(** at most half of what is emitted escapes; stronger absorption, less escape; the efficiency is a fraction *)
Theorem C54_probability s muF muI rate :
  0 < s -> 0 < muF -> 0 < muI -> 0 < rate ->
  0 < escape_per_photon s muF muI rate < rate / (2 * muI) /\
  (forall muF', muF < muF' -> escape_per_photon s muF' muI rate < escape_per_photon s muF muI rate) /\
  (forall t, 0 < stopped t s muI <= 1).
Proof.
  intros S F I R. split; [apply per_photon_bounds; assumption|]. split; [|intros t; apply stopped_bounds; assumption].
  intros muF' L. unfold escape_per_photon. apply Rmult_lt_compat_l; [apply Rdiv_lt_0_compat; lra|]. apply fraction_decreasing.
  - apply Rdiv_lt_0_compat; [apply Rmult_lt_0_compat|]; assumption.
  - unfold Rdiv. apply Rmult_lt_compat_r; [apply Rinv_0_lt_compat, I|]. apply Rmult_lt_compat_l; assumption.
Qed.
(** all the peaks together: at most half of the emission per absorbed photon *)
Theorem C54_total tostr depth fuel (es : @elements RNum) (k : @escape_key RNum) E muI peaks :
  (forall name e, Elements.getElement es name = Ok e -> plain_element e) ->
  es_escFlag es = Some 0%Z \/ (es_escFlag es <> None /\ es_esc es = []) ->
  is_map (k_composition k) -> (forall name w, In (name, w) (k_composition k) -> plain_name name) ->
  0 < incidence (k_alphaIn k) ->
  total_coefficient tostr depth fuel es (k_composition k) E muI ->
  (forall E' mu, total_coefficient tostr depth fuel es (k_composition k) E' mu -> 0 < mu) ->
  (forall r, In r (emitted es (k_composition k) E) -> 0 <= r) ->
  Elements.getEscape tostr depth fuel es k E = Ok peaks ->
  Rsum (map peak_rate peaks) <= Rsum (emitted es (k_composition k) E) / (2 * muI * stopped (k_thickness k) (incidence (k_alphaIn k)) muI).
Proof. apply escape_total_bound. Qed.
Print Assumptions C54_peaks.
Print Assumptions C54_probability.
Print Assumptions C54_total.

(** ** C55 *)
(** Whatever the library went through, from a clearing of the cache on (fillings, failed fillings, enabling, disabling) the
    answers are those of the same library with the cache disabled. *)
Theorem C55_transparent tostr depth fuel pre post (k : @escape_key RNum) E :
  forallb cache_call post = true ->
  let es0 := es_run tostr depth fuel false elements_empty pre in
  let es := es_run tostr depth fuel false es0 (XClear :: post) in
  es_escFlag es <> None ->
  Elements.getEscape tostr depth fuel es k E = Elements.getEscape tostr depth fuel (setEscapeCacheEnabled es0 0) k E.
Proof. apply escape_cache_transparent. Qed.
(** an entry is used only for exactly the question it was made for *)
Theorem C55_same_question (es : @elements RNum) k : isEscapeCacheCompatible es k = Ok true <->
  (exists f, es_escFlag es = Some f /\ f <> 0%Z) /\ es_esc es <> [] /\ es_escKey es = Some k.
Proof. apply compatible_iff. Qed.
Print Assumptions C55_transparent.
Print Assumptions C55_same_question.

(** *** The library of C53 *)
Local Opaque fe.
Definition C54_key : @escape_key RNum := mkKey [("Fe", 1)] 0 0 4%Z 90 0.
Section Example54.
Variables (tostr : R -> string) (lf : bool).
Local Notation sortf := (fun l : list (string * R) => l).
Local Notation es := (es_run tostr 1 1 lf elements_empty C53_history).
Lemma C54_mu_pos E' mu : total_coefficient tostr 1 1 es (k_composition C54_key) E' mu -> 0 < mu.
Proof.
  intros (t & H & <-). destruct (@mu_total tostr 1%nat 1%nat es (C53_plain tostr lf) (C53_complete tostr lf) [("Fe", 1)] E' 0%Z (C53_known tostr lf)) as (t' & H' & P).
  cbn [k_composition C54_key] in H. assert (t' = t) by exact (Ok_inj (eq_trans (eq_sym H') H)). subst t'. exact P.
Qed.
Lemma C54_name name w : In (name, w) (k_composition C54_key) -> plain_name name.
Proof.
  intros [Q|[]]. injection Q as <- _. intros a b H.
  destruct a as [|x [|y [|z a]]]; cbn in H; try discriminate H; injection H; intros; discriminate.
Qed.
Lemma C54_peak : exists peaks t, Elements.getEscape tostr 1 1 es C54_key 10 = Ok peaks /\ mfind sltb "Fe_KL3esc" peaks = Some t /\ 0 < field t "rate".
Proof.
  assert (FL : es_escFlag es <> None) by discriminate.
  destruct (@escape_total tostr 1%nat 1%nat sortf es (C53_plain tostr lf) (C53_complete tostr lf) C54_key 10 FL (C53_known tostr lf)) as [peaks HP].
  assert (MC : is_map (k_composition C54_key)) by (repeat constructor).
  destruct (C54_peaks _ _ _ _ _ _ _ (pl_elements _ (C53_plain tostr lf)) (or_introl eq_refl) MC C54_name HP) as (_ & _ & IFF).
  assert (HE : Elements.getElement es "Fe" = Ok fe_explicit) by (apply C53_elements; auto).
  destruct (@factors_total tostr 1%nat 1%nat sortf es (C53_complete tostr lf) "Fe" fe_explicit 10 1 HE) as [rows HR].
  destruct (factors_of _ _ _ _ (C53_plain tostr lf) _ _ _ HR) as (e' & HE' & PE & HF). rewrite HE in HE'. apply Ok_inj in HE'. subst e'.
  destruct (fe_KL3 10 _ rows ltac:(lra) Rlt_0_1 HF) as (t & HT & PF).
  destruct (factors_rows _ _ PE HF) as (photo & (m & HM & PH) & SO & RW).
  destruct (RW "KL3" t (mfind_any _ _ HT)) as (_ & r & R0 & TE).
  assert (P0 : 0 < photo). { destruct (fe_mu 10) as (m' & HM' & _ & B & _). assert (m' = m) by exact (Ok_inj (eq_trans (eq_sym HM') HM)). subst m'. rewrite PH, B. pose proof (fe_K_range 10). lra. }
  destruct (@mu_total tostr 1%nat 1%nat es (C53_plain tostr lf) (C53_complete tostr lf) [("Fe", 1)] 10 0%Z (C53_known tostr lf)) as (tI & HI & PI0).
  destruct (@mu_total tostr 1%nat 1%nat es (C53_plain tostr lf) (C53_complete tostr lf) [("Fe", 1)] (transition_energy fe_explicit "KL3") 0%Z (C53_known tostr lf)) as (tF & HFm & PF0).
  assert (IN1 : incidence 90 = 1) by (unfold incidence; destruct (Req_EM_T 90 90); congruence).
  assert (RP : 0 < r * 1 * photo) by (rewrite Rmult_1_r; apply Rmult_lt_0_compat; assumption).
  destruct (@per_photon_bounds 1 (field tF "total") (field tI "total") (r * 1 * photo) Rlt_0_1 PF0 PI0 RP) as [EP _].
  set (u := [("energy", 10 - transition_energy fe_explicit "KL3"); ("rate", escape_per_photon 1 (field tF "total") (field tI "total") (r * 1 * photo) / stopped 0 1 (field tI "total"))]).
  exists peaks, u. split; [exact HP|].
  assert (EPK : escape_peak tostr 1 1 es C54_key 10 "Fe" "KL3" u).
  { exists (r * 1 * photo), (transition_energy fe_explicit "KL3"), (field tI "total"), (field tF "total").
    split. { exists 1, rows, t. split; [left; reflexivity|]. split; [exact HR|]. split; [exact (mfind_any _ _ HT)|]. rewrite TE. split; reflexivity. }
    split; [exists tI; split; [exact HI|reflexivity]|]. split; [exists tF; split; [exact HFm|reflexivity]|].
    cbn [k_alphaIn k_thrI k_thickness C54_key]. rewrite IN1. split; [exact EP|reflexivity]. }
  split.
  - exact (proj2 (IFF "Fe" "KL3" u (C54_name "Fe" 1 (or_introl eq_refl))) EPK).
  - unfold u, field at 1. cbn. unfold stopped. destruct (Rlt_dec 0 0); [lra|]. unfold Rdiv. rewrite Rinv_1, Rmult_1_r. exact EP.
Qed.
(** all the hypotheses of C54 are met, with a peak in the answer *)
Theorem C54_example :
  (forall name e, Elements.getElement es name = Ok e -> plain_element e) /\ es_escFlag es = Some 0%Z /\
  is_map (k_composition C54_key) /\ (forall name w, In (name, w) (k_composition C54_key) -> plain_name name) /\ 0 < incidence (k_alphaIn C54_key) /\
  (forall E' mu, total_coefficient tostr 1 1 es (k_composition C54_key) E' mu -> 0 < mu) /\
  (exists muI, total_coefficient tostr 1 1 es (k_composition C54_key) 10 muI) /\ (forall r, In r (emitted es (k_composition C54_key) 10) -> 0 <= r) /\
  exists peaks t, Elements.getEscape tostr 1 1 es C54_key 10 = Ok peaks /\ mfind sltb "Fe_KL3esc" peaks = Some t /\ 0 < field t "rate".
Proof.
  split; [exact (pl_elements _ (C53_plain tostr lf))|]. split; [reflexivity|]. split; [repeat constructor|]. split; [exact C54_name|].
  split; [cbn [k_alphaIn C54_key]; unfold incidence; destruct (Req_EM_T 90 90); [lra|congruence]|]. split; [exact C54_mu_pos|].
  split. { destruct (@mu_total tostr 1%nat 1%nat es (C53_plain tostr lf) (C53_complete tostr lf) [("Fe", 1)] 10 0%Z (C53_known tostr lf)) as (tI & HI & PI0). exists (field tI "total"), tI. split; [exact HI|reflexivity]. }
  split; [|exact C54_peak].
  intros r I. unfold emitted in I. apply in_flat_map in I. destruct I as (nw & [<-|[]] & I). cbn [fst snd] in I.
  destruct (getExcitationFactors es "Fe" 10 1) as [rows| | |] eqn:HR; try contradiction. apply in_map_iff in I. destruct I as ([line t] & <- & I).
  destruct (@factors_of_plain es _ _ _ _ (pl_elements _ (C53_plain tostr lf)) HR) as (_ & e & photo & HE & _ & (m & HM & PH) & RW).
  apply C53_elements in HE. destruct HE as [_ ->]. destruct (RW line t I) as (r0 & R0 & ->). unfold field. cbn.
  destruct (fe_mu 10) as (m' & HM' & _ & B & _). assert (m' = m) by exact (Ok_inj (eq_trans (eq_sym HM') HM)). subst m'. rewrite PH, B. pose proof (fe_K_range 10).
  rewrite Rmult_1_r. apply Rlt_le, Rmult_lt_0_compat; lra.
Qed.
End Example54.
Print Assumptions C54_example.

(** *** The cache at work, and its failures *)
(** the element without any table *)
Definition C55_bare : @element RNum := with_info fe0 "Fe" "Fe" 26 (Some 56) 1 (-1)%Z (-1)%Z.
Definition C55_history : list (@es_op RNum) := [RAdd fe; XClear; XEnable 1; XUpdate C54_key [10]].
Section Example55.
Variable tostr : R -> string.
Local Notation es0 := (es_run tostr 1 1 false elements_empty [RAdd fe; XClear; XEnable 1]).
Local Notation es := (es_run tostr 1 1 false elements_empty C55_history).
Local Notation off := (es_run tostr 1 1 false elements_empty C53_history).
Lemma C55_start : exists peaks t, Elements.getEscape tostr 1 1 es0 C54_key 10 = Ok peaks /\ mfind sltb "Fe_KL3esc" peaks = Some t /\ 0 < field t "rate".
Proof.
  destruct (C54_peak tostr false) as (peaks & t & HP & HT & PT). exists peaks, t. split; [|split; assumption].
  rewrite (getEscape_off tostr 1 1 es0) by (right; split; [discriminate|reflexivity]).
  rewrite (getEscape_off tostr 1 1 off) in HP by (left; reflexivity). exact (eq_trans (same_escape tostr 1 (a := es0) (b := off) (conj eq_refl (conj eq_refl eq_refl)) 1 C54_key 10) HP).
Qed.
Lemma C55_filled : exists peaks t, es = with_esc es0 [(10, peaks)] (Some C54_key) (Some 1%Z) /\ mfind sltb "Fe_KL3esc" peaks = Some t /\ 0 < field t "rate".
Proof.
  destruct C55_start as (peaks & t & HP & HT & PT). exists peaks, t. split; [|split; assumption].
  change es with (fst (es_call tostr 1 1 false es0 (XUpdate C54_key [10]))).
  cbn [es_call]. unfold updateEscapeCache.
  assert (C : isEscapeCacheCompatible es0 C54_key = Ok false) by reflexivity. rewrite C.
  set (e1 := clearEscapeCache es0). assert (Q : e1 = es0) by reflexivity. rewrite Q. clear e1 Q.
  cbn [updateEscapeLoop]. toR. rewrite HP. reflexivity.
Qed.
(** a filled cache: the entry is there, and it is the answer *)
Theorem C55_example : exists peaks t, es_esc es = [(10, peaks)] /\ Elements.getEscape tostr 1 1 es C54_key 10 = Ok peaks /\
  mfind sltb "Fe_KL3esc" peaks = Some t /\ 0 < field t "rate".
Proof.
  destruct C55_filled as (peaks & t & Q & HT & PT). exists peaks, t. rewrite Q. split; [reflexivity|]. split; [|split; assumption].
  unfold Elements.getEscape. rewrite (proj2 (compatible_iff _ C54_key)); [|split; [exists 1%Z; split; [reflexivity|discriminate]|split; [discriminate|reflexivity]]].
  cbn [rbind es_esc with_esc mfind]. change (@nltb RNum) with Rltb. replace (Rltb 10 10) with false by (symmetry; apply Rltb_false; lra). reflexivity.
Qed.
(** Refuted: "the peaks are those of the registered elements". addElement keeps the entries: here the element was replaced by
    one without tables, for which the same library with the cache disabled throws, and the old peaks are returned. *)
Theorem C55_stale_refuted :
  let es' := es_run tostr 1 1 false es [RAdd C55_bare] in
  (exists peaks t, Elements.getEscape tostr 1 1 es' C54_key 10 = Ok peaks /\ mfind sltb "Fe_KL3esc" peaks = Some t /\ 0 < field t "rate") /\
  Elements.getEscape tostr 1 1 (setEscapeCacheEnabled es' 0) C54_key 10 = Throw RuntimeError.
Proof.
  intros es'. split.
  - destruct C55_filled as (peaks & t & Q & HT & PT). exists peaks, t. split; [|split; assumption].
    assert (Q1 : es' = fst (es_call tostr 1 1 false (with_esc es0 [(10, peaks)] (Some C54_key) (Some 1%Z)) (RAdd C55_bare))) by (unfold es'; rewrite Q; reflexivity).
    assert (F1 : es_escFlag es' = Some 1%Z) by (rewrite Q1; cbn [es_call fst]; unfold addElement; match goal with |- context [match ?o with _ => _ end] => destruct o end; reflexivity).
    assert (F2 : es_esc es' = [(10, peaks)]) by (rewrite Q1; cbn [es_call fst]; unfold addElement; match goal with |- context [match ?o with _ => _ end] => destruct o end; reflexivity).
    assert (F3 : es_escKey es' = Some C54_key) by (rewrite Q1; cbn [es_call fst]; unfold addElement; match goal with |- context [match ?o with _ => _ end] => destruct o end; reflexivity).
    clearbody es'. unfold Elements.getEscape. rewrite (proj2 (compatible_iff _ C54_key)); [|split; [exists 1%Z; split; [exact F1|discriminate]|split; [rewrite F2; discriminate|exact F3]]].
    cbn [rbind]. rewrite F2. cbn [mfind]. change (@nltb RNum) with Rltb. replace (Rltb 10 10) with false by (symmetry; apply Rltb_false; lra). reflexivity.
  - assert (HH : setEscapeCacheEnabled es' 0 = es_run tostr 1 1 false elements_empty (C55_history ++ [RAdd C55_bare; XEnable 0])%list) by reflexivity.
    rewrite HH. set (h := (C55_history ++ [RAdd C55_bare; XEnable 0])%list). set (ee := es_run tostr 1 1 false elements_empty h).
    pose proof (run_reg tostr 1 1 false h _ _ empty_reg) as RG.
    assert (SF : symbol "Fe") by (exists "F"%char, "e"; split; [reflexivity|split; [reflexivity|intros x [<-|[]]; reflexivity]]).
    assert (R1 : fold_left (registered_step false) h (fun _ => None) "Fe" = Some C55_bare) by reflexivity.
    assert (M1 : getAtomicMass C55_bare = Ok 56) by reflexivity.
    assert (FF := symbol_formula tostr 1 _ _ RG "Fe" C55_bare 56 (le_n 1) SF R1 M1 ltac:(lra)). fold ee in FF.
    assert (HE : Elements.getElement ee "Fe" = Ok C55_bare) by exact (eq_trans (proj1 (getElement_registered _ _ "Fe" RG)) eq_refl).
    assert (EA : elementAt ee "Fe" = Ok C55_bare).
    { unfold Elements.getElement in HE. destruct (isElementNameDefined ee "Fe"); [exact HE|discriminate]. }
    clear HE RG HH. rewrite (getEscape_off tostr 1 1 ee) by (left; reflexivity). clearbody ee. clear es' h R1.
    unfold Elements.computeEscape, totalMu, getMu_map, getMu_map_list. cbn [Z.eqb mixtureElements k_composition C54_key Elements.getComposition].
    change (@n0 RNum) with 0. change (@nltb RNum) with Rltb. replace (Rltb 1 0) with false by (symmetry; apply Rltb_false; lra).
    toR. rewrite FF. cbn [rbind addScaled fold_left fst snd]. change (@nleb RNum) with Rleb. rnorm. destruct (Rleb_spec (0 + 1) 0); [lra|].
    cbn [rbind fst snd rmapM]. unfold mixtureAt. cbn [madd mset mixtureSum]. toR. rewrite EA. reflexivity.
Qed.
(** Refuted: "the answers do not depend on the order of evaluation". With the left operand of the assignment evaluated
    first (allowed before C++17), an update that finds the remembered question equal to its own stores no peaks at all. *)
Theorem C55_left_first_refuted :
  let before := [RAdd fe; XEnable 0; XUpdate C54_key [20]; XEnable 1] in
  (exists peaks t, Elements.getEscape tostr 1 1 (es_run tostr 1 1 true elements_empty before) C54_key 10 = Ok peaks /\ mfind sltb "Fe_KL3esc" peaks = Some t /\ 0 < field t "rate") /\
  Elements.getEscape tostr 1 1 (es_run tostr 1 1 true elements_empty (before ++ [XUpdate C54_key [10]])) C54_key 10 = Ok [].
Proof.
  intros before. set (es1 := es_run tostr 1 1 true elements_empty [RAdd fe; XEnable 0]).
  assert (FL : es_escFlag es1 <> None) by discriminate.
  destruct (@escape_total tostr 1%nat 1%nat (fun l => l) es1 (C53_plain tostr true) (C53_complete tostr true) C54_key 20 FL (C53_known tostr true)) as [p20 HP].
  assert (B : es_run tostr 1 1 true elements_empty before = with_esc es1 [(20, p20)] (Some C54_key) (Some 1%Z)).
  { change (es_run tostr 1 1 true elements_empty before) with (setEscapeCacheEnabled (fst (es_call tostr 1 1 true es1 (XUpdate C54_key [20]))) 1).
    cbn [es_call]. unfold updateEscapeCache. assert (C : isEscapeCacheCompatible es1 C54_key = Ok false) by reflexivity. rewrite C.
    set (e1 := clearEscapeCache es1). assert (Q : e1 = es1) by reflexivity. rewrite Q. clear e1 Q. cbn [updateEscapeLoop].
    rewrite (getEscape_off tostr 1 1 es1) in HP by (left; reflexivity).
    match goal with |- context [Elements.getEscape tostr 1 1 ?x C54_key 20] => assert (G : Elements.getEscape tostr 1 1 x C54_key 20 = Ok p20) end.
    { rewrite (getEscape_off tostr 1 1) by (left; reflexivity). exact (eq_trans (same_escape tostr 1 (same_with es1 _ _ _) 1 C54_key 20) HP). }
    toR. rewrite G. reflexivity. }
  assert (N10 : mfind Rltb 10 [(20, p20)] = None) by (cbn; destruct (Rltb_spec 20 10); [lra|]; destruct (Rltb_spec 10 20); [reflexivity|lra]).
  split.
  - rewrite B. destruct (C54_peak tostr true) as (peaks & t & HQ & HT & PT). exists peaks, t. split; [|split; assumption].
    unfold Elements.getEscape. rewrite (proj2 (compatible_iff _ C54_key)); [|split; [exists 1%Z; split; [reflexivity|discriminate]|split; [discriminate|reflexivity]]].
    cbn [rbind es_esc with_esc]. change (@nltb RNum) with Rltb. toR. rewrite N10.
    rewrite (getEscape_off tostr 1 1 es1) in HQ by (left; reflexivity). exact (eq_trans (same_escape tostr 1 (same_with es1 _ _ _) 1 C54_key 10) HQ).
  - unfold es_run. rewrite fold_left_app. fold (es_run tostr 1 1 true elements_empty before). rewrite B. cbn [fold_left es_call].
    destruct (updateEscapeCache tostr 1 true 1 (with_esc es1 [(20, p20)] (Some C54_key) (Some 1%Z)) C54_key [10]) as [e2 r] eqn:U. cbn [fst].
    assert (SO : msorted Rltb [(20, p20)]) by (repeat constructor).
    refine (proj2 (left_first_empty tostr 1 1 (with_esc es1 [(20, p20)] (Some C54_key) (Some 1%Z)) 10 eq_refl _ eq_refl _ SO N10 U)); discriminate.
Qed.
End Example55.
Print Assumptions C55_example.
Print Assumptions C55_stale_refuted.
Print Assumptions C55_left_first_refuted.
