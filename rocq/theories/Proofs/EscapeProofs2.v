(** Bounds of the escape rates; the escape cache of Elements. *)
From Coq Require Import Ascii String List ZArith Reals Bool Arith Lia Lra Permutation.
From Verif Require Import Base.Num Base.Res Base.RSum Base.SMap Base.Str Base.ListLemmas Model.Material Model.Formula Model.Shell Model.Element
  Model.Elements Model.Layer Model.XRF Model.Multilayer Model.XRFLibrary Spec.MaterialSpec Spec.ShellSpec Spec.ElementSpec Spec.ElementsSpec Spec.MultilayerSpec Spec.LibrarySpec Spec.EscapeSpec
  Proofs.ShellProofs Proofs.ElementProofs Proofs.ElementProofs5 Proofs.ElementProofs7 Proofs.LayerProofs Proofs.MultilayerProofs Proofs.MultilayerProofs2 Proofs.MultilayerProofs7 Proofs.LibraryProofs Proofs.EscapeProofs.
Import ListNotations.
Set Implicit Arguments.
Local Open Scope string_scope.
Local Open Scope R_scope.
Local Existing Instance RNum.
Local Notation tab := (list (string * R)).
Local Notation linesR := (list (string * list (string * R))).
Local Ltac toR := change (@num RNum) with R in *.

(** ** Bounds *)
Lemma ln_le_minus_1 u : 0 < u -> ln u <= u - 1.
Proof.
  intros P. destruct (Req_EM_T u 1) as [->|NE]; [rewrite ln_1; lra|].
  left. apply exp_lt_inv. rewrite exp_ln by exact P. replace u with (1 + (u - 1)) at 1 by ring. apply exp_ineq1. lra.
Qed.
Lemma ln_lt_minus_1 u : 0 < u -> u <> 1 -> ln u < u - 1.
Proof. intros P NE. apply exp_lt_inv. rewrite exp_ln by exact P. replace u with (1 + (u - 1)) at 1 by ring. apply exp_ineq1. lra. Qed.
Lemma fraction_bounds t : 0 < t -> 0 < escape_fraction t < 1.
Proof.
  intros P. unfold escape_fraction. assert (I : 0 < 1 / t) by (apply Rdiv_lt_0_compat; lra).
  assert (A : ln (1 + 1 / t) < 1 / t). { replace (1 / t) with (1 + 1 / t - 1) at 2 by ring. apply ln_lt_minus_1; lra. }
  assert (B : 0 < ln (1 + 1 / t)). { rewrite <- ln_1. apply ln_increasing; lra. }
  assert (C : t * ln (1 + 1 / t) < t * (1 / t)) by (apply Rmult_lt_compat_l; assumption).
  replace (t * (1 / t)) with 1 in C by (field; lra).
  assert (D : 0 < t * ln (1 + 1 / t)) by (apply Rmult_lt_0_compat; assumption). lra.
Qed.
(** stronger absorption of the line: less escape *)
Lemma fraction_decreasing s t : 0 < s -> s < t -> escape_fraction t < escape_fraction s.
Proof.
  intros P L. unfold escape_fraction.
  (* with x = 1/t < y = 1/s: ln(1+y)/y < ln(1+x)/x *)
  assert (PT : 0 < t) by lra. set (x := 1 / t). set (y := 1 / s).
  assert (X : 0 < x) by (apply Rdiv_lt_0_compat; lra).
  assert (XY : x < y). { unfold x, y, Rdiv. rewrite !Rmult_1_l. apply Rinv_lt_contravar; [apply Rmult_lt_0_compat; assumption|exact L]. }
  replace t with (/ x) by (unfold x; field; lra). replace s with (/ y) by (unfold y; field; lra). clearbody x y.
  assert (H : x * ln (1 + y) < y * ln (1 + x)).
  { assert (A : ln (1 + y) <= ln (1 + x) + (y - x) / (1 + x)).
    { replace (1 + y) with ((1 + x) * ((1 + y) / (1 + x))) at 1 by (field; lra). rewrite ln_mult by (try apply Rdiv_lt_0_compat; lra).
      apply Rplus_le_compat_l. replace ((y - x) / (1 + x)) with ((1 + y) / (1 + x) - 1) by (field; lra). apply ln_le_minus_1. apply Rdiv_lt_0_compat; lra. }
    assert (B : x / (1 + x) < ln (1 + x)).
    { assert (Q : ln (/ (1 + x)) < / (1 + x) - 1). { apply ln_lt_minus_1; [apply Rinv_0_lt_compat; lra|]. intros Q. assert (1 + x = 1) by (rewrite <- (Rinv_inv (1 + x)), Q; apply Rinv_1). lra. }
      rewrite ln_Rinv in Q by lra. replace (x / (1 + x)) with (1 - / (1 + x)) by (field; lra). lra. }
    assert (C : x * ln (1 + y) <= x * (ln (1 + x) + (y - x) / (1 + x))) by (apply Rmult_le_compat_l; lra).
    assert (D : (y - x) * (x / (1 + x)) < (y - x) * ln (1 + x)) by (apply Rmult_lt_compat_l; lra).
    replace (x * (ln (1 + x) + (y - x) / (1 + x))) with (x * ln (1 + x) + (y - x) * (x / (1 + x))) in C by (field; lra). lra. }
  assert (J : / y * ln (1 + y) < / x * ln (1 + x)).
  { apply (Rmult_lt_reg_l (x * y)); [apply Rmult_lt_0_compat; lra|]. replace (x * y * (/ y * ln (1 + y))) with (x * ln (1 + y)) by (field; lra).
    replace (x * y * (/ x * ln (1 + x))) with (y * ln (1 + x)) by (field; lra). exact H. }
  lra.
Qed.
Lemma per_photon_bounds s muF muI rate : 0 < s -> 0 < muF -> 0 < muI -> 0 < rate -> 0 < escape_per_photon s muF muI rate < rate / (2 * muI).
Proof.
  intros S F I R. unfold escape_per_photon. assert (T : 0 < s * muF / muI) by (apply Rdiv_lt_0_compat; [apply Rmult_lt_0_compat|]; assumption).
  destruct (fraction_bounds T) as [A B]. assert (C : 0 < rate / (2 * muI)) by (apply Rdiv_lt_0_compat; lra).
  split; [apply Rmult_lt_0_compat; assumption|]. rewrite <- (Rmult_1_r (rate / (2 * muI))) at 2. apply Rmult_lt_compat_l; assumption.
Qed.
Lemma stopped_bounds t s mu : 0 < s -> 0 < mu -> 0 < stopped t s mu <= 1.
Proof.
  intros S M. unfold stopped. destruct (Rlt_dec 0 t) as [T|_]; [|lra].
  assert (P : 0 < mu * t / s) by (apply Rdiv_lt_0_compat; [apply Rmult_lt_0_compat|]; assumption).
  assert (exp (- (mu * t / s)) < 1) by (rewrite <- exp_0; apply exp_increasing; lra). pose proof (exp_pos (- (mu * t / s))). lra.
Qed.

(** ** What depends on the escape cache *)
Section Library.
Variables (tostr : R -> string) (depth : nat).
Definition same_library (a b : @elements RNum) : Prop := es_dict a = es_dict b /\ es_list a = es_list b /\ es_mats a = es_mats b.
Lemma same_formula a b : same_library a b -> forall s, getCompositionFromFormula tostr depth a s = getCompositionFromFormula tostr depth b s.
Proof.
  intros (D & L & _) s. unfold getCompositionFromFormula. destruct (parseFormula tostr depth s) as [p| | |]; cbn [rbind]; try reflexivity.
  assert (F : forall l, formulaMasses a l = formulaMasses b l). { induction l as [|[n x] l IH]; [reflexivity|]. cbn [formulaMasses]. rewrite D, L, IH. reflexivity. }
  rewrite F. reflexivity.
Qed.
Lemma mixLoop_ext (f g : string -> res tab) : (forall s, f s = g s) -> forall l acc, mixLoop f l acc = mixLoop g l acc.
Proof. intros E. induction l as [|[n w] l IH]; intros acc; [reflexivity|]. cbn [mixLoop]. rewrite E. destruct (g n) as [[|]| | |]; cbn [rbind]; try reflexivity. apply IH. Qed.
Lemma same_composition a b : same_library a b -> forall fuel s, Elements.getComposition tostr depth fuel a s = Elements.getComposition tostr depth fuel b s.
Proof.
  intros SL. induction fuel as [|fuel IH]; intros s; [reflexivity|]. cbn [Elements.getComposition]. rewrite (same_formula SL).
  unfold getMaterialIndexFromName. rewrite (proj2 (proj2 SL)).
  destruct (getCompositionFromFormula tostr depth b s) as [[|]| | |]; cbn [rbind]; try reflexivity.
  destruct (nth_error (es_mats b) _) as [m|]; [|reflexivity]. destruct (Material.getComposition m); [reflexivity|]. rewrite (mixLoop_ext _ _ IH). reflexivity.
Qed.
Lemma mixtureElements_ext (f g : string -> res tab) : (forall s, f s = g s) -> forall l acc t, mixtureElements f l acc t = mixtureElements g l acc t.
Proof. intros E. induction l as [|[n w] l IH]; intros acc t; [reflexivity|]. cbn [mixtureElements]. destruct (nltb w n0); [reflexivity|]. rewrite E. destruct (g n) as [[|]| | |]; cbn [rbind]; try reflexivity. apply IH. Qed.
Lemma same_mu a b : same_library a b -> forall fuel c E f, getMu_map tostr depth fuel a c E f = getMu_map tostr depth fuel b c E f.
Proof.
  intros SL fuel c E f. unfold getMu_map, getMu_map_list. rewrite (mixtureElements_ext _ _ (same_composition SL fuel)).
  assert (M : forall total e l acc, mixtureSum a total e l acc = mixtureSum b total e l acc).
  { intros total e. induction l as [|[n w] l IH]; intros acc; [reflexivity|]. cbn [mixtureSum]. unfold elementAt. destruct SL as (D & L & _). rewrite D, L.
    match goal with |- rbind ?x _ = _ => destruct x; cbn [rbind]; try reflexivity end.
    match goal with |- rbind ?x _ = _ => destruct x; cbn [rbind]; try reflexivity end.
    destruct acc as [[[? ?] ?] ?]. apply IH. }
  match goal with |- rbind (rbind ?x _) _ = _ => destruct x as [[l t]| | |]; cbn [rbind]; try reflexivity end.
  cbn [fst snd rmapM]. unfold mixtureAt. rewrite M. reflexivity.
Qed.
Lemma same_element a b : same_library a b -> forall s, Elements.getElement a s = Elements.getElement b s.
Proof. intros (D & L & _) s. unfold Elements.getElement, isElementNameDefined, elementAt. rewrite D, L. reflexivity. Qed.
Lemma same_escape a b : same_library a b -> forall fuel k E, Elements.computeEscape tostr depth fuel a k E = Elements.computeEscape tostr depth fuel b k E.
Proof.
  intros SL fuel k E. unfold Elements.computeEscape, totalMu. rewrite (same_mu SL). cbv zeta.
  match goal with |- rbind ?x _ = rbind ?x _ => destruct x as [muI| | |]; cbn [rbind]; try reflexivity end.
  assert (LN : forall E s m eff name l out, escapeLines tostr depth fuel a k E s m eff name l out = escapeLines tostr depth fuel b k E s m eff name l out).
  { clear - SL. intros E s m eff name. induction l as [|[n t] l IH]; intros out; [reflexivity|]. cbn [escapeLines]. unfold totalMu.
    destruct (of_opt (mfind sltb "rate" t)); cbn [rbind]; try reflexivity. destruct (of_opt (mfind sltb "energy" t)); cbn [rbind]; try reflexivity.
    rewrite (same_mu SL). match goal with |- rbind ?x _ = rbind ?x _ => destruct x; cbn [rbind]; try reflexivity end. apply IH. }
  generalize (@nil (string * list (string * @num RNum))). induction (k_composition k) as [|[n w] l IH]; intros out; [reflexivity|]. cbn [rfold fst snd].
  unfold getExcitationFactors. rewrite (same_element SL). cbn [fst snd].
  match goal with |- rbind (rbind ?x _) _ = _ => destruct x; cbn [rbind]; try reflexivity end. rewrite LN. 
  match goal with |- rbind ?x _ = rbind ?x _ => destruct x; cbn [rbind]; try reflexivity end. apply IH.
Qed.
End Library.

(** ** The cache *)
Section Cache.
Variables (tostr : R -> string) (depth fuel : nat).
Local Notation getEscape := (@Elements.getEscape RNum tostr depth fuel).
Local Notation computeEscape := (@Elements.computeEscape RNum tostr depth fuel).
Lemma same_table_eq : forall a b : tab, same_table a b = true -> a = b.
Proof.
  induction a as [|[k v] a IH]; intros [|[k' v'] b] H; cbn in H; try discriminate; [reflexivity|].
  apply andb_true_iff in H. destruct H as [H H']. apply andb_true_iff in H. destruct H as [H1 H2].
  apply String.eqb_eq in H1. apply Reqb_true in H2. subst. f_equal. apply IH, H'.
Qed.
Lemma same_table_refl (a : tab) : same_table a a = true.
Proof. induction a as [|[k v] a IH]; [reflexivity|]. cbn. rewrite String.eqb_refl, IH. replace (Reqb v v) with true by (symmetry; apply Reqb_true; reflexivity). reflexivity. Qed.
(** only an entry made for exactly this question is used *)
Lemma compatible_iff (es : @elements RNum) k : isEscapeCacheCompatible es k = Ok true <->
  (exists f, es_escFlag es = Some f /\ f <> 0%Z) /\ es_esc es <> [] /\ es_escKey es = Some k.
Proof.
  unfold isEscapeCacheCompatible. destruct (es_escFlag es) as [f|]; cbn [of_opt rbind].
  2:{ split; [discriminate|]. intros ((f & F & _) & _). discriminate. }
  destruct (Z.eqb_spec f 0) as [->|NZ].
  { split; [discriminate|]. intros ((f & F & N) & _). injection F as <-. contradiction. }
  destruct (es_esc es) as [|x l]. { split; [discriminate|]. intros (_ & N & _). contradiction. }
  destruct (es_escKey es) as [u|]; cbn [of_opt rbind]. 2:{ split; [discriminate|]. intros (_ & _ & N). discriminate. }
  split.
  - intros H. apply Ok_inj in H. repeat (apply andb_true_iff in H; destruct H as [H ?]).
    apply same_table_eq in H0. apply Reqb_true in H, H1, H2, H4. apply Z.eqb_eq in H3.
    split; [exists f; auto|]. split; [discriminate|]. destruct k, u; cbn in *. subst. reflexivity.
  - intros (_ & _ & [= ->]). f_equal. rewrite same_table_refl, Z.eqb_refl, !andb_true_r.
    change (@neqb RNum) with Reqb. rewrite !(proj2 (Reqb_true _ _) eq_refl). reflexivity.
Qed.
(** every remembered answer is the answer to the remembered question *)
Definition faithful (es : @elements RNum) : Prop :=
  msorted Rltb (es_esc es) /\ (es_esc es <> [] -> es_escKey es <> None) /\
  forall E l u, mfind Rltb E (es_esc es) = Some l -> es_escKey es = Some u -> computeEscape es u E = Ok l.
Lemma faithful_empty es : es_esc es = [] -> faithful es.
Proof. intros H. unfold faithful. rewrite H. split; [constructor|]. split; [intros Q; exfalso; apply Q; reflexivity|discriminate]. Qed.
Lemma faithful_compatible es k : faithful es -> es_escFlag es <> None -> exists c, isEscapeCacheCompatible es k = Ok c.
Proof.
  intros (_ & KN & _) FL. unfold isEscapeCacheCompatible. destruct (es_escFlag es) as [f|]; [|contradiction]. cbn [of_opt rbind].
  destruct (Z.eqb f 0); [eauto|]. destruct (es_esc es) as [|x l]; [eauto|]. destruct (es_escKey es) as [u|]; [cbn; eauto|]. exfalso. apply KN; [discriminate|reflexivity].
Qed.
Lemma faithful_transparent es k E : faithful es -> es_escFlag es <> None -> getEscape es k E = computeEscape es k E.
Proof.
  intros FA FL. unfold Elements.getEscape. destruct (faithful_compatible k FA FL) as [c C]. rewrite C. cbn [rbind]. destruct c; [|reflexivity].
  destruct (proj1 (compatible_iff es k) C) as (_ & _ & KY). change (@nltb RNum) with Rltb.
  match goal with |- match ?o with _ => _ end = _ => destruct o as [l|] eqn:F end; [|reflexivity].
  symmetry. apply (proj2 (proj2 FA) E l k F KY).
Qed.
Lemma same_with es c ky f : same_library (with_esc es c ky f) es.
Proof. repeat split. Qed.

Lemma update_faithful k : forall l es es' r, faithful es -> es_escFlag es <> None -> (es_esc es = [] \/ es_escKey es = Some k) ->
  updateEscapeLoop tostr depth false fuel es k l = (es', r) -> faithful es' /\ same_library es' es /\ es_escFlag es' = es_escFlag es.
Proof.
  induction l as [|e l IH]; intros es es' r FA FL KY H; cbn [updateEscapeLoop] in H.
  { injection H as <- <-. split; [exact FA|]. split; [repeat split|reflexivity]. }
  rewrite (faithful_transparent k e FA FL) in H. change (@nltb RNum) with Rltb in H.
  assert (STEP : forall c, msorted Rltb c -> (forall E v, mfind Rltb E c = Some v -> computeEscape es k E = Ok v) -> faithful (with_esc es c (Some k) (es_escFlag es))).
  { intros c SO OK. split; [exact SO|]. split; [intros _; discriminate|]. cbn [es_esc es_escKey with_esc]. intros E v u F [= <-].
    rewrite (same_escape tostr depth (same_with es _ _ _)). apply OK, F. }
  destruct FA as (SO & KN & FA).
  assert (OLD : forall E v, mfind Rltb E (es_esc es) = Some v -> computeEscape es k E = Ok v).
  { intros E v F. destruct KY as [Z|KY]; [rewrite Z in F; discriminate|]. exact (FA E v k F KY). }
  match type of H with context [if ?b then _ else _] => destruct b eqn:ME end.
  - destruct (IH _ _ _ (STEP _ SO OLD) FL (or_intror eq_refl) H) as (A & B & C). split; [exact A|]. split; [exact B|exact C].
  - unfold cacheAssign in H. destruct (computeEscape es k e) as [v| | |] eqn:CE.
    + destruct (IH (with_esc es (mset Rltb e v (es_esc es)) (Some k) (es_escFlag es)) es' r) as (A & B & C).
      * apply STEP; [apply (mset_sorted (ltb := Rltb)); exact SO|]. intros E w F. destruct (Req_EM_T e E) as [<-|NE].
        -- assert (Q := @mfind_mset_same R _ Rltb Rltb_total e v (es_esc es)). pose proof (eq_trans (eq_sym F) Q) as Q2. injection Q2 as ->. exact CE.
        -- assert (Q := @mfind_mset_other R _ Rltb Rltb_total e E v (es_esc es) NE SO). apply OLD. exact (eq_trans (eq_sym Q) F).
      * exact FL.
      * right. reflexivity.
      * exact H.
      * split; [exact A|]. split; [exact B|exact C].
    + injection H as <- <-. split; [|split; [repeat split|reflexivity]]. split; [exact SO|]. split; [exact KN|]. intros E v u F K. cbn [es_esc es_escKey with_esc] in F, K.
      rewrite (same_escape tostr depth (same_with es _ _ _)). exact (FA E v u F K).
    + injection H as <- <-. split; [|split; [repeat split|reflexivity]]. split; [exact SO|]. split; [exact KN|]. intros E v u F K. cbn [es_esc es_escKey with_esc] in F, K.
      rewrite (same_escape tostr depth (same_with es _ _ _)). exact (FA E v u F K).
    + injection H as <- <-. split; [|split; [repeat split|reflexivity]]. split; [exact SO|]. split; [exact KN|]. intros E v u F K. cbn [es_esc es_escKey with_esc] in F, K.
      rewrite (same_escape tostr depth (same_with es _ _ _)). exact (FA E v u F K).
Qed.
(** calls that only concern the cache *)
Definition cache_call (o : @es_op RNum) : bool := match o with XEnable _ | XClear | XUpdate _ _ => true | _ => false end.
Lemma cache_step es o : cache_call o = true -> faithful es ->
  let es' := fst (es_call tostr depth fuel false es o) in faithful es' /\ same_library es' es /\ (es_escFlag es <> None -> es_escFlag es' <> None).
Proof.
  intros CC FA. destruct o; try discriminate CC; cbn [es_call fst]; cbv zeta.
  - split; [|split; [repeat split|intros _; discriminate]]. destruct FA as (SO & KN & FA). split; [exact SO|]. split; [exact KN|]. intros E v u F K.
    cbn [es_esc es_escKey with_esc setEscapeCacheEnabled] in F, K. unfold setEscapeCacheEnabled. rewrite (same_escape tostr depth (same_with es _ _ _)). exact (FA E v u F K).
  - split; [apply faithful_empty; reflexivity|]. split; [repeat split|auto].
  - unfold updateEscapeCache. destruct (isEscapeCacheCompatible es k) as [c| | |] eqn:C; cbn [fst]; try (split; [exact FA|split; [repeat split|auto]]).
    assert (FL : es_escFlag es <> None). { unfold isEscapeCacheCompatible in C. destruct (es_escFlag es); [discriminate|discriminate C]. }
    match goal with |- context [updateEscapeLoop tostr depth false fuel ?x k energies] => destruct (updateEscapeLoop tostr depth false fuel x k energies) as [es' r] eqn:H end. cbn [fst].
    destruct c.
    + destruct (@update_faithful k energies es es' r FA FL) as (A & B & D); [right; apply (compatible_iff es k); exact C|exact H|].
      split; [exact A|]. split; [exact B|]. rewrite D. auto.
    + destruct (@update_faithful k energies (clearEscapeCache es) es' r) as (A & B & D); [apply faithful_empty; reflexivity|exact FL|left; reflexivity|exact H|].
      split; [exact A|]. split; [exact B|]. rewrite D. auto.
Qed.
Lemma same_trans a b c : same_library a b -> same_library b c -> same_library a c.
Proof. intros (A & B & C) (D & F & G). unfold same_library. rewrite A, B, C. auto. Qed.
Lemma cache_run : forall ops es, forallb cache_call ops = true -> faithful es ->
  let es' := es_run tostr depth fuel false es ops in faithful es' /\ same_library es' es /\ (es_escFlag es <> None -> es_escFlag es' <> None).
Proof.
  induction ops as [|o ops IH]; intros es CC FA; cbn [es_run fold_left].
  { split; [exact FA|]. split; [repeat split|auto]. }
  cbn [forallb] in CC. apply andb_true_iff in CC. destruct CC as [C1 C2]. destruct (cache_step o C1 FA) as (A & B & D).
  destruct (IH _ C2 A) as (A' & B' & D'). split; [exact A'|]. split; [exact (same_trans B' B)|]. intros F. apply D', D, F.
Qed.
(** the cache is invisible *)
Theorem escape_cache_transparent pre post k E :
  forallb cache_call post = true ->
  let es0 := es_run tostr depth fuel false elements_empty pre in
  let es := es_run tostr depth fuel false es0 (XClear :: post) in
  es_escFlag es <> None ->
  getEscape es k E = getEscape (setEscapeCacheEnabled es0 0) k E.
Proof.
  intros CC es0 es FL. unfold es in *. cbn [es_run fold_left] in *. set (es1 := fst (es_call tostr depth fuel false es0 XClear)) in *.
  destruct (@cache_run post es1 CC) as (A & B & _). { apply faithful_empty. reflexivity. }
  change (fold_left (fun (es : elements) (o : es_op) => fst (es_call tostr depth fuel false es o)) post es1) with (es_run tostr depth fuel false es1 post) in *.
  rewrite (faithful_transparent k E A FL). rewrite (getEscape_off tostr depth fuel (setEscapeCacheEnabled es0 0)) by (left; reflexivity).
  apply same_escape. apply (same_trans B). repeat split.
Qed.
End Cache.
