(** Multilayer, secondary excitation: the photons of the layers and the table of coefficients of one ray. *)
From Coq Require Import Ascii String List ZArith Reals Bool Arith Lia Lra DecimalString DecimalNat DecimalFacts.
From Verif Require Import Base.Num Base.Res Base.RSum Base.SMap Base.Str Base.ListLemmas Model.Beam Model.Material Model.TransmissionTable
  Model.Math Model.Shell Model.Element Model.Layer Model.XRF Model.Multilayer Spec.MultilayerSpec Spec.SecondarySpec Proofs.MultilayerProofs Proofs.MultilayerProofs2
  Proofs.MultilayerProofs3 Proofs.MultilayerProofs10 Proofs.ElementProofs.
Import ListNotations.
Set Implicit Arguments.
Local Open Scope string_scope.
Local Open Scope R_scope.
Local Existing Instance RNum.

(** ** Names *)
Lemma elementOf_first s : elementOf s = first_word s.
Proof.
  unfold elementOf. induction s as [|a s IH]; [reflexivity|]. cbn [cutSpace first_word]. destruct (Ascii.eqb a " "); [reflexivity|].
  destruct (cutSpace s) as [x y]. cbn [fst] in *. rewrite IH. reflexivity.
Qed.
Lemma cut_space s : snd (cutSpace s) = if has_space s then Some (after_space s) else None.
Proof.
  induction s as [|a s IH]; [reflexivity|]. cbn [cutSpace has_space after_space]. destruct (Ascii.eqb a " "); [reflexivity|]. cbn [orb].
  destruct (cutSpace s) as [x y]. exact IH.
Qed.
Lemma familyOf_word s : familyOf s = family_word s.
Proof. unfold familyOf, family_word. rewrite cut_space. destruct (has_space s); reflexivity. Qed.

Lemma uint_short d : Nat.ltb (String.length (NilZero.string_of_uint d)) 2 = true -> (Nat.of_uint d < 10)%nat.
Proof.
  intros H. destruct d as [|d|d|d|d|d|d|d|d|d|d]; [cbn; lia|..];
  (destruct d; [cbn; lia|..]; exfalso; cbn in H; discriminate H).
Qed.
Lemma layerNumber_label j : layerNumber j = layer_label j.
Proof.
  unfold layerNumber, layer_label. destruct (Nat.ltb_spec j 10) as [H|H].
  - do 10 (destruct j as [|j]; [reflexivity|]). lia.
  - match goal with |- context [if ?b then _ else _] => destruct b eqn:B end; [|reflexivity].
    apply uint_short in B. rewrite DecimalNat.Unsigned.of_to in B. lia.
Qed.

(** ** Vectors of coefficients *)
Section Env.
Variable xl : @xlib RNum.
Variable c : @config RNum.
Hypothesis AE : answers_each xl.
Variable comps : list tbl.
Variable geo : list R.
Hypothesis LC : length comps = length (c_sample c).
Hypothesis LG : length geo = length (c_sample c).
Variable limit : R.
Local Notation mu := (mu_at xl c comps).
Local Notation coh := (coherent_at xl c comps).

Lemma F2_map (P : R -> R -> Prop) (f : R -> R) (l l' : list R) : (forall x y, P x y -> y = f x) -> Forall2 P l l' -> l' = map f l.
Proof. intros H. induction 1 as [|x y l l' A F IH]; [reflexivity|]. cbn [map]. f_equal; [apply H, A|exact IH]. Qed.

Lemma layer_vec i Es m name : name = "total" \/ name = "coherent" -> getLayerMu_vec xl c (layer_at c i) Es (comp_at comps i) = Ok m ->
  vval m name = map (fun E => match getLayerMu xl c (layer_at c i) E (comp_at comps i) with Ok t => field t name | _ => 0 end) Es.
Proof.
  intros HN H. unfold getLayerMu_vec, getLayerMu in *. destruct (comp_at comps i) as [|kv k].
  - obind H k K. destruct (@AE k Es m name HN) as [Q _]. refine (@F2_map _ _ _ _ _ (Q H)). intros E v (t & T & <-). cbn beta.
    cbn [rbind]. toR. rewrite T. reflexivity.
  - destruct (@AE (kv :: k) Es m name HN) as [_ Q]. refine (@F2_map _ _ _ _ _ (Q H)). intros E v (t & T & <-). cbn beta. toR. rewrite T. reflexivity.
Qed.
Lemma layer_total i Es m : getLayerMu_vec xl c (layer_at c i) Es (comp_at comps i) = Ok m -> vval m "total" = map (mu i) Es.
Proof. apply layer_vec. left. reflexivity. Qed.
Lemma layer_coherent i Es m : getLayerMu_vec xl c (layer_at c i) Es (comp_at comps i) = Ok m -> vval m "coherent" = map (coh i) Es.
Proof. apply layer_vec. right. reflexivity. Qed.

(** ** The emitted photons *)
Definition above (mn : R) (ph : R * R * string) : bool := negb (Rltb (fst (fst ph)) mn).
Definition row_photon (fraction w b : R) (ele fam : string) (row : string * tbl) : list (R * R * string) :=
  let rate := field (snd row) "rate" in
  if String.prefix fam (fst row) && Rltb 0 (rate * fraction) && negb (Rltb 0 limit && Rltb rate limit)
  then [(field (snd row) "energy", rate * fraction * w * b, ele ++ " " ++ fst row)] else [].

Lemma emittedLines_spec mn fraction w b ele fam : forall (l : lns) em,
  @emittedLines RNum mn limit fraction w b ele fam l = Ok em ->
  em = filter (above mn) (flat_map (row_photon fraction w b ele fam) l).
Proof.
  induction l as [|[line t] r IH]; intros em H; cbn [emittedLines] in H; [apply Ok_inj in H; subst; reflexivity|].
  cbn [flat_map]. rewrite filter_app. unfold row_photon at 1. cbn [fst snd].
  destruct (String.prefix fam line); [|cbn [andb filter app]; apply IH, H]. obind H rate RT. cbn [andb].
  assert (FR : field t "rate" = rate) by (unfold field; toR; destruct (mfind sltb "rate" t); [cbn in RT; apply Ok_inj in RT; exact RT|discriminate RT]).
  rewrite FR. rnorm_in H. destruct (Rleb_spec (rate * fraction) 0) as [A|A].
  { replace (Rltb 0 (rate * fraction)) with false by (symmetry; apply Rltb_false; lra). cbn [andb filter app]. apply IH, H. }
  replace (Rltb 0 (rate * fraction)) with true by (symmetry; apply Rltb_true; lra). cbn [andb].
  destruct (Rltb 0 limit && Rltb rate limit)%bool; [cbn [negb filter app]; apply IH, H|]. cbn [negb]. obind H energy EN.
  assert (FE : field t "energy" = energy) by (unfold field; toR; destruct (mfind sltb "energy" t); [cbn in EN; apply Ok_inj in EN; exact EN|discriminate EN]).
  rewrite FE. cbn [filter]. unfold above at 1. cbn [fst snd]. toR. destruct (Rltb energy mn); [cbn [negb filter app]; apply IH, H|].
  cbn [negb filter app]. obind H em' EM. apply Ok_inj in H. subst em. f_equal. apply IH. reflexivity.
Qed.

Definition family_photons (E w b : R) (comp : tbl) (fam : string * R) : list (R * R * string) :=
  flat_map (row_photon (field comp (first_word (fst fam))) w b (first_word (fst fam)) (family_word (fst fam))) (rows_of xl (first_word (fst fam)) E).
Lemma emittedFamilies_spec E w mn b (comp : tbl) : forall fams last (cur : lns) em,
  (last = "dummytext" \/ x_factors xl last E 1 = Ok cur) ->
  (forall f, In f fams -> first_word (fst f) <> "dummytext") ->
  @emittedFamilies RNum xl E mn limit w b comp last cur fams = Ok em ->
  em = filter (above mn) (flat_map (family_photons E w b comp) fams).
Proof.
  induction fams as [|[name v] r IH]; intros last cur em HC ND H; cbn [emittedFamilies] in H; [apply Ok_inj in H; subst; reflexivity|].
  obind H cur' CU. obind H a EA. obind H b' EB. apply Ok_inj in H. subst em. rewrite elementOf_first, familyOf_word in *.
  assert (XF : x_factors xl (first_word name) E 1 = Ok cur').
  { destruct (String.eqb_spec (first_word name) last) as [Q|Q]; [|exact CU]. apply Ok_inj in CU. subst cur'. destruct HC as [HC|HC].
    - exfalso. apply (ND (name, v) (or_introl eq_refl)). cbn [fst]. congruence.
    - rewrite Q. exact HC. }
  cbn [flat_map]. rewrite filter_app. f_equal.
  - unfold family_photons. cbn [fst]. unfold rows_of. toR. rewrite XF. apply emittedLines_spec. exact EA.
  - eapply IH; [right; exact XF|intros f I; apply ND; right; exact I|exact EB].
Qed.

Definition plain_families (j : nat) (E : R) : Prop := forall f, In f (families_at xl c comps j E) -> first_word (fst f) <> "dummytext".
Lemma emit_spec j E w mn s s' : slab_ok xl c comps geo E j s -> plain_families j E -> Rltb E mn = false -> emit xl c E w mn limit s = Ok s' ->
  sl_em s' = filter (above mn) (photons xl c limit comps j E w) /\ sl_muj s' = map (fun ph => mu j (fst (fst ph))) (sl_em s') /\ sl_mu s' = sl_mu s.
Proof.
  intros (S1 & S2 & S3 & S4) PF NM H. unfold emit in H. obind H fams FA. obind H em EM. obind H m M. obind H co CO. apply Ok_inj in H. subst s'.
  cbn [sl_em sl_muj sl_mu]. rewrite S1, S2 in *.
  assert (FE : families_at xl c comps j E = fams) by (unfold families_at; toR; rewrite FA; reflexivity).
  assert (EE : em = filter (above mn) (fluorescent xl c limit comps j E w)).
  { apply emittedFamilies_spec in EM; [|left; reflexivity|unfold plain_families in PF; rewrite FE in PF; exact PF]. toR. rewrite EM, S4.
    unfold fluorescent. rewrite FE. reflexivity. }
  assert (CE : co = coh j E).
  { unfold lastOf in CO. rewrite (@layer_coherent j _ m M) in CO. rewrite map_app, app_length in CO. cbn [map length] in CO.
    rewrite Nat.add_sub in CO. rewrite nth_error_app2 in CO by lia. rewrite Nat.sub_diag in CO. cbn in CO. apply Ok_inj in CO. congruence. }
  split; [|split; [|reflexivity]].
  - unfold photons. rewrite filter_app, EE. cbn [filter]. replace (above mn (scattered xl c comps j E w)) with true by (unfold above, scattered; cbn [fst snd]; toR; rewrite NM; reflexivity). f_equal.
    unfold scattered. rewrite CE, S4. reflexivity.
  - rewrite (@layer_total j _ m M). rewrite !map_app, map_map. reflexivity.
Qed.
End Env.
