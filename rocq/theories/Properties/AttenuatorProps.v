(** C78: attenuators act on the detected photons alone, one after the other in any order. *)
From Coq Require Import Ascii String List ZArith Reals Bool Arith Lia Lra Permutation.
From Verif Require Import Base.Num Base.Res Base.RSum Base.SMap Base.Str Base.ListLemmas Model.Beam Model.Material Model.TransmissionTable Model.Math Model.Shell Model.Element Model.Elements Model.Layer Model.XRF Model.Multilayer Model.XRFLibrary
  Spec.ShellSpec Spec.ElementSpec Spec.ElementsSpec Spec.BeamSpec Spec.MaterialSpec Spec.LayerSpec Spec.MultilayerSpec Spec.SecondarySpec Spec.LibrarySpec Spec.SuperpositionSpec Spec.AttenuatorSpec Proofs.MathProofs Proofs.BeamProofs Proofs.LayerProofs Proofs.MultilayerProofs Proofs.SuperpositionProofs
  Proofs.ElementsProofs6 Proofs.LibraryProofs Proofs.LibraryProofs2 Proofs.LibraryProofs3 Proofs.LibraryProofs4 Proofs.LibraryExample Properties.LibraryProps
  Properties.MultilayerProps Properties.SecondaryProps Properties.SuperpositionProps Properties.RequestProps.
Import ListNotations.
Local Open Scope string_scope.
Local Open Scope R_scope.
Local Existing Instance RNum.
Local Ltac toR := change (@num RNum) with R in *.

Lemma Rprod_perm l l' : Permutation l l' -> Rprod l = Rprod l'.
Proof. induction 1; cbn; try congruence; try (rewrite IHPermutation; reflexivity); ring. Qed.

Section Attenuators.
Variables (sortf : list R -> list R) (debug lf : bool) (xl : @xlib RNum) (c : @config RNum).
Local Notation calculate c0 := (@getMultilayerFluorescence RNum sortf debug lf xl c0).
Variables (elements families : list string) (layers : list Z) (secondary useGeo useMass : Z) (limit : R) (over : @beam RNum).
Local Notation run c0 := (calculate c0 elements families layers secondary useGeo useMass limit over).
Local Notation comps := (sample_compositions xl c).
Variable EL : string -> string -> R.
Hypothesis WF : well_formed xl.
Hypothesis PW : pointwise xl.
Hypothesis AE : answers_each xl.
Hypothesis LE : line_energies xl EL.
Hypothesis PLAIN : forall j E f, (j < length (c_sample c))%nat -> In f (families_at xl c comps j E) -> first_word (fst f) <> "dummytext".
Hypothesis WORDS : forall e, In e elements -> one_word e.
Hypothesis POS : forall n, (n < length elements)%nat -> 0 <= threshold xl elements families n.

(** a field that does not depend on the attenuators *)
Definition before (name : string) : Prop := name = "primary" \/ name = "secondary" \/ has_space name = true \/ name = "energy".

Lemma energy_known c0 r key i L t : one_word L -> run c0 = Ok r -> line_entry r key i L = Some t -> field t "energy" = EL (first_word key) L.
Proof.
  intros O R T. destruct (@C49_primary sortf debug lf xl c0 EL elements families layers secondary useGeo useMass limit over r WF PW LE WORDS POS R key i L O) as [_ B].
  destruct (B t T) as (_ & n & LN & K & _ & EN & _). rewrite EN. f_equal. rewrite K. symmetry. apply first_word_cut, WORDS. unfold element_of. apply nth_In, LN.
Qed.
Theorem C78_attenuators atts users r r' : run c = Ok r -> run (with_attenuators c atts users) = Ok r' ->
  forall key i L, one_word L ->
  (line_entry r' key i L <> None <-> line_entry r key i L <> None) /\
  (forall name, before name -> amount r' key i L name = amount r key i L name) /\
  ((secondary <= 1)%Z -> let E := amount r key i L "energy" in
     exists detected, amount r key i L "rate" = through xl c E * detected /\ amount r' key i L "rate" = through xl (with_attenuators c atts users) E * detected).
Proof.
  intros R R' key i L O. set (c' := with_attenuators c atts users) in *.
  assert (EN : line_entry r' key i L <> None <-> line_entry r key i L <> None).
  { rewrite (proj1 (@C49_primary sortf debug lf xl c' EL elements families layers secondary useGeo useMass limit over r' WF PW LE WORDS POS R' key i L O)).
    rewrite (proj1 (@C49_primary sortf debug lf xl c EL elements families layers secondary useGeo useMass limit over r WF PW LE WORDS POS R key i L O)). reflexivity. }
  assert (SAME : forall name, before name -> amount r' key i L name = amount r key i L name).
  { intros name [H|[H|[H|H]]].
    1-3: rewrite (@amount_sum sortf debug lf xl c secondary useGeo useMass limit over EL WF PW AE LE PLAIN elements families layers WORDS POS r name key i L ltac:(auto) O R);
         rewrite (@amount_sum sortf debug lf xl c' secondary useGeo useMass limit over EL WF PW AE LE PLAIN elements families layers WORDS POS r' name key i L ltac:(auto) O R'); reflexivity.
    subst name. unfold amount. destruct (line_entry r key i L) as [t|] eqn:T; destruct (line_entry r' key i L) as [t'|] eqn:T'.
    - rewrite (energy_known c r key i L t O R T), (energy_known c' r' key i L t' O R' T'). reflexivity.
    - exfalso. apply (proj2 EN); [discriminate|reflexivity].
    - exfalso. apply (proj1 EN); [discriminate|reflexivity].
    - reflexivity. }
  split; [exact EN|]. split; [exact SAME|]. intros S E.
  rewrite (@rate_detected sortf debug lf xl c elements families layers secondary useGeo useMass limit EL WF PW LE WORDS POS over r key i L S R O).
  rewrite (@rate_detected sortf debug lf xl c' elements families layers secondary useGeo useMass limit EL WF PW LE WORDS POS over r' key i L S R' O).
  rewrite (SAME "primary"), (SAME "secondary") by (unfold before; auto). unfold E, amount. destruct (line_entry r key i L) as [t|] eqn:T; [|exists 0; split; ring].
  rewrite (energy_known c r key i L t O R T). set (e := EL (first_word key) L). unfold detected. fold e. cbv zeta.
  change (sample_compositions xl c') with (sample_compositions xl c). change (solid_angles c' useGeo) with (solid_angles c useGeo). change (c_detector c') with (c_detector c).
  set (esc := 1 - _).
  assert (D : exists d, detection xl c (sample_compositions xl c) (solid_angles c useGeo) i e = through xl c e * d /\ detection xl c' (sample_compositions xl c) (solid_angles c useGeo) i e = through xl c' e * d).
  { unfold detection, through. change (c_detector c') with (c_detector c). change (leave_at xl c' (sample_compositions xl c) i e) with (leave_at xl c (sample_compositions xl c) i e).
    match goal with |- context [?a * ?p * ?q * ?g * ?h = _ /\ _] => exists (a * g * h) end. split; toR; ring. }
  destruct D as (d & -> & ->). match goal with |- context [?x + ?y] => exists (esc * d * (x + y)) end. split; toR; ring.
Qed.
(** One more attenuator: the rate is multiplied by its transmission at the energy of the line. *)
Theorem C78_added l r r' : run c = Ok r -> run (setAttenuators c (c_attenuators c ++ [l])) = Ok r' -> (secondary <= 1)%Z ->
  forall key i L, one_word L -> amount r' key i L "rate" = filter_transmission xl c l (amount r key i L "energy") * amount r key i L "rate".
Proof.
  intros R R' S key i L O. destruct (C78_attenuators (c_attenuators c ++ [l]) (c_userAttenuators c) r r' R R' key i L O) as (_ & _ & H).
  destruct (H S) as (d & A & B). rewrite A, B. unfold through. cbn [c_attenuators c_userAttenuators with_attenuators setAttenuators setUserAttenuators]. rewrite map_app.
  set (E := amount r key i L "energy").
  assert (PA : forall a b, Rprod (a ++ b) = Rprod a * Rprod b) by (induction a as [|x a IH]; intros b; cbn; [ring|rewrite IH; ring]).
  rewrite PA. cbn [map Rprod]. change (fun l0 => filter_transmission xl (with_attenuators c (c_attenuators c ++ [l]) (c_userAttenuators c)) l0 E) with (fun l0 => filter_transmission xl c l0 E).
  change (filter_transmission xl (with_attenuators c (c_attenuators c ++ [l]) (c_userAttenuators c)) l E) with (filter_transmission xl c l E). toR. ring.
Qed.
(** the order of the attenuators does not count *)
Theorem C78_order atts users r r' : Permutation atts (c_attenuators c) -> Permutation users (c_userAttenuators c) ->
  run c = Ok r -> run (with_attenuators c atts users) = Ok r' ->
  forall key i L, one_word L -> (line_entry r' key i L <> None <-> line_entry r key i L <> None) /\
    forall name, before name \/ name = "rate" /\ (secondary <= 1)%Z -> amount r' key i L name = amount r key i L name.
Proof.
  intros PA PU R R' key i L O. destruct (C78_attenuators atts users r r' R R' key i L O) as (EN & SAME & H). split; [exact EN|].
  intros name [B|[-> S]]; [exact (SAME name B)|]. destruct (H S) as (d & -> & ->). f_equal. unfold through.
  cbn [c_attenuators c_userAttenuators with_attenuators setAttenuators setUserAttenuators]. f_equal; apply Rprod_perm, Permutation_map; assumption.
Qed.
End Attenuators.
Print Assumptions C78_attenuators.
Print Assumptions C78_added.
Print Assumptions C78_order.

(** The same with the class Elements as library. *)
Theorem C78_library (tostr : R -> string) (depth fuel : nat) (lf : bool) (ops : list (@es_op RNum)) (sortf : list (string * R) -> list (string * R))
  (sortr : list R -> list R) (debug lfd : bool) (c : @config RNum) atts users elements families layers secondary useGeo useMass limit over r r' :
  let es := es_run tostr depth fuel lf elements_empty ops in let xl := @xlib_of RNum tostr depth fuel sortf es in
  let run c0 := @getMultilayerFluorescence RNum sortr debug lfd xl c0 elements families layers secondary useGeo useMass limit over in
  let c' := with_attenuators c atts users in
  plain_library es -> std_sort_contract (fun a b : string * R => Rltb (snd a) (snd b)) sortf ->
  (forall name e, Elements.getElement es name = Ok e -> first_word name <> "dummytext") -> (forall e, In e elements -> one_word e) ->
  run c = Ok r -> run c' = Ok r' ->
  forall key i L, one_word L ->
  (line_entry r' key i L <> None <-> line_entry r key i L <> None) /\
  (forall name, before name -> amount r' key i L name = amount r key i L name) /\
  ((secondary <= 1)%Z -> let E := amount r key i L "energy" in
     (exists detected, amount r key i L "rate" = through xl c E * detected /\ amount r' key i L "rate" = through xl c' E * detected) /\
     (Permutation atts (c_attenuators c) -> Permutation users (c_userAttenuators c) -> amount r' key i L "rate" = amount r key i L "rate") /\
     (forall l, atts = (c_attenuators c ++ [l])%list -> users = c_userAttenuators c -> amount r' key i L "rate" = filter_transmission xl c l E * amount r key i L "rate")).
Proof.
  intros es xl run c' PL SORT ND WORDS R R' key i L O.
  assert (PLAIN : forall j E f, (j < length (c_sample c))%nat -> In f (families_at xl c (sample_compositions xl c) j E) -> first_word (fst f) <> "dummytext").
  { intros j E f _. apply (library_plain_families tostr depth fuel sortf es c (sample_compositions xl c) j E); [|exact ND]. intros l. exact (proj1 (SORT l (by_energy_swo l))). }
  pose proof (library_well_formed _ _ _ _ PL : well_formed xl) as WF. pose proof (library_pointwise _ _ _ _ _ : pointwise xl) as PW.
  pose proof (library_answers_each _ _ _ _ _ : answers_each xl) as AE. pose proof (library_line_energies _ _ _ _ PL : line_energies xl (line_energy_in es)) as LE.
  pose proof (fun n (_ : (n < length elements)%nat) => thresholds_nonneg tostr depth fuel lf ops sortf elements families n PL) as POS.
  destruct (@C78_attenuators sortr debug lfd xl c elements families layers secondary useGeo useMass limit over (line_energy_in es) WF PW AE LE PLAIN WORDS POS atts users r r' R R' key i L O) as (A & B & C).
  split; [exact A|]. split; [exact B|]. intros S E. split; [exact (C S)|]. split.
  - intros PA PU. destruct (@C78_order sortr debug lfd xl c elements families layers secondary useGeo useMass limit over (line_energy_in es) WF PW AE LE PLAIN WORDS POS atts users r r' PA PU R R' key i L O) as [_ Q]. apply Q. right. auto.
  - intros l -> ->. exact (@C78_added sortr debug lfd xl c elements families layers secondary useGeo useMass limit over (line_energy_in es) WF PW AE LE PLAIN WORDS POS l r r' R R' S key i L O).
Qed.
Print Assumptions C78_library.

(** The iron sample of C53 seen through an iron foil; the lines are there, with and without it. *)
Lemma comp_same (xl : @xlib RNum) c a l : getLayerComposition xl (setAttenuators c a) l = getLayerComposition xl c l.
Proof. reflexivity. Qed.
Lemma comp_thick (xl : @xlib RNum) c n (d t f d' t' f' : R) : getLayerComposition xl c (@layer_new RNum n d t f) = getLayerComposition xl c (@layer_new RNum n d' t' f').
Proof. reflexivity. Qed.
Section Example78.
Variables (tostr : R -> string) (lf : bool) (sortf : list (string * R) -> list (string * R)).
Hypothesis SORT : std_sort_contract (fun a b : string * R => Rltb (snd a) (snd b)) sortf.
Local Notation es := (es_run tostr 1 1 lf elements_empty C53_history).
Local Notation xl := (@xlib_of RNum tostr 1 1 sortf es).
Theorem C78_example sortr debug lfd limit :
  let run c := @getMultilayerFluorescence RNum sortr debug lfd xl c ["Fe"] ["K"] [0%Z] 0 1 0 limit beam_init in
  let foil := @layer_new RNum "Fe" 1 2 1 in
  exists r r', run C53_config = Ok r /\ run (setAttenuators C53_config [foil]) = Ok r' /\
    line_entry r "Fe K" 0 "KL3" <> None /\ line_entry r' "Fe K" 0 "KL3" <> None /\
    amount r' "Fe K" 0 "KL3" "primary" = amount r "Fe K" 0 "KL3" "primary" /\
    amount r' "Fe K" 0 "KL3" "rate" = filter_transmission xl C53_config foil (amount r "Fe K" 0 "KL3" "energy") * amount r "Fe K" 0 "KL3" "rate".
Proof.
  intros run foil. destruct (C53_example tostr lf sortf SORT sortr debug lfd 0%Z limit) as (PL & CL & CC & r & HK & HL).
  assert (CC' : complete_config tostr 1 1 sortf es (setAttenuators C53_config [foil]) ["Fe"] ["K"] [0%Z] 1).
  { destruct CC as [CA CB CN CE CS CK CO CD CF]. constructor; try assumption. intros l I. cbn [c_sample c_filters c_attenuators setAttenuators C53_config app] in I.
    assert (Q : l = foil \/ In l (c_sample C53_config ++ c_filters C53_config ++ c_attenuators C53_config)%list) by (destruct I as [<-|[<-|[<-|[]]]]; [right; left; reflexivity|right; right; left; reflexivity|left; reflexivity]).
    destruct Q as [->|Q]; [|exact (CK l Q)]. destruct (CK (@layer_new RNum "Fe" 1 1 1)) as (_ & _ & K); [right; left; reflexivity|]. split; [cbn; toR; lra|]. split; [cbn; toR; lra|]. destruct K as (kc & K1 & K2). exists kc. split; [|exact K2].
    unfold foil. rewrite comp_same, (comp_thick _ _ "Fe" 1 2 1 1 1 1). exact K1. }
  destruct (C53_answers tostr 1 1 lf C53_history sortf sortr debug lfd (setAttenuators C53_config [foil]) ["Fe"] ["K"] [0%Z] 0 1 0 limit beam_init PL CL SORT CC' (or_introl (Z.le_refl 0))) as [r' R'].
  exists r, r'. split; [exact HK|]. split; [exact R'|]. split; [exact HL|].
  assert (ND : forall name e, Elements.getElement es name = Ok e -> first_word name <> "dummytext") by (intros name e H; apply C53_elements in H; destruct H as [-> _]; discriminate).
  assert (W : forall e, In e ["Fe"] -> one_word e) by (intros e [<-|[]]; reflexivity).
  destruct (C78_library tostr 1 1 lf C53_history sortf sortr debug lfd C53_config [foil] [] ["Fe"] ["K"] [0%Z] 0 1 0 limit beam_init r r' PL SORT ND W HK R' "Fe K" 0%nat "KL3" eq_refl) as (A & B & C).
  split; [apply A, HL|]. split; [apply B; left; reflexivity|]. apply (proj2 (proj2 (C Z.le_0_1)) foil); reflexivity.
Qed.
End Example78.
Print Assumptions C78_example.
