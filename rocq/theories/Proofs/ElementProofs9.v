(** Non-negative results in every history of calls with non-negative partial tables. *)
From Coq Require Import Ascii String List ZArith Bool Reals Lra Lia Sorted.
From Verif Require Import Base.Num Base.Res Base.RSum Base.SMap Base.Str Base.ListLemmas
  Model.Shell Model.Element Spec.ShellSpec Spec.ElementSpec Proofs.ShellProofs
  Proofs.ElementProofs Proofs.ElementProofs2 Proofs.ElementProofs3 Proofs.ElementProofs4 Proofs.ElementProofs8.
Import ListNotations.
Local Open Scope string_scope.
Local Open Scope R_scope.
Local Existing Instance RNum.

Section Tables.
Variable P : tab -> Prop.
Let FP (c : list (R * tab)) : Prop := Forall (fun kv => P (snd kv)) c.
Lemma assign_P k (r : res tab) c c' s : (forall t, r = Ok t -> P t) -> @cacheAssign RNum tab false k [] r c = (c', s) -> FP c -> FP c'.
Proof.
  intros Hr H Hc. unfold cacheAssign in H. destruct r as [t| | |]; injection H as <- <-; try exact Hc.
  apply Forall_mset_gen; [intros; apply Hr; reflexivity|exact Hc].
Qed.
Variable e : el.
Hypothesis HP : forall E t, getMassAttenuationCoefficients (uncached e) E = Ok t -> P t.
Lemma fillLoop_P ens : forall mc xc mc' xc' r, fillLoop false (uncached e) ens mc xc = (mc', xc', r) -> FP mc -> FP mc'.
Proof.
  induction ens as [|en ens IH]; intros mc xc mc' xc' r H Hm; cbn [fillLoop] in H; [injection H as <- <- <-; exact Hm|].
  unfold fillOne in H. destruct (cacheAssign false en [] (getMassAttenuationCoefficients (uncached e) en) mc) as [mc1 r1] eqn:E1.
  assert (H1 : FP mc1) by (eapply assign_P; [|exact E1|exact Hm]; intros t Ht; eapply HP, Ht).
  destruct r1 as [u| | |]; try (injection H as <- <- <-; exact H1).
  destruct (cacheAssign false en [] (getPhotoelectricExcitationFactors (uncached e) en n1) xc) as [xc1 r2].
  destruct r2 as [u'| | |]; try (injection H as <- <- <-; exact H1). eapply IH; [exact H|exact H1].
Qed.
Lemma updateLoop_P ens : forall mc xc mc' xc' r, updateLoop false (uncached e) ens mc xc = (mc', xc', r) -> FP mc -> FP mc'.
Proof.
  induction ens as [|en ens IH]; intros mc xc mc' xc' r H Hm; cbn [updateLoop] in H; [injection H as <- <- <-; exact Hm|].
  unfold updateOne in H. destruct (Nat.ltb (length mc) cacheMaximumSize); [|eapply IH; eassumption].
  destruct (if mmem nltb en mc then _ else _) as [mc1 r1] eqn:E1.
  assert (H1 : FP mc1).
  { destruct (mmem nltb en mc); [injection E1 as <- <-; exact Hm|]. eapply assign_P; [|exact E1|exact Hm]. intros t Ht; eapply HP, Ht. }
  destruct r1 as [u| | |]; try (injection H as <- <- <-; exact H1).
  destruct (mmem nltb en xc); [eapply IH; eassumption|].
  destruct (cacheAssign false en [] (getPhotoelectricExcitationFactors (uncached e) en n1) xc) as [xc1 r2].
  destruct r2 as [u'| | |]; try (injection H as <- <- <-; exact H1). eapply IH; [exact H|exact H1].
Qed.
End Tables.

Definition nonneg_table (t : tab) : Prop := forall k, In k photo_names -> 0 <= value_or_0 k t.
Definition nonneg_inv (e : el) : Prop := others_nonneg e /\ msorted sltb (el_ppV e) /\ Forall (fun kv => nonneg_table (snd kv)) (el_muCache e).
Lemma uncached_nonneg (e : el) (E : R) t : others_nonneg e -> getMassAttenuationCoefficients (uncached e) E = Ok t -> nonneg_table t.
Proof.
  intros Ho. unfold getMassAttenuationCoefficients. destruct (Nat.ltb _ _); [discriminate|]. cbn [el_cacheFlag uncached setCacheEnabled with_cache Z.eqb negb].
  intros H k Hk. exact (computeMu_nonneg (uncached e) E t k Ho H Hk).
Qed.

Lemma ppV_same lf (e : el) o : (forall s g v, o <> ESetPartial s g v) -> el_ppV (fst (el_call lf e o)) = el_ppV e.
Proof.
  intros Hn. destruct o; cbn [el_call]; try reflexivity; try (exfalso; eapply Hn; reflexivity).
  - unfold setAtomicMass. destruct (nltb a n0); reflexivity.
  - unfold setAtomicNumber. destruct (z <? 1)%Z; reflexivity.
  - unfold setBindingEnergies. destruct (bindingLoop m [] []) as [[b s] r]. reflexivity.
  - unfold setBindingEnergies_vec, setBindingEnergies. destruct (negb _); [reflexivity|].
    destruct (bindingLoop _ [] []) as [[b s] r]. reflexivity.
  - unfold setMassAttenuationCoefficients. cbn zeta.
    repeat (match goal with |- context [if ?c then (e, Throw InvalidArgument) else _] => destruct c; [reflexivity|] end). reflexivity.
  - unfold setRadiativeTransitions_vec, onShell. destruct (shellGuard e shell); try reflexivity.
    destruct (Shell.setRadiativeTransitions_vec _ _ _) as [s' [u| | |]]; reflexivity.
  - unfold setRadiativeTransitions_map, onShell. destruct (shellGuard e shell); try reflexivity.
    destruct (Shell.setRadiativeTransitions_map _ _) as [s' [u| | |]]; reflexivity.
  - unfold setNonradiativeTransitions_vec, onShell. destruct (shellGuard e shell); try reflexivity.
    destruct (Shell.setNonradiativeTransitions_vec _ _ _) as [s' [u| | |]]; reflexivity.
  - unfold setNonradiativeTransitions_map, onShell. destruct (shellGuard e shell); try reflexivity.
    destruct (Shell.setNonradiativeTransitions_map _ _) as [s' [u| | |]]; reflexivity.
  - unfold setShellConstants, onShell. destruct (getShell e shell); try reflexivity.
    destruct (Shell.setShellConstants _ _) as [s' [u| | |]]; reflexivity.
  - unfold extractEdges. set (e1 := if mmem sltb "photoelectric" (el_mu e) then e else _).
    assert (A : el_ppV e1 = el_ppV e) by (unfold e1; destruct (mmem _ _ _); reflexivity). clearbody e1.
    destruct (mfind sltb "photoelectric" (el_mu e1)) as [[|p ps]|]; try exact A.
    destruct (mfind sltb "energy" (el_mu e1)) as [en|]; unfold extractEdges_from;
      repeat match goal with |- context [if ?c then (_, Throw RuntimeError) else _] => destruct c; [exact A|] end;
      destruct (edgeLoop _ _ _ _); exact A.
  - unfold extractEdges_from.
    repeat match goal with |- context [if ?c then (_, Throw RuntimeError) else _] => destruct c; [reflexivity|] end.
    destruct (edgeLoop _ _ _ _); reflexivity.
  - unfold setCascadeCacheEnabled, fillCascadeCache. destruct (flag =? 0)%Z; [reflexivity|]. destruct (Nat.ltb _ _); [|reflexivity].
    destruct (fillCascLoop _ _ _ _) as [c [u| | |]]; reflexivity.
  - unfold fillCascadeCache. destruct (fillCascLoop _ _ _ _) as [c [u| | |]]; reflexivity.
  - unfold fillCache. destruct (fillLoop _ _ _ _ _) as [[mc xc] r]. reflexivity.
  - unfold updateCache. destruct (updateLoop _ _ _ _ _) as [[mc xc] r]. reflexivity.
Qed.

Lemma setPartial_others (e : el) s g v : others_nonneg e -> Forall (fun x => 0 <= x) v -> msorted sltb (el_ppV e) ->
  others_nonneg (fst (setPartialPhotoelectric e s g v)) /\ msorted sltb (el_ppV (fst (setPartialPhotoelectric e s g v))).
Proof.
  intros Ho Hv Hs. unfold setPartialPhotoelectric.
  repeat (match goal with |- context [if ?c then (e, Throw InvalidArgument) else _] => destruct c; [split; [exact Ho|exact Hs]|] end). cbn zeta.
  assert (S : forall V, msorted sltb (mset sltb s V (el_ppV e))) by (intros V; apply smset_sorted, Hs).
  destruct (String.eqb_spec s "all other") as [->|Hn].
  - split; [|apply S]. cbn [fst]. intros y Hy. cbn [el_ppV with_pp clearCache with_cache] in Hy. rewrite smfind_mset_same in Hy. apply (f_equal (fun o => match o with Some a => a | None => y end)) in Hy; cbn in Hy. subst y. exact Hv.
  - assert (K : forall V y, mfind sltb "all other" (mset sltb s V (el_ppV e)) = Some y -> Forall (fun x => 0 <= x) y).
    { intros V y Hy. rewrite smfind_mset_other in Hy; [|assumption|exact Hs]. apply Ho, Hy. }
    repeat match goal with |- context [@combine ?A ?B ?a ?b] => destruct (@combine A B a b) as [|[? ?] [|? ?]] end; cbn [fst]; (split; [intros y Hy; eapply K; exact Hy|apply S]).
Qed.

Lemma nonneg_step (e : el) o : nonneg_op o -> nonneg_inv e -> nonneg_inv (fst (el_call false e o)).
Proof.
  intros Hop (Ho & Hs & Hc). cut ((others_nonneg (fst (el_call false e o)) /\ msorted sltb (el_ppV (fst (el_call false e o)))) /\ Forall (fun kv => nonneg_table (snd kv)) (el_muCache (fst (el_call false e o)))).
  { intros [[A B] C]. split; [exact A|]. split; [exact B|exact C]. }
  split.
  - assert (D : (exists s g v, o = ESetPartial s g v) \/ forall s g v, o <> ESetPartial s g v).
    { destruct o; try (right; intros; discriminate). left; eauto. }
    destruct D as [(s & g & v & ->)|D].
    + exact (setPartial_others e s g v Ho Hop Hs).
    + unfold others_nonneg. rewrite (ppV_same false e o D). split; [exact Ho|exact Hs].
  - assert (D : is_fill o \/ ~ is_fill o) by (destruct o; cbn; tauto). destruct D as [D|D].
    + destruct o; try destruct D; cbn [el_call].
      * unfold fillCache. destruct (fillLoop _ _ _ _ _) as [[mc xc] r] eqn:E. cbn [fst el_muCache with_cache].
        eapply fillLoop_P; [|exact E|constructor]. intros E' t. apply uncached_nonneg, Ho.
      * unfold updateCache. destruct (updateLoop _ _ _ _ _) as [[mc xc] r] eqn:E. cbn [fst el_muCache with_cache].
        eapply updateLoop_P; [|exact E|exact Hc]. intros E' t. apply uncached_nonneg, Ho.
    + destruct (call_caches false e o D) as [[A _]|[A _]]; rewrite A; [exact Hc|constructor].
Qed.
Lemma nonneg_run ops : forall e : el, Forall nonneg_op ops -> nonneg_inv e -> nonneg_inv (el_run false e ops).
Proof.
  induction ops as [|o ops IH]; intros e Hop H; [exact H|]. inversion Hop; subst.
  change (el_run false e (o :: ops)) with (el_run false (fst (el_call false e o)) ops). apply IH; [assumption|]. apply nonneg_step; assumption.
Qed.
Lemma nonneg_fresh (e : el) : fresh e -> nonneg_inv e.
Proof.
  intros H. assert (A : el_muCache e = [] /\ el_ppV e = emptyPartials).
  { destruct H as [->|(name & z & H)]; [split; reflexivity|]. unfold element_new in H. destruct (z <? 1)%Z; [discriminate|]. injection H as <-. split; reflexivity. }
  destruct A as [A B]. split; [|split; [rewrite B; repeat constructor|rewrite A; constructor]]. intros y Hy. rewrite B in Hy. injection Hy as <-. constructor.
Qed.
Lemma inv_nonneg (e : el) (E : R) t : nonneg_inv e -> getMassAttenuationCoefficients e E = Ok t -> nonneg_table t.
Proof.
  intros (Ho & _ & Hc) H. unfold getMassAttenuationCoefficients in H. destruct (Nat.ltb _ _); [discriminate|].
  destruct (el_cacheFlag e).
  - destruct (mfind nltb E (el_muCache e)) as [t'|] eqn:F.
    + injection H as <-. apply rfind_In in F as (k & F). rewrite Forall_forall in Hc. apply (Hc _ F).
    + intros k Hk. exact (computeMu_nonneg e E t k Ho H Hk).
  - intros k Hk. exact (computeMu_nonneg e E t k Ho H Hk).
Qed.
