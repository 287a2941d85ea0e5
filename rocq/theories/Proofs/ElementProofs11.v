(** Cache flags, completeness of the fill, cascade cache after new constants. *)
From Coq Require Import String List ZArith Reals Bool Lra Lia Arith.
From Verif Require Import Base.Num Base.Res Base.RSum Base.SMap Base.ListLemmas Model.Shell Model.Element Spec.ShellSpec Spec.ElementSpec.
Import ListNotations.
Local Open Scope string_scope.

Section Any.
Context {N : Num}.

Lemma bindingLoop_flag (e : element) m : el_cacheFlag (fst (setBindingEnergies e m)) = el_cacheFlag e.
Proof. unfold setBindingEnergies. destruct (bindingLoop m [] []) as [[b s] r]. destruct r; reflexivity. Qed.

Lemma onShell_flag e sub r f fin : (forall x, el_cacheFlag (fin x) = el_cacheFlag x) ->
  el_cacheFlag (fst (onShell e sub r f fin)) = el_cacheFlag e.
Proof.
  intros F. unfold onShell. destruct r as [s| | |]; try reflexivity.
  destruct (f s) as [s' [u| | |]]; cbn; try reflexivity. rewrite F. reflexivity.
Qed.

Lemma edges_from_flag e a b : el_cacheFlag (fst (extractEdges_from e a b)) = el_cacheFlag e.
Proof.
  unfold extractEdges_from. repeat match goal with |- context [if ?c then _ else _] => destruct c; [reflexivity|] end.
  destruct (edgeLoop _ _ _ _) as [x y]. reflexivity.
Qed.
Lemma edges_flag e : el_cacheFlag (fst (extractEdges e)) = el_cacheFlag e.
Proof.
  unfold extractEdges.
  set (e1 := if mmem sltb "photoelectric" (el_mu e) then e else _).
  assert (F : el_cacheFlag e1 = el_cacheFlag e) by (unfold e1; destruct (mmem _ _ _); reflexivity).
  destruct (mfind sltb "photoelectric" (el_mu e1)) as [[|p ps]|]; try exact F.
  destruct (mfind sltb "energy" (el_mu e1)); rewrite edges_from_flag; exact F.
Qed.
Lemma fillCasc_flag lf e : el_cacheFlag (fst (fillCascadeCache lf e)) = el_cacheFlag e.
Proof. unfold fillCascadeCache. destruct (fillCascLoop _ _ _ _) as [c [u| | |]]; reflexivity. Qed.
Lemma setCasc_flag lf e f : el_cacheFlag (fst (setCascadeCacheEnabled lf e f)) = el_cacheFlag e.
Proof.
  unfold setCascadeCacheEnabled. destruct (f =? 0)%Z; [reflexivity|]. destruct (Nat.ltb _ _); [|reflexivity].
  pose proof (fillCasc_flag lf e) as F. destruct (fillCascadeCache lf e) as [e' [u| | |]]; exact F.
Qed.

Lemma call_flag lf e o : isCacheEnabled (fst (el_call lf e o)) =
  match o with ESetCache f => negb (Z.eqb f 0) | _ => isCacheEnabled e end.
Proof.
  unfold isCacheEnabled. destruct o; cbn [el_call]; try reflexivity.
  - unfold setAtomicMass. destruct (_ <? _)%num; reflexivity.
  - unfold setAtomicNumber. destruct (_ <? _)%Z; reflexivity.
  - apply bindingLoop_flag.
  - unfold setBindingEnergies_vec. destruct (negb _); [reflexivity|apply bindingLoop_flag].
  - unfold setMassAttenuationCoefficients. repeat match goal with |- context [if ?c then (_, Throw _) else _] => destruct c; [reflexivity|] end. reflexivity.
  - unfold setPartialPhotoelectric. repeat match goal with |- context [if ?c then (_, Throw _) else _] => destruct c; [reflexivity|] end.
    destruct (String.eqb _ _); [reflexivity|]. destruct (combine _ _) as [|[a b] [|c l]]; reflexivity.
  - apply onShell_flag. reflexivity.
  - apply onShell_flag. reflexivity.
  - apply onShell_flag. reflexivity.
  - apply onShell_flag. reflexivity.
  - apply onShell_flag. reflexivity.
  - pose proof (edges_flag e) as F. destruct (extractEdges e). exact F.
  - match goal with |- context [extractEdges_from e ?a ?b] => pose proof (edges_from_flag e a b) as F; destruct (extractEdges_from e a b) end. exact F.
  - apply setCasc_flag.
  - apply fillCasc_flag.
  - unfold fillCache. destruct (fillLoop _ _ _ _ _) as [[a b] r]. reflexivity.
  - unfold updateCache. destruct (updateLoop _ _ _ _ _) as [[a b] r]. reflexivity.
Qed.

Lemma run_flag lf ops : forall e, isCacheEnabled (el_run lf e ops) = last_cache_flag (isCacheEnabled e) ops.
Proof.
  induction ops as [|o ops IH]; intros e; [reflexivity|].
  unfold el_run, last_cache_flag in *. cbn [fold_left]. rewrite IH, call_flag. reflexivity.
Qed.

(** a successful setShellConstants empties the cascade cache *)
Lemma constants_empty lf e sub m e' : el_call lf e (ESetConst sub m) = (e', Ok tt) -> isCascadeCacheFilled e' = 0%nat.
Proof.
  cbn [el_call]. unfold setShellConstants, onShell. intros H.
  destruct (getShell e sub) as [s| | |]; try discriminate.
  destruct (Shell.setShellConstants s m) as [s' [u| | |]]; try discriminate.
  injection H as <-. reflexivity.
Qed.
Lemma empty_is_direct lf e d c y : isCascadeCacheFilled e = 0%nat ->
  getXRayLinesFromVacancyDistribution e d c y = getXRayLinesFromVacancyDistribution (fst (setCascadeCacheEnabled lf e 0)) d c y.
Proof.
  unfold isCascadeCacheFilled. intros H. unfold getXRayLinesFromVacancyDistribution.
  cbn [setCascadeCacheEnabled fst with_casc el_cascFlag el_cascCache Z.eqb andb].
  rewrite H. cbn [Nat.ltb Nat.leb]. rewrite !andb_false_r. reflexivity.
Qed.

End Any.

(** completeness of the fill *)
Local Existing Instance RNum.
Lemma assign_keys {A} lf (k : R) (d : A) r c c' : cacheAssign lf k d r c = (c', Ok tt) -> msorted Rltb c ->
  msorted Rltb c' /\ forall x, In x (map fst c') <-> x = k \/ In x (map fst c).
Proof.
  unfold cacheAssign. intros H S. destruct r as [v| | |]; try discriminate. injection H as <-.
  split; [apply (@mset_sorted R A Rltb Rltb_total), S|].
  intros x. exact (@mset_keys_In R A Rltb Rltb_total k v c x S).
Qed.
Lemma fillLoop_keys lf e ens : forall mc xc mc' xc', fillLoop lf e ens mc xc = (mc', xc', Ok tt) ->
  msorted Rltb mc -> msorted Rltb mc' /\ forall x, In x (map fst mc') <-> In x ens \/ In x (map fst mc).
Proof.
  induction ens as [|en ens IH]; intros mc xc mc' xc' H S; cbn [fillLoop] in H.
  - injection H as <- <-. split; [exact S|]. intros x; cbn; tauto.
  - unfold fillOne in H.
    destruct (cacheAssign lf en [] (getMassAttenuationCoefficients e en) mc) as [mc1 r1] eqn:E1. destruct r1 as [[]| | |]; try discriminate.
    destruct (cacheAssign lf en [] (getPhotoelectricExcitationFactors e en n1) xc) as [xc1 r2] eqn:E2. destruct r2 as [[]| | |]; try discriminate.
    destruct (assign_keys _ _ _ _ _ _ E1 S) as [S1 K1]. destruct (IH _ _ _ _ H S1) as [S2 K2]. split; [exact S2|].
    intros x. rewrite K2, K1. cbn [In]. intuition congruence.
Qed.

Lemma fill_complete lf (e e' : element) (ens : list R) : fillCache lf e ens = (e', Ok tt) ->
  getCacheSize e' = length (nodup Req_EM_T (firstn (N.to_nat 10000) ens)).
Proof.
  unfold fillCache. intros H. change cacheMaximumSize with (N.to_nat 10000) in H.
  match type of H with context [fillLoop ?a ?b ?c ?d ?f] => destruct (fillLoop a b c d f) as [[mc xc] r] eqn:E end.
  injection H as <- ->. unfold getCacheSize. cbn [with_cache el_muCache].
  destruct (fillLoop_keys _ _ _ _ _ _ _ E (@msorted_nil R _ Rltb)) as [S K].
  refine (eq_trans (eq_sym (map_length fst mc)) _). apply Permutation.Permutation_length. apply Permutation.NoDup_Permutation.
  - exact (@msorted_NoDup R _ Rltb Rltb_total mc S).
  - apply NoDup_nodup.
  - intros x. refine (iff_trans (K x) _). rewrite nodup_In. cbn. tauto.
Qed.
