(** The material registry of Elements. *)
From Coq Require Import String List ZArith Reals Bool Lia Arith.
From Verif Require Import Base.Num Base.Res Base.RSum Base.SMap Base.ListLemmas Model.Material Model.Shell Model.Element Model.Formula Model.Elements
  Spec.MaterialSpec Spec.ElementSpec Spec.ElementsSpec Proofs.ElementsProofs.
Import ListNotations.
Local Open Scope string_scope.

Section Any.
Context {N : Num}.
Variables (tostr : num -> string) (depth fuel : nat) (lf : bool).
Local Notation call := (es_call tostr depth fuel lf).
Local Notation run := (es_run tostr depth fuel lf).
Local Notation names l := (map (@Material.getName N) l).

Lemma index_find (l : list (@material N)) n : nth_error l (materialIndex l n) = find (named n) l.
Proof. induction l as [|m l IH]; cbn; [reflexivity|]. unfold named at 1. destruct (String.eqb _ _); [reflexivity|exact IH]. Qed.
Lemma index_le (l : list (@material N)) n : (materialIndex l n <= length l)%nat.
Proof. induction l as [|m l IH]; cbn; [lia|]. destruct (String.eqb _ _); lia. Qed.
Lemma index_has (l : list (@material N)) n : Nat.ltb (materialIndex l n) (length l) = has n l.
Proof.
  induction l as [|m l IH]; [reflexivity|]. cbn [materialIndex has existsb length]. unfold named at 1.
  destruct (String.eqb _ _); [reflexivity|]. cbn [orb]. exact IH.
Qed.
Lemma index_leb (l : list (@material N)) n : Nat.leb (length l) (materialIndex l n) = negb (has n l).
Proof. rewrite <- index_has, Nat.ltb_antisym. now rewrite negb_involutive. Qed.

Lemma named_iff n (m : @material N) : named n m = true <-> Material.getName m = n.
Proof. apply String.eqb_eq. Qed.
Lemma has_iff n (l : list (@material N)) : has n l = true <-> In n (names l).
Proof.
  unfold has. rewrite existsb_exists, in_map_iff. split; intros [m H]; exists m.
  - destruct H as [I E]. apply named_iff in E. auto.
  - destruct H as [E I]. split; [exact I|]. apply named_iff, E.
Qed.
Lemma has_find n (l : list (@material N)) : has n l = match find (named n) l with Some _ => true | None => false end.
Proof. induction l as [|m l IH]; cbn; [reflexivity|]. destruct (named n m); [reflexivity|exact IH]. Qed.

Lemma update_absent n f (l : list (@material N)) : ~ In n (names l) -> update n f l = l.
Proof.
  induction l as [|m l IH]; intros H; [reflexivity|]. cbn. destruct (named n m) eqn:E.
  - exfalso. apply H. left. apply named_iff, E.
  - f_equal. apply IH. intros I. apply H. right. exact I.
Qed.
Lemma without_absent n (l : list (@material N)) : ~ In n (names l) -> without n l = l.
Proof.
  induction l as [|m l IH]; intros H; [reflexivity|]. cbn. destruct (named n m) eqn:E; cbn.
  - exfalso. apply H. left. apply named_iff, E.
  - f_equal. apply IH. intros I. apply H. right. exact I.
Qed.
Lemma set_update n f (l : list (@material N)) m : NoDup (names l) -> find (named n) l = Some m ->
  set_nth l (materialIndex l n) (f m) = update n f l.
Proof.
  induction l as [|x l IH]; intros ND F; [discriminate|]. cbn [materialIndex find update map] in *. inversion ND as [|? ? NI ND']; subst.
  unfold named at 1 in F. unfold named at 1. destruct (String.eqb_spec (Material.getName x) n) as [E|E].
  - injection F as ->. cbn. f_equal. symmetry. apply update_absent. congruence.
  - cbn. f_equal. apply IH; assumption.
Qed.
Lemma erase_without n (l : list (@material N)) : NoDup (names l) -> erase_nth l (materialIndex l n) = without n l.
Proof.
  induction l as [|x l IH]; intros ND; [reflexivity|]. cbn [materialIndex without filter]. inversion ND as [|? ? NI ND']; subst.
  unfold named at 1. destruct (String.eqb_spec (Material.getName x) n) as [E|E]; cbn.
  - symmetry. apply without_absent. congruence.
  - f_equal. apply IH; assumption.
Qed.
Lemma update_names n f (l : list (@material N)) : (forall m, In m l -> Material.getName m = n -> Material.getName (f m) = n) -> names (update n f l) = names l.
Proof.
  induction l as [|x l IH]; intros H; [reflexivity|]. cbn. destruct (named n x) eqn:E.
  - apply named_iff in E. f_equal; [rewrite E; apply H; [left; reflexivity|exact E]|]. apply IH. intros m I. apply H. right. exact I.
  - f_equal. apply IH. intros m I. apply H. right. exact I.
Qed.
Lemma without_names n (l : list (@material N)) : names (without n l) = filter (fun s => negb (String.eqb s n)) (names l).
Proof. induction l as [|x l IH]; [reflexivity|]. cbn. unfold named. destruct (String.eqb _ _); cbn; [exact IH|f_equal; exact IH]. Qed.
Lemma without_not_in n (l : list (@material N)) : ~ In n (names (without n l)).
Proof. rewrite without_names, filter_In. intros [_ H]. rewrite String.eqb_refl in H. discriminate. Qed.

Lemma setComp_name (m : @material N) ns xs : Material.getName (fst (setComposition_vec m ns xs)) = Material.getName m.
Proof. unfold setComposition_vec. destruct (negb _); [reflexivity|]. destruct (existsb _ _); reflexivity. Qed.

Lemma onMaterial_update es n f : NoDup (names (es_mats es)) ->
  es_mats (fst (onMaterial es n f)) = update n (fun m => fst (f m)) (es_mats es).
Proof.
  intros ND. unfold onMaterial, getMaterialIndexFromName. rewrite index_find. destruct (find (named n) (es_mats es)) as [m|] eqn:F.
  - pose proof (set_update n (fun m => fst (f m)) _ m ND F) as K. cbv beta in K. destruct (f m) as [m' r] eqn:Q. exact K.
  - cbn. symmetry. apply update_absent. rewrite <- has_iff, has_find, F. discriminate.
Qed.

Lemma formula_mats es es' n : es_dict es' = es_dict es -> es_list es' = es_list es ->
  getCompositionFromFormula tostr depth es' n = getCompositionFromFormula tostr depth es n.
Proof.
  intros D L. unfold getCompositionFromFormula. destruct (parseFormula tostr depth n) as [p| | |]; try reflexivity.
  cbn. destruct p as [|x p]; [reflexivity|]. f_equal.
  assert (M : forall l, formulaMasses es' l = formulaMasses es l).
  { induction l as [|[a b] l IH]; [reflexivity|]. cbn. rewrite D, L, IH. reflexivity. }
  apply M.
Qed.

Lemma find_last n (l : list (@material N)) m : ~ In n (names l) -> Material.getName m = n -> find (named n) (l ++ [m]) = Some m.
Proof.
  intros H E. induction l as [|x l IH]; cbn.
  - unfold named. rewrite E, String.eqb_refl. reflexivity.
  - destruct (named n x) eqn:Q; [exfalso; apply H; left; apply named_iff, Q|]. apply IH. intros I. apply H. right. exact I.
Qed.
Lemma update_app n f (a b : list (@material N)) : update n f (a ++ b) = (update n f a ++ update n f b)%list.
Proof. apply map_app. Qed.

Lemma NoDup_snoc {A} (l : list A) x : NoDup l -> ~ In x l -> NoDup (l ++ [x]).
Proof. intros H I. apply NoDup_rev in H; rewrite <- (rev_involutive (l ++ [x])), rev_app_distr; apply NoDup_rev; cbn; constructor; [rewrite <- in_rev; exact I|exact H]. Qed.
Lemma NoDup_filter' {A} (f : A -> bool) l : NoDup l -> NoDup (filter f l).
Proof. apply NoDup_filter. Qed.

Lemma init_name (m m' : @material N) n d t c u : initialize m n d t c = (m', Ok u) -> Material.getName m' = n.
Proof.
  unfold initialize. intros H. repeat (match type of H with (if ?b then _ else _) = _ => destruct b end; try discriminate).
  injection H as <- <-. reflexivity.
Qed.

Lemma call_mats es o : NoDup (names (es_mats es)) ->
  es_mats (fst (call es o)) = materials_step tostr depth es (es_mats es) o /\ NoDup (names (materials_step tostr depth es (es_mats es) o)).
Proof.
  intros ND. destruct o; cbn [es_call materials_step].
  - split; [|exact ND]. unfold addElement. cbn. destruct (mfind _ _ _); reflexivity.
  - split; [|exact ND]. unfold onElement. destruct (isElementNameDefined _ _); [|reflexivity]. destruct (mfind _ _ _) as [i|]; [|reflexivity].
    destruct (nth_error _ _) as [e|]; [|reflexivity]. destruct (el_call _ _ _). reflexivity.
  - unfold addMaterial_new, getMaterialIndexFromName. rewrite index_has.
    destruct (has name (es_mats es) && negb (errorOnReplace =? 0)%Z) eqn:R; [split; [reflexivity|exact ND]|].
    set (es1 := if has name (es_mats es) then _ else es).
    assert (M1 : es_mats es1 = without name (es_mats es)).
    { unfold es1. destruct (has name (es_mats es)) eqn:Hh.
      - unfold removeMaterial, getMaterialIndexFromName. rewrite index_leb, Hh. cbn. apply erase_without, ND.
      - symmetry. apply without_absent. rewrite <- has_iff, Hh. discriminate. }
    assert (NDw : NoDup (names (without name (es_mats es)))) by (rewrite without_names; apply NoDup_filter', ND).
    assert (DL : es_dict es1 = es_dict es /\ es_list es1 = es_list es) by (unfold es1; destruct (has _ _); [apply erased_same|auto]).
    destruct (initialize material_default name density thickness comment) as [m [u| | |]] eqn:I; try (split; [exact M1|exact NDw]).
    pose proof (init_name _ _ _ _ _ _ _ I) as Nm.
    assert (F : getCompositionFromFormula tostr depth (with_mats es1 (es_mats es1 ++ [m])%list) name = getCompositionFromFormula tostr depth es name)
      by (apply formula_mats; [exact (proj1 DL)|exact (proj2 DL)]).
    rewrite F. unfold made_from_name. rewrite Nm.
    assert (NDa : forall x, Material.getName x = name -> NoDup (names (without name (es_mats es) ++ [x])%list)).
    { intros x Hx. rewrite map_app. cbn. rewrite Hx. apply NoDup_snoc; [exact NDw|apply without_not_in]. }
    destruct (getCompositionFromFormula tostr depth es name) as [[|x cc]| | |]; cbn [fst with_mats es_mats]; rewrite ?M1; try (split; [reflexivity|apply NDa, Nm]).
    split; [|apply NDa; unfold setComposition_map; rewrite setComp_name; exact Nm].
    unfold setMaterialComposition_map. rewrite onMaterial_update; cbn [with_mats es_mats].
    + rewrite update_app, update_absent by apply without_not_in. cbn. unfold named. rewrite Nm, String.eqb_refl. reflexivity.
    + apply NDa, Nm.
  - unfold addMaterial_mat, getMaterialIndexFromName. rewrite index_has. destruct (has (Material.getName m) (es_mats es)) eqn:H.
    + destruct (errorOnReplace =? 0)%Z; cbn [negb fst]; [|split; [reflexivity|exact ND]].
      split; [|rewrite update_names; [exact ND|auto]]. cbn [with_mats es_mats]. pose proof H as H'. rewrite has_find in H'.
      destruct (find (named (Material.getName m)) (es_mats es)) as [m0|] eqn:F; [|discriminate].
      exact (set_update (Material.getName m) (fun _ => m) _ m0 ND F).
    + cbn. split; [reflexivity|]. rewrite map_app. apply NoDup_snoc; [exact ND|]. rewrite <- has_iff. congruence.
  - split; [|rewrite without_names; apply NoDup_filter', ND]. unfold removeMaterial, getMaterialIndexFromName. rewrite index_leb.
    destruct (has name (es_mats es)) eqn:H; cbn; [apply erase_without, ND|]. symmetry. apply without_absent. rewrite <- has_iff. congruence.
  - split; [reflexivity|constructor].
  - split; [apply onMaterial_update, ND|]. rewrite update_names; [exact ND|]. intros m _ <-. apply setComp_name.
  - split; [apply onMaterial_update, ND|]. rewrite update_names; [exact ND|]. intros m _ <-. apply setComp_name.
  - split; [reflexivity|exact ND].
  - split; [reflexivity|exact ND].
  - split; [apply update_same|exact ND].
Qed.
Lemma run_mats ops : forall es, NoDup (names (es_mats es)) ->
  es_mats (run es ops) = materials_after tostr depth fuel lf es (es_mats es) ops /\ NoDup (names (es_mats (run es ops))).
Proof.
  induction ops as [|o ops IH]; intros es ND; [split; [reflexivity|exact ND]|].
  destruct (call_mats es o ND) as [E ND']. cbn [materials_after]. rewrite <- E. rewrite <- E in ND'. exact (IH _ ND').
Qed.
Lemma getMaterial_find es n : getMaterial es n = match find (named n) (es_mats es) with Some m => Ok m | None => Throw InvalidArgument end.
Proof. unfold getMaterial, getMaterialIndexFromName. rewrite index_find. destruct (find _ _); reflexivity. Qed.

(** outcomes *)
Lemma refused_unchanged es o : refused (es_mats es) o = true -> call es o = (es, Throw InvalidArgument).
Proof.
  destruct o; cbn [refused es_call]; try discriminate.
  - intros H. unfold addMaterial_new, getMaterialIndexFromName. rewrite index_has, H. reflexivity.
  - intros H. apply andb_true_iff in H. destruct H as [H1 H2]. unfold addMaterial_mat, getMaterialIndexFromName. rewrite index_has, H1, H2. reflexivity.
  - intros H. unfold removeMaterial, getMaterialIndexFromName. rewrite index_leb, H. reflexivity.
  - intros H. unfold setMaterialComposition_vec, onMaterial, getMaterialIndexFromName. rewrite index_find.
    rewrite has_find in H. destruct (find _ _); [discriminate|reflexivity].
  - intros H. unfold setMaterialComposition_map, onMaterial, getMaterialIndexFromName. rewrite index_find.
    rewrite has_find in H. destruct (find _ _); [discriminate|reflexivity].
Qed.
Lemma accepted_ok es o : refused (es_mats es) o = false -> match o with MAdd _ _ | MRemove _ => snd (call es o) = Ok tt | _ => True end.
Proof.
  destruct o; try (intros _; exact I); cbn [refused es_call]; intros H.
  - unfold addMaterial_mat, getMaterialIndexFromName. rewrite index_has. destruct (has _ _); [|reflexivity].
    cbn in H. rewrite H. reflexivity.
  - unfold removeMaterial, getMaterialIndexFromName. rewrite index_leb, H. reflexivity.
Qed.
End Any.
