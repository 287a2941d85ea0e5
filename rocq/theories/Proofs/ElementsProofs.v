(** Registries of Elements. *)
From Coq Require Import String List ZArith Reals Bool Lia Arith.
From Verif Require Import Base.Num Base.Res Base.RSum Base.SMap Base.ListLemmas Model.Material Model.Shell Model.Element Model.Formula Model.Elements
  Spec.MaterialSpec Spec.ElementSpec Spec.ElementsSpec.
Import ListNotations.
Local Open Scope string_scope.

Section Any.
Context {N : Num}.
Variables (tostr : num -> string) (depth fuel : nat) (lf : bool).
Local Notation call := (es_call tostr depth fuel lf).
Local Notation run := (es_run tostr depth fuel lf).

(** *** lists *)
Lemma set_nth_length {A} (l : list A) i x : length (set_nth l i x) = length l.
Proof. revert i. induction l as [|a l IH]; intros [|i]; cbn; try reflexivity. now rewrite IH. Qed.
Lemma set_nth_same {A} (l : list A) i x : (i < length l)%nat -> nth_error (set_nth l i x) i = Some x.
Proof. revert i. induction l as [|a l IH]; intros [|i] H; cbn in *; try lia; [reflexivity|]. apply IH. lia. Qed.
Lemma set_nth_other {A} (l : list A) i j x : i <> j -> nth_error (set_nth l i x) j = nth_error l j.
Proof. revert i j. induction l as [|a l IH]; intros [|i] [|j] H; cbn; try reflexivity; try congruence. apply IH. congruence. Qed.
Lemma set_nth_map {A B} (f : A -> B) (l : list A) i x a : nth_error l i = Some a -> f x = f a -> map f (set_nth l i x) = map f l.
Proof.
  revert i. induction l as [|b l IH]; intros [|i] H E; cbn in *; try discriminate.
  - injection H as ->. now rewrite E.
  - f_equal. exact (IH _ H E).
Qed.

(** *** the delegates keep the name *)
Lemma delegate_name (e : element) c : el_name (fst (el_call lf e (as_el_op c))) = el_name e.
Proof.
  destruct c; cbn [as_el_op el_call]; try reflexivity.
  - unfold setCascadeCacheEnabled, fillCascadeCache. destruct (_ =? _)%Z; [reflexivity|]. destruct (Nat.ltb _ _); [|reflexivity].
    destruct (fillCascLoop _ _ _ _) as [c [u| | |]]; reflexivity.
  - unfold fillCascadeCache. destruct (fillCascLoop _ _ _ _) as [c [u| | |]]; reflexivity.
  - unfold fillCache. destruct (fillLoop _ _ _ _ _) as [[a b] r]. reflexivity.
  - unfold updateCache. destruct (updateLoop _ _ _ _ _) as [[a b] r]. reflexivity.
Qed.

(** *** element registry *)
Record reg_ok (es : elements) (r : string -> option element) : Prop := {
  ro_sorted : msorted sltb (es_dict es);
  ro_in : forall n i, mfind sltb n (es_dict es) = Some i -> exists e, nth_error (es_list es) i = Some e /\ el_name e = n /\ r n = Some e;
  ro_none : forall n, mfind sltb n (es_dict es) = None -> r n = None;
  ro_all : forall i e, nth_error (es_list es) i = Some e -> mfind sltb (el_name e) (es_dict es) = Some i }.

Lemma reg_ok_ext es es' r : es_dict es' = es_dict es -> es_list es' = es_list es -> reg_ok es r -> reg_ok es' r.
Proof. intros D L [A B C E]. split; rewrite ?D, ?L; assumption. Qed.

Lemma reg_add es r e : reg_ok es r -> reg_ok (addElement es e) (registered_step lf r (RAdd e)).
Proof.
  intros [A B C E]. unfold addElement. destruct (mfind sltb (el_name e) (es_dict es)) as [i|] eqn:F.
  - destruct (B _ _ F) as [e0 [H1 [H2 H3]]].
    assert (Li : (i < length (es_list es))%nat) by (apply nth_error_Some; congruence).
    split; cbn [with_elements es_dict es_list registered_step].
    + exact A.
    + intros n j Hn. destruct (String.eqb_spec n (el_name e)) as [->|Q].
      * assert (j = i) by congruence. subst j. exists e. split; [apply set_nth_same, Li|auto].
      * destruct (B _ _ Hn) as [e1 [K1 [K2 K3]]]. exists e1. split; [|auto]. rewrite set_nth_other; [exact K1|].
        intros ->. apply Q. congruence.
    + intros n Hn. destruct (String.eqb_spec n (el_name e)) as [->|Q]; [congruence|apply C, Hn].
    + intros j e1 Hj. destruct (Nat.eq_dec i j) as [<-|Q].
      * rewrite set_nth_same in Hj by exact Li. injection Hj as <-. exact F.
      * rewrite set_nth_other in Hj by exact Q. exact (E _ _ Hj).
  - assert (Fr : forall n j, mfind sltb n (es_dict es) = Some j -> n <> el_name e) by (intros; congruence).
    split; cbn [with_elements es_dict es_list registered_step].
    + apply smset_sorted, A.
    + intros n j Hn. destruct (String.eqb_spec n (el_name e)) as [->|Q].
      * rewrite smfind_mset_same in Hn. injection Hn as <-. exists e. split; [|auto]. rewrite nth_error_app2, Nat.sub_diag by lia. reflexivity.
      * rewrite smfind_mset_other in Hn by (auto using not_eq_sym). destruct (B _ _ Hn) as [e1 [K1 [K2 K3]]]. exists e1. split; [|auto].
        rewrite nth_error_app1; [exact K1|]. apply nth_error_Some. congruence.
    + intros n Hn. destruct (String.eqb_spec n (el_name e)) as [->|Q]; [rewrite smfind_mset_same in Hn; discriminate|].
      rewrite smfind_mset_other in Hn by auto using not_eq_sym. apply C, Hn.
    + intros j e1 Hj. destruct (Nat.lt_ge_cases j (length (es_list es))) as [L|L].
      * rewrite nth_error_app1 in Hj by exact L. pose proof (E _ _ Hj) as K. rewrite smfind_mset_other; [exact K| |exact A].
        intros Q. apply (Fr _ _ K). auto.
      * rewrite nth_error_app2 in Hj by exact L. destruct (j - length (es_list es))%nat as [|k] eqn:J; cbn in Hj; [|destruct k; discriminate].
        injection Hj as <-. rewrite smfind_mset_same. f_equal. lia.
Qed.

Lemma reg_call es r n c : reg_ok es r -> reg_ok (fst (onElement es n (fun e => el_call lf e (as_el_op c)))) (registered_step lf r (RCall n c)).
Proof.
  intros [A B C E]. unfold onElement, isElementNameDefined.
  destruct (String.eqb_spec n "") as [->|Hn]; cbn [String.length Nat.eqb fst].
  { split; cbn [registered_step]; [exact A| | |exact E].
    - intros m i Hm. rewrite String.eqb_refl, andb_false_r. exact (B _ _ Hm).
    - intros m Hm. rewrite String.eqb_refl, andb_false_r. exact (C _ Hm). }
  assert (Ln : Nat.eqb (String.length n) 0 = false) by (destruct n; [congruence|reflexivity]). rewrite Ln. unfold mmem.
  destruct (mfind sltb n (es_dict es)) as [i|] eqn:F.
  - destruct (B _ _ F) as [e [H1 [H2 H3]]]. rewrite H1.
    destruct (el_call lf e (as_el_op c)) as [e' res] eqn:Q. cbn [fst].
    assert (Ne : el_name e' = n) by (rewrite <- H2, <- (delegate_name e c), Q; reflexivity).
    assert (Li : (i < length (es_list es))%nat) by (apply nth_error_Some; congruence).
    split; cbn [with_elements es_dict es_list registered_step].
    + exact A.
    + intros m j Hm. destruct (String.eqb_spec m n) as [->|Qm].
      * assert (j = i) by congruence. subst j. exists e'. split; [apply set_nth_same, Li|]. split; [exact Ne|].
        destruct (String.eqb_spec n ""); [congruence|]. cbn. rewrite H3. cbn. rewrite Q. reflexivity.
      * destruct (B _ _ Hm) as [e1 [K1 [K2 K3]]]. exists e1. split; [|auto]. rewrite set_nth_other; [exact K1|].
        intros ->. apply Qm. congruence.
    + intros m Hm. destruct (String.eqb_spec m n) as [->|Qm]; [congruence|]. apply C, Hm.
    + intros j e1 Hj. destruct (Nat.eq_dec i j) as [<-|Qj].
      * rewrite set_nth_same in Hj by exact Li. injection Hj as <-. rewrite Ne. exact F.
      * rewrite set_nth_other in Hj by exact Qj. exact (E _ _ Hj).
  - cbn [fst]. split; cbn [registered_step]; [exact A| | |exact E].
    + intros m i Hm. destruct (String.eqb_spec m n) as [->|Qm]; [congruence|]. exact (B _ _ Hm).
    + intros m Hm. pose proof (C _ Hm) as K. rewrite K. destruct (_ && _); reflexivity.
Qed.

(** operations on materials and on the escape cache leave the elements alone *)
Lemma erased_same es n : es_dict (fst (removeMaterial es n)) = es_dict es /\ es_list (fst (removeMaterial es n)) = es_list es.
Proof. unfold removeMaterial. destruct (Nat.leb _ _); split; reflexivity. Qed.
Lemma onMaterial_same es n f : es_dict (fst (onMaterial es n f)) = es_dict es /\ es_list (fst (onMaterial es n f)) = es_list es.
Proof. unfold onMaterial. destruct (nth_error _ _) as [m|]; [destruct (f m)|]; split; reflexivity. Qed.
Lemma updateLoop_same k l : forall es, es_dict (fst (updateEscapeLoop tostr depth lf fuel es k l)) = es_dict es /\
  es_list (fst (updateEscapeLoop tostr depth lf fuel es k l)) = es_list es /\
  es_mats (fst (updateEscapeLoop tostr depth lf fuel es k l)) = es_mats es.
Proof.
  induction l as [|e l IH]; intros es; cbn [updateEscapeLoop]; [auto|].
  destruct (if mmem nltb e (es_esc es) then _ else _) as [c [u| | |]]; cbn [fst]; try (split; [reflexivity|split; reflexivity]).
  destruct (IH (with_esc es c (Some k) (es_escFlag es))) as [-> [-> ->]]. auto.
Qed.
Lemma update_same es k l : es_dict (fst (updateEscapeCache tostr depth lf fuel es k l)) = es_dict es /\
  es_list (fst (updateEscapeCache tostr depth lf fuel es k l)) = es_list es /\
  es_mats (fst (updateEscapeCache tostr depth lf fuel es k l)) = es_mats es.
Proof.
  unfold updateEscapeCache. destruct (isEscapeCacheCompatible es k) as [c| | |]; try (cbn; auto; fail).
  destruct (updateLoop_same k l (if c then es else clearEscapeCache es)) as [-> [-> ->]]. destruct c; auto.
Qed.
Lemma addNew_same es n d t c f : es_dict (fst (addMaterial_new tostr depth es n d t c f)) = es_dict es /\
  es_list (fst (addMaterial_new tostr depth es n d t c f)) = es_list es.
Proof.
  unfold addMaterial_new. destruct (_ && _); [split; reflexivity|].
  set (es1 := if Nat.ltb _ _ then _ else es).
  assert (S1 : es_dict es1 = es_dict es /\ es_list es1 = es_list es) by (unfold es1; destruct (Nat.ltb _ _); [apply erased_same|auto]).
  destruct (initialize material_default n d t c) as [m [u| | |]]; try exact S1.
  destruct (getCompositionFromFormula _ _ _ _) as [[|x cc]| | |]; try exact S1.
  unfold setMaterialComposition_map. destruct (onMaterial_same (with_mats es1 (es_mats es1 ++ [m])%list) n (fun m => setComposition_map m (x :: cc))) as [-> ->]. exact S1.
Qed.

Lemma call_reg es r o : reg_ok es r -> reg_ok (fst (call es o)) (registered_step lf r o).
Proof.
  intros H. destruct o; cbn [es_call registered_step].
  - apply reg_add, H.
  - apply reg_call, H.
  - eapply reg_ok_ext; [apply addNew_same|apply addNew_same|exact H].
  - eapply reg_ok_ext; [| |exact H]; unfold addMaterial_mat; (destruct (Nat.ltb _ _); [destruct (negb _)|]); reflexivity.
  - eapply reg_ok_ext; [apply erased_same|apply erased_same|exact H].
  - eapply reg_ok_ext; [| |exact H]; reflexivity.
  - eapply reg_ok_ext; [apply onMaterial_same|apply onMaterial_same|exact H].
  - eapply reg_ok_ext; [apply onMaterial_same|apply onMaterial_same|exact H].
  - eapply reg_ok_ext; [| |exact H]; reflexivity.
  - eapply reg_ok_ext; [| |exact H]; reflexivity.
  - eapply reg_ok_ext; [apply update_same|apply update_same|exact H].
Qed.
Lemma run_reg ops : forall es r, reg_ok es r -> reg_ok (run es ops) (fold_left (registered_step lf) ops r).
Proof. induction ops as [|o ops IH]; intros es r H; [exact H|]. cbn. apply IH, call_reg, H. Qed.
Lemma empty_reg : reg_ok elements_empty (fun _ => None).
Proof. split; cbn; try discriminate; auto; [apply smsorted_nil|]. intros [|i]; discriminate. Qed.

Lemma getElement_registered es r n : reg_ok es r ->
  getElement es n = (if String.eqb n "" then Throw InvalidArgument else match r n with Some e => Ok e | None => Throw InvalidArgument end) /\
  isElementNameDefined es n = (negb (String.eqb n "") && match r n with Some _ => true | None => false end).
Proof.
  intros [A B C E]. unfold getElement, isElementNameDefined, elementAt.
  destruct (String.eqb_spec n "") as [->|Hn]; [split; reflexivity|].
  assert (Ln : Nat.eqb (String.length n) 0 = false) by (destruct n; [congruence|reflexivity]). rewrite Ln. unfold mmem.
  destruct (mfind sltb n (es_dict es)) as [i|] eqn:F.
  - destruct (B _ _ F) as [e [H1 [H2 H3]]]. rewrite H3. cbn. unfold vget. rewrite H1. split; reflexivity.
  - rewrite (C _ F). split; reflexivity.
Qed.

(** names *)
Lemma call_names es r o : reg_ok es r -> getElementNames (fst (call es o)) =
  match o with RAdd e => if in_dec string_dec (el_name e) (getElementNames es) then getElementNames es else (getElementNames es ++ [el_name e])%list
  | _ => getElementNames es end.
Proof.
  intros [A B C E]. unfold getElementNames. destruct o; cbn [es_call].
  - cbn [fst]. unfold addElement. destruct (mfind sltb (el_name e) (es_dict es)) as [i|] eqn:F.
    + destruct (B _ _ F) as [e0 [H1 [H2 H3]]]. cbn [with_elements es_list]. rewrite (set_nth_map el_name _ _ _ _ H1) by congruence.
      destruct (in_dec _ _ _) as [|Q]; [reflexivity|]. exfalso. apply Q. rewrite <- H2. apply in_map. eapply nth_error_In, H1.
    + cbn [with_elements es_list]. rewrite map_app. destruct (in_dec _ _ _) as [Q|]; [|reflexivity].
      exfalso. apply in_map_iff in Q. destruct Q as [e0 [Q1 Q2]]. apply In_nth_error in Q2. destruct Q2 as [i Q2]. pose proof (E _ _ Q2). congruence.
  - unfold onElement. destruct (isElementNameDefined es name); [|reflexivity]. destruct (mfind sltb name (es_dict es)) as [i|]; [|reflexivity].
    destruct (nth_error (es_list es) i) as [e|] eqn:F; [|reflexivity].
    destruct (el_call lf e (as_el_op c)) as [e' r'] eqn:Q. cbn [fst with_elements es_list]. apply (set_nth_map el_name _ _ _ _ F).
    rewrite <- (delegate_name e c), Q. reflexivity.
  - now rewrite (proj2 (addNew_same es name density thickness comment errorOnReplace)).
  - f_equal. unfold addMaterial_mat; (destruct (Nat.ltb _ _); [destruct (negb _)|]); reflexivity.
  - now rewrite (proj2 (erased_same es name)).
  - reflexivity.
  - unfold setMaterialComposition_vec. now rewrite (proj2 (onMaterial_same _ _ _)).
  - unfold setMaterialComposition_map. now rewrite (proj2 (onMaterial_same _ _ _)).
  - reflexivity.
  - reflexivity.
  - now rewrite (proj1 (proj2 (update_same _ _ _))).
Qed.
Lemma run_names ops : forall es r, reg_ok es r -> getElementNames (run es ops) =
  fold_left (fun acc s => if in_dec string_dec s acc then acc else acc ++ [s])%list (added_names ops) (getElementNames es).
Proof.
  induction ops as [|o ops IH]; intros es r H; [reflexivity|]. cbn [es_run fold_left].
  change (fold_left (fun es o => fst (call es o)) ops (fst (call es o))) with (run (fst (call es o)) ops).
  rewrite (IH _ _ (call_reg _ _ _ H)), (call_names _ _ _ H). destruct o; cbn [added_names flat_map app fold_left]; reflexivity.
Qed.

End Any.
