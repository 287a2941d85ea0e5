(** Initialisation of the library of elements, continued: the registry and the files. *)
From Coq Require Import Ascii String List ZArith Bool Arith Lia Sorted.
From Verif Require Import Base.Num Base.Res Base.SMap Base.Str Base.Text Base.ListLemmas Model.Shell Model.Specfile Model.EPDL97 Model.Element Model.Elements Model.ElementsFiles
  Spec.MaterialSpec Spec.ElementSpec Spec.ElementsSpec Spec.FilesSpec Proofs.ElementProofs4 Proofs.InitProofs Proofs.InitProofs2 Properties.FilesProps.
Import ListNotations.
Set Implicit Arguments.
Local Open Scope string_scope.

Section Init.
Context {N : Num}.
Variable strtod : text -> num.
Variable fs : string -> option text.

(** *** Registering elements of different names *)
Definition dict_of (names : list string) : list (string * nat) := mset_all sltb (combine names (seq 0 (length names))) [].
Lemma add_all tostr depth fuel lf : forall (l : list (@element N)) d l0 , NoDup (map el_name l) -> (forall e, In e l -> mfind sltb (el_name e) d = None) ->
  es_run tostr depth fuel lf (with_elements elements_empty d l0) (map RAdd l) =
  with_elements elements_empty (mset_all sltb (combine (map el_name l) (seq (length l0) (length l))) d) (l0 ++ l)%list.
Proof.
  induction l as [|e l IH]; intros d l0 ND F; cbn [map]; [unfold es_run; cbn; now rewrite app_nil_r|].
  cbn [map] in ND. inversion ND as [|x xs NI ND']; subst. unfold es_run. cbn [fold_left]. fold (es_run tostr depth fuel lf).
  cbn [es_call fst]. unfold addElement at 1. cbn [with_elements es_dict es_list]. rewrite (F e (or_introl eq_refl)).
  change (with_elements (with_elements elements_empty d l0) (mset sltb (el_name e) (length l0) d) (l0 ++ [e])%list)
    with (with_elements (@elements_empty N) (mset sltb (el_name e) (length l0) d) (l0 ++ [e])%list).
  change (fold_left _ (map RAdd l) ?x) with (es_run tostr depth fuel lf x (map RAdd l)). rewrite IH.
  - rewrite app_length, <- app_assoc. cbn [length app seq combine]. unfold mset_all. cbn [fold_left fst snd]. rewrite Nat.add_1_r. reflexivity.
  - exact ND'.
  - intros e' He'. rewrite sfind_other; [apply F; right; exact He'|]. intros E. apply NI. rewrite E. apply in_map. exact He'.
Qed.
Lemma registry tostr depth fuel lf (l : list (@element N)) : NoDup (map el_name l) ->
  with_elements elements_empty (dict_of (map el_name l)) l = es_run tostr depth fuel lf elements_empty (map RAdd l).
Proof.
  intros ND. change elements_empty with (with_elements (@elements_empty N) [] []) at 2. rewrite add_all; [|exact ND|reflexivity].
  unfold dict_of. rewrite map_length. reflexivity.
Qed.

(** *** Loading files one after the other *)
Definition loaded lf (lb lb' : @library N) : Prop :=
  lb_epdl lb' = lb_epdl lb /\ (exists l', lb_es lb' = with_elements (lb_es lb) (es_dict (lb_es lb)) l' /\ length l' = length (es_list (lb_es lb))) /\
  forall n e, nth_error (es_list (lb_es lb)) n = Some e -> exists calls, all_ok lf e calls /\ nth_error (es_list (lb_es lb')) n = Some (el_run lf e calls) /\ kept e (el_run lf e calls).
Lemma kept_refl (e : @element N) : kept e e. Proof. unfold kept. tauto. Qed.
Lemma kept_trans (a b c : @element N) : kept a b -> kept b c -> kept a c.
Proof. unfold kept. intros H K. decompose [and] H. decompose [and] K. repeat split; congruence. Qed.
Lemma loaded_refl lf lb : loaded lf lb lb.
Proof.
  split; [reflexivity|]. split; [exists (es_list (lb_es lb)); split; [destruct (lb_es lb); reflexivity|reflexivity]|].
  intros n e H. exists []. split; [exact I|]. split; [exact H|apply kept_refl].
Qed.
Lemma loaded_trans lf a b c : loaded lf a b -> loaded lf b c -> loaded lf a c.
Proof.
  intros (A1 & (l1 & A2 & A3) & A4) (B1 & (l2 & B2 & B3) & B4). split; [congruence|]. split.
  - exists l2. rewrite B2, A2. split; [reflexivity|]. rewrite B3, A2. cbn. exact A3.
  - intros n e H. destruct (A4 n e H) as (c1 & O1 & E1 & K1). destruct (B4 n _ E1) as (c2 & O2 & E2 & K2). exists (c1 ++ c2)%list.
    rewrite el_run_app. split; [apply all_ok_app; split; assumption|]. split; [exact E2|]. exact (kept_trans K1 K2).
Qed.
Lemma liftLib_ok (s : @library N * res unit) lb : liftLib s = Ok lb -> s = (lb, Ok tt).
Proof. destruct s as [x [[]| | |]]; cbn; intros H; try discriminate. now injection H as <-. Qed.
Lemma liftEpdl_ok (s : @epdl N * res unit) lb : liftEpdl s = Ok lb -> s = (lb, Ok tt).
Proof. destruct s as [x [[]| | |]]; cbn; intros H; try discriminate. now injection H as <-. Qed.
(** after a constants file *)
Lemma load_const lf lb m f lb' : setShellConstantsFile strtod fs lb m f = (lb', Ok tt) ->
  loaded lf lb lb' /\ fs f <> None /\ getShellConstantsFile lb' m = Ok f /\ (forall q, q <> m -> getShellConstantsFile lb' q = getShellConstantsFile lb q) /\
  (forall q, getShellRadiativeTransitionsFile lb' q = getShellRadiativeTransitionsFile lb q) /\ (forall q, getShellNonradiativeTransitionsFile lb' q = getShellNonradiativeTransitionsFile lb q).
Proof.
  intros H. destruct (C68_constants _ _ _ _ _ H) as (subs & IS & SC & F1 & F2 & R1 & R2 & EP & ES & EL).
  destruct (@C68_history N lf strtod fs lb m f lb' (or_introl H)) as [_ HI]. split; [split; [exact EP|split; [exact ES|]]|split; [|split; [exact F1|split; [exact F2|]]]].
  - intros n e Hn. destruct (HI n e Hn) as (c & O & E & _). destruct (EL n e Hn) as (e' & E' & K & _). rewrite E in E'. injection E' as <-. exists c. tauto.
  - intros Q. rewrite Q in SC. cbn in IS, SC. clear -IS SC. destruct IS as [IS|[IS|[IS|[]]]]; injection IS as _ <-; discriminate SC.
  - unfold getShellRadiativeTransitionsFile, getShellNonradiativeTransitionsFile. rewrite R1, R2. split; reflexivity.
Qed.
Lemma load_rad lf lb m f lb' : setShellRadiativeTransitionsFile strtod fs lb m f = (lb', Ok tt) ->
  loaded lf lb lb' /\ fs f <> None /\ getShellRadiativeTransitionsFile lb' m = Ok f /\ (forall q, q <> m -> getShellRadiativeTransitionsFile lb' q = getShellRadiativeTransitionsFile lb q) /\
  (forall q, getShellConstantsFile lb' q = getShellConstantsFile lb q) /\ (forall q, getShellNonradiativeTransitionsFile lb' q = getShellNonradiativeTransitionsFile lb q).
Proof.
  intros H. destruct (C68_radiative _ _ _ _ _ H) as (subs & IS & SC & F1 & F2 & R1 & R2 & EP & ES & EL).
  destruct (@C68_history N lf strtod fs lb m f lb' (or_intror (or_introl H))) as [_ HI]. split; [split; [exact EP|split; [exact ES|]]|split; [|split; [exact F1|split; [exact F2|]]]].
  - intros n e Hn. destruct (HI n e Hn) as (c & O & E & _). destruct (EL n e Hn) as (e' & E' & K & _). rewrite E in E'. injection E' as <-. exists c. tauto.
  - intros Q. rewrite Q in SC. cbn in IS, SC. clear -IS SC. destruct IS as [IS|[IS|[IS|[]]]]; injection IS as _ <-; discriminate SC.
  - unfold getShellConstantsFile, getShellNonradiativeTransitionsFile. rewrite R1, R2. split; reflexivity.
Qed.
Lemma load_nonrad lf lb m f lb' : setShellNonradiativeTransitionsFile strtod fs lb m f = (lb', Ok tt) ->
  loaded lf lb lb' /\ fs f <> None /\ getShellNonradiativeTransitionsFile lb' m = Ok f /\ (forall q, q <> m -> getShellNonradiativeTransitionsFile lb' q = getShellNonradiativeTransitionsFile lb q) /\
  (forall q, getShellConstantsFile lb' q = getShellConstantsFile lb q) /\ (forall q, getShellRadiativeTransitionsFile lb' q = getShellRadiativeTransitionsFile lb q).
Proof.
  intros H. destruct (C68_nonradiative _ _ _ _ _ H) as (subs & IS & SC & F1 & F2 & R1 & R2 & EP & ES & EL).
  destruct (@C68_history N lf strtod fs lb m f lb' (or_intror (or_intror H))) as [_ HI]. split; [split; [exact EP|split; [exact ES|]]|split; [|split; [exact F1|split; [exact F2|]]]].
  - intros n e Hn. destruct (HI n e Hn) as (c & O & E & _). destruct (EL n e Hn) as (e' & E' & K & _). rewrite E in E'. injection E' as <-. exists c. tauto.
  - intros Q. rewrite Q in SC. cbn in IS, SC. clear -IS SC. destruct IS as [IS|[IS|[IS|[]]]]; injection IS as _ <-; discriminate SC.
  - unfold getShellConstantsFile, getShellRadiativeTransitionsFile. rewrite R1, R2. split; reflexivity.
Qed.
End Init.
