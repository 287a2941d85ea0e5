(** Initialisation of the library of elements, continued: the elements. *)
From Coq Require Import Ascii String List ZArith Bool Arith Lia Sorted.
From Verif Require Import Base.Num Base.Res Base.SMap Base.Str Base.Text Base.ListLemmas Model.Shell Model.Specfile Model.EPDL97 Model.Element Model.Elements Model.ElementsFiles
  Spec.MaterialSpec Spec.ElementSpec Spec.ElementsSpec Spec.FilesSpec Proofs.ElementProofs4 Proofs.FilesProofs Proofs.FilesProofs2 Proofs.FilesProofs3 Proofs.InitProofs.
Import ListNotations.
Set Implicit Arguments.
Local Open Scope string_scope.

Section Init.
Context {N : Num}.
Variable strtod : text -> num.
Local Notation table := (list (string * num)).
Local Notation vtable := (list (string * list num)).

(** *** The binding energies of the data base are maps *)
Lemma rfold_inv {A B} (P : B -> Prop) (f : B -> A -> res B) : (forall b a b', P b -> f b a = Ok b' -> P b') ->
  forall l b b', rfold f l b = Ok b' -> P b -> P b'.
Proof.
  intros F. induction l as [|a l IH]; intros b b' H Pb; cbn [rfold] in H; [injection H as <-; exact Pb|].
  destruct (f b a) as [b1| | |] eqn:E; cbn [rbind] in H; try discriminate. exact (IH _ _ H (F _ _ _ Pb E)).
Qed.
Lemma rmapM_forall {A B} (P : A -> Prop) (Q : B -> Prop) (f : A -> res B) : (forall a b, P a -> f a = Ok b -> Q b) ->
  forall l v, rmapM f l = Ok v -> Forall P l -> Forall Q v.
Proof.
  intros F. induction l as [|a l IH]; intros v H PL; cbn [rmapM] in H; [injection H as <-; constructor|].
  destruct (f a) as [b| | |] eqn:E; cbn [rbind] in H; try discriminate. destruct (rmapM f l) as [bs| | |] eqn:E2; cbn [rbind] in H; try discriminate.
  injection H as <-. inversion PL; subst. constructor; [exact (F _ _ H1 E)|apply IH; auto].
Qed.
Definition maps (ep : @epdl N) : Prop := Forall (fun b : table => is_map b) (ep_binding ep).
Lemma bindingRow_map labels old row t : is_map old -> bindingRow labels old row = Ok t -> is_map t.
Proof.
  intros M H. unfold bindingRow in H. revert H M. apply (@rfold_inv nat table (fun t => is_map t)). intros b a b' Mb H.
  destruct (vget labels a); cbn [rbind] in H; try discriminate. destruct (vget row a); cbn [rbind] in H; try discriminate. injection H as <-.
  apply (@mset_sorted _ _ _ sltb_total). exact Mb.
Qed.
Lemma loadBinding_maps ep c ep' r : maps ep -> loadBindingEnergies strtod ep c = (ep', r) -> maps ep'.
Proof.
  unfold loadBindingEnergies. cbv zeta. generalize (setFileName c). intros sf M. destruct (negb _); [intros H; injection H as <- _; exact M|].
  destruct (getScanLabels sf 0) as [labels| | |]; [|intros H; injection H as <- _; exact M ..].
  destruct (getScanData strtod sf 0) as [rows| | |]; [|intros H; injection H as <- _; exact M ..].
  destruct rows as [|r0 rs]; [intros H; injection H as <- _; exact M|]. destruct (negb _); [intros H; injection H as <- _; exact M|].
  destruct (rmapM _ _) as [b| | |] eqn:E; intros H; injection H as <- _; try exact M.
  unfold maps. cbn [ep_binding]. refine (@rmapM_forall _ _ (fun p : table * list num => is_map (fst p)) (fun b : table => is_map b) _ _ _ _ E _).
  - intros [o row] t Mo. cbn [fst snd] in *. apply bindingRow_map. exact Mo.
  - apply Forall_forall. intros [o row] Hp. apply in_combine_l in Hp. unfold resize in Hp. cbn [fst]. apply in_app_or in Hp. destruct Hp as [Hp|Hp].
    + unfold maps in M. rewrite Forall_forall in M. apply M. rewrite <- (firstn_skipn (length (r0 :: rs))). apply in_or_app. left. exact Hp.
    + apply repeat_spec in Hp. subst o. constructor.
Qed.
Lemma loadCross_binding ep c ep' r : loadCrossSections strtod ep c = (ep', r) -> ep_binding ep' = ep_binding ep.
Proof.
  unfold loadCrossSections. repeat (cbv zeta; match goal with
    | |- context [match ?x with _ => _ end] => destruct x
    | |- (_, _) = _ -> _ => intros H; injection H as <- _; reflexivity end).
Qed.
Lemma setDataDirectory_maps fs d ep ep' r : setDataDirectory strtod fs d ep = (ep', r) -> maps ep'.
Proof.
  assert (N0 : maps epdl_new) by constructor. unfold setDataDirectory. cbv zeta. destruct (Nat.eqb _ 0); [intros H; injection H as <- _; exact N0|].
  destruct (loadBindingEnergies strtod epdl_new _) as [e1 r1] eqn:E1. assert (M1 := loadBinding_maps _ N0 E1).
  destruct r1; [|intros H; injection H as <- _; exact M1 ..]. destruct (loadCrossSections strtod e1 _) as [e2 r2] eqn:E2. apply loadCross_binding in E2.
  assert (M2 : maps e2) by (unfold maps; rewrite E2; exact M1). destruct r2; intros H; injection H as <- _; exact M2.
Qed.
Lemma binding_map ep z b : maps ep -> EPDL97.getBindingEnergies ep z = Ok b -> is_map b.
Proof.
  unfold EPDL97.getBindingEnergies, vgetZ, maps. intros M. rewrite Forall_forall in M. destruct (z <? 1)%Z; [discriminate|]. cbv zeta.
  assert (G : forall i, vget (ep_binding ep) i = Ok b -> is_map b).
  { intros i H. unfold vget in H. destruct (nth_error (ep_binding ep) i) as [x|] eqn:E; cbn in H; [|discriminate]. injection H as <-. apply M. exact (nth_error_In _ _ E). }
  destruct (z >=? _)%Z; match goal with |- (if ?c then _ else _) = _ -> _ => destruct c; [discriminate|apply G] end.
Qed.
Lemma bindingLoop_binding : forall l b s b' s' r, bindingLoop l b s = (b', s', r) -> r = Ok tt -> b' = mset_all sltb l b.
Proof.
  induction l as [|[k v] l IH]; intros b s b' s' r H R; cbn [bindingLoop] in H; [injection H as <- _ _; reflexivity|].
  cbv zeta in H. unfold mset_all. cbn [fold_left fst snd]. fold (mset_all sltb l (mset sltb k v b)).
  destruct (isKLM k && negb (mmem sltb k s))%bool; [|exact (IH _ _ _ _ _ H R)]. destruct (shell_new k); [exact (IH _ _ _ _ _ H R)|injection H as _ _ <-; discriminate ..].
Qed.
Lemma setBinding_spec (e : element) b e' : is_map b -> Element.setBindingEnergies e b = (e', Ok tt) ->
  el_name e' = el_name e /\ el_longName e' = el_longName e /\ el_z e' = el_z e /\ el_mass e' = el_mass e /\ el_density e' = el_density e /\
  el_column e' = el_column e /\ el_row e' = el_row e /\ el_binding e' = b.
Proof.
  intros M. unfold Element.setBindingEnergies. destruct (bindingLoop b [] []) as [[b' s] r] eqn:E. intros H. injection H as <- ->. apply bindingLoop_binding in E; [|reflexivity].
  rewrite mset_all_id in E by exact M. cbn. repeat (split; [reflexivity|]). exact E.
Qed.

(** *** One element *)
Definition predefined_calls (d : info) (b : table) (t : vtable) : list el_op :=
  (([ESetColumn (i_column d); ESetRow (i_row d); ESetLongName (i_long d); ESetMass (i_mass d)] ++
    (if nltb (nlit 1 (-10)) (i_density d) then [ESetDensity (ndiv (i_density d) (nlit 1000 0))] else []) ++ [ESetBinding b]) ++ table_calls t)%list.
Lemma lift_ok (s : @element N * res unit) e : lift s = Ok e -> s = (e, Ok tt).
Proof. destruct s as [x [[]| | |]]; cbn; intros H; try discriminate. now injection H as <-. Qed.
Lemma all_ok_app lf : forall l l' (e : element), all_ok lf e (l ++ l') <-> all_ok lf e l /\ all_ok lf (el_run lf e l) l'.
Proof.
  induction l as [|o l IH]; intros l' e; cbn [app all_ok]; [unfold el_run; cbn; tauto|]. rewrite IH. unfold el_run. cbn [fold_left]. tauto.
Qed.
Lemma el_run_app lf l l' (e : element) : el_run lf e (l ++ l') = el_run lf (el_run lf e l) l'.
Proof. unfold el_run. apply fold_left_app. Qed.
Lemma predefined_ok lf ep d e : maps ep -> predefined ep d = Ok e ->
  exists e0 b t, element_new (i_symbol d) (i_z d) = Ok e0 /\ EPDL97.getBindingEnergies ep (i_z d) = Ok b /\ getMassAttenuationTables ep (i_z d) = Ok t /\
    all_ok lf e0 (predefined_calls d b t) /\ e = el_run lf e0 (predefined_calls d b t) /\
    el_name e = i_symbol d /\ el_longName e = i_long d /\ el_z e = i_z d /\ el_mass e = Some (i_mass d) /\ el_column e = i_column d /\ el_row e = i_row d /\
    el_density e = (if nltb (nlit 1 (-10)) (i_density d) then ndiv (i_density d) (nlit 1000 0) else n1) /\
    (forall k, val0 (el_binding e) k = val0 b k) /\ el_muE e = vat t "energy" /\ el_mu e =
    [("coherent", vat t "coherent"); ("compton", vat t "compton"); ("energy", vat t "energy"); ("pair", vat t "pair"); ("photoelectric", vat t "photoelectric");
     ("total", zip_total (vat t "coherent") (vat t "compton") (vat t "pair") (vat t "photoelectric"))].
Proof.
  intros M. unfold predefined. destruct (element_new (i_symbol d) (i_z d)) as [e0| | |] eqn:E0; cbn [rbind]; try discriminate. cbv zeta.
  destruct (lift (setAtomicMass _ _)) as [e1| | |] eqn:E1; cbn [rbind]; try discriminate. apply lift_ok in E1.
  destruct (EPDL97.getBindingEnergies ep (i_z d)) as [b| | |] eqn:EB; cbn [rbind]; try discriminate.
  set (e2 := if nltb _ _ then _ else e1).
  destruct (lift (Element.setBindingEnergies e2 b)) as [e3| | |] eqn:E3; cbn [rbind]; try discriminate. apply lift_ok in E3.
  destruct (getMassAttenuationTables ep (i_z d)) as [t| | |] eqn:ET; cbn [rbind]; try discriminate. intros H. apply lift_ok in H.
  destruct (putTables_info _ _ _ ET H) as ((I1 & I2 & I3 & I4 & I5 & I6 & I7 & _ & I9) & ME & MU). destruct (putTables_run lf _ _ H) as [A B].
  destruct (setBinding_spec _ (binding_map _ M EB) E3) as (J1 & J2 & J3 & J4 & J5 & J6 & J7 & J8).
  exists e0, b, t. split; [reflexivity|]. split; [reflexivity|]. split; [reflexivity|].
  set (p := ([ESetColumn (i_column d); ESetRow (i_row d); ESetLongName (i_long d); ESetMass (i_mass d)] ++
    (if nltb (nlit 1 (-10)) (i_density d) then [ESetDensity (ndiv (i_density d) (nlit 1000 0))] else []) ++ [ESetBinding b])%list).
  assert (P : all_ok lf e0 p /\ el_run lf e0 p = e3).
  { unfold p. rewrite all_ok_app, all_ok_app, !el_run_app.
    assert (R1 : el_run lf e0 [ESetColumn (i_column d); ESetRow (i_row d); ESetLongName (i_long d); ESetMass (i_mass d)] = e1) by (unfold el_run; cbn [fold_left el_call fst]; rewrite E1; reflexivity).
    assert (A1 : all_ok lf e0 [ESetColumn (i_column d); ESetRow (i_row d); ESetLongName (i_long d); ESetMass (i_mass d)]) by (cbn [all_ok el_call fst snd]; rewrite E1; cbn; tauto).
    rewrite R1. assert (R2 : el_run lf e1 (if nltb (nlit 1 (-10)) (i_density d) then [ESetDensity (ndiv (i_density d) (nlit 1000 0))] else []) = e2) by (unfold e2; destruct (nltb _ _); reflexivity).
    assert (A2 : all_ok lf e1 (if nltb (nlit 1 (-10)) (i_density d) then [ESetDensity (ndiv (i_density d) (nlit 1000 0))] else [])) by (destruct (nltb _ _); cbn; tauto).
    rewrite R2. split; [split; [exact A1|split; [exact A2|]]|]; [cbn [all_ok el_call]|unfold el_run; cbn [fold_left el_call]]; rewrite E3; cbn; tauto. }
  destruct P as [P1 P2]. unfold predefined_calls. fold p. split; [apply all_ok_app; rewrite P2; split; assumption|]. split; [rewrite el_run_app, P2; exact B|].
  unfold element_new in E0. destruct (i_z d <? 1)%Z; [discriminate|]. injection E0 as <-.
  assert (K : el_name e1 = i_symbol d /\ el_longName e1 = i_long d /\ el_z e1 = i_z d /\ el_mass e1 = Some (i_mass d) /\ el_column e1 = i_column d /\ el_row e1 = i_row d /\ el_density e1 = n1).
  { clear -E1. unfold setAtomicMass in E1. match type of E1 with (if ?c then _ else _) = _ => destruct c; [discriminate|] end. injection E1 as <-. cbn. tauto. }
  destruct K as (K1 & K2 & K3 & K4 & K5 & K6 & K7).
  assert (E2 : el_name e2 = el_name e1 /\ el_longName e2 = el_longName e1 /\ el_z e2 = el_z e1 /\ el_mass e2 = el_mass e1 /\ el_column e2 = el_column e1 /\ el_row e2 = el_row e1 /\
    el_density e2 = (if nltb (nlit 1 (-10)) (i_density d) then ndiv (i_density d) (nlit 1000 0) else n1)) by (unfold e2; destruct (nltb _ _); cbn; tauto).
  destruct E2 as (L1 & L2 & L3 & L4 & L5 & L6 & L7).
  split; [congruence|]. split; [congruence|]. split; [congruence|]. split; [congruence|]. split; [congruence|]. split; [congruence|]. split; [congruence|].
  split; [intros k; rewrite I9, J8; reflexivity|]. split; [exact ME|exact MU].
Qed.
End Init.
