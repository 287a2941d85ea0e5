(** C29, C30: the registries of Elements. *)
From Coq Require Import String List ZArith QArith Reals Bool Lia Lra PrimFloat.
From Verif Require Import Base.Num Base.Res Base.RSum Base.SMap Model.Material Model.Shell Model.Element Model.Formula Model.Elements
  Spec.MaterialSpec Spec.ElementSpec Spec.ElementsSpec Proofs.ElementsProofs Proofs.ElementsProofs2.
Import ListNotations.
Local Close Scope Q_scope.
Local Open Scope string_scope.

(** ** C29 The element registry is a map by name *)
(** After every history of public calls (additions, calls on one element, all material and cache
    calls): getElement returns what the history left under that name ([registered]: the last element
    added under it with the later calls on it applied), names are listed once in order of first
    addition, isElementNameDefined says whether getElement succeeds. The empty name is never found. *)
Theorem C29_registry {N : Num} (tostr : num -> string) (depth fuel : nat) (lf : bool) (ops : list es_op) :
  let es := es_run tostr depth fuel lf elements_empty ops in
  (forall n, getElement es n =
     if String.eqb n "" then Throw InvalidArgument
     else match registered lf ops n with Some e => Ok e | None => Throw InvalidArgument end) /\
  (forall n, isElementNameDefined es n = true <-> exists e, getElement es n = Ok e) /\
  getElementNames es = first_occurrences (added_names ops).
Proof.
  intros es. pose proof (run_reg tostr depth fuel lf ops _ _ empty_reg) as H. fold es in H. split; [|split].
  - intros n. exact (proj1 (getElement_registered _ _ n H)).
  - intros n. destruct (getElement_registered _ _ n H) as [-> ->].
    destruct (String.eqb n ""); cbn; [split; [discriminate|intros [e Q]; discriminate]|].
    destruct (fold_left _ ops _ n) as [e|]; split; try discriminate; eauto. intros [e Q]; discriminate.
  - exact (run_names tostr depth fuel lf ops _ _ empty_reg).
Qed.

(** what [first_occurrences] and [registered] are, without folds *)
Lemma first_occ_gen l : forall acc, NoDup acc ->
  let r := fold_left (fun acc s => if in_dec string_dec s acc then acc else acc ++ [s])%list l acc in
  NoDup r /\ (forall s, In s r <-> In s acc \/ In s l) /\
  (forall s, ~ In s acc -> forall p q, l = (p ++ s :: q)%list -> ~ In s p ->
     exists u, r = (fold_left (fun acc s => if in_dec string_dec s acc then acc else acc ++ [s])%list p acc ++ s :: u)%list).
Proof.
  induction l as [|x l IH]; intros acc ND; cbn [fold_left].
  - split; [exact ND|]. split; [intros s; cbn; tauto|]. intros s _ [|y p] q E; discriminate.
  - destruct (in_dec string_dec x acc) as [I|I].
    + destruct (IH acc ND) as [A [B C]]. split; [exact A|]. split.
      * intros s. rewrite B. cbn. split; intros [H|H]; auto. destruct H as [<-|H]; auto.
      * intros s Hs [|y p] q E Hp; injection E as -> ->; [contradiction|]. cbn [fold_left].
        destruct (in_dec string_dec y acc); [|contradiction]. apply C with q; [exact Hs|reflexivity|]. intros K. apply Hp. right. exact K.
    + assert (ND' : NoDup (acc ++ [x])) by (apply NoDup_snoc; assumption).
      destruct (IH _ ND') as [A [B C]]. split; [exact A|]. split.
      * intros s. rewrite B, in_app_iff. cbn. tauto.
      * intros s Hs [|y p] q E Hp; injection E as -> ->.
        -- cbn [fold_left]. clear -I. induction q as [|z q IHq] using rev_ind; [exists []; reflexivity|].
           rewrite fold_left_app. cbn [fold_left]. destruct IHq as [u ->]. destruct (in_dec _ _ _); [exists u; reflexivity|].
           exists (u ++ [z])%list. rewrite <- app_assoc. reflexivity.
        -- cbn [fold_left]. destruct (in_dec string_dec y acc); [contradiction|]. apply C with q; [|reflexivity|intros K; apply Hp; right; exact K].
           rewrite in_app_iff. intros [K|[K|[]]]; [contradiction|]. apply Hp. left. exact K.
Qed.
(** names are listed exactly once, exactly the added ones, in order of first addition *)
Theorem C29_names {N : Num} (tostr : num -> string) (depth fuel : nat) (lf : bool) (ops : list es_op) :
  let names := getElementNames (es_run tostr depth fuel lf elements_empty ops) in
  NoDup names /\
  (forall s, In s names <-> exists e, In (RAdd e) ops /\ el_name e = s) /\
  (forall before e after, ops = (before ++ RAdd e :: after)%list -> (forall e', In (RAdd e') before -> el_name e' <> el_name e) ->
     exists rest, names = (getElementNames (es_run tostr depth fuel lf elements_empty before) ++ el_name e :: rest)%list).
Proof.
  intros names. pose proof (run_names tostr depth fuel lf ops _ _ empty_reg) as E. fold names in E.
  destruct (first_occ_gen (added_names ops) [] (NoDup_nil _)) as [A [B C]]. cbv zeta in A, B, C.
  change (getElementNames elements_empty) with (@nil string) in E.
  assert (Hin : forall ops s, In s (added_names ops) <-> exists e, In (@RAdd N e) ops /\ el_name e = s).
  { intros os s. unfold added_names. rewrite in_flat_map. split.
    - intros [o [I K]]. destruct o; try contradiction. destruct K as [K|[]]. exists e. auto.
    - intros [e [I K]]. exists (RAdd e). split; [exact I|]. left. exact K. }
  split; [rewrite E; exact A|]. split.
  - intros s. rewrite E, B. cbn. rewrite Hin. tauto.
  - intros before e after Ho Hb.
    destruct (C (el_name e) (fun x => x) (added_names before) (added_names after)) as [u Hu].
    + rewrite Ho. unfold added_names. rewrite flat_map_app. reflexivity.
    + rewrite Hin. intros [e' [I K]]. exact (Hb e' I K).
    + exists u. rewrite E, Hu. f_equal. symmetry. exact (run_names tostr depth fuel lf before _ _ empty_reg).
Qed.
Lemma registered_calls {N : Num} lf (after : list es_op) n : n <> "" -> forall r e,
  (forall e', In (RAdd e') after -> el_name e' <> n) -> r n = Some e ->
  fold_left (registered_step lf) after r n =
  Some (el_run lf e (flat_map (fun o => match o with RCall m c => if String.eqb m n then [as_el_op c] else [] | _ => [] end) after)).
Proof.
  intros Hn. induction after as [|o l IH]; intros r e Ha Hr; [exact Hr|]. cbn [fold_left flat_map].
  assert (Hl : forall e', In (RAdd e') l -> el_name e' <> n) by (intros e' I; apply Ha; right; exact I).
  destruct o; try (rewrite (IH _ e Hl); [reflexivity|exact Hr]).
  - rewrite (IH _ e Hl); [reflexivity|]. cbn. destruct (String.eqb_spec n (el_name e0)) as [Q|Q]; [|exact Hr].
    exfalso. apply (Ha e0); [left; reflexivity|congruence].
  - destruct (String.eqb_spec name n) as [->|Q].
    + rewrite (IH _ (fst (el_call lf e (as_el_op c))) Hl); [reflexivity|]. cbn [registered_step]. rewrite String.eqb_refl.
      destruct (String.eqb_spec n "") as [Z|_]; [contradiction|]. cbn. rewrite Hr. reflexivity.
    + rewrite (IH _ e Hl); [reflexivity|]. cbn [registered_step]. destruct (String.eqb_spec n name) as [Z|_]; [congruence|]. exact Hr.
Qed.
(** the data of the last element added under a name, with the later calls on it *)
Theorem C29_last_addition {N : Num} (tostr : num -> string) (depth fuel : nat) (lf : bool) (before after : list es_op) (e : element) :
  el_name e <> "" -> (forall e', In (RAdd e') after -> el_name e' <> el_name e) ->
  getElement (es_run tostr depth fuel lf elements_empty (before ++ RAdd e :: after)) (el_name e) =
  Ok (el_run lf e (flat_map (fun o => match o with RCall n c => if String.eqb n (el_name e) then [as_el_op c] else [] | _ => [] end) after)).
Proof.
  intros Hn Ha. destruct (C29_registry tostr depth fuel lf (before ++ RAdd e :: after)) as [-> _].
  destruct (String.eqb_spec (el_name e) "") as [Q|_]; [contradiction|].
  unfold registered. rewrite fold_left_app. cbn [fold_left].
  rewrite (registered_calls lf after (el_name e) Hn _ e Ha); [reflexivity|]. cbn [registered_step]. now rewrite String.eqb_refl.
Qed.
(** hypotheses met: an element replaced after another one was added, then changed *)
Example C29_history : list (@es_op QNum) :=
  let el n z := match element_new n z with Ok e => e | _ => element_default end in
  [RAdd (el "Fe" 26%Z); RAdd (el "Cu" 29%Z); RAdd (el "Fe" 27%Z); RCall "Fe" (CSetCache 1); RCall "Zn" CClearCache].
Example C29_nonvacuous :
  let es := es_run g6 10 10 false elements_empty C29_history in
  getElementNames es = ["Fe"; "Cu"] /\
  rmap (fun e => (el_z e, el_cacheFlag e)) (getElement es "Fe") = Ok (27%Z, true) /\
  getElement es "Zn" = Throw InvalidArgument /\
  snd (es_call g6 10 10 false es (RCall "Zn" CClearCache)) = Throw InvalidArgument.
Proof. repeat split; vmrefl. Qed.
(** an element with an empty name is stored and listed but can not be retrieved *)
Theorem C29_empty_name_refuted {N : Num} (tostr : num -> string) (depth fuel : nat) (lf : bool) (e : element) :
  el_name e = "" ->
  getElementNames (es_run tostr depth fuel lf elements_empty [RAdd e]) = [""] /\
  getElement (es_run tostr depth fuel lf elements_empty [RAdd e]) "" = Throw InvalidArgument.
Proof. intros H. cbn. unfold addElement. cbn. unfold getElementNames. cbn. rewrite H. split; reflexivity. Qed.

(** ** C30 The material registry has unique names and keeps order *)
(** After every history of public calls: names are pairwise different, and the materials are those
    of the list-based specification [materials_after], in its order. *)
Theorem C30_materials {N : Num} (tostr : num -> string) (depth fuel : nat) (lf : bool) (ops : list es_op) :
  let es := es_run tostr depth fuel lf elements_empty ops in
  let mats := materials_after tostr depth fuel lf elements_empty [] ops in
  NoDup (getMaterialNames es) /\
  getMaterialNames es = map (@Material.getName N) mats /\
  forall n, getMaterial es n = match find (named n) mats with Some m => Ok m | None => Throw InvalidArgument end.
Proof.
  intros es mats. destruct (run_mats tostr depth fuel lf ops elements_empty (NoDup_nil _)) as [E ND]. fold es in E, ND.
  change (es_mats elements_empty) with (@nil (@material N)) in E. fold mats in E.
  split; [exact ND|]. unfold getMaterialNames. split; [now rewrite E|]. intros n. rewrite getMaterial_find, E. reflexivity.
Qed.
(** A call that is refused (unknown name, or existing name with error-on-replace) throws
    invalid_argument and changes nothing at all. *)
Theorem C30_refused_unchanged {N : Num} (tostr : num -> string) (depth fuel : nat) (lf : bool) (ops : list es_op) (o : es_op) :
  let es := es_run tostr depth fuel lf elements_empty ops in
  let mats := materials_after tostr depth fuel lf elements_empty [] ops in
  refused mats o = true -> es_call tostr depth fuel lf es o = (es, Throw InvalidArgument).
Proof.
  intros es mats H. destruct (run_mats tostr depth fuel lf ops elements_empty (NoDup_nil _)) as [E ND]. fold es in E.
  apply refused_unchanged. rewrite E. exact H.
Qed.
(** addMaterial(Material), removeMaterial and setMaterialComposition succeed otherwise, the latter
    if the composition is valid *)
Lemma update_same_id {N : Num} n (f : @material N -> material) l : (forall m, In m l -> named n m = true -> f m = m) -> update n f l = l.
Proof.
  induction l as [|m l IH]; intros H; [reflexivity|]. cbn. f_equal; [|apply IH; intros x I; apply H; right; exact I].
  destruct (named n m) eqn:E; [|reflexivity]. apply H; [left; reflexivity|exact E].
Qed.
Theorem C30_outcomes {N : Num} (tostr : num -> string) (depth fuel : nat) (lf : bool) (ops : list es_op) (o : es_op) :
  let es := es_run tostr depth fuel lf elements_empty ops in
  let mats := materials_after tostr depth fuel lf elements_empty [] ops in
  refused mats o = false ->
  match o with
  | MAdd _ _ | MRemove _ | MRemoveAll => snd (es_call tostr depth fuel lf es o) = Ok tt
  | MSetVec _ names amounts =>
      if Nat.eqb (length names) (length amounts) && forallb (fun a => negb (nleb a n0)) amounts
      then snd (es_call tostr depth fuel lf es o) = Ok tt
      else snd (es_call tostr depth fuel lf es o) = Throw InvalidArgument /\
           es_mats (fst (es_call tostr depth fuel lf es o)) = es_mats es
  | MSetMap _ c =>
      if forallb (fun a => negb (nleb (snd a) n0)) c
      then snd (es_call tostr depth fuel lf es o) = Ok tt
      else snd (es_call tostr depth fuel lf es o) = Throw InvalidArgument /\
           es_mats (fst (es_call tostr depth fuel lf es o)) = es_mats es
  | _ => True
  end.
Proof.
  intros es mats H. destruct (run_mats tostr depth fuel lf ops elements_empty (NoDup_nil _)) as [E ND]. fold es in E, ND.
  change (es_mats elements_empty) with (@nil (@material N)) in E. fold mats in E. rewrite <- E in H.
  pose proof (accepted_ok tostr depth fuel lf es o H) as A.
  assert (EX : forall l : list num, existsb (fun a => nleb a n0) l = negb (forallb (fun a => negb (nleb a n0)) l)).
  { induction l as [|a l IH]; [reflexivity|]. cbn. rewrite IH. destruct (nleb a n0); reflexivity. }
  assert (V : forall m ns xs, setComposition_vec m ns xs =
    if Nat.eqb (length ns) (length xs) && forallb (fun a => negb (nleb a n0)) xs then (fst (setComposition_vec m ns xs), Ok tt)
    else (m, Throw InvalidArgument)).
  { intros m ns xs. unfold setComposition_vec. rewrite EX. destruct (Nat.eqb _ _); cbn; [|reflexivity]. destruct (forallb _ xs); reflexivity. }
  assert (K : forall name ns xs, negb (has name (es_mats es)) = false ->
    if Nat.eqb (length ns) (length xs) && forallb (fun a => negb (nleb a n0)) xs
    then snd (onMaterial es name (fun m => setComposition_vec m ns xs)) = Ok tt
    else snd (onMaterial es name (fun m => setComposition_vec m ns xs)) = Throw InvalidArgument /\
         es_mats (fst (onMaterial es name (fun m => setComposition_vec m ns xs))) = es_mats es).
  { intros name ns xs Hh. pose proof (onMaterial_update es name (fun m => setComposition_vec m ns xs) ND) as U.
    unfold onMaterial, getMaterialIndexFromName in *. rewrite index_find in *. rewrite has_find in Hh. cbv beta in U.
    destruct (find _ _) as [m|]; [|discriminate]. pose proof (V m ns xs) as Vm.
    destruct (Nat.eqb (length ns) (length xs) && forallb (fun a => negb (nleb a n0)) xs) eqn:G.
    - rewrite Vm. reflexivity.
    - rewrite Vm in U |- *. cbn [fst snd] in *. split; [reflexivity|]. rewrite U. apply update_same_id. intros m' _ _. rewrite V, G. reflexivity. }
  destruct o; try exact I; try exact A; try reflexivity; cbn [es_call refused] in *.
  - apply K, H.
  - unfold setMaterialComposition_map, setComposition_map. specialize (K name (map fst composition) (map snd composition) H).
    rewrite !map_length, Nat.eqb_refl in K. cbn [andb] in K.
    replace (forallb (fun a => negb (nleb (snd a) n0)) composition) with (forallb (fun a => negb (nleb a n0)) (map snd composition)); [exact K|].
    clear. induction composition as [|a l IH]; [reflexivity|]. cbn. now rewrite IH.
Qed.

(** hypotheses met: additions, a refused addition, a replacement, a removal *)
Example C30_history : list (@es_op QNum) :=
  let q := fun z => (z # 1)%Q in
  [MNew "steel" (q 8%Z) (q 1%Z) "" 1; MNew "glass" (q 2%Z) (q 1%Z) "" 1; MSetMap "steel" [("Cr", q 1%Z); ("Fe", q 3%Z)];
   MNew "steel" (q 9%Z) (q 1%Z) "" 1; MNew "paper" (q 1%Z) (q 1%Z) "" 1; MNew "glass" (q 3%Z) (q 1%Z) "" 0; MRemove "paper"; MRemove "wood"].
Example C30_nonvacuous :
  let es := es_run g6 10 10 false elements_empty C30_history in
  getMaterialNames es = ["steel"; "glass"] /\
  rmap (@Material.getComposition QNum) (getMaterial es "steel") = Ok [("Cr", (1 # 4)%Q); ("Fe", (3 # 4)%Q)] /\
  rmap (@Material.getDefaultDensity QNum) (getMaterial es "glass") = Ok (3 # 1)%Q /\
  refused (materials_after g6 10 10 false elements_empty [] C30_history) (@MNew QNum "steel" 1%Q 1%Q "" 1) = true /\
  refused (materials_after g6 10 10 false elements_empty [] C30_history) (@MSetMap QNum "steel" [("Fe", 1%Q)]) = false.
Proof. repeat split; vmrefl. Qed.

(** The strong guarantee fails: replacing a material with an invalid density throws and the old
    material is lost, whatever the history. *)
Theorem C30_replace_loses_material_refuted {N : Num} (tostr : num -> string) (depth fuel : nat) (lf : bool)
    (ops : list es_op) (name : string) (density thickness : num) (comment : string) :
  let es := es_run tostr depth fuel lf elements_empty ops in
  let bad := MNew name density thickness comment 0 in
  In name (getMaterialNames es) -> nleb density n0 = true ->
  snd (es_call tostr depth fuel lf es bad) = Throw InvalidArgument /\
  getMaterial (fst (es_call tostr depth fuel lf es bad)) name = Throw InvalidArgument.
Proof.
  intros es bad Hin Hd.
  assert (R : fst (es_call tostr depth fuel lf es bad) = es_run tostr depth fuel lf elements_empty (ops ++ [bad])).
  { unfold es_run. rewrite fold_left_app. reflexivity. }
  destruct (run_mats tostr depth fuel lf ops elements_empty (NoDup_nil _)) as [E ND]. fold es in E, ND.
  destruct (call_mats tostr depth fuel lf es bad ND) as [Em _].
  assert (Hi : exists x, initialize (@material_default N) name density thickness comment = (x, Throw InvalidArgument)).
  { unfold initialize. destruct (Nat.ltb _ _); [eauto|]. rewrite Hd. eauto. }
  destruct Hi as [x Hi].
  assert (Hh : has name (es_mats es) = true) by (apply has_iff; exact Hin).
  split.
  - unfold bad. cbn [es_call]. unfold addMaterial_new, getMaterialIndexFromName. rewrite index_has, Hh. cbn [andb negb Z.eqb]. rewrite Hi. reflexivity.
  - rewrite getMaterial_find, Em. unfold bad. cbn [materials_step]. rewrite Hh. cbn [andb negb Z.eqb]. rewrite Hi.
    destruct (find _ _) as [m|] eqn:F; [|reflexivity]. apply find_some in F. destruct F as [F1 F2].
    exfalso. apply named_iff in F2. apply (without_not_in name (es_mats es)). rewrite <- F2 at 1. apply in_map, F1.
Qed.
Example C30_replace_nonvacuous :
  In "steel" (getMaterialNames (es_run g6 10 10 false elements_empty C30_history)) /\ @nleb QNum 0%Q (@n0 QNum) = true.
Proof. split; [|reflexivity]. replace (getMaterialNames _) with ["steel"; "glass"] by (symmetry; vmrefl). left. reflexivity. Qed.
(** and a throwing addMaterial may leave the new material registered, without composition *)
Theorem C30_throwing_add_registers_refuted :
  let el n z (a : Q) := match @element_new QNum n z with Ok e => fst (setAtomicMass e a) | _ => element_default end in
  let es := es_run g6 10 10 false elements_empty [RAdd (el "H" 1%Z 1%Q); RAdd (el "O" 8%Z (16 # 1)%Q)] in
  let o := MNew "H-2O" 1%Q 1%Q "" 1 in
  snd (es_call g6 10 10 false es o) = Throw InvalidArgument /\
  rmap (@Material.getComposition QNum) (getMaterial (fst (es_call g6 10 10 false es o)) "H-2O") = Ok [].
Proof. split; vmrefl. Qed.

Print Assumptions C29_registry.
Print Assumptions C29_names.
Print Assumptions C29_last_addition.
Print Assumptions C29_empty_name_refuted.
Print Assumptions C30_materials.
Print Assumptions C30_refused_unchanged.
Print Assumptions C30_outcomes.
Print Assumptions C30_replace_loses_material_refuted.
Print Assumptions C30_throwing_add_registers_refuted.
