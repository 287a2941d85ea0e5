(** C03, C04, C05: Material. *)
From Coq Require Import PrimFloat String List Reals Lra Sorted Permutation.
From Verif Require Import Base.Num Base.Res Base.RSum Base.SMap Model.Material Spec.MaterialSpec Proofs.MaterialProofs.
Import ListNotations.
Local Open Scope string_scope.

(** C03 *)
Theorem C03_map_composition_is_normalised :
  forall (m : @material RNum) comp, is_map comp -> comp <> [] ->
  Forall (fun kv => 0 < snd kv)%R comp ->
  exists m', setComposition_map m comp = (m', Ok tt) /\
    getComposition m' = map (fun kv => (fst kv, snd kv / Rsum (map snd comp)))%R comp /\
    Rsum (map snd (getComposition m')) = 1%R /\
    Forall (fun kv => 0 < snd kv <= 1)%R (getComposition m').
Proof. exact setComposition_map_R. Qed.
Print Assumptions C03_map_composition_is_normalised.

Theorem C03_non_positive_amount_is_rejected :
  forall (m : @material RNum) comp, is_map comp -> Exists (fun kv => snd kv <= 0)%R comp ->
  setComposition_map m comp = (m, Throw InvalidArgument).
Proof. exact setComposition_map_reject. Qed.
Print Assumptions C03_non_positive_amount_is_rejected.

(** [comp] is the map with the bindings given by the two vectors (possible exactly when
    the names are pairwise different). *)
Theorem C03_vectors_agree_with_map :
  forall (m : @material RNum) names amounts comp,
  length names = length amounts -> is_map comp -> Permutation comp (combine names amounts) ->
  setComposition_vec m names amounts = setComposition_map m comp.
Proof. exact setComposition_vec_perm. Qed.
Print Assumptions C03_vectors_agree_with_map.

Example C03_hypotheses : let comp := [("Fe", 7%R); ("O", 3%R)] in
  is_map comp /\ comp <> [] /\ Forall (fun kv => 0 < snd kv)%R comp /\
  Permutation comp (combine ["O"; "Fe"] [3; 7]%R).
Proof.
  cbn. split; [repeat constructor|]. split; [discriminate|]. split; [repeat constructor; cbn; lra|].
  constructor 3.
Qed.

(** C04. The documented normalisation ("to make sure the sum is one") of the vector overload
    holds exactly when no name is repeated. *)
Theorem C04_vector_sum_is_one_iff_distinct_partial :
  forall (m : @material RNum) names amounts,
  length names = length amounts -> names <> [] -> Forall (fun a => 0 < a)%R amounts ->
  exists m', setComposition_vec m names amounts = (m', Ok tt) /\
    (Rsum (map snd (getComposition m')) <= 1)%R /\
    (Rsum (map snd (getComposition m')) = 1%R <-> NoDup names).
Proof. exact setComposition_vec_sum. Qed.
Print Assumptions C04_vector_sum_is_one_iff_distinct_partial.

(** Full claim refuted, in binary64: two equal amounts of "Fe" give {"Fe": 0.5}. *)
Theorem C04_vector_sum_is_one_refuted :
  exists names amounts m',
    @setComposition_vec FNum material_default names amounts = (m', Ok tt) /\
    getComposition m' = [("Fe", 0.5%float)] /\
    neqb (nsum (map snd (getComposition m'))) n1 = false.
Proof.
  exists ["Fe"; "Fe"], [1%float; 1%float]. eexists. repeat split; vmrefl.
Qed.
Print Assumptions C04_vector_sum_is_one_refuted.

(** C05 *)
Theorem C05_materials_are_always_valid :
  forall (start : @material RNum) (history : list mat_op),
  start = material_default \/ (exists n d t c, material_new n d t c = Ok start) ->
  valid_material (mat_run start history).
Proof. exact material_valid_everywhere. Qed.
Print Assumptions C05_materials_are_always_valid.

Theorem C05_failed_calls_change_nothing :
  forall (N : Num) (m m' : @material N) (o : mat_op) (e : exn),
  mat_step m o = (m', Throw e) -> m' = m.
Proof. exact (fun N => @step_throw_unchanged N). Qed.
Print Assumptions C05_failed_calls_change_nothing.

Theorem C05_calls_succeed_or_throw_invalid_argument :
  forall (N : Num) (m : @material N) (o : mat_op),
  snd (mat_step m o) = Ok tt \/ snd (mat_step m o) = Throw InvalidArgument.
Proof. exact (fun N => @step_no_ub N). Qed.
Print Assumptions C05_calls_succeed_or_throw_invalid_argument.

Theorem C05_initialize_accepts_exactly_valid_arguments :
  forall (m : @material RNum) n d t c,
  (snd (initialize m n d t c) = Ok tt <-> n <> EmptyString /\ (0 < d)%R /\ (0 < t)%R) /\
  (snd (initialize m n d t c) = Ok tt ->
   let m' := fst (initialize m n d t c) in
   getName m' = n /\ getDefaultDensity m' = d /\ getDefaultThickness m' = t /\ getComment m' = c /\
   getComposition m' = getComposition m).
Proof.
  intros m n d t c. rewrite initialize_iff.
  destruct (string_dec n EmptyString) as [->|Hn]; [cbn; split; [split; [discriminate|intros [H _]; congruence]|discriminate]|].
  destruct (Rle_dec d 0); [cbn; split; [split; [discriminate|lra]|discriminate]|].
  destruct (Rle_dec t 0); [cbn; split; [split; [discriminate|lra]|discriminate]|].
  cbn. split; [split; [repeat split; [assumption|lra..]|reflexivity]|intros _; repeat split].
Qed.
Print Assumptions C05_initialize_accepts_exactly_valid_arguments.

Theorem C05_named_material_cannot_be_renamed_by_setName :
  forall (N : Num) (m m' : @material N) n d t c history newname,
  initialize m n d t c = (m', Ok tt) ->
  setName (mat_run m' history) newname = (mat_run m' history, Throw InvalidArgument).
Proof.
  exact (fun N m m' n d t c history newname H =>
    setName_initialized _ newname (run_keeps_initialized history m' (initialize_sets m m' n d t c H))).
Qed.
Print Assumptions C05_named_material_cannot_be_renamed_by_setName.

Example C05_reachable_case :
  valid_material (mat_run (@material_default RNum)
    [@MSetCompositionMap RNum [("Fe", 2%R)]; @MInitialize RNum "steel" (-1)%R 1%R ""; MSetName "steel"; MSetName "x"]).
Proof. apply C05_materials_are_always_valid. left; reflexivity. Qed.
