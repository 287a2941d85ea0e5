(** C09 - C12: Layer and Detector. *)
From Coq Require Import PrimFloat String List ZArith Reals Lra.
From Verif Require Import Base.Num Base.Res Base.SMap Model.Material Model.Layer Spec.LayerSpec Proofs.LayerProofs Proofs.LayerProofs2.
Import ListNotations.
Local Open Scope string_scope.
Local Open Scope R_scope.
Local Existing Instance RNum.

(** C09. [layer_mu lib l e = Ok mu] says that the library answers [mu] for the layer's material. *)
Theorem C09_transmission_at_normal_incidence :
  forall (lib : library) (l : layer) (e mu : R),
  layer_mu lib l e = Ok mu -> 0 < l_density l * l_thickness l ->
  getTransmission lib l e 90 = Ok (beer_lambert (l_funnyFactor l) (l_density l * l_thickness l) mu).
Proof. exact transmission_normal. Qed.
Print Assumptions C09_transmission_at_normal_incidence.

Theorem C09_transmission_at_any_angle :
  forall (lib : library) (l : layer) (e mu a : R),
  layer_mu lib l e = Ok mu -> 0 < l_density l * l_thickness l -> 0 < Rabs a < 180 ->
  getTransmission lib l e a =
  Ok (beer_lambert (l_funnyFactor l) (l_density l * l_thickness l / sin (Rabs a * PI / 180)) mu).
Proof. exact transmission_any_angle. Qed.
Print Assumptions C09_transmission_at_any_angle.

Theorem C09_opposite_angles_agree :
  forall (lib : library) (l : layer) (e a : R), getTransmission lib l e (- a) = getTransmission lib l e a.
Proof. exact transmission_sign. Qed.
Print Assumptions C09_opposite_angles_agree.

Theorem C09_non_positive_thickness_throws :
  forall (lib : library) (l : layer) (e mu a : R),
  layer_mu lib l e = Ok mu -> sin (Rabs a * PI / 180) <> 0 ->
  l_density l * l_thickness l / sin (Rabs a * PI / 180) <= 0 ->
  getTransmission lib l e a = Throw RuntimeError.
Proof. exact transmission_thin_throws. Qed.
Print Assumptions C09_non_positive_thickness_throws.

Theorem C09_transmission_is_a_fraction :
  forall (lib : library) (l : layer) (e mu a r : R),
  layer_mu lib l e = Ok mu -> sin (Rabs a * PI / 180) <> 0 -> 0 <= mu -> 0 <= l_funnyFactor l <= 1 ->
  getTransmission lib l e a = Ok r -> 1 - l_funnyFactor l <= r <= 1.
Proof. exact transmission_range. Qed.
Print Assumptions C09_transmission_is_a_fraction.

Theorem C09_transmission_decreases :
  forall (lib lib' : library) (l l' : layer) (e e' mu mu' r r' : R),
  layer_mu lib l e = Ok mu -> layer_mu lib' l' e' = Ok mu' -> 0 <= mu <= mu' ->
  l_funnyFactor l = l_funnyFactor l' -> 0 <= l_funnyFactor l ->
  0 < l_density l -> l_density l <= l_density l' -> 0 < l_thickness l -> l_thickness l <= l_thickness l' ->
  getTransmission lib l e 90 = Ok r -> getTransmission lib' l' e' 90 = Ok r' -> r' <= r.
Proof. exact transmission_monotone. Qed.
Print Assumptions C09_transmission_decreases.

Theorem C09_stacked_layers_multiply :
  forall (lib : library) (l l1 l2 : layer) (e mu r r1 r2 : R),
  layer_mu lib l e = Ok mu -> layer_mu lib l1 e = Ok mu -> layer_mu lib l2 e = Ok mu ->
  l_funnyFactor l = 1 -> l_funnyFactor l1 = 1 -> l_funnyFactor l2 = 1 ->
  0 < l_density l -> l_density l1 = l_density l -> l_density l2 = l_density l ->
  0 < l_thickness l1 -> 0 < l_thickness l2 -> l_thickness l = l_thickness l1 + l_thickness l2 ->
  getTransmission lib l e 90 = Ok r -> getTransmission lib l1 e 90 = Ok r1 -> getTransmission lib l2 e 90 = Ok r2 ->
  r = r1 * r2.
Proof. exact transmission_stack. Qed.
Print Assumptions C09_stacked_layers_multiply.

(** For any arithmetic; the first hypothesis says that the library's own vector overload is
    element-wise (proved for the Elements model in C35). *)
Theorem C09_vector_overload_is_elementwise :
  forall (N : Num) (lib : @library N) (l : layer) (es : list num) (angle : num),
  layer_muv lib l es = rmapM (layer_mu lib l) es -> es <> [] ->
  (forall e, In e es -> exists mu, layer_mu lib l e = Ok mu) ->
  getTransmission_vec lib l es angle = rmapM (fun e => getTransmission lib l e angle) es.
Proof. exact (@transmission_vector). Qed.
Print Assumptions C09_vector_overload_is_elementwise.

Section Case9.
Let lib : library := mkLibrary (fun _ _ => Ok 2) (fun _ _ => Ok 2) (fun _ es => Ok (map (fun _ => 2) es))
  (fun _ es => Ok (map (fun _ => 2) es)) (fun c => Ok c) (fun _ => Ok []) (fun _ _ => Ok []) (fun _ _ => Ok [])
  (fun _ _ _ _ _ _ => Ok []).
Example C09_case : getTransmission lib (layer_new "Fe" 7 (1/10) 1) 10 90 = Ok (beer_lambert 1 (7 * (1/10)) 2) /\
  getTransmission lib (layer_new "Fe" 7 (1/10) 1) 10 (-30) =
    Ok (beer_lambert 1 (7 * (1/10) / sin (Rabs (-30) * PI / 180)) 2).
Proof.
  split; [apply transmission_normal; [reflexivity|cbn; lra]|].
  apply transmission_any_angle; [reflexivity|cbn; lra|]. rewrite Rabs_left; lra.
Qed.
Example C09_vector_case : getTransmission_vec lib (layer_new "Fe" 7 (1/10) 1) [1; 2] 90 =
  rmapM (fun e => getTransmission lib (layer_new "Fe" 7 (1/10) 1) e 90) [1; 2].
Proof. apply C09_vector_overload_is_elementwise; [reflexivity|discriminate|intros; now exists 2]. Qed.
End Case9.

(** C10 *)
Theorem C10_thickness_comes_from_material :
  forall (l : layer) (m : @material RNum),
  l_thickness (setMaterial_mat l m) = (if Rle_dec (l_thickness l) 0 then getDefaultThickness m else l_thickness l).
Proof. exact setMaterial_thickness. Qed.
Print Assumptions C10_thickness_comes_from_material.

(** The density is replaced only when it is strictly negative. *)
Theorem C10_density_comes_from_material_partial :
  forall (l : layer) (m : @material RNum),
  l_density (setMaterial_mat l m) = (if Rlt_dec (l_density l) 0 then getDefaultDensity m else l_density l).
Proof. exact setMaterial_density. Qed.
Print Assumptions C10_density_comes_from_material_partial.

(** Full claim refuted: with the default density argument, whatever material is attached,
    the layer has no usable density and every transmission query throws. *)
Theorem C10_density_comes_from_material_refuted :
  forall (lib : library) (name : string) (m : @material RNum) (e a mu : R),
  layer_mu lib (setMaterial_mat (layer_default name) m) e = Ok mu ->
  sin (Rabs a * PI / 180) <> 0 ->
  l_density (setMaterial_mat (layer_default name) m) = 0 /\
  getTransmission lib (setMaterial_mat (layer_default name) m) e a = Throw RuntimeError.
Proof.
  intros lib name m e a mu Hm Hs. split; [|exact (default_density_throws lib name m e a mu Hm Hs)].
  rewrite setMaterial_density. cbn. destruct (Rlt_dec 0 0); [lra|reflexivity].
Qed.
Print Assumptions C10_density_comes_from_material_refuted.

(** C11 *)
Theorem C11_active_area :
  forall (d : detector) (a : R),
  (0 <= a -> exists d', setActiveArea d a = (d', Ok tt) /\ getActiveArea d' = a /\ 0 <= getDiameter d' /\ getDistance d' = getDistance d) /\
  (a < 0 -> setActiveArea d a = (d, Throw InvalidArgument)).
Proof. exact setActiveArea_exact. Qed.
Print Assumptions C11_active_area.

Theorem C11_diameter :
  forall (d : detector) (v : R),
  (0 <= v -> exists d', setDiameter d v = (d', Ok tt) /\ getDiameter d' = v /\ getActiveArea d' = PI * v * v / 4 /\ getDistance d' = getDistance d) /\
  (v < 0 -> setDiameter d v = (d, Throw InvalidArgument)).
Proof. exact setDiameter_exact. Qed.
Print Assumptions C11_diameter.

Theorem C11_distance :
  forall (d : detector) (v : R),
  (0 < v -> exists d', setDistance d v = (d', Ok tt) /\ getDistance d' = v /\ getDiameter d' = getDiameter d) /\
  (v <= 0 -> setDistance d v = (d, Throw InvalidArgument)).
Proof. exact setDistance_exact. Qed.
Print Assumptions C11_distance.

Theorem C11_geometry_is_always_valid :
  forall lf (lib : library) name (density thickness funny : R) history,
  let d := det_run lf lib (detector_new name density thickness funny) history in
  0 <= getDiameter d /\ 0 < getDistance d.
Proof. exact det_run_geometry. Qed.
Print Assumptions C11_geometry_is_always_valid.

(** C12. Strict total order on energies: true of the reals, and of doubles without NaN when
    -0.0 and 0.0 are identified. [false]: the right-hand side of the assignment is evaluated
    first (C++17); failed computations are then allowed. *)
Theorem C12_escape_cache_is_transparent :
  forall (N : Num), StrictTotal (@nltb N) ->
  forall (lib : library) name density thickness funny history energy label update,
  let d := det_run false lib (detector_new name density thickness funny) history in
  snd (det_getEscape false lib d energy label update) = computeEscape lib d energy.
Proof.
  exact (fun N ST lib name de th ff h e la u =>
    @det_run_transparent N ST lib false (fun H => match Bool.diff_false_true H with end) name de th ff h e la u).
Qed.
Print Assumptions C12_escape_cache_is_transparent.

(** Either evaluation order, when no escape computation fails. *)
Theorem C12_escape_cache_is_transparent_any_order :
  forall (N : Num), StrictTotal (@nltb N) ->
  forall (lib : library) lf, (forall d e, exists v, computeEscape lib d e = Ok v) ->
  forall name density thickness funny history energy label update,
  let d := det_run lf lib (detector_new name density thickness funny) history in
  snd (det_getEscape lf lib d energy label update) = computeEscape lib d energy.
Proof. exact (fun N ST lib lf H => @det_run_transparent N ST lib lf (fun _ => H)). Qed.
Print Assumptions C12_escape_cache_is_transparent_any_order.

Section Case12.
Definition lib_of (v : res (@escape RNum)) : library := mkLibrary (fun _ _ => Ok 2) (fun _ _ => Ok 2) (fun _ _ => Ok [])
  (fun _ _ => Ok []) (fun c => Ok c) (fun _ => Ok []) (fun _ _ => Ok []) (fun _ _ => Ok []) (fun _ _ _ _ _ _ => v).
Example C12_hypotheses : StrictTotal (@nltb RNum) /\
  (forall d e, exists v, computeEscape (lib_of (Ok [("Ar K", [("rate", 1)])])) d e = Ok v).
Proof.
  split; [exact Rltb_total|]. intros d e. exists [("Ar K", [("rate", 1)])].
  unfold computeEscape, layer_getComposition, lib_of. destruct (l_hasMaterial _); reflexivity.
Qed.

(** Two libraries with the same label: the second one is answered with the first one's data. *)
Theorem C12_two_libraries_share_a_label_refuted :
  exists (lib1 lib2 : library) (d : detector) (e : R) (label : string),
  let d1 := fst (det_getEscape false lib1 d e label 0) in
  snd (det_getEscape false lib2 d1 e label 0) <> computeEscape lib2 d1 e.
Proof.
  exists (lib_of (Ok [("a", [])])), (lib_of (Ok [])), (detector_new "Si" 2 1 1), 5, "x". cbn.
  destruct (Rltb_spec 5 5); [lra|]. discriminate.
Qed.
Print Assumptions C12_two_libraries_share_a_label_refuted.

(** Left-hand side first (allowed before C++17): after a failed computation the same call
    succeeds with an empty result instead of failing again. *)
Theorem C12_failed_computation_is_remembered_refuted :
  exists (lib : library) (d : detector) (e : R) (label : string) (x : exn),
  let d1 := fst (det_getEscape true lib d e label 0) in
  snd (det_getEscape true lib d e label 0) = Throw x /\
  snd (det_getEscape true lib d1 e label 0) = Ok [].
Proof.
  exists (lib_of (Throw RuntimeError)), (detector_new "Si" 2 1 1), 5, "x", RuntimeError. cbn.
  destruct (Rltb_spec 5 5); [lra|]. split; reflexivity.
Qed.
Print Assumptions C12_failed_computation_is_remembered_refuted.
End Case12.

(** C46 *)
Theorem C46_last_attached_material_decides :
  forall (N : Num) lf (lib : @library N) name density thickness funny history,
  let l := d_layer (det_run lf lib (detector_new name density thickness funny) history) in
  match attached (ByName name) history with
  | ByName s =>
      layer_getComposition lib l = lib_comp_name lib s /\ (forall e, layer_mu lib l e = lib_mu_name lib s e) /\
      (forall es, layer_muv lib l es = lib_muv_name lib s es) /\ (forall e, layer_getPeakFamilies lib l e = lib_families_name lib s e)
  | ByMaterial m =>
      layer_getComposition lib l = lib_comp_map lib (getComposition m) /\ (forall e, layer_mu lib l e = lib_mu_comp lib (getComposition m) e) /\
      (forall es, layer_muv lib l es = lib_muv_comp lib (getComposition m) es)
  end.
Proof.
  intros N lf lib name density thickness funny history. cbv zeta.
  pose proof (@run_represents N lib lf history (detector_new name density thickness funny) (ByName name) (conj eq_refl eq_refl)) as H.
  destruct (attached (ByName name) history); destruct H as [H1 H2];
    unfold layer_getComposition, layer_mu, layer_muv, layer_getPeakFamilies; rewrite H1, H2; repeat split.
Qed.
Print Assumptions C46_last_attached_material_decides.

(** families of a material: the library is asked for the elements of the constituents, each once *)
Theorem C46_peak_families_of_a_material :
  forall (N : Num) lf (lib : @library N) name density thickness funny history m (E : num),
  attached (ByName name) history = ByMaterial m ->
  (forall n, In n (map fst (getComposition m)) -> exists c, lib_comp_name lib n = Ok c) ->
  exists els, NoDup els /\
    (forall x, In x els <-> exists n c, In n (map fst (getComposition m)) /\ lib_comp_name lib n = Ok c /\ In x (map fst c)) /\
    layer_getPeakFamilies lib (d_layer (det_run lf lib (detector_new name density thickness funny) history)) E = lib_families_list lib els E.
Proof.
  intros N lf lib name density thickness funny history m E H. apply families_spec. rewrite <- H.
  exact (@run_represents N lib lf history (detector_new name density thickness funny) (ByName name) (conj eq_refl eq_refl)).
Qed.
Print Assumptions C46_peak_families_of_a_material.

Example C46_case :
  attached (N:=RNum) (ByName "Si") [DSetMaterialName "Ge"; DSetMaterial material_default; DSetDiameter 3] = ByMaterial material_default /\
  attached (N:=RNum) (ByName "Si") [DSetMaterial material_default; DSetMaterialName "Ge"] = ByName "Ge".
Proof. split; reflexivity. Qed.
