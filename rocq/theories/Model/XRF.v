(** Model of classes XRFConfig and XRF (src/fisx_xrfconfig.h/.cpp setters, src/fisx_xrf.h/.cpp):
    configuration, geometry, layer helpers. The calculation itself is in Model/Multilayer.v.
    Reading configuration files: Model/ConfigFile.v. Not modelled: printing,
    the flag recentBeam (never read). *)
From Coq Require Import Ascii String List ZArith Bool.
From Verif Require Import Base.Num Base.Res Base.RSum Base.SMap Base.Str Model.Beam Model.Material Model.TransmissionTable Model.Layer Model.Shell Model.Element Model.Elements.
Import ListNotations.
Set Implicit Arguments.
Local Open Scope string_scope.
Local Open Scope num_scope.

Section XRF.
Context {N : Num}.
Local Notation table := (list (string * num)).
Local Notation vtable := (list (string * list num)).
Local Notation lines := (list (string * table)).

(** What XRF asks of a [const Elements &]; [xlib_of] below is the model of Elements. *)
Record xlib := mkXlib {
  x_comp_map : table -> list (@material N) -> res table;          (* getComposition(map, materials) *)
  x_comp_name : string -> list (@material N) -> res table;        (* getComposition(name, materials) *)
  x_mu_given : table -> num -> res table;                         (* getMassAttenuationCoefficients(map, E, 1) *)
  x_muv_given : table -> list num -> res vtable;                  (* idem, vector of energies *)
  x_mu : table -> num -> res table;                               (* getMassAttenuationCoefficients(map, E) *)
  x_muv : table -> list num -> res vtable;
  x_families : list string -> num -> res (list (string * num));   (* getPeakFamilies(vector, E) *)
  x_binding : string -> res table;                                (* getBindingEnergies(name) *)
  x_factors : string -> num -> num -> res lines;                  (* getExcitationFactors(name, E, weight) *)
  x_base : @library N                                             (* what Layer and Detector ask *)
}.

(** data members, fisx_xrfconfig.h 151-166. referenceLayer is not initialised by the constructor. *)
Record config := mkConfig {
  c_beam : @beam N;
  c_materials : list (@material N);
  c_filters : list (@layer N);
  c_sample : list (@layer N);
  c_attenuators : list (@layer N);
  c_userFilters : list (@ttable N);
  c_userAttenuators : list (@ttable N);
  c_reference : option Z;
  c_alphaIn : num;
  c_alphaOut : num;
  c_scattering : num;
  c_detector : @detector N }.

(** XRFConfig::XRFConfig, fisx_xrfconfig.cpp 37-40; XRF::XRF(), fisx_xrf.cpp 42-48 *)
Definition config_new : config :=
  mkConfig beam_init [] [] [] [] [] [] None (nlit 45 0) (nlit 45 0) (nlit 45 0 + nlit 45 0) (detector_new "" n0 n0 n1).

Definition with_geometry (c : config) a b s := mkConfig (c_beam c) (c_materials c) (c_filters c) (c_sample c) (c_attenuators c)
  (c_userFilters c) (c_userAttenuators c) (c_reference c) a b s (c_detector c).
(** XRF::setGeometry, fisx_xrf.cpp 62-73 with fisx_xrfconfig.cpp 42-47 *)
Definition setGeometry (c : config) (alphaIn alphaOut scatteringAngle : num) : config :=
  if scatteringAngle <? n0 then with_geometry c alphaIn alphaOut (alphaIn + alphaOut)
  else with_geometry c alphaIn alphaOut scatteringAngle.
(** XRF::setBeam(const Beam &), fisx_xrf.cpp 75-79 *)
Definition xrf_setBeam (c : config) (b : @beam N) : config := mkConfig b (c_materials c) (c_filters c) (c_sample c) (c_attenuators c)
  (c_userFilters c) (c_userAttenuators c) (c_reference c) (c_alphaIn c) (c_alphaOut c) (c_scattering c) (c_detector c).
(** the overloads setBeam(vectors) and setSingleEnergyBeam, fisx_xrf.cpp 81-93 with
    fisx_xrfconfig.cpp 514-525. [sortf]: std::sort of the rays, see Model/Beam.v *)
Definition xrf_setBeam_result (c : config) (r : res (@beam N)) : config * res unit :=
  match r with
  | Ok b => (xrf_setBeam c b, Ok tt)
  | Throw e => (c, Throw e)
  | UB => (c, UB)
  | Diverge => (c, Diverge)
  end.
Definition xrf_setBeam_vectors (sortf : list (@ray N) -> list ray) (c : config) (energy weight : list num) (char : list Z) (div : list num) : config * res unit :=
  xrf_setBeam_result c (setBeam sortf (c_beam c) energy weight char div).
Definition xrf_setSingleEnergyBeam (sortf : list (@ray N) -> list ray) (c : config) (energy div : num) : config * res unit :=
  xrf_setBeam_result c (setSingleEnergyBeam sortf (c_beam c) energy div).
(** setBeamFilters and setUserBeamFilters, fisx_xrf.cpp 95-105 *)
Definition setBeamFilters (c : config) l : config := mkConfig (c_beam c) (c_materials c) l (c_sample c) (c_attenuators c)
  (c_userFilters c) (c_userAttenuators c) (c_reference c) (c_alphaIn c) (c_alphaOut c) (c_scattering c) (c_detector c).
Definition setUserBeamFilters (c : config) l : config := mkConfig (c_beam c) (c_materials c) (c_filters c) (c_sample c) (c_attenuators c)
  l (c_userAttenuators c) (c_reference c) (c_alphaIn c) (c_alphaOut c) (c_scattering c) (c_detector c).
(** setSample(vector, referenceLayer), fisx_xrf.cpp 107-110 with fisx_xrfconfig.cpp 545-553 *)
Definition setSample (c : config) (l : list (@layer N)) (referenceLayer : Z) : config * res unit :=
  if (Z.of_nat (length l) <=? referenceLayer)%Z then (c, Throw InvalidArgument)
  else (mkConfig (c_beam c) (c_materials c) (c_filters c) l (c_attenuators c) (c_userFilters c) (c_userAttenuators c)
          (Some referenceLayer) (c_alphaIn c) (c_alphaOut c) (c_scattering c) (c_detector c), Ok tt).
(** the other two overloads, fisx_xrf.cpp 112-126 *)
Definition setSample_name (c : config) (name : string) (density thickness : num) : config * res unit :=
  setSample c [layer_new name density thickness n1] 0.
Definition setSample_layer (c : config) (l : @layer N) : config * res unit := setSample c [l] 0.
(** setAttenuators, setUserAttenuators, setDetector, fisx_xrf.cpp 128-141 *)
Definition setAttenuators (c : config) l : config := mkConfig (c_beam c) (c_materials c) (c_filters c) (c_sample c) l
  (c_userFilters c) (c_userAttenuators c) (c_reference c) (c_alphaIn c) (c_alphaOut c) (c_scattering c) (c_detector c).
Definition setUserAttenuators (c : config) l : config := mkConfig (c_beam c) (c_materials c) (c_filters c) (c_sample c) (c_attenuators c)
  (c_userFilters c) l (c_reference c) (c_alphaIn c) (c_alphaOut c) (c_scattering c) (c_detector c).
Definition setDetector (c : config) d : config := mkConfig (c_beam c) (c_materials c) (c_filters c) (c_sample c) (c_attenuators c)
  (c_userFilters c) (c_userAttenuators c) (c_reference c) (c_alphaIn c) (c_alphaOut c) (c_scattering c) d.

(** sin(angle * (PI/180)), fisx_xrf.cpp 146 and fisx_multilayer.cpp 72-73 *)
Definition sinDegrees (angle : num) : num := nsin (angle * (npi / nlit 180 0)).

(** the two loops 173-188: layers from a to b - 1, each adding [sign] * thickness / sin. A negative
    start becomes a huge unsigned number and the loop does nothing. *)
Fixpoint addThickness (add : bool) (sample : list (@layer N)) (s : num) (is : list nat) (d : num) : res num :=
  match is with
  | [] => Ok d
  | i :: r => rbind (vget sample i) (fun l =>
      let t := l_thickness l / s in addThickness add sample s r (if add then d + t else d - t))
  end.
Definition indices (a b : Z) : list nat := if (a <? 0)%Z then [] else seq (Z.to_nat a) (Z.to_nat b - Z.to_nat a).
(** XRF::getGeometricEfficiency, fisx_xrf.cpp 142-193; pow(x, 2) is x * x *)
Definition getGeometricEfficiency (c : config) (index : Z) : res num :=
  let det := c_detector c in
  let s := sinDegrees (c_alphaOut c) in
  if getDiameter det =? n0 then Ok n1
  else if (getDistance det =? n0) && (index =? 0)%Z then Ok (nlit 5 (-1))
  else if (index <? 0)%Z then Throw InvalidArgument
  else
    rbind (of_opt (c_reference c)) (fun ref =>
    rbind (if (index =? ref)%Z then Ok (getDistance det)
           else if (ref <? index)%Z then addThickness true (c_sample c) s (indices ref index) (getDistance det)
           else addThickness false (c_sample c) s (indices index ref) (getDistance det)) (fun d =>
    let h := nlit 5 (-1) * getDiameter det in
    Ok (nlit 5 (-1) * (n1 - d / nsqrt (d * d + h * h))))).

(** XRF::getEnergyThreshold, fisx_xrf.cpp 227-257. binding[k] of a missing key is 0. *)
Definition getEnergyThreshold (xl : xlib) (elementName family : string) : res num :=
  rbind (x_binding xl elementName) (fun binding =>
  let b := val0 binding in
  Ok (if String.eqb family "K" || Nat.eqb (String.length family) 2 then b family
      else if String.eqb family "L" then
        if b "L3" >? n0 then b "L3" else if b "L2" >? n0 then b "L2" else b "L1"
      else if String.eqb family "M" then
        if b "M5" >? n0 then b "M5" else if b "M4" >? n0 then b "M4" else if b "M3" >? n0 then b "M3"
        else if b "M2" >? n0 then b "M2" else b "M1"
      else n0)).

(** XRF::getLayerComposition, fisx_xrf.cpp 265-282 *)
Definition getLayerComposition (xl : xlib) (c : config) (l : @layer N) : res table :=
  if l_hasMaterial l then x_comp_map xl (Material.getComposition (l_material l)) (c_materials c)
  else x_comp_name xl (l_materialName l) (c_materials c).
(** XRF::getLayerMassAttenuationCoefficients, fisx_xrf.cpp 284-310. [comp]: the composition given
    as last argument, empty by default *)
Definition getLayerMu (xl : xlib) (c : config) (l : @layer N) (energy : num) (comp : table) : res table :=
  match comp with
  | [] => rbind (getLayerComposition xl c l) (fun k => x_mu xl k energy)
  | _ => x_mu_given xl comp energy
  end.
Definition getLayerMu_vec (xl : xlib) (c : config) (l : @layer N) (energies : list num) (comp : table) : res vtable :=
  match comp with
  | [] => rbind (getLayerComposition xl c l) (fun k => x_muv xl k energies)
  | _ => x_muv_given xl comp energies
  end.
Definition vval (m : vtable) (k : string) : list num := match mfind sltb k m with Some v => v | None => [] end.
(** XRF::getLayerTransmission (vector), fisx_xrf.cpp 326-365; (one energy), 312-324 *)
Definition getLayerTransmission_vec (xl : xlib) (c : config) (l : @layer N) (energies : list num) (angle : num) (comp : table) : res (list num) :=
  let t := pathThickness l angle in
  if t <=? n0 then Throw RuntimeError
  else rbind (getLayerMu_vec xl c l energies comp) (fun m => Ok (map (attenuate l t) (vval m "total"))).
Definition getLayerTransmission (xl : xlib) (c : config) (l : @layer N) (energy : num) (angle : num) (comp : table) : res num :=
  rbind (getLayerTransmission_vec xl c l [energy] angle comp) (fun v => vget v 0).
(** XRF::getLayerPeakFamilies, fisx_xrf.cpp 367-392. The keys of a map are not repeated, so the
    elements are pushed in order. *)
Definition getLayerPeakFamilies (xl : xlib) (c : config) (l : @layer N) (energy : num) (comp : table) : res (list (string * num)) :=
  rbind (match comp with [] => getLayerComposition xl c l | _ => Ok comp end) (fun k =>
  x_families xl (fold_left push_new (map fst k) []) energy).

End XRF.
