(** Model of classes Layer and Detector (src/fisx_layer.h/.cpp, src/fisx_detector.h/.cpp).
    The elements library passed to the queries is represented by the answers it gives
    ([library]); Model/Elements*.v models how those answers are computed. *)
From Coq Require Import String List ZArith Bool.
From Verif Require Import Base.Num Base.Res Base.RSum Base.SMap Model.Material.
Import ListNotations.
Set Implicit Arguments.
Local Open Scope num_scope.

Section Layer.
Context {N : Num}.

Definition composition := list (string * num).           (* std::map<std::string, double> *)
Definition escape := list (string * list (string * num)). (* std::map<std::string, std::map<...> > *)

(** What Layer and Detector ask of a [const Elements &]. *)
Record library := mkLibrary {
  lib_mu_comp : composition -> num -> res num;              (* getMassAttenuationCoefficients(map, E)["total"] *)
  lib_mu_name : string -> num -> res num;                   (* getMassAttenuationCoefficients(name, E)["total"] *)
  lib_muv_comp : composition -> list num -> res (list num); (* idem, vector of energies *)
  lib_muv_name : string -> list num -> res (list num);
  lib_comp_map : composition -> res composition;            (* getComposition(map) *)
  lib_comp_name : string -> res composition;                (* getComposition(name) *)
  lib_families_list : list string -> num -> res (list (string * num)); (* getPeakFamilies(vector, E) *)
  lib_families_name : string -> num -> res (list (string * num));      (* getPeakFamilies(name, E) *)
  lib_escape : composition -> num -> num -> num -> Z -> num -> res escape (* getEscape(comp, E, thrE, thrI, n, alphaIn, 0) *)
}.

(** data members, fisx_layer.h 129-136 *)
Record layer := mkLayer {
  l_name : string;
  l_materialName : string;
  l_hasMaterial : bool;
  l_material : @material N;
  l_funnyFactor : num;
  l_density : num;
  l_thickness : num }.

(** Layer::Layer, fisx_layer.cpp 36-45 *)
Definition layer_new (name : string) (density thickness funnyFactor : num) : layer :=
  mkLayer name name false material_default funnyFactor density thickness.

(** default arguments, fisx_layer.h 47-49 *)
Definition layer_default (name : string) : layer := layer_new name n0 n0 n1.

(** Layer::setDensity, fisx_layer.cpp 47-54 *)
Definition setDensity (l : layer) (v : num) : layer * res unit :=
  if v <=? n0 then (l, Throw InvalidArgument)
  else (mkLayer (l_name l) (l_materialName l) (l_hasMaterial l) (l_material l) (l_funnyFactor l) v (l_thickness l), Ok tt).

(** Layer::setThickness, fisx_layer.cpp 56-63 *)
Definition setThickness (l : layer) (v : num) : layer * res unit :=
  if v <=? n0 then (l, Throw InvalidArgument)
  else (mkLayer (l_name l) (l_materialName l) (l_hasMaterial l) (l_material l) (l_funnyFactor l) (l_density l) v, Ok tt).

(** Layer::setMaterial(const std::string &), fisx_layer.cpp 65-69 *)
Definition setMaterial_name (l : layer) (s : string) : layer :=
  mkLayer (l_name l) s false (l_material l) (l_funnyFactor l) (l_density l) (l_thickness l).

(** Layer::setMaterial(const Material &), fisx_layer.cpp 71-83 *)
Definition setMaterial_mat (l : layer) (m : @material N) : layer :=
  let d := if l_density l <? n0 then getDefaultDensity m else l_density l in
  let t := if l_thickness l <=? n0 then getDefaultThickness m else l_thickness l in
  mkLayer (l_name l) (l_materialName l) true m (l_funnyFactor l) d t.

(** Layer::getComposition, fisx_layer.cpp 96-106 *)
Definition layer_getComposition (lib : library) (l : layer) : res composition :=
  if l_hasMaterial l then lib_comp_map lib (getComposition (l_material l))
  else lib_comp_name lib (l_materialName l).

(** fisx_layer.cpp 122-129 and 184-191 *)
Definition layer_mu (lib : library) (l : layer) (energy : num) : res num :=
  if l_hasMaterial l then lib_mu_comp lib (getComposition (l_material l)) energy
  else lib_mu_name lib (l_materialName l) energy.
Definition layer_muv (lib : library) (l : layer) (energy : list num) : res (list num) :=
  if l_hasMaterial l then lib_muv_comp lib (getComposition (l_material l)) energy
  else lib_muv_name lib (l_materialName l) energy.

(** mass thickness along the path, fisx_layer.cpp 130-145 and 164-175 *)
Definition pathThickness (l : layer) (angle : num) : num :=
  if angle =? nlit 90 0 then l_density l * l_thickness l
  else (l_density l * l_thickness l) /
       (if angle <? n0 then nsin (- angle * npi / nlit 180 0) else nsin (angle * npi / nlit 180 0)).

(** fisx_layer.cpp 153 and 194-195 *)
Definition attenuate (l : layer) (t mu : num) : num :=
  (n1 - l_funnyFactor l) + (l_funnyFactor l * nexp (- (t * mu))).

(** Layer::getTransmission(double), fisx_layer.cpp 115-154 *)
Definition getTransmission (lib : library) (l : layer) (energy angle : num) : res num :=
  rbind (layer_mu lib l energy) (fun mu =>
  let t := pathThickness l angle in
  if t <=? n0 then Throw RuntimeError else Ok (attenuate l t mu)).

(** Layer::getTransmission(vector), fisx_layer.cpp 156-198 *)
Definition getTransmission_vec (lib : library) (l : layer) (energy : list num) (angle : num) : res (list num) :=
  let t := pathThickness l angle in
  if t <=? n0 then Throw RuntimeError
  else rbind (layer_muv lib l energy) (fun mus => Ok (map (attenuate l t) mus)).

(** Layer::getPeakFamilies, fisx_layer.cpp 200-228: the element list without repetitions,
    in order of first appearance. *)
Definition push_new (acc : list string) (s : string) : list string :=
  if existsb (String.eqb s) acc then acc else acc ++ [s].
Definition layer_getPeakFamilies (lib : library) (l : layer) (energy : num) : res (list (string * num)) :=
  if l_hasMaterial l then
    rbind (rfold (fun acc name =>
             rbind (lib_comp_name lib name) (fun c => Ok (fold_left push_new (map fst c) acc)))
             (map fst (getComposition (l_material l))) [])
      (fun els => lib_families_list lib els energy)
  else lib_families_name lib (l_materialName l) energy.

(** ** Detector *)
(** data members, fisx_detector.h; escapePeakCache is
    std::map<std::string, std::map<double, escape> > *)
Record detector := mkDetector {
  d_layer : layer;
  d_diameter : num;
  d_distance : num;
  d_thrE : num;
  d_thrI : num;
  d_nThr : Z;
  d_alphaIn : num;
  d_cache : list (string * list (num * escape)) }.

(** Detector::Detector, fisx_detector.cpp 35-45 *)
Definition detector_new (name : string) (density thickness funnyFactor : num) : detector :=
  mkDetector (layer_new name density thickness funnyFactor) n0 (nlit 10 0) (nlit 10 (-3)) (nlit 1 (-7)) 4 (nlit 90 0) [].

Definition with_layer (d : detector) (l : layer) : detector :=
  mkDetector l (d_diameter d) (d_distance d) (d_thrE d) (d_thrI d) (d_nThr d) (d_alphaIn d) (d_cache d).
Definition with_cache (d : detector) c : detector :=
  mkDetector (d_layer d) (d_diameter d) (d_distance d) (d_thrE d) (d_thrI d) (d_nThr d) (d_alphaIn d) c.
Definition with_diameter (d : detector) v : detector :=
  mkDetector (d_layer d) v (d_distance d) (d_thrE d) (d_thrI d) (d_nThr d) (d_alphaIn d) (d_cache d).
Definition with_distance (d : detector) v : detector :=
  mkDetector (d_layer d) (d_diameter d) v (d_thrE d) (d_thrI d) (d_nThr d) (d_alphaIn d) (d_cache d).

(** Detector::setMaterial (2 overloads), fisx_detector.cpp 47-57 *)
Definition det_setMaterial_name (d : detector) (s : string) : detector :=
  with_layer (with_cache d []) (setMaterial_name (d_layer d) s).
Definition det_setMaterial_mat (d : detector) (m : @material N) : detector :=
  with_layer (with_cache d []) (setMaterial_mat (d_layer d) m).

(** Detector::setMinimumEscapePeakEnergy/Intensity, setMaximumNumberOfEscapePeaks, clearEscapePeakCache,
    fisx_detector.cpp 59-80 *)
Definition setMinimumEscapePeakEnergy (d : detector) (e : num) : detector :=
  mkDetector (d_layer d) (d_diameter d) (d_distance d) e (d_thrI d) (d_nThr d) (d_alphaIn d) [].
Definition setMinimumEscapePeakIntensity (d : detector) (i : num) : detector :=
  mkDetector (d_layer d) (d_diameter d) (d_distance d) (d_thrE d) i (d_nThr d) (d_alphaIn d) [].
Definition setMaximumNumberOfEscapePeaks (d : detector) (n : Z) : detector :=
  mkDetector (d_layer d) (d_diameter d) (d_distance d) (d_thrE d) (d_thrI d) n (d_alphaIn d) [].
Definition clearEscapePeakCache (d : detector) : detector := with_cache d [].

(** Detector::getActiveArea, fisx_detector.cpp 82-87 *)
Definition getActiveArea (d : detector) : num := (nlit 25 (-2) * npi) * (d_diameter d * d_diameter d).

(** Detector::setActiveArea, fisx_detector.cpp 89-98 *)
Definition setActiveArea (d : detector) (area : num) : detector * res unit :=
  if area <? n0 then (d, Throw InvalidArgument)
  else (with_diameter d (nlit 2 0 * nsqrt (area / npi)), Ok tt).

(** Detector::setDiameter, fisx_detector.cpp 100-107 *)
Definition setDiameter (d : detector) (v : num) : detector * res unit :=
  if v <? n0 then (d, Throw InvalidArgument) else (with_diameter d v, Ok tt).

(** Detector::setDistance, fisx_detector.cpp 109-116 *)
Definition setDistance (d : detector) (v : num) : detector * res unit :=
  if v <=? n0 then (d, Throw InvalidArgument) else (with_distance d v, Ok tt).

(** Detector::getDiameter/getDistance, fisx_detector.cpp 118-126 *)
Definition getDiameter (d : detector) : num := d_diameter d.
Definition getDistance (d : detector) : num := d_distance d.

(** setDensity/setThickness inherited from Layer *)
Definition det_setDensity (d : detector) (v : num) : detector * res unit :=
  let (l, r) := setDensity (d_layer d) v in (with_layer d l, r).
Definition det_setThickness (d : detector) (v : num) : detector * res unit :=
  let (l, r) := setThickness (d_layer d) v in (with_layer d l, r).

(** the uncached computation, fisx_detector.cpp 148-154 and 159-165 *)
Definition computeEscape (lib : library) (d : detector) (energy : num) : res escape :=
  rbind (layer_getComposition lib (d_layer d)) (fun c =>
  lib_escape lib c energy (d_thrE d) (d_thrI d) (d_nThr d) (d_alphaIn d)).

(** cache[label][energy] when present *)
Definition cacheFind (c : list (string * list (num * escape))) (label : string) (energy : num) : option escape :=
  match mfind sltb label c with
  | Some m => mfind nltb energy m
  | None => None
  end.
(** cache[label][energy] = v *)
Definition cacheSet (c : list (string * list (num * escape))) (label : string) (energy : num) (v : escape) :=
  let m := match mfind sltb label c with Some m => m | None => [] end in
  mset sltb label (mset nltb energy v m) c.

(** Detector::getEscape, fisx_detector.cpp 128-167. [lhs_first]: before C++17 the order of
    evaluation of the two sides of the assignment of line 148 is unspecified; when the left
    side is evaluated first, a throwing computation leaves an empty entry behind. *)
Definition det_getEscape (lhs_first : bool) (lib : library) (d : detector) (energy : num) (label : string) (update : Z)
  : detector * res escape :=
  if Nat.ltb 0 (String.length label) then
    let d1 := if Z.eqb update 0 then d else with_cache d [] in
    match cacheFind (d_cache d1) label energy with
    | Some v => (d1, Ok v)
    | None =>
        match computeEscape lib d1 energy with
        | Ok v => (with_cache d1 (cacheSet (d_cache d1) label energy v), Ok v)
        | r => (if lhs_first then with_cache d1 (cacheSet (d_cache d1) label energy []) else d1, r)
        end
    end
  else (d, computeEscape lib d energy).

End Layer.
