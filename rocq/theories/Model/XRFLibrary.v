(** The class Elements as the library that Layer, Detector and XRF ask: which member function each
    call reaches (fisx_layer.cpp 93-226, fisx_detector.cpp 148-165, fisx_xrf.cpp 231-390,
    fisx_multilayer.cpp 263, 461, 685, 783, 934). *)
From Coq Require Import String List ZArith Bool.
From Verif Require Import Base.Num Base.Res Base.RSum Base.SMap Base.Str Model.Beam Model.Material Model.TransmissionTable Model.Shell Model.Element
  Model.Elements Model.Layer Model.XRF.
Import ListNotations.
Set Implicit Arguments.
Local Open Scope string_scope.
Local Open Scope num_scope.

Section Library.
Context {N : Num}.
(** see Model/Formula.v and Model/Elements.v *)
Variables (tostr : num -> string) (depth fuel : nat).
(** std::sort of the peak families *)
Variable sortf : list (string * num) -> list (string * num).

(** what Layer and Detector ask; Detector passes 0 as the thickness of getEscape
    (fisx_detector.cpp 148-165) *)
Definition library_of (es : @elements N) : @library N :=
  mkLibrary
    (fun c e => Elements.totalMu tostr depth fuel es c e)
    (fun s e => rmap (fun t => val0 t "total") (getMu_name tostr depth fuel es s e))
    (fun c l => rmap (fun m => vval m "total") (getMu_map_vec tostr depth fuel es c l 0))
    (fun s l => rmap (fun m => vval m "total") (getMu_name_vec tostr depth fuel es s l))
    (fun c => getComposition_map tostr depth fuel es [] c)
    (fun s => Elements.getComposition tostr depth fuel es s)
    (fun l e => Elements.getPeakFamilies sortf es l e)
    (fun s e => getPeakFamilies_name tostr depth sortf fuel es s e)
    (fun c e thrE thrI n alphaIn => Elements.getEscape tostr depth fuel es (mkKey c thrE thrI n alphaIn n0) e).
(** Elements::getBindingEnergies, fisx_elements.cpp 1916-1919 *)
Definition elementBinding (es : @elements N) (name : string) : res (list (string * num)) :=
  rmap (@Element.getBindingEnergies N) (Elements.getElement es name).
Definition xlib_of (es : @elements N) : @xlib N :=
  mkXlib
    (fun c materials => getComposition_map tostr depth fuel es materials c)
    (fun s materials => getComposition_with tostr depth fuel es materials s)
    (fun c e => getMu_map tostr depth fuel es c e 1)
    (fun c l => getMu_map_vec tostr depth fuel es c l 1)
    (fun c e => getMu_map tostr depth fuel es c e 0)
    (fun c l => getMu_map_vec tostr depth fuel es c l 0)
    (fun l e => Elements.getPeakFamilies sortf es l e)
    (elementBinding es)
    (fun s e w => getExcitationFactors es s e w)
    (library_of es).
End Library.
