(** A sample layer and the same layer as two of the same material. *)
From Coq Require Import String List ZArith Reals.
From Verif Require Import Base.Num Base.Res Model.Beam Model.Layer Model.XRF.
Import ListNotations.
Local Open Scope R_scope.

(** the layer with another thickness *)
Definition of_thickness (l : @layer RNum) (t : R) : @layer RNum :=
  mkLayer (l_name l) (l_materialName l) (l_hasMaterial l) (l_material l) (l_funnyFactor l) (l_density l) t.
(** the configuration with another sample *)
Definition with_sample (c : @config RNum) (sample : list (@layer RNum)) (reference : option Z) : @config RNum :=
  mkConfig (c_beam c) (c_materials c) (c_filters c) sample (c_attenuators c) (c_userFilters c) (c_userAttenuators c) reference
           (c_alphaIn c) (c_alphaOut c) (c_scattering c) (c_detector c).
