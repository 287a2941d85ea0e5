(** A sample seen through attenuators. *)
From Coq Require Import String List ZArith Reals.
From Verif Require Import Base.Num Base.Res Model.Beam Model.Layer Model.TransmissionTable Model.XRF Spec.MultilayerSpec.
Import ListNotations.
Local Open Scope R_scope.

(** the configuration with other attenuators, layers and tables, between sample and detector *)
Definition with_attenuators (c : @config RNum) (layers : list (@layer RNum)) (tables : list (@ttable RNum)) : @config RNum :=
  setUserAttenuators (setAttenuators c layers) tables.
(** fraction of the photons of energy [E] that cross them all *)
Definition through (xl : @xlib RNum) (c : @config RNum) (E : R) : R :=
  Rprod (map (fun l => filter_transmission xl c l E) (c_attenuators c)) * Rprod (map (fun t => TransmissionTable.getTransmission t E) (c_userAttenuators c)).
