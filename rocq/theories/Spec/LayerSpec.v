(** Specification vocabulary for Layer and Detector. *)
From Coq Require Import String List ZArith Reals.
From Verif Require Import Base.Num Base.Res Base.SMap Model.Material Model.Layer.
Import ListNotations.

(** Beer-Lambert law with a partially covering layer: fraction [f] of the beam crosses the
    mass thickness [rt] (g/cm2) of mass attenuation coefficient [mu]. *)
Definition beer_lambert (f rt mu : R) : R := ((1 - f) + f * exp (- (rt * mu)))%R.

(** Public operations on a detector. *)
Inductive det_op {N : Num} : Type :=
| DSetMaterialName (s : string)
| DSetMaterial (m : @material N)
| DSetMinE (e : num) | DSetMinI (i : num) | DSetMaxN (n : Z) | DClear
| DSetActiveArea (a : num) | DSetDiameter (v : num) | DSetDistance (v : num)
| DSetDensity (v : num) | DSetThickness (v : num)
| DGetEscape (energy : num) (label : string) (update : Z).

Definition det_step {N : Num} (lf : bool) (lib : library) (d : detector) (o : det_op) : detector :=
  match o with
  | DSetMaterialName s => det_setMaterial_name d s
  | DSetMaterial m => det_setMaterial_mat d m
  | DSetMinE e => setMinimumEscapePeakEnergy d e
  | DSetMinI i => setMinimumEscapePeakIntensity d i
  | DSetMaxN n => setMaximumNumberOfEscapePeaks d n
  | DClear => clearEscapePeakCache d
  | DSetActiveArea a => fst (setActiveArea d a)
  | DSetDiameter v => fst (setDiameter d v)
  | DSetDistance v => fst (setDistance d v)
  | DSetDensity v => fst (det_setDensity d v)
  | DSetThickness v => fst (det_setThickness d v)
  | DGetEscape e lab u => fst (det_getEscape lf lib d e lab u)
  end.

Definition det_run {N : Num} (lf : bool) (lib : library) (d : detector) (l : list det_op) : detector :=
  fold_left (det_step lf lib) l d.

(** What was attached last to the detector: a name (the constructor's, or that of
    setMaterial(name)) or a material object. *)
Inductive attachment {N : Num} : Type := ByName (s : string) | ByMaterial (m : @material N).
Definition attached {N : Num} (a : attachment) (l : list det_op) : attachment :=
  fold_left (fun a o => match o with DSetMaterialName s => ByName s | DSetMaterial m => ByMaterial m | _ => a end) l a.
