(** Specification vocabulary for XRF: geometry and histories of configuration calls. *)
From Coq Require Import String List ZArith Reals Bool.
From Verif Require Import Base.Num Base.Res Base.RSum Base.SMap Model.Beam Model.Material Model.TransmissionTable Model.Layer Model.XRF.
Import ListNotations.

(** *** Configuration histories *)
Inductive xrf_op {N : Num} : Type :=
| XGeometry (alphaIn alphaOut scattering : num)
| XBeam (b : @beam N)
| XBeamVectors (sortf : list (@ray N) -> list (@ray N)) (energy weight : list num) (char : list Z) (div : list num)
| XSingleEnergy (sortf : list (@ray N) -> list (@ray N)) (energy div : num)
| XFilters (l : list (@layer N))
| XUserFilters (l : list (@ttable N))
| XSample (l : list (@layer N)) (reference : Z)
| XSampleName (name : string) (density thickness : num)
| XSampleLayer (l : @layer N)
| XAttenuators (l : list (@layer N))
| XUserAttenuators (l : list (@ttable N))
| XDetector (d : @detector N).
Definition xrf_call {N : Num} (c : config) (o : xrf_op) : config * res unit :=
  match o with
  | XGeometry a b s => (setGeometry c a b s, Ok tt)
  | XBeam b => (xrf_setBeam c b, Ok tt)
  | XBeamVectors sortf e w f d => xrf_setBeam_vectors sortf c e w f d
  | XSingleEnergy sortf e d => xrf_setSingleEnergyBeam sortf c e d
  | XFilters l => (setBeamFilters c l, Ok tt)
  | XUserFilters l => (setUserBeamFilters c l, Ok tt)
  | XSample l r => setSample c l r
  | XSampleName n d t => setSample_name c n d t
  | XSampleLayer l => setSample_layer c l
  | XAttenuators l => (setAttenuators c l, Ok tt)
  | XUserAttenuators l => (setUserAttenuators c l, Ok tt)
  | XDetector d => (setDetector c d, Ok tt)
  end.
Definition xrf_run {N : Num} (l : list xrf_op) : config := fold_left (fun c o => fst (xrf_call c o)) l config_new.

(** *** What each member was set to: the argument of the last call that sets it *)
Fixpoint last_set {A B} (f : A -> option B) (default : B) (l : list A) : B :=
  match l with
  | [] => default
  | a :: r => last_set f (match f a with Some b => b | None => default end) r
  end.
Section Last.
Context {N : Num}.
Definition sets_geometry (o : xrf_op) : option (num * num * num) :=
  match o with XGeometry a b s => Some (a, b, if nltb s n0 then nadd a b else s) | _ => None end.
(** a beam given by vectors counts if the call is defined (C01, C02) *)
Definition defined {A} (r : res A) : option A := match r with Ok a => Some a | _ => None end.
Definition sets_beam (o : xrf_op) : option (@beam N) :=
  match o with
  | XBeam b => Some b
  | XBeamVectors sortf e w f d => defined (setBeam sortf beam_init e w f d)
  | XSingleEnergy sortf e d => defined (setSingleEnergyBeam sortf beam_init e d)
  | _ => None
  end.
Definition sets_filters (o : xrf_op) := match o with XFilters l => Some l | _ => None end.
Definition sets_user_filters (o : xrf_op) := match o with XUserFilters l => Some l | _ => None end.
Definition sets_attenuators (o : xrf_op) := match o with XAttenuators l => Some l | _ => None end.
Definition sets_user_attenuators (o : xrf_op) := match o with XUserAttenuators l => Some l | _ => None end.
Definition sets_detector (o : xrf_op) := match o with XDetector d => Some d | _ => None end.
(** a sample with its reference layer; a reference layer outside the sample is refused *)
Definition sets_sample (o : xrf_op) : option (list (@layer N) * option Z) :=
  match o with
  | XSample l r => if (r <? Z.of_nat (length l))%Z then Some (l, Some r) else None
  | XSampleName n d t => Some ([layer_new n d t n1], Some 0%Z)
  | XSampleLayer l => Some ([l], Some 0%Z)
  | _ => None
  end.
End Last.

(** *** Absorption edges *)
Local Open Scope R_scope.
(** the subshells of a family, outermost first *)
Definition subshells (family : string) : list string :=
  (if String.eqb family "K" then ["K"] else if String.eqb family "L" then ["L3"; "L2"; "L1"]
  else if String.eqb family "M" then ["M5"; "M4"; "M3"; "M2"; "M1"] else [])%string.
(** the binding energy of the first of the shells that has one; 0 if none has *)
Definition first_edge (binding : string -> R) (shells : list string) (t : R) : Prop :=
  (exists before s after, shells = (before ++ s :: after)%list /\ (forall q, In q before -> binding q <= 0) /\ 0 < binding s /\ t = binding s) \/
  ((forall q, In q shells -> binding q <= 0) /\ t = 0).

(** *** Geometry *)
(** fraction of the full sphere covered by a disk of diameter D at distance d on its axis:
    (1 - cos theta) / 2 where theta is the half angle, cos theta = d / hypotenuse *)
Definition sphere_fraction (D d : R) : R := (1 - d / sqrt (d ^ 2 + (D / 2) ^ 2)) / 2.
(** thickness of the layers number a, ..., b - 1 of the sample, b not included *)
Definition thickness_between (sample : list (@layer RNum)) (a b : Z) : R :=
  Rsum (map (fun l : @layer RNum => l_thickness l) (firstn (Z.to_nat (b - a)) (skipn (Z.to_nat a) sample))).
(** distance from the detector to the surface of layer [index], measured along the exit direction,
    if the distance of the detector is that to the surface of layer [ref] *)
Definition distance_to (sample : list (@layer RNum)) (sinOut distance : R) (ref index : Z) : R :=
  if Z.leb ref index then distance + thickness_between sample ref index / sinOut
  else distance - thickness_between sample index ref / sinOut.
