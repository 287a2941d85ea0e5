(** Model of class Material (src/fisx_material.h, src/fisx_material.cpp). *)
From Coq Require Import String List ZArith Bool.
From Verif Require Import Base.Num Base.Res Base.RSum Base.SMap.
Import ListNotations.
Set Implicit Arguments.
Local Open Scope num_scope.

Section Material.
Context {N : Num}.

(** data members, fisx_material.h 86-92 *)
Record material := mkMaterial {
  m_name : string;
  m_initialized : bool;
  m_composition : list (string * num);   (* std::map<std::string, double> *)
  m_density : num;
  m_thickness : num;
  m_comment : string }.

(** Material::Material(), fisx_material.cpp 35-42 *)
Definition material_default : material :=
  mkMaterial "Unset name" false [] n1 n1 "".

(** Material::initialize, fisx_material.cpp 63-93 *)
Definition initialize (m : material) (name : string) (density thickness : num) (comment : string)
  : material * res unit :=
  if Nat.ltb (String.length name) 1 then (m, Throw InvalidArgument)
  else if density <=? n0 then (m, Throw InvalidArgument)
  else if thickness <=? n0 then (m, Throw InvalidArgument)
  else (mkMaterial name true (m_composition m) density thickness comment, Ok tt).

(** Material::Material(name, ...), fisx_material.cpp 44-48. The other members are default
    constructed; [initialized], density and thickness are indeterminate until [initialize]
    assigns them, which it does unless it throws (then there is no object). *)
Definition material_new (name : string) (density thickness : num) (comment : string) : res material :=
  match initialize material_default name density thickness comment with
  | (m, Ok _) => Ok m
  | (_, Throw e) => Throw e
  | (_, UB) => UB
  | (_, Diverge) => Diverge
  end.

(** Material::setName, fisx_material.cpp 51-61 *)
Definition setName (m : material) (name : string) : material * res unit :=
  if m_initialized m then (m, Throw InvalidArgument)
  else initialize m name (m_density m) (m_thickness m) (m_comment m).

(** Material::setComposition(vectors), fisx_material.cpp 110-146 *)
Definition setComposition_vec (m : material) (names : list string) (amounts : list num)
  : material * res unit :=
  if negb (Nat.eqb (length names) (length amounts)) then (m, Throw InvalidArgument)
  else if existsb (fun a => a <=? n0) amounts then (m, Throw InvalidArgument)
  else
    let total := nsum amounts in
    (mkMaterial (m_name m) (m_initialized m)
       (mset_all sltb (map (fun na => (fst na, snd na / total)) (combine names amounts)) [])
       (m_density m) (m_thickness m) (m_comment m), Ok tt).

(** Material::setComposition(map), fisx_material.cpp 95-108 *)
Definition setComposition_map (m : material) (composition : list (string * num)) : material * res unit :=
  setComposition_vec m (map fst composition) (map snd composition).

(** Material::getComposition / getName / getComment / getDefaultDensity / getDefaultThickness,
    fisx_material.cpp 148-161, fisx_material.h 83-84 *)
Definition getComposition (m : material) := m_composition m.
Definition getName (m : material) := m_name m.
Definition getComment (m : material) := m_comment m.
Definition getDefaultDensity (m : material) := m_density m.
Definition getDefaultThickness (m : material) := m_thickness m.

End Material.
