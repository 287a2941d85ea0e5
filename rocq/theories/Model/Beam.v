(** Model of class Beam (src/fisx_beam.h, src/fisx_beam.cpp). *)
From Coq Require Import List ZArith Bool.
From Verif Require Import Base.Num Base.Res Base.RSum.
Import ListNotations.
Set Implicit Arguments.
Local Open Scope num_scope.

Section Beam.
Context {N : Num}.

(** struct Ray, fisx_beam.h 37-56 *)
Record ray := mkRay { r_energy : num; r_weight : num; r_char : Z; r_div : num }.

(** class Beam data members, fisx_beam.h 112-115 *)
Record beam := mkBeam { b_rays : list ray; b_normalized : bool }.

(** Beam::Beam, fisx_beam.cpp 34-37 *)
Definition beam_init : beam := mkBeam [] false.

(** Ray::operator<, fisx_beam.h 52-55 *)
Definition ray_ltb (a b : ray) : bool := r_energy a <? r_energy b.

(** std::sort is not stable: it is modelled by an arbitrary function [sortf] and the
    theorems assume only the contract of the C++ standard (permutation, sorted) about it. *)
Variable sortf : list ray -> list ray.

(** std::sort requires operator< to be a strict weak ordering of the elements;
    with a NaN among at least two energies it is not one: undefined. *)
Definition sortable (l : list ray) : bool :=
  Nat.leb (length l) 1 || forallb (fun r => r_energy r =? r_energy r) l.

(** Beam::normalizeBeam, fisx_beam.cpp 189-211 *)
Definition normalizeBeam (rays : list ray) : res beam :=
  let total := nsum (map r_weight rays) in
  let rays' := if total >? n0
               then map (fun r => mkRay (r_energy r) (r_weight r / total) (r_char r) (r_div r)) rays
               else rays in
  if sortable rays' then Ok (mkBeam (sortf rays') true) else UB.

(** The three "optional vector" blocks of Beam::setBeam, fisx_beam.cpp 62-78 and 84-115:
    default value, first element, or element i. *)
Definition opt_arg {A} (dflt : A) (v : list A) (i : nat) : res A :=
  if Nat.ltb 1 (length v) then vget v i
  else match v with a :: _ => Ok a | [] => Ok dflt end.

(** Beam::setBeam(vectors), fisx_beam.cpp 39-119. The loop assigns every field of every
    ray, so nothing of the previous beam is left. [b]: the beam before the call. *)
Definition setBeam (b : beam) (energy weight : list num) (char : list Z) (div : list num) : res beam :=
  match energy with
  | [] => Ok (mkBeam [] false)
  | _ =>
    rbind (rmapM (fun i =>
             rbind (vget energy i) (fun e =>
             rbind (opt_arg n1 weight i) (fun w =>
             rbind (opt_arg 1%Z char i) (fun c =>
             rbind (opt_arg n0 div i) (fun d => Ok (mkRay e w c d))))))
           (seq 0 (length energy)))
      normalizeBeam
  end.

(** Beam::setSingleEnergyBeam, fisx_beam.cpp 121-132 *)
Definition setSingleEnergyBeam (b : beam) (energy div : num) : res beam :=
  normalizeBeam [mkRay energy n1 1%Z div].

(** Reading element i of a C array given by pointer: None is NULL. *)
Definition pget {A} (p : option (list A)) (i : nat) : res A :=
  match p with None => UB | Some v => vget v i end.

(** Beam::setBeam(pointers, int flags), fisx_beam.cpp 134-172. A negative nValues makes
    resize throw length_error (the conversion to size_t is huge) after rays.clear(). *)
Definition setBeam_ptr (b : beam) (nValues : Z) (energy weight : option (list num))
    (char : option (list Z)) (div : option (list num)) : beam * res unit :=
  if Z.ltb nValues 0 then (mkBeam [] false, Throw LengthError)
  else
    let r := rbind (rmapM (fun i =>
             rbind (pget energy i) (fun e =>
             rbind (match weight with None => Ok n1 | _ => pget weight i end) (fun w =>
             rbind (match char with None => Ok 1%Z | _ => pget char i end) (fun c =>
             rbind (match div with None => Ok n0 | _ => pget div i end) (fun d => Ok (mkRay e w c d))))))
           (seq 0 (Z.to_nat nValues)))
      normalizeBeam in
    match r with
    | Ok b' => (b', Ok tt)
    | Throw e => (b, Throw e)
    | UB => (b, UB)
    | Diverge => (b, Diverge)
    end.

(** Beam::setBeam(pointers, double flags), fisx_beam.cpp 174-187. [toint] is the C++
    conversion (int) of a double (undefined when out of range: UB).  [characteristic]
    is dereferenced even when NULL; &flags[0] of an empty vector is undefined. *)
Variable toint : num -> res Z.
Definition setBeam_ptr_double (b : beam) (nValues : Z) (energy weight char div : option (list num))
  : beam * res unit :=
  if Z.ltb nValues 0 then (b, Throw LengthError)
  else if Z.eqb nValues 0 then (b, UB)
  else match rmapM (fun i => rbind (pget char i) toint) (seq 0 (Z.to_nat nValues)) with
       | Ok flags => setBeam_ptr b nValues energy weight (Some flags) div
       | _ => (b, UB)
       end.

(** Beam::getBeamAsDoubleVectors, fisx_beam.cpp 213-242 *)
Definition getBeamAsDoubleVectors (b : beam) : list (list num) :=
  [ map r_energy (b_rays b); map r_weight (b_rays b);
    map (fun r => nlit (r_char r) 0) (b_rays b); map r_div (b_rays b) ].

(** Beam::getBeam, fisx_beam.cpp 245-250 *)
Definition getBeam (b : beam) : list ray := b_rays b.

End Beam.
