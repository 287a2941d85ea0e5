(** Specification vocabulary for materials: histories of public calls. *)
From Coq Require Import String List Reals Sorted.
From Verif Require Import Base.Num Base.Res Base.SMap Model.Material.
Import ListNotations.

(** A std::map<std::string, double> argument: strictly ascending names. *)
Definition is_map {V} (m : list (string * V)) : Prop := StronglySorted (fun a b => String.ltb a b = true) (map fst m).

(** Public mutators of Material with their arguments. *)
Inductive mat_op {N : Num} : Type :=
| MInitialize (name : string) (density thickness : num) (comment : string)
| MSetName (name : string)
| MSetCompositionVectors (names : list string) (amounts : list num)
| MSetCompositionMap (composition : list (string * num)).

Definition mat_step {N : Num} (m : material) (o : mat_op) : material * res unit :=
  match o with
  | MInitialize n d t c => initialize m n d t c
  | MSetName n => setName m n
  | MSetCompositionVectors ns xs => setComposition_vec m ns xs
  | MSetCompositionMap c => setComposition_map m c
  end.

(** State after a history of calls, exceptions being caught by the caller. *)
Definition mat_run {N : Num} (m : material) (l : list mat_op) : material :=
  fold_left (fun m o => fst (mat_step m o)) l m.

(** What a user expects from any material object. *)
Definition valid_material (m : @material RNum) : Prop :=
  getName m <> EmptyString /\ (0 < getDefaultDensity m)%R /\ (0 < getDefaultThickness m)%R /\
  Forall (fun kv => (0 < snd kv)%R) (getComposition m) /\ is_map (getComposition m).
