(** Specification vocabulary for beams. Independent of Model/Beam.v except for the type of rays. *)
From Coq Require Import List ZArith Reals Sorted Permutation.
From Verif Require Import Base.Num Base.RSum Model.Beam.
Import ListNotations.

(** A row of the table a user passes: energy, weight, characteristic flag, divergency. *)
Definition row : Type := (R * R * Z * R)%type.
Definition row_energy (r : row) : R := fst (fst (fst r)).
Definition row_weight (r : row) : R := snd (fst (fst r)).
Definition row_flag (r : row) : Z := snd (fst r).
Definition row_div (r : row) : R := snd r.

(** The table with columns E W F D. *)
Definition table (E W : list R) (F : list Z) (D : list R) : list row :=
  combine (combine (combine E W) F) D.

(** What [getBeamAsDoubleVectors] shows for a list of rows. *)
Definition columns (rows : list row) : list (list R) :=
  [map row_energy rows; map row_weight rows; map (fun r => IZR (row_flag r)) rows; map row_div rows].

(** A column of [n] values from an optional argument with default [d]. *)
Definition column {A} (n : nat) (d : A) (v : list A) : list A :=
  match v with
  | [] => repeat d n
  | [a] => repeat a n
  | _ => firstn n v
  end.

(** An optional argument is long enough for [n] energies. *)
Definition usable {A} (n : nat) (v : list A) : Prop := (length v <= 1 \/ n <= length v)%nat.

(** Contract of std::sort (ISO C++ [sort]): if operator< is a strict weak ordering of the
    elements, the result is a permutation of the input with no element less than an earlier one. *)
Definition strict_weak_order {A} (lt : A -> A -> bool) (l : list A) : Prop :=
  (forall a, In a l -> lt a a = false) /\
  (forall a b c, In a l -> In b l -> In c l -> lt a b = true -> lt b c = true -> lt a c = true) /\
  (forall a b c, In a l -> In b l -> In c l -> lt a b = false -> lt b a = false -> lt b c = false -> lt c b = false ->
     lt a c = false /\ lt c a = false).
Definition std_sort_contract {A} (lt : A -> A -> bool) (sortf : list A -> list A) : Prop :=
  forall l, strict_weak_order lt l ->
    Permutation l (sortf l) /\ StronglySorted (fun a b => lt b a = false) (sortf l).
