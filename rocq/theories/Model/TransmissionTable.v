(** Model of class TransmissionTable (src/fisx_transmissiontable.h/.cpp). *)
From Coq Require Import String List ZArith Bool.
From Verif Require Import Base.Num Base.Res Base.SMap.
Import ListNotations.
Set Implicit Arguments.
Local Open Scope num_scope.

Section TT.
Context {N : Num}.

(** data members, fisx_transmissiontable.h 95-98 *)
Record ttable := mkTT {
  tt_name : string;
  tt_comment : string;
  tt_table : list (num * num) }.   (* std::map<double, double> *)

(** constructors, fisx_transmissiontable.cpp 35-49 *)
Definition tt_init : ttable := mkTT "" "" [(n0, n1)].
Definition tt_new (name comment : string) : ttable := mkTT name comment [(n0, n1)].

(** setName, setComment, fisx_transmissiontable.cpp 52-60 *)
Definition tt_setName (t : ttable) (name : string) := mkTT name (tt_comment t) (tt_table t).
Definition tt_setComment (t : ttable) (c : string) := mkTT (tt_name t) c (tt_table t).

Definition nonempty (s : string) : bool := Nat.ltb 0 (String.length s).

(** The validation loop, fisx_transmissiontable.cpp 71-93 (map overload) and 148-170
    (vector overload): true when it throws. *)
Fixpoint bad_rows (max_energy : num) (rows : list (num * num)) : bool :=
  match rows with
  | [] => false
  | (e, t) :: r =>
      (e <? n0) || (e <? max_energy) || (t <? n0) || bad_rows e r
  end.

(** Final name / comment assignment, 109-116 and 188-195 *)
Definition put (t : ttable) (table : list (num * num)) (name comment : string) : ttable :=
  mkTT (if nonempty name then name else tt_name t)
       (if nonempty comment then comment else tt_comment t) table.

Definition rename_conflict (t : ttable) (name comment : string) : bool :=
  (nonempty (tt_name t) && nonempty name) || (nonempty (tt_comment t) && nonempty comment).

(** setTransmissionTable(map), fisx_transmissiontable.cpp 63-117 *)
Definition setTransmissionTable_map (t : ttable) (table : list (num * num)) (name comment : string)
  : ttable * res unit :=
  if bad_rows (nlit (-1) 0) table then (t, Throw InvalidArgument)
  else if rename_conflict t name comment then (t, Throw InvalidArgument)
  else (put t table name comment, Ok tt).

(** The fill loop, fisx_transmissiontable.cpp 173-187 *)
Definition fill_step (m : list (num * num)) (row : num * num) : list (num * num) :=
  let '(e, v) := row in
  match mfind nltb e m with
  | Some _ => mset nltb (e + nlit 1 (-6)) v m
  | None => mset nltb e v m
  end.
Definition fill (rows : list (num * num)) : list (num * num) := fold_left fill_step rows [].

(** setTransmissionTable(vectors), fisx_transmissiontable.cpp 119-196 *)
Definition setTransmissionTable_vec (t : ttable) (energy transmission : list num) (name comment : string)
  : ttable * res unit :=
  if rename_conflict t name comment then (t, Throw InvalidArgument)
  else if negb (Nat.eqb (length energy) (length transmission)) then (t, Throw InvalidArgument)
  else if bad_rows (nlit (-1) 0) (combine energy transmission) then (t, Throw InvalidArgument)
  else (put t (fill (combine energy transmission)) name comment, Ok tt).

(** getTransmission(double), fisx_transmissiontable.cpp 209-245.
    [msplit_upper] is upper_bound: [lo] the elements before it, [hi] from it on. *)
Definition getTransmission (t : ttable) (energy : num) : num :=
  match tt_table t with
  | [] => n1
  | (x_first, y_first) :: _ =>
    let '(lo, hi) := msplit_upper nltb energy (tt_table t) in
    match hi with
    | [] => snd (last lo (x_first, y_first))       (* i1 = end() - 1 *)
    | (x2, y2) :: _ =>
        if energy <=? x_first then y_first
        else let '(x1, y1) := last lo (x_first, y_first) in
             let factor := (energy - x1) / (x2 - x1) in
             factor * y2 + (n1 - factor) * y1
    end
  end.

(** getTransmission(vector), fisx_transmissiontable.cpp 247-259 *)
Definition getTransmission_vec (t : ttable) (energy : list num) : list num :=
  map (getTransmission t) energy.

Definition getTransmissionTable (t : ttable) := tt_table t.

End TT.
