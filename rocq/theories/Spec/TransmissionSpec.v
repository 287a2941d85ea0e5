(** Specification vocabulary for transmission tables. *)
From Coq Require Import String List Reals Sorted ZArith.
From Verif Require Import Base.Num Base.Res Base.SMap Model.TransmissionTable.
Import ListNotations.
Local Open Scope R_scope.

(** A std::map<double,double>: strictly ascending energies. *)
Definition is_table (t : list (R * R)) : Prop := StronglySorted Rlt (map fst t).

(** Public calls and histories. *)
Inductive tt_op : Type :=
| TSetName (s : string)
| TSetComment (s : string)
| TSetMap (table : list (R * R)) (name comment : string)
| TSetVectors (energy transmission : list R) (name comment : string).

Definition tt_step (t : @ttable RNum) (o : tt_op) : @ttable RNum * res unit :=
  match o with
  | TSetName s => (tt_setName t s, Ok tt)
  | TSetComment s => (tt_setComment t s, Ok tt)
  | TSetMap table n c => @setTransmissionTable_map RNum t table n c
  | TSetVectors e v n c => @setTransmissionTable_vec RNum t e v n c
  end.
Definition tt_run (t : @ttable RNum) (l : list tt_op) := fold_left (fun t o => fst (tt_step t o)) l t.
(** The map argument of every call really is a map. *)
Definition tt_op_ok (o : tt_op) : Prop := match o with TSetMap t _ _ => is_table t | _ => True end.

(** Name or comment given although one is already set. *)
Definition renames (t : @ttable RNum) (name comment : string) : Prop :=
  (tt_name t <> EmptyString /\ name <> EmptyString) \/ (tt_comment t <> EmptyString /\ comment <> EmptyString).

(** Key under which the i-th row ends up: the energy itself, or 1e-6 more when the previous
    row has the same energy. *)
Fixpoint shifted (prev : option R) (E : list R) : list R :=
  match E with
  | [] => []
  | e :: r => (match prev with
               | Some p => if Req_EM_T e p then e + / 1000000 else e
               | None => e
               end) :: shifted (Some e) r
  end.
