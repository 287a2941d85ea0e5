(** Specification vocabulary for tertiary excitation in XRF::getMultilayerFluorescence. *)
From Coq Require Import Ascii String List ZArith Reals Bool Arith.
From Verif Require Import Base.Num Base.SMap Model.Multilayer Spec.MultilayerSpec Spec.SecondarySpec.
Import ListNotations.
Local Open Scope string_scope.
Local Open Scope R_scope.

(** a name that contains "esc" is that of an escape peak *)
Definition escape_line (s : string) : Prop := exists a b, s = a ++ "esc" ++ b.
(** by how much the radiation of the sample enhances a line *)
Definition enhancement (t : list (string * R)) : R :=
  if Rltb 0 (field t "primary") then (field t "primary" + field t "secondary") / field t "primary" else 1.
(** a line of the answer that excites further lines: of an element with at least 0.5 % of the mass of its
    layer, and enhanced by at least 1 %; [name] is how the entries of the excited lines call it *)
Definition contributes (r : @table3 RNum) (name key : string) (j : nat) (line : string) (u : list (string * R)) : Prop :=
  line_entry r key j line = Some u /\ ~ escape_line line /\ name = first_word key ++ " " ++ line ++ " " ++ layer_label j /\
  5 / 1000 <= field u "massFraction" /\ 101 / 100 <= enhancement u.
(** the enhancement of the lines by their names. Two keys, such as "Fe L" and "Fe L3", can have the same line:
    the last key counts. *)
Definition enhancements (r : @table3 RNum) (enh : string -> R) : Prop := forall name,
  (exists key j line u, contributes r name key j line u /\ enh name = enhancement u /\
     forall key' j' line' u', contributes r name key' j' line' u' -> key' = key \/ sltb key' key = true) \/
  ((forall key j line u, ~ contributes r name key j line u) /\ enh name = 1).
