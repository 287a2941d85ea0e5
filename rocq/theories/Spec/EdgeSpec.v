(** Absorption edges in tables of photoelectric coefficients. *)
From Coq Require Import String List ZArith Reals.
From Verif Require Import Base.Num Base.SMap Model.Element Spec.MergeSpec.
Import ListNotations.
Set Implicit Arguments.
Local Open Scope string_scope.
Local Open Scope R_scope.
Local Existing Instance RNum.

(** the energy [x] is repeated at places i and i+1 and the coefficient is higher the second time *)
Definition jump (energy photo : list R) (x : R) (i : nat) : Prop :=
  nth_error energy i = Some x /\ nth_error energy (S i) = Some x /\
  exists p q, nth_error photo i = Some p /\ nth_error photo (S i) = Some q /\ p < q.
Definition last_jump (energy photo : list R) (x : R) (i : nat) : Prop :=
  jump energy photo x i /\ forall i', jump energy photo x i' -> (i' <= i)%nat.
(** exactly n jump energies are above x *)
Definition jumps_above (energy photo : list R) (x : R) (n : nat) : Prop :=
  exists l, NoDup l /\ length l = n /\ forall y, In y l <-> x < y /\ exists i, jump energy photo y i.
Definition edge_shells : list string := ["K"; "L1"; "L2"; "L3"; "M1"; "M2"; "M3"; "M4"; "M5"].
(** the data have the edge of the shell at energy x, first at place i: x is the energy of a jump, there
    are as many jumps above as shells before this one, and x is within 100 eV of the binding energy *)
Definition edge_found (e : @element RNum) (energy photo : list R) (shell : string) (x : R) (i : nat) : Prop :=
  exists n, nth_error edge_shells n = Some shell /\ jumps_above energy photo x n /\ last_jump energy photo x i /\
    0 < binding_of e shell /\ Rabs (x - binding_of e shell) < 1 / 10.
