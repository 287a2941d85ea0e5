(** Mass attenuation data given by the user for an element of a library. *)
From Coq Require Import String List ZArith Reals.
From Verif Require Import Base.Num Base.SMap Model.Element Spec.ElementSpec Spec.InitSpec.
Import ListNotations.
Set Implicit Arguments.
Local Open Scope string_scope.

(** consecutive energies more than 1e-5 keV apart: no absorption edge among them *)
Definition apart (l : list R) : Prop :=
  forall i a b, nth_error l i = Some a -> nth_error l (S i) = Some b -> (a + 1 / 100000 < b)%R.
(** the calls by which an element takes the tables [t] of the data base *)
Definition takes {N : Num} (t : list (string * list num)) : list el_op :=
  ESetMu (column_at t "energy") (column_at t "photoelectric") (column_at t "coherent") (column_at t "compton") (column_at t "pair") ::
  map (fun s => ESetPartial s (column_at t "energy") (column_at t s)) photo_names.
(** the binding energy of a shell; 0 when there is none *)
Definition binding_of {N : Num} (e : @element N) (k : string) : num := match mfind sltb k (getBindingEnergies e) with Some b => b | None => n0 end.
(** everything of an element that does not depend on mass attenuation coefficients *)
Definition same_description {N : Num} (e e' : @element N) : Prop :=
  el_name e' = el_name e /\ el_longName e' = el_longName e /\ el_z e' = el_z e /\ el_mass e' = el_mass e /\ el_density e' = el_density e /\
  el_column e' = el_column e /\ el_row e' = el_row e /\ el_shells e' = el_shells e /\
  forall k, binding_of e' k = binding_of e k.
