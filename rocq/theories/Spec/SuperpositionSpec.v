(** A beam of several energies against beams of one energy each. *)
From Coq Require Import Ascii String List ZArith Reals Bool.
From Verif Require Import Base.Num Base.Res Base.RSum Base.SMap Model.Beam Model.XRF Model.Multilayer Spec.MultilayerSpec.
Import ListNotations.
Local Open Scope string_scope.
Local Open Scope R_scope.

(** the library answers excitation factors in proportion to the weight of the photons *)
Definition weights_scale (xl : @xlib RNum) : Prop :=
  forall element E w line,
    match factor_row xl element line E w, factor_row xl element line E 1 with
    | Some t, Some t1 => field t "factor" = w * field t1 "factor" /\ field t "rate" = w * field t1 "rate"
    | None, None => True
    | _, _ => False
    end.
(** a beam of one energy, of weight 1 *)
Definition one_energy (b : @beam RNum) (E : R) : Prop := exists x, b_rays b = [x] /\ Beam.r_energy x = E /\ Beam.r_weight x = 1.
(** a field of an answer; 0 when the line is not in it *)
Definition amount (r : @table3 RNum) (key : string) (i : nat) (line name : string) : R :=
  match line_entry r key i line with Some t => field t name | None => 0 end.
