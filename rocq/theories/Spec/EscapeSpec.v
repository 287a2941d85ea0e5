(** Specification vocabulary for escape peaks and their cache (Elements::getEscape and friends). *)
From Coq Require Import Ascii String List ZArith Reals Bool.
From Verif Require Import Base.Num Base.Res Base.SMap Model.Element Model.Elements Spec.MultilayerSpec.
Import ListNotations.
Local Open Scope string_scope.
Local Open Scope R_scope.

(** a photon created in a thick detector at the depth distribution of the incident beam leaves through the
    surface with half of this probability; [t]: ratio of the absorption of the line to that of the beam *)
Definition escape_fraction (t : R) : R := 1 - t * ln (1 + 1 / t).
(** sine of the incidence angle, with the 16-digit value of pi of the code *)
Definition incidence (alpha : R) : R :=
  if Req_EM_T alpha 90 then 1 else Rabs (sin (alpha * (3141592653589793 / 1000000000000000 / 180))).
(** escape peaks per incident photon, for a line with coefficient [muF] of which [rate] is emitted *)
Definition escape_per_photon (sine muF muI rate : R) : R := rate / (2 * muI) * escape_fraction (sine * muF / muI).
(** the part of the beam stopped by a detector of the given mass thickness; 1 for thickness 0 *)
Definition stopped (thickness sine muI : R) : R := if Rlt_dec 0 thickness then 1 - exp (- (muI * thickness / sine)) else 1.

Section Escape.
Variables (tostr : R -> string) (depth fuel : nat) (es : @elements RNum).
(** total mass attenuation coefficient of the material *)
Definition total_coefficient (comp : list (string * R)) (E mu : R) : Prop :=
  exists t, getMu_map tostr depth fuel es comp E 0 = Ok t /\ field t "total" = mu.
(** the line [line] of [element], present with mass fraction w, is emitted with this rate and energy *)
Definition emits (comp : list (string * R)) (E : R) (element line : string) (rate energy : R) : Prop :=
  exists w rows t, In (element, w) comp /\ getExcitationFactors es element E w = Ok rows /\ In (line, t) rows /\
    mfind sltb "rate" t = Some rate /\ mfind sltb "energy" t = Some energy.
(** [t] is what is said of the escape peak due to that line *)
Definition escape_peak (k : @escape_key RNum) (E : R) (element line : string) (t : list (string * R)) : Prop :=
  exists rate eF muI muF, emits (k_composition k) E element line rate eF /\
    total_coefficient (k_composition k) E muI /\ total_coefficient (k_composition k) eF muF /\
    let p := escape_per_photon (incidence (k_alphaIn k)) muF muI rate in
    k_thrI k < p /\ t = [("energy", E - eF); ("rate", p / stopped (k_thickness k) (incidence (k_alphaIn k)) muI)].
End Escape.

(** the names of peaks can be told apart *)
Definition plain_name (s : string) : Prop := forall a b, s <> a ++ "_" ++ b.
(** the rates of all the lines emitted by the material *)
Definition emitted (es : @elements RNum) (comp : list (string * R)) (E : R) : list R :=
  flat_map (fun nw => match getExcitationFactors es (fst nw) E (snd nw) with Ok rows => map (fun r => field (snd r) "rate") rows | _ => [] end) comp.
