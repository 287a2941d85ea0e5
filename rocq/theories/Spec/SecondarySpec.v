(** Specification vocabulary for secondary excitation in XRF::getMultilayerFluorescence: lines excited by
    the photons that the sample itself emits or scatters. *)
From Coq Require Import Ascii String List ZArith Reals Bool Arith DecimalString.
From Verif Require Import Base.Num Base.Res Base.RSum Base.SMap Model.Beam Model.Material Model.TransmissionTable Model.Math Model.Layer Model.XRF
  Spec.MultilayerSpec.
Import ListNotations.
Local Open Scope string_scope.
Local Open Scope R_scope.

(** the library answers a vector of energies as it answers each energy *)
Definition answers_each (xl : @xlib RNum) : Prop :=
  forall comp Es m name, name = "total" \/ name = "coherent" ->
    (x_muv xl comp Es = Ok m -> Forall2 (fun E v => exists t, x_mu xl comp E = Ok t /\ field t name = v) Es (vval m name)) /\
    (x_muv_given xl comp Es = Ok m -> Forall2 (fun E v => exists t, x_mu_given xl comp E = Ok t /\ field t name = v) Es (vval m name)).

(** "Fe K": element Fe, family K *)
Fixpoint first_word (s : string) : string :=
  match s with EmptyString => "" | String a r => if Ascii.eqb a " "%char then "" else String a (first_word r) end.
Fixpoint after_space (s : string) : string :=
  match s with EmptyString => "" | String a r => if Ascii.eqb a " "%char then r else after_space r end.
Definition family_word (s : string) : string := if has_space s then after_space s else s.
(** the number of a layer, with two digits at least *)
Definition layer_label (j : nat) : string := (if Nat.ltb j 10 then "0" else "") ++ NilZero.string_of_uint (Nat.to_uint j).

Section Secondary.
Variable debug : bool.
Variables (xl : @xlib RNum) (c : @config RNum).
Variables (elements families : list string) (layers : list Z) (useMassFractions : Z) (limit : R).
Variable comps : list (list (string * R)).
Local Notation mu := (mu_at xl c comps).
Local Notation beam := (beam_at xl c comps).
Let sIn : R := sin_degrees (c_alphaIn c).
Let sOut : R := sin_degrees (c_alphaOut c).

Definition coherent_at (i : nat) (E : R) : R := match getLayerMu xl c (layer_at c i) E (comp_at comps i) with Ok t => field t "coherent" | _ => 0 end.
Definition families_at (j : nat) (E : R) : list (string * R) :=
  match getLayerPeakFamilies xl c (layer_at c j) E (comp_at comps j) with Ok l => l | _ => [] end.
Definition rows_of (element : string) (E : R) : list (string * list (string * R)) :=
  match x_factors xl element E 1 with Ok l => l | _ => [] end.

(** *** The photons that layer [j] emits under the ray (E, w): energy, number, name.
    Fluorescence: the lines of the families that [E] excites, but those under the optimisation limit.
    Scattering: the coherent one. *)
Definition fluorescent (j : nat) (E w : R) : list (R * R * string) :=
  flat_map (fun fam =>
    let element := first_word (fst fam) in
    let fraction := field (comp_at comps j) element in
    flat_map (fun row =>
      let rate := field (snd row) "rate" in
      if String.prefix (family_word (fst fam)) (fst row) && Rltb 0 (rate * fraction) && negb (Rltb 0 limit && Rltb rate limit)
      then [(field (snd row) "energy", rate * fraction * w * beam j E, element ++ " " ++ fst row)] else [])
    (rows_of element E)) (families_at j E).
Definition scattered (j : nat) (E w : R) : R * R * string := (E, w * beam j E * coherent_at j E, "coherent scattering").
Definition photons (j : nat) (E w : R) : list (R * R * string) := (fluorescent j E w ++ [scattered j E w])%list.

(** *** What a photon of energy [e] emitted by layer [j] does in layer [i], for a line of energy [EL]: de Boer's integrals *)
Definition L0 (i : nat) (mu1 mu2 muj : R) : R :=
  match deBoerL0 debug mu1 mu2 muj (l_density (layer_at c i)) (l_thickness (layer_at c i)) with Ok v => v | _ => 0 end.
Definition XX (i j : nat) (p q mu1j mu2j between : R) : R :=
  match deBoerX debug p q (mass_thickness c i) (mass_thickness c j) mu1j mu2j between with Ok v => v | _ => 0 end.
(** a coincidence at which the formulas are not defined is avoided by a small change of the angle *)
Definition sin_in (coincidence : bool) : R := if coincidence then Rlit 99999 (-5) * sIn else sIn.
Definition absorbed_between (lo hi : nat) (e : R) : R := Rsum (map (fun b => mass_thickness c b * mu b e) (seq (S lo) (hi - S lo))).
Definition leaving (i : nat) (EL : R) : R := exp (- (mu i EL * mass_thickness c i / sOut)).
Definition geometry (i j : nat) (E EL e : R) : R :=
  if Nat.eqb i j then
    L0 i (mu i E / sIn) (mu i EL / sOut) (mu i e) +
    L0 i (mu i EL / sOut) (mu i E / sin_in (Reqb (mu i E / sIn) (mu i e))) (mu i e)
  else if Nat.ltb i j then
    leaving i EL *
    XX i j (mu j E / sin_in (Reqb (- (mu j E / sIn)) (mu j e))) (mu i EL / sOut) (mu i e) (mu j e) (absorbed_between i j e)
  else
    exp (- (mu j E * mass_thickness c j / sIn)) *
    XX i j (- mu j E / sin_in (Reqb (mu j E / sIn) (mu j e))) (- mu i EL / sOut) (mu i e) (mu j e) (absorbed_between j i e).
(** what is neglected: another layer with too weak a beam, a line with too small a rate, a layer its own line hardly leaves *)
Definition neglected_layer (i j : nat) (E : R) : bool := negb (Nat.eqb i j) && Rltb (beam j E / beam i E) (Rlit 1 (-4)).
Definition neglected (i j : nat) (rate EL : R) : bool :=
  negb (Nat.eqb i j) && (Rltb rate (Rlit 1 (-30)) || (Nat.ltb i j && Rltb (leaving i EL) (Rlit 1 (-3)))).

(** *** The secondary excitation of a line of question [n] under the ray (E, w): name and amount of each contribution *)
Definition gain_from (n : nat) (E : R) (i : nat) (line : string) (EL : R) (j : nat) (ph : R * R * string) : list (string * R) :=
  let '(e, number, name) := ph in
  match factor_row xl (element_of elements n) line e 1 with
  | Some row =>
      let rate := field row "rate" in
      let mass := if (useMassFractions =? 0)%Z then 1 else field (comp_at comps i) (element_of elements n) in
      if Rleb (threshold xl elements families n) e && negb (neglected i j rate EL)
      then [(name ++ " " ++ layer_label j, geometry i j E EL e * (mass * (Rlit 5 (-1) / sIn)) * rate * number)]
      else []
  | None => []
  end.
Definition gains (n : nat) (E w : R) (i : nat) (line : string) (EL : R) : list (string * R) :=
  flat_map (fun j => if neglected_layer i j E then [] else flat_map (gain_from n E i line EL j) (photons j E w))
           (seq 0 (length (c_sample c))).
Definition sum_over (EL : string -> string -> R) (rays : list (R * R)) (key : string) (i : nat) (line : string) (amount : list (string * R) -> R) : R :=
  Rsum (map (fun ray => Rsum (map (fun n =>
     if excites xl c elements families layers useMassFractions comps n (fst ray) (snd ray) key i line
     then amount (gains n (fst ray) (snd ray) i line (EL (element_of elements n) line)) else 0) (seq 0 (length elements)))) rays).
Definition secondary_sum EL rays key i line : R := sum_over EL rays key i line (fun g => Rsum (map snd g)).
(** the part due to the photons of a given name and layer, such as "Fe KL3 00" *)
Definition contribution_sum (name : string) EL rays key i line : R :=
  sum_over EL rays key i line (fun g => Rsum (map snd (filter (fun x => String.eqb (fst x) name) g))).
End Secondary.
