(** Specification vocabulary for the calculation with the class Elements as its library. *)
From Coq Require Import String List ZArith Reals Bool.
From Verif Require Import Base.Num Base.Res Base.RSum Base.SMap Model.Material Model.Shell Model.Element Model.Elements Model.Layer Model.XRF Model.XRFLibrary
  Spec.ShellSpec Spec.ElementSpec Spec.MultilayerSpec Spec.MaterialSpec.
Import ListNotations.
Local Open Scope string_scope.
Local Open Scope R_scope.

(** the shell whose vacancy a transition such as "KL3" or "L3M5" fills *)
Definition shell_of (line : string) : string := if String.prefix "K" line then "K" else substring 0 2 line.
(** the difference of the binding energies of the two shells; 3 eV for a shell without binding energy *)
Definition transition_energy (e : @element RNum) (line : string) : R :=
  let b := value_or_0 (substring (String.length line - 2) 2 line) (getBindingEnergies e) in
  value_or_0 (shell_of line) (getBindingEnergies e) - (if Reqb b 0 then 3 / 1000 else b).
(** an element whose caches are off and whose lines are words named after their shells *)
Record plain_element (e : @element RNum) : Prop := {
  pe_cache : el_cacheFlag e = false;
  pe_cascade : el_cascFlag e = false;
  pe_binding : nonneg_dist (getBindingEnergies e);
  pe_labels : own_labels e;
  pe_words : Forall (fun ks => Forall (fun l => one_word (fst l)) (Shell.getFluorescenceRatios (snd ks))) (el_shells e) }.
(** a library of such elements that remembers no escape peaks *)
Record plain_library (es : @elements RNum) : Prop := {
  pl_elements : forall name e, Elements.getElement es name = Ok e -> plain_element e;
  pl_escape : es_escFlag es = Some 0%Z \/ es_esc es = [] }.
Definition line_energy_in (es : @elements RNum) (element line : string) : R :=
  match Elements.getElement es element with Ok e => transition_energy e line | _ => 0 end.

(** *** A library and a configuration with all the data *)
(** an element: coefficients and excitation factors at every energy, constants of its K, L and M shells *)
Record complete_element (e : @element RNum) : Prop := {
  ce_mu : forall E, exists t, Element.getMassAttenuationCoefficients e E = Ok t /\ 0 < field t "total";
  ce_factors : forall E w, exists l, getPhotoelectricExcitationFactors e E w = Ok l;
  ce_map : is_map (getBindingEnergies e);
  ce_shells : forall s b, In (s, b) (getBindingEnergies e) -> 0 < b -> (exists x, s = "K" ++ x \/ s = "L" ++ x \/ s = "M" ++ x) ->
      exists k, Element.getShellConstants e s = Ok k }.
Section Complete.
Variables (tostr : R -> string) (depth fuel : nat) (sortf : list (string * R) -> list (string * R)) (es : @elements RNum).
Local Notation xl := (@xlib_of RNum tostr depth fuel sortf es).
(** every element is complete, and its name is one word, whose composition is the element *)
Definition complete_library : Prop :=
  forall name e, Elements.getElement es name = Ok e -> complete_element e /\ one_word name /\ Elements.getComposition tostr depth fuel es name = Ok [(name, 1)].
(** mass fractions of registered elements *)
Definition known (k : list (string * R)) : Prop := k <> [] /\ forall s x, In (s, x) k -> 0 < x /\ exists e, Elements.getElement es s = Ok e.
Record complete_config (c : @config RNum) (elements families : list string) (layers : list Z) (useGeometricEfficiency : Z) : Prop := {
  cc_families : (length elements <= length families)%nat;
  cc_layers : length layers = 1%nat \/ (1 < length layers /\ length elements <= length layers)%nat;
  cc_named : forall f, In f families -> f <> "";
  cc_elements : forall e, In e elements -> one_word e /\ exists x, Elements.getElement es e = Ok x;
  cc_solid : useGeometricEfficiency = 0%Z \/ forall i, (i < length (c_sample c))%nat -> exists v, getGeometricEfficiency c (Z.of_nat i) = Ok v;
  cc_known : forall l, In l (c_sample c ++ c_filters c ++ c_attenuators c)%list ->
      0 < l_density l /\ 0 < l_thickness l /\ exists k, getLayerComposition xl c l = Ok k /\ known k;
  cc_out : 0 < sin (Rabs (c_alphaOut c) * PI / 180);
  (* no detector material, or its name *)
  cc_detector : l_hasMaterial (d_layer (c_detector c)) = false /\
      (l_materialName (d_layer (c_detector c)) = "" \/
       exists k, Elements.getComposition tostr depth fuel es (l_materialName (d_layer (c_detector c))) = Ok k /\ known k);
  cc_flag : l_materialName (d_layer (c_detector c)) <> "" -> es_escFlag es <> None }.
End Complete.
