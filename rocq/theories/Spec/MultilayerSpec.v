(** Specification vocabulary for XRF::getMultilayerFluorescence. *)
From Coq Require Import Ascii String List ZArith Reals Bool.
From Verif Require Import Base.Num Base.Res Base.RSum Base.SMap Model.Beam Model.Material Model.TransmissionTable Model.Layer Model.XRF Model.Multilayer.
Import ListNotations.
Local Open Scope string_scope.
Local Open Scope R_scope.

(** *** Names *)
(** no space character in the name *)
Fixpoint has_space (s : string) : bool :=
  match s with EmptyString => false | String a r => Ascii.eqb a " "%char || has_space r end.
Definition one_word (s : string) : Prop := has_space s = false.

(** *** Reading the answer: answer[key][layer][line], answer[key][layer][line][field] *)
Definition line_entry {N : Num} (r : @table3 N) (key : string) (layer : nat) (line : string) : option (list (string * num)) :=
  match mfind sltb key r with
  | Some m => match mfind Nat.ltb layer m with Some ls => mfind sltb line ls | None => None end
  | None => None
  end.
Definition field (t : list (string * R)) (name : string) : R := match mfind sltb name t with Some v => v | None => 0 end.
(** the contributions to the secondary excitation: the fields whose names have several words,
    such as "Fe KL3 00" *)
Definition contributions (t : list (string * R)) : R := Rsum (map snd (filter (fun kv => has_space (fst kv)) t)).

(** *** The escape peaks of the detector for photons of a given energy: what Detector::getEscape
    answers, whatever was in its cache; none without a detector material *)
Definition escape_peaks (xl : @xlib RNum) (d : @detector RNum) (energy : R) : res (list (string * list (string * R))) :=
  if (l_hasMaterial (d_layer d) || negb (String.eqb (l_materialName (d_layer d)) ""))%bool
  then snd (det_getEscape false (x_base xl) (clearEscapePeakCache d) energy "" 0%Z)
  else Ok [].
Definition peak_rate (e : string * list (string * R)) : R := field (snd e) "rate".

(** *** The elements library returns maps (sorted, without repetitions) and transition names of one word *)
Record well_formed (xl : @xlib RNum) : Prop := {
  wf_factors : forall ele E w l, x_factors xl ele E w = Ok l -> msorted sltb l;
  wf_words : forall ele E w l line t, x_factors xl ele E w = Ok l -> In (line, t) l -> one_word line;
  wf_escape : forall comp E a b n s l, lib_escape (x_base xl) comp E a b n s = Ok l -> msorted sltb l }.

(** *** Names of escape peaks contain "esc" (as those made by Elements::getEscape do) and their ratios are not negative *)
Record escape_names (xl : @xlib RNum) (d : @detector RNum) : Prop := {
  esc_all : forall E l e, escape_peaks xl d E = Ok l -> In e l -> contains "esc" (fst e) = true /\ 0 <= peak_rate e }.

(** *** Beam filters *)
(** Elements answers a vector of energies as it answers each energy *)
Definition pointwise (xl : @xlib RNum) : Prop :=
  forall comp Es m, (x_muv xl comp Es = Ok m \/ x_muv_given xl comp Es = Ok m) ->
    Forall2 (fun E v => (x_muv xl comp Es = Ok m -> exists m', x_muv xl comp [E] = Ok m' /\ vval m' "total" = [v]) /\
                        (x_muv_given xl comp Es = Ok m -> exists m', x_muv_given xl comp [E] = Ok m' /\ vval m' "total" = [v])) Es (vval m "total").
Fixpoint Rprod (l : list R) : R := match l with [] => 1 | x :: r => x * Rprod r end.
(** fraction of the photons of energy [E] that cross a filter (perpendicular to the beam) *)
Definition filter_transmission (xl : @xlib RNum) (c : @config RNum) (l : @layer RNum) (E : R) : R :=
  match getLayerTransmission xl c l E (nlit 90 0) [] with Ok v => v | _ => 0 end.
(** the rays of a calculation: those of the beam given in the call, or else of the configured one *)
Definition rays_of {N : Num} (c : @config N) (over : @beam N) : list (@ray N) := match b_rays over with [] => b_rays (c_beam c) | r => r end.

(** the configuration without beam filters *)
Definition unfiltered (c : @config RNum) : @config RNum := setBeamFilters (setUserBeamFilters c []) [].

(** *** Primary fluorescence: the textbook sum *)
Section Primary.
Variables (xl : @xlib RNum) (c : @config RNum).
(** the three parallel lists of the call; a single layer number is for all the elements *)
Variables (elements families : list string) (layers : list Z) (useMassFractions : Z).
(** mass fractions of the elements of each sample layer *)
Variable comps : list (list (string * R)).

Definition sin_degrees (a : R) : R := sin (a * (PI / 180)).
Definition layer_at (i : nat) : @layer RNum := nth i (c_sample c) (layer_new "" 0 0 0).
Definition comp_at (i : nat) : list (string * R) := nth i comps [].
(** mass attenuation coefficient of sample layer [i] *)
Definition mu_at (i : nat) (E : R) : R := match getLayerMu xl c (layer_at i) E (comp_at i) with Ok t => field t "total" | _ => 0 end.
Definition mass_thickness (i : nat) : R := l_density (layer_at i) * l_thickness (layer_at i).
(** fraction of the beam that reaches layer [i] *)
Definition beam_at (i : nat) (E : R) : R :=
  exp (- Rsum (map (fun j => mass_thickness j * mu_at j E / sin_degrees (c_alphaIn c)) (seq 0 i))).
(** question number [n] of the call *)
Definition element_of (n : nat) : string := nth n elements "".
Definition family_of (n : nat) : string := nth n families "".
Definition layer_of (n : nat) : Z := if Nat.ltb 1 (length layers) then nth n layers 0%Z else nth 0 layers 0%Z.
(** the lines of a family: Ka is the lines KL..., Kb the other K lines, another family its own lines *)
Definition in_family (family line : string) : bool :=
  if String.eqb family "Ka" then String.prefix "KL" line
  else if String.eqb family "Kb" then String.prefix "K" line && negb (String.prefix "KL" line)
  else String.prefix family line.
(** the energy needed to excite the family *)
Definition threshold (n : nat) : R :=
  match getEnergyThreshold xl (element_of n) (String.substring 0 1 (family_of n)) with Ok t => t | _ => 0 end.
(** the row of a line in the excitation factors of an element for photons of energy [E] and weight [w] *)
Definition factor_row (element line : string) (E w : R) : option (list (string * R)) :=
  match x_factors xl element E w with Ok l => mfind sltb line l | _ => None end.
(** does question [n] add to answer[key][i][line] for this ray? *)
Definition excites (n : nat) (E w : R) (key : string) (i : nat) (line : string) : bool :=
  String.eqb key (element_of n ++ " " ++ family_of n) && ((layer_of n <? 0)%Z || (layer_of n =? Z.of_nat i)%Z) &&
  Nat.ltb i (length (c_sample c)) && Rleb (threshold n) E && in_family (family_of n) line &&
  (negb (useMassFractions =? 0)%Z && negb (Reqb (field (comp_at i) (element_of n)) 0) || (useMassFractions =? 0)%Z) &&
  match factor_row (element_of n) line E w with Some t => Rltb 0 (field t "factor") | None => false end.
(** what it adds; [EL]: energy of the line *)
Definition primary_of (n : nat) (E w : R) (i : nat) (line : string) (EL : R) : R :=
  let chi := mu_at i E / sin_degrees (c_alphaIn c) + mu_at i EL / sin_degrees (c_alphaOut c) in
  let mass := if (useMassFractions =? 0)%Z then 1 else field (comp_at i) (element_of n) in
  let rate := match factor_row (element_of n) line E w with Some t => field t "rate" | None => 0 end in
  (1 - exp (- chi * mass_thickness i)) / chi * (mass / sin_degrees (c_alphaIn c)) * rate * beam_at i E.
(** the same without any absorption in the layer itself: a thin layer *)
Definition primary_thin (n : nat) (E w : R) (i : nat) (line : string) : R :=
  mass_thickness i * ((if (useMassFractions =? 0)%Z then 1 else field (comp_at i) (element_of n)) / sin_degrees (c_alphaIn c)) *
  match factor_row (element_of n) line E w with Some t => field t "rate" | None => 0 end * beam_at i E.
Definition primary_sum (EL : string -> string -> R) (rays : list (R * R)) (key : string) (i : nat) (line : string) : R :=
  Rsum (map (fun ray => Rsum (map (fun n => if excites n (fst ray) (snd ray) key i line
                                            then primary_of n (fst ray) (snd ray) i line (EL (element_of n) line) else 0)
                                (seq 0 (length elements)))) rays).
Definition excited (rays : list (R * R)) (key : string) (i : nat) (line : string) : Prop :=
  exists ray n, In ray rays /\ (n < length elements)%nat /\ excites n (fst ray) (snd ray) key i line = true.
(** fraction of the photons of energy [EL] leaving layer [i] that are detected: the layers above, the attenuators, the solid angle, the detector *)
Definition leave_at (i : nat) (EL : R) : R :=
  Rprod (map (fun j => match getLayerTransmission xl c (layer_at j) EL (c_alphaOut c) (comp_at j) with Ok v => v | _ => 0 end) (seq 0 i)).
Definition detection (geo : list R) (i : nat) (EL : R) : R :=
  let d := d_layer (c_detector c) in
  leave_at i EL *
  Rprod (map (fun l => filter_transmission xl c l EL) (c_attenuators c)) *
  Rprod (map (fun t => TransmissionTable.getTransmission t EL) (c_userAttenuators c)) *
  nth i geo 0 *
  (if ((l_hasMaterial d || negb (String.eqb (l_materialName d) "")) && Rltb 0 (l_density d) && Rltb 0 (l_thickness d))%bool
   then 1 - match Layer.getTransmission (x_base xl) d EL 90 with Ok v => v | _ => 0 end else 1).
End Primary.
(** the energy of a line does not depend on the exciting photon *)
Definition line_energies (xl : @xlib RNum) (EL : string -> string -> R) : Prop :=
  forall element E w l line t, x_factors xl element E w = Ok l -> In (line, t) l -> mfind sltb "energy" t = Some (EL element line).
(** the rays that reach the sample: energies, and weights after the beam filters *)
Definition sample_rays (xl : @xlib RNum) (c : @config RNum) (over : @beam RNum) : list (R * R) :=
  map (fun r => (Beam.r_energy r, Beam.r_weight r * Rprod (map (fun l => filter_transmission xl c l (Beam.r_energy r)) (c_filters c)) *
                                  Rprod (map (fun t => TransmissionTable.getTransmission t (Beam.r_energy r)) (c_userFilters c)))) (rays_of c over).
(** the compositions of the sample layers, and their solid angle factors *)
Definition sample_compositions (xl : @xlib RNum) (c : @config RNum) : list (list (string * R)) :=
  map (fun l => match getLayerComposition xl c l with Ok t => t | _ => [] end) (c_sample c).
Definition solid_angles (c : @config RNum) (useGeometricEfficiency : Z) : list R :=
  map (fun i => if (useGeometricEfficiency =? 0)%Z then 1 else match getGeometricEfficiency c (Z.of_nat i) with Ok v => v | _ => 0 end)
      (seq 0 (length (c_sample c))).

(** *** A calculation for which the library has all the data asked for *)
Record complete_data (xl : @xlib RNum) (c : @config RNum) (elements families : list string) (layers : list Z) (useGeometricEfficiency : Z) : Prop := {
  cd_families : (length elements <= length families)%nat;
  cd_layers : length layers = 1%nat \/ (1 < length layers /\ length elements <= length layers)%nat;
  cd_named : forall f, In f families -> f <> "";
  cd_comp : forall l, In l (c_sample c) -> exists k, getLayerComposition xl c l = Ok k;
  cd_solid : useGeometricEfficiency = 0%Z \/ forall i, (i < length (c_sample c))%nat -> exists v, getGeometricEfficiency c (Z.of_nat i) = Ok v;
  (* attenuation and transmission of the layers, at all energies *)
  cd_mu : forall i E, (i < length (c_sample c))%nat -> exists t, getLayerMu xl c (layer_at c i) E (comp_at (sample_compositions xl c) i) = Ok t;
  cd_muv : forall i Es, (i < length (c_sample c))%nat -> exists m, getLayerMu_vec xl c (layer_at c i) Es (comp_at (sample_compositions xl c) i) = Ok m;
  cd_out : forall i E, (i < length (c_sample c))%nat -> exists v, getLayerTransmission xl c (layer_at c i) E (c_alphaOut c) (comp_at (sample_compositions xl c) i) = Ok v;
  cd_filter : forall l Es, In l (c_filters c) -> exists v, getLayerTransmission_vec xl c l Es (nlit 90 0) [] = Ok v /\ length v = length Es;
  cd_att : forall l E, In l (c_attenuators c) -> exists v, getLayerTransmission xl c l E (nlit 90 0) [] = Ok v;
  (* the detector *)
  cd_det : (l_hasMaterial (d_layer (c_detector c)) || negb (String.eqb (l_materialName (d_layer (c_detector c))) ""))%bool = true ->
      0 < l_density (d_layer (c_detector c)) -> 0 < l_thickness (d_layer (c_detector c)) -> forall E, exists v, Layer.getTransmission (x_base xl) (d_layer (c_detector c)) E (nlit 90 0) = Ok v;
  cd_esc : forall E, exists l, escape_peaks xl (c_detector c) E = Ok l;
  cd_peak : forall E l e, escape_peaks xl (c_detector c) E = Ok l -> In e l ->
      mfind sltb "energy" (snd e) <> None /\ mfind sltb "rate" (snd e) <> None;
  (* the elements *)
  cd_binding : forall e, In e elements -> exists b, x_binding xl e = Ok b;
  cd_factors : forall e E w, In e elements -> exists l, x_factors xl e E w = Ok l;
  cd_row : forall e E w l line t, x_factors xl e E w = Ok l -> In (line, t) l ->
      mfind sltb "factor" t <> None /\ mfind sltb "energy" t <> None /\ mfind sltb "rate" t <> None }.
(** One sample layer, so thick that its two sides do not matter, and the data for the photons it emits *)
Record bulk_sample (xl : @xlib RNum) (c : @config RNum) : Prop := {
  bk_one : length (c_sample c) = 1%nat;
  bk_in : 0 < sin_degrees (c_alphaIn c);
  bk_out : 0 < sin_degrees (c_alphaOut c);
  bk_vec : forall Es m, Es <> [] -> getLayerMu_vec xl c (layer_at c 0) Es (comp_at (sample_compositions xl c) 0) = Ok m ->
      length (vval m "total") = length Es /\ (forall v, In v (vval m "total") -> 0 < v) /\ vval m "coherent" <> [];
  bk_mu : forall E, 0 < mu_at xl c (sample_compositions xl c) 0 E;
  bk_thick : forall E E', 10 < (mu_at xl c (sample_compositions xl c) 0 E / sin_degrees (c_alphaIn c) +
                               mu_at xl c (sample_compositions xl c) 0 E' / sin_degrees (c_alphaOut c)) * mass_thickness c 0;
  bk_families : forall E, exists l, getLayerPeakFamilies xl c (layer_at c 0) E (comp_at (sample_compositions xl c) 0) = Ok l;
  (* the elements of the layer: the first word of the names of its families, as in "Fe K" *)
  bk_factors : forall E l name v element rest, getLayerPeakFamilies xl c (layer_at c 0) E (comp_at (sample_compositions xl c) 0) = Ok l -> In (name, v) l ->
      name = element ++ rest -> one_word element -> (rest = "" \/ exists r, rest = " " ++ r) -> exists rows, x_factors xl element E 1 = Ok rows }.

(** all the entries answer[key][layer] *)
Definition entries {N : Num} (r : @table3 N) (key : string) (layer : nat) : list (string * list (string * num)) :=
  match mfind sltb key r with Some m => match mfind Nat.ltb layer m with Some ls => ls | None => [] end | None => [] end.
(** photons of a line that reach the detector, whatever becomes of them in it *)
Definition arriving (secondary : Z) (t : list (string * R)) : R :=
  field t "efficiency" * (field t "primary" + field t "secondary" + if (1 <? secondary)%Z then field t "tertiary" else 0).
