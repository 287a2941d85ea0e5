(** What a PyMca configuration file says, independently of the reader (the document: Spec/IniSpec.v). *)
From Coq Require Import Ascii String List ZArith Bool.
From Verif Require Import Base.Num Base.Res Base.SMap Base.Str Base.Text Model.SimpleIni Model.Beam Model.Material Model.TransmissionTable Model.Layer Model.XRF Model.Multilayer Spec.IniSpec Spec.FieldsSpec.
Import ListNotations.
Set Implicit Arguments.
Local Open Scope string_scope.

(** a text listing items separated by commas, the last one not empty *)
Definition listed (v : string) (items : list text) : Prop :=
  list_ascii_of_string v = join ","%char items /\ Forall (fun i => ~ In ","%char i) items /\
  (items = [] \/ exists l x, items = (l ++ [x])%list /\ x <> []).
(** the items of a key, none if the key is absent *)
Definition list_in (d : document) (s k : string) (items : list text) : Prop :=
  match value_of d s k with Some v => listed v items | None => items = [] end.

(** the entries of a section, by key; a section without entries is found empty only if no section has a name
    of the same length (C41: the reader takes such a section instead) *)
Definition entries (d : document) (name : string) (m : list (string * string)) : Prop :=
  msorted sltb m /\ (forall k, mfind sltb k m = value_of d name k) /\
  (m = [] -> Forall (fun x => String.length x <> String.length name \/ same_letters x name) (sections_of d)).

(** the sections under a parent, in the order of the file, and the name each one gives *)
Definition under (parent s : string) : Prop := exists a b, s = a ++ b /\ same_letters a (parent ++ ".").
Definition named (parent s x : string) : Prop :=
  exists a, s = a ++ x /\ same_letters a (parent ++ ".") /\ bare x /\ ~ In "."%char (list_ascii_of_string x).
Definition subsections (d : document) (parent : string) (secs : list string) : Prop :=
  exists f, (forall s, f s = true <-> under parent s) /\ filter f (sections_of d) = secs.
(** the only entry of a section with this key up to letter case *)
Definition field_in (d : document) (s key v : string) : Prop :=
  exists k, value_of d s k = Some v /\ same_letters k key /\
  forall k' v', value_of d s k' = Some v' -> same_letters k' key -> k' = k.
(** the only other entry *)
Definition other_in (d : document) (s : string) (keys : list string) (v : string) : Prop :=
  exists k, value_of d s k = Some v /\ ~ (exists key, In key keys /\ same_letters k key) /\
  forall k' v', value_of d s k' = Some v' -> k' = k \/ exists key, In key keys /\ same_letters k' key.

Section Values.
Context {N : Num}.
Variable readDouble : text -> option num.

Definition number (dflt : num) (item : text) : num := match readDouble item with Some v => v | None => dflt end.
Definition integer (dflt : Z) (item : text) : Z := match readInt item with Some v => v | None => dflt end.
Definition minus1 : num := nlit (-1) 0.

(** a row of the beam: use it?, energy, weight, characteristic? *)
Record beam_row := mkBeamRow { br_flag : Z; br_energy : num; br_weight : num; br_char : Z }.
(** an absent list gives ones *)
Definition or_ones {A} (one : A) (n : nat) (l : list A) : list A := match l with [] => repeat one n | _ => l end.
(** the four lists of a file say these rows; an unreadable energy is -666, an unreadable weight or flag -1, an
    unreadable use 0 *)
Definition beam_rows (d : document) (s : string) (rows : list beam_row) : Prop :=
  exists E W C F, list_in d s "energy" E /\ list_in d s "energyweight" W /\ list_in d s "energyscatter" C /\ list_in d s "energyflag" F /\
  map br_energy rows = map (number (nlit (-666) 0)) E /\
  map br_weight rows = or_ones n1 (length E) (map (number minus1) W) /\
  map br_char rows = or_ones 1%Z (length E) (map (integer (-1)) C) /\
  map br_flag rows = or_ones 1%Z (length E) (map (integer 0) F).
Definition br_used (r : beam_row) : bool := (0 <? br_flag r)%Z && negb (neqb (br_energy r) (nlit (-666) 0)).
Definition br_wrong (r : beam_row) : bool := nleb (br_energy r) n0 || nltb (br_weight r) n0.

(** a material: the section says all its fields *)
Definition material_keys : list string := ["Density"; "Thickness"; "CompoundList"; "CompoundFraction"; "CompoundFractions"].
Definition describes_material (d : document) (s x : string) (m : @material N) : Prop :=
  exists dens thick comps fracs comment names amounts fkey m0,
    field_in d s "Density" dens /\ field_in d s "Thickness" thick /\ field_in d s "CompoundList" comps /\
    In fkey ["CompoundFraction"; "CompoundFractions"] /\ field_in d s fkey fracs /\
    (forall k v, value_of d s k = Some v -> same_letters k "CompoundFraction" \/ same_letters k "CompoundFractions" -> v = fracs) /\
    other_in d s material_keys comment /\
    listed comps names /\ Forall (fun i => i <> [] /\ Forall (fun c => ~ space c) i) names /\ listed fracs amounts /\
    material_new x (number minus1 (list_ascii_of_string dens)) (number minus1 (list_ascii_of_string thick)) comment = Ok m0 /\
    setComposition_vec m0 (map str names) (map (number minus1) amounts) = (m, Ok tt).

(** a user table (filter or attenuator): None if it is not to be used *)
Definition table_keys : list string := ["use"; "energy"; "transmission"].
Definition describes_table (d : document) (s x : string) (r : option (@ttable N)) : Prop :=
  ((forall k v, value_of d s k = Some v -> same_letters k "use" -> nltb n0 (number n0 (list_ascii_of_string v)) = false) /\ r = None) \/
  (exists use energy transmission comment E T t,
     field_in d s "use" use /\ nltb n0 (number n0 (list_ascii_of_string use)) = true /\
     field_in d s "energy" energy /\ field_in d s "transmission" transmission /\
     (other_in d s table_keys comment \/ (comment = "" /\ forall k v, value_of d s k = Some v -> exists key, In key table_keys /\ same_letters k key)) /\
     listed energy E /\ listed transmission T /\
     setTransmissionTable_vec tt_init (map (number minus1) E) (map (number minus1) T) x comment = (t, Ok tt) /\ r = Some t).
Definition chosen_tables (rs : list (option (@ttable N))) : list (@ttable N) := flat_map (fun r => match r with Some t => [t] | None => [] end) rs.

(** a line "use, material, density, thickness, ..." *)
Definition item_number (items : list text) (i : nat) (x : num) : Prop := exists t, nth_error items i = Some t /\ x = number minus1 t.
Definition item_word (items : list text) (i : nat) (w : string) : Prop := exists t v, nth_error items i = Some t /\ reads [] t v /\ w = str v.
Definition line_on (items : list text) : Prop := exists x, item_number items 0 x /\ nltb n0 x = true.
Definition line_off (items : list text) : Prop := items = [] \/ exists x, item_number items 0 x /\ nltb n0 x = false.
(** a layer made of the material of this name, or of the compound the name is when there is no such material *)
Definition of_material (mats : list (@material N)) (name : string) (l0 l : @layer N) : Prop :=
  (Forall (fun m => m_name m <> name) mats /\ l = setMaterial_name l0 name) \/
  (exists a m b, mats = (a ++ m :: b)%list /\ m_name m = name /\ Forall (fun m => m_name m <> name) (a ++ b) /\ l = setMaterial_mat (setMaterial_name l0 name) m).
Definition detector_of_material (mats : list (@material N)) (name : string) (d0 d : @detector N) : Prop :=
  (Forall (fun m => m_name m <> name) mats /\ d = det_setMaterial_name d0 name) \/
  (exists a m b, mats = (a ++ m :: b)%list /\ m_name m = name /\ Forall (fun m => m_name m <> name) (a ++ b) /\ d = det_setMaterial_mat (det_setMaterial_name d0 name) m).
Definition layer_line (mats : list (@material N)) (k : string) (items : list text) (funny : num) (l : @layer N) : Prop :=
  exists density thickness name, item_number items 2 density /\ item_number items 3 thickness /\ item_word items 1 name /\
    of_material mats name (layer_new k density thickness funny) l.
Definition geometry_line (items : list text) (a b g : num) : Prop :=
  exists use other, item_number items 4 a /\ item_number items 5 b /\ item_number items 6 use /\ item_number items 7 other /\ g = if nltb n0 use then other else nadd a b.

(** what a line of [attenuators] means *)
Inductive meaning := Nothing | AFilter (l : @layer N) | AnAttenuator (l : @layer N) | ADetector (d : @detector N) | ASample (a b g : num) (l : @layer N) | AMultilayer (a b g : num).
Definition filter_key (k : string) : Prop := exists c, k = "BeamFilter" ++ String c "".
Definition detector_key (k : string) : Prop := exists r, k = "Detector" ++ r.
Definition describes_line (mats : list (@material N)) (kv : string * string) (r : meaning) : Prop :=
  exists items, listed (snd kv) items /\
  match r with
  | Nothing => line_off items
  | AFilter l => line_on items /\ filter_key (fst kv) /\ exists f, item_number items 4 f /\ layer_line mats (fst kv) items f l
  | ASample a b g l => line_on items /\ ~ filter_key (fst kv) /\ length items = 8 /\ geometry_line items a b g /\ ~ item_word items 1 "MULTILAYER" /\ layer_line mats (fst kv) items n1 l
  | AMultilayer a b g => line_on items /\ ~ filter_key (fst kv) /\ length items = 8 /\ geometry_line items a b g /\ item_word items 1 "MULTILAYER"
  | ADetector d => line_on items /\ ~ filter_key (fst kv) /\ length items <> 8 /\ detector_key (fst kv) /\
      exists density thickness name f, item_number items 2 density /\ item_number items 3 thickness /\ item_number items 4 f /\ item_word items 1 name /\
        detector_of_material mats name (detector_new (fst kv) density thickness f) d
  | AnAttenuator l => line_on items /\ ~ filter_key (fst kv) /\ length items <> 8 /\ ~ detector_key (fst kv) /\ exists f, item_number items 4 f /\ layer_line mats (fst kv) items f l
  end.
Definition filters_in (l : list meaning) : list (@layer N) := flat_map (fun m => match m with AFilter x => [x] | _ => [] end) l.
Definition attenuators_in (l : list meaning) : list (@layer N) := flat_map (fun m => match m with AnAttenuator x => [x] | _ => [] end) l.
Definition sample_in (l : list meaning) : list (@layer N) := flat_map (fun m => match m with ASample _ _ _ x => [x] | _ => [] end) l.
Definition detectors_in (l : list meaning) : list (@detector N) := flat_map (fun m => match m with ADetector x => [x] | _ => [] end) l.
Definition geometries_in (l : list meaning) : list (num * num * num) := flat_map (fun m => match m with ASample a b g _ | AMultilayer a b g => [(a, b, g)] | _ => [] end) l.
Definition is_multilayer (l : list meaning) : bool := existsb (fun m => match m with AMultilayer _ _ _ => true | _ => false end) l.
(** what a line of [multilayer] means *)
Definition describes_layer (mats : list (@material N)) (kv : string * string) (r : option (@layer N)) : Prop :=
  exists items, listed (snd kv) items /\
  match r with None => line_off items | Some l => line_on items /\ layer_line mats (fst kv) items n1 l end.
Definition layers_in (l : list (option (@layer N))) : list (@layer N) := flat_map (fun r => match r with Some x => [x] | None => [] end) l.
(** a value of [concentrations]: absent, or written once *)
Definition value_in (d : document) (key : string) (r : option num) : Prop :=
  match r with
  | None => forall k v, value_of d "concentrations" k = Some v -> ~ same_letters k key
  | Some x => exists v, field_in d "concentrations" key v /\ x = number minus1 (list_ascii_of_string v)
  end.
Definition placed (d0 : @detector N) (distance area : option num) (d2 : @detector N) : Prop :=
  exists d1, match distance with None => d1 = d0 | Some x => setDistance d0 x = (d1, Ok tt) end /\
             match area with None => d2 = d1 | Some x => setActiveArea d1 x = (d2, Ok tt) end.
End Values.
