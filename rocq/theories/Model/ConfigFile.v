(** Model of XRFConfig::readConfigurationFromFile (src/fisx_xrfconfig.cpp 49-512): PyMca configuration files.
    The conversion of a text to double (operator>> of a stream, C library) is a parameter. Not modelled: messages
    on std::cout, the commented out parts. *)
From Coq Require Import Ascii String List ZArith Bool.
From Verif Require Import Base.Num Base.Res Base.SMap Base.Str Base.Text Model.SimpleIni Model.Beam Model.Material Model.TransmissionTable Model.Layer Model.XRF Model.Multilayer.
Import ListNotations.
Set Implicit Arguments.
Local Open Scope string_scope.
Local Open Scope num_scope.

Section ConfigFile.
Context {N : Num}.
Variable readDouble : text -> option num.   (* std::istringstream(text) >> double; None: failbit *)
Variable sortf : list (@ray N) -> list ray. (* std::sort, see Model/Beam.v *)

(** A computation on the object: what is left of the object and the outcome; on an exception what was
    assigned before stays assigned. *)
Definition X (A : Type) := @config N -> @config N * res A.
Definition xret {A} (a : A) : X A := fun c => (c, Ok a).
Definition xbind {A B} (m : X A) (f : A -> X B) : X B := fun c =>
  match m c with
  | (c', Ok a) => f a c'
  | (c', Throw e) => (c', Throw e)
  | (c', UB) => (c', UB)
  | (c', Diverge) => (c', Diverge)
  end.
Definition xlift {A} (r : res A) : X A := fun c => (c, r).
Definition xmod (f : @config N -> @config N) : X unit := fun c => (f c, Ok tt).
Fixpoint xfold {A B} (f : B -> A -> X B) (l : list A) (b : B) : X B :=
  match l with [] => xret b | a :: r => xbind (f b a) (xfold f r) end.

Definition chars (s : string) : text := list_ascii_of_string s.
(** parseStringAsMultipleValues<double>, <int> and <std::string>, parseStringAsSingleValue<double>, fisx_simpleini.h 89-123 *)
Definition doubles (dflt : num) (s : string) : list num :=
  map (fun i => match readDouble i with Some v => v | None => dflt end) (SimpleIni.split ","%char (chars s)).
Definition ints (dflt : Z) (s : string) : list Z :=
  map (fun i => match readInt i with Some v => v | None => dflt end) (SimpleIni.split ","%char (chars s)).
Definition strings (sep : ascii) (s : string) : list string := map str (parseStringAsMultipleValues (chars s) [] sep).
Definition single (dflt : num) (s : string) : num := match readDouble (chars s) with Some v => v | None => dflt end.

(** sectionContents[key], 119-126 *)
Definition content (m : list (string * string)) (key : string) : string := match mfind sltb key m with Some v => v | None => "" end.

(** ** The beam, 102-187 *)
(** v.erase(v.begin() + i) *)
Definition erase {A} (i : nat) (l : list A) : res (list A) :=
  if Nat.ltb i (length l) then Ok (firstn i l ++ skipn (S i) l)%list else UB.
(** v[i] = a, i in range *)
Definition assign {A} (i : nat) (a : A) (l : list A) : list A := (firstn i l ++ a :: skipn (S i) l)%list.
Definition missing : num := nlit (-666) 0.
(** the loop 154-186, iIntVector = i, i-1, ... *)
Fixpoint beamLoop (i : nat) (flags : list Z) (energy weight : list num) (char : list Z) : res (list num * list num * list Z) :=
  match i with
  | O => Ok (energy, weight, char)
  | S i =>
      rbind (vget flags i) (fun flag =>
      rbind (if (0 <? flag)%Z then rmap (fun e => negb (e =? missing)) (vget energy i) else Ok false) (fun keep =>
      if keep then
        rbind (vget energy i) (fun e =>
        if e <=? n0 then Throw InvalidArgument else
        rbind (vget weight i) (fun w =>
        if w <? n0 then Throw InvalidArgument else
        rbind (vget char i) (fun ch =>
        beamLoop i flags energy weight (if (ch <? 0)%Z then assign i 0%Z char else char))))
      else
        rbind (erase i energy) (fun energy =>
        rbind (erase i weight) (fun weight =>
        rbind (erase i char) (fun char =>
        beamLoop i flags energy weight char)))))
  end.
(** 117-187 *)
Definition readBeam (m : list (string * string)) : X unit :=
  let energy := doubles missing (content m "energy") in
  let weight := doubles (nlit (-1) 0) (content m "energyweight") in
  let char := ints (-1) (content m "energyscatter") in
  let flags := ints 0 (content m "energyflag") in
  let weight := match weight with [] => repeat n1 (length energy) | _ => weight end in
  let char := match char with [] => repeat 1%Z (length energy) | _ => char end in
  let flags := match flags with [] => repeat 1%Z (length energy) | _ => flags end in
  xbind (xlift (beamLoop (length flags) flags energy weight char)) (fun '(energy, weight, char) =>
  fun c => xrf_setBeam_vectors sortf c energy weight char []).

(** ** The materials, 189-246 *)
(** the local variables of 195-199: they keep their values from one material to the next; density and
    thickness are not initialised *)
Record mvars := mkMvars { v_comment : string; v_density : option num; v_thickness : option num; v_list : list string; v_fractions : list num }.
(** one key of a section, 213-241 *)
Definition materialKey (v : mvars) (kv : string * string) : mvars :=
  let key := toUpper (fst kv) in
  if String.eqb key "DENSITY" then mkMvars (v_comment v) (Some (single (nlit (-1) 0) (snd kv))) (v_thickness v) (v_list v) (v_fractions v)
  else if String.eqb key "THICKNESS" then mkMvars (v_comment v) (v_density v) (Some (single (nlit (-1) 0) (snd kv))) (v_list v) (v_fractions v)
  else if String.eqb key "COMPOUNDLIST" then mkMvars (v_comment v) (v_density v) (v_thickness v) (strings ","%char (snd kv)) (v_fractions v)
  else if String.eqb key "COMPOUNDFRACTION" || String.eqb key "COMPOUNDFRACTIONS" then
    mkMvars (v_comment v) (v_density v) (v_thickness v) (v_list v) (doubles (nlit (-1) 0) (snd kv))
  else mkMvars (snd kv) (v_density v) (v_thickness v) (v_list v) (v_fractions v).
Definition addMaterial (m : @material N) (c : config) : config := mkConfig (c_beam c) (c_materials c ++ [m])%list (c_filters c) (c_sample c) (c_attenuators c)
  (c_userFilters c) (c_userAttenuators c) (c_reference c) (c_alphaIn c) (c_alphaOut c) (c_scattering c) (c_detector c).
Definition materialSection (i : ini) (v : mvars) (section : string) : X mvars :=
  let v := fold_left materialKey (snd (readSection i section true)) v in
  xbind (xlift (rbind (vget (strings "."%char section) 1) (fun name =>
         rbind (of_opt (v_density v)) (fun density =>
         rbind (of_opt (v_thickness v)) (fun thickness =>
         rbind (material_new name density thickness (v_comment v)) (fun m =>
         let (m, r) := setComposition_vec m (v_list v) (v_fractions v) in rbind r (fun _ => Ok m))))))) (fun m =>
  xbind (xmod (addMaterial m)) (fun _ => xret v)).
Definition clearMaterials (c : config) : config := mkConfig (c_beam c) [] (c_filters c) (c_sample c) (c_attenuators c)
  (c_userFilters c) (c_userAttenuators c) (c_reference c) (c_alphaIn c) (c_alphaOut c) (c_scattering c) (c_detector c).
Definition readMaterials (i : ini) : X unit :=
  xbind (xmod clearMaterials) (fun _ =>
  xbind (xfold (materialSection i) (getSubsections i "Materials" false) (mkMvars "" None None [] [])) (fun _ => xret tt)).

(** ** User filters and attenuators, 248-353 (the same loop twice) *)
(** energyList and transmissionList keep their values from one table to the next *)
Record uvars := mkUvars { u_use : num; u_comment : string; u_energy : list num; u_transmission : list num }.
Definition userKey (v : uvars) (kv : string * string) : uvars :=
  let key := toUpper (fst kv) in
  if String.eqb key "ENERGY" then mkUvars (u_use v) (u_comment v) (doubles (nlit (-1) 0) (snd kv)) (u_transmission v)
  else if String.eqb key "TRANSMISSION" then mkUvars (u_use v) (u_comment v) (u_energy v) (doubles (nlit (-1) 0) (snd kv))
  else if String.eqb key "USE" then mkUvars (single n0 (snd kv)) (u_comment v) (u_energy v) (u_transmission v)
  else mkUvars (u_use v) (snd kv) (u_energy v) (u_transmission v).
Definition userSection (add : @ttable N -> config -> config) (i : ini) (v : uvars) (section : string) : X uvars :=
  let v := fold_left userKey (snd (readSection i section true)) (mkUvars n0 "" (u_energy v) (u_transmission v)) in
  if n0 <? u_use v then
    xbind (xlift (rbind (vget (strings "."%char section) 1) (fun name =>
           let (t, r) := setTransmissionTable_vec tt_init (u_energy v) (u_transmission v) name (u_comment v) in rbind r (fun _ => Ok t)))) (fun t =>
    xbind (xmod (add t)) (fun _ => xret v))
  else xret v.
Definition addUserFilter (t : @ttable N) (c : config) : config := setUserBeamFilters c (c_userFilters c ++ [t])%list.
Definition addUserAttenuator (t : @ttable N) (c : config) : config := setUserAttenuators c (c_userAttenuators c ++ [t])%list.
Definition readUser (parent : string) (clear : config -> config) (add : @ttable N -> config -> config) (i : ini) : X unit :=
  xbind (xmod clear) (fun _ =>
  xbind (xfold (userSection add i) (getSubsections i parent false) (mkUvars n0 "" [] [])) (fun _ => xret tt)).
Definition readUserFilters (i : ini) : X unit := readUser "UserBeamFilters" (fun c => setUserBeamFilters c []) addUserFilter i.
Definition readUserAttenuators (i : ini) : X unit := readUser "UserAttenuators" (fun c => setUserAttenuators c []) addUserAttenuator i.

(** ** Filters, sample, detector, attenuators, 355-460 *)
(** setMaterial(name) and the loop over the materials, 383-390 and the like *)
Definition fillLayer (mats : list (@material N)) (name : string) (l : @layer N) : layer :=
  fold_left (fun l m => if String.eqb (m_name m) name then setMaterial_mat l m else l) mats (setMaterial_name l name).
Definition fillDetector (mats : list (@material N)) (name : string) (d : @detector N) : detector :=
  fold_left (fun d m => if String.eqb (m_name m) name then det_setMaterial_mat d m else d) mats (det_setMaterial_name d name).
Definition putSample (l : list (@layer N)) (c : config) : config := mkConfig (c_beam c) (c_materials c) (c_filters c) l (c_attenuators c)
  (c_userFilters c) (c_userAttenuators c) (c_reference c) (c_alphaIn c) (c_alphaOut c) (c_scattering c) (c_detector c).
Definition putReference (c : config) : config := mkConfig (c_beam c) (c_materials c) (c_filters c) (c_sample c) (c_attenuators c)
  (c_userFilters c) (c_userAttenuators c) (Some 0%Z) (c_alphaIn c) (c_alphaOut c) (c_scattering c) (c_detector c).
(** std::string::substr(0, size() - 1), 380; size() - 1 is npos for an empty key *)
Definition withoutLast (s : string) : string := match String.length s with O => s | S n => String.substring 0 n s end.
(** Layer(key, d[2], d[3], d[4]) with its material, 382-391 and 443-452 *)
Definition namedLayer (mats : list (@material N)) (key : string) (d : list num) (s : list string) (funny : res num) : res (@layer N) :=
  rbind (vget d 2) (fun density => rbind (vget d 3) (fun thickness => rbind funny (fun f => rbind (vget s 1) (fun name =>
  Ok (fillLayer mats name (layer_new key density thickness f)))))).
Definition attenuatorKey (multi : bool) (kv : string * string) : X bool :=
  let key := fst kv in
  let d := doubles (nlit (-1) 0) (snd kv) in
  let s := strings ","%char (snd kv) in
  match d with
  | [] => xret multi
  | d0 :: _ =>
      if n0 <? d0 then
        if String.eqb (withoutLast key) "BeamFilter" then fun c =>
          xbind (xlift (namedLayer (c_materials c) key d s (vget d 4))) (fun l => xbind (xmod (fun c => setBeamFilters c (c_filters c ++ [l])%list)) (fun _ => xret multi)) c
        else if Nat.eqb (length s) 8 then
          xbind (xlift (rbind (vget d 6) (fun d6 => rbind (vget d 4) (fun d4 => rbind (vget d 5) (fun d5 => rbind (vget d 7) (fun d7 => Ok (d4, d5, if n0 <? d6 then d7 else d4 + d5))))))) (fun '(a, b, g) =>
          xbind (xmod (fun c => with_geometry c a b g)) (fun _ =>
          xbind (xlift (vget s 1)) (fun name =>
          if String.eqb name "MULTILAYER" then xret true
          else fun c => xbind (xlift (namedLayer (c_materials c) key d s (Ok n1))) (fun l => xbind (xmod (fun c => putSample (c_sample c ++ [l])%list c)) (fun _ => xret multi)) c)))
        else if String.eqb (String.substring 0 8 key) "Detector" then fun c =>
          xbind (xlift (rbind (vget d 2) (fun density => rbind (vget d 3) (fun thickness => rbind (vget d 4) (fun f => rbind (vget s 1) (fun name =>
                 Ok (fillDetector (c_materials c) name (detector_new key density thickness f)))))))) (fun det =>
          xbind (xmod (fun c => setDetector c det)) (fun _ => xret multi)) c
        else fun c =>
          xbind (xlift (namedLayer (c_materials c) key d s (vget d 4))) (fun l => xbind (xmod (fun c => setAttenuators c (c_attenuators c ++ [l])%list)) (fun _ => xret multi)) c
      else xret multi
  end.
Definition clearLayers (c : config) : config := setDetector (putSample [] (setAttenuators (setBeamFilters c []) [])) (detector_new "" n0 n0 n1).
(** 466-494 *)
Definition multilayerKey (u : unit) (kv : string * string) : X unit :=
  let d := doubles (nlit (-1) 0) (snd kv) in
  let s := strings ","%char (snd kv) in
  match d with
  | [] => xret tt
  | d0 :: _ =>
      if n0 <? d0 then fun c =>
        xbind (xlift (namedLayer (c_materials c) (fst kv) d s (Ok n1))) (fun l => xmod (fun c => putSample (c_sample c ++ [l])%list c)) c
      else xret tt
  end.
(** 496-511 *)
Definition concentrationKey (u : unit) (kv : string * string) : X unit :=
  let key := toUpper (fst kv) in
  let value := single (nlit (-1) 0) (snd kv) in
  xbind (if String.eqb key "DISTANCE" then (fun c => let (d, r) := setDistance (c_detector c) value in (setDetector c d, r)) else xret tt) (fun _ =>
  if String.eqb key "AREA" then (fun c => let (d, r) := setActiveArea (c_detector c) value in (setDetector c d, r)) else xret tt).

(** ** The whole function, 49-512 *)
Definition readConfiguration (i : ini) : X unit :=
  let (i, fit) := readSection i "fit" false in
  let (i, fit) := match fit with [] => readSection i "result.config" false | _ => (i, fit) end in
  match fit with
  | [] => xlift (Throw InvalidArgument)
  | _ =>
      xbind (readBeam fit) (fun _ =>
      xbind (readMaterials i) (fun _ =>
      xbind (readUserFilters i) (fun _ =>
      xbind (readUserAttenuators i) (fun _ =>
      let (i, att) := readSection i "attenuators" false in
      xbind (xmod clearLayers) (fun _ =>
      xbind (xfold attenuatorKey att false) (fun multi =>
      xbind (xmod putReference) (fun _ =>
      let (i, lay) := if multi then readSection i "multilayer" false else (i, []) in
      xbind (xfold multilayerKey lay tt) (fun _ =>
      let (i, conc) := readSection i "concentrations" false in
      xfold concentrationKey conc tt))))))))
  end.
(** [file]: None if it cannot be opened *)
Definition readConfigurationFromFile (file : option text) : X unit :=
  let (i, r) := readFileName ini_new file in
  xbind (xlift r) (fun _ => readConfiguration i).
End ConfigFile.
