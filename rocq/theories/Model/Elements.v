(** Model of class Elements (src/fisx_elements.h, src/fisx_elements.cpp): registries of elements
    and materials, compositions, mixture rule, peak families, escape peaks and their cache.
    The chemical formula parser is in Model/Formula.v. The data files and the constructors are
    in Model/ElementsFiles.v. *)
From Coq Require Import String List ZArith Bool Arith.
From Verif Require Import Base.Num Base.Res Base.RSum Base.SMap Model.Material Model.Shell Model.Element Model.Formula.
Import ListNotations.
Set Implicit Arguments.
Local Open Scope string_scope.
Local Open Scope num_scope.

Section Elements.
Context {N : Num}.
Local Notation table := (list (string * num)).
Local Notation vtable := (list (string * list num)).
Local Notation lines := (list (string * list (string * num))).

(** the parameters under which an escape cache is valid: composition, energyThreshold,
    intensityThreshold, nThreshold, alphaIn, thickness *)
Record escape_key := mkKey {
  k_composition : table; k_thrE : num; k_thrI : num; k_n : Z; k_alphaIn : num; k_thickness : num }.

(** data members, fisx_elements.h 584-607. [es_escKey], [es_escFlag]: None is indeterminate
    (no constructor initialises them). *)
Record elements := mkElements {
  es_dict : list (string * nat);           (* elementDict *)
  es_list : list (@element N);             (* elementList *)
  es_mats : list (@material N);            (* materialList *)
  es_esc : list (num * lines);             (* detectorEscapeCache *)
  es_escKey : option escape_key;           (* detector...UsedInCache *)
  es_escFlag : option Z }.                 (* escapeCacheEnabled *)

(** an object without elements; the constructors of the library then add the predefined ones *)
Definition elements_empty : elements := mkElements [] [] [] [] None None.
Definition with_elements es d l := mkElements d l (es_mats es) (es_esc es) (es_escKey es) (es_escFlag es).
Definition with_mats es m := mkElements (es_dict es) (es_list es) m (es_esc es) (es_escKey es) (es_escFlag es).
Definition with_esc es c k f := mkElements (es_dict es) (es_list es) (es_mats es) c k f.

(** ** Registry of elements *)
(** isElementNameDefined, fisx_elements.cpp 252-263 *)
Definition isElementNameDefined (es : elements) (name : string) : bool :=
  if Nat.eqb (String.length name) 0 then false else mmem sltb name (es_dict es).
(** getElementNames, 265-277 *)
Definition getElementNames (es : elements) : list string := map el_name (es_list es).
(** elementList[elementDict.find(name)->second]; end() dereference or bad index undefined *)
Definition elementAt (es : elements) (name : string) : res element :=
  rbind (of_opt (mfind sltb name (es_dict es))) (fun i => vget (es_list es) i).
(** getElement and getElementCopy, 279-300 *)
Definition getElement (es : elements) (name : string) : res element :=
  if isElementNameDefined es name then elementAt es name else Throw InvalidArgument.
(** v[i] = x *)
Fixpoint set_nth {A} (l : list A) (i : nat) (x : A) : list A :=
  match l, i with
  | [], _ => []
  | _ :: r, O => x :: r
  | a :: r, S i => a :: set_nth r i x
  end.
(** addElement, 302-317 *)
Definition addElement (es : elements) (e : element) : elements :=
  match mfind sltb (el_name e) (es_dict es) with
  | Some i => with_elements es (es_dict es) (set_nth (es_list es) i e)
  | None => with_elements es (mset sltb (el_name e) (length (es_list es)) (es_dict es)) (es_list es ++ [e])%list
  end.
(** the delegates that change one element: setElementCascadeCacheEnabled, fillElementCascadeCache,
    emptyElementCascadeCache, fillCache, updateCache, setCacheEnabled, clearCache, 2138-2244 *)
Definition onElement (es : elements) (name : string) (f : element -> element * res unit) : elements * res unit :=
  if isElementNameDefined es name then
    match mfind sltb name (es_dict es) with
    | None => (es, UB)
    | Some i => match nth_error (es_list es) i with
                | None => (es, UB)
                | Some e => let (e', r) := f e in (with_elements es (es_dict es) (set_nth (es_list es) i e'), r)
                end
    end
  else (es, Throw InvalidArgument).

(** ** Registry of materials *)
(** getMaterialIndexFromName, 2110-2123: the position of the first material with that name, the
    number of materials if there is none *)
Fixpoint materialIndex (l : list (@material N)) (name : string) : nat :=
  match l with
  | [] => 0
  | m :: r => if String.eqb (Material.getName m) name then 0 else S (materialIndex r name)
  end.
Definition getMaterialIndexFromName (es : elements) (name : string) : nat := materialIndex (es_mats es) name.
(** getMaterialNames, 1262-1273 *)
Definition getMaterialNames (es : elements) : list string := map (@Material.getName N) (es_mats es).
(** getMaterial, getMaterialCopy, 1248-1260 and 1275-1287 *)
Definition getMaterial (es : elements) (name : string) : res material :=
  match nth_error (es_mats es) (getMaterialIndexFromName es name) with
  | Some m => Ok m
  | None => Throw InvalidArgument
  end.
(** vector::erase *)
Fixpoint erase_nth {A} (l : list A) (i : nat) : list A :=
  match l, i with
  | [], _ => []
  | _ :: r, O => r
  | a :: r, S i => a :: erase_nth r i
  end.
(** removeMaterial, 2125-2136; removeMaterials, 1322-1325 *)
Definition removeMaterial (es : elements) (name : string) : elements * res unit :=
  let i := getMaterialIndexFromName es name in
  if Nat.leb (length (es_mats es)) i then (es, Throw InvalidArgument)
  else (with_mats es (erase_nth (es_mats es) i), Ok tt).
Definition removeMaterials (es : elements) : elements := with_mats es [].
(** setMaterialComposition (vectors 1216-1230, map 1232-1246) *)
Definition onMaterial (es : elements) (name : string) (f : material -> material * res unit) : elements * res unit :=
  match nth_error (es_mats es) (getMaterialIndexFromName es name) with
  | None => (es, Throw InvalidArgument)
  | Some m => let (m', r) := f m in (with_mats es (set_nth (es_mats es) (getMaterialIndexFromName es name) m'), r)
  end.
Definition setMaterialComposition_vec es name names amounts : elements * res unit :=
  onMaterial es name (fun m => setComposition_vec m names amounts).
Definition setMaterialComposition_map es name composition : elements * res unit :=
  onMaterial es name (fun m => setComposition_map m composition).
(** addMaterial(const Material &, errorOnReplace), 1290-1320 *)
Definition addMaterial_mat (es : elements) (m : @material N) (errorOnReplace : Z) : elements * res unit :=
  let i := getMaterialIndexFromName es (Material.getName m) in
  if Nat.ltb i (length (es_mats es)) then
    if negb (errorOnReplace =? 0)%Z then (es, Throw InvalidArgument)
    else (with_mats es (set_nth (es_mats es) i m), Ok tt)
  else (with_mats es (es_mats es ++ [m])%list, Ok tt).

(** ** Compositions. [tostr], [depth]: number formatting and recursion depth of the formula
    parser, see Model/Formula.v *)
Variable tostr : num -> string.
Variable depth : nat.

(** the loop 1525-1542; None: a symbol is not an element *)
Fixpoint formulaMasses (es : elements) (l : table) : res (option table) :=
  match l with
  | [] => Ok (Some [])
  | (name, n) :: r =>
      match mfind sltb name (es_dict es) with
      | None => Ok None
      | Some i => rbind (vget (es_list es) i) (fun e => rbind (getAtomicMass e) (fun a =>
                  rbind (formulaMasses es r) (fun o => Ok (option_map (cons (name, n * a)) o))))
      end
  end.
Definition divide_by_total (l : table) : table :=
  let total := nsum (map snd l) in map (fun kv => (fst kv, snd kv / total)) l.
(** getCompositionFromFormula, 1510-1548 *)
Definition getCompositionFromFormula (es : elements) (formula : string) : res table :=
  rbind (parseFormula tostr depth formula) (fun p =>
  match p with
  | [] => Ok []
  | _ => rmap (fun o => match o with None => [] | Some l => divide_by_total l end) (formulaMasses es p)
  end).

(** result[k] += v, the missing entry being created with 0.0 *)
Definition madd (k : string) (v : num) (m : table) : table := mset sltb k (val0 m k + v) m.
Definition addScaled (w : num) (c : table) (acc : table) : table :=
  fold_left (fun acc kv => madd (fst kv) (snd kv * w) acc) c acc.
(** the loops 1373-1388, 1401-1413, 1480-1494: None: a constituent has no composition *)
Fixpoint mixLoop (comp : string -> res table) (l : table) (acc : table) : res (option table) :=
  match l with
  | [] => Ok (Some acc)
  | (name, w) :: r => rbind (comp name) (fun c =>
      match c with [] => Ok None | _ => mixLoop comp r (addScaled w c acc) end)
  end.
Definition or_empty (o : option table) : table := match o with Some t => t | None => [] end.
(** getComposition(name), 1328-1390. [fuel] bounds the depth of the recursion. *)
Fixpoint getComposition (fuel : nat) (es : elements) (name : string) : res table :=
  match fuel with
  | O => Diverge
  | S fuel =>
      rbind (getCompositionFromFormula es name) (fun r =>
      match r with
      | _ :: _ => Ok r
      | [] =>
          match nth_error (es_mats es) (getMaterialIndexFromName es name) with
          | None => Ok []
          | Some m =>
              match Material.getComposition m with
              | [] => Throw InvalidArgument
              | c => rmap or_empty (mixLoop (getComposition fuel es) (divide_by_total c) [])
              end
          end
      end)
  end.
(** getComposition(name, additionalMaterials), 1429-1508 (the message on std::cout, line 1502, omitted) *)
Fixpoint getComposition_with (fuel : nat) (es : elements) (additional : list (@material N)) (name : string) : res table :=
  match fuel with
  | O => Diverge
  | S fuel =>
      rbind (getCompositionFromFormula es name) (fun r =>
      match r with
      | _ :: _ => Ok r
      | [] =>
          match additional with
          | [] => getComposition fuel es name
          | _ =>
              rbind (match nth_error additional (materialIndex additional name) with
                     | None => getComposition fuel es name
                     | Some m => Ok (Material.getComposition m)
                     end) (fun c =>
              match c with
              | [] => Throw InvalidArgument
              | _ => rmap (fun o => divide_by_total (or_empty o)) (mixLoop (getComposition_with fuel es additional) c [])
              end)
          end
      end)
  end.
(** getComposition(map, additionalMaterials), 1392-1427 *)
Definition getComposition_map (fuel : nat) (es : elements) (additional : list (@material N)) (input : table) : res table :=
  rmap (fun o => divide_by_total (or_empty o)) (mixLoop (getComposition_with fuel es additional) input []).

(** createMaterial, 1169-1183 *)
Definition createMaterial (es : elements) (name : string) (density thickness : num) (comment : string) : res material :=
  match initialize material_default name density thickness comment with
  | (m, Ok _) => rbind (getCompositionFromFormula es name) (fun c =>
                 match c with
                 | [] => Ok m
                 | _ => let (m', r) := setComposition_map m c in rbind r (fun _ => Ok m')
                 end)
  | (_, Throw x) => Throw x
  | (_, UB) => UB
  | (_, Diverge) => Diverge
  end.
(** addMaterial(name, density, thickness, comment, errorOnReplace), 1185-1214 *)
Definition addMaterial_new (es : elements) (name : string) (density thickness : num) (comment : string) (errorOnReplace : Z)
  : elements * res unit :=
  let exists_ := Nat.ltb (getMaterialIndexFromName es name) (length (es_mats es)) in
  if exists_ && negb (errorOnReplace =? 0)%Z then (es, Throw InvalidArgument)
  else
    let es := if exists_ then fst (removeMaterial es name) else es in
    match initialize material_default name density thickness comment with
    | (m, Ok _) =>
        let es := with_mats es (es_mats es ++ [m])%list in
        match getCompositionFromFormula es name with
        | Ok [] => (es, Ok tt)
        | Ok c => setMaterialComposition_map es name c
        | Throw x => (es, Throw x)
        | UB => (es, UB)
        | Diverge => (es, Diverge)
        end
    | (_, r) => (es, r)
    end.

(** ** Mass attenuation coefficients *)
(** getMassAttenuationCoefficients(name), 981-995 *)
Definition getMu_all (es : elements) (name : string) : res vtable :=
  match mfind sltb name (es_dict es) with
  | None => Throw InvalidArgument
  | Some i => rmap (@getMassAttenuationCoefficients_all N) (vget (es_list es) i)
  end.
(** the loop over the elements of the mixture at one energy, 1146-1158 *)
Definition muTerm (t : table) (k : string) (w : num) : num := val0 t k * w.
Fixpoint mixtureSum (es : elements) (total energy : num) (l : table) (acc : num * num * num * num) : res (num * num * num * num) :=
  match l with
  | [] => Ok acc
  | (name, c) :: r =>
      rbind (elementAt es name) (fun e =>
      rbind (Element.getMassAttenuationCoefficients e energy) (fun t =>
      let w := c / total in
      let '(co, cp, pa, ph) := acc in
      mixtureSum es total energy r
        (co + muTerm t "coherent" w, cp + muTerm t "compton" w, pa + muTerm t "pair" w, ph + muTerm t "photoelectric" w)))
  end.
Definition mixtureAt (es : elements) (total : num) (l : table) (energy : num) : res table :=
  rmap (fun acc => let '(co, cp, pa, ph) := acc in
          [("coherent", co); ("compton", cp); ("energy", energy); ("pair", pa); ("photoelectric", ph);
           ("total", (((co + cp) + pa) + ph))]) (mixtureSum es total energy l (n0, n0, n0, n0)).
(** the loop over the input, 1098-1124 *)
Fixpoint mixtureElements (comp : string -> res table) (l : table) (acc : table) (total : num) : res (table * num) :=
  match l with
  | [] => Ok (acc, total)
  | (name, w) :: r =>
      if w <? n0 then Throw InvalidArgument
      else rbind (comp name) (fun c =>
        match c with
        | [] => Throw InvalidArgument
        | _ => mixtureElements comp r (addScaled w c acc) (total + w)
        end)
  end.
(** map and vector of energies with isComposition, 1069-1165: one table per energy; the C++
    function returns them transposed, see [transpose_mu] *)
Definition getMu_map_list (fuel : nat) (es : elements) (input : table) (energies : list num) (isComposition : Z) : res (list table) :=
  rbind (if (isComposition =? 0)%Z then
           rbind (mixtureElements (getComposition fuel es) input [] n0) (fun at_ =>
           if snd at_ <=? n0 then Throw InvalidArgument else Ok at_)
         else Ok (input, n1)) (fun at_ =>
  rmapM (mixtureAt es (snd at_) (fst at_)) energies).
Definition muNames : list string := ["coherent"; "compton"; "energy"; "pair"; "photoelectric"; "total"].
Definition transpose_mu (l : list table) : vtable := map (fun k => (k, map (fun t => val0 t k) l)) muNames.
Definition getMu_map_vec fuel es input energies isComposition : res vtable :=
  rmap transpose_mu (getMu_map_list fuel es input energies isComposition).
(** map and one energy, 1047-1067: element [0] of the vectors of the one-element call *)
Definition getMu_map (fuel : nat) (es : elements) (input : table) (energy : num) (isComposition : Z) : res table :=
  rbind (getMu_map_list fuel es input [energy] isComposition) (fun l => vget l 0).
(** name and one energy, 998-1019; name and vector, 1021-1045 *)
Definition getMu_name (fuel : nat) (es : elements) (name : string) (energy : num) : res table :=
  if mmem sltb name (es_dict es) then
    rbind (getElement es name) (fun e => Element.getMassAttenuationCoefficients e energy)
  else rbind (getComposition fuel es name) (fun c =>
         match c with [] => Throw InvalidArgument | _ => getMu_map fuel es c energy 0 end).
Definition getMu_name_vec (fuel : nat) (es : elements) (name : string) (energies : list num) : res vtable :=
  if mmem sltb name (es_dict es) then
    rbind (getElement es name) (fun e => Element.getMassAttenuationCoefficients_vec e energies)
  else rbind (getComposition fuel es name) (fun c =>
         match c with [] => Throw InvalidArgument | _ => getMu_map_vec fuel es c energies 0 end).

(** ** Excitation factors, 1550-1574 *)
Definition getExcitationFactors (es : elements) (name : string) (energy weight : num) : res lines :=
  rbind (getElement es name) (fun e =>
  rbind (getPhotoelectricExcitationFactors_vec e [energy] [weight]) (fun l => vget l 0)).

(** ** Peak families *)
(** one element, 1882-1895; the binding energy is found because the shell comes from the same table *)
Fixpoint familiesOf (name : string) (e : element) (shells : list string) : res (list (string * num)) :=
  match shells with
  | [] => Ok []
  | s :: r =>
      if isKLM s then
        rbind (Element.getShellConstants e s) (fun c =>
        if val0 c "omega" >? n0 then
          rbind (of_opt (mfind sltb s (Element.getBindingEnergies e))) (fun b =>
          rbind (familiesOf name e r) (fun out => Ok ((name ++ " " ++ s, b) :: out)))
        else familiesOf name e r)
      else familiesOf name e r
  end.
(** std::sort with sortVectorOfExcited (fisx_elements.h 616-620) is the parameter [sortf] *)
Variable sortf : list (string * num) -> list (string * num).
(** getPeakFamilies(vector, energy), 1870-1904 *)
Definition getPeakFamilies (es : elements) (names : list string) (energy : num) : res (list (string * num)) :=
  rbind (rfold (fun out name =>
           rbind (getElement es name) (fun e =>
           rbind (familiesOf name e (getExcitedShells e energy)) (fun f => Ok (out ++ f)%list))) names [])
    (fun l => Ok (sortf l)).
(** getPeakFamilies(name, energy), 1941-1961 *)
Definition getPeakFamilies_name (fuel : nat) (es : elements) (name : string) (energy : num) : res (list (string * num)) :=
  rbind (getComposition fuel es name) (fun c =>
  match c with [] => Throw InvalidArgument | _ => getPeakFamilies es (map fst c) energy end).

(** ** Escape peaks *)
(** composition.size() equal and std::equal, 2288-2291 *)
Fixpoint same_table (a b : table) : bool :=
  match a, b with
  | [], [] => true
  | (k, v) :: a, (k', v') :: b => String.eqb k k' && (v =? v') && same_table a b
  | _, _ => false
  end.
(** isEscapeCacheCompatible, 2253-2303. Reading the flag before it was set is undefined. *)
Definition isEscapeCacheCompatible (es : elements) (k : escape_key) : res bool :=
  rbind (of_opt (es_escFlag es)) (fun f =>
  if (f =? 0)%Z then Ok false
  else match es_esc es with
  | [] => Ok false
  | _ => rbind (of_opt (es_escKey es)) (fun u =>
         Ok ((k_thrE k =? k_thrE u) && (k_thrI k =? k_thrI u) && (k_n k =? k_n u)%Z && (k_alphaIn k =? k_alphaIn u) &&
             (k_thickness k =? k_thickness u) && same_table (k_composition k) (k_composition u)))
  end).
Definition setEscapeCacheEnabled (es : elements) (flag : Z) : elements := with_esc es (es_esc es) (es_escKey es) (Some flag).
Definition clearEscapeCache (es : elements) : elements := with_esc es [] (es_escKey es) (es_escFlag es).

(** 2042-2051 *)
Definition sinAlpha (alphaIn : num) : num :=
  if alphaIn =? nlit 90 0 then n1
  else let s := nsin (alphaIn * (nlit 3141592653589793 (-15) / nlit 180 0)) in if s <? n0 then - s else s.
(** total coefficient of the detector material; operator[] *)
Definition totalMu (fuel : nat) (es : elements) (c : table) (energy : num) : res num :=
  rmap (fun t => val0 t "total") (getMu_map fuel es c energy 0).
(** the rate of one line, 2083-2098 *)
Definition escapeRate (sin_ muF muI rate : num) : num :=
  let t := sin_ * (muF / muI) in
  rate * ((nlit 5 (-1) / muI) * (n1 - t * nlog (n1 + n1 / t))).
(** the loop over the lines of one element, 2076-2102 *)
Fixpoint escapeLines (fuel : nat) (es : elements) (k : escape_key) (energy sin_ muI eff : num) (name : string) (l : lines) (out : lines) : res lines :=
  match l with
  | [] => Ok out
  | (line, t) :: r =>
      rbind (of_opt (mfind sltb "rate" t)) (fun rate0 =>
      rbind (of_opt (mfind sltb "energy" t)) (fun eF =>
      rbind (totalMu fuel es (k_composition k) eF) (fun muF =>
      let rate := escapeRate sin_ muF muI rate0 in
      let out := if rate >? k_thrI k then
                   let rate := if k_thickness k >? n0 then rate / eff else rate in
                   let key := name ++ "_" ++ line ++ "esc" in
                   let old := match mfind sltb key out with Some t => t | None => [] end in
                   mset sltb key (mset sltb "energy" (energy - eF) (mset sltb "rate" rate old)) out
                 else out in
      escapeLines fuel es k energy sin_ muI eff name r out)))
  end.
(** the calculation, 2042-2107. The thresholds on energy and number of peaks are not used. *)
Definition computeEscape (fuel : nat) (es : elements) (k : escape_key) (energy : num) : res lines :=
  let s := sinAlpha (k_alphaIn k) in
  rbind (totalMu fuel es (k_composition k) energy) (fun muI =>
  let eff := if k_thickness k >? n0 then n1 - nexp (- muI * k_thickness k / s) else n1 in
  rfold (fun out nw => rbind (getExcitationFactors es (fst nw) energy (snd nw)) (fun l =>
                       escapeLines fuel es k energy s muI eff (fst nw) l out)) (k_composition k) []).
(** getEscape, 2010-2108 *)
Definition getEscape (fuel : nat) (es : elements) (k : escape_key) (energy : num) : res lines :=
  rbind (isEscapeCacheCompatible es k) (fun c =>
  match (if c then mfind nltb energy (es_esc es) else None) with
  | Some l => Ok l
  | None => computeEscape fuel es k energy
  end).
(** updateEscapeCache, 2305-2346; [lf]: see Model/Element.v. With the left operand evaluated first the empty
    entry is already in the cache while getEscape runs, and getEscape may find it. *)
Fixpoint updateEscapeLoop (lf : bool) (fuel : nat) (es : elements) (k : escape_key) (energies : list num) : elements * res unit :=
  match energies with
  | [] => (es, Ok tt)
  | e :: r =>
      let (c, o) := if mmem nltb e (es_esc es) then (es_esc es, Ok tt)
                    else cacheAssign lf e []
                           (getEscape fuel (if lf then with_esc es (mset nltb e [] (es_esc es)) (es_escKey es) (es_escFlag es) else es) k e) (es_esc es) in
      match o with
      | Ok _ => updateEscapeLoop lf fuel (with_esc es c (Some k) (es_escFlag es)) k r
      | _ => (with_esc es c (es_escKey es) (es_escFlag es), o)
      end
  end.
Definition updateEscapeCache (lf : bool) (fuel : nat) (es : elements) (k : escape_key) (energies : list num) : elements * res unit :=
  match isEscapeCacheCompatible es k with
  | Ok c => updateEscapeLoop lf fuel (if c then es else clearEscapeCache es) k energies
  | Throw x => (es, Throw x)
  | UB => (es, UB)
  | Diverge => (es, Diverge)
  end.

End Elements.
