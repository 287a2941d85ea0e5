(** Model of XRF::getMultilayerFluorescence (src/fisx_multilayer.cpp 40-1212) and of its two wrappers
    (src/fisx_xrf.cpp 195-225, 395-446).
    Simplifications, all without effect on returned values:
    - the local vectors indexed by the sample layer are one list of records ([slab]);
    - the local map [result] (line -> named numbers) is a list of records in key order;
    - the references actualResult[key][iLayer] made while treating one element and one layer are one
      local table, stored back when the layer is finished (an exception ends the whole call);
    - reading a missing field with operator[] gives 0; the creation of that field is not modelled
      (only the entries of escape peaks lack fields, and only lines named like an escape peak meet them);
    - messages on std::cout are omitted. *)
From Coq Require Import Ascii String List ZArith Bool DecimalString.
From Verif Require Import Base.Num Base.Res Base.RSum Base.SMap Base.Str Base.Text Model.Beam Model.Material Model.TransmissionTable Model.Layer
  Model.Math Model.Shell Model.Element Model.Elements Model.SimpleIni Model.XRF.
Import ListNotations.
Set Implicit Arguments.
Local Open Scope string_scope.
Local Open Scope num_scope.

Section Multilayer.
Context {N : Num}.
Local Notation table := (list (string * num)).
Local Notation lines := (list (string * table)).
Local Notation detector := (@detector N).
Local Notation layer := (@layer N).
(** std::sort on doubles *)
Variable sortf : list num -> list num.
(** [debug]: see Model/Math.v; [lf]: see [det_getEscape] *)
Variables debug lf : bool.
Variable xl : @xlib N.
Variable c : @config N.

Let sinIn : num := sinDegrees (c_alphaIn c).
Let sinOut : num := sinDegrees (c_alphaOut c).

(** ** Beam after the filters, 94-118: w[k] *= v[k] for every ray *)
Fixpoint mulVec (w v : list num) : res (list num) :=
  match w, v with
  | [], _ => Ok []
  | _ :: _, [] => UB
  | a :: w, b :: v => rmap (cons (a * b)) (mulVec w v)
  end.
Definition filteredWeights (energies weights : list num) : res (list num) :=
  rbind (rfold (fun w l => rbind (getLayerTransmission_vec xl c l energies (nlit 90 0) []) (mulVec w)) (c_filters c) weights) (fun w =>
  rfold (fun w t => mulVec w (TransmissionTable.getTransmission_vec t energies)) (c_userFilters c) w).

(** 121-137 *)
Definition geometricEfficiencies (useGeometricEfficiency : Z) : res (list num) :=
  rmapM (fun i => if (useGeometricEfficiency =? 0)%Z then Ok n1 else getGeometricEfficiency c (Z.of_nat i)) (seq 0 (length (c_sample c))).

(** ** One ray. What is known of a sample layer: the layer, its composition (88-91), its geometric
    efficiency, its attenuation coefficient at the energy of the ray, the fraction of the beam reaching it,
    the photons it emits (energy, rate, name) and its coefficients at their energies. *)
Record slab := mkSlab {
  sl_layer : layer;
  sl_comp : table;
  sl_geo : num;
  sl_mu : num;
  sl_weight : num;
  sl_em : list (num * num * string);
  sl_muj : list num }.
Definition massThickness (s : slab) : num := l_density (sl_layer s) * l_thickness (sl_layer s).
Definition muTotal (l : layer) (comp : table) (energy : num) : res num :=
  rmap (fun t => val0 t "total") (getLayerMu xl c l energy comp).

(** 213-235 *)
Fixpoint incident (energy : num) (first : bool) (tmp : num) (ls : list (layer * table * num)) : res (list slab) :=
  match ls with
  | [] => Ok []
  | (l, comp, geo) :: r =>
      rbind (muTotal l comp energy) (fun mu =>
      let s := mkSlab l comp geo mu (if first then n1 else nexp (- tmp)) [] [] in
      rmap (cons s) (incident energy false (tmp + l_density l * l_thickness l * mu / sinIn) r))
  end.

(** find(' ') and the two substr, 274-277; without a space both parts are the whole string *)
Fixpoint cutSpace (s : string) : string * option string :=
  match s with
  | EmptyString => (EmptyString, None)
  | String a r => if Ascii.eqb a " "%char then (EmptyString, Some r)
                  else let (x, y) := cutSpace r in (String a x, y)
  end.
Definition elementOf (s : string) : string := fst (cutSpace s).
Definition familyOf (s : string) : string := match snd (cutSpace s) with Some f => f | None => s end.

(** the lines of one family, 288-335 *)
Fixpoint emittedLines (minimum limit fraction weight layerWeight : num) (ele family : string) (l : lines) : res (list (num * num * string)) :=
  match l with
  | [] => Ok []
  | (line, t) :: r =>
      if String.prefix family line then
        rbind (of_opt (mfind sltb "rate" t)) (fun rate =>
        if rate * fraction <=? n0 then emittedLines minimum limit fraction weight layerWeight ele family r
        else if (limit >? n0) && (rate <? limit) then emittedLines minimum limit fraction weight layerWeight ele family r
        else rbind (of_opt (mfind sltb "energy" t)) (fun energy =>
        if energy <? minimum then emittedLines minimum limit fraction weight layerWeight ele family r
        else rmap (cons (energy, rate * fraction * weight * layerWeight, ele ++ " " ++ line))
                  (emittedLines minimum limit fraction weight layerWeight ele family r)))
      else emittedLines minimum limit fraction weight layerWeight ele family r
  end.
(** 272-337; [last], [cur]: lastEle and tmpResult *)
Fixpoint emittedFamilies (energy minimum limit weight layerWeight : num) (comp : table) (last : string) (cur : lines) (fams : list (string * num))
  : res (list (num * num * string)) :=
  match fams with
  | [] => Ok []
  | (name, _) :: r =>
      let ele := elementOf name in
      rbind (if String.eqb ele last then Ok cur else x_factors xl ele energy n1) (fun cur =>
      rbind (emittedLines minimum limit (val0 comp ele) weight layerWeight ele (familyOf name) cur) (fun a =>
      rmap (fun b => (a ++ b)%list) (emittedFamilies energy minimum limit weight layerWeight comp ele cur r)))
  end.
Definition lastOf (v : list num) : res num := of_opt (nth_error v (length v - 1)).
(** 237-341 *)
Definition emit (energy weight minimum limit : num) (s : slab) : res slab :=
  rbind (getLayerPeakFamilies xl c (sl_layer s) energy (sl_comp s)) (fun fams =>
  rbind (emittedFamilies energy minimum limit weight (sl_weight s) (sl_comp s) "dummytext" [] fams) (fun em =>
  rbind (getLayerMu_vec xl c (sl_layer s) (map (fun x => fst (fst x)) em ++ [energy])%list (sl_comp s)) (fun m =>
  rbind (lastOf (vval m "coherent")) (fun coh =>
  Ok (mkSlab (sl_layer s) (sl_comp s) (sl_geo s) (sl_mu s) (sl_weight s)
        (em ++ [(energy, (weight * sl_weight s) * coh, "coherent scattering")])%list (vval m "total")))))).

(** 343-372: std::unique and the table of coefficients *)
Fixpoint unique (l : list num) : list num :=
  match l with
  | a :: r => match r with b :: _ => if a =? b then unique r else a :: unique r | [] => [a] end
  | [] => []
  end.
Record ray_env := mkEnv {
  e_energy : num;
  e_weight : num;
  e_slabs : list slab;
  e_cacheE : list num;
  e_cache : list (list num) }.
Definition rayEnv (secondary : Z) (limit minimum : num) (base : list (layer * table * num)) (energy weight : num) : res ray_env :=
  rbind (incident energy true n0 base) (fun slabs =>
  rbind (if (0 <? secondary)%Z then rmapM (emit energy weight minimum limit) slabs else Ok slabs) (fun slabs =>
  let es := unique (sortf (flat_map (fun s => map (fun x => fst (fst x)) (sl_em s)) slabs)) in
  rbind (rmapM (fun s => rmap (fun m => vval m "total") (getLayerMu_vec xl c (sl_layer s) es (sl_comp s))) slabs) (fun cache =>
  Ok (mkEnv energy weight slabs es cache)))).

(** binary_search and lower_bound, 809-818: the position of the first element not smaller, if it is not greater *)
Fixpoint cachePos (e : num) (l : list num) : option nat :=
  match l with
  | [] => None
  | a :: r => if a <? e then option_map S (cachePos e r) else if e <? a then None else Some 0%nat
  end.
Definition muCached (env : ray_env) (k : nat) (energy : num) : res num :=
  match cachePos energy (e_cacheE env) with
  | Some p => rbind (vget (e_cache env) k) (fun v => vget v p)
  | None => rbind (vget (e_slabs env) k) (fun s => muTotal (sl_layer s) (sl_comp s) energy)
  end.
(** the layers strictly between two layers, 829-850 and 977-997 *)
Definition between (env : ray_env) (lo hi : nat) (energy : num) : res num :=
  rfold (fun acc b => rbind (vget (e_slabs env) b) (fun s => rbind (muCached env b energy) (fun m =>
           Ok (acc + massThickness s * m)))) (seq (S lo) (hi - S lo)) n0.

(** ** Local map [result] *)
Record rline := mkRline {
  r_energy : num;
  r_mu : num;
  r_eff : num;
  r_primary : num;
  r_secondary : num;
  r_rate : num }.
Local Notation results := (list (string * rline)).

(** 444-455 *)
Definition actualFamily (family : string) : string :=
  if String.eqb family "Ka" then "KL" else if String.eqb family "Kb" then "KM" else family.
(** 501-502 *)
Definition charAt (s : string) (i : nat) : ascii := match String.get i s with Some a => a | None => zero end.
Definition lineSelected (family line : string) : bool :=
  String.prefix (actualFamily family) line ||
  (String.eqb family "Kb" && Ascii.eqb (charAt line 0) "K"%char && negb (Ascii.eqb (charAt line 1) "L"%char)).

Definition nonemptyName (s : string) : bool := negb (String.eqb s "").
(** detector.hasMaterialComposition() || detector.getMaterialName().size() > 0, 569 and 1037 *)
Definition detectorDefined (d : detector) : bool := l_hasMaterial (d_layer d) || nonemptyName (l_materialName (d_layer d)).
(** detection efficiency of the energy of a line of layer number [i], 529-578 *)
Definition detectionEfficiency (env : ray_env) (i : nat) (geo : num) (d : detector) (energy : num) : res num :=
  rbind (rfold (fun a s => rmap (nmul a) (getLayerTransmission xl c (sl_layer s) energy (c_alphaOut c) (sl_comp s)))
           (rev (firstn i (e_slabs env))) n1) (fun a =>
  rbind (rfold (fun a l => rmap (nmul a) (getLayerTransmission xl c l energy (nlit 90 0) [])) (c_attenuators c) a) (fun a =>
  let a := fold_left (fun a t => a * TransmissionTable.getTransmission t energy) (c_userAttenuators c) a in
  let a := a * geo in
  if detectorDefined d && (l_density (d_layer d) >? n0) && (l_thickness (d_layer d) >? n0) then
    rmap (fun t => a * (n1 - t)) (Layer.getTransmission (x_base xl) (d_layer d) energy (nlit 90 0))
  else Ok a)).

(** the detector (a copy of the configured one, with its cache of escape peaks) and updateEscape *)
Definition escState := (detector * Z)%type.
Definition askEscape (es : escState) (energy : num) (label : string) : res (detector * escape) :=
  let (d, r) := det_getEscape lf (x_base xl) (fst es) energy label (snd es) in rmap (fun v => (d, v)) r.

(** fields of a new line, 587-595 *)
Definition newLine (eff energy threshold mu : num) : table :=
  [("efficiency", eff); ("energy", energy); ("energy_threshold", threshold); ("mu_1_i", mu);
   ("primary", n0); ("rate", n0); ("secondary", n0)].
(** the lines of the element in this layer, 499-612; [ls] is actualResult[key][iLayer] *)
Fixpoint collect (env : ray_env) (i : nat) (s : slab) (element family : string) (threshold : num) (factors : lines)
    (ls : lines) (es : escState) : res (lines * escState * results) :=
  match factors with
  | [] => Ok (ls, es, [])
  | (line, t) :: r =>
      if lineSelected family line then
        rbind (of_opt (mfind sltb "factor" t)) (fun factor =>
        if factor <=? n0 then collect env i s element family threshold r ls es
        else
          rbind (of_opt (mfind sltb "energy" t)) (fun energy =>
          rbind (of_opt (mfind sltb "rate" t)) (fun rate =>
          match mfind sltb line ls with
          | None =>
              rbind (muTotal (sl_layer s) (sl_comp s) energy) (fun mu =>
              rbind (detectionEfficiency env i (sl_geo s) (fst es) energy) (fun eff =>
              rbind (if detectorDefined (fst es)
                     then rmap (fun x => (fst x, 0%Z)) (askEscape es energy (element ++ line))
                     else Ok es) (fun es =>
              rbind (collect env i s element family threshold r (mset sltb line (newLine eff energy threshold mu) ls) es) (fun x =>
              let '(ls, es, rs) := x in Ok (ls, es, (line, mkRline energy mu eff n0 n0 n0) :: rs)))))
          | Some old =>
              rbind (collect env i s element family threshold r ls es) (fun x =>
              let '(ls, es, rs) := x in
              Ok (ls, es, (line, mkRline (val0 old "energy") (val0 old "mu_1_i") (val0 old "efficiency") n0 n0 n0) :: rs))
          end)))
      else collect env i s element family threshold r ls es
  end.

(** 618-638 *)
Definition primaryOf (s : slab) (mu1 massFactor rate : num) (mu_i : num) : num :=
  let x := mu1 / sinIn + mu_i / sinOut in
  let t := (n1 - nexp (- x * l_density (sl_layer s) * l_thickness (sl_layer s))) / x in
  let t := t * (massFactor / sinIn) in
  t * rate * sl_weight s.
Definition withPrimary (s : slab) (mu1 massFactor : num) (factors : lines) (x : string * rline) : string * rline :=
  let t := match mfind sltb (fst x) factors with Some t => t | None => [] end in
  let p := primaryOf s mu1 massFactor (val0 t "rate") (r_mu (snd x)) in
  (fst x, mkRline (r_energy (snd x)) (r_mu (snd x)) (r_eff (snd x)) p n0 (p * r_eff (snd x))).

(** ** Secondary excitation *)
(** intralayer, 702-724; the coefficient of the emitting layer at the energy of the photon is [muj] *)
Definition intraTerm (s : slab) (mu1 massFactor muj emRate rate : num) (x : rline) : res num :=
  rbind (deBoerL0 debug (mu1 / sinIn) (r_mu x / sinOut) muj (l_density (sl_layer s)) (l_thickness (sl_layer s))) (fun a =>
  rbind (if (mu1 / sinIn) =? muj
         then deBoerL0 debug (r_mu x / sinOut) (mu1 / (nlit 99999 (-5) * sinIn)) muj (l_density (sl_layer s)) (l_thickness (sl_layer s))
         else deBoerL0 debug (r_mu x / sinOut) (mu1 / sinIn) muj (l_density (sl_layer s)) (l_thickness (sl_layer s))) (fun b =>
  Ok ((a + b) * (massFactor * (nlit 5 (-1) / sinIn)) * (rate * emRate)))).
(** interlayer case a: the emitting layer [j] is below layer [i], 795-875. None: neglected *)
Definition interTermA (env : ray_env) (i j : nat) (s s2 : slab) (massFactor energy muj emRate rate : num) (x : rline) : res (option num) :=
  if rate <? nlit 1 (-30) then Ok None
  else
    rbind (muCached env i energy) (fun mu1j =>
    rbind (between env i j energy) (fun mub =>
    let t := nexp (- r_mu x * l_density (sl_layer s) * l_thickness (sl_layer s) / sinOut) in
    if t <? nlit 1 (-3) then Ok None
    else
      rbind (if (- (sl_mu s2 / sinIn)) =? muj
             then deBoerX debug (sl_mu s2 / (nlit 99999 (-5) * sinIn)) (r_mu x / sinOut) (massThickness s) (massThickness s2) mu1j muj mub
             else deBoerX debug (sl_mu s2 / sinIn) (r_mu x / sinOut) (massThickness s) (massThickness s2) mu1j muj mub) (fun X =>
      Ok (Some (t * emRate * X * (massFactor * (nlit 5 (-1) / sinIn)) * rate))))).
(** interlayer case b: the emitting layer [j] is above layer [i], 888-1009 *)
Definition interTermB (env : ray_env) (i j : nat) (s s2 : slab) (massFactor energy muj emRate rate : num) (x : rline) : res (option num) :=
  let layerFactor := nexp (- sl_mu s2 * l_density (sl_layer s2) * l_thickness (sl_layer s2) / sinIn) in
  if rate <? nlit 1 (-30) then Ok None
  else
    rbind (muCached env i energy) (fun mu1j =>
    rbind (between env j i energy) (fun mub =>
    rbind (if (sl_mu s2 / sinIn) =? muj
           then deBoerX debug (- sl_mu s2 / (nlit 99999 (-5) * sinIn)) (- r_mu x / sinOut) (massThickness s) (massThickness s2) mu1j muj mub
           else deBoerX debug (- sl_mu s2 / sinIn) (- r_mu x / sinOut) (massThickness s) (massThickness s2) mu1j muj mub) (fun X =>
    Ok (Some (layerFactor * emRate * X * (massFactor * (nlit 5 (-1) / sinIn)) * rate))))).

(** setfill('0') << setw(2) << jLayer, 725-727 *)
Definition layerNumber (j : nat) : string :=
  let s := NilZero.string_of_uint (Nat.to_uint j) in
  if Nat.ltb (String.length s) 2 then "0" ++ s else s.
(** actualResult[...][line][name] += t with creation, 728-738 *)
Definition addField (t : table) (name : string) (v : num) : table := mset sltb name (val0 t name + v) t.
Definition lineOf (ls : lines) (line : string) : table := match mfind sltb line ls with Some t => t | None => [] end.
Definition addContribution (ls : lines) (line name : string) (v : num) : lines :=
  mset sltb line (addField (lineOf ls line) name v) ls.
(** one photon of layer [j] on all the lines of the element in layer [i] *)
Fixpoint excite (term : num -> rline -> res (option num)) (name : string) (factors : lines) (rs : results) (ls : lines)
  : res (results * lines) :=
  match rs with
  | [] => Ok ([], ls)
  | (line, x) :: r =>
      rbind (match mfind sltb line factors with
             | None => Ok None
             | Some t => term (val0 t "rate") x
             end) (fun o =>
      let '(x, ls) := match o with
        | None => (x, ls)
        | Some v => (mkRline (r_energy x) (r_mu x) (r_eff x) (r_primary x) (r_secondary x + v) (r_rate x + v * r_eff x),
                     addContribution ls line name v)
        end in
      rmap (fun y => ((line, x) :: fst y, snd y)) (excite term name factors r ls))
  end.
(** excitationFactorsCache, 163-165 and 681-700 *)
Definition fcache := list (string * list (num * lines)).
Definition cachedFactors (fc : fcache) (element : string) (energy : num) : res (fcache * lines) :=
  let m := match mfind sltb element fc with Some m => m | None => [] end in
  match mfind nltb energy m with
  | Some l => Ok (fc, l)
  | None => rmap (fun l => (mset sltb element (mset nltb energy l m) fc, l)) (x_factors xl element energy n1)
  end.
(** the photons of layer [j], 673-741, 761-876, 901-1010; k: position of the photon *)
Fixpoint exciteAll (term : num -> num -> num -> num -> rline -> res (option num)) (j : nat) (s2 : slab) (element : string) (threshold : num)
    (k : nat) (em : list (num * num * string)) (fc : fcache) (rs : results) (ls : lines) : res (fcache * results * lines) :=
  match em with
  | [] => Ok (fc, rs, ls)
  | ((energy, emRate), name) :: r =>
      if threshold >? energy then exciteAll term j s2 element threshold (S k) r fc rs ls
      else
        rbind (cachedFactors fc element energy) (fun fl =>
        rbind (excite (fun rate x => rbind (vget (sl_muj s2) k) (fun muj => term energy muj emRate rate x))
                 (name ++ " " ++ layerNumber j) (snd fl) rs ls) (fun y =>
        exciteAll term j s2 element threshold (S k) r (fst fl) (fst y) (snd y)))
  end.
(** the loop over the emitting layers, 665-1025 *)
Definition secondaryTerm (env : ray_env) (i j : nat) (s s2 : slab) (mu1 massFactor : num) (energy muj emRate rate : num) (x : rline) : res (option num) :=
  if Nat.eqb i j then rmap (@Some num) (intraTerm s mu1 massFactor muj emRate rate x)
  else if Nat.ltb i j then interTermA env i j s s2 massFactor energy muj emRate rate x
  else interTermB env i j s s2 massFactor energy muj emRate rate x.
Fixpoint secondaryLoop (env : ray_env) (i : nat) (s : slab) (mu1 massFactor : num) (element : string) (threshold : num)
    (j : nat) (slabs : list slab) (fc : fcache) (rs : results) (ls : lines) : res (fcache * results * lines) :=
  match slabs with
  | [] => Ok (fc, rs, ls)
  | s2 :: r =>
      if negb (Nat.eqb i j) && (sl_weight s2 / sl_weight s <? nlit 1 (-4))
      then secondaryLoop env i s mu1 massFactor element threshold (S j) r fc rs ls
      else rbind (exciteAll (secondaryTerm env i j s s2 mu1 massFactor) j s2 element threshold 0 (sl_em s2) fc rs ls) (fun x =>
           let '(fc, rs, ls) := x in
           secondaryLoop env i s mu1 massFactor element threshold (S j) r fc rs ls)
  end.

(** ** End of the treatment of one element in one layer, 1029-1085 *)
(** one escape peak, 1050-1074 *)
Definition addEscape (line : string) (x : rline) (ls : lines) (e : string * table) : res (lines * num) :=
  let name := line ++ " " ++ fst e in
  rbind (match mfind sltb name ls with
         | Some t => Ok t
         | None => match mfind sltb "energy" (snd e) with
                   | None => Throw RuntimeError
                   | Some v => Ok [("energy", v); ("primary", n0); ("rate", n0); ("ratio", n0); ("secondary", n0)]
                   end
         end) (fun t =>
  match mfind sltb "rate" (snd e) with
  | None => Throw RuntimeError
  | Some r =>
      let t := addField t "rate" (r * r_rate x) in
      let t := mset sltb "ratio" r t in
      let t := addField t "primary" (r * r_primary x) in
      let t := addField t "secondary" (r * r_secondary x) in
      Ok (mset sltb name t ls, r)
  end).
Fixpoint addEscapes (line : string) (x : rline) (l : escape) (ls : lines) (total : num) : res (lines * num) :=
  match l with
  | [] => Ok (ls, total)
  | e :: r => rbind (addEscape line x ls e) (fun y => addEscapes line x r (fst y) (total + snd y))
  end.
(** one line, 1031-1084 *)
Definition finishLine (element : string) (massFraction : num) (ls : lines) (es : escState) (lx : string * rline) : res (lines * escState) :=
  let (line, x) := lx in
  rbind (if detectorDefined (fst es)
         then rbind (askEscape es (r_energy x) (element ++ line)) (fun y =>
              rmap (fun z => (z, (fst y, match snd y with [] => snd es | _ => 0%Z end))) (addEscapes line x (snd y) ls n0))
         else Ok ((ls, n0), es)) (fun y =>
  let '((ls, total), es) := y in
  let t := lineOf ls line in
  let t := addField t "rate" ((n1 - total) * r_rate x) in
  let t := addField t "primary" (r_primary x) in
  let t := addField t "secondary" (r_secondary x) in
  let t := mset sltb "massFraction" massFraction t in
  Ok (mset sltb line t ls, es)).

(** ** The calculation *)
Definition table3 := list (string * list (nat * lines)).   (* actualResult *)
Definition layerTable (ar : table3) (key : string) (i : nat) : lines :=
  match mfind sltb key ar with
  | Some m => match mfind Nat.ltb i m with Some ls => ls | None => [] end
  | None => []
  end.
Definition putTable (ar : table3) (key : string) (i : nat) (ls : lines) : table3 :=
  let m := match mfind sltb key ar with Some m => m | None => [] end in
  mset sltb key (mset Nat.ltb i ls m) ar.
Record state := mkState {
  st_ar : table3;
  st_esc : escState;
  st_fc : fcache;
  st_thr : list num }.

(** one element in one layer, 469-1086 *)
Definition elementLayer (secondary useMassFractions : Z) (env : ray_env) (element family : string) (calculationLayer : Z) (threshold : num)
    (factors : lines) (i : nat) (s : slab) (st : state) : res state :=
  if (0 <=? calculationLayer)%Z && negb (Z.of_nat i =? calculationLayer)%Z then Ok st
  else
    let massFraction := val0 (sl_comp s) element in
    let massFactor := if (useMassFractions =? 0)%Z then n1 else massFraction in
    if massFactor =? n0 then Ok st
    else
      let key := element ++ " " ++ family in
      rbind (collect env i s element family threshold factors (layerTable (st_ar st) key i) (st_esc st)) (fun x =>
      let '(ls, es, rs) := x in
      match rs with
      | [] => Ok (mkState (st_ar st) es (st_fc st) (st_thr st))
      | _ =>
          rbind (muTotal (sl_layer s) (sl_comp s) (e_energy env)) (fun mu1 =>
          let rs := map (withPrimary s mu1 massFactor factors) rs in
          rbind (if (0 <? secondary)%Z
                 then secondaryLoop env i s mu1 massFactor element threshold 0 (e_slabs env) (st_fc st) rs ls
                 else Ok (st_fc st, rs, ls)) (fun y =>
          let '(fc, rs, ls) := y in
          rbind (rfold (fun a lx => finishLine element massFraction (fst a) (snd a) lx) rs (ls, es)) (fun a =>
          Ok (mkState (putTable (st_ar st) key i (fst a)) (snd a) fc (st_thr st)))))
      end).
Fixpoint elementLayers secondary useMassFractions (env : ray_env) element family calculationLayer threshold factors
    (i : nat) (slabs : list slab) (st : state) : res state :=
  match slabs with
  | [] => Ok st
  | s :: r => rbind (elementLayer secondary useMassFractions env element family calculationLayer threshold factors i s st) (fun st =>
              elementLayers secondary useMassFractions env element family calculationLayer threshold factors (S i) r st)
  end.

Variables (elementList familyList : list string) (layerList : list Z).
Variables (secondary useGeometricEfficiency useMassFractions : Z) (limit : num).

(** element number [n], 420-1087 *)
Definition elementStep (env : ray_env) (st : state) (n : nat) (element : string) : res state :=
  rbind (vget familyList n) (fun family =>
  rbind (if Nat.ltb 1 (length layerList) then vget layerList n else vget layerList 0) (fun calculationLayer =>
  if String.eqb (actualFamily family) "" then Throw RuntimeError
  else
    rbind (match nth_error (st_thr st) n with
           | Some t => Ok (t, st)
           | None => rmap (fun t => (t, mkState (st_ar st) (st_esc st) (st_fc st) (st_thr st ++ [t])%list))
                          (getEnergyThreshold xl element (String.substring 0 1 (actualFamily family)))
           end) (fun ts =>
    let '(threshold, st) := ts in
    if threshold >? e_energy env then Ok st
    else
      rbind (x_factors xl element (e_energy env) (e_weight env)) (fun factors =>
      elementLayers secondary useMassFractions env element family calculationLayer threshold factors 0 (e_slabs env) st)))).
Fixpoint elementSteps (env : ray_env) (n : nat) (l : list string) (st : state) : res state :=
  match l with
  | [] => Ok st
  | element :: r => rbind (elementStep env st n element) (fun st => elementSteps env (S n) r st)
  end.

(** 199-208 *)
Definition minimumOf (minimum : num) (thresholds : list num) : num :=
  if minimum <? n0 then fold_left (fun m t => if (t <? m) || (m <? n0) then t else m) thresholds minimum else minimum.
(** one turn of the loop over the rays, 195-1088; the state is completed with minimumExcitationEnergy *)
Definition rayStep (base : list (layer * table * num)) (a : state * num) (ray : num * num) : res (state * num) :=
  let (st, minimum) := a in
  let minimum := minimumOf minimum (st_thr st) in
  if fst ray <? minimum then Ok (st, minimum)
  else rbind (rayEnv secondary limit minimum base (fst ray) (snd ray)) (fun env =>
       rmap (fun st => (st, minimum)) (elementSteps env 0 elementList st)).

(** ** Tertiary excitation, 1089-1207 *)
(** [for (iLayer = 0; iLayer < m.size(); iLayer++) ... m[iLayer] ...]: absent layers are created *)
Fixpoint touchLayers (fuel i : nat) (m : list (nat * lines)) : res (list (nat * lines)) :=
  if Nat.ltb i (length m) then
    match fuel with
    | O => Diverge
    | S fuel => touchLayers fuel (S i) (match mfind Nat.ltb i m with Some _ => m | None => mset Nat.ltb i [] m end)
    end
  else Ok m.
Definition layerBound (m : list (nat * lines)) : nat := S (fold_right Nat.max 0%nat (map fst m)).
Definition touched (m : list (nat * lines)) : res (list (nat * lines)) := touchLayers (length m + layerBound m) 0 m.

Fixpoint contains (p s : string) : bool :=
  String.prefix p s || match s with EmptyString => false | String _ r => contains p r end.
Definition isEscape (line : string) : bool := contains "esc" line.
Definition excitationRatio (t : table) : num :=
  if val0 t "primary" >? n0 then (val0 t "primary" + val0 t "secondary") / val0 t "primary" else n1.
(** the lines of one layer, 1117-1152 *)
Fixpoint contributing (ele : string) (i : nat) (l : lines) (acc : table) : table :=
  match l with
  | [] => acc
  | (line, t) :: r =>
      if isEscape line then contributing ele i r acc
      else if val0 t "massFraction" <? nlit 5 (-3) then acc
      else if excitationRatio t <? nlit 101 (-2) then contributing ele i r acc
      else contributing ele i r (mset sltb (ele ++ " " ++ line ++ " " ++ layerNumber i) (excitationRatio t) acc)
  end.
Definition contributingAll (ar : table3) : table :=
  fold_left (fun acc km => fold_left (fun acc il => contributing (elementOf (fst km)) (fst il) (snd il) acc) (snd km) acc) ar [].
(** one line, 1160-1202 *)
Definition tertiarySum (keys t : table) : num :=
  fold_left (fun a kf => match mfind sltb (fst kf) t with Some v => a + v * (snd kf - n1) | None => a end) keys n0.
Definition tertiaryLine (keys : table) (ls : lines) (line : string) : lines :=
  let t := lineOf ls line in
  let ps := val0 t "primary" + val0 t "secondary" in
  if excitationRatio t <? nlit 101 (-2) then mset sltb line (mset sltb "tertiary" n0 t) ls
  else
    let tertiary :=
      if isEscape line then
        let p := lineOf ls (elementOf line) in
        ps * (val0 p "tertiary" / (val0 p "primary" + val0 p "secondary"))
      else tertiarySum keys t in
    let t := mset sltb "tertiary" tertiary t in
    mset sltb line (mset sltb "rate" (val0 t "rate" * ((tertiary + val0 t "primary" + val0 t "secondary") / ps)) t) ls.
Definition tertiaryLayer (keys : table) (ls : lines) : lines := fold_left (tertiaryLine keys) (map fst ls) ls.
Definition tertiary (ar : table3) : res table3 :=
  rbind (rmapM (fun km => rmap (fun m => (fst km, m)) (touched (snd km))) ar) (fun ar =>
  let keys := contributingAll ar in
  Ok (map (fun km => (fst km, map (fun il => (fst il, tertiaryLayer keys (snd il))) (snd km))) ar)).

(** the whole function, 40-1212; [overwriting]: the last argument, an empty beam by default *)
Definition getMultilayerFluorescence (overwriting : @beam N) : res table3 :=
  let rays := match b_rays overwriting with [] => b_rays (c_beam c) | r => r end in
  let energies := map Beam.r_energy rays in
  rbind (rmapM (getLayerComposition xl c) (c_sample c)) (fun comps =>
  rbind (filteredWeights energies (map Beam.r_weight rays)) (fun weights =>
  rbind (geometricEfficiencies useGeometricEfficiency) (fun geo =>
  let base := combine (combine (c_sample c) comps) geo in
  rbind (rfold (rayStep base) (rev (combine energies weights)) (mkState [] (c_detector c, 1%Z) [] [], nlit (-1) 0)) (fun a =>
  if (1 <? secondary)%Z then tertiary (st_ar (fst a)) else Ok (st_ar (fst a)))))).

End Multilayer.

Section Wrappers.
Context {N : Num}.
Variable sortf : list num -> list num.
Variables debug lf : bool.

(** the overload for one element, fisx_xrf.cpp 195-225 *)
Definition getMultilayerFluorescence_one (xl : @xlib N) (c : @config N) (element : string) (layer : Z) (family : string)
    (secondary useGeometricEfficiency useMassFractions : Z) (limit : num) (overwriting : @beam N) : res (@table3 N) :=
  if String.eqb family "" then Throw InvalidArgument
  else if (layer <? 0)%Z then Throw InvalidArgument
  else getMultilayerFluorescence sortf debug lf xl c [element] [family] [layer] secondary useGeometricEfficiency useMassFractions limit overwriting.

(** SimpleIni::stringConverter<int>, fisx_simpleini.h 125-135: operator>> skips white space, reads an optional sign
    and decimal digits; it fails without digits or outside the range of int *)
Fixpoint digitsOf (t : text) : list nat :=
  match t with c :: r => if isdigit c then (code c - 48)%nat :: digitsOf r else [] | [] => [] end.
Definition readInt (t : text) : option Z :=
  let t := lstrip isspace t in
  let '(neg, t) := match t with
    | c :: r => if Ascii.eqb c "-"%char then (true, r) else if Ascii.eqb c "+"%char then (false, r) else (false, t)
    | [] => (false, t)
    end in
  match digitsOf t with
  | [] => None
  | ds => let v := fold_left (fun a d => (10 * a + Z.of_nat d)%Z) ds 0%Z in
          let v := if neg then (- v)%Z else v in
          if (v <? -2147483648)%Z || (2147483647 <? v)%Z then None else Some v
  end.
(** one key "Cr", "Cr K" or "Cr K 0", fisx_xrf.cpp 414-441; other numbers of words leave the
    initial values "" "" 0 *)
Definition parseKey (s : string) : res (string * string * Z) :=
  match parseStringAsMultipleValues (list_ascii_of_string s) [] " "%char with
  | [e; f; l] => match readInt l with
                 | Some i => Ok (string_of_list_ascii e, string_of_list_ascii f, i)
                 | None => Throw InvalidArgument
                 end
  | [e; f] => Ok (string_of_list_ascii e, string_of_list_ascii f, (-1)%Z)
  | [e] => Ok (string_of_list_ascii e, "", (-1)%Z)
  | _ => Ok ("", "", 0%Z)
  end.
(** the overload for a list of keys, fisx_xrf.cpp 395-446 *)
Definition getMultilayerFluorescence_keys (xl : @xlib N) (c : @config N) (keys : list string)
    (secondary useGeometricEfficiency useMassFractions : Z) (limit : num) (overwriting : @beam N) : res (@table3 N) :=
  rbind (rmapM parseKey keys) (fun l =>
  getMultilayerFluorescence sortf debug lf xl c (map (fun x => fst (fst x)) l) (map (fun x => snd (fst x)) l) (map snd l)
    secondary useGeometricEfficiency useMassFractions limit overwriting).
End Wrappers.
