(** Model of class Element (src/fisx_element.h, src/fisx_element.cpp).
    Printing is not modelled. Every assignment m[k] = f(...) into a cache is modelled with the
    flag [lf]: true when the implementation evaluates m[k] before f(...) (allowed before C++17:
    when f throws, a default entry stays), false when f(...) comes first (C++17). The same
    order question in setBindingEnergies (163) is modelled with the C++17 order only. *)
From Coq Require Import Ascii String List ZArith Bool.
From Verif Require Import Base.Num Base.Res Base.RSum Base.SMap Base.Str Model.Shell.
Import ListNotations.
Set Implicit Arguments.
Local Open Scope string_scope.
Local Open Scope num_scope.

Section Element.
Context {N : Num}.
Local Notation table := (list (string * num)).            (* std::map<std::string, double> *)
Local Notation vtable := (list (string * list num)).      (* std::map<std::string, std::vector<double> > *)
Local Notation lines := (list (string * list (string * num))).  (* map<string, map<string, double> > *)

(** data members, fisx_element.h 352-407 *)
Record element := mkElement {
  el_name : string;
  el_longName : string;
  el_z : Z;
  el_mass : option num;                    (* atomicMass, uninitialised by the constructors *)
  el_density : num;
  el_column : Z;
  el_row : Z;
  el_binding : table;                      (* bindingEnergy *)
  el_shells : list (string * shell);       (* shellInstance *)
  el_mu : vtable;                          (* mu *)
  el_muE : list num;                       (* muEnergy *)
  el_ppE : vtable;                         (* muPartialPhotoelectricEnergy *)
  el_ppV : vtable;                         (* muPartialPhotoelectricValue *)
  el_cascFlag : bool;                      (* cascadeCacheEnabledFlag *)
  el_cascCache : list (string * lines);    (* cascadeCache *)
  el_cacheFlag : bool;                     (* calculationCacheEnabledFlag *)
  el_muCache : list (num * table);         (* muCache *)
  el_exCache : list (num * lines) }.       (* excitationFactorsCache *)

(** cacheMaximumSize, fisx_element.h 407 *)
Definition cacheMaximumSize : nat := N.to_nat 10000.

(** the arrays keys[9] and shellList[10] of the functions below *)
Definition shellKeys : list string := ["K"; "L1"; "L2"; "L3"; "M1"; "M2"; "M3"; "M4"; "M5"].
Definition photoShells : list string := (shellKeys ++ ["all other"])%list.

(** initPartialPhotoelectricCoefficients on a new object, fisx_element.cpp 602-615 *)
Definition emptyPartials : vtable := mset_all sltb (map (fun k => (k, [])) photoShells) [].

(** Element::Element(), fisx_element.cpp 38-64 *)
Definition element_default : element :=
  mkElement "Unknown" "Unknown" 0 None n1 (-1)%Z (-1)%Z [] [] [] [] emptyPartials emptyPartials false [] false [] [].
(** Element::Element(name, z), fisx_element.cpp 66-90 with setAtomicNumber 1483-1491 *)
Definition element_new (name : string) (z : Z) : res element :=
  if (z <? 1)%Z then Throw InvalidArgument
  else Ok (mkElement name name z None n1 (-1)%Z (-1)%Z [] [] [] [] emptyPartials emptyPartials false [] false [] []).

(** record updates *)
Definition with_binding (e : element) b := mkElement (el_name e) (el_longName e) (el_z e) (el_mass e) (el_density e)
  (el_column e) (el_row e) b (el_shells e) (el_mu e) (el_muE e) (el_ppE e) (el_ppV e) (el_cascFlag e) (el_cascCache e)
  (el_cacheFlag e) (el_muCache e) (el_exCache e).
Definition with_shells (e : element) s := mkElement (el_name e) (el_longName e) (el_z e) (el_mass e) (el_density e)
  (el_column e) (el_row e) (el_binding e) s (el_mu e) (el_muE e) (el_ppE e) (el_ppV e) (el_cascFlag e) (el_cascCache e)
  (el_cacheFlag e) (el_muCache e) (el_exCache e).
Definition with_mu (e : element) m grid := mkElement (el_name e) (el_longName e) (el_z e) (el_mass e) (el_density e)
  (el_column e) (el_row e) (el_binding e) (el_shells e) m grid (el_ppE e) (el_ppV e) (el_cascFlag e) (el_cascCache e)
  (el_cacheFlag e) (el_muCache e) (el_exCache e).
Definition with_pp (e : element) a b := mkElement (el_name e) (el_longName e) (el_z e) (el_mass e) (el_density e)
  (el_column e) (el_row e) (el_binding e) (el_shells e) (el_mu e) (el_muE e) a b (el_cascFlag e) (el_cascCache e)
  (el_cacheFlag e) (el_muCache e) (el_exCache e).
Definition with_casc (e : element) f c := mkElement (el_name e) (el_longName e) (el_z e) (el_mass e) (el_density e)
  (el_column e) (el_row e) (el_binding e) (el_shells e) (el_mu e) (el_muE e) (el_ppE e) (el_ppV e) f c
  (el_cacheFlag e) (el_muCache e) (el_exCache e).
Definition with_cache (e : element) f a b := mkElement (el_name e) (el_longName e) (el_z e) (el_mass e) (el_density e)
  (el_column e) (el_row e) (el_binding e) (el_shells e) (el_mu e) (el_muE e) (el_ppE e) (el_ppV e) (el_cascFlag e) (el_cascCache e)
  f a b.
Definition with_info (e : element) name long z mass dens col row := mkElement name long z mass dens col row
  (el_binding e) (el_shells e) (el_mu e) (el_muE e) (el_ppE e) (el_ppV e) (el_cascFlag e) (el_cascCache e)
  (el_cacheFlag e) (el_muCache e) (el_exCache e).

(** plain setters, fisx_element.cpp 92-140, 1464-1497 *)
Definition setName (e : element) s := with_info e s (el_longName e) (el_z e) (el_mass e) (el_density e) (el_column e) (el_row e).
Definition setLongName (e : element) s := with_info e (el_name e) s (el_z e) (el_mass e) (el_density e) (el_column e) (el_row e).
Definition setDensity (e : element) d := with_info e (el_name e) (el_longName e) (el_z e) (el_mass e) d (el_column e) (el_row e).
Definition setColumn (e : element) c := with_info e (el_name e) (el_longName e) (el_z e) (el_mass e) (el_density e) c (el_row e).
Definition setRow (e : element) r := with_info e (el_name e) (el_longName e) (el_z e) (el_mass e) (el_density e) (el_column e) r.
Definition setAtomicMass (e : element) (A : num) : element * res unit :=
  if A <? n0 then (e, Throw InvalidArgument)
  else (with_info e (el_name e) (el_longName e) (el_z e) (Some A) (el_density e) (el_column e) (el_row e), Ok tt).
Definition setAtomicNumber (e : element) (z : Z) : element * res unit :=
  if (z <? 1)%Z then (e, Throw InvalidArgument)
  else (with_info e (el_name e) (el_longName e) z (el_mass e) (el_density e) (el_column e) (el_row e), Ok tt).
(** reading the mass before it was set is undefined *)
Definition getAtomicMass (e : element) : res num := of_opt (el_mass e).

(** caches, fisx_element.cpp 1642-1679 *)
Definition emptyCascadeCache (e : element) : element := with_casc e (el_cascFlag e) [].
Definition setCacheEnabled (e : element) (flag : Z) : element :=
  with_cache e (negb (flag =? 0)%Z) (el_muCache e) (el_exCache e).
Definition clearCache (e : element) : element := with_cache e (el_cacheFlag e) [] [].

(** Element::setBindingEnergies(map), fisx_element.cpp 144-174 *)
Definition isKLM (k : string) : bool :=
  let f := substring 0 1 k in String.eqb f "K" || String.eqb f "L" || String.eqb f "M".
Fixpoint bindingLoop (l : table) (b : table) (s : list (string * shell)) : table * list (string * shell) * res unit :=
  match l with
  | [] => (b, s, Ok tt)
  | (k, v) :: l' =>
      let b := mset sltb k v b in
      if isKLM k && negb (mmem sltb k s) then
        match shell_new k with
        | Ok sh => bindingLoop l' b (mset sltb k sh s)
        | Throw x => (b, s, Throw x)
        | UB => (b, s, UB)
        | Diverge => (b, s, Diverge)
        end
      else bindingLoop l' b s
  end.
Definition setBindingEnergies (e : element) (l : table) : element * res unit :=
  let '(b, s, r) := bindingLoop l [] [] in (with_shells (with_binding e b) s, r).
(** vector overload, 176-194 *)
Definition setBindingEnergies_vec (e : element) (labels : list string) (energies : list num) : element * res unit :=
  if negb (Nat.eqb (length labels) (length energies)) then (e, Throw InvalidArgument)
  else setBindingEnergies e (mset_all sltb (combine labels energies) []).
Definition getBindingEnergies (e : element) : table := el_binding e.

(** checks of ascending order, 253-266 and 635-648 *)
Fixpoint not_ascending (last : num) (l : list num) : bool :=
  match l with
  | [] => false
  | x :: r => (x <? last) || not_ascending x r
  end.
Fixpoint zip_total (c k p f : list num) : list num :=
  match c, k, p, f with
  | c :: cs, k :: ks, p :: ps, f :: fs => (c + ((k + p) + f)) :: zip_total cs ks ps fs
  | _, _, _, _ => []
  end.
(** Element::setMassAttenuationCoefficients, fisx_element.cpp 215-304 *)
Definition setMassAttenuationCoefficients (e : element) (energies photo coherent compton pair : list num) : element * res unit :=
  let n := length energies in
  if negb (Nat.eqb (length photo) n) then (e, Throw InvalidArgument)
  else if negb (Nat.eqb (length compton) n) then (e, Throw InvalidArgument)
  else if negb (Nat.eqb (length coherent) n) then (e, Throw InvalidArgument)
  else if Nat.ltb 0 (length pair) && negb (Nat.eqb (length pair) n) then (e, Throw InvalidArgument)
  else if (match energies with [] => false | x :: r => not_ascending x r end) then (e, Throw InvalidArgument)
  else
    let pair := if Nat.ltb 0 (length pair) then pair else repeat n0 n in
    (with_mu (clearCache e)
       [("coherent", coherent); ("compton", compton); ("energy", energies); ("pair", pair);
        ("photoelectric", photo); ("total", zip_total coherent compton pair photo)] energies, Ok tt).
(** setTotalMassAttenuationCoefficient, 306-318 *)
Definition setTotalMassAttenuationCoefficient (e : element) (energies total : list num) : element * res unit := (e, Throw RuntimeError).
(** getMassAttenuationCoefficients(), 320-324 *)
Definition getMassAttenuationCoefficients_all (e : element) : vtable := el_mu e.

(** std::lower_bound on an ascending vector: the number of leading elements smaller than x.
    (Standard contract: the vector is partitioned with respect to x; the bisection itself is not
    modelled. A grid of partial coefficients perturbed by 1e-6 at line 671 may violate it.) *)
Fixpoint lower_bound (v : list num) (x : num) : nat :=
  match v with
  | [] => 0
  | y :: r => if y <? x then S (lower_bound r x) else 0
  end.
(** Element::getInterpolationIndices, fisx_element.cpp 1565-1596 *)
Definition getInterpolationIndices (v : list num) (x : num) : Z * Z :=
  let i := lower_bound v x in
  if Nat.eqb i (length v) then (Z.of_nat (length v) - 2, Z.of_nat (length v) - 1)%Z
  else if Nat.ltb 0 i then (Z.of_nat i - 1, Z.of_nat i)%Z
  else (0, 1)%Z.

Definition zget {A} (v : list A) (i : Z) : res A := if (i <? 0)%Z then UB else vget v (Z.to_nat i).
(** v[i+1] == x inside the vector *)
Definition next_equal (v : list num) (i : Z) (x : num) : bool :=
  match zget v (i + 1)%Z with Ok y => y =? x | _ => false end.
(** lines 365-391 and 722-757: indices, end points and the shift on a repeated energy *)
Definition bracket (v : list num) (energy : num) : res (Z * Z * num * num) :=
  let (i1, i2) := getInterpolationIndices v energy in
  rbind (zget v i1) (fun x0 =>
  rbind (zget v i2) (fun x1 =>
  if (energy =? x1) && next_equal v i2 x1
  then rbind (zget v (i2 + 1)%Z) (fun x2 => Ok (i2, i2 + 1, x1, x2))%Z
  else Ok (i1, i2, x0, x1))).
(** B = 1 / log(x1/x0); A = log(x1/E) * B; B *= log(E/x0); exp(A*log(y0) + B*log(y1)) *)
Definition coefB (E x0 x1 : num) : num := (n1 / nlog (x1 / x0)) * nlog (E / x0).
Definition coefA (E x0 x1 : num) : num := nlog (x1 / E) * (n1 / nlog (x1 / x0)).
Definition loglog (E x0 x1 y0 y1 : num) : num := nexp (coefA E x0 x1 * nlog y0 + coefB E x0 x1 * nlog y1).

(** index of the first element not <= 0 from position i, loop 785 and 846 *)
Fixpoint first_positive_from (y : list num) (i : nat) : res nat :=
  match y with
  | [] => UB
  | v :: r => match i with
              | O => if v <=? n0 then rmap S (first_positive_from r 0) else Ok O
              | S i' => rmap S (first_positive_from r i')
              end
  end.

(** value for one K, L or M shell, 760-862 *)
Definition partialShell (grid y : list num) (energy : num) : res num :=
  rbind (bracket grid energy) (fun '(i1, i2, x0, x1) =>
  if (Z.eqb i1 i2) || (x1 - x0 <? nlit 5%Z (-10)%Z) then
    rbind (zget y i1) (fun y0 =>
    if y0 >? n0 then Ok y0 else
    rbind (zget y i2) (fun y1 =>
    if (x1 - x0 <? nlit 5%Z (-10)%Z) && (y1 >? n0) then Ok y1 else
    rbind (first_positive_from y (Z.to_nat i1)) (fun j =>
    rbind (vget y j) (fun y0 => rbind (vget y (S j)) (fun y1 =>
    rbind (vget grid j) (fun x0w => rbind (vget grid (S j)) (fun x1w =>
    Ok (loglog energy x0w x1w y0 y1))))))))
  else
    rbind (zget y i1) (fun y0 => rbind (zget y i2) (fun y1 =>
    if y0 >? n0 then Ok (loglog energy x0 x1 y0 y1) else
    rbind (first_positive_from y (Z.to_nat i1)) (fun j =>
    rbind (vget grid j) (fun x0w => rbind (vget grid (S j)) (fun x1w =>
    let j := if x1w - x0w <? nlit 1 (-10) then S j else j in
    rbind (vget grid j) (fun x0w => rbind (vget grid (S j)) (fun x1w =>
    rbind (vget y j) (fun y0 => rbind (vget y (S j)) (fun y1 =>
    Ok (nexp (nlog y0 + (nlog (y1 / y0) / nlog (x1w / x0w)) * nlog (energy / x0w))))))))))))).
(** value for "all other", 762-765 and 807-826; also coherent, compton and pair, 397-438,
    where case a reads index i1 instead of i2 *)
Definition otherValue (first : bool) (grid y : list num) (energy : num) : res num :=
  rbind (bracket grid energy) (fun '(i1, i2, x0, x1) =>
  if (Z.eqb i1 i2) || (x1 - x0 <? nlit 5%Z (-10)%Z) then zget y (if first then i1 else i2)
  else
    rbind (zget y i1) (fun y0 => rbind (zget y i2) (fun y1 =>
    if (y0 >? n0) && (y1 >? n0) then Ok (loglog energy x0 x1 y0 y1)
    else if (y1 >? n0) && (energy - x0 >? nlit 1 (-5)) then Ok (nexp (coefB energy x0 x1 * nlog y1))
    else Ok n0))).
Definition finite_or (r : res num) : res num :=
  rbind r (fun v => if nfinite v then Ok v else Throw RuntimeError).
Definition vlookup (k : string) (m : vtable) : res (list num) := of_opt (mfind sltb k m).
(** one turn of the loop 705-884 *)
Definition partialValue (e : element) (energy : num) (shell : string) : res num :=
  if String.eqb shell "all other" then
    rbind (vlookup shell (el_ppE e)) (fun grid => rbind (vlookup shell (el_ppV e)) (fun y =>
    finite_or (otherValue false grid y energy)))
  else
    rbind (of_opt (mfind sltb shell (el_binding e))) (fun b =>     (* end()->second when absent *)
    if (b =? n0) || (energy <? b) then Ok n0 else
    rbind (vlookup shell (el_ppE e)) (fun grid => rbind (vlookup shell (el_ppV e)) (fun y =>
    finite_or (partialShell grid y energy)))).
(** Element::getPartialPhotoelectricMassAttenuationCoefficients, fisx_element.cpp 682-885;
    the map muPartialPhotoelectricEnergy is never empty after construction *)
Definition getPartialPhotoelectric (e : element) (energy : num) : res table :=
  rbind (rmapM (fun s => rbind (partialValue e energy s) (fun v => Ok (s, v))) photoShells)
        (fun l => Ok (mset_all sltb l [])).

(** m[k] read through operator[]: the entry is created with value 0 *)
Definition mtouch (m : table) (k : string) : table := if mmem sltb k m then m else mset sltb k n0 m.
Definition val0 (m : table) (k : string) : num := match mfind sltb k m with Some v => v | None => n0 end.

(** the computation of lines 349-463, without the cache *)
Definition computeMu (e : element) (energy : num) : res table :=
  rbind (if existsb (fun kv => Nat.ltb 0 (length (snd kv))) (el_ppE e)
         then getPartialPhotoelectric e energy else Ok []) (fun part =>
  rbind (rmapM (fun k => rbind (vlookup k (el_mu e)) (fun y =>
                 rbind (otherValue true (el_muE e) y energy) (fun v => Ok (k, v))))
               ["coherent"; "compton"; "pair"]) (fun scat =>
  let r := mset_all sltb (("energy", energy) :: scat) part in
  let r := fold_left mtouch photoShells r in
  let v := val0 r in
  let photo := v "K" + v "L1" + v "L2" + v "L3" + (v "M1" + v "M2" + v "M3" + v "M4" + v "M5" + v "all other") in
  let r := mset sltb "photoelectric" photo r in
  let total := photo + v "coherent" + v "compton" + v "pair" in
  if nfinite total then Ok (mset sltb "total" total r) else Throw RuntimeError)).
(** Element::getMassAttenuationCoefficients(energy), fisx_element.cpp 326-464 *)
Definition getMassAttenuationCoefficients (e : element) (energy : num) : res table :=
  if Nat.ltb (length (el_muE e)) 1 then Throw RuntimeError else
  match (if el_cacheFlag e then mfind nltb energy (el_muCache e) else None) with
  | Some t => Ok t
  | None => computeMu e energy
  end.
(** vector overload, 466-494. When every table has the keys of the first one, result[k] is the
    vector of the k values; a key of a later table that the first lacks would be written
    through an empty vector. *)
Definition getMassAttenuationCoefficients_vec (e : element) (energies : list num) : res vtable :=
  rbind (rmapM (getMassAttenuationCoefficients e) energies) (fun ts =>
  match ts with
  | [] => Ok []
  | t0 :: _ =>
      if forallb (fun t => forallb (fun kv => mmem sltb (fst kv) t0) t) ts
      then Ok (map (fun kv => (fst kv, map (fun t => val0 t (fst kv)) ts)) t0)
      else UB
  end).

(** Element::extractEdgeEnergiesFromMassAttenuationCoefficients, fisx_element.cpp 496-598 *)
Definition nabs' (x : num) : num := if x <? n0 then - x else x.   (* fabs *)
Fixpoint edgeCandidates (i : Z) (es ps : list num) (m : list (num * Z)) : list (num * Z) :=
  match es, ps with
  | e0 :: ((e1 :: _) as es'), p0 :: ((p1 :: _) as ps') =>
      edgeCandidates (i + 1)%Z es' ps' (if (e0 =? e1) && (p0 <? p1) then mset nltb e0 i m else m)
  | _, _ => m
  end.
(** loop 563-583: the candidates from the highest energy down against K, L1, ..., M5 *)
Fixpoint edgeLoop (cands : list (num * Z)) (keys : list string) (b : table) (out : list (string * (num * Z)))
  : table * list (string * (num * Z)) :=
  match cands, keys with
  | (en, i) :: cands', k :: keys' =>
      let b := mtouch b k in
      let be := val0 b k in
      let out := if (be >? n0) && (nabs' (en - be) <? nlit 1 (-1)) then mset sltb k (en, i) out else out in
      edgeLoop cands' keys' b out
  | _, _ => (b, out)
  end.
Definition extractEdges_from (e : element) (muE muP : list num) : element * res (list (string * (num * Z))) :=
  if Nat.ltb (length muP) 1 then (e, Throw RuntimeError)
  else if Nat.ltb (length muE) 1 then (e, Throw RuntimeError)
  else if negb (Nat.eqb (length muE) (length muP)) then (e, Throw RuntimeError)
  else if Nat.ltb (length (el_binding e)) 1 then (e, Throw RuntimeError)
  else
    let cands := edgeCandidates 0 muE muP [] in
    let (b, out) := edgeLoop (rev cands) shellKeys (el_binding e) [] in
    (with_binding e b, Ok out).
(** 496-505: mu["..."] creates the missing vectors *)
Definition extractEdges (e : element) : element * res (list (string * (num * Z))) :=
  let e1 := if mmem sltb "photoelectric" (el_mu e) then e else with_mu e (mset sltb "photoelectric" [] (el_mu e)) (el_muE e) in
  match mfind sltb "photoelectric" (el_mu e1) with
  | Some ((_ :: _) as p) =>
      match mfind sltb "energy" (el_mu e1) with
      | Some en => extractEdges_from e1 en p
      | None => let e2 := with_mu e1 (mset sltb "energy" [] (el_mu e1)) (el_muE e1) in extractEdges_from e2 [] p
      end
  | _ => (e1, Throw RuntimeError)
  end.

(** Element::setPartialPhotoelectricMassAttenuationCoefficients, fisx_element.cpp 617-680 *)
(** the loop 659-676, from the previous point (pe, pv) *)
Fixpoint edgeFix (b pe pv : num) (l : list (num * num)) : list (num * num) :=
  match l with
  | [] => [(pe, pv)]
  | (e, v) :: r =>
      if e <? b then (pe, pv) :: edgeFix b e n0 r
      else if e =? pe then (pe, v) :: edgeFix b (e + nlit 1 (-6)) v r
      else (pe, pv) :: edgeFix b e v r
  end.
Definition setPartialPhotoelectric (e : element) (shell : string) (energy value : list num) : element * res unit :=
  if negb (mmem sltb shell (el_ppE e)) then (e, Throw InvalidArgument)
  else if negb (Nat.eqb (length energy) (length value)) then (e, Throw InvalidArgument)
  else if not_ascending n0 energy then (e, Throw InvalidArgument)
  else
    let e := clearCache e in
    let put g v := with_pp e (mset sltb shell g (el_ppE e)) (mset sltb shell v (el_ppV e)) in
    if String.eqb shell "all other" then (put energy value, Ok tt)
    else match combine energy value with
    | (e0, v0) :: ((_ :: _) as l) =>
        let b := mtouch (el_binding e) shell in
        let fixed := edgeFix (val0 b shell) e0 v0 l in
        (with_binding (put (map fst fixed) (map snd fixed)) b, Ok tt)
    | _ => (put energy value, Ok tt)
    end.

(** Element::getExcitedShells, fisx_element.cpp 887-907 *)
Definition getExcitedShells (e : element) (energy : num) : list string :=
  map fst (filter (fun kv => (snd kv >? n0) && (energy >? snd kv)) (el_binding e)).

(** Element::getInitialPhotoelectricVacancyDistribution, fisx_element.cpp 938-963 *)
Definition vacancies (t : table) : table :=
  let total := val0 t "photoelectric" in
  mset_all sltb (map (fun s => (s, if total >? n0 then val0 t s / total else n0)) photoShells) [].
Definition getInitialPhotoelectricVacancyDistribution (e : element) (energy : num) : res table :=
  rmap vacancies (getMassAttenuationCoefficients e energy).
(** vector overload, 909-936. tmpMap[key][j] of a missing key would read an empty vector. *)
Definition getInitialPhotoelectricVacancyDistribution_vec (e : element) (energies : list num) : res vtable :=
  rbind (rmapM (getMassAttenuationCoefficients e) energies) (fun ts =>
  Ok (mset_all sltb (map (fun s => (s, map (fun t => let total := val0 t "photoelectric" in
         if total >? n0 then val0 t s / total else n0) ts)) photoShells) [])).

(** Transitions, fisx_element.cpp 966-1064 *)
Definition shellGuard (e : element) (sub : string) : res shell :=
  match mfind sltb sub (el_binding e) with
  | None => Throw InvalidArgument
  | Some b => if b <=? n0 then Throw InvalidArgument
              else match mfind sltb sub (el_shells e) with None => Throw InvalidArgument | Some s => Ok s end
  end.
Definition onShell (e : element) (sub : string) (s : res shell) (f : shell -> shell * res unit) (fin : element -> element)
  : element * res unit :=
  match s with
  | Ok s => match f s with
            | (s', Ok _) => (fin (with_shells e (mset sltb sub s' (el_shells e))), Ok tt)
            | (s', r) => (with_shells e (mset sltb sub s' (el_shells e)), r)
            end
  | Throw x => (e, Throw x)
  | UB => (e, UB)
  | Diverge => (e, Diverge)
  end.
(** 966-985: no clearCache *)
Definition setRadiativeTransitions_vec (e : element) sub labels values : element * res unit :=
  onShell e sub (shellGuard e sub) (fun s => Shell.setRadiativeTransitions_vec s labels values) (fun e => e).
(** 987-1003 *)
Definition setRadiativeTransitions_map (e : element) sub values : element * res unit :=
  onShell e sub (shellGuard e sub) (fun s => Shell.setRadiativeTransitions_map s values) clearCache.
(** 1016-1049 *)
Definition setNonradiativeTransitions_vec (e : element) sub labels values : element * res unit :=
  onShell e sub (shellGuard e sub) (fun s => Shell.setNonradiativeTransitions_vec s labels values) clearCache.
Definition setNonradiativeTransitions_map (e : element) sub values : element * res unit :=
  onShell e sub (shellGuard e sub) (fun s => Shell.setNonradiativeTransitions_map s values) clearCache.
(** getShell and the getters through it, 1005-1014, 1051-1104, 1449-1461 *)
Definition getShell (e : element) (sub : string) : res shell :=
  match mfind sltb sub (el_shells e) with None => Throw InvalidArgument | Some s => Ok s end.
(** 1053-1064 *)
Definition setShellConstants (e : element) sub constants : element * res unit :=
  onShell e sub (getShell e sub) (fun s => Shell.setShellConstants s constants) (fun e => clearCache (emptyCascadeCache e)).
Definition getRadiativeTransitions e sub := rmap Shell.getRadiativeTransitions (getShell e sub).
Definition getNonradiativeTransitions e sub := rmap Shell.getNonradiativeTransitions (getShell e sub).
Definition getFluorescenceRatios e sub := rmap Shell.getFluorescenceRatios (getShell e sub).
Definition getXRayLines e sub := getFluorescenceRatios e sub.
Definition getShellConstants e sub := rmap Shell.getShellConstants (getShell e sub).
(** 1072-1084: a reference into a local Shell is returned *)
Definition getAugerRatios (e : element) sub : res table := rbind (getShell e sub) (fun _ => UB).
Definition getCosterKronigRatios (e : element) sub : res lines := rbind (getShell e sub) (fun _ => UB).

(** Element::getTransitionEnergy, fisx_element.cpp 1164-1236 *)
Definition fromEnergy (e : element) (from : string) : res num :=
  let energy1 := val0 (el_binding e) from in
  if energy1 <=? n0 then (if energy1 <? n0 then Throw RuntimeError else Ok (nlit 3 (-3))) else Ok energy1.
Definition transitionEnergy (e : element) (to from : string) : res num :=
  match mfind sltb to (el_binding e) with
  | None => Throw DomainError
  | Some energy0 => if energy0 <=? n0 then Throw DomainError
                    else rbind (fromEnergy e from) (fun energy1 => Ok (energy0 - energy1))
  end.
Definition getTransitionEnergy (e : element) (t : string) : res num :=
  let n := String.length t in
  if Nat.eqb n 4 then transitionEnergy e (substring 0 2 t) (substring 2 2 t)
  else if Nat.eqb n 3 then transitionEnergy e (substring 0 1 t) (substring 1 2 t)
  else Throw DomainError.

(** Element::getEmittedXRayLines, fisx_element.cpp 1106-1162 *)
Fixpoint emittedLoop (e : element) (energy : num) (keys : list string) (out : table) : res table :=
  match keys with
  | [] => Ok out
  | k :: keys' =>
      match mfind sltb k (el_shells e) with
      | None => Ok out
      | Some sh =>
          match mfind sltb k (el_binding e) with
          | None => Throw RuntimeError
          | Some b =>
              if energy <=? b then emittedLoop e energy keys' out else
              rbind (rfold (fun out kv =>
                       rbind (getFluorescenceYield sh) (fun w =>
                       if w >? n0 then rbind (getTransitionEnergy e (fst kv)) (fun t => Ok (mset sltb (fst kv) t out))
                       else Ok out)) (sh_fluo sh) out)
                    (emittedLoop e energy keys')
          end
      end
  end.
Definition getEmittedXRayLines (e : element) (energy : num) : res table := emittedLoop e energy shellKeys [].

(** Element::getCascadeModifiedVacancyDistribution, fisx_element.cpp 1238-1292.
    The map finalDistribution has the keys keys[0..shellInstance.size()). *)
Definition cascadeKeys (e : element) : list string := firstn (length (el_shells e)) shellKeys.
Definition initialDistribution (e : element) (d : table) : table := map (fun k => (k, val0 d k)) (cascadeKeys e).
(** line 1280-1286: rate of transfer from a shell to a higher one *)
Definition transferRate (sh : shell) (dest : string) : res num :=
  rbind (getDirectVacancyTransferRatios sh dest) (fun t => Ok (nsum (map snd t))).
(** the two nested loops: the first element of the list is final once it is reached *)
Fixpoint cascadeLoop (shells : list (string * shell)) (fuel : nat) (l : table) : res table :=
  match fuel, l with
  | S fuel', (k, v) :: r =>
      rbind (if v >? n0 then
               rmapM (fun kv => rbind (of_opt (mfind sltb k shells)) (fun sh =>
                        rbind (transferRate sh (fst kv)) (fun rate => Ok (fst kv, snd kv + rate * v)))) r
             else Ok r) (fun r' =>
      rbind (cascadeLoop shells fuel' r') (fun out => Ok ((k, v) :: out)))
  | _, _ => Ok []
  end.
Definition cascadeList (e : element) (d : table) : res table :=
  cascadeLoop (el_shells e) (length (cascadeKeys e)) (initialDistribution e d).
Definition getCascadeModifiedVacancyDistribution (e : element) (d : table) : res table :=
  rbind (cascadeList e d) (fun l => Ok (mset_all sltb l [])).

(** Element::getXRayLinesFromVacancyDistribution, fisx_element.cpp 1294-1446 *)
(** the last two characters of a label; substr(size - 2, 2) throws on shorter ones *)
Definition lastTwo (s : string) : res string :=
  if Nat.ltb (String.length s) 2 then Throw OutOfRange else Ok (substring (String.length s - 2)%nat 2 s).
(** one line of one shell, 1385-1441 *)
Definition lineStep (e : element) (useYield : bool) (k : string) (v : num) (sh : shell) (out : lines) (kv : string * num) : res lines :=
  let rate0 := snd kv * v in
  rbind (if useYield then rbind (getFluorescenceYield sh) (fun w => Ok (rate0 * w)) else Ok rate0) (fun rate =>
  if rate >? n0 then
    match mfind sltb k (el_binding e) with
    | None => Throw DomainError
    | Some energy0 =>
        if energy0 <=? n0 then Throw DomainError else
        rbind (lastTwo (fst kv)) (fun from =>
        rbind (fromEnergy e from) (fun energy1 =>
        let old := match mfind sltb (fst kv) out with Some t => t | None => [] end in
        Ok (mset sltb (fst kv) (mset sltb "energy" (energy0 - energy1) (mset sltb "rate" rate old)) out)))
    end
  else Ok out).
Definition directLines (e : element) (useYield : bool) (l : table) : res lines :=
  rfold (fun out kv =>
    rbind (of_opt (mfind sltb (fst kv) (el_shells e))) (fun sh =>
    rfold (lineStep e useYield (fst kv) (snd kv) sh) (sh_fluo sh) out)) l [].
(** the cached path, 1315-1355 *)
Definition addLine (v : num) (out : lines) (ray : string * table) : res lines :=
  match mfind sltb (fst ray) out with
  | None => Ok (mset sltb (fst ray) (mset sltb "rate" (val0 (snd ray) "rate" * v) (snd ray)) out)
  | Some t => rbind (of_opt (mfind sltb "rate" (snd ray))) (fun r =>
                Ok (mset sltb (fst ray) (mset sltb "rate" (val0 t "rate" + r * v) t) out))
  end.
Definition cachedLines (e : element) (d : table) : res lines :=
  rfold (fun out kv =>
    if (snd kv <=? n0) || String.eqb (fst kv) "all other" then Ok out
    else match mfind sltb (fst kv) (el_cascCache e) with
         | None => Throw RuntimeError
         | Some c => rfold (addLine (snd kv)) c out
         end) d [].
Definition getXRayLinesFromVacancyDistribution (e : element) (d : table) (cascade useYield : Z) : res lines :=
  let y := negb (useYield =? 0)%Z in
  if negb (cascade =? 0)%Z then
    if el_cascFlag e && y && Nat.ltb 0 (length (el_cascCache e)) then cachedLines e d
    else rbind (cascadeList e d) (directLines e y)
  else directLines e y (initialDistribution e d).

(** Element::getPhotoelectricExcitationFactors(energy, weight), fisx_element.cpp 1528-1563.
    In the second loop the attenuation coefficients are queried once per line; the query is a
    pure function here and was already made by the vacancy distribution, so it is made once. *)
Definition scaleLine (weight : num) (t : table) : table :=
  let t := mset sltb "factor" (val0 t "factor" * weight) t in
  mset sltb "rate" (val0 t "rate" * weight) t.
Definition factorLine (weight photo : num) (t : table) : table :=
  let f := val0 t "rate" * weight in
  mset sltb "rate" (f * photo) (mset sltb "factor" f (mtouch t "rate")).
Definition computeFactors (e : element) (energy weight : num) : res lines :=
  rbind (getInitialPhotoelectricVacancyDistribution e energy) (fun d =>
  rbind (getXRayLinesFromVacancyDistribution e d 1 1) (fun l =>
  rbind (getMassAttenuationCoefficients e energy) (fun mu =>
  Ok (map (fun kv => (fst kv, factorLine weight (val0 mu "photoelectric") (snd kv))) l)))).
Definition getPhotoelectricExcitationFactors (e : element) (energy weight : num) : res lines :=
  match (if el_cacheFlag e then mfind nltb energy (el_exCache e) else None) with
  | Some l => Ok (map (fun kv => (fst kv, scaleLine weight (snd kv))) l)
  | None => computeFactors e energy weight
  end.
(** vector overload, 1497-1526 *)
Definition nat_num (n : nat) : num := nlit (Z.of_nat n) 0.
Definition getPhotoelectricExcitationFactors_vec (e : element) (energies weights : list num) : res (list lines) :=
  match weights with
  | [w] => rmapM (fun en => getPhotoelectricExcitationFactors e en w) energies
  | [] => rmapM (fun en => getPhotoelectricExcitationFactors e en (n1 / nat_num (length energies))) energies
  | _ => rmapM (fun ew => rbind (of_opt (snd ew)) (fun w => getPhotoelectricExcitationFactors e (fst ew) w))
           (combine energies (map Some weights ++ repeat None (length energies))%list)
  end.

(** Element::fillCascadeCache, fisx_element.cpp 1616-1640. When a shell throws, the enabled flag
    stays false and the entries of the previous shells stay. *)
Fixpoint fillCascLoop (lf : bool) (e0 : element) (subs : list string) (cache : list (string * lines)) : list (string * lines) * res unit :=
  match subs with
  | [] => (cache, Ok tt)
  | s :: subs' =>
      match getXRayLinesFromVacancyDistribution (with_casc e0 false cache) [(s, n1)] 1 1 with
      | Ok l => fillCascLoop lf e0 subs' (mset sltb s l cache)
      | Throw x => (if lf then mset sltb s [] cache else cache, Throw x)
      | UB => (cache, UB)
      | Diverge => (cache, Diverge)
      end
  end.
Definition fillCascadeCache (lf : bool) (e : element) : element * res unit :=
  match fillCascLoop lf e (map fst (el_shells e)) [] with
  | (c, Ok _) => (with_casc e (el_cascFlag e) c, Ok tt)
  | (c, r) => (with_casc e false c, r)
  end.
(** Element::setCascadeCacheEnabled, 1598-1614 *)
Definition setCascadeCacheEnabled (lf : bool) (e : element) (flag : Z) : element * res unit :=
  if (flag =? 0)%Z then (with_casc e false (el_cascCache e), Ok tt)
  else if Nat.ltb (length (el_cascCache e)) 1 then
    match fillCascadeCache lf e with
    | (e', Ok _) => (with_casc e' true (el_cascCache e'), Ok tt)
    | (e', r) => (e', r)
    end
  else (with_casc e true (el_cascCache e), Ok tt).

(** cache[k] = r with the two evaluation orders; None: the computation did not return *)
Definition cacheAssign {A} (lf : bool) (k : num) (dflt : A) (r : res A) (c : list (num * A)) : list (num * A) * res unit :=
  match r with
  | Ok v => (mset nltb k v c, Ok tt)
  | Throw x => (if lf then mset nltb k dflt c else c, Throw x)
  | UB => (c, UB)
  | Diverge => (c, Diverge)
  end.
(** one energy of fillCache, 1700-1704; e0 has its cache disabled *)
Definition fillOne (lf : bool) (e0 : element) (en : num) (mc : list (num * table)) (xc : list (num * lines))
  : list (num * table) * list (num * lines) * res unit :=
  match cacheAssign lf en [] (getMassAttenuationCoefficients e0 en) mc with
  | (mc, Ok _) => let (xc, r) := cacheAssign lf en [] (getPhotoelectricExcitationFactors e0 en n1) xc in (mc, xc, r)
  | (mc, r) => (mc, xc, r)
  end.
Fixpoint fillLoop (lf : bool) (e0 : element) (ens : list num) (mc : list (num * table)) (xc : list (num * lines))
  : list (num * table) * list (num * lines) * res unit :=
  match ens with
  | [] => (mc, xc, Ok tt)
  | en :: ens' => match fillOne lf e0 en mc xc with
                  | (mc, xc, Ok _) => fillLoop lf e0 ens' mc xc
                  | r => r
                  end
  end.
(** Element::fillCache, fisx_element.cpp 1681-1715 (flag restored on every path) *)
Definition fillCache (lf : bool) (e : element) (energies : list num) : element * res unit :=
  let '(mc, xc, r) := fillLoop lf (setCacheEnabled e 0) (firstn cacheMaximumSize energies) [] [] in
  (with_cache e (el_cacheFlag e) mc xc, r).
(** Element::updateCache, fisx_element.cpp 1717-1755 *)
Definition updateOne (lf : bool) (e0 : element) (en : num) (mc : list (num * table)) (xc : list (num * lines))
  : list (num * table) * list (num * lines) * res unit :=
  if Nat.ltb (length mc) cacheMaximumSize then
    match (if mmem nltb en mc then (mc, Ok tt) else cacheAssign lf en [] (getMassAttenuationCoefficients e0 en) mc) with
    | (mc, Ok _) => if mmem nltb en xc then (mc, xc, Ok tt)
                    else let (xc, r) := cacheAssign lf en [] (getPhotoelectricExcitationFactors e0 en n1) xc in (mc, xc, r)
    | (mc, r) => (mc, xc, r)
    end
  else (mc, xc, Ok tt).
Fixpoint updateLoop (lf : bool) (e0 : element) (ens : list num) (mc : list (num * table)) (xc : list (num * lines))
  : list (num * table) * list (num * lines) * res unit :=
  match ens with
  | [] => (mc, xc, Ok tt)
  | en :: ens' => match updateOne lf e0 en mc xc with
                  | (mc, xc, Ok _) => updateLoop lf e0 ens' mc xc
                  | r => r
                  end
  end.
Definition updateCache (lf : bool) (e : element) (energies : list num) : element * res unit :=
  let '(mc, xc, r) := updateLoop lf (setCacheEnabled e 0) energies (el_muCache e) (el_exCache e) in
  (with_cache e (el_cacheFlag e) mc xc, r).
(** isCacheEnabled, 1656-1659 *)
Definition isCacheEnabled (e : element) : bool := el_cacheFlag e.
(** getCacheSize, 1757-1760; isCascadeCacheFilled 1647-1650 *)
Definition getCacheSize (e : element) : nat := length (el_muCache e).
Definition isCascadeCacheFilled (e : element) : nat := length (el_cascCache e).

End Element.
