(** Model of class EPDL97 (src/fisx_epdl97.h, src/fisx_epdl97.cpp): tables of mass attenuation
    coefficients, their interpolation with the remembered index, photoelectric weights, and loading
    from SPEC files. The static variable lastI0 of getInterpolationIndices is threaded through the
    calls as [last]. Files: a function from names to contents. Not modelled: messages on std::cout;
    the names of directories and files kept in members (never read). int and long are unbounded. *)
From Coq Require Import Ascii String List Bool Arith ZArith.
From Verif Require Import Base.Num Base.Res Base.SMap Base.Str Base.Text Model.Specfile.
Import ListNotations.
Set Implicit Arguments.
Local Open Scope string_scope.
Local Open Scope num_scope.

(** v[i] with a signed index *)
Definition vgetZ {A} (v : list A) (i : Z) : res A := if (i <? 0)%Z then UB else vget v (Z.to_nat i).
Fixpoint vset {A} (v : list A) (i : nat) (x : A) : list A :=
  match v, i with [], _ => [] | _ :: r, O => x :: r | a :: r, S i' => a :: vset r i' x end.

Section EPDL97.
Context {N : Num}.
Local Notation table := (list (string * num)).

(** data members, fisx_epdl97.h 70-94 *)
Record epdl := mkEpdl {
  ep_init : bool;                          (* initialized *)
  ep_binding : list table;                 (* bindingEnergy *)
  ep_labels : list string;                 (* muInputLabels *)
  ep_index : list (string * Z);            (* muLabelToIndex *)
  ep_values : list (list (list num));      (* muInputValues: element, row, column *)
  ep_energy : list (list num) }.           (* muEnergy *)

(** EPDL97::EPDL97(), fisx_epdl97.cpp 38-48 *)
Definition epdl_new : epdl := mkEpdl false [] [] [] [] [].

(** *** Interpolation indices *)
(** the loop 813-834. [fuel] at least distance *)
Fixpoint bisect (fuel : nat) (vec : list num) (x : num) (last iMin iMax : nat) : res (nat * nat * nat) :=
  let distance := (iMax - iMin)%nat in
  if Nat.leb distance 1 then Ok (iMin, iMax, last)
  else
    match fuel with
    | O => Diverge
    | S f =>
        let d := if Nat.ltb 2 distance then Nat.div2 distance else (distance - 1)%nat in
        let i := (iMin + d)%nat in
        (let? v := vget vec i in
         if v <? x then bisect f vec x i i iMax else bisect f vec x i iMin i)%res
    end.
(** EPDL97::getInterpolationIndices, 778-840: the pair and the new value of lastI0. The index is
    negative only for an empty vector. *)
Definition getInterpolationIndices (last : nat) (vec : list num) (x : num) : res (nat * nat * nat) :=
  let n := length vec in
  if Nat.eqb n 0 then UB
  else
    let last := if Nat.leb n last then (n - 1)%nat else last in
    (let? v := vget vec last in
     if x <? v then bisect n vec x last 0 last
     else
       let iMin := last in
       if Nat.ltb 21 (n - iMin) then
         let? w := vget vec (iMin + 20) in
         if x <? w then bisect n vec x (iMin + 20) iMin (iMin + 20) else bisect n vec x (iMin + 20) iMin (n - 1)
       else bisect n vec x last iMin (n - 1))%res.

(** *** Coefficients at one energy *)
(** tmp[key] of a std::map<std::string, double>: zero when missing *)
Definition at0 (m : table) (k : string) : num := match mfind sltb k m with Some v => v | None => n0 end.
(** the same through a non-const operator[]: the missing key is inserted *)
Definition touch (m : table) (k : string) : table := match mfind sltb k m with Some _ => m | None => mset sltb k n0 m end.

(** log-log interpolation weights, 494-497: A for the first point, B for the second *)
Definition weightB (x0 x1 energy : num) : num := (n1 / nlog (x1 / x0)) * nlog (energy / x0).
Definition weightA (x0 x1 energy : num) : num := nlog (x1 / energy) * (n1 / nlog (x1 / x0)).

Definition cell (rows : list (list num)) (i : nat) (idx : Z) : res num :=
  (let? r := vget rows i in vgetZ r idx)%res.
(** the loops 470-474, 558-562: first row from i on with a positive entry *)
Fixpoint firstPositive (fuel : nat) (rows : list (list num)) (idx : Z) (i : nat) : res nat :=
  (let? v := cell rows i idx in
   if v <=? n0 then match fuel with O => Diverge | S f => firstPositive f rows idx (S i) end else Ok i)%res.
(** 470-483 and 558-571 *)
Definition extrapolate (grid : list num) (rows : list (list num)) (idx : Z) (i1 : nat) (energy : num) : res num :=
  (let? i1w := firstPositive (S (length rows)) rows idx i1 in
   let i2w := S i1w in
   let? y0 := cell rows i1w idx in
   let? y1 := cell rows i2w idx in
   let? x0w := vget grid i1w in
   let? x1w := vget grid i2w in
   Ok (nexp (weightA x0w x1w energy * nlog y0 + weightB x0w x1w energy * nlog y1)))%res.

Definition derived (key : string) : bool := String.eqb key "total" || String.eqb key "photoelectric" || String.eqb key "energy".
Definition unshelled (key : string) : bool := String.eqb key "coherent" || String.eqb key "compton" || String.eqb key "all other".

(** one key of the loop of case a, 426-489: the pair of points coincides *)
Definition caseA (grid : list num) (rows : list (list num)) (binding : table) (i1 i2 : nat) (x0 x1 energy : num)
  (result : table) (kv : string * Z) : res table :=
  let '(key, idx) := kv in
  if derived key then Ok result
  else if unshelled key then (let? v := cell rows i2 idx in Ok (mset sltb key v result))%res
  else if Nat.ltb (String.length key) 3 then
    match mfind sltb key binding with
    | None => Throw RuntimeError
    | Some e =>
        let result := mset sltb key n0 result in
        if (energy >=? e) && (e >? n0) then
          (let? v1 := cell rows i1 idx in
           if v1 >? n0 then Ok (mset sltb key v1 result)
           else
             let? v2 := if x1 - x0 <? nlit 5 (-10) then cell rows i2 idx else Ok n0 in
             if (x1 - x0 <? nlit 5 (-10)) && (v2 >? n0) then Ok (mset sltb key v2 result)
             else let? v := extrapolate grid rows idx i1 energy in Ok (mset sltb key v result))%res
        else Ok result
    end
  else Ok result.
(** one key of the loop of the other case, 499-575 *)
Definition caseB (grid : list num) (rows : list (list num)) (binding : table) (i1 i2 : nat) (x0 x1 energy : num)
  (result : table) (kv : string * Z) : res table :=
  let '(key, idx) := kv in
  let A := weightA x0 x1 energy in
  let B := weightB x0 x1 energy in
  if derived key then Ok result
  else if unshelled key then
    (let? y0 := cell rows i1 idx in
     let? y1 := cell rows i2 idx in
     Ok (mset sltb key
       (if (y0 >? n0) && (y1 >? n0) then nexp (A * nlog y0 + B * nlog y1)
        else if (y1 >? n0) && (energy - x0 >? nlit 1 (-5)) then nexp (B * nlog y1) else n0) result))%res
  else if Nat.ltb (String.length key) 3 then
    match mfind sltb key binding with
    | None => Throw RuntimeError
    | Some e =>
        let result := mset sltb key n0 result in
        if (energy >=? e) && (e >? n0) then
          (let? y0 := cell rows i1 idx in
           if y0 >? n0 then
             let? y1 := cell rows i2 idx in
             Ok (if (y0 >? n0) && (y1 >? n0) then mset sltb key (nexp (A * nlog y0 + B * nlog y1)) result else result)
           else let? v := extrapolate grid rows idx i1 energy in Ok (mset sltb key v result))%res
        else Ok result
    end
  else Ok result.

Definition shellKeys : list string := ["K"; "L1"; "L2"; "L3"; "M1"; "M2"; "M3"; "M4"; "M5"; "all other"].
(** 577-581 *)
Definition finish (result : table) : table :=
  let r := mset sltb "pair" n0 result in
  let r := fold_left touch shellKeys r in
  let r := mset sltb "photoelectric"
    (at0 r "K" + at0 r "L1" + at0 r "L2" + at0 r "L3" +
     (at0 r "M1" + at0 r "M2" + at0 r "M3" + at0 r "M4" + at0 r "M5" + at0 r "all other")) r in
  let r := touch (touch r "coherent") "compton" in
  mset sltb "total" (at0 r "photoelectric" + at0 r "coherent" + at0 r "compton" + at0 r "pair") r.

(** the row of the tables used for an atomic number, 387-393: the last one beyond the end; -1 for
    empty tables *)
Definition zRow (ep : epdl) (z : Z) : Z :=
  let zHelp := (z - 1)%Z in
  let m := (Z.of_nat (length (ep_energy ep)) - 1)%Z in if (zHelp >? m)%Z then m else zHelp.
(** the pair of points actually used, 396-420: a repeated energy moves the pair *)
Definition usedPair (grid : list num) (energy : num) (i1 i2 : nat) : res (nat * nat * num * num) :=
  (let? x0 := vget grid i1 in
   let? x1 := vget grid i2 in
   if (energy =? x1) && Nat.ltb (i2 + 1) (length grid) then
     let? x2 := vget grid (i2 + 1) in
     if x2 =? x1 then Ok (i2, S i2, x1, x2) else Ok (i1, i2, x0, x1)
   else Ok (i1, i2, x0, x1))%res.
(** EPDL97::getMassAttenuationCoefficients(z, energy), 365-583: answer and the new lastI0 *)
Definition getMassAttenuationCoefficients (last : nat) (ep : epdl) (z : Z) (energy : num) : nat * res table :=
  if negb (ep_init ep) then (last, Throw RuntimeError)
  else if (z <? 1)%Z then (last, Throw RuntimeError)
  else
    match vgetZ (ep_energy ep) (zRow ep z) with
    | Ok grid =>
        match getInterpolationIndices last grid energy with
        | Ok (i1, i2, last') =>
            (last',
             (let? p := usedPair grid energy i1 i2 in
              let '(i1, i2, x0, x1) := p in
              let? rows := vgetZ (ep_values ep) (zRow ep z) in
              let? binding := vgetZ (ep_binding ep) (zRow ep z) in
              let start := mset sltb "energy" energy [] in
              let step := if Nat.eqb i1 i2 || (x1 - x0 <? nlit 5 (-10)) then caseA grid rows binding i1 i2 x0 x1 energy
                          else caseB grid rows binding i1 i2 x0 x1 energy in
              let? r := rfold step (ep_index ep) start in
              Ok (finish r))%res)
        | Throw e => (last, Throw e) | UB => (last, UB) | Diverge => (last, Diverge)
        end
    | Throw e => (last, Throw e) | UB => (last, UB) | Diverge => (last, Diverge)
    end.

(** the tables of successive queries; an error stops them *)
Fixpoint queries (query : nat -> num -> nat * res table) (last : nat) (energies : list num) : nat * res (list table) :=
  match energies with
  | [] => (last, Ok [])
  | e :: r =>
      match query last e with
      | (last', Ok t) => match queries query last' r with (l, Ok ts) => (l, Ok (t :: ts)) | (l, x) => (l, x) end
      | (last', Throw x) => (last', Throw x) | (last', UB) => (last', UB) | (last', Diverge) => (last', Diverge)
      end
  end.
(** the loops 595-609 and 750-764: columns of the successive tables. A key missing from the first
    table would be written outside its (empty) vector. *)
Definition columns (ts : list table) : res (list (string * list num)) :=
  match ts with
  | [] => Ok []
  | t0 :: _ =>
      if forallb (fun t => forallb (fun kv : string * num => mmem sltb (fst kv) t0) t) ts
      then Ok (map (fun kv : string * num => (fst kv, map (fun t => at0 t (fst kv)) ts)) t0) else UB
  end.
(** EPDL97::getMassAttenuationCoefficients(z, energies), 585-611 *)
Definition getMassAttenuationCoefficients_vec (last : nat) (ep : epdl) (z : Z) (energies : list num) : nat * res (list (string * list num)) :=
  match queries (fun l e => getMassAttenuationCoefficients l ep z e) last energies with
  | (l, Ok ts) => (l, columns ts) | (l, Throw x) => (l, Throw x) | (l, UB) => (l, UB) | (l, Diverge) => (l, Diverge)
  end.

(** EPDL97::getMassAttenuationCoefficients(z), 614-691: the tables of an element *)
Definition column (rows : list (list num)) (idx : Z) (n : nat) : res (list num) := rmapM (fun i => cell rows i idx) (seq 0 n).
Definition vadd (a b : list num) : list num := map (fun p => fst p + snd p) (combine a b).
Definition tableStep (rows : list (list num)) (n : nat) (s : list (string * list num) * list num * list num) (kv : string * Z) :
  res (list (string * list num) * list num * list num) :=
  let '(result, photo, other) := s in
  let '(key, idx) := kv in
  if String.eqb key "total" || String.eqb key "photoelectric" then Ok s
  else
    (let? v := column rows idx n in
     let result := mset sltb key v result in
     if String.eqb key "coherent" || String.eqb key "compton" || String.eqb key "pair" then Ok (result, photo, vadd other v)
     else if existsb (String.eqb key) shellKeys then Ok (result, vadd photo v, other)
     else Ok (result, photo, other))%res.
Definition getMassAttenuationTables (ep : epdl) (z : Z) : res (list (string * list num)) :=
  if negb (ep_init ep) then Throw RuntimeError
  else if (z <? 1)%Z then Throw RuntimeError
  else
    (let? rows := vgetZ (ep_values ep) (zRow ep z) in
     let? grid := vgetZ (ep_energy ep) (zRow ep z) in
     let n := length grid in
     let zero := repeat n0 n in
     let? s := rfold (tableStep rows n) (ep_index ep) ([], zero, zero) in
     let '(result, photo, other) := s in
     let result := if mmem sltb "pair" (ep_index ep) then result else mset sltb "pair" zero result in
     let result := mset sltb "photoelectric" photo result in
     Ok (mset sltb "total" (vadd other photo) result))%res.

(** EPDL97::getPhotoelectricWeights(z, energy), 693-738; the vector version 740-766 *)
Definition getPhotoelectricWeights (last : nat) (ep : epdl) (z : Z) (energy : num) : nat * res table :=
  match getMassAttenuationCoefficients last ep z energy with
  | (l, Ok t) =>
      let mu := map (fun kv => ("mu " ++ fst kv, snd kv)) t in
      let result := mset_all sltb mu [] in
      let m := at0 t "photoelectric" in
      (l, Ok (if m <=? nlit 1 (-10) then fold_left (fun r k => mset sltb k n0 r) shellKeys result
              else fold_left (fun r k => mset sltb k (at0 t k / m) r) shellKeys result))
  | (l, Throw x) => (l, Throw x) | (l, UB) => (l, UB) | (l, Diverge) => (l, Diverge)
  end.
Definition getPhotoelectricWeights_vec (last : nat) (ep : epdl) (z : Z) (energies : list num) : nat * res (list (string * list num)) :=
  match queries (fun l e => getPhotoelectricWeights l ep z e) last energies with
  | (l, Ok ts) => (l, columns ts) | (l, Throw x) => (l, Throw x) | (l, UB) => (l, UB) | (l, Diverge) => (l, Diverge)
  end.

(** *** Binding energies *)
(** EPDL97::setBindingEnergies, 333-345: no upper bound check *)
Definition setBindingEnergies (ep : epdl) (z : Z) (b : table) : epdl * res unit :=
  if (z <? 1)%Z then (ep, Throw RuntimeError)
  else if Nat.ltb (Z.to_nat (z - 1)) (length (ep_binding ep)) then
    (mkEpdl (ep_init ep) (vset (ep_binding ep) (Z.to_nat (z - 1)) b) (ep_labels ep) (ep_index ep) (ep_values ep) (ep_energy ep), Ok tt)
  else (ep, UB).
(** EPDL97::getBindingEnergies, 347-362 *)
Definition getBindingEnergies (ep : epdl) (z : Z) : res table :=
  if (z <? 1)%Z then Throw RuntimeError
  else
    let n := Z.of_nat (length (ep_binding ep)) in
    if (z >=? n)%Z then vgetZ (ep_binding ep) (n - 1) else vgetZ (ep_binding ep) (z - 1).

(** *** Loading *)
Variable strtod : text -> num.

Definition substr (s : string) (i n : nat) : string := String.substring i n s.
(** the key of a label, 151-176 *)
Definition bindingKey (label : string) : string :=
  if String.eqb (substr label 0 1) "K" then "K"
  else if Nat.ltb (String.length label) 3 then substr label 0 2
  else if String.eqb (substr label 3 1) "(" then substr label 0 3 else substr label 0 2.
Definition bindingRow (labels : list string) (old : table) (row : list num) : res table :=
  rfold (fun m n => (let? l := vget labels n in let? v := vget row n in Ok (mset sltb (bindingKey l) v m))%res) (seq 1 (length labels - 1)) old.
(** std::vector::resize *)
Definition resize {A} (d : A) (n : nat) (l : list A) : list A := firstn n l ++ repeat d (n - length l).
(** EPDL97::loadBindingEnergies, 112-183. bindingEnergy is written only after all checks *)
Definition loadBindingEnergies (ep : epdl) (file : option text) : epdl * res unit :=
  let sf := setFileName file in
  if negb (Nat.eqb (getNumberOfScans sf) 1) then (ep, Throw IosFailure)
  else
    match getScanLabels sf 0, getScanData strtod sf 0 with
    | Ok labels, Ok rows =>
        match rows with
        | [] => (ep, UB)
        | r0 :: _ =>
            if negb (Nat.eqb (length r0) (length labels)) then (ep, Throw IosFailure)
            else
              let old := resize [] (length rows) (ep_binding ep) in
              match rmapM (fun p => bindingRow labels (fst p) (snd p)) (combine old rows) with
              | Ok b => (mkEpdl true b (ep_labels ep) (ep_index ep) (ep_values ep) (ep_energy ep), Ok tt)
              | _ => (ep, UB)
              end
        end
    | Ok _, Throw e => (ep, Throw e)
    | Throw e, _ => (ep, Throw e)
    | _, _ => (ep, UB)
    end.

(** std::string::find(key) != npos *)
Fixpoint contains (key s : string) : bool :=
  String.prefix key s || match s with EmptyString => false | String _ r => contains key r end.
Definition interestingLabels : list string :=
  ["energy"; "compton"; "coherent"; "photoelectric"; "total"; "K"; "L1"; "L2"; "L3"; "M1"; "M2"; "M3"; "M4"; "M5"; "all other"].
Definition upper (s : string) : string := smap_chars toupper s.
Definition searchKey (name : string) : string := if String.eqb (upper name) "ALL OTHER" then "ALLOTHER" else upper name.
(** 229-255 *)
Definition labelMatches (key label : string) : bool :=
  let t := upper label in
  contains key t &&
  (if String.eqb key "COHERENT" then negb (contains "INCOHERENT" t)
   else if Nat.ltb (String.length key) 3 then String.eqb key (substr t 0 (String.length key)) else true).
Fixpoint labelIndex (key : string) (labels : list string) (n : Z) : option Z :=
  match labels with [] => None | l :: r => if labelMatches key l then Some n else labelIndex key r (n + 1)%Z end.
(** 218-262: the index map; the missing label keeps -1 and throws *)
Fixpoint buildIndex (names : list string) (labels : list string) (m : list (string * Z)) : list (string * Z) * res unit :=
  match names with
  | [] => (m, Ok tt)
  | n :: r =>
      match labelIndex (searchKey n) labels 0 with
      | Some i => buildIndex r labels (mset sltb n i m)
      | None => (mset sltb n (-1)%Z m, Throw IosFailure)
      end
  end.
(** muLabelToIndex[key]: all the keys used are present *)
Definition ix (index : list (string * Z)) (k : string) : Z := match mfind sltb k index with Some i => i | None => 0%Z end.
(** 288-328: one row; [i] is the number of the scan *)
Definition normalize (index : list (string * Z)) (i : nat) (row : list num) : res (list num) :=
  let get r k := vgetZ r (ix index k) in
  let set r k v := vset r (Z.to_nat (ix index k)) v in
  (let? total := get row "total" in
   let? compton := get row "compton" in
   let? coherent := get row "coherent" in
   let? _ := get row "photoelectric" in
   let row := set row "photoelectric" (total - compton - coherent) in
   let? photo := get row "photoelectric" in
   let? row :=
     (if photo >? n0 then
        let? other := get row "all other" in
        if (other >? n0) && Nat.ltb 17 i then
          let? k := get row "K" in let? l1 := get row "L1" in let? l2 := get row "L2" in let? l3 := get row "L3" in
          let? m1 := get row "M1" in let? m2 := get row "M2" in let? m3 := get row "M3" in let? m4 := get row "M4" in let? m5 := get row "M5" in
          Ok (set row "all other" (photo - k - l1 - l2 - l3 - m1 - m2 - m3 - m4 - m5))
        else Ok (set row "all other" n0)
      else Ok (set row "photoelectric" n0)) in
   let? other := get row "all other" in
   Ok (if other <? n0 then set row "all other" n0 else row))%res.
(** one scan, 267-329: energies and rows; [ep_energy] takes the energy before the row is changed *)
Definition loadScan (sf : specfile) (labels0 : list string) (index : list (string * Z)) (i : nat) : res (list (list num) * list num) :=
  (let? labels := getScanLabels sf i in
   if negb (Nat.eqb (length labels) (length labels0)) then Throw LengthError
   else if negb (forallb (fun p => String.eqb (fst p) (snd p)) (combine labels labels0)) then Throw LengthError
   else
     let? rows := getScanData strtod sf i in
     let? energies := rmapM (fun r => vgetZ r (ix index "energy")) rows in
     let? rows := rmapM (normalize index i) rows in
     Ok (rows, energies))%res.
Fixpoint loadScans (sf : specfile) (labels0 : list string) (index : list (string * Z)) (todo : list nat)
  (values : list (list (list num))) (energy : list (list num)) : list (list (list num)) * list (list num) * res unit :=
  match todo with
  | [] => (values, energy, Ok tt)
  | i :: r =>
      match loadScan sf labels0 index i with
      | Ok (v, e) => loadScans sf labels0 index r (vset values i v) (vset energy i e)
      | Throw x => (values, energy, Throw x) | UB => (values, energy, UB) | Diverge => (values, energy, Diverge)
      end
  end.
(** EPDL97::loadCrossSections, 185-331, called only by loadData, after setDataDirectory has emptied
    the tables. *)
Definition loadCrossSections (ep : epdl) (file : option text) : epdl * res unit :=
  let sf := setFileName file in
  let n := getNumberOfScans sf in
  if Nat.ltb n 99 then (ep, Throw IosFailure)
  else
    match getScanLabels sf 0 with
    | Ok labels =>
        let ep1 ix := mkEpdl (ep_init ep) (ep_binding ep) labels ix (ep_values ep) (ep_energy ep) in
        if Nat.ltb (length labels) 15 then (ep1 (ep_index ep), Throw IosFailure)
        else
          match buildIndex interestingLabels labels (ep_index ep) with
          | (index, Ok _) =>
              let '(values, energy, r) := loadScans sf labels index (seq 0 n) (resize [] n (ep_values ep)) (resize [] n (ep_energy ep)) in
              (mkEpdl (ep_init ep) (ep_binding ep) labels index values energy, r)
          | (index, r) => (ep1 index, r)
          end
    | Throw x => (ep, Throw x) | UB => (ep, UB) | Diverge => (ep, Diverge)
    end.
(** EPDL97::setDataDirectory and loadData, 61-109. [fs]: contents of files by name. The comparison
    with the two-character joinSymbol "//" never holds. *)
Definition setDataDirectory (fs : string -> option text) (directory : string) (ep : epdl) : epdl * res unit :=
  let ep := epdl_new in
  if Nat.eqb (String.length directory) 0 then (ep, Throw OutOfRange)
  else
    match loadBindingEnergies ep (fs (directory ++ "//" ++ "EADL97_BindingEnergies.dat")) with
    | (ep, Ok _) =>
        match loadCrossSections ep (fs (directory ++ "//" ++ "EPDL97_CrossSections.dat")) with
        | (ep, Ok _) => (mkEpdl true (ep_binding ep) (ep_labels ep) (ep_index ep) (ep_values ep) (ep_energy ep), Ok tt)
        | (ep, r) => (ep, r)
        end
    | (ep, r) => (ep, r)
    end.
End EPDL97.
