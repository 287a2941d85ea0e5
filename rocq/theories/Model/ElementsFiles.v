(** Model of the data files of class Elements (src/fisx_elements.h, src/fisx_elements.cpp 42-249,
    318-978, 1832-1866) and of the predefined elements (src/fisx_defaultelementsinfo.h): the
    constructors, the shell data files, the mass attenuation files.
    Files: a function from names to contents. Not modelled: defaultDataDir (an environment variable
    or a constant, only used when the directory given to the second constructor is empty); the
    materials of fisx_defaultelementsinfo.h (in a comment there). *)
From Coq Require Import Ascii String List ZArith Bool Arith.
From Verif Require Import Base.Num Base.Res Base.SMap Base.Str Base.Text Model.Shell Model.Specfile Model.EPDL97 Model.Element Model.Elements.
Import ListNotations.
Set Implicit Arguments.
Local Open Scope string_scope.
Local Open Scope num_scope.

Section Files.
Context {N : Num}.
Local Notation table := (list (string * num)).
Local Notation vtable := (list (string * list num)).
Variable strtod : text -> num.
Variable fs : string -> option text.

(** the data members of Elements read from files, fisx_elements.h 578-597: [lb_es] the others *)
Record library := mkLibrary {
  lb_es : @elements N;
  lb_epdl : @epdl N;                        (* epdl97 *)
  lb_const : list (string * string);        (* shellConstantsFile *)
  lb_rad : list (string * string);          (* shellRadiativeTransitionsFile *)
  lb_nonrad : list (string * string) }.     (* shellNonradiativeTransitionsFile *)
Definition with_list (lb : library) (l : list (@element N)) : library :=
  mkLibrary (with_elements (lb_es lb) (es_dict (lb_es lb)) l) (lb_epdl lb) (lb_const lb) (lb_rad lb) (lb_nonrad lb).

(** ** Shell data files *)
(** the subshells and the number of scans, 331-378, 437-486, 533-582 *)
Definition subShells (main : string) : option (list string) :=
  if String.eqb main "K" then Some ["K"]
  else if String.eqb main "L" then Some ["L1"; "L2"; "L3"]
  else if String.eqb main "M" then Some ["M1"; "M2"; "M3"; "M4"; "M5"]
  else None.
(** the key under which the value of a column is kept, 395-415 *)
Definition constantKey (label : string) : option string :=
  if String.eqb label "Z" then None
  else if Nat.ltb 4 (String.length label) then
    if String.eqb (substring 0 5 label) "omega" then Some "omega" else None
  else Some label.
(** 503-506, 599-602 *)
Definition transitionKey (label : string) : option string := if String.eqb label "Z" then None else Some label.
(** the loop over the labels, 393-417, 501-508, 597-604; tmpValues[n][j] *)
Fixpoint rowDict (key : string -> option string) (labels : list string) (row : list num) (j : nat) (d : table) : res table :=
  match labels with
  | [] => Ok d
  | l :: r =>
      match key l with
      | None => rowDict key r row (S j) d
      | Some k => (let? v := vget row j in rowDict key r row (S j) (mset sltb k v d))%res
      end
  end.
(** the loop over the rows, 391-418, 499-514, 595-610: row n goes to elementList[n]; [apply] is the
    change of the element *)
Fixpoint fileRows (key : string -> option string) (apply : element -> table -> element * res unit)
  (labels : list string) (rows : list (list num)) (n : nat) (d : table) (l : list (@element N)) : list (@element N) * res unit :=
  match rows with
  | [] => (l, Ok tt)
  | row :: r =>
      match rowDict key labels row 0 d with
      | Ok d =>
          match nth_error l n with
          | None => (l, UB)
          | Some e =>
              match apply e d with
              | (e', Ok _) => fileRows key apply labels r (S n) d (set_nth l n e')
              | (e', o) => (set_nth l n e', o)
              end
          end
      | Throw x => (l, Throw x) | UB => (l, UB) | Diverge => (l, Diverge)
      end
  end.
(** the loop over the scans, 380-419, 488-515, 584-611: tmpValues[i] is the row of the number of the scan *)
Fixpoint fileScans (key : string -> option string) (apply : string -> element -> table -> element * res unit)
  (sf : specfile) (i : nat) (subs : list string) (l : list (@element N)) : list (@element N) * res unit :=
  match subs with
  | [] => (l, Ok tt)
  | sub :: r =>
      match getScanLabels sf i, getScanData strtod sf i with
      | Ok labels, Ok rows =>
          match nth_error rows i with
          | None => (l, UB)
          | Some row =>
              if negb (Nat.eqb (length row) (length labels)) then (l, Throw IosFailure)
              else
                match fileRows key (apply sub) labels rows 0 [] l with
                | (l', Ok _) => fileScans key apply sf (S i) r l'
                | (l', o) => (l', o)
                end
          end
      | Ok _, Throw x => (l, Throw x) | Ok _, UB => (l, UB) | Ok _, Diverge => (l, Diverge)
      | Throw x, _ => (l, Throw x) | UB, _ => (l, UB) | Diverge, _ => (l, Diverge)
      end
  end.
(** what the three functions share; [record]: the last line *)
Definition shellFile (key : string -> option string) (apply : string -> element -> table -> element * res unit)
  (record : library -> library) (lb : library) (main file : string) : library * res unit :=
  match subShells main with
  | None => (lb, Throw InvalidArgument)
  | Some subs =>
      let sf := setFileName (fs file) in
      if negb (Nat.eqb (getNumberOfScans sf) (length subs)) then (lb, Throw IosFailure)
      else
        match fileScans key apply sf 0 subs (es_list (lb_es lb)) with
        | (l, Ok _) => (record (with_list lb l), Ok tt)
        | (l, o) => (with_list lb l, o)
        end
  end.
(** Elements::setShellConstantsFile, 318-421 *)
Definition setShellConstantsFile (lb : library) (main file : string) : library * res unit :=
  shellFile constantKey (fun sub e d => Element.setShellConstants e sub d)
    (fun lb => mkLibrary (lb_es lb) (lb_epdl lb) (mset sltb main file (lb_const lb)) (lb_rad lb) (lb_nonrad lb)) lb main file.
(** bindingE[subShells[i]] > 0.0 of a copy of the binding energies, 509-513, 605-609 *)
Definition ifBound (f : element -> string -> table -> element * res unit) (sub : string) (e : element) (d : table) : element * res unit :=
  if val0 (Element.getBindingEnergies e) sub >? n0 then f e sub d else (e, Ok tt).
(** Elements::setShellNonradiativeTransitionsFile, 423-517 *)
Definition setShellNonradiativeTransitionsFile (lb : library) (main file : string) : library * res unit :=
  shellFile transitionKey (ifBound Element.setNonradiativeTransitions_map)
    (fun lb => mkLibrary (lb_es lb) (lb_epdl lb) (lb_const lb) (lb_rad lb) (mset sltb main file (lb_nonrad lb))) lb main file.
(** Elements::setShellRadiativeTransitionsFile, 519-613 *)
Definition setShellRadiativeTransitionsFile (lb : library) (main file : string) : library * res unit :=
  shellFile transitionKey (ifBound Element.setRadiativeTransitions_map)
    (fun lb => mkLibrary (lb_es lb) (lb_epdl lb) (lb_const lb) (mset sltb main file (lb_rad lb)) (lb_nonrad lb)) lb main file.
(** getShellConstantsFile, getShellRadiativeTransitionsFile, getShellNonradiativeTransitionsFile, 1832-1866 *)
Definition fileOf (m : list (string * string)) (main : string) : res string :=
  match mfind sltb main m with Some f => Ok f | None => Throw InvalidArgument end.
Definition getShellConstantsFile (lb : library) (main : string) : res string := fileOf (lb_const lb) main.
Definition getShellRadiativeTransitionsFile (lb : library) (main : string) : res string := fileOf (lb_rad lb) main.
Definition getShellNonradiativeTransitionsFile (lb : library) (main : string) : res string := fileOf (lb_nonrad lb) main.

(** ** Mass attenuation coefficients of an element *)
(** m[k] of a map of vectors: empty when missing *)
Definition vat (m : vtable) (k : string) : list num := match mfind sltb k m with Some v => v | None => [] end.
Definition seqOk (s : element * res unit) (f : element -> element * res unit) : element * res unit :=
  match s with (e, Ok _) => f e | _ => s end.
(** the element takes the tables: 196-209, 755-767, 965-977 *)
Fixpoint putPartials (t : vtable) (shells : list string) (e : element) : element * res unit :=
  match shells with
  | [] => (e, Ok tt)
  | s :: r => seqOk (setPartialPhotoelectric e s (vat t "energy") (vat t s)) (putPartials t r)
  end.
Definition putTables (t : vtable) (e : element) : element * res unit :=
  seqOk (Element.setMassAttenuationCoefficients e (vat t "energy") (vat t "photoelectric") (vat t "coherent") (vat t "compton") (vat t "pair"))
        (putPartials t photoShells).
(** 773-781: the number of energies of the table below the first energy given, less one *)
Fixpoint countBelow (grid : list num) (x : num) (j : nat) : res nat :=
  match grid with [] => UB | g :: r => if g <? x then countBelow r x (S j) else Ok j end.
(** 812-833: the k-th energy given; raised to the binding energy of a shell whose edge is just below *)
Definition raised (edges : list (string * (num * Z))) (binding : table) (k : nat) (x : num) : num :=
  fold_left (fun x shell =>
    match mfind sltb shell edges with
    | Some (en, idx) => if (Z.of_nat k =? idx + 1)%Z && (en <? val0 binding shell) then val0 binding shell else x
    | None => x
    end) photoShells x.
(** 803-842; [prev]: newEnergyGrid[i - 1], read only if [ext], that is j > 0 *)
Fixpoint gridLoop (edges : list (string * (num * Z))) (binding : table) (ext : bool) (k : nat) (prev : num) (es : list num) : list num :=
  match es with
  | [] => []
  | x :: r =>
      let y := raised edges binding k x in
      let y := if ext && (y <? prev) then prev + nlit 1 (-6) else y in
      y :: gridLoop edges binding ext (S k) y r
  end.
Definition newGrid (edges : list (string * (num * Z))) (binding : table) (j : nat) (grid energy : list num) : list num :=
  (firstn j grid ++ gridLoop edges binding (Nat.ltb 0 j) 0 (nth (j - 1) grid n0) energy)%list.
(** 875-890, 899-902: v[i] = given[i - j] for i from j on *)
Definition overwrite (j n : nat) (given old : list num) : res (list num) :=
  if Nat.ltb (length given) (n - j) then UB else Ok (firstn j old ++ firstn (n - j) given)%list.
(** 921-938 and 945-961: before [start] zero or kept, then the share of the old total *)
Definition shared (zero : bool) (j start n : nat) (photo total shell : list num) : list num :=
  map (fun i =>
    if Nat.ltb i start then (if zero then n0 else nth i shell n0)
    else if nth i total n0 >? n0 then nth (i - j) photo n0 * (nth i shell n0 / nth i total n0) else n0) (seq 0 n).
Definition sharedShells (edges : list (string * (num * Z))) (j n : nat) (photo total : list num) (t : vtable) : vtable :=
  fold_left (fun t shell =>
    match edges with
    | [] => mset sltb shell (shared false j j n photo total (vat t shell)) t
    | _ => match mfind sltb shell edges with
           | Some (_, idx) => mset sltb shell (shared true j (j + Z.to_nat idx + 1) n photo total (vat t shell)) t
           | None => t
           end
    end) photoShells t.
(** 769-977, after the element was reset to the tables [t] of EPDL97 *)
Definition mergeTables (e : element) (t : vtable) (energy photo coherent compton pairv : list num) : element * res unit :=
  match energy with
  | [] => (e, UB)
  | e0 :: _ =>
      match countBelow (vat t "energy") e0 0 with
      | Ok j0 =>
          let j := (j0 - 1)%nat in
          match extractEdges_from e energy photo with
          | (e, Ok edges) =>
              let grid := newGrid edges (Element.getBindingEnergies e) j (vat t "energy") energy in
              let n := length grid in
              match (let? t2 := Element.getMassAttenuationCoefficients_vec e grid in
                     let? h := overwrite j n coherent (vat t2 "coherent") in
                     let? k := overwrite j n compton (vat t2 "compton") in
                     let? p := overwrite j n pairv (vat t2 "pair") in
                     let? f := overwrite j n photo (vat t2 "photoelectric") in
                     Ok (vat t2 "photoelectric", mset_all sltb [("coherent", h); ("compton", k); ("pair", p); ("photoelectric", f)] t2))%res with
              | Ok (total, t3) =>
                  match extractEdges_from e energy photo with
                  | (e, Ok edges) => putTables (sharedShells edges j n photo total t3) e
                  | (e, r) => (e, rmap (fun _ => tt) r)
                  end
              | r => (e, rmap (fun _ => tt) r)
              end
          | (e, r) => (e, rmap (fun _ => tt) r)
          end
      | r => (e, rmap (fun _ => tt) r)
      end
  end.
(** Elements::setMassAttenuationCoefficients, 716-978 *)
Definition setMassAttenuationCoefficients (lb : library) (name : string) (energy photo coherent compton pairv : list num) : library * res unit :=
  match mfind sltb name (es_dict (lb_es lb)) with
  | None => (lb, Throw InvalidArgument)
  | Some i =>
      match nth_error (es_list (lb_es lb)) i with
      | None => (lb, UB)
      | Some e =>
          match getMassAttenuationTables (lb_epdl lb) (el_z e) with
          | Ok t => let (e', r) := seqOk (putTables t e) (fun e => mergeTables e t energy photo coherent compton pairv) in
                    (with_list lb (set_nth (es_list (lb_es lb)) i e'), r)
          | r => (lb, rmap (fun _ => tt) r)
          end
      end
  end.

(** ** Mass attenuation file *)
(** key.find(word) != npos with key in upper case; 647-699: what the column is for *)
Definition fills (q : string) (label : string) : bool :=
  let key := upper label in
  if String.eqb q "coherent" then contains "RAYLEIGH" key || (contains "COHERENT" key && negb (contains "INCOHERENT" key))
  else if String.eqb q "energy" then contains "ENERGY" key
  else if String.eqb q "photoelectric" then contains "PHOTO" key
  else if String.eqb q "pair" then contains "PAIR" key
  else contains "COMPTON" key.
(** the loop 646-699 for one of the five vectors: a later column replaces an earlier one. The vectors
    are independent of each other; data[j][i] beyond the row is undefined for any of them. *)
Fixpoint fileColumn (q : string) (labels : list string) (i : nat) (data : list (list num)) (v : list num) : res (list num) :=
  match labels with
  | [] => Ok v
  | l :: r => if fills q l then (let? w := rmapM (fun row => vget row i) data in fileColumn q r (S i) data w)%res
              else fileColumn q r (S i) data v
  end.
Fixpoint muScans (sf : specfile) (todo : list nat) (lb : library) : library * res unit :=
  match todo with
  | [] => (lb, Ok tt)
  | n :: r =>
      match (let? labels := getScanLabels sf n in
             let? data := getScanData strtod sf n in
             let? energy := fileColumn "energy" labels 0 data [] in
             let? photo := fileColumn "photoelectric" labels 0 data [] in
             let? coherent := fileColumn "coherent" labels 0 data [] in
             let? compton := fileColumn "compton" labels 0 data [] in
             let? pairv := fileColumn "pair" labels 0 data [] in
             let? e := vget (es_list (lb_es lb)) n in
             Ok (el_name e, energy, photo, coherent, compton, pairv))%res with
      | Ok (name, energy, photo, coherent, compton, pairv) =>
          match setMassAttenuationCoefficients lb name energy photo coherent compton pairv with
          | (lb, Ok _) => muScans sf r lb
          | (lb, o) => (lb, o)
          end
      | o => (lb, rmap (fun _ => tt) o)
      end
  end.
(** Elements::setMassAttenuationCoefficientsFile, 616-714 *)
Definition setMassAttenuationCoefficientsFile (lb : library) (file : string) : library * res unit :=
  let sf := setFileName (fs file) in
  if Nat.ltb (getNumberOfScans sf) 1 then (lb, Throw IosFailure)
  else muScans sf (seq 0 (getNumberOfScans sf)) lb.

(** ** Constructors *)
(** struct ElementsInfo, fisx_defaultelementsinfo.h 28-37 *)
Record info := mkInfo { i_symbol : string; i_z : Z; i_column : Z; i_row : Z; i_long : string; i_mass : num; i_density : num }.
(** defaultElementsInfo, fisx_defaultelementsinfo.h 39-149 *)
Definition defaultElements : list info := [
   mkInfo "H" 1 1 1 "hydrogen" (nlit 1008 (-3)) (nlit 8988 (-5));
   mkInfo "He" 2 18 1 "helium" (nlit 4003 (-3)) (nlit 1786 (-4));
   mkInfo "Li" 3 1 2 "lithium" (nlit 694 (-2)) (nlit 534 0);
   mkInfo "Be" 4 2 2 "beryllium" (nlit 9012 (-3)) (nlit 1848 0);
   mkInfo "B" 5 13 2 "boron" (nlit 10811 (-3)) (nlit 2340 0);
   mkInfo "C" 6 14 2 "carbon" (nlit 1201 (-2)) (nlit 1580 0);
   mkInfo "N" 7 15 2 "nitrogen" (nlit 14008 (-3)) (nlit 125 (-2));
   mkInfo "O" 8 16 2 "oxygen" (nlit 16 0) (nlit 1429 (-3));
   mkInfo "F" 9 17 2 "fluorine" (nlit 19 0) (nlit 1108 0);
   mkInfo "Ne" 10 18 2 "neon" (nlit 20183 (-3)) (nlit 9002 (-4));
   mkInfo "Na" 11 1 3 "sodium" (nlit 22997 (-3)) (nlit 970 0);
   mkInfo "Mg" 12 2 3 "magnesium" (nlit 2432 (-2)) (nlit 1740 0);
   mkInfo "Al" 13 13 3 "aluminium" (nlit 2697 (-2)) (nlit 2720 0);
   mkInfo "Si" 14 14 3 "silicon" (nlit 28086 (-3)) (nlit 2330 0);
   mkInfo "P" 15 15 3 "phosphorus" (nlit 30975 (-3)) (nlit 1820 0);
   mkInfo "S" 16 16 3 "sulphur" (nlit 32066 (-3)) (nlit 2000 0);
   mkInfo "Cl" 17 17 3 "chlorine" (nlit 35457 (-3)) (nlit 1560 0);
   mkInfo "Ar" 18 18 3 "argon" (nlit 39944 (-3)) (nlit 1784 (-3));
   mkInfo "K" 19 1 4 "potassium" (nlit 39102 (-3)) (nlit 862 0);
   mkInfo "Ca" 20 2 4 "calcium" (nlit 4008 (-2)) (nlit 1550 0);
   mkInfo "Sc" 21 3 4 "scandium" (nlit 4496 (-2)) (nlit 2992 0);
   mkInfo "Ti" 22 4 4 "titanium" (nlit 479 (-1)) (nlit 4540 0);
   mkInfo "V" 23 5 4 "vanadium" (nlit 50942 (-3)) (nlit 6110 0);
   mkInfo "Cr" 24 6 4 "chromium" (nlit 51996 (-3)) (nlit 7190 0);
   mkInfo "Mn" 25 7 4 "manganese" (nlit 5494 (-2)) (nlit 7420 0);
   mkInfo "Fe" 26 8 4 "iron" (nlit 5585 (-2)) (nlit 7860 0);
   mkInfo "Co" 27 9 4 "cobalt" (nlit 58933 (-3)) (nlit 8900 0);
   mkInfo "Ni" 28 10 4 "nickel" (nlit 5869 (-2)) (nlit 8900 0);
   mkInfo "Cu" 29 11 4 "copper" (nlit 6354 (-2)) (nlit 8940 0);
   mkInfo "Zn" 30 12 4 "zinc" (nlit 6538 (-2)) (nlit 7140 0);
   mkInfo "Ga" 31 13 4 "gallium" (nlit 6972 (-2)) (nlit 5903 0);
   mkInfo "Ge" 32 14 4 "germanium" (nlit 7259 (-2)) (nlit 5323 0);
   mkInfo "As" 33 15 4 "arsenic" (nlit 7492 (-2)) (nlit 5730 0);
   mkInfo "Se" 34 16 4 "selenium" (nlit 7896 (-2)) (nlit 4790 0);
   mkInfo "Br" 35 17 4 "bromine" (nlit 7992 (-2)) (nlit 3120 0);
   mkInfo "Kr" 36 18 4 "krypton" (nlit 838 (-1)) (nlit 374 (-2));
   mkInfo "Rb" 37 1 5 "rubidium" (nlit 8548 (-2)) (nlit 1532 0);
   mkInfo "Sr" 38 2 5 "strontium" (nlit 8762 (-2)) (nlit 2540 0);
   mkInfo "Y" 39 3 5 "yttrium" (nlit 88905 (-3)) (nlit 4405 0);
   mkInfo "Zr" 40 4 5 "zirconium" (nlit 9122 (-2)) (nlit 6530 0);
   mkInfo "Nb" 41 5 5 "niobium" (nlit 92906 (-3)) (nlit 8570 0);
   mkInfo "Mo" 42 6 5 "molybdenum" (nlit 9595 (-2)) (nlit 10220 0);
   mkInfo "Tc" 43 7 5 "technetium" (nlit 99 0) (nlit 11500 0);
   mkInfo "Ru" 44 8 5 "ruthenium" (nlit 10107 (-2)) (nlit 12410 0);
   mkInfo "Rh" 45 9 5 "rhodium" (nlit 10291 (-2)) (nlit 12440 0);
   mkInfo "Pd" 46 10 5 "palladium" (nlit 1064 (-1)) (nlit 12160 0);
   mkInfo "Ag" 47 11 5 "silver" (nlit 10788 (-2)) (nlit 10500 0);
   mkInfo "Cd" 48 12 5 "cadmium" (nlit 11241 (-2)) (nlit 8650 0);
   mkInfo "In" 49 13 5 "indium" (nlit 11482 (-2)) (nlit 7280 0);
   mkInfo "Sn" 50 14 5 "tin" (nlit 11869 (-2)) (nlit 5310 0);
   mkInfo "Sb" 51 15 5 "antimony" (nlit 12176 (-2)) (nlit 6691 0);
   mkInfo "Te" 52 16 5 "tellurium" (nlit 1276 (-1)) (nlit 6240 0);
   mkInfo "I" 53 17 5 "iodine" (nlit 12691 (-2)) (nlit 4940 0);
   mkInfo "Xe" 54 18 5 "xenon" (nlit 1313 (-1)) (nlit 59 (-1));
   mkInfo "Cs" 55 1 6 "caesium" (nlit 13291 (-2)) (nlit 1873 0);
   mkInfo "Ba" 56 2 6 "barium" (nlit 13736 (-2)) (nlit 3500 0);
   mkInfo "La" 57 3 6 "lanthanum" (nlit 13892 (-2)) (nlit 6150 0);
   mkInfo "Ce" 58 4 9 "cerium" (nlit 14013 (-2)) (nlit 6670 0);
   mkInfo "Pr" 59 5 9 "praseodymium" (nlit 14092 (-2)) (nlit 6769 0);
   mkInfo "Nd" 60 6 9 "neodymium" (nlit 14427 (-2)) (nlit 6960 0);
   mkInfo "Pm" 61 7 9 "promethium" (nlit 147 0) (nlit 6782 0);
   mkInfo "Sm" 62 8 9 "samarium" (nlit 15035 (-2)) (nlit 7536 0);
   mkInfo "Eu" 63 9 9 "europium" (nlit 152 0) (nlit 5259 0);
   mkInfo "Gd" 64 10 9 "gadolinium" (nlit 15726 (-2)) (nlit 7950 0);
   mkInfo "Tb" 65 11 9 "terbium" (nlit 15893 (-2)) (nlit 8272 0);
   mkInfo "Dy" 66 12 9 "dysprosium" (nlit 16251 (-2)) (nlit 8536 0);
   mkInfo "Ho" 67 13 9 "holmium" (nlit 16494 (-2)) (nlit 8803 0);
   mkInfo "Er" 68 14 9 "erbium" (nlit 16727 (-2)) (nlit 9051 0);
   mkInfo "Tm" 69 15 9 "thulium" (nlit 16894 (-2)) (nlit 9332 0);
   mkInfo "Yb" 70 16 9 "ytterbium" (nlit 17304 (-2)) (nlit 6977 0);
   mkInfo "Lu" 71 17 9 "lutetium" (nlit 17499 (-2)) (nlit 9842 0);
   mkInfo "Hf" 72 4 6 "hafnium" (nlit 1785 (-1)) (nlit 13300 0);
   mkInfo "Ta" 73 5 6 "tantalum" (nlit 18095 (-2)) (nlit 16600 0);
   mkInfo "W" 74 6 6 "tungsten" (nlit 18392 (-2)) (nlit 19300 0);
   mkInfo "Re" 75 7 6 "rhenium" (nlit 1862 (-1)) (nlit 21020 0);
   mkInfo "Os" 76 8 6 "osmium" (nlit 1902 (-1)) (nlit 22500 0);
   mkInfo "Ir" 77 9 6 "iridium" (nlit 1922 (-1)) (nlit 22420 0);
   mkInfo "Pt" 78 10 6 "platinum" (nlit 19509 (-2)) (nlit 21370 0);
   mkInfo "Au" 79 11 6 "gold" (nlit 1972 (-1)) (nlit 19370 0);
   mkInfo "Hg" 80 12 6 "mercury" (nlit 20061 (-2)) (nlit 13546 0);
   mkInfo "Tl" 81 13 6 "thallium" (nlit 20439 (-2)) (nlit 11860 0);
   mkInfo "Pb" 82 14 6 "lead" (nlit 20721 (-2)) (nlit 11340 0);
   mkInfo "Bi" 83 15 6 "bismuth" (nlit 209 0) (nlit 9800 0);
   mkInfo "Po" 84 16 6 "polonium" (nlit 209 0) (nlit 9320 0);
   mkInfo "At" 85 17 6 "astatine" (nlit 210 0) (nlit 0 0);
   mkInfo "Rn" 86 18 6 "radon" (nlit 222 0) (nlit 973 (-2));
   mkInfo "Fr" 87 1 7 "francium" (nlit 223 0) (nlit 0 0);
   mkInfo "Ra" 88 2 7 "radium" (nlit 226 0) (nlit 5500 0);
   mkInfo "Ac" 89 3 7 "actinium" (nlit 227 0) (nlit 0 0);
   mkInfo "Th" 90 4 10 "thorium" (nlit 232 0) (nlit 11700 0);
   mkInfo "Pa" 91 5 10 "proactinium" (nlit 23103588 (-5)) (nlit 15370 0);
   mkInfo "U" 92 6 10 "uranium" (nlit 23807 (-2)) (nlit 19050 0);
   mkInfo "Np" 93 7 10 "neptunium" (nlit 237 0) (nlit 20250 0);
   mkInfo "Pu" 94 8 10 "plutonium" (nlit 2391 (-1)) (nlit 19700 0);
   mkInfo "Am" 95 9 10 "americium" (nlit 243 0) (nlit 13670 0);
   mkInfo "Cm" 96 10 10 "curium" (nlit 247 0) (nlit 13510 0);
   mkInfo "Bk" 97 11 10 "berkelium" (nlit 247 0) (nlit 13250 0);
   mkInfo "Cf" 98 12 10 "californium" (nlit 251 0) (nlit 15100 0);
   mkInfo "Es" 99 13 10 "einsteinium" (nlit 252 0) (nlit 0 0);
   mkInfo "Fm" 100 14 10 "fermium" (nlit 257 0) (nlit 0 0);
   mkInfo "Md" 101 15 10 "mendelevium" (nlit 258 0) (nlit 0 0);
   mkInfo "No" 102 16 10 "nobelium" (nlit 259 0) (nlit 0 0);
   mkInfo "Lr" 103 17 10 "lawrencium" (nlit 262 0) (nlit 0 0);
   mkInfo "Rf" 104 4 7 "rutherfordium" (nlit 261 0) (nlit 0 0);
   mkInfo "Db" 105 5 7 "dubnium" (nlit 262 0) (nlit 0 0);
   mkInfo "Sg" 106 6 7 "seaborgium" (nlit 266 0) (nlit 0 0);
   mkInfo "Bh" 107 7 7 "bohrium" (nlit 264 0) (nlit 0 0);
   mkInfo "Hs" 108 8 7 "hassium" (nlit 269 0) (nlit 0 0);
   mkInfo "Mt" 109 9 7 "meitnerium" (nlit 268 0) (nlit 0 0)].
Definition lift (s : element * res unit) : res element := match s with (e, Ok _) => Ok e | (_, Throw x) => Throw x | (_, UB) => UB | (_, Diverge) => Diverge end.
(** the loop of initialize, 183-211, for one element *)
Definition predefined (ep : @epdl N) (d : info) : res element :=
  (let? e := element_new (i_symbol d) (i_z d) in
   let e := setLongName (Element.setRow (setColumn e (i_column d)) (i_row d)) (i_long d) in
   let? e := lift (setAtomicMass e (i_mass d)) in
   let e := if i_density d >? nlit 1 (-10) then setDensity e (i_density d / nlit 1000 0) else e in
   let? b := EPDL97.getBindingEnergies ep (i_z d) in
   let? e := lift (Element.setBindingEnergies e b) in
   let? t := getMassAttenuationTables ep (i_z d) in
   lift (putTables t e))%res.
Definition symbolDict (l : list info) : list (string * nat) :=
  mset_all sltb (combine (map i_symbol l) (seq 0 (length l))) [].
(** a call of the constructor that throws leaves no object *)
Definition liftLib (s : library * res unit) : res library := match s with (lb, Ok _) => Ok lb | (_, Throw x) => Throw x | (_, UB) => UB | (_, Diverge) => Diverge end.
Definition liftEpdl (s : @epdl N * res unit) : res epdl := match s with (ep, Ok _) => Ok ep | (_, Throw x) => Throw x | (_, UB) => UB | (_, Diverge) => Diverge end.
Definition noFiles : list (string * string) := [("K", ""); ("L", ""); ("M", "")].
(** Elements::initialize on a new object, 136-249. directory.substr(size - 1, 1) of an empty name
    throws already in setDataDirectory; one character never equals the joinSymbol "//". *)
Definition initialize (directory bindingFile : string) : res library :=
  (let? ep := liftEpdl (setDataDirectory strtod fs directory epdl_new) in
   let? ep := if Nat.eqb (String.length bindingFile) 0 then Ok ep else liftEpdl (loadBindingEnergies strtod ep (fs bindingFile)) in
   let? l := rmapM (predefined ep) defaultElements in
   let lb := mkLibrary (with_elements elements_empty (symbolDict defaultElements) l) ep noFiles noFiles noFiles in
   let name f := (directory ++ "//" ++ f) in
   let? lb := liftLib (setShellConstantsFile lb "K" (name "EADL97_KShellConstants.dat")) in
   let? lb := liftLib (setShellConstantsFile lb "L" (name "EADL97_LShellConstants.dat")) in
   let? lb := liftLib (setShellConstantsFile lb "M" (name "EADL97_MShellConstants.dat")) in
   let? lb := liftLib (setShellNonradiativeTransitionsFile lb "K" (name "EADL97_KShellNonradiativeRates.dat")) in
   let? lb := liftLib (setShellNonradiativeTransitionsFile lb "L" (name "EADL97_LShellNonradiativeRates.dat")) in
   let? lb := liftLib (setShellNonradiativeTransitionsFile lb "M" (name "EADL97_MShellNonradiativeRates.dat")) in
   let? lb := liftLib (setShellRadiativeTransitionsFile lb "K" (name "EADL97_KShellRadiativeRates.dat")) in
   let? lb := liftLib (setShellRadiativeTransitionsFile lb "L" (name "EADL97_LShellRadiativeRates.dat")) in
   liftLib (setShellRadiativeTransitionsFile lb "M" (name "EADL97_MShellRadiativeRates.dat")))%res.
(** Elements(epdl97Directory, bindingEnergiesFileName, crossSectionsFile), 57-68 *)
Definition elements_files (directory bindingFile crossFile : string) : res library :=
  (let? lb := initialize directory bindingFile in
   if Nat.eqb (String.length crossFile) 0 then Ok lb else liftLib (setMassAttenuationCoefficientsFile lb crossFile))%res.
(** Elements(epdl97Directory), 70-81; [dataDir]: defaultDataDir() *)
Definition elements_directory (dataDir directory : string) : res library :=
  initialize (if Nat.eqb (String.length directory) 0 then dataDir else directory) "".
(** Elements(directoryName, pymca), 83-134: an empty name throws in substr *)
Definition elements_pymca (directory : string) (pymca : Z) : res library :=
  if Nat.eqb (String.length directory) 0 then Throw OutOfRange
  else if (pymca =? 0)%Z then initialize directory ""
  else
    let name f := (directory ++ "//" ++ f) in
    (let? lb := initialize directory (name "BindingEnergies.dat") in
     let? lb := liftLib (setMassAttenuationCoefficientsFile lb (name "XCOM_CrossSections.dat")) in
     let? lb := liftLib (setShellConstantsFile lb "K" (name "KShellConstants.dat")) in
     let? lb := liftLib (setShellConstantsFile lb "L" (name "LShellConstants.dat")) in
     let? lb := liftLib (setShellConstantsFile lb "M" (name "MShellConstants.dat")) in
     let? lb := liftLib (setShellRadiativeTransitionsFile lb "K" (name "KShellRates.dat")) in
     let? lb := liftLib (setShellRadiativeTransitionsFile lb "L" (name "LShellRates.dat")) in
     liftLib (setShellRadiativeTransitionsFile lb "M" (name "MShellRates.dat")))%res.
End Files.
