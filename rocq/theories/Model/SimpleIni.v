(** Model of class SimpleIni (src/fisx_simpleini.h, src/fisx_simpleini.cpp): reader of INI files.
    A file is the sequence of its bytes. Not modelled: messages on std::cout, the members fileName
    and sectionPositions (written, never read), numeric conversions (parseStringAsSingleValue and
    parseStringAsMultipleValues for T other than std::string). *)
From Coq Require Import Ascii String List Bool Arith.
From Verif Require Import Base.Res Base.SMap Base.Str Base.Text.
Import ListNotations.
Set Implicit Arguments.

(** data members, fisx_simpleini.h 145-150; defaultContent is emptied before every use *)
Record ini := mkIni {
  ini_sections : list string;                              (* sections *)
  ini_contents : list (string * list (string * string)) }. (* sectionContents *)

(** SimpleIni::SimpleIni(), fisx_simpleini.cpp 37-42 *)
Definition ini_new : ini := mkIni [] [].

(** the characters of find_last_not_of / find_first_not_of, 88, 92 *)
Definition blank (c : ascii) : bool :=
  Ascii.eqb c " "%char || Ascii.eqb c newline || Ascii.eqb c creturn || Ascii.eqb c tab.
(** 83-95 *)
Definition trim (line : text) : text := lstrip blank (rstrip blank line).

(** the loop over a header line, 110-125: number of brackets and position of the last ']';
    None when another '[' is found (throw at 115). [i] is the index of the first character of [t]. *)
Fixpoint headerScan (t : text) (i nItems p1 : nat) : option (nat * nat) :=
  match t with
  | [] => Some (nItems, p1)
  | c :: r => if Ascii.eqb c "["%char then None
              else if Ascii.eqb c "]"%char then headerScan r (S i) (S nItems) i
              else headerScan r (S i) nItems p1
  end.

(** the loop over any other line, 141-180: text kept, number of quotes, position of the first '='
    that is not the first character of the text kept. After '#' or ';' the index is set to the
    length of the line and the character read there is the terminating NUL. *)
Fixpoint scan (t tmp : text) (nQuotes eq : nat) : text * nat * nat :=
  match t with
  | [] => (tmp, nQuotes, eq)
  | c :: r =>
      if Ascii.eqb c """"%char then scan r (tmp ++ [c]) (S nQuotes) eq
      else if Nat.odd nQuotes then scan r (tmp ++ [c]) nQuotes eq
      else if Ascii.eqb c "#"%char || Ascii.eqb c ";"%char then (tmp ++ [nul], nQuotes, eq)
      else
        let tmp' := if Nat.eqb eq 0 then (if isspace c then tmp else tmp ++ [c]) else tmp ++ [c] in
        let eq' := if Ascii.eqb c "="%char && Nat.eqb eq 0 then length tmp' - 1 else eq in
        scan r tmp' nQuotes eq'
  end.

(** local variables of readFileName that live across lines (mainKey, key) and the object *)
Record parse := mkParse { ps_main : text; ps_key : text; ps_ini : ini }.

(** this->sectionContents[mainKey] *)
Definition section_or_empty (i : ini) (name : string) : list (string * string) :=
  match mfind sltb name (ini_contents i) with Some m => m | None => [] end.
Definition set_value (i : ini) (sec key value : string) : ini :=
  mkIni (ini_sections i) (mset sltb sec (mset sltb key value (section_or_empty i sec)) (ini_contents i)).
(** this->sectionContents[mainKey][key] += tmpString, 215 *)
Definition append_value (i : ini) (sec key value : string) : ini :=
  let old := match mfind sltb key (section_or_empty i sec) with Some v => v | None => EmptyString end in
  set_value i sec key (old ++ value).

(** one line, 79-223; on an exception the object keeps what was stored before *)
Definition parseLine (p : parse) (line : text) : parse * res unit :=
  match trim line with
  | [] => (p, Ok tt)
  | c :: rest =>
      if Ascii.eqb c "["%char then
        match headerScan rest 1 1 0 with
        | None => (p, Throw InvalidArgument)
        | Some (nItems, p1) =>
            (* length = p1 - 0 - 1 is unsigned: p1 = 0 only when nItems is 1 *)
            if negb (Nat.eqb nItems 2) || Nat.ltb (p1 - 1) 1 then (p, Throw InvalidArgument)
            else
              let mainKey := firstn (p1 - 1) rest in
              (mkParse mainKey (ps_key p) (mkIni (ini_sections (ps_ini p) ++ [str mainKey]) (ini_contents (ps_ini p))), Ok tt)
        end
      else
        let '(tmp, nQuotes, eq) := scan (c :: rest) [] 0 0 in
        if Nat.odd nQuotes then (p, Throw InvalidArgument)
        else if Nat.ltb (length tmp) 1 then (mkParse (ps_main p) [] (ps_ini p), Ok tt)
        else if Nat.ltb 0 eq then
          let key := firstn eq tmp in
          let content := skipn (eq + 1) tmp in
          (mkParse (ps_main p) key (set_value (ps_ini p) (str (ps_main p)) (str key) (str content)), Ok tt)
        else if Nat.ltb 0 (length (ps_key p)) && Nat.ltb 0 (length (ps_main p)) then
          (mkParse (ps_main p) (ps_key p) (append_value (ps_ini p) (str (ps_main p)) (str (ps_key p)) (str tmp)), Ok tt)
        else (p, Ok tt)
  end.
Fixpoint parseLines (p : parse) (ls : list text) : parse * res unit :=
  match ls with
  | [] => (p, Ok tt)
  | l :: r => match parseLine p l with (p', Ok tt) => parseLines p' r | (p', e) => (p', e) end
  end.

(** SimpleIni::readFileName, 50-230. [file]: None if it cannot be opened. sectionContents is not
    emptied (only sections is, 74). *)
Definition readFileName (i : ini) (file : option text) : ini * res unit :=
  match file with
  | None => (i, Throw IosFailure)
  | Some t => let '(p, r) := parseLines (mkParse [] [] (mkIni [] (ini_contents i))) (getlines t) in (ps_ini p, r)
  end.

(** SimpleIni::getSections, 233-236 *)
Definition getSections (i : ini) : list string := ini_sections i.

(** SimpleIni::toUpper, fisx_simpleini.h 69-76, C locale *)
Definition toUpper (s : string) : string := smap_chars toupper s.

(** SimpleIni::getSubsections, 238-288 *)
Definition getSubsections (i : ini) (parent : string) (caseSensitive : bool) : list string :=
  if Nat.eqb (String.length parent) 0 then ini_sections i
  else if caseSensitive then
    let target := (parent ++ ".")%string in
    filter (fun s => Nat.eqb (String.length s) (String.length target) && String.eqb (String.substring 0 (String.length target) s) target)
           (ini_sections i)
  else
    let target := toUpper (parent ++ ".")%string in
    filter (fun s => Nat.leb (String.length target) (String.length s) &&
                     String.eqb (String.substring 0 (String.length target) (toUpper s)) target) (ini_sections i).

(** the comparison loop 312-320: true when it leaves before the end (j < size) *)
Fixpoint differs (tmpKey inputKey : string) : bool :=
  match tmpKey, inputKey with
  | String a r, String b s => if Ascii.eqb (toupper a) b then differs r s else true
  | _, _ => false
  end.
(** SimpleIni::readSection, 290-332: answer and object afterwards (line 323 inserts an empty
    section when the section found has no contents) *)
Fixpoint findSection (sections : list string) (inputKey : string) : option string :=
  match sections with
  | [] => None
  | s :: r => if Nat.eqb (String.length s) (String.length inputKey) && differs s inputKey then Some s else findSection r inputKey
  end.
Definition readSection (i : ini) (key : string) (caseSensitive : bool) : ini * list (string * string) :=
  match mfind sltb key (ini_contents i) with
  | Some m => (i, m)
  | None =>
      if caseSensitive then (i, [])
      else match findSection (ini_sections i) (toUpper key) with
           | None => (i, [])
           | Some s => (mkIni (ini_sections i) (mset sltb s (section_or_empty i s) (ini_contents i)), section_or_empty i s)
           end
  end.

(** SimpleIni::stringConverter<std::string>, 125-135: operator>> skips white space and reads a
    word; it fails when there is none *)
Fixpoint word (t : text) : text :=
  match t with [] => [] | c :: r => if isspace c then [] else c :: word r end.
Definition readWord (t : text) : option text :=
  match word (lstrip isspace t) with [] => None | w => Some w end.
(** successive std::getline(ss, item, separator) calls *)
Fixpoint split (sep : ascii) (t : text) : list text :=
  match t with
  | [] => []
  | c :: r =>
      if Ascii.eqb c sep then [] :: split sep r
      else match split sep r with [] => [[c]] | l :: ls => (c :: l) :: ls end
  end.
(** SimpleIni::parseStringAsMultipleValues<std::string>, 106-123 *)
Definition parseStringAsMultipleValues (keyContent : text) (defaultValue : text) (separator : ascii) : list text :=
  map (fun item => match readWord item with Some w => w | None => defaultValue end) (split separator keyContent).
(** SimpleIni::startsWith, 140-143 *)
Definition startsWith (stringToCheck testString : string) : bool := String.prefix testString stringToCheck.
