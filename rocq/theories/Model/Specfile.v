(** Model of class SimpleSpecfile (src/fisx_simplespecfile.h, src/fisx_simplespecfile.cpp): reader
    of SPEC files. A file is the sequence of its bytes; the file is assumed not to change between
    setFileName and the queries (which open it again). The byte offsets of tellg/seekg are the
    number of bytes before the line. strtod is a parameter. Not modelled: a locale whose decimal
    separator is not '.' (replaceDot). *)
From Coq Require Import Ascii String List Bool Arith.
From Verif Require Import Base.Num Base.Res Base.Str Base.Text.
Import ListNotations.
Set Implicit Arguments.

(** data members, fisx_simplespecfile.h 72-75; [sf_file]: what the file called fileName contains
    (empty if it cannot be opened: every getline fails at once) *)
Record specfile := mkSpecfile {
  sf_file : text;
  sf_lines : list (nat * nat);   (* scanFilePositions: first line, line after the last *)
  sf_offsets : list nat }.       (* scanPosition: byte offset of the first line *)

(** line.substr(0, 2) == "#S" for a line of at least two characters *)
Definition starts2 (a b : ascii) (line : text) : bool :=
  match line with x :: y :: _ => Ascii.eqb x a && Ascii.eqb y b | _ => false end.
(** scanFilePositions.back().second = e; back() of an empty vector does not occur: a scan is open *)
Fixpoint set_back (l : list (nat * nat)) (e : nat) : list (nat * nat) :=
  match l with [] => [] | [(a, _)] => [(a, e)] | x :: r => x :: set_back r e end.

(** the loop of setFileName, fisx_simplespecfile.cpp 64-88, and lines 90-93 after it. [n]: number
    of the current line, [offset]: its position, [open_]: startLine >= 0. endLine is -1 whenever
    startLine >= 0, so the condition of line 90 is that a scan is open. *)
Fixpoint scanLines (ls : list text) (n offset : nat) (open_ : bool) (pos : list (nat * nat)) (offs : list nat) :
  list (nat * nat) * list nat :=
  match ls with
  | [] => (if open_ then set_back pos n else pos, offs)
  | line :: r =>
      let offset' := offset + length line + 1 in
      if Nat.ltb 1 (length line) then
        if starts2 "#" "S" line then scanLines r (S n) offset' true (pos ++ [(n, n)]) (offs ++ [offset])
        else scanLines r (S n) offset' open_ pos offs
      else if open_ then scanLines r (S n) offset' false (set_back pos n) offs
      else scanLines r (S n) offset' open_ pos offs
  end.
(** SimpleSpecfile::setFileName, 52-103 *)
Definition setFileName (file : option text) : specfile :=
  let t := match file with Some t => t | None => [] end in
  let '(pos, offs) := scanLines (getlines t) 0 0 false [] [] in mkSpecfile t pos offs.

(** SimpleSpecfile::getNumberOfScans, 106-109 *)
Definition getNumberOfScans (s : specfile) : nat := length (sf_lines s).

(** the loop 143-162: at most [n] further iterations, [line] the current line. When getline fails
    the current line is kept or emptied; it does not start with #L, so the outcome is an error. *)
Fixpoint labelLine (n : nat) (line : text) (ls : list text) : text :=
  match n with
  | O => line
  | S n' => if starts2 "#" "L" line then line
            else match ls with [] => line | l :: r => labelLine n' l r end
  end.
(** line.find_first_of(" ") + 1: npos + 1 is 0 *)
Fixpoint afterFirstSpace (t : text) (i : nat) : nat :=
  match t with [] => 0 | c :: r => if Ascii.eqb c " "%char then S i else afterFirstSpace r (S i) end.
(** line.find_last_not_of(" ") + 1 (the line starts with '#') *)
Definition lastNotSpace (t : text) : nat := length (rstrip (fun c => Ascii.eqb c " "%char) t).
Definition trimCR (t : text) : text :=
  match rev t with c :: r => if Ascii.eqb c creturn then rev r else t | [] => t end.
(** 174-181: line.substr(iStart, 1 + iEnd - iStart); the length wraps around to npos when
    iStart > 1 + iEnd *)
Definition labelText (line : text) : text :=
  let line := trimCR line in
  let iStart := afterFirstSpace line 0 in
  let e := lastNotSpace line in
  if Nat.ltb e iStart then skipn iStart line else firstn (e - iStart) (skipn iStart line).
(** 183-205: [cur] holds the characters from iStart to i - 1; a separator is recognised at i only
    while i < size - 2, that is with at least three characters left *)
Fixpoint splitLabels (fuel : nat) (t cur : text) : list text :=
  match fuel with
  | O => []
  | S f =>
      match t with
      | [] => match cur with [] => [] | _ => [cur] end
      | c :: r =>
          if Nat.ltb 2 (length t) then
            match r with
            | d :: _ => if Ascii.eqb c " "%char && Ascii.eqb d " "%char then
                          cur :: splitLabels f (drop_while (fun x => Ascii.eqb x " "%char) t) []
                        else splitLabels f r (cur ++ [c])
            | [] => splitLabels f r (cur ++ [c])
            end
          else splitLabels f [] (cur ++ t)
      end
  end.
(** SimpleSpecfile::getScanLabels, 112-207 (scanIndex >= 0; a negative index throws
    invalid_argument as well) *)
Definition getScanLabels (s : specfile) (scanIndex : nat) : res (list string) :=
  if Nat.leb (getNumberOfScans s) scanIndex then Throw InvalidArgument
  else
    match nth_error (sf_lines s) scanIndex, nth_error (sf_offsets s) scanIndex with
    | Some (first, second), Some off =>
        let line := labelLine (1 + second - first) [] (getlines (skipn off (sf_file s))) in
        if Nat.ltb (length line) 2 then Throw RuntimeError
        else if starts2 "#" "L" line then
          let t := labelText line in Ok (map str (splitLabels (S (length t)) t []))
        else Throw RuntimeError
    | _, _ => UB
    end.

(** macro isNumber, 34 *)
Definition isNumber (c : ascii) : bool :=
  isdigit c || Ascii.eqb c "-" || Ascii.eqb c "+" || Ascii.eqb c "." || Ascii.eqb c "E" || Ascii.eqb c "e".
(** 263-287: the maximal runs of such characters *)
Fixpoint tokens (t cur : text) : list text :=
  match t with
  | [] => match cur with [] => [] | _ => [cur] end
  | c :: r => if isNumber c then tokens r (cur ++ [c])
              else match cur with [] => tokens r [] | _ => cur :: tokens r [] end
  end.

Section Data.
Context {N : Num}.
Variable strtod : text -> num.
(** one line of the loop 243-302 *)
Definition dataLine (rows : list (list num)) (line : text) : res (list (list num)) :=
  let line := trimCR line in
  match line with
  | c :: _ => if Ascii.eqb c "#" then Ok rows else
      match map strtod (tokens line []) with
      | [] => Ok rows
      | nums => match rows with
                | r0 :: _ => if Nat.eqb (length r0) (length nums) then Ok (rows ++ [nums]) else Throw RuntimeError
                | [] => Ok (rows ++ [nums])
                end
      end
  | [] => Ok rows
  end.
(** SimpleSpecfile::getScanData, 209-304 *)
Definition getScanData (s : specfile) (scanIndex : nat) : res (list (list num)) :=
  if Nat.leb (getNumberOfScans s) scanIndex then Throw InvalidArgument
  else
    match nth_error (sf_lines s) scanIndex, nth_error (sf_offsets s) scanIndex with
    | Some (first, second), Some off => rfold dataLine (firstn (second - first) (getlines (skipn off (sf_file s)))) []
    | _, _ => UB
    end.
End Data.
