(** What an INI file says, independently of the reader: a document is a list of lines; each line
    has a written form and a meaning. *)
From Coq Require Import Ascii String List Bool Arith.
From Verif Require Import Base.Str Base.Text.
Import ListNotations.
Set Implicit Arguments.

(** blanks that may surround the contents of a line *)
Definition pad_char (c : ascii) : Prop := c = " "%char \/ c = tab \/ c = creturn.
Definition pad (t : text) : Prop := Forall pad_char t.
Definition none_of (forbidden : list ascii) (t : text) : Prop := Forall (fun c => ~ In c forbidden) t.
Definition space (c : ascii) : Prop := isspace c = true.

(** A value is a sequence of plain pieces and quoted pieces. *)
Inductive piece := Plain (t : text) | Quoted (t : text).
Definition piece_text (p : piece) : text := match p with Plain t => t | Quoted t => """"%char :: t ++ [""""%char] end.
Definition value_text (v : list piece) : text := concat (map piece_text v).
Definition piece_ok (p : piece) : Prop :=
  match p with
  | Plain t => none_of [""""; "#"; ";"; newline]%char t
  | Quoted t => none_of [""""; newline]%char t
  end.
Definition no_blank_end (t : text) : Prop := t = [] \/ exists a c, t = a ++ [c] /\ ~ pad_char c.

Inductive line :=
| Blank (p : text)
| Header (p name tail : text)                       (* p [name] tail *)
| Entry (p key : text) (value : list piece) (q : text) (* p key = value q *)
| Long (p key : text) (value : list piece) (q : text) (more : list (text * list piece * text)).
                                                    (* an entry continued on further lines: p value q each *)

Definition more_text (m : text * list piece * text) : text := fst (fst m) ++ value_text (snd (fst m)) ++ snd m.
Definition entry_text (p key : text) (value : list piece) (q : text) : text := p ++ key ++ "="%char :: value_text value ++ q.
Definition line_texts (l : line) : list text :=
  match l with
  | Blank p => [p]
  | Header p name tail => [p ++ "["%char :: name ++ "]"%char :: tail]
  | Entry p key value q => [entry_text p key value q]
  | Long p key value q more => entry_text p key value q :: map more_text more
  end.
(** Well-formed lines. The text of a key may contain white space, which the reader drops; the text
    after the closing bracket of a header is ignored. A continuation has no '=' outside quotes (it would
    be an entry) and may be blank. *)
Definition entry_ok (p key : text) (value : list piece) (q : text) : Prop :=
  pad p /\ pad q /\ none_of ["="; """"; "#"; ";"; newline]%char key /\
  (exists c r, key = c :: r /\ ~ space c /\ c <> "["%char) /\
  Forall piece_ok value /\ no_blank_end (value_text value).
Definition more_ok (m : text * list piece * text) : Prop :=
  let '(p, value, q) := m in
  pad p /\ pad q /\ Forall piece_ok value /\ Forall (fun x => match x with Plain t => none_of ["="%char] t | Quoted _ => True end) value /\
  (value_text value = [] \/ (exists c r, value_text value = c :: r /\ ~ space c /\ c <> "["%char) /\ no_blank_end (value_text value)).
Definition line_ok (l : line) : Prop :=
  match l with
  | Blank p => pad p
  | Header p name tail => pad p /\ name <> [] /\ none_of ["["; "]"; newline]%char name /\ none_of ["["; "]"; newline]%char tail
  | Entry p key value q => entry_ok p key value q
  | Long p key value q more => entry_ok p key value q /\ Forall more_ok more
  end.
Definition document := list line.
Definition document_text (d : document) : text := concat (map (fun t => t ++ [newline]) (flat_map line_texts d)).

(** the sections in the order of their headers *)
Definition sections_of (d : document) : list string :=
  flat_map (fun l => match l with Header _ name _ => [str name] | _ => [] end) d.
(** all entries in order: section (of the closest header above), key without white space, value
    (verbatim: quotes and the white space after '=' belong to it). Continuations are appended without
    the white space outside quotes; those of an entry before the first header are ignored. *)
Definition key_of (t : text) : text := filter (fun c => negb (isspace c)) t.
Definition squeeze (v : list piece) : text := concat (map (fun p => match p with Plain t => key_of t | Quoted _ => piece_text p end) v).
Definition continuation (sec : string) (more : list (text * list piece * text)) : text :=
  if String.eqb sec EmptyString then [] else concat (map (fun m => squeeze (snd (fst m))) more).
Fixpoint entries_from (sec : string) (d : document) : list (string * string * string) :=
  match d with
  | [] => []
  | Blank _ :: r => entries_from sec r
  | Header _ name _ :: r => entries_from (str name) r
  | Entry _ key value _ :: r => (sec, str (key_of key), str (value_text value)) :: entries_from sec r
  | Long _ key value _ more :: r => (sec, str (key_of key), str (value_text value ++ continuation sec more)) :: entries_from sec r
  end.
Definition entries_of (d : document) := entries_from EmptyString d.
(** the value of a key in a section: that of its last entry *)
Fixpoint last_value (sec key : string) (es : list (string * string * string)) : option string :=
  match es with
  | [] => None
  | (s, k, v) :: r =>
      match last_value sec key r with
      | Some w => Some w
      | None => if String.eqb s sec && String.eqb k key then Some v else None
      end
  end.
Definition value_of (d : document) (sec key : string) : option string := last_value sec key (entries_of d).

(** equality up to letter case *)
Definition same_letters (s t : string) : Prop := smap_chars toupper s = smap_chars toupper t.
