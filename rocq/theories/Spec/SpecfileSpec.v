(** What a SPEC file says, independently of the reader. *)
From Coq Require Import Ascii String List Bool Arith.
From Verif Require Import Base.Str Base.Text.
Import ListNotations.
Set Implicit Arguments.

(** characters of which numbers are made *)
Definition number_char (c : ascii) : Prop :=
  In c ["0"; "1"; "2"; "3"; "4"; "5"; "6"; "7"; "8"; "9"; "-"; "+"; "."; "E"; "e"]%char.
(** a data row: each number preceded by separators, then trailing separators *)
Record row := mkRow { r_numbers : list (text * text); r_end : text }.
Definition row_text (r : row) : text := concat (map (fun st => fst st ++ snd st) (r_numbers r)) ++ r_end r.
Definition separator (t : text) : Prop := Forall (fun c => ~ number_char c /\ c <> newline) t.
Definition row_ok (r : row) : Prop :=
  r_numbers r <> [] /\
  Forall (fun st => separator (fst st) /\ snd st <> [] /\ Forall number_char (snd st)) (r_numbers r) /\
  Forall (fun st => fst st <> []) (tl (r_numbers r)) /\ separator (r_end r) /\
  2 <= length (row_text r) /\ hd nul (row_text r) <> "#"%char.
Definition row_numbers (r : row) : list text := map snd (r_numbers r).

(** a label: not empty, no two spaces in a row, no space at either end *)
Definition label_ok (t : text) : Prop :=
  t <> [] /\ hd nul t <> " "%char /\ last t nul <> " "%char /\ last t nul <> creturn /\ ~ In newline t /\
  ~ exists a b, t = a ++ " "%char :: " "%char :: b.
(** "#L " and the labels, each after the first preceded by two or more spaces *)
Definition spaces (n : nat) : text := repeat " "%char n.
Definition labels_text (l0 : text) (ls : list (nat * text)) : text :=
  l0 ++ concat (map (fun nl => spaces (2 + fst nl) ++ snd nl) ls).

Inductive body_line :=
| Comment (t : text)                                            (* # and anything but S or L *)
| Labels (l0 : text) (ls : list (nat * text)) (trailing : nat) (cr : bool)
| Row (r : row).
Definition body_text (b : body_line) : text :=
  match b with
  | Comment t => "#"%char :: t
  | Labels l0 ls n cr => "#"%char :: "L"%char :: " "%char :: labels_text l0 ls ++ spaces n ++ (if cr then [creturn] else [])
  | Row r => row_text r
  end.
Definition body_ok (b : body_line) : Prop :=
  match b with
  | Comment t => t <> [] /\ hd nul t <> "S"%char /\ hd nul t <> "L"%char /\ ~ In newline t
  | Labels l0 ls _ _ => label_ok l0 /\ Forall (fun nl => label_ok (snd nl)) ls
  | Row r => row_ok r
  end.

(** a scan: "#S" and a title, its lines, and what separates it from the next scan: a line with at
    most one character followed by any lines that do not start a scan *)
Record scan := mkScan { s_title : text; s_body : list body_line; s_gap : list text }.
Definition not_scan (l : text) : Prop := ~ (exists r, l = "#"%char :: "S"%char :: r) /\ ~ In newline l.
Definition gap_ok (g : list text) : Prop :=
  match g with [] => False | l :: r => length l <= 1 /\ Forall not_scan (l :: r) end.
Definition scan_ok (s : scan) : Prop := ~ In newline (s_title s) /\ Forall body_ok (s_body s).
Definition scan_lines (s : scan) : list text := ("#"%char :: "S"%char :: s_title s) :: map body_text (s_body s) ++ s_gap s.

(** a file: lines before the first scan, then the scans; the last scan may end the file *)
Record file := mkFile { f_head : list text; f_scans : list scan }.
Definition file_lines (f : file) : list text := f_head f ++ flat_map scan_lines (f_scans f).
Fixpoint gaps_ok (l : list scan) : Prop :=
  match l with
  | [] => True
  | [s] => s_gap s = [] \/ gap_ok (s_gap s)
  | s :: r => gap_ok (s_gap s) /\ gaps_ok r
  end.
Definition file_ok (f : file) : Prop :=
  Forall not_scan (f_head f) /\ Forall scan_ok (f_scans f) /\ gaps_ok (f_scans f).

(** the meaning of a scan *)
Definition labels_of (b : body_line) : list (list string) :=
  match b with Labels l0 ls _ _ => [str l0 :: map (fun nl => str (snd nl)) ls] | _ => [] end.
Definition scan_labels (s : scan) : option (list string) := hd_error (flat_map labels_of (s_body s)).
Definition scan_rows (s : scan) : list (list text) :=
  flat_map (fun b => match b with Row r => [row_numbers r] | _ => [] end) (s_body s).
