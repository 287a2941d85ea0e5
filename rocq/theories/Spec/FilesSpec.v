(** What the data files of a library of elements say, independently of the reader. The labels and the
    rows of numbers of a scan are those of Spec/SpecfileSpec.v (see C41, C42). *)
From Coq Require Import Ascii String List ZArith Bool Arith.
From Verif Require Import Base.Num Base.Res Base.SMap Base.Str Base.Text Model.Specfile Model.Element Model.Elements Spec.MaterialSpec Spec.ElementSpec.
Import ListNotations.
Set Implicit Arguments.
Local Open Scope string_scope.

(** the subshells of a main shell: one scan of the file for each, in this order *)
Definition main_shells : list (string * list string) :=
  [("K", ["K"]); ("L", ["L1"; "L2"; "L3"]); ("M", ["M1"; "M2"; "M3"; "M4"; "M5"])].

(** the name of the quantity in a column: the label itself, except for the column of atomic numbers *)
Definition as_labelled (label k : string) : Prop := label <> "Z" /\ k = label.
(** shell constants: a label of more than four characters counts only if it starts with omega *)
Definition as_constant (label k : string) : Prop :=
  label <> "Z" /\ ((String.length label <= 4)%nat /\ k = label \/ (exists rest, label = "omega" ++ rest) /\ k = "omega").

Section Says.
Context {N : Num}.
Variable strtod : text -> num.
(** a row says that the quantity k has the value v: in the last column named k *)
Definition says (as_ : string -> string -> Prop) (labels : list string) (row : list num) (k : string) (v : num) : Prop :=
  exists j l, nth_error labels j = Some l /\ as_ l k /\ nth_error row j = Some v /\
    forall j' l', (j < j')%nat -> nth_error labels j' = Some l' -> ~ as_ l' k.
(** a scan of a file *)
Definition scan_is (content : option text) (i : nat) (labels : list string) (rows : list (list num)) : Prop :=
  getScanLabels (setFileName content) i = Ok labels /\ getScanData strtod (setFileName content) i = Ok rows.

(** everything of an element but its subshells and caches is the same *)
Definition kept (e e' : @element N) : Prop :=
  el_name e' = el_name e /\ el_longName e' = el_longName e /\ el_z e' = el_z e /\ el_mass e' = el_mass e /\ el_density e' = el_density e /\
  el_column e' = el_column e /\ el_row e' = el_row e /\ el_binding e' = el_binding e /\ el_mu e' = el_mu e /\ el_muE e' = el_muE e /\
  el_ppE e' = el_ppE e /\ el_ppV e' = el_ppV e /\ el_cascFlag e' = el_cascFlag e /\ el_cacheFlag e' = el_cacheFlag e /\
  map fst (el_shells e') = map fst (el_shells e).

(** the changes a file asks for the element of position n: for the subshell of scan i the values of
    row n, if there is such a row and the subshell is bound *)
Inductive file_calls (op : string -> list (string * num) -> el_op) (bound : string -> Prop) (as_ : string -> string -> Prop)
  (content : option text) (n : nat) : nat -> list string -> list el_op -> Prop :=
| no_more i : file_calls op bound as_ content n i [] []
| no_call i sub subs calls labels rows :
    scan_is content i labels rows -> nth_error rows n = None \/ ~ bound sub ->
    file_calls op bound as_ content n (S i) subs calls -> file_calls op bound as_ content n i (sub :: subs) calls
| one_call i sub subs calls labels rows row d :
    scan_is content i labels rows -> nth_error rows n = Some row -> bound sub ->
    is_map d -> (forall k v, mfind sltb k d = Some v <-> says as_ labels row k v) ->
    file_calls op bound as_ content n (S i) subs calls -> file_calls op bound as_ content n i (sub :: subs) (op sub d :: calls).
End Says.

(** binding energies: the shell a label stands for. K for a label that starts with K; otherwise the
    part before a bracket in third place counted from zero, or the first two characters *)
Definition as_shell (label k : string) : Prop :=
  exists rest, label = k ++ rest /\
    (k = "K" \/ (forall r, label <> "K" ++ r) /\
       (String.length k = 3%nat /\ (exists r, rest = "(" ++ r) \/
        (forall a b c r, label <> String a (String b (String c ("(" ++ r)))) /\ (String.length k = 2%nat \/ rest = "" /\ (String.length k < 2)%nat))).

(** the results of successive queries, each starting from where the previous one left the object *)
Inductive successive {N : Num} (query : nat -> num -> nat * res (list (string * num))) : nat -> list num -> list (list (string * num)) -> nat -> Prop :=
| query_none last : successive query last [] [] last
| query_one last e es last' t ts l : query last e = (last', Ok t) -> successive query last' es ts l -> successive query last (e :: es) (t :: ts) l.
