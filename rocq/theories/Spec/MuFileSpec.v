(** What a file of mass attenuation coefficients says. *)
From Coq Require Import Ascii String List ZArith Bool Arith.
From Verif Require Import Base.Num Base.Res Base.SMap Base.Str Base.Text Model.Specfile Model.EPDL97 Model.Element Model.Elements Model.ElementsFiles
  Spec.EPDL97Spec Spec.FilesSpec.
Import ListNotations.
Set Implicit Arguments.
Local Open Scope string_scope.

(** the quantity a label stands for, capitals or not; a label may stand for several *)
Definition mentions (word label : string) : Prop := occurs word (capitals label).
Inductive stands_for : string -> string -> Prop :=
| for_energy l : mentions "ENERGY" l -> stands_for "energy" l
| for_photo l : mentions "PHOTO" l -> stands_for "photoelectric" l
| for_pair l : mentions "PAIR" l -> stands_for "pair" l
| for_compton l : mentions "COMPTON" l -> stands_for "compton" l
| for_rayleigh l : mentions "RAYLEIGH" l -> stands_for "coherent" l
| for_coherent l : mentions "COHERENT" l -> ~ mentions "INCOHERENT" l -> stands_for "coherent" l.

Section Says.
Context {N : Num}.
Variable strtod : text -> num.
(** the values of a quantity: its last column, or none *)
Definition given_column (q : string) (labels : list string) (rows : list (list num)) (v : list num) : Prop :=
  (v = [] /\ forall l, In l labels -> ~ stands_for q l) \/
  exists j l, nth_error labels j = Some l /\ stands_for q l /\ (forall j' l', (j < j')%nat -> nth_error labels j' = Some l' -> ~ stands_for q l') /\
    Forall2 (fun row x => nth_error row j = Some x) rows v.
(** scan i of a file gives these data *)
Definition scan_gives (content : option text) (i : nat) (energy photo coherent compton pairv : list num) : Prop :=
  exists labels rows, scan_is strtod content i labels rows /\ given_column "energy" labels rows energy /\ given_column "photoelectric" labels rows photo /\
    given_column "coherent" labels rows coherent /\ given_column "compton" labels rows compton /\ given_column "pair" labels rows pairv.
End Says.

(** the elements of a library have different names, by which they are found *)
Definition well_named {N : Num} (es : @elements N) : Prop :=
  NoDup (getElementNames es) /\ (forall n, In n (getElementNames es) -> exists e, getElement es n = Ok e) /\ (forall n e, getElement es n = Ok e -> el_name e = n).
Section Library.
Context {N : Num}.
Variable strtod : text -> num.
(** scan i was given to element i of the library: the element of the result is the one that a call with
    the data of the scan leaves, and [out] is how that call ends *)
Definition scan_applied (lb : @library N) (content : option text) (lb' : library) (i : nat) (out : res unit) : Prop :=
  exists name energy photo coherent compton pairv lbi, nth_error (getElementNames (lb_es lb)) i = Some name /\
    scan_gives strtod content i energy photo coherent compton pairv /\
    setMassAttenuationCoefficients lb name energy photo coherent compton pairv = (lbi, out) /\
    getElement (lb_es lb') name = getElement (lb_es lbi) name.
(** scan i cannot be read, there is no element i, or one of its rows is shorter than the labels *)
Definition scan_unusable (lb : @library N) (content : option text) (i : nat) : Prop :=
  forall labels rows, scan_is strtod content i labels rows ->
    nth_error (getElementNames (lb_es lb)) i = None \/ exists row, In row rows /\ (length row < length labels)%nat.
(** the elements but the first d are as they were *)
Definition others_kept (lb lb' : @library N) (d : nat) : Prop :=
  forall n, ~ In n (firstn d (getElementNames (lb_es lb))) -> getElement (lb_es lb') n = getElement (lb_es lb) n.
End Library.
