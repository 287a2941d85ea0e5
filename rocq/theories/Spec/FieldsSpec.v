(** Lists of values in one text, and the keys of requests such as "Cr K 0". *)
From Coq Require Import Ascii String List ZArith Bool DecimalString.
From Verif Require Import Base.Str Base.Text Spec.IniSpec.
Import ListNotations.
Set Implicit Arguments.

(** the items with the separator between them *)
Fixpoint join (sep : ascii) (items : list text) : text :=
  match items with
  | [] => []
  | [x] => x
  | x :: r => x ++ sep :: join sep r
  end.
(** the value of an item: its first word, or the default value when it has none *)
Definition reads (dflt item value : text) : Prop :=
  (Forall space item /\ value = dflt) \/
  (exists a b, item = a ++ value ++ b /\ Forall space a /\ value <> [] /\ Forall (fun c => ~ space c) value /\ (b = [] \/ exists c r, b = c :: r /\ space c)).

(** the requests that a key can express, and the key *)
Inductive request := Elem (e : string) | Fam (e f : string) | Lay (e f : string) (layer : Z).
Definition key_of_request (r : request) : string :=
  match r with
  | Elem e => e
  | Fam e f => e ++ " " ++ f
  | Lay e f z => e ++ " " ++ f ++ " " ++ NilZero.string_of_int (Z.to_int z)
  end.
Definition bare (s : string) : Prop := s <> EmptyString /\ Forall (fun c => ~ space c) (list_ascii_of_string s).
(** the layers are those an int can hold *)
Definition request_ok (r : request) : Prop :=
  match r with
  | Elem e => bare e
  | Fam e f => bare e /\ bare f
  | Lay e f z => bare e /\ bare f /\ (-2147483648 <= z <= 2147483647)%Z
  end.
(** no family is the empty family, no layer is layer -1 (all the layers) *)
Definition request_element (r : request) : string := match r with Elem e | Fam e _ | Lay e _ _ => e end.
Definition request_family (r : request) : string := match r with Elem _ => EmptyString | Fam _ f | Lay _ f _ => f end.
Definition request_layer (r : request) : Z := match r with Lay _ _ z => z | _ => (-1)%Z end.
