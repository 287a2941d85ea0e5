(** The predefined elements: the symbols of the first 109 elements, in order of atomic number. *)
From Coq Require Import String List ZArith.
From Verif Require Import Base.Num Base.SMap Model.Element.
Import ListNotations.
Set Implicit Arguments.
Local Open Scope string_scope.
Definition symbols : list string :=
  ["H"; "He";
   "Li"; "Be"; "B"; "C"; "N"; "O"; "F"; "Ne";
   "Na"; "Mg"; "Al"; "Si"; "P"; "S"; "Cl"; "Ar";
   "K"; "Ca"; "Sc"; "Ti"; "V"; "Cr"; "Mn"; "Fe"; "Co"; "Ni"; "Cu"; "Zn"; "Ga"; "Ge"; "As"; "Se"; "Br"; "Kr";
   "Rb"; "Sr"; "Y"; "Zr"; "Nb"; "Mo"; "Tc"; "Ru"; "Rh"; "Pd"; "Ag"; "Cd"; "In"; "Sn"; "Sb"; "Te"; "I"; "Xe";
   "Cs"; "Ba"; "La"; "Ce"; "Pr"; "Nd"; "Pm"; "Sm"; "Eu"; "Gd"; "Tb"; "Dy"; "Ho"; "Er"; "Tm"; "Yb"; "Lu";
   "Hf"; "Ta"; "W"; "Re"; "Os"; "Ir"; "Pt"; "Au"; "Hg"; "Tl"; "Pb"; "Bi"; "Po"; "At"; "Rn";
   "Fr"; "Ra"; "Ac"; "Th"; "Pa"; "U"; "Np"; "Pu"; "Am"; "Cm"; "Bk"; "Cf"; "Es"; "Fm"; "Md"; "No"; "Lr";
   "Rf"; "Db"; "Sg"; "Bh"; "Hs"; "Mt"].

(** the vector a result holds under a name; empty when there is none *)
Definition column_at {N : Num} (t : list (string * list num)) (k : string) : list num := match mfind sltb k t with Some v => v | None => [] end.
(** the mass attenuation table of an element is the one given *)
Definition has_tables {N : Num} (e : element) (t : list (string * list num)) : Prop :=
  Forall (fun k => mfind sltb k (getMassAttenuationCoefficients_all e) = Some (column_at t k)) ["energy"; "coherent"; "compton"; "pair"; "photoelectric"].
(** the names of the nine files of fluorescence data *)
Definition eadl97 (main kind : string) : string := "EADL97_" ++ main ++ "Shell" ++ kind ++ ".dat".
