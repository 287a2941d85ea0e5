(** Specification vocabulary for Elements: histories of public calls, and what the registries
    contain after them. *)
From Coq Require Import String List ZArith Reals Bool.
From Verif Require Import Base.Num Base.Res Base.RSum Base.SMap Model.Material Model.Shell Model.Element Model.Formula Model.Elements
  Spec.MaterialSpec Spec.ShellSpec Spec.ElementSpec.
Import ListNotations.
Local Open Scope string_scope.

(** the calls by which Elements changes one of its elements in place *)
Inductive elem_call {N : Num} : Type :=
| CSetCascade (flag : Z) | CFillCascade | CEmptyCascade
| CFillCache (energies : list num) | CUpdateCache (energies : list num) | CSetCache (flag : Z) | CClearCache.
Definition as_el_op {N : Num} (c : elem_call) : el_op :=
  match c with
  | CSetCascade f => ESetCascade f | CFillCascade => EFillCascade | CEmptyCascade => EEmptyCascade
  | CFillCache l => EFillCache l | CUpdateCache l => EUpdateCache l | CSetCache f => ESetCache f | CClearCache => EClearCache
  end.

(** public operations that change an Elements object *)
Inductive es_op {N : Num} : Type :=
| RAdd (e : @element N)
| RCall (name : string) (c : elem_call)
| MNew (name : string) (density thickness : num) (comment : string) (errorOnReplace : Z)
| MAdd (m : @material N) (errorOnReplace : Z)
| MRemove (name : string)
| MRemoveAll
| MSetVec (name : string) (names : list string) (amounts : list num)
| MSetMap (name : string) (composition : list (string * num))
| XEnable (flag : Z)
| XClear
| XUpdate (k : escape_key) (energies : list num).

Section Run.
Context {N : Num}.
Variables (tostr : num -> string) (depth : nat) (fuel : nat) (lf : bool).

Definition es_call (es : elements) (o : es_op) : elements * res unit :=
  match o with
  | RAdd e => (addElement es e, Ok tt)
  | RCall n c => onElement es n (fun e => el_call lf e (as_el_op c))
  | MNew n d t c f => addMaterial_new tostr depth es n d t c f
  | MAdd m f => addMaterial_mat es m f
  | MRemove n => removeMaterial es n
  | MRemoveAll => (removeMaterials es, Ok tt)
  | MSetVec n ns xs => setMaterialComposition_vec es n ns xs
  | MSetMap n c => setMaterialComposition_map es n c
  | XEnable f => (setEscapeCacheEnabled es f, Ok tt)
  | XClear => (clearEscapeCache es, Ok tt)
  | XUpdate k l => updateEscapeCache tostr depth lf fuel es k l
  end.
Definition es_run (es : elements) (l : list es_op) : elements := fold_left (fun es o => fst (es_call es o)) l es.

(** *** What the element registry should contain: a map from names to elements *)
Definition registered_step (r : string -> option element) (o : es_op) : string -> option element :=
  match o with
  | RAdd e => fun n => if String.eqb n (el_name e) then Some e else r n
  | RCall n0 c => fun n => if String.eqb n n0 && negb (String.eqb n0 "") then option_map (fun e => fst (el_call lf e (as_el_op c))) (r n) else r n
  | _ => r
  end.
Definition registered (l : list es_op) : string -> option element := fold_left registered_step l (fun _ => None).
(** the names of the added elements, in order of first addition *)
Definition first_occurrences (l : list string) : list string :=
  fold_left (fun acc s => if in_dec string_dec s acc then acc else acc ++ [s])%list l [].
Definition added_names (l : list es_op) : list string :=
  flat_map (fun o => match o with RAdd e => [el_name e] | _ => [] end) l.

(** *** What the material registry should contain: a list of materials *)
Definition named (n : string) (m : @material N) : bool := String.eqb (Material.getName m) n.
Definition has (n : string) (l : list (@material N)) : bool := existsb (named n) l.
Definition without (n : string) (l : list (@material N)) : list material := filter (fun m => negb (named n m)) l.
Definition update (n : string) (f : @material N -> material) (l : list (@material N)) : list material :=
  map (fun m => if named n m then f m else m) l.
(** a material made from its name: its composition is that of the formula, if the name is one *)
Definition made_from_name (es : elements) (m : @material N) : material :=
  match getCompositionFromFormula tostr depth es (Material.getName m) with
  | Ok (x :: c) => fst (setComposition_map m (x :: c))
  | _ => m
  end.
(** [es]: the object before the call (only its elements matter, through formulas) *)
Definition materials_step (es : elements) (l : list (@material N)) (o : es_op) : list material :=
  match o with
  | MNew n d t c f =>
      if has n l && negb (Z.eqb f 0) then l
      else match initialize material_default n d t c with
           | (m, Ok _) => without n l ++ [made_from_name es m]
           | _ => without n l                (* the old material is lost *)
           end
  | MAdd m f => if has (Material.getName m) l then if Z.eqb f 0 then update (Material.getName m) (fun _ => m) l else l else l ++ [m]
  | MRemove n => without n l
  | MRemoveAll => []
  | MSetVec n ns xs => update n (fun m => fst (setComposition_vec m ns xs)) l
  | MSetMap n c => update n (fun m => fst (setComposition_map m c)) l
  | _ => l
  end%list.
Fixpoint materials_after (es : elements) (l : list (@material N)) (ops : list es_op) : list material :=
  match ops with
  | [] => l
  | o :: r => materials_after (fst (es_call es o)) (materials_step es l o) r
  end.
(** when a call on the material registry is refused *)
Definition refused (l : list (@material N)) (o : es_op) : bool :=
  match o with
  | MNew n _ _ _ f => has n l && negb (Z.eqb f 0)
  | MAdd m f => has (Material.getName m) l && negb (Z.eqb f 0)
  | MRemove n => negb (has n l)
  | MSetVec n _ _ => negb (has n l)
  | MSetMap n _ => negb (has n l)
  | _ => false
  end.
End Run.

(** *** Compositions *)
Section Resolve.
Variables (tostr : R -> string) (depth : nat) (es : @elements RNum).
Local Open Scope R_scope.

(** a name that is a formula of known elements: the composition has positive fractions *)
Definition formula_of (name : string) (c : list (string * R)) : Prop :=
  @getCompositionFromFormula RNum tostr depth es name = Ok c /\ c <> [] /\ (forall s x, In (s, x) c -> 0 < x).
Definition not_a_formula (name : string) : Prop := @getCompositionFromFormula RNum tostr depth es name = Ok [].
(** mass fractions of the mixture of amounts [w] of constituents with mass fractions [f k] *)
Definition mixture (amounts : list (string * R)) (f : string -> string -> R) (s : string) : R :=
  Rsum (map (fun kw => snd kw * f (fst kw) s) amounts) / Rsum (map snd amounts).
Definition good_amounts (amounts : list (string * R)) : Prop := amounts <> [] /\ (forall k w, In (k, w) amounts -> 0 < w).

(** [resolves name f]: the mass fraction of element s in [name] is [f s]. A name is a formula, or
    else a material, which is the mixture of its constituents. *)
Inductive resolves : string -> (string -> R) -> Prop :=
| by_formula n c : formula_of n c -> resolves n (fun s => value_or_0 s c)
| by_mixture n m f :
    not_a_formula n -> getMaterial es n = Ok m -> good_amounts (Material.getComposition m) ->
    (forall k w, In (k, w) (Material.getComposition m) -> resolves k (f k)) ->
    resolves n (mixture (Material.getComposition m) f).
(** the same with additional materials, which are looked up before those of the library *)
Inductive resolves_with (additional : list (@material RNum)) : string -> (string -> R) -> Prop :=
| with_formula n c : formula_of n c -> resolves_with additional n (fun s => value_or_0 s c)
| with_additional n m f :
    not_a_formula n -> find (named n) additional = Some m -> good_amounts (Material.getComposition m) ->
    (forall k w, In (k, w) (Material.getComposition m) -> resolves_with additional k (f k)) ->
    resolves_with additional n (mixture (Material.getComposition m) f)
| with_library n f :
    not_a_formula n -> find (named n) additional = None -> resolves n f -> resolves_with additional n f.

(** an answer: strictly ascending names of registered elements, positive fractions adding up to 1 *)
Definition mass_fractions (r : string -> option (@element RNum)) (c : list (string * R)) (f : string -> R) : Prop :=
  c <> [] /\ is_map c /\ (forall s x, In (s, x) c -> 0 < x /\ exists e, r s = Some e) /\
  Rsum (map snd c) = 1 /\ forall s, value_or_0 s c = f s.

(** Acyclic registries: the constituents of a material are formulas or materials of lower rank. *)
Definition acyclic (rank : string -> nat) : Prop :=
  forall n m, getMaterial es n = Ok m -> not_a_formula n ->
    good_amounts (Material.getComposition m) /\
    forall k w, In (k, w) (Material.getComposition m) ->
      (exists c, formula_of k c) \/ (not_a_formula k /\ (rank k < rank n)%nat /\ exists m', getMaterial es k = Ok m').
End Resolve.

(** *** Mass attenuation coefficients of mixtures *)
Section Mixtures.
Variable r : string -> option (@element RNum).
Local Open Scope R_scope.
(** [t] is the table of coefficients of the registered element [s] at energy [E] *)
Definition mu_at (s : string) (E : R) (t : list (string * R)) : Prop :=
  exists e, r s = Some e /\ Element.getMassAttenuationCoefficients e E = Ok t.
(** coefficient of process [p] of the mixture with the mass fractions [c] *)
Definition weighted (c : list (string * R)) (mu : string -> list (string * R)) (p : string) : R :=
  Rsum (map (fun sx => snd sx * value_or_0 p (mu (fst sx))) c).
(** mean over the constituents, weighted with their amounts; constituent k has the mass fractions [c k] *)
Definition mean (input : list (string * R)) (c : string -> list (string * R)) (mu : string -> list (string * R)) (p : string) : R :=
  Rsum (map (fun kw => snd kw * weighted (c (fst kw)) mu p) input) / Rsum (map snd input).
(** the table made of the four processes [m]: the total is their sum *)
Definition mu_table (m : string -> R) (E : R) : list (string * R) :=
  [("coherent", m "coherent"); ("compton", m "compton"); ("energy", E); ("pair", m "pair"); ("photoelectric", m "photoelectric");
   ("total", m "coherent" + m "compton" + m "pair" + m "photoelectric")].
(** the same for a list of energies: one vector per process *)
Definition mu_vectors (m : R -> string -> R) (energies : list R) : list (string * list R) :=
  [("coherent", map (fun E => m E "coherent") energies); ("compton", map (fun E => m E "compton") energies); ("energy", energies);
   ("pair", map (fun E => m E "pair") energies); ("photoelectric", map (fun E => m E "photoelectric") energies);
   ("total", map (fun E => m E "coherent" + m E "compton" + m E "pair" + m E "photoelectric") energies)].
End Mixtures.
(** *** Peak families *)
(** [f] = (label, energy) is an excitable family of the element [e] called [name]: the label is
    "<name> <shell>", the shell is a K, L or M shell, with its binding energy positive and below
    the excitation energy, and a positive fluorescence yield *)
Definition family (name : string) (e : @element RNum) (energy : R) (f : string * R) : Prop :=
  exists shell c, fst f = name ++ " " ++ shell /\ (exists x, shell = "K" ++ x \/ shell = "L" ++ x \/ shell = "M" ++ x) /\
    mfind sltb shell (getBindingEnergies e) = Some (snd f) /\ (0 < snd f < energy)%R /\
    Element.getShellConstants e shell = Ok c /\ (0 < value_or_0 "omega" c)%R.
