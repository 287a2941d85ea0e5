(** Specification vocabulary for Element. *)
From Coq Require Import String List ZArith Reals Bool Sorted.
From Verif Require Import Base.Num Base.Res Base.RSum Base.SMap Model.Shell Model.Element Spec.ShellSpec.
Import ListNotations.
Local Open Scope string_scope.

(** Public operations that change an element. Queries are const and leave it unchanged. *)
Inductive el_op {N : Num} : Type :=
| ESetName (s : string) | ESetLongName (s : string) | ESetDensity (d : num) | ESetColumn (z : Z) | ESetRow (z : Z)
| ESetMass (a : num) | ESetZ (z : Z)
| ESetBinding (m : list (string * num))
| ESetBindingVec (labels : list string) (energies : list num)
| ESetMu (energies photo coherent compton pair : list num)
| ESetTotalMu (energies total : list num)
| ESetPartial (shell : string) (energies values : list num)
| ESetRadVec (shell : string) (labels : list string) (values : list num)
| ESetRadMap (shell : string) (m : list (string * num))
| ESetNonVec (shell : string) (labels : list string) (values : list num)
| ESetNonMap (shell : string) (m : list (string * num))
| ESetConst (shell : string) (m : list (string * num))
| EEdges | EEdgesFrom (energies photo : list num)
| ESetCascade (flag : Z) | EFillCascade | EEmptyCascade
| ESetCache (flag : Z) | EClearCache | EFillCache (energies : list num) | EUpdateCache (energies : list num).

Definition forget {A} (r : res A) : res unit := rmap (fun _ => tt) r.
(** effect of an operation and its outcome; [lf]: see Model/Element.v *)
Definition el_call {N : Num} (lf : bool) (e : element) (o : el_op) : element * res unit :=
  match o with
  | ESetName s => (setName e s, Ok tt)
  | ESetLongName s => (setLongName e s, Ok tt)
  | ESetDensity d => (setDensity e d, Ok tt)
  | ESetColumn z => (setColumn e z, Ok tt)
  | ESetRow z => (setRow e z, Ok tt)
  | ESetMass a => setAtomicMass e a
  | ESetZ z => setAtomicNumber e z
  | ESetBinding m => setBindingEnergies e m
  | ESetBindingVec l v => setBindingEnergies_vec e l v
  | ESetMu en ph co cp pr => setMassAttenuationCoefficients e en ph co cp pr
  | ESetTotalMu en t => setTotalMassAttenuationCoefficient e en t
  | ESetPartial s en v => setPartialPhotoelectric e s en v
  | ESetRadVec s l v => setRadiativeTransitions_vec e s l v
  | ESetRadMap s m => setRadiativeTransitions_map e s m
  | ESetNonVec s l v => setNonradiativeTransitions_vec e s l v
  | ESetNonMap s m => setNonradiativeTransitions_map e s m
  | ESetConst s m => setShellConstants e s m
  | EEdges => let (e', r) := extractEdges e in (e', forget r)
  | EEdgesFrom en p => let (e', r) := extractEdges_from e en p in (e', forget r)
  | ESetCascade f => setCascadeCacheEnabled lf e f
  | EFillCascade => fillCascadeCache lf e
  | EEmptyCascade => (emptyCascadeCache e, Ok tt)
  | ESetCache f => (setCacheEnabled e f, Ok tt)
  | EClearCache => (clearCache e, Ok tt)
  | EFillCache l => fillCache lf e l
  | EUpdateCache l => updateCache lf e l
  end.
Definition el_run {N : Num} (lf : bool) (e : element) (l : list el_op) : element :=
  fold_left (fun e o => fst (el_call lf e o)) l e.

(** The names of the photoelectric contributions of a result. *)
Definition photo_names : list string :=
  ["K"; "L1"; "L2"; "L3"; "M1"; "M2"; "M3"; "M4"; "M5"; "all other"].
Definition scattering_names : list string := ["coherent"; "compton"; "pair"].

(** log-log interpolation through (x0, y0) and (x1, y1): the power law of the textbooks *)
Definition power_law (x0 x1 y0 y1 x : R) : R :=
  (y0 * exp (ln (y1 / y0) * (ln (x / x0) / ln (x1 / x0))))%R.

Definition strictly_increasing (l : list R) : Prop := StronglySorted Rlt l.

(** consecutive points at least 5e-10 apart (the code treats closer points as one) *)
Definition spaced (l : list R) : Prop :=
  forall i a b, nth_error l i = Some a -> nth_error l (S i) = Some b -> (5 / 10000000000 <= b - a)%R.
(** [v] is the log-log interpolation at [E] of the table with abscissas [g] and ordinates [y] *)
Definition interpolates (g y : list R) (E v : R) : Prop :=
  (forall i w, nth_error g i = Some E -> nth_error y i = Some w -> v = w) /\
  (forall i x0 x1 y0 y1, nth_error g i = Some x0 -> nth_error g (S i) = Some x1 ->
     nth_error y i = Some y0 -> nth_error y (S i) = Some y1 -> (x0 < E <= x1)%R ->
     v = power_law x0 x1 y0 y1 E /\ (Rmin y0 y1 <= v <= Rmax y0 y1)%R) /\
  (forall x0 x1 y0 y1, nth_error g 0 = Some x0 -> nth_error g 1 = Some x1 ->
     nth_error y 0 = Some y0 -> nth_error y 1 = Some y1 -> (0 < E <= x0)%R -> v = power_law x0 x1 y0 y1 E) /\
  (forall x0 x1 y0 y1 n, length g = S (S n) -> nth_error g n = Some x0 -> nth_error g (S n) = Some x1 ->
     nth_error y n = Some y0 -> nth_error y (S n) = Some y1 -> (x1 < E)%R -> v = power_law x0 x1 y0 y1 E).
(** a table that can be interpolated: at least two positive points, spaced, positive values *)
Definition good_grid (g y : list R) : Prop :=
  spaced g /\ (2 <= length g)%nat /\ length y = length g /\ Forall (fun x => (0 < x)%R) g /\ Forall (fun x => (0 < x)%R) y.

(** An operation that may change answers without clearing the calculation cache. *)
Definition unsafe {N : Num} (lf : bool) (e : element) (o : el_op) : Prop :=
  match o with
  | ESetBinding _ => True
  | ESetBindingVec _ _ => True
  | ESetRadVec _ _ _ => True
  | ESetCascade _ | EFillCascade | EEmptyCascade => True
  | ESetRadMap _ _ | ESetNonVec _ _ _ | ESetNonMap _ _ | ESetConst _ _ => snd (el_call lf e o) <> Ok tt
  | _ => False
  end.
(** the user applies such operations only while the calculation cache is empty *)
Fixpoint disciplined {N : Num} (lf : bool) (e : element) (l : list el_op) : Prop :=
  match l with
  | [] => True
  | o :: r => (unsafe lf e o -> el_muCache e = [] /\ el_exCache e = []) /\ disciplined lf (fst (el_call lf e o)) r
  end.
(** no call fails *)
Fixpoint all_ok {N : Num} (lf : bool) (e : element) (l : list el_op) : Prop :=
  match l with [] => True | o :: r => snd (el_call lf e o) = Ok tt /\ all_ok lf (fst (el_call lf e o)) r end.
(** a fresh element *)
Definition fresh {N : Num} (e : element) : Prop :=
  e = element_default \/ exists name z, element_new name z = Ok e.
(** the same element with the calculation cache switched off *)
Definition uncached {N : Num} (e : element) : element := setCacheEnabled e 0.

(** the argument of the last setCacheEnabled call of a history *)
Definition last_cache_flag {N : Num} (b : bool) (l : list el_op) : bool :=
  fold_left (fun b o => match o with ESetCache f => negb (Z.eqb f 0) | _ => b end) l b.

(** ** Cascade *)
(** the shells of the element are the first n of K, L1, L2, L3, M1, ..., M5, each with physical
    rates, non-negative constants and constants adding up to at most 1 *)
Local Open Scope R_scope.
Definition good_shell (name : string) (s : @shell RNum) : Prop :=
  physical name s /\ Forall (fun kv => 0 <= snd kv) (Shell.getShellConstants s) /\ total_of (Shell.getShellConstants s) <= 1.
Definition good_shells (e : @element RNum) : Prop :=
  map fst (el_shells e) = firstn (length (el_shells e)) shell_names /\
  Forall (fun ks => good_shell (fst ks) (snd ks)) (el_shells e).
(** vacancies transferred to [dest] by one vacancy of shell [k] *)
Definition transfer (e : @element RNum) (k dest : string) : R :=
  match mfind sltb k (el_shells e) with
  | Some s => match getDirectVacancyTransferRatios s dest with Ok t => total_of t | _ => 0 end
  | None => 0
  end.
Definition nonneg_dist (d : list (string * R)) : Prop := Forall (fun kv => 0 <= snd kv) d.
(** every line of a shell is named after the shell, as in "L3M5" for shell L3 *)
Definition own_labels (e : @element RNum) : Prop :=
  Forall (fun ks => Forall (fun l => begins_with (fst ks) (fst l)) (Shell.getFluorescenceRatios (snd ks))) (el_shells e).
(** the partial photoelectric coefficients supplied by the user are not negative *)
Definition nonneg_op (o : @el_op RNum) : Prop :=
  match o with ESetPartial _ _ v => Forall (fun x => 0 <= x) v | _ => True end.
(** the energy of every line is defined: every shell has a positive binding energy, no binding
    energy is negative, and every line label has at least two characters *)
Definition line_energies_defined (e : @element RNum) : Prop :=
  Forall (fun ks => 0 < value_or_0 (fst ks) (getBindingEnergies e) /\
                    Forall (fun l => (2 <= String.length (fst l))%nat) (Shell.getFluorescenceRatios (snd ks))) (el_shells e) /\
  nonneg_dist (getBindingEnergies e).
