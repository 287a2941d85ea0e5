(** Specification vocabulary for EPDL97: energy grids, tables and histories of loading calls. *)
From Coq Require Import Ascii String List ZArith Reals Bool Lia Lra.
From Verif Require Import Base.Num Base.Res Base.SMap Base.Str Base.Text Model.EPDL97.
Import ListNotations.
Local Open Scope string_scope.

(** *** Histories *)
Inductive ep_op {N : Num} : Type :=
| EDirectory (fs : string -> option text) (directory : string)   (* setDataDirectory: contents of files by name *)
| EBindingFile (file : option text)                              (* loadBindingEnergies *)
| EBinding (z : Z) (b : list (string * num)).                    (* setBindingEnergies *)
Definition ep_call {N : Num} (strtod : text -> num) (ep : epdl) (o : ep_op) : epdl * res unit :=
  match o with
  | EDirectory fs d => setDataDirectory strtod fs d ep
  | EBindingFile f => loadBindingEnergies strtod ep f
  | EBinding z b => setBindingEnergies ep z b
  end.
(** the object after a history of calls, whatever they answered *)
Definition ep_run {N : Num} (strtod : text -> num) (l : list ep_op) : epdl :=
  fold_left (fun ep o => fst (ep_call strtod ep o)) l epdl_new.

Local Open Scope R_scope.
(** *** Grids *)
Definition pt (g : list R) (i : nat) : R := nth i g 0.
Definition nondecreasing (g : list R) : Prop := forall i j, (i <= j < length g)%nat -> pt g i <= pt g j.

(** the grid, the rows and the binding energies used for an element: the one with number z - 1, the
    last one beyond the end of the tables *)
Definition data_of (ep : @epdl RNum) (z : Z) (g : list R) (rows : list (list R)) (b : list (string * R)) : Prop :=
  ep_init ep = true /\ (1 <= z)%Z /\
  let i := Nat.min (Z.to_nat (z - 1)) (length (ep_energy ep) - 1) in
  nth_error (ep_energy ep) i = Some g /\ nth_error (ep_values ep) i = Some rows /\ nth_error (ep_binding ep) i = Some b.

(** *** Subshells *)
Definition shells : list string := ["K"; "L1"; "L2"; "L3"; "M1"; "M2"; "M3"; "M4"; "M5"; "all other"].
Definition value (t : list (string * R)) (k : string) : R := match mfind sltb k t with Some v => v | None => 0 end.

(** *** Tables *)
Definition entry (rows : list (list R)) (i : nat) (idx : Z) : R := nth (Z.to_nat idx) (nth i rows []) 0.
(** one row per energy, every used column present in every row *)
Definition table_ok (index : list (string * Z)) (g : list R) (rows : list (list R)) : Prop :=
  length rows = length g /\
  forall key idx, In (key, idx) index -> (0 <= idx)%Z /\ forall r, In r rows -> (Z.to_nat idx < length r)%nat.
(** point number k is not the first, is not repeated and is not too close to its neighbours *)
Definition isolated (g : list R) (k : nat) : Prop :=
  (1 <= k < length g)%nat /\ 0 < pt g (k - 1) /\ pt g (k - 1) + / 100000 < pt g k /\
  ((k + 1 < length g)%nat -> pt g k + / 100000 < pt g (k + 1)).
(** a coefficient that has become positive stays so around point k *)
Definition regular (index : list (string * Z)) (g : list R) (rows : list (list R)) (k : nat) : Prop :=
  forall key idx, In (key, idx) index ->
    (0 < entry rows (k - 1) idx -> 0 < entry rows k idx) /\
    (if Nat.ltb (k + 1) (length g) then 0 < entry rows k idx -> 0 < entry rows (k + 1) idx else 0 < entry rows (k - 1) idx).
(** every shell of the columns has a binding energy, and if that is positive the coefficient of the
    shell is positive at the last two points *)
Definition complete (index : list (string * Z)) (g : list R) (rows : list (list R)) (b : list (string * R)) : Prop :=
  forall key idx, In (key, idx) index -> (String.length key < 3)%nat ->
    exists e, mfind sltb key b = Some e /\
      (0 < e -> 0 < entry rows (length g - 2) idx /\ 0 < entry rows (length g - 1) idx).

(** *** Between points and at absorption edges *)
Definition scattering : list string := ["coherent"; "compton"; "all other"].
Definition subshells : list string := ["K"; "L1"; "L2"; "L3"; "M1"; "M2"; "M3"; "M4"; "M5"].
(** the straight line in logarithmic scales through (x0, y0) and (x1, y1) *)
Definition loglog (x0 x1 y0 y1 x : R) : R := exp ((ln y0 * ln (x1 / x) + ln y1 * ln (x / x0)) / ln (x1 / x0)).
(** a subshell is excited at x: it has a positive binding energy, and x has reached it *)
Definition excited (b : list (string * R)) (key : string) (x : R) : Prop := exists e, mfind sltb key b = Some e /\ 0 < e <= x.
(** an energy given twice, at points k and k + 1, with the values below and above an edge *)
Definition edge (g : list R) (k : nat) : Prop :=
  (1 <= k)%nat /\ (k + 1 < length g)%nat /\ 0 < pt g (k - 1) /\ pt g (k - 1) + / 100000 < pt g k /\ pt g (k + 1) = pt g k /\
  ((k + 2 < length g)%nat -> pt g (k + 1) + / 100000 < pt g (k + 2)).
(** the subshells already excited below the edge do not jump there, and a coefficient that is
    positive above the edge is so at the next point *)
Definition regular_edge (index : list (string * Z)) (g : list R) (rows : list (list R)) (k : nat) : Prop :=
  forall key idx, In (key, idx) index ->
    (In key subshells -> 0 < entry rows k idx -> entry rows (k + 1) idx = entry rows k idx) /\
    ((k + 2 < length g)%nat -> 0 < entry rows (k + 1) idx -> 0 < entry rows (k + 2) idx).

(** *** Loading cross sections *)
Definition quantities : list string := ["energy"; "compton"; "coherent"; "photoelectric"; "total"; "K"; "L1"; "L2"; "L3"; "M1"; "M2"; "M3"; "M4"; "M5"; "all other"].
Definition capitals (s : string) : string := smap_chars toupper s.
Definition occurs (word s : string) : Prop := exists a c, s = (a ++ word ++ c)%string.
(** a label names a quantity, capitals or not: a subshell must be its beginning; the others may be
    anywhere in it, but an incoherent cross section is not a coherent one *)
Definition names (quantity label : string) : Prop :=
  if in_dec string_dec quantity subshells then exists c, capitals label = (quantity ++ c)%string
  else if string_dec quantity "coherent" then occurs "COHERENT" (capitals label) /\ ~ occurs "INCOHERENT" (capitals label)
  else if string_dec quantity "all other" then occurs "ALLOTHER" (capitals label)
  else occurs (capitals quantity) (capitals label).
(** the column of a quantity: the first label that names it *)
Definition column_of (labels : list string) (quantity : string) (n : nat) : Prop :=
  (exists l, nth_error labels n = Some l /\ names quantity l) /\
  forall m l, (m < n)%nat -> nth_error labels m = Some l -> ~ names quantity l.
(** a row as stored for the element of atomic number z, from the row of the file *)
Definition at_col (row : list R) (n : nat) : R := nth n row 0.
Definition stored (col : string -> nat) (z : nat) (file row : list R) : Prop :=
  let v q := at_col file (col q) in
  let photo := v "total" - v "compton" - v "coherent" in
  length row = length file /\
  at_col row (col "photoelectric") = Rmax 0 photo /\
  at_col row (col "all other") =
    (if Rlt_dec 0 photo then
       if Rlt_dec 0 (v "all other") then
         if lt_dec 18 z then Rmax 0 (photo - (v "K" + v "L1" + v "L2" + v "L3" + v "M1" + v "M2" + v "M3" + v "M4" + v "M5")) else 0
       else 0
     else Rmax 0 (v "all other")) /\
  forall n, n <> col "photoelectric" -> n <> col "all other" -> at_col row n = at_col file n.
