(** Model of class Shell (src/fisx_shell.h, src/fisx_shell.cpp). The default constructor
    Shell() (39-42) leaves shellMainIndex and subshellIndex indeterminate and is only used
    as a placeholder; it is not modelled. *)
From Coq Require Import Ascii String List ZArith Bool.
From Verif Require Import Base.Num Base.Res Base.RSum Base.SMap Base.Str.
Import ListNotations.
Set Implicit Arguments.
Local Open Scope num_scope.
Local Open Scope string_scope.

Section Shell.
Context {N : Num}.
Local Notation table := (list (string * num)).    (* std::map<std::string, double> *)

Record shell := mkShell {
  sh_name : string;
  sh_main : nat;                         (* shellMainIndex *)
  sh_sub : nat;                          (* subshellIndex *)
  sh_rad : table;                        (* radiativeTransitions *)
  sh_nonrad : table;                     (* nonradiativeTransitions *)
  sh_fluo : table;                       (* fluorescenceRatios *)
  sh_auger : table;                      (* augerRatios *)
  sh_ck : list (string * table);         (* costerKronigRatios *)
  sh_const : table }.                    (* shellConstants *)

Definition totalLabel : string := "TOTAL".

(** "f" + name.substr(1, 1) + digit[j], fisx_shell.cpp 128, 445, 493 *)
Definition fij (name : string) (j : nat) : string := "f" ++ substring 1 1 name ++ digit_str j.

(** fisx_shell.cpp 57-82: shellMainIndex, None when -1 *)
Definition main_index (name : string) : option nat :=
  let first := substring 0 1 name in
  let size := String.length name in
  let r := if String.eqb first "K" then (if Nat.eqb size 1 then Some 0 else None) else None in
  let r := if String.eqb first "L" then (if Nat.eqb size 2 then Some 1 else r) else r in
  if String.eqb first "M" then (if Nat.eqb size 2 then Some 2 else r) else r.

(** fisx_shell.cpp 116-125 *)
Definition max_sub (main : nat) : nat := if Nat.eqb main 1 then 3 else 5.

(** Shell::Shell(std::string), fisx_shell.cpp 44-132 *)
Definition shell_new (name : string) : res shell :=
  if Nat.ltb 2 (String.length name) then Throw InvalidArgument else
  match main_index name with
  | None => Throw InvalidArgument
  | Some main =>
      rbind (if Nat.eqb (String.length name) 2 then
               match char_to_int (substring 1 1 name) with
               | None => Throw InvalidArgument
               | Some i =>
                   if Nat.ltb i 1 then Throw InvalidArgument
                   else if Nat.eqb main 1 && Nat.ltb 3 i then Throw InvalidArgument
                   else if Nat.eqb main 2 && Nat.ltb 5 i then Throw InvalidArgument
                   else Ok i
               end
             else Ok 0) (fun idx =>
      let consts := if Nat.ltb 0 main
        then mset_all sltb (map (fun j => (fij name j, n0)) (seq (idx + 1) (max_sub main - idx))) [("omega", n0)]
        else [("omega", n0)] in
      Ok (mkShell name main idx [] [] [] [] [] consts))
  end.

Definition with_rad (s : shell) (m : table) : shell :=
  mkShell (sh_name s) (sh_main s) (sh_sub s) m (sh_nonrad s) (sh_fluo s) (sh_auger s) (sh_ck s) (sh_const s).
Definition with_fluo (s : shell) (m : table) : shell :=
  mkShell (sh_name s) (sh_main s) (sh_sub s) (sh_rad s) (sh_nonrad s) m (sh_auger s) (sh_ck s) (sh_const s).
Definition with_nonrad (s : shell) (m : table) : shell :=
  mkShell (sh_name s) (sh_main s) (sh_sub s) (sh_rad s) m (sh_fluo s) (sh_auger s) (sh_ck s) (sh_const s).
Definition with_const (s : shell) (m : table) : shell :=
  mkShell (sh_name s) (sh_main s) (sh_sub s) (sh_rad s) (sh_nonrad s) (sh_fluo s) (sh_auger s) (sh_ck s) m.

(** Shell::toUpperCaseString, fisx_shell.cpp 134-141 *)
Definition toUpperCaseString (s : string) : string := smap_chars toupper s.

(** name under which a radiative transition is stored, fisx_shell.cpp 204-256; None: throw *)
Definition radLabel (name label : string) : option string :=
  let s := toUpperCaseString label in
  let s := if Nat.eqb (String.length s) 2 then s ++ "2" else s in
  if Nat.eqb (String.length s) 5 && negb (String.eqb s totalLabel) then
    match get 3 s, get 4 s with
    | Some c3, Some c4 => if isdigit c3 && isdigit c4 then Some (substring 0 4 s) else None
    | _, _ => None
    end
  else if String.prefix name s then Some s
  else if String.eqb s totalLabel then Some s else None.

(** loop 202-257; values[i] beyond the end is undefined *)
Fixpoint radLoop (name : string) (labels : list string) (values : list num) (m : table) : table * res unit :=
  match labels with
  | [] => (m, Ok tt)
  | l :: labels' =>
      match radLabel name l with
      | None => (m, Throw InvalidArgument)
      | Some k =>
          match values with
          | [] => (m, UB)
          | v :: values' => radLoop name labels' values' (mset sltb k v m)
          end
      end
  end.

(** Shell::_updateFluorescenceRatios, fisx_shell.cpp 326-360 *)
Definition not_total (kv : string * num) : bool := negb (String.eqb (fst kv) totalLabel).
Definition updateFluorescenceRatios (s : shell) : shell :=
  let total := nsum (map snd (filter not_total (sh_rad s))) in
  with_fluo s (mset_all sltb
    (map (fun kv => (fst kv, snd kv / total)) (filter (fun kv => (snd kv >? n0) && not_total kv) (sh_rad s))) []).

(** Shell::setRadiativeTransitions(vectors), fisx_shell.cpp 193-259 *)
Definition setRadiativeTransitions_vec (s : shell) (labels : list string) (values : list num) : shell * res unit :=
  match radLoop (sh_name s) labels values [] with
  | (m, Ok _) => (updateFluorescenceRatios (with_rad s m), Ok tt)
  | (m, r) => (with_rad s m, r)
  end.
(** Shell::setRadiativeTransitions(map), fisx_shell.cpp 261-282 *)
Definition setRadiativeTransitions_map (s : shell) (m : table) : shell * res unit :=
  setRadiativeTransitions_vec s (map fst m) (map snd m).
(** Shell::setRadiativeTransitions(const char *[], ...), fisx_shell.cpp 284-299; the arrays are
    given as a list of pairs *)
Definition setRadiativeTransitions_arr (s : shell) (l : table) : shell * res unit :=
  setRadiativeTransitions_vec s (map (fun kv => toUpperCaseString (fst kv)) l) (map snd l).

(** Shell::_updateNonradiativeRatios, fisx_shell.cpp 369-515 *)
Definition noCosterKronig (name : string) : bool :=
  String.eqb name "K" || String.eqb name "L3" || String.eqb name "M5".
(** the indices i of loop 439 *)
Definition ckIndices (s : shell) : list nat :=
  if noCosterKronig (sh_name s) then [] else seq (sh_sub s + 1) (max_sub (sh_main s) - sh_sub s).
(** testString, 441-444 *)
Definition ckPrefix (name : string) (i : nat) : string := name ++ "-" ++ substring 0 1 name ++ digit_str i.
(** one Coster-Kronig group with its TOTAL, 446-469; also returns tmpTotal *)
Definition ckGroup (name : string) (nonrad : table) (i : nat) : table * num :=
  let members := filter (fun kv => (snd kv >? n0) && String.prefix (ckPrefix name i) (fst kv)) nonrad in
  let tmpTotal := nsum (map snd members) in
  let g := mset_all sltb members [] in
  let g := if tmpTotal >? n0 then map (fun kv => (fst kv, snd kv / tmpTotal)) g else g in
  (mset sltb totalLabel tmpTotal g, tmpTotal).
Definition updateNonradiativeRatios (s : shell) : shell :=
  let total := nsum (map snd (filter not_total (sh_nonrad s))) in
  let nonrad := if mmem sltb totalLabel (sh_nonrad s) then sh_nonrad s else mset sltb totalLabel total (sh_nonrad s) in
  let groups := map (fun i => (fij (sh_name s) i, ckGroup (sh_name s) nonrad i)) (ckIndices s) in
  let ck := mset_all sltb (map (fun g => (fst g, fst (snd g))) groups) [] in
  let totalCK := nsum (map (fun g => snd (snd g)) groups) in
  let totalAuger := match mfind sltb totalLabel nonrad with Some t => t | None => n0 end - totalCK in
  let isCK (k : string) := (totalCK >? n0) && existsb (fun g => mmem sltb k (snd g)) ck in
  let auger := mset_all sltb
    (map (fun kv => (fst kv, snd kv / totalAuger))
       (filter (fun kv => (snd kv >? n0) && negb (isCK (fst kv)) && not_total kv) nonrad)) [] in
  mkShell (sh_name s) (sh_main s) (sh_sub s) (sh_rad s) nonrad (sh_fluo s)
    (mset sltb totalLabel totalAuger auger) ck (sh_const s).

(** loop 153-156 *)
Fixpoint nonradLoop (labels : list string) (values : list num) (m : table) : table * res unit :=
  match labels, values with
  | [], _ => (m, Ok tt)
  | _ :: _, [] => (m, UB)
  | l :: labels', v :: values' => nonradLoop labels' values' (mset sltb (toUpperCaseString l) v m)
  end.
(** Shell::setNonradiativeTransitions(vectors), fisx_shell.cpp 144-158 *)
Definition setNonradiativeTransitions_vec (s : shell) (labels : list string) (values : list num) : shell * res unit :=
  match nonradLoop labels values [] with
  | (m, Ok _) => (updateNonradiativeRatios (with_nonrad s m), Ok tt)
  | (m, r) => (with_nonrad s m, r)
  end.
(** Shell::setNonradiativeTransitions(map), fisx_shell.cpp 160-181 *)
Definition setNonradiativeTransitions_map (s : shell) (m : table) : shell * res unit :=
  setNonradiativeTransitions_vec s (map fst m) (map snd m).
(** Shell::setNonradiativeTransitions(const char *[], ...), fisx_shell.cpp 183-191: the
    previous table is not cleared *)
Definition setNonradiativeTransitions_arr (s : shell) (l : table) : shell * res unit :=
  (updateNonradiativeRatios (with_nonrad s
     (mset_all sltb (map (fun kv => (toUpperCaseString (fst kv), snd kv)) l) (sh_nonrad s))), Ok tt).

(** Shell::setShellConstants, fisx_shell.cpp 640-657 *)
Fixpoint constLoop (l : table) (m : table) : table * res unit :=
  match l with
  | [] => (m, Ok tt)
  | (k, v) :: l' => if mmem sltb k m then constLoop l' (mset sltb k v m) else (m, Throw InvalidArgument)
  end.
Definition setShellConstants (s : shell) (l : table) : shell * res unit :=
  let (m, r) := constLoop l (sh_const s) in (with_const s m, r).

(** getters, fisx_shell.cpp 301-323, 659-663 *)
Definition getRadiativeTransitions (s : shell) := sh_rad s.
Definition getNonradiativeTransitions (s : shell) := sh_nonrad s.
Definition getAugerRatios (s : shell) := sh_auger s.
Definition getCosterKronigRatios (s : shell) := sh_ck s.
Definition getFluorescenceRatios (s : shell) := sh_fluo s.
Definition getShellConstants (s : shell) := sh_const s.
(** Shell::getFluorescenceYield, fisx_shell.cpp 362-367 *)
Definition getFluorescenceYield (s : shell) : res num := of_opt (mfind sltb "omega" (sh_const s)).

(** Shell::getDirectVacancyTransferRatios, fisx_shell.cpp 517-636 *)
(** sums of the entries matching Origin-DestinationAny, continued with Origin-AnyDestination *)
Definition sumPrefix (p : string) (m : table) (acc : num) : num :=
  fold_left (fun a kv => if String.prefix p (fst kv) then a + snd kv else a) m acc.
Definition sumSuffix (d : string) (m : table) (acc : num) : res num :=
  rfold (fun a kv => rbind (suffix_match d (fst kv)) (fun b => Ok (if b then a + snd kv else a))) m acc.
Definition transferSum (s : shell) (dest : string) (m : table) : res num :=
  sumSuffix dest m (sumPrefix (sh_name s ++ "-" ++ dest) m n0).
Definition getDirectVacancyTransferRatios (s : shell) (dest : string) : res table :=
  if negb (Nat.eqb (String.length dest) 2) then Throw InvalidArgument else
  let fluo := match mfind sltb (sh_name s ++ dest) (sh_fluo s) with Some v => v | None => n0 end in
  rbind (transferSum s dest (sh_auger s)) (fun auger =>
  rbind (rmapM (fun g => rbind (transferSum s dest (snd g)) (fun v => Ok (fst g, v))) (sh_ck s)) (fun cks =>
  let output := mset_all sltb (("fluorescence", fluo) :: ("auger", auger) :: cks) [] in
  let sum := nsum (map snd (sh_const s)) in
  if sum >? nlit 10001 (-4) then Throw DomainError else
  rmapM (fun kv =>
    if String.eqb (fst kv) "auger" then Ok (fst kv, snd kv * (n1 - sum))
    else rbind (of_opt (mfind sltb (if String.eqb (fst kv) "fluorescence" then "omega" else fst kv) (sh_const s)))
           (fun c => Ok (fst kv, snd kv * c))) output)).

End Shell.
