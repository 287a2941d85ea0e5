(** Specification vocabulary for atomic shells. *)
From Coq Require Import Ascii String List Reals Bool.
From Verif Require Import Base.Num Base.Res Base.RSum Base.SMap Base.Str Model.Shell.
Import ListNotations.
Local Open Scope string_scope.

(** The shells fisx knows. *)
Definition shell_names : list string := ["K"; "L1"; "L2"; "L3"; "M1"; "M2"; "M3"; "M4"; "M5"].

(** Coster-Kronig groups of a shell: yield name and target subshell. *)
Definition ck_groups (name : string) : list (string * string) :=
  if String.eqb name "L1" then [("f12", "L2"); ("f13", "L3")]
  else if String.eqb name "L2" then [("f23", "L3")]
  else if String.eqb name "M1" then [("f12", "M2"); ("f13", "M3"); ("f14", "M4"); ("f15", "M5")]
  else if String.eqb name "M2" then [("f23", "M3"); ("f24", "M4"); ("f25", "M5")]
  else if String.eqb name "M3" then [("f34", "M4"); ("f35", "M5")]
  else if String.eqb name "M4" then [("f45", "M5")]
  else [].

(** constants of a shell: omega and the Coster-Kronig yields *)
Definition constant_names (name : string) : list string := map fst (ck_groups name) ++ ["omega"].

(** [s] begins with [p] *)
Definition begins_with (p s : string) : Prop := exists r, s = p ++ r.

(** entries of a table other than "TOTAL" *)
Definition nontotal {V} (m : list (string * V)) : list (string * V) :=
  filter (fun kv => negb (String.eqb (fst kv) "TOTAL")) m.

(** value of the last pair with key [k] (later assignments win) *)
Definition last_binding {V} (k : string) (l : list (string * V)) : option V :=
  match find (fun kv => String.eqb (fst kv) k) (rev l) with Some kv => Some (snd kv) | None => None end.

(** When a radiative label is acceptable for a shell, and the name it is stored under. *)
Definition upper (s : string) : string := smap_chars toupper s.
Definition two_final_digits (s : string) : Prop :=
  exists a b c d e, s = String a (String b (String c (String d (String e ""))))
                    /\ isdigit d = true /\ isdigit e = true.
Definition acceptable (name label : string) : Prop :=
  upper label = "TOTAL" \/ two_final_digits (upper label) \/
  (String.length (upper label) <> 5 /\ begins_with name (upper label)).
Definition canonical (label : string) : string :=
  let u := upper label in
  if String.eqb u "TOTAL" then u
  else if Nat.eqb (String.length u) 2 then u ++ "2"
  else if Nat.eqb (String.length u) 5 then substring 0 4 u else u.

(** Public mutators. *)
Inductive sh_op {N : Num} : Type :=
| SRadVec (labels : list string) (values : list num)
| SRadMap (m : list (string * num))
| SRadArr (l : list (string * num))
| SNonVec (labels : list string) (values : list num)
| SNonMap (m : list (string * num))
| SNonArr (l : list (string * num))
| SConst (m : list (string * num)).
Definition sh_step {N : Num} (s : shell) (o : sh_op) : shell * res unit :=
  match o with
  | SRadVec l v => setRadiativeTransitions_vec s l v
  | SRadMap m => setRadiativeTransitions_map s m
  | SRadArr l => setRadiativeTransitions_arr s l
  | SNonVec l v => setNonradiativeTransitions_vec s l v
  | SNonMap m => setNonradiativeTransitions_map s m
  | SNonArr l => setNonradiativeTransitions_arr s l
  | SConst m => setShellConstants s m
  end.
Definition sh_run {N : Num} (s : shell) (l : list sh_op) : shell := fold_left (fun s o => fst (sh_step s o)) l s.
Definition reachable {N : Num} (name : string) (s : shell) : Prop :=
  exists s0 ops, shell_new name = Ok s0 /\ s = sh_run s0 ops.

(** all radiative rates supplied by an operation are non-negative *)
Definition rad_nonneg (o : @sh_op RNum) : Prop :=
  match o with
  | SRadVec _ v => Forall (fun x => 0 <= x)%R v
  | SRadMap m => Forall (fun x => 0 <= snd x)%R m
  | SRadArr m => Forall (fun x => 0 <= snd x)%R m
  | _ => True
  end.

(** ** Vocabulary for the ratios *)
Local Open Scope R_scope.
Definition total_of (m : list (string * R)) : R := Rsum (map snd m).
(** [k] is a Coster-Kronig label of shell [name] leading to subshell [d], e.g. "L1-L3M5" *)
Definition ck_label (name d k : string) : Prop := begins_with (name ++ "-" ++ d) k.
Definition positive_rates (m : list (string * R)) : list (string * R) := filter (fun kv => Rltb 0 (snd kv)) m.
(** sum of the positive rates of the Coster-Kronig group leading to [d] *)
Definition ck_rate (name d : string) (m : list (string * R)) : R :=
  total_of (filter (fun kv => String.prefix (name ++ "-" ++ d) (fst kv)) (positive_rates (nontotal m))).
Definition ck_rates (name : string) (m : list (string * R)) : R :=
  Rsum (map (fun g => ck_rate name (snd g) m) (ck_groups name)).

(** number of vacancies that the transition named [k] of shell [name] leaves in subshell [d],
    reading labels as Origin-FirstSecond *)
Definition string_rev (s : string) : string := string_of_list_ascii (rev (list_ascii_of_string s)).
Definition ends_withb (d k : string) : bool := String.prefix (string_rev d) (string_rev k).
Definition vacancies_in (name d k : string) : R :=
  (if String.prefix (name ++ "-" ++ d) k then 1 else 0) + (if ends_withb d k then 1 else 0).
Definition expected_vacancies (name d : string) (m : list (string * R)) : R :=
  Rsum (map (fun kv => snd kv * vacancies_in name d (fst kv)) m).
Definition value_or_0 (k : string) (m : list (string * R)) : R :=
  match mfind sltb k m with Some v => v | None => 0 end.

(** Histories in which rates are physical: radiative and non-radiative rates are not negative
    and a supplied non-radiative TOTAL is at least the sum of the listed rates. *)
Definition nonrad_ok (m : list (string * R)) : Prop :=
  Forall (fun kv => 0 <= snd kv) m /\
  (forall T, mfind sltb "TOTAL" m = Some T -> total_of (nontotal m) <= T) /\
  Forall (fun kv => (2 <= String.length (fst kv))%nat) m.
Inductive physical (name : string) : @shell RNum -> Prop :=
| physical_new s : shell_new name = Ok s -> physical name s
| physical_step s o : physical name s -> rad_nonneg o -> nonrad_ok (getNonradiativeTransitions (fst (sh_step s o))) ->
    physical name (fst (sh_step s o)).
