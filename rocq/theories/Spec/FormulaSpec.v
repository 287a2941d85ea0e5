(** Chemical formulas: what the texts mean (independent of the parser). *)
From Coq Require Import Ascii String List ZArith Reals Bool DecimalString.
From Verif Require Import Base.RSum Base.Str.
Import ListNotations.
Local Open Scope string_scope.

(** An element symbol: a capital letter followed by small letters. *)
Definition all_lower (s : string) : Prop := forall c, In c (list_ascii_of_string s) -> islower c = true.
Definition symbol (s : string) : Prop := exists c r, s = String c r /\ isupper c = true /\ all_lower r.

(** ** Decimal numbers: digits, optionally a point and further digits. *)
Record literal := mkLiteral { l_int : list nat; l_frac : option (list nat) }.
Definition digit_text (l : list nat) : string := fold_right (fun d s => String (ascii_of_nat (48 + d)) s) "" l.
Definition literal_text (l : literal) : string :=
  digit_text (l_int l) ++ match l_frac l with None => "" | Some f => String "." (digit_text f) end.
Definition digits_ok (l : list nat) : Prop := Forall (fun d => (d < 10)%nat) l.
Definition literal_ok (l : literal) : Prop :=
  digits_ok (l_int l) /\
  match l_frac l with
  | None => l_int l <> []
  | Some f => digits_ok f /\ (l_int l <> [] \/ f <> [])
  end.
(** 10^(n-1)*d0 + ... + d_(n-1), and d0/10 + d1/100 + ... *)
Fixpoint digits_value (l : list nat) : R :=
  match l with [] => 0%R | d :: r => (INR d * 10 ^ length r + digits_value r)%R end.
Fixpoint fraction_value (l : list nat) : R :=
  match l with [] => 0%R | d :: r => ((INR d + fraction_value r) / 10)%R end.
Definition literal_value (l : literal) : R :=
  (digits_value (l_int l) + match l_frac l with None => 0 | Some f => fraction_value f end)%R.

(** ** Plain formulas: symbols, each with an optional count. *)
Definition item := (string * option literal)%type.
Definition item_text (i : item) : string := fst i ++ match snd i with None => "" | Some l => literal_text l end.
Fixpoint items_text (l : list item) : string := match l with [] => "" | i :: r => item_text i ++ items_text r end.
Definition item_ok (i : item) : Prop := symbol (fst i) /\ match snd i with None => True | Some l => literal_ok l end.
Definition item_count (i : item) : R := match snd i with None => 1%R | Some l => literal_value l end.
(** number of atoms of a symbol, None when the formula does not mention it *)
Definition items_of (s : string) (l : list item) : list item := filter (fun i => String.eqb (fst i) s) l.
Definition atoms_of (s : string) (l : list item) : option R :=
  match items_of s l with [] => None | is => Some (Rsum (map item_count is)) end.

(** ** Formulas with groups: integer counts, arbitrary nesting. *)
Inductive ftree :=
| Atom (s : string) (n : option positive)
| Group (l : list ftree) (n : option positive).
Definition dec (p : positive) : string := NilEmpty.string_of_uint (Pos.to_uint p).
Definition num_text (n : option positive) : string := match n with None => "" | Some p => dec p end.
Definition num_val (n : option positive) : positive := match n with None => 1%positive | Some p => p end.
Fixpoint tree_text (t : ftree) : string :=
  match t with
  | Atom s n => s ++ num_text n
  | Group l n => "(" ++ (fix texts l := match l with [] => "" | t :: r => tree_text t ++ texts r end) l ++ ")" ++ num_text n
  end.
Fixpoint forest_text (l : list ftree) : string := match l with [] => "" | t :: r => tree_text t ++ forest_text r end.
(** number of atoms of a symbol *)
Fixpoint tree_atoms (s : string) (t : ftree) : N :=
  match t with
  | Atom s' n => if String.eqb s' s then Npos (num_val n) else 0
  | Group l n => (Npos (num_val n) * (fix atoms l := match l with [] => 0 | t :: r => tree_atoms s t + atoms r end) l)%N
  end.
Fixpoint forest_atoms (s : string) (l : list ftree) : N :=
  match l with [] => 0%N | t :: r => (tree_atoms s t + forest_atoms s r)%N end.
(** number of all atoms *)
Fixpoint tree_total (t : ftree) : N :=
  match t with
  | Atom _ n => Npos (num_val n)
  | Group l n => (Npos (num_val n) * (fix total l := match l with [] => 0 | t :: r => tree_total t + total r end) l)%N
  end.
Fixpoint forest_total (l : list ftree) : N := match l with [] => 0%N | t :: r => (tree_total t + forest_total r)%N end.
(** symbols are symbols, no empty group *)
Fixpoint tree_ok (t : ftree) : Prop :=
  match t with
  | Atom s _ => symbol s
  | Group l _ => l <> [] /\ (fix ok l := match l with [] => True | t :: r => tree_ok t /\ ok r end) l
  end.
Fixpoint forest_ok (l : list ftree) : Prop := match l with [] => True | t :: r => tree_ok t /\ forest_ok r end.
(** What the parser needs (and the full claim does not ask for): with [after] characters of the
    whole formula following the list, no group is followed by exactly one character, and a group
    without a number ends the formula. *)
Fixpoint tree_tail (t : ftree) (after : nat) : Prop :=
  match t with
  | Atom _ _ => True
  | Group l n =>
      after <> 1 /\ (n = None -> after = 0) /\
      (fix tails l (after : nat) := match l with
         | [] => True
         | t :: r => tree_tail t (String.length (forest_text r) + after) /\ tails r after
         end) l (1 + String.length (num_text n) + after)
  end.
Fixpoint forest_tail (l : list ftree) (after : nat) : Prop :=
  match l with [] => True | t :: r => tree_tail t (String.length (forest_text r) + after) /\ forest_tail r after end.

(** ostringstream << double on small positive integers: their decimal digits. *)
Definition prints_integers (tostr : R -> string) : Prop :=
  forall p, (Zpos p <= 999999)%Z -> tostr (IZR (Zpos p)) = dec p.
