(** Model of the chemical formula parser of class Elements (src/fisx_elements.cpp):
    parseFormula, stringToDouble, toString.

    [fuel] is the recursion depth available: [Diverge] means that the call needs a deeper stack;
    a call recurses forever iff it is [Diverge] for every [fuel].
    [tostr] is std::ostringstream << double (6 significant digits, %g): the parser is modelled for
    an arbitrary such function and theorems state what they assume about it; [g6] below is that
    conversion on exact rationals.
    Characters with a negative value (passed to isupper etc. in C++: undefined) are treated as
    neither letters nor digits, as in the C locale of glibc. *)
From Coq Require Import Ascii String List ZArith QArith Bool DecimalString DecimalN Qround.
From Verif Require Import Base.Num Base.Res Base.SMap Base.Str.
Import ListNotations.
Set Implicit Arguments.
Local Close Scope Q_scope.
Local Open Scope string_scope.

(** isspace in the C locale *)
Definition isspace (c : ascii) : bool := Nat.eqb (code c) 32 || (Nat.leb 9 (code c) && Nat.leb (code c) 13).
Definition eqc (c : ascii) (n : nat) : bool := Nat.eqb (code c) n.

Fixpoint skip_space (s : string) : string :=
  match s with String c r => if isspace c then skip_space r else s | EmptyString => s end.

(** mantissa of a floating literal: (digits read so far as an integer, number of digits after the
    point, at least one digit read, rest). Reading stops at the first other character. *)
Fixpoint read_frac (s : string) (m : Z) (k : Z) (any : bool) : Z * Z * bool * string :=
  match s with
  | String c r => if isdigit c then read_frac r (10 * m + Z.of_nat (code c - 48)) (k + 1) true else (m, k, any, s)
  | EmptyString => (m, k, any, s)
  end.
Fixpoint read_int (s : string) (m : Z) (any : bool) : Z * Z * bool * string :=
  match s with
  | String c r => if isdigit c then read_int r (10 * m + Z.of_nat (code c - 48)) true
                  else if eqc c 46 then read_frac r m 0 any else (m, 0%Z, any, s)
  | EmptyString => (m, 0%Z, any, s)
  end.
(** exponent part: None when an e or E is not followed by a valid exponent (conversion fails) *)
Fixpoint read_digits (s : string) (m : Z) (any : bool) : Z * bool :=
  match s with
  | String c r => if isdigit c then read_digits r (10 * m + Z.of_nat (code c - 48)) true else (m, any)
  | EmptyString => (m, any)
  end.
Definition read_exp (s : string) : option Z :=
  match s with
  | String c r =>
      if eqc c 101 || eqc c 69 then
        let '(neg, r) := match r with
                         | String d r' => if eqc d 45 then (true, r') else if eqc d 43 then (false, r') else (false, r)
                         | EmptyString => (false, r) end in
        let '(m, any) := read_digits r 0 false in
        if any then Some (if neg : bool then - m else m)%Z else None
      else Some 0%Z
  | EmptyString => Some 0%Z
  end.

Section Formula.
Context {N : Num}.
Local Notation table := (list (string * num)).
Variable tostr : num -> string.

(** Elements::stringToDouble, fisx_elements.cpp 1964-1975: istringstream >> double of libstdc++
    in the C locale. The characters after the longest numeric prefix are ignored. Simplification:
    overflow to infinity (conversion failure in C++) is not modelled, and the value is that of
    the [Num] instance (exact in R and Q, correctly rounded for short literals in binary64). *)
Definition stringToDouble (s : string) : option num :=
  let s := skip_space s in
  let '(neg, s) := match s with
                   | String c r => if eqc c 45 then (true, r) else if eqc c 43 then (false, r) else (false, s)
                   | EmptyString => (false, s) end in
  let '(m, k, any, rest) := read_int s 0 false in
  if any : bool then
    match read_exp rest with
    | Some e => let v := nlit m (e - k) in Some (if neg : bool then nopp v else v)
    | None => None
    end
  else None.

(** while loop 1760-1798 and the end of the string 1799-1813 *)
Definition snonempty (s : string) : bool := Nat.ltb 0 (String.length s).
Fixpoint flatScan (s : string) (acc : table) (lastKey lastNumber : string) (parsingKey : bool) : option table :=
  match s with
  | EmptyString =>
      if parsingKey then Some (acc ++ [(lastKey, n1)])%list
      else match stringToDouble lastNumber with Some f => Some (acc ++ [(lastKey, f)])%list | None => None end
  | String c r =>
      if isupper c then
        if snonempty lastKey then
          match (if snonempty lastNumber then stringToDouble lastNumber else Some n1) with
          | Some f => flatScan r (acc ++ [(lastKey, f)])%list (String c "") "" true
          | None => None
          end
        else flatScan r acc (String c "") "" true
      else if islower c then flatScan r acc (lastKey ++ String c "") lastNumber parsingKey
      else flatScan r acc lastKey (lastNumber ++ String c "") false
  end.
(** 1818-1828 *)
Definition addCount (m : table) (kv : string * num) : table :=
  match mfind sltb (fst kv) m with
  | None => mset sltb (fst kv) (snd kv) m
  | Some v => mset sltb (fst kv) (nadd v (snd kv)) m
  end.
(** the branch without parenthesis, 1749-1829 *)
Definition parseFlat (s : string) : table :=
  match s with
  | String c _ => if isupper c
                  then match flatScan s [] "" "" false with Some l => fold_left addCount l [] | None => [] end
                  else []
  | EmptyString => []
  end.

(** positions of a character, loop 1648-1662 *)
Fixpoint positions (n : nat) (i : nat) (s : string) : list nat :=
  match s with
  | String c r => if eqc c n then i :: positions n (S i) r else positions n (S i) r
  | EmptyString => []
  end.
Definition has_space (s : string) : bool := match positions 32 0 s with [] => false | _ => true end.
(** loop 1711-1719: first position from i holding a letter or a parenthesis *)
Definition stop_char (c : ascii) : bool := isupper c || islower c || eqc c 40 || eqc c 41.
Fixpoint scan_stop (s : string) (i : nat) : nat :=
  match s with
  | String c r => if stop_char c then i else scan_stop r (S i)
  | EmptyString => i
  end.
(** substr(p, length) *)
Definition substr (s : string) (p n : nat) : string := substring p n s.
Definition from (s : string) (p : nat) : string := substring p (String.length s - p) s.

Definition start_ok (s : string) : bool :=
  match s with String c _ => negb (islower c || isdigit c) | EmptyString => false end.

(** 1742-1743: key and count of every element of the group *)
Definition expand (factor : num) (m : table) : string :=
  fold_left (fun a kv => a ++ (fst kv ++ tostr (nmul (snd kv) factor))) m "".

(** Elements::parseFormula, fisx_elements.cpp 1612-1830 *)
Fixpoint parseFormula (fuel : nat) (formula : string) : res table :=
  match fuel with
  | O => Diverge
  | S fuel =>
    if negb (start_ok formula) then Ok [] else
    let opens := positions 40 0 formula in
    let closes := positions 41 0 formula in
    let size := String.length formula in
    if negb (Nat.eqb (length opens) (length closes)) then Ok [] else
    if has_space formula then Ok [] else
    match opens, closes with
    | o1 :: orest, p2 :: _ =>
        (* 1682-1694; the last '(' before the first ')' *)
        let p1 := if Nat.ltb 0 (length orest)
                  then fold_left (fun p o => if Nat.ltb o p2 then o else p) opens 0 else o1 in
        (* 1696: length = p2 - p1 - 1 of an unsigned type: huge when p2 <= p1 *)
        if Nat.eqb p2 (S p1) then Ok [] else
        let len := if Nat.ltb p1 p2 then (p2 - p1 - 1)%nat else size in
        rbind (parseFormula fuel (substr formula (p1 + 1) (Nat.min len (size - (p1 + 1))))) (fun tmp =>
        match tmp with
        | [] => Ok []
        | _ =>
          (* 1706-1728; [i] keeps the value of the last loop when the group ends the formula *)
          let last := Nat.eqb (p2 + 1) size in
          let i := if last then (if Nat.ltb 0 (length orest) then length opens else size)
                   else scan_stop (from formula (p2 + 1)) (p2 + 1) in
          match (if last then Some n1 else stringToDouble (substr formula (p2 + 1) (i - (p2 + 1)))) with
          | None => Ok []
          | Some factor =>
              let newFormula := substr formula 0 p1 ++ expand factor tmp in
              let newFormula := if Nat.ltb i (size - 1) then newFormula ++ from formula i else newFormula in
              parseFormula fuel newFormula
          end
        end)
    | _, _ => Ok (parseFlat formula)
    end
  end.

End Formula.

(** ** std::ostringstream << double with the default format (%g, precision 6), on exact rationals:
    value rounded half to even to 6 significant digits, trailing zeros removed, exponent notation
    when the exponent is < -4 or >= 6 (fisx_elements.cpp 1977-1983). *)
Definition digits_of (n : Z) : string := NilEmpty.string_of_uint (N.to_uint (Z.to_N n)).
Definition round_half_even (x : Q) : Z :=
  let f := Qfloor x in
  match Qcompare (x - inject_Z f)%Q (1 # 2)%Q with
  | Lt => f
  | Gt => (f + 1)%Z
  | Eq => if Z.even f then f else (f + 1)%Z
  end.
Definition pow10 (e : Z) : Q := match e with Z0 => 1%Q | Zpos p => inject_Z (10 ^ Zpos p) | Zneg p => (1 # (10 ^ p))%Q end.
(** decimal exponent of a positive rational (searched within [-60, 60]) *)
Fixpoint find_exp (fuel : nat) (e : Z) (x : Q) : Z :=
  match fuel with
  | O => e
  | S k => if Qle_bool (pow10 e) x then (if Qle_bool (pow10 (e + 1)) x then find_exp k (e + 1) x else e)
           else find_exp k (e - 1) x
  end.
Fixpoint zeros (n : nat) : string := match n with O => "" | S k => String "0" (zeros k) end.
Fixpoint strip_zeros (s : string) : string :=
  match s with
  | EmptyString => ""
  | String c r => let r' := strip_zeros r in
                  if eqc c 48 && Nat.eqb (String.length r') 0 then "" else String c r'
  end.
Definition pad2 (s : string) : string := if Nat.ltb (String.length s) 2 then String "0" s else s.
Definition g6_pos (x : Q) : string :=
  let e := find_exp 120 0 x in
  let m := round_half_even (x / pow10 (e - 5))%Q in
  let '(m, e) := if Z.eqb m 1000000 then (100000%Z, (e + 1)%Z) else (m, e) in
  let d := digits_of m in   (* 6 digits d0 d1 ... d5 *)
  if (e <? -4)%Z || (6 <=? e)%Z then
    let tl := strip_zeros (substring 1 5 d) in
    substring 0 1 d ++ (if snonempty tl then String "." tl else "") ++ "e" ++ (if (e <? 0)%Z then "-" else "+") ++ pad2 (digits_of (Z.abs e))
  else if (e <? 0)%Z then
    "0." ++ zeros (Z.to_nat (- e - 1)) ++ strip_zeros d
  else
    let k := Z.to_nat (e + 1) in
    let tl := strip_zeros (substring k (6 - k) d) in
    substring 0 k d ++ (if snonempty tl then String "." tl else "").
Definition g6 (x : Q) : string :=
  match Qcompare x 0%Q with Eq => "0" | Gt => g6_pos x | Lt => String "-" (g6_pos (- x)%Q) end.
