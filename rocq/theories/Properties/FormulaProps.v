(** C31, C32: chemical formulas. *)
From Coq Require Import Ascii String List ZArith QArith Reals Bool Lia Lra.
From Verif Require Import Base.Num Base.Res Base.RSum Base.SMap Base.Str
  Model.Formula Spec.FormulaSpec Proofs.FormulaProofs Proofs.FormulaProofs2 Proofs.FormulaProofs3.
Import ListNotations.
Local Close Scope Q_scope.
Local Open Scope string_scope.

(** ** C31 Plain chemical formulas are parsed exactly *)
(** Any sequence of symbols, each with an optional decimal count: the map gives every symbol the
    sum of its counts, and has no other key. No recursion is needed (depth 1). *)
Theorem C31_plain_formula (tostr : R -> string) (depth : nat) (l : list item) :
  l <> [] -> Forall item_ok l ->
  exists m : list (string * R),
    @parseFormula RNum tostr (S depth) (items_text l) = Ok m /\ msorted sltb m /\
    forall s, mfind sltb s m = atoms_of s l.
Proof. apply parse_items. Qed.

(** What is rejected (empty map), whatever the rest of the text is. *)
Theorem C31_rejected {N : Num} (tostr : num -> string) (depth : nat) (s : string) :
  s = "" \/
  (exists c r, s = String c r /\ (islower c = true \/ isdigit c = true)) \/
  In " "%char (list_ascii_of_string s) \/
  length (filter (Ascii.eqb "(") (list_ascii_of_string s)) <> length (filter (Ascii.eqb ")") (list_ascii_of_string s)) \/
  (~ In "("%char (list_ascii_of_string s) /\ ~ In ")"%char (list_ascii_of_string s) /\
     forall c r, s = String c r -> isupper c = false) ->
  parseFormula tostr (S depth) s = Ok [].
Proof.
  assert (Heq : forall c n, (n < 256)%nat -> eqc c n = Ascii.eqb (ascii_of_nat n) c).
  { intros c n Hn. unfold eqc, code. destruct (Ascii.eqb_spec (ascii_of_nat n) c) as [<-|H].
    - rewrite nat_ascii_embedding by exact Hn. apply Nat.eqb_refl.
    - apply Nat.eqb_neq. intros <-. apply H. apply ascii_nat_embedding. }
  assert (Hocc : forall n, (n < 256)%nat -> occ n s = length (filter (Ascii.eqb (ascii_of_nat n)) (list_ascii_of_string s))).
  { intros n Hn. rewrite occ_count. unfold chars. f_equal. apply filter_ext. intros c. apply Heq, Hn. }
  assert (Hno : forall n, (n < 256)%nat -> ~ In (ascii_of_nat n) (list_ascii_of_string s) -> positions n 0 s = []).
  { intros n Hn Hni. apply positions_none. intros c Hc. apply negb_true_iff. rewrite Heq by exact Hn. apply Ascii.eqb_neq. intros <-. apply Hni, Hc. }
  cbn [parseFormula]. intros [->|[(c & r & -> & H)|[H|[H|(H1 & H2 & H3)]]]].
  - reflexivity.
  - cbn [start_ok]. replace (islower c || isdigit c) with true; [reflexivity|]. symmetry. apply orb_true_iff. exact H.
  - destruct (negb (start_ok s)); [reflexivity|]. destruct (negb _); [reflexivity|].
    replace (has_space s) with true; [reflexivity|]. unfold has_space.
    pose proof (positions_nonempty 32 s 0 (ex_intro _ _ (conj H eq_refl))). destruct (positions 32 0 s); [congruence|reflexivity].
  - destruct (negb (start_ok s)); [reflexivity|]. fold (occ 40 s) (occ 41 s). rewrite !Hocc by lia.
    change (ascii_of_nat 40) with "("%char. change (ascii_of_nat 41) with ")"%char.
    destruct (Nat.eqb_spec (length (filter (Ascii.eqb "(") (list_ascii_of_string s))) (length (filter (Ascii.eqb ")") (list_ascii_of_string s)))); [contradiction|reflexivity].
  - destruct (negb (start_ok s)); [reflexivity|]. destruct (negb _); [reflexivity|]. destruct (has_space s); [reflexivity|].
    rewrite (Hno 40%nat ltac:(lia) H1). destruct s as [|c r]; [reflexivity|]. cbn [parseFlat]. rewrite (H3 c r eq_refl). reflexivity.
Qed.

(** hypotheses met: "C6H12.5O6C2" *)
Example C31_items : list item :=
  [("C", Some (mkLiteral [6%nat] None)); ("H", Some (mkLiteral [1%nat; 2%nat] (Some [5%nat]))); ("O", None); ("Ca", Some (mkLiteral [2%nat] None));
   ("C", Some (mkLiteral [2%nat] None))].
Example C31_plain_formula_nonvacuous :
  C31_items <> [] /\ Forall item_ok C31_items /\ items_text C31_items = "C6H12.5OCa2C2" /\ atoms_of "C" C31_items = Some 8%R.
Proof.
  split; [discriminate|]. split.
  - repeat constructor; cbn; try lia; try congruence;
      try (eexists; eexists; split; [reflexivity|split; [reflexivity|]]; intros c Hc; cbn in Hc; repeat (destruct Hc as [<-|Hc]; [reflexivity|]); destruct Hc).
  - split; [reflexivity|]. cbn. unfold literal_value. cbn. f_equal. lra.
Qed.
(** characters other than letters, digits, '.', '(' and ')' are not all rejected: what follows a
    number is ignored, and a sign is part of the count *)
Theorem C31_junk_accepted_refuted :
  @parseFormula QNum g6 2 "H2-7O" = Ok [("H", 2%Q); ("O", 1%Q)] /\
  @parseFormula QNum g6 2 "H-2O" = Ok [("H", (-2)%Q); ("O", 1%Q)].
Proof. split; vmrefl. Qed.

(** ** C32 Parenthesised formulas multiply the group *)
(** Every nesting of groups with positive integer counts is parsed to the number of atoms of every
    symbol, provided that no group is followed by exactly one character of text, that a group
    without a number ends the formula, and that there are at most 999999 atoms. *)
Theorem C32_groups_partial (tostr : R -> string) (l : list ftree) :
  prints_integers tostr -> l <> [] -> forest_ok l -> forest_tail l 0 -> (forest_total l <= 999999)%N ->
  exists (m : list (string * R)) depth0,
    (forall depth, (depth0 <= depth)%nat -> @parseFormula RNum tostr depth (forest_text l) = Ok m) /\ msorted sltb m /\
    forall s, mfind sltb s m = match forest_atoms s l with 0%N => None | n => Some (IZR (Z.of_N n)) end.
Proof. intros Hp. apply parse_tree, Hp. Qed.

(** hypotheses met: "Ca3(P(OH)2)3(ZnCl)20" *)
Example C32_tree : list ftree :=
  [Atom "Ca" (Some 3%positive); Group [Atom "P" None; Group [Atom "O" None; Atom "H" None] (Some 2%positive)] (Some 3%positive);
   Group [Atom "Zn" None; Atom "Cl" None] (Some 20%positive)].
Example C32_groups_nonvacuous :
  prints_integers (fun x => dec (pos_of x)) /\ forest_ok C32_tree /\ forest_tail C32_tree 0 /\ (forest_total C32_tree <= 999999)%N /\
  forest_text C32_tree = "Ca3(P(OH)2)3(ZnCl)20" /\ forest_atoms "H" C32_tree = 6%N.
Proof.
  assert (Hsym : forall c r, isupper c = true -> all_lower r -> symbol (String c r)) by (intros c r H1 H2; exists c, r; auto).
  split; [intros p _; rewrite pos_of_IZR; reflexivity|]. split.
  - cbn [forest_ok tree_ok C32_tree]. repeat split; try congruence; apply Hsym; try reflexivity;
      intros c Hc; cbn in Hc; repeat (destruct Hc as [<-|Hc]; [reflexivity|]); destruct Hc.
  - cbn [forest_tail C32_tree]. split; [|split; [discriminate|split; reflexivity]].
    vm_compute. repeat split; congruence.
Qed.

(** The full claim is false. One character after a group is dropped: *)
Theorem C32_one_character_dropped_refuted :
  @parseFormula QNum g6 10 "(CH3)2O" = Ok [("C", 2%Q); ("H", 6%Q)] /\
  @parseFormula QNum g6 10 "(CH3)2O1" = Ok [("C", 2%Q); ("H", 6%Q); ("O", 1%Q)].
Proof. split; vmrefl. Qed.
(** an outer group directly after an inner one is not understood *)
Theorem C32_nested_end_refuted :
  @parseFormula QNum g6 10 "(Ca(OH)2)" = Ok [] /\
  @parseFormula QNum g6 10 "(Ca(OH)2)1" = Ok [("Ca", 1%Q); ("H", 2%Q); ("O", 2%Q)].
Proof. split; vmrefl. Qed.
(** a group without number inside the formula is not understood *)
Theorem C32_group_without_number_refuted :
  @parseFormula QNum g6 10 "Ca(OH)Cl" = Ok [] /\ @parseFormula QNum g6 10 "Ca(OH)1Cl" = Ok [("Ca", 1%Q); ("Cl", 1%Q); ("H", 1%Q); ("O", 1%Q)].
Proof. split; vmrefl. Qed.
(** a million atoms in a group become helium; fractions are rounded to 6 digits *)
Theorem C32_six_digits_refuted :
  @parseFormula QNum g6 10 "(H1000000)2" = Ok [("He", 2%Q)] /\
  @parseFormula QNum g6 10 "(H1)0.3333333333" = Ok [("H", (333333 # 1000000)%Q)].
Proof. split; vmrefl. Qed.
(** parentheses in the wrong order: the call recurses forever, at every depth *)
Theorem C32_wrong_order_diverges_refuted (tostr : R -> string) (depth : nat) :
  prints_integers tostr -> @parseFormula RNum tostr depth "A)2B(C" = Diverge.
Proof.
  intros H. apply (bad_diverges tostr (H 2%positive ltac:(lia)) depth "B" ""); [reflexivity|]. intros c [<-|[]]; reflexivity.
Qed.

Print Assumptions C31_plain_formula.
Print Assumptions C31_rejected.
Print Assumptions C31_junk_accepted_refuted.
Print Assumptions C32_groups_partial.
Print Assumptions C32_one_character_dropped_refuted.
Print Assumptions C32_nested_end_refuted.
Print Assumptions C32_group_without_number_refuted.
Print Assumptions C32_six_digits_refuted.
Print Assumptions C32_wrong_order_diverges_refuted.
