(** C33, C34: compositions. *)
From Coq Require Import Ascii String List ZArith QArith Reals Bool Lia Lra.
From Verif Require Import Base.Num Base.Res Base.RSum Base.SMap Base.Str Model.Material Model.Shell Model.Element Model.Formula Model.Elements
  Spec.MaterialSpec Spec.ShellSpec Spec.ElementSpec Spec.FormulaSpec Spec.ElementsSpec Proofs.FormulaProofs Proofs.FormulaProofs2
  Proofs.ElementsProofs Proofs.ElementsProofs2 Proofs.ElementsProofs3 Proofs.ElementsProofs4 Proofs.ElementsProofs5.
Import ListNotations.
Local Close Scope Q_scope.
Local Open Scope string_scope.
Local Existing Instance RNum.

(** an element of the library with its atomic mass *)
Definition has_mass (lf : bool) (ops : list (@es_op RNum)) (s : string) (a : R) : Prop :=
  exists e, registered lf ops s = Some e /\ getAtomicMass e = Ok a /\ (0 < a)%R.

(** ** C33 Formula compositions are mass fractions *)
(** After every history: if the formula is understood with positive counts and every symbol is an
    element with a positive mass, the fractions are count * mass / total, in (0, 1], adding up to 1,
    for exactly the symbols of the formula. *)
Theorem C33_fractions (tostr : R -> string) (depth fuel : nat) (lf : bool) (ops : list es_op)
    (formula : string) (counts : list (string * R)) (mass : string -> R) :
  let es := es_run tostr depth fuel lf elements_empty ops in
  parseFormula tostr depth formula = Ok counts -> counts <> [] ->
  (forall s n, In (s, n) counts -> (0 < n)%R) ->
  (forall s, In s (map fst counts) -> has_mass lf ops s (mass s)) ->
  exists c : list (string * R),
    getCompositionFromFormula tostr depth es formula = Ok c /\ is_map c /\ map fst c = map fst counts /\
    (forall s, mfind sltb s c =
       option_map (fun n => n * mass s / Rsum (map (fun kv => snd kv * mass (fst kv)) counts))%R (mfind sltb s counts)) /\
    Rsum (map snd c) = 1%R /\ (forall s x, In (s, x) c -> (0 < x <= 1)%R).
Proof. intros es. exact (formula_fractions tostr depth es _ (run_reg tostr depth fuel lf ops _ _ empty_reg) formula counts mass). Qed.

(** End to end for plain formulas: any sequence of symbols with positive decimal counts. *)
Theorem C33_plain_formula (tostr : R -> string) (depth fuel : nat) (lf : bool) (ops : list es_op)
    (l : list item) (mass : string -> R) :
  let es := es_run tostr (S depth) fuel lf elements_empty ops in
  l <> [] -> Forall item_ok l -> Forall (fun i => (0 < item_count i)%R) l ->
  Forall (fun i => has_mass lf ops (fst i) (mass (fst i))) l ->
  exists c : list (string * R),
    getCompositionFromFormula tostr (S depth) es (items_text l) = Ok c /\ is_map c /\
    (forall s, mfind sltb s c =
       option_map (fun n => n * mass s / Rsum (map (fun i => item_count i * mass (fst i)) l))%R (atoms_of s l)) /\
    Rsum (map snd c) = 1%R /\ (forall s x, In (s, x) c -> (0 < x <= 1)%R).
Proof.
  intros es Hn Hok Hpos Hm. destruct (parse_items tostr depth l Hn Hok) as (m & Ep & Hs & Hf).
  assert (Ha : forall s n, atoms_of s l = Some n -> (0 < n)%R /\ exists i, In i l /\ fst i = s).
  { intros s n. unfold atoms_of. destruct (items_of s l) as [|i0 is] eqn:E; [discriminate|]. intros Q. injection Q as <-. 
    assert (I : forall i, In i (i0 :: is) -> In i l /\ fst i = s).
    { intros i I. rewrite <- E in I. unfold items_of in I. apply filter_In in I. destruct I as [I K]. apply String.eqb_eq in K. auto. }
    split; [|exists i0; apply I; left; reflexivity]. change (item_count i0 + Rsum (map item_count is))%R with (Rsum (map item_count (i0 :: is))). apply Rsum_pos; [discriminate|]. apply Forall_map, Forall_forall. intros i K.
    apply I in K. rewrite Forall_forall in Hpos. apply Hpos, K. }
  assert (Hin : forall s n, In (s, n) m -> atoms_of s l = Some n) by (intros s n I; rewrite <- Hf; apply (smfind_In _ _ Hs), I).
  assert (Hm0 : m <> []).
  { intros ->. destruct l as [|[s o] l']; [congruence|]. specialize (Hf s). unfold atoms_of, items_of in Hf. cbn [filter fst] in Hf.
    rewrite String.eqb_refl in Hf. discriminate. }
  destruct (C33_fractions tostr (S depth) fuel lf ops (items_text l) m mass Ep Hm0) as (c & Hc & Hsc & Hk & Hv & H1 & Hr).
  - intros s n I. exact (proj1 (Ha s n (Hin s n I))).
  - intros s I. apply in_map_iff in I. destruct I as [[s' n] [<- I]]. destruct (Ha s' n (Hin s' n I)) as [_ [i [I1 <-]]].
    rewrite Forall_forall in Hm. exact (Hm i I1).
  - exists c. split; [exact Hc|]. split; [exact Hsc|]. split; [|split; [exact H1|exact Hr]]. intros s. rewrite Hv, Hf.
    assert (T : Rsum (map (fun kv => snd kv * mass (fst kv)) m)%R = Rsum (map (fun i => item_count i * mass (fst i)) l)%R) by (apply items_weight; assumption).
    rewrite T. reflexivity.
Qed.
(** Formulas with groups of any nesting (the conditions of C32). *)
Theorem C33_groups (tostr : R -> string) (l : list ftree) (mass : string -> R) :
  prints_integers tostr -> l <> [] -> forest_ok l -> forest_tail l 0 -> (forest_total l <= 999999)%N ->
  exists depth0, forall depth fuel lf ops, (depth0 <= depth)%nat ->
  (forall s, forest_atoms s l <> 0%N -> has_mass lf ops s (mass s)) ->
  exists (c : list (string * R)) (total : R),
    getCompositionFromFormula tostr depth (es_run tostr depth fuel lf elements_empty ops) (forest_text l) = Ok c /\ is_map c /\
    (forall s, mfind sltb s c = match forest_atoms s l with 0%N => None | n => Some (IZR (Z.of_N n) * mass s / total)%R end) /\
    Rsum (map snd c) = 1%R /\ (forall s x, In (s, x) c -> (0 < x <= 1)%R).
Proof.
  intros Hp Hn Hok Ht Hl. destruct (parse_tree tostr Hp l Hn Hok Ht Hl) as (m & d0 & Ep & Hs & Hf).
  exists d0. intros depth fuel lf ops Hd Hm.
  assert (Hin : forall s n, In (s, n) m -> forest_atoms s l <> 0%N /\ (0 < n)%R).
  { intros s n I. apply (smfind_In _ _ Hs) in I. rewrite Hf in I. destruct (forest_atoms s l) as [|p]; [discriminate|]. injection I as <-.
    split; [discriminate|]. apply IZR_lt. reflexivity. }
  assert (Hm0 : m <> []).
  { intros E. assert (A : forall s, forest_atoms s l = 0%N).
    { intros s. specialize (Hf s). rewrite E in Hf. cbn in Hf. destruct (forest_atoms s l); [reflexivity|discriminate]. }
    destruct l as [|t l']; [congruence|]. clear - Hok A. 
    assert (P : forall t, tree_ok t -> exists s, tree_atoms s t <> 0%N).
    { clear. fix IH 1. intros [s n|g n] H.
      - exists s. cbn. rewrite String.eqb_refl. discriminate.
      - cbn in H. destruct H as [Hg H]. destruct g as [|t g]; [congruence|]. destruct H as [H _]. destruct (IH t H) as [s Hs]. exists s. cbn.
        intros E. match type of E with match ?x with _ => _ end = _ => destruct x eqn:Q end; [apply N.eq_add_0 in Q; tauto|discriminate]. }
    destruct Hok as [Hok _]. destruct (P t Hok) as [s Hs]. apply Hs. specialize (A s). cbn in A. apply N.eq_add_0 in A. tauto. }
  destruct (C33_fractions tostr depth fuel lf ops (forest_text l) m mass (Ep depth Hd) Hm0) as (c & Hc & Hsc & Hk & Hv & H1 & Hr).
  - intros s n I. exact (proj2 (Hin s n I)).
  - intros s I. apply in_map_iff in I. destruct I as [[s' n] [<- I]]. apply Hm. exact (proj1 (Hin s' n I)).
  - exists c, (Rsum (map (fun kv => snd kv * mass (fst kv)) m))%R. split; [exact Hc|]. split; [exact Hsc|]. split; [|split; [exact H1|exact Hr]].
    intros s. rewrite Hv, Hf. destruct (forest_atoms s l); reflexivity.
Qed.
(** A formula that is not understood, or with a symbol that is not an element: empty map. *)
Theorem C33_empty (tostr : R -> string) (depth fuel : nat) (lf : bool) (ops : list es_op) (formula : string) (counts : list (string * R)) :
  let es := es_run tostr depth fuel lf elements_empty ops in
  parseFormula tostr depth formula = Ok counts ->
  counts = [] \/ ((exists s, In s (map fst counts) /\ registered lf ops s = None) /\
                  forall s e, In s (map fst counts) -> registered lf ops s = Some e -> exists a, getAtomicMass e = Ok a) ->
  getCompositionFromFormula tostr depth es formula = Ok [].
Proof.
  intros es Hp [->|[[s0 [I N]] H]].
  - unfold getCompositionFromFormula. rewrite Hp. reflexivity.
  - exact (formula_unknown tostr depth es _ (run_reg tostr depth fuel lf ops _ _ empty_reg) formula counts s0 Hp I N H).
Qed.
(** Whatever the formula and the masses: ascending names of registered elements, and as soon as
    one fraction is positive they add up to 1. *)
Theorem C33_any_answer (tostr : R -> string) (depth fuel : nat) (lf : bool) (ops : list es_op) (formula : string) (c : list (string * R)) :
  getCompositionFromFormula tostr depth (es_run tostr depth fuel lf elements_empty ops) formula = Ok c ->
  is_map c /\ (forall s x, In (s, x) c -> exists e, registered lf ops s = Some e) /\
  (forall s x, In (s, x) c -> (0 < x)%R -> Rsum (map snd c) = 1%R).
Proof. exact (formula_shape tostr depth _ _ (run_reg tostr depth fuel lf ops _ _ empty_reg) formula c). Qed.

(** hypotheses met: H2O1.5H *)
Example C33_elements : list (@es_op RNum) :=
  let el n z a := match @element_new RNum n z with Ok e => with_info e (el_name e) (el_longName e) (el_z e) (Some a) (el_density e) (el_column e) (el_row e) | _ => element_default end in
  [RAdd (el "H" 1%Z 1%R); RAdd (el "O" 8%Z 16%R); RAdd (el "Fe" 26%Z 56%R)].
Example C33_mass (s : string) : R := if String.eqb s "H" then 1%R else if String.eqb s "O" then 16%R else 56%R.
Example C33_items : list item :=
  [("H", Some (mkLiteral [2%nat] None)); ("O", Some (mkLiteral [1%nat] (Some [5%nat]))); ("H", None)].
Lemma C33_masses lf : has_mass lf C33_elements "H" 1 /\ has_mass lf C33_elements "O" 16 /\ has_mass lf C33_elements "Fe" 56.
Proof. repeat split; (eexists; split; [reflexivity|split; [reflexivity|lra]]). Qed.
Example C33_nonvacuous (tostr : R -> string) lf :
  items_text C33_items = "H2O1.5H" /\
  Forall (fun i => has_mass lf C33_elements (fst i) (C33_mass (fst i))) C33_items /\
  Forall item_ok C33_items /\ Forall (fun i => (0 < item_count i)%R) C33_items /\
  getCompositionFromFormula tostr 1 (es_run tostr 1 1 lf elements_empty C33_elements) "H2O1.5H" = Ok [("H", 3 / 27); ("O", 24 / 27)]%R.
Proof.
  destruct (C33_masses lf) as [MH [MO _]].
  assert (A : Forall (fun i => has_mass lf C33_elements (fst i) (C33_mass (fst i))) C33_items) by (repeat constructor; assumption).
  assert (B : Forall item_ok C33_items).
  { repeat constructor; cbn; try lia; try congruence; try (left; discriminate); try (right; discriminate);
      try (eexists; eexists; split; [reflexivity|split; [reflexivity|]]; intros c Hc; cbn in Hc; repeat (destruct Hc as [<-|Hc]; [reflexivity|]); destruct Hc). }
  assert (C : Forall (fun i => (0 < item_count i)%R) C33_items).
  { repeat constructor; cbn; unfold literal_value; cbn; lra. }
  split; [reflexivity|]. split; [exact A|]. split; [exact B|]. split; [exact C|].
  destruct (C33_plain_formula tostr 0 1 lf C33_elements C33_items C33_mass ltac:(discriminate) B C A) as (c & Hc & Hs & Hv & _).
  change (items_text C33_items) with "H2O1.5H" in Hc. refine (eq_trans Hc _). f_equal.
  apply (@smsorted_ext R); [exact Hs|repeat constructor|]. intros s. rewrite Hv.
  assert (T : Rsum (map (fun i => item_count i * C33_mass (fst i)) C33_items)%R = 27%R) by (cbn; unfold item_count, literal_value; cbn; lra).
  rewrite T. unfold atoms_of, items_of. cbn [C33_items filter fst].
  destruct (String.eqb_spec "H" s) as [<-|Q1]; [|destruct (String.eqb_spec "O" s) as [<-|Q2]].
  - cbn. unfold item_count, literal_value, C33_mass. cbn. f_equal. lra.
  - cbn. unfold item_count, literal_value, C33_mass. cbn. f_equal. lra.
  - cbn [option_map]. symmetry. apply (smfind_None); [repeat constructor|]. cbn. intuition congruence.
Qed.
(** counts that are not positive: a fraction below 0 and one above 1 *)
Theorem C33_negative_count_refuted :
  let el n z (a : Q) := match @element_new QNum n z with Ok e => fst (setAtomicMass e a) | _ => element_default end in
  let es := es_run g6 10 10 false elements_empty [RAdd (el "H" 1%Z 1%Q); RAdd (el "O" 8%Z (16 # 1)%Q)] in
  getCompositionFromFormula g6 10 es "H-2O" = Ok [("H", (-1 # 7)%Q); ("O", (8 # 7)%Q)].
Proof. cbv zeta; vmrefl. Qed.

(** ** C34 Material compositions resolve to elements *)
(** After every history and for every name that resolves (a formula, or a material whose
    constituents resolve, to any depth): the call returns, with any recursion depth from some
    depth on, the mass fractions of the specification. *)
Theorem C34_resolves (tostr : R -> string) (depth fuel0 : nat) (lf : bool) (ops : list es_op) (name : string) (f : string -> R) :
  let es := es_run tostr depth fuel0 lf elements_empty ops in
  resolves tostr depth es name f ->
  exists (enough : nat) (c : list (string * R)),
    (forall fuel, (enough <= fuel)%nat -> getComposition tostr depth fuel es name = Ok c) /\
    mass_fractions (registered lf ops) c f.
Proof. intros es. exact (composition_resolves tostr depth es _ (run_reg tostr depth fuel0 lf ops _ _ empty_reg) name f). Qed.
(** In an acyclic registry every name resolves that is a formula or a material. *)
Theorem C34_acyclic (tostr : R -> string) (depth fuel0 : nat) (lf : bool) (ops : list es_op) (rank : string -> nat) (name : string) :
  let es := es_run tostr depth fuel0 lf elements_empty ops in
  acyclic tostr depth es rank ->
  (exists c, formula_of tostr depth es name c) \/ (not_a_formula tostr depth es name /\ In name (getMaterialNames es)) ->
  exists f (enough : nat) (c : list (string * R)),
    resolves tostr depth es name f /\
    (forall fuel, (enough <= fuel)%nat -> getComposition tostr depth fuel es name = Ok c) /\
    mass_fractions (registered lf ops) c f.
Proof.
  intros es Hr Hn. destruct (acyclic_resolves tostr depth es rank Hr name) as [f Hf].
  - destruct Hn as [Hn|[Hn I]]; [left; exact Hn|right]. split; [exact Hn|]. rewrite getMaterial_find.
    change (getMaterialNames es) with (map (@Material.getName RNum) (es_mats es)) in I. apply (has_iff name (es_mats es)) in I. rewrite has_find in I.
    destruct (find _ _) as [m|]; [eauto|discriminate].
  - exists f. destruct (C34_resolves tostr depth fuel0 lf ops name f Hf) as (e & c & A & B). eauto.
Qed.
(** A name that is neither a formula nor a material: empty map. *)
Theorem C34_unknown (tostr : R -> string) (depth fuel0 fuel : nat) (lf : bool) (ops : list es_op) (name : string) :
  let es := es_run tostr depth fuel0 lf elements_empty ops in
  not_a_formula tostr depth es name -> ~ In name (getMaterialNames es) ->
  getComposition tostr depth (S fuel) es name = Ok [].
Proof.
  intros es Hn Hm. apply comp_unknown; [exact Hn|]. intros m E. apply Hm. rewrite getMaterial_find in E.
  change (getMaterialNames es) with (map (@Material.getName RNum) (es_mats es)). apply (has_iff name (es_mats es)). rewrite has_find.
  destruct (find _ _); [reflexivity|discriminate].
Qed.
(** The overloads with additional materials (which come before those of the library) and with a
    map of constituents, when every registered element has a symbol as name and a positive mass. *)
Definition proper_elements (lf : bool) (ops : list (@es_op RNum)) : Prop :=
  forall s e, registered lf ops s = Some e -> symbol s /\ exists a, getAtomicMass e = Ok a /\ (0 < a)%R.
Theorem C34_additional (tostr : R -> string) (depth fuel0 : nat) (lf : bool) (ops : list es_op)
    (additional : list (@material RNum)) (name : string) (f : string -> R) :
  let es := es_run tostr (S depth) fuel0 lf elements_empty ops in
  proper_elements lf ops -> resolves_with tostr (S depth) es additional name f ->
  exists (enough : nat) (c : list (string * R)),
    (forall fuel, (enough <= fuel)%nat -> getComposition_with tostr (S depth) fuel es additional name = Ok c) /\
    mass_fractions (registered lf ops) c f.
Proof.
  intros es Hp. pose proof (run_reg tostr (S depth) fuel0 lf ops _ _ empty_reg) as Hreg.
  apply (composition_with tostr (S depth) es _ Hreg). intros s e He. destruct (Hp s e He) as [Hs [a [Ha H0]]].
  apply (symbol_formula tostr (S depth) es _ Hreg s e a); auto. lia.
Qed.
Theorem C34_map (tostr : R -> string) (depth fuel0 : nat) (lf : bool) (ops : list es_op)
    (additional : list (@material RNum)) (input : list (string * R)) (f : string -> string -> R) :
  let es := es_run tostr (S depth) fuel0 lf elements_empty ops in
  proper_elements lf ops -> good_amounts input ->
  (forall k w, In (k, w) input -> resolves_with tostr (S depth) es additional k (f k)) ->
  exists (enough : nat) (c : list (string * R)),
    (forall fuel, (enough <= fuel)%nat -> getComposition_map tostr (S depth) fuel es additional input = Ok c) /\
    mass_fractions (registered lf ops) c (mixture input f).
Proof.
  intros es Hp. pose proof (run_reg tostr (S depth) fuel0 lf ops _ _ empty_reg) as Hreg.
  apply (composition_map tostr (S depth) es _ Hreg). intros s e He. destruct (Hp s e He) as [Hs [a [Ha H0]]].
  apply (symbol_formula tostr (S depth) es _ Hreg s e a); auto. lia.
Qed.
(** A material that leads back to itself: the call never returns, at no recursion depth. [loop] is
    any set of materials each having a constituent in the set, after constituents that resolve. *)
Theorem C34_cycle_diverges_refuted (tostr : R -> string) (depth fuel0 : nat) (lf : bool) (ops : list es_op) (loop : string -> Prop) :
  let es := es_run tostr depth fuel0 lf elements_empty ops in
  (forall n, loop n -> exists m before k w after, not_a_formula tostr depth es n /\ getMaterial es n = Ok m /\
     Material.getComposition m = (before ++ (k, w) :: after)%list /\ loop k /\
     forall k' w', In (k', w') before -> loop k' \/ exists f, resolves tostr depth es k' f) ->
  forall fuel n, loop n -> getComposition tostr depth fuel es n = Diverge.
Proof. intros es. exact (comp_cycle tostr depth es _ (run_reg tostr depth fuel0 lf ops _ _ empty_reg) loop). Qed.

(** hypotheses met: rust is half oxide (a formula) and half steel (a material of Fe and O); the
    library is acyclic; a material made of steel and itself is not *)
Example C34_history : list (@es_op RNum) :=
  C33_elements ++ [MAdd (mkMaterial "steel" true [("Fe", 3%R); ("O", 1%R)] 8%R 1%R "") 1; MAdd (mkMaterial "rust" true [("Fe", 1%R); ("steel", 1%R)] 5%R 1%R "") 1;
   MAdd (mkMaterial "loop" true [("loop", 1%R); ("steel", 1%R)] 5%R 1%R "") 1].
Lemma C34_formula (tostr : R -> string) lf s a : symbol s -> has_mass lf C33_elements s a ->
  formula_of tostr 1 (es_run tostr 1 1 lf elements_empty C34_history) s [(s, 1%R)].
Proof.
  intros Hs [e [He [Ha H0]]]. split; [|split; [discriminate|]].
  - apply (symbol_formula tostr 1 _ _ (run_reg tostr 1 1 lf C34_history _ _ empty_reg) s e a); try assumption. lia.
  - intros s' x [Q|[]]. injection Q as <- <-. lra.
Qed.
Example C34_nonvacuous (tostr : R -> string) lf :
  let es := es_run tostr 1 1 lf elements_empty C34_history in
  exists f, resolves tostr 1 es "rust" f /\ f "Fe" = (7 / 8)%R /\ f "O" = (1 / 8)%R /\ f "H" = 0%R.
Proof.
  intros es. destruct (C33_masses lf) as [_ [MO MF]].
  assert (SO : symbol "O") by (exists "O"%char, ""; split; [reflexivity|split; [reflexivity|intros c []]]).
  assert (SF : symbol "Fe") by (exists "F"%char, "e"; split; [reflexivity|split; [reflexivity|intros c [<-|[]]; reflexivity]]).
  pose proof (C34_formula tostr lf "O" 16 SO MO) as FO. pose proof (C34_formula tostr lf "Fe" 56 SF MF) as FF.
  set (g := fun k s : string => value_or_0 s [(k, 1%R)]).
  assert (Rs : resolves tostr 1 es "steel" (mixture [("Fe", 3%R); ("O", 1%R)] g)).
  { apply (by_mixture tostr 1 es "steel" (mkMaterial "steel" true [("Fe", 3%R); ("O", 1%R)] 8%R 1%R "") g); [reflexivity|reflexivity| |].
    - split; [discriminate|]. intros k w [E|[E|[]]]; injection E as <- <-; lra.
    - intros k w [E|[E|[]]]; injection E as <- <-; [exact (by_formula _ _ _ _ _ FF)|exact (by_formula _ _ _ _ _ FO)]. }
  exists (mixture [("Fe", 1%R); ("steel", 1%R)] (fun k => if String.eqb k "Fe" then g "Fe" else mixture [("Fe", 3%R); ("O", 1%R)] g)).
  split.
  - apply (by_mixture tostr 1 es "rust" (mkMaterial "rust" true [("Fe", 1%R); ("steel", 1%R)] 5%R 1%R "")); [reflexivity|reflexivity| |].
    + split; [discriminate|]. intros k w [E|[E|[]]]; injection E as <- <-; lra.
    + intros k w [E|[E|[]]]; injection E as <- <-; [exact (by_formula _ _ _ _ _ FF)|exact Rs].
  - unfold mixture, g, value_or_0. cbn. repeat split; lra.
Qed.
Example C34_loop (tostr : R -> string) lf fuel :
  getComposition tostr 1 fuel (es_run tostr 1 1 lf elements_empty C34_history) "loop" = Diverge.
Proof.
  apply (C34_cycle_diverges_refuted tostr 1 1 lf C34_history (fun n => n = "loop")); [|reflexivity]. intros n ->.
  eexists _, [], "loop", 1%R, [("steel", 1%R)]. split; [reflexivity|]. split; [reflexivity|]. split; [reflexivity|]. split; [reflexivity|]. intros k w [].
Qed.

Print Assumptions C33_fractions.
Print Assumptions C33_plain_formula.
Print Assumptions C33_groups.
Print Assumptions C33_empty.
Print Assumptions C33_any_answer.
Print Assumptions C33_negative_count_refuted.
Print Assumptions C34_resolves.
Print Assumptions C34_acyclic.
Print Assumptions C34_unknown.
Print Assumptions C34_additional.
Print Assumptions C34_map.
Print Assumptions C34_cycle_diverges_refuted.
