(** C72: absorption edges found in tables of photoelectric coefficients. *)
From Coq Require Import Ascii String List ZArith Reals Bool Arith Lia Lra Sorted.
From Verif Require Import Base.Num Base.Res Base.SMap Base.Str Base.Text Model.Shell Model.Element Model.Elements
  Spec.ShellSpec Spec.MaterialSpec Spec.ElementSpec Spec.MergeSpec Spec.EdgeSpec Proofs.MathProofs Proofs.ElementProofs Proofs.ElementProofs2 Proofs.ElementProofs3 Proofs.ElementProofs4 Proofs.InitProofs Proofs.MergeProofs Proofs.EdgeProofs.
Import ListNotations.
Set Implicit Arguments.
Local Open Scope string_scope.
Local Open Scope R_scope.
Local Existing Instance RNum.
Local Ltac toR := change (@num RNum) with R in *.

(** Exactly the edges that the data have are reported, with their energy and the place where it first
    appears; the element keeps its description and its coefficients. *)
Theorem C72_edges : forall (e : element) (energy photo : list R),
  energy <> [] -> length photo = length energy -> getBindingEnergies e <> [] ->
  exists e' edges, extractEdges_from e energy photo = (e', Ok edges) /\ same_description e e' /\
    getMassAttenuationCoefficients_all e' = getMassAttenuationCoefficients_all e /\ is_map edges /\
    forall shell x z, mfind sltb shell edges = Some (x, z) <-> exists i, z = Z.of_nat i /\ edge_found e energy photo shell x i.
Proof.
  intros e energy photo NE LE NB. pose proof (extract_any e energy photo) as I. rewrite (@extract_run RNum e energy photo NE LE NB) in *. cbv zeta in *.
  destruct (@candidates_spec energy photo 0%Z [] (SSorted_nil _)) as [SC CS]. set (cands := edgeCandidates 0 energy photo []) in *.
  assert (ND : NoDup shellKeys) by (unfold shellKeys; repeat constructor; cbn; intuition discriminate).
  destruct (@edgeLoop_spec (rev cands) shellKeys (el_binding e) [] ND) as [SO ES]; [constructor|]. cbv zeta in SO, ES.
  change shellKeys with edge_shells in *. destruct (edgeLoop (rev cands) edge_shells (el_binding e) []) as [b out]. cbn [fst snd] in *.
  exists (with_binding e b), out. split; [reflexivity|]. split; [exact I|]. split; [reflexivity|]. split; [exact SO|]. intros s x z.
  assert (IN : forall y, In y (map fst cands) <-> exists i, jump energy photo y i).
  { intros y. rewrite in_map_iff. split.
    - intros ([y' i] & <- & Y). apply (@mfind_In _ _ _ Rltb_total) in Y; [|exact SC]. destruct (CS y') as [(n & [J _] & _)|[_ F]]; [exists n; exact J|]. pose proof (eq_trans (eq_sym Y) F). discriminate.
    - intros [i J]. destruct (CS y) as [(n & _ & F)|[NJ _]]; [|destruct (NJ _ J)]. exists (y, 0 + Z.of_nat n)%Z. split; [reflexivity|]. apply (@mfind_In _ _ _ Rltb_total); [exact SC|exact F]. }
  assert (LAST : forall y w, mfind Rltb y cands = Some w -> exists i, w = Z.of_nat i /\ last_jump energy photo y i).
  { intros y w W. destruct (CS y) as [(n & L & F)|[_ F]]; pose proof (eq_trans (eq_sym W) F) as Q; [|discriminate]. injection Q as ->. exists n. auto. }
  split.
  - intros H. destruct (ES s) as [(n & en & i & A & B & C & F)|[_ F]]; pose proof (eq_trans (eq_sym H) F) as Q; [|discriminate]. injection Q as -> ->.
    assert (M : mfind Rltb en cands = Some i) by (apply (@mfind_In _ _ _ Rltb_total); [exact SC|]; apply nth_error_In in B; rewrite <- in_rev in B; exact B).
    destruct (LAST _ _ M) as (k & -> & L). exists k. split; [reflexivity|]. exists n. split; [exact A|]. split; [|split; [exact L|apply within_spec; exact C]].
    destruct (@sorted_place cands n _ _ SC B) as (P1 & P2 & P3). exists (map fst (firstn n (rev cands))). split; [exact P1|]. split; [exact P2|]. intros y. rewrite <- IN. apply P3.
  - intros (i & -> & n & A & (l & PL & LL & PA) & L & W). apply within_spec in W. destruct (CS x) as [(k & L' & F)|[NJ _]]; [|destruct (NJ _ (proj1 L))].
    assert (k = i) by (pose proof (proj2 L _ (proj1 L')); pose proof (proj2 L' _ (proj1 L)); lia). subst k.
    assert (F' : In (x, Z.of_nat i) cands) by (apply (@mfind_In _ _ _ Rltb_total); [exact SC|exact F]). rewrite in_rev in F'. apply In_nth_error in F' as [m B].
    destruct (@sorted_place cands m _ _ SC B) as (Q1 & Q2 & Q3).
    assert (m = n).
    { rewrite <- Q2, <- LL. apply Nat.le_antisymm; apply NoDup_incl_length; try assumption; intros y Y; [apply PA; rewrite <- IN; apply Q3, Y|apply Q3; rewrite IN; apply PA, Y]. }
    subst m. destruct (ES s) as [(n' & en & j & A' & B' & _ & R)|[NW _]].
    + assert (n' = n) by (apply (proj1 (NoDup_nth_error edge_shells) ND); [apply nth_error_Some; congruence|congruence]). subst n'. toR. rewrite B in B'. injection B' as <- <-. exact R.
    + specialize (NW n x (Z.of_nat i) A B). pose proof (eq_trans (eq_sym W) NW) as Q. discriminate.
Qed.
Print Assumptions C72_edges.
(** empty tables, tables of different lengths and elements without binding energies are refused *)
Theorem C72_refused : forall {N : Num} (e : @element N) energy photo,
  photo = [] \/ energy = [] \/ length energy <> length photo \/ getBindingEnergies e = [] -> extractEdges_from e energy photo = (e, Throw RuntimeError).
Proof.
  intros N e energy photo H. unfold extractEdges_from. destruct photo as [|p photo]; [reflexivity|]. destruct energy as [|x energy]; [reflexivity|]. cbn [length Nat.ltb Nat.leb].
  destruct (Nat.eqb_spec (S (length energy)) (S (length photo))) as [E|E]; [|reflexivity]. cbn [negb]. destruct H as [H|[H|[H|H]]]; try discriminate; [destruct (H E)|]. unfold getBindingEnergies in H. rewrite H. reflexivity.
Qed.
Print Assumptions C72_refused.
(** an element finds in its own table the edges of the data it was given *)
Theorem C72_own : forall (e e1 : element) (energy photo coherent compton pairv : list R),
  setMassAttenuationCoefficients e energy photo coherent compton pairv = (e1, Ok tt) -> energy <> [] -> getBindingEnergies e <> [] ->
  exists e' edges, extractEdges e1 = (e', Ok edges) /\ same_description e e' /\ getMassAttenuationCoefficients_all e' = getMassAttenuationCoefficients_all e1 /\ is_map edges /\
    forall shell x z, mfind sltb shell edges = Some (x, z) <-> exists i, z = Z.of_nat i /\ edge_found e energy photo shell x i.
Proof.
  intros e e1 en ph co cp pr H NE NB. unfold setMassAttenuationCoefficients in H. cbv zeta in H. toR.
  destruct (Nat.eqb_spec (length ph) (length en)) as [L|]; [|discriminate]. cbn [negb] in H. destruct (negb (Nat.eqb (length cp) (length en))); [discriminate|]. destruct (negb (Nat.eqb (length co) (length en))); [discriminate|].
  destruct (Nat.ltb 0 (length pr) && negb (Nat.eqb (length pr) (length en))); [discriminate|]. destruct (match en with [] => false | x :: r => not_ascending x r end); [discriminate|]. injection H as <-. set (e1 := with_mu _ _ _).
  destruct (@C72_edges e1 en ph NE L NB) as (e' & ed & X & I & A & M & S).
  exists e', ed. split; [|split; [exact I|split; [exact A|split; [exact M|exact S]]]].
  unfold extractEdges. change (mmem sltb "photoelectric" (el_mu e1)) with true. cbn iota. change (mfind sltb "photoelectric" (el_mu e1)) with (Some ph). cbn iota. destruct ph as [|p ph]; [destruct en; [contradiction|discriminate]|].
  exact X.
Qed.
Print Assumptions C72_own.

(** A table with the edges of two shells: the second jump is taken for the L1 edge, the first, 60 eV
    from the binding energy of K, for the K edge. *)
Definition ee_element : @element RNum :=
  @mkElement RNum "X" "X" 30 (Some 65) 1 (-1)%Z (-1)%Z [("K", 906 / 100); ("L1", 5)] [] [] [] [] [] false [] false [] [].
Definition ee_energy : list R := [1; 5; 5; 9; 9; 20].
Definition ee_photo : list R := [9; 1; 4; 2; 7; 1].
Lemma ee_jumps y i : jump ee_energy ee_photo y i <-> (y = 5 /\ i = 1%nat) \/ (y = 9 /\ i = 3%nat).
Proof.
  unfold jump. split.
  - intros (A & B & p & q & C & D & E). destruct i as [|[|[|[|[|[|i]]]]]]; cbn in A, B; try discriminate; injection A as <-; try (exfalso; injection B as B; lra); auto.
  - intros [[-> ->]|[-> ->]]; (split; [reflexivity|split; [reflexivity|]]); eexists _, _; (split; [reflexivity|split; [reflexivity|]]); lra.
Qed.
Theorem C72_example : edge_found ee_element ee_energy ee_photo "K" 9 3 /\ edge_found ee_element ee_energy ee_photo "L1" 5 1 /\
  ee_energy <> [] /\ length ee_photo = length ee_energy /\ getBindingEnergies ee_element <> [].
Proof.
  split; [|split; [|split; [discriminate|split; [reflexivity|discriminate]]]].
  - exists 0%nat. split; [reflexivity|]. split; [exists []; split; [constructor|]; split; [reflexivity|]; intros y; split; [intros []|]; intros (Y & i & J); apply ee_jumps in J; intuition lra|].
    split; [split; [apply ee_jumps; auto|intros i J; apply ee_jumps in J; destruct J as [[J _]|[_ ->]]; [lra|lia]]|]. change (binding_of ee_element "K") with (906 / 100). split; [lra|]. rewrite Rabs_left; lra.
  - exists 1%nat. split; [reflexivity|]. split.
    { exists [9]. split; [repeat constructor; intros []|]. split; [reflexivity|]. intros y. split.
      - intros [<-|[]]. split; [lra|]. exists 3%nat. apply ee_jumps. auto.
      - intros (Y & i & J). apply ee_jumps in J as [[-> _]|[-> _]]; [lra|left; reflexivity]. }
    split; [split; [apply ee_jumps; auto|intros i J; apply ee_jumps in J; destruct J as [[_ ->]|[J _]]; [lia|lra]]|]. change (binding_of ee_element "L1") with 5. split; [lra|]. rewrite Rminus_diag_eq, Rabs_R0 by reflexivity. lra.
Qed.
Print Assumptions C72_example.
