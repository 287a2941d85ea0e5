(** C70: binding energies and vector queries of the EPDL97 data base. *)
From Coq Require Import Ascii String List ZArith Reals Bool Arith Lia Sorted.
From Verif Require Import Base.Num Base.Res Base.SMap Base.Str Base.Text Base.ListLemmas Model.Specfile Model.EPDL97
  Spec.MaterialSpec Spec.FilesSpec Proofs.EPDL97Proofs9.
Import ListNotations.
Set Implicit Arguments.
Local Open Scope string_scope.

(** Loading a file of binding energies: one scan, one row for each element; the value of a shell is
    that of the last column of that shell, or the one known before if there is no such column. *)
Theorem C70_load {N : Num} (strtod : text -> num) ep content ep' :
  loadBindingEnergies strtod ep content = (ep', Ok tt) -> exists labels rows,
    getNumberOfScans (setFileName content) = 1%nat /\ scan_is strtod content 0 labels rows /\
    (ep_init ep' = true /\ ep_labels ep' = ep_labels ep /\ ep_index ep' = ep_index ep /\ ep_values ep' = ep_values ep /\ ep_energy ep' = ep_energy ep) /\
    (forall i row, nth_error rows i = Some row -> exists b, getBindingEnergies ep' (Z.of_nat i + 1) = Ok b /\ forall k v, mfind sltb k b = Some v <->
      says as_shell (tl labels) (tl row) k v \/
      (forall w, ~ says as_shell (tl labels) (tl row) k w) /\ exists old, nth_error (ep_binding ep) i = Some old /\ mfind sltb k old = Some v) /\
    (forall z, (Z.of_nat (length rows) <= z)%Z -> getBindingEnergies ep' z = getBindingEnergies ep' (Z.of_nat (length rows))).
Proof.
  intros H. destruct (load_spec _ _ _ H) as (labels & rows & A & B & L & NE & I1 & I2 & I3 & I4 & I5 & F). exists labels, rows.
  split; [exact A|]. split; [exact B|]. split; [tauto|]. assert (LP : (0 < length rows)%nat) by (destruct rows; [congruence|cbn; lia]). split.
  - intros i row R. destruct (F i row R) as (b & Hb & S). exists b. split; [|exact S]. assert (IL : (i < length rows)%nat) by (apply nth_error_Some; congruence).
    unfold getBindingEnergies. destruct (Z.ltb_spec (Z.of_nat i + 1) 1); [lia|]. cbv zeta. rewrite L.
    assert (G : vgetZ (ep_binding ep') (Z.of_nat i) = Ok b). { unfold vgetZ. destruct (Z.ltb_spec (Z.of_nat i) 0); [lia|]. rewrite Nat2Z.id. unfold vget. rewrite Hb. reflexivity. }
    destruct (Z.geb_spec (Z.of_nat i + 1) (Z.of_nat (length rows))); (match goal with |- vgetZ _ ?e = _ => replace e with (Z.of_nat i) by lia end; exact G).
  - intros z Z1. unfold getBindingEnergies. destruct (Z.ltb_spec z 1); [lia|]. destruct (Z.ltb_spec (Z.of_nat (length rows)) 1); [lia|]. cbv zeta. rewrite L.
    destruct (Z.geb_spec z (Z.of_nat (length rows))); [|lia]. destruct (Z.geb_spec (Z.of_nat (length rows)) (Z.of_nat (length rows))); [reflexivity|lia].
Qed.
Print Assumptions C70_load.

(** A file that is not accepted leaves the data base as it was. *)
Theorem C70_refused {N : Num} (strtod : text -> num) ep content ep' r :
  loadBindingEnergies strtod ep content = (ep', r) -> r <> Ok tt -> ep' = ep.
Proof.
  unfold loadBindingEnergies. cbv zeta. intros H NR. revert H. generalize (setFileName content). intros sf.
  repeat match goal with |- context [match ?x with _ => _ end] => destruct x | |- (_, Ok tt) = _ -> _ => intros H; injection H as _ <-; congruence | |- (_, _) = _ -> _ => intros H; injection H as <- _; reflexivity end.
Qed.
Print Assumptions C70_refused.

(** Binding energies set for an element are those it has; those of the others stay. *)
Theorem C70_set {N : Num} (ep : @epdl N) (z : Z) b ep' :
  setBindingEnergies ep z b = (ep', Ok tt) ->
  getBindingEnergies ep' z = Ok b /\ (1 <= z <= Z.of_nat (length (ep_binding ep)))%Z /\
  (forall z', z' <> z -> (z' <= Z.of_nat (length (ep_binding ep)))%Z -> getBindingEnergies ep' z' = getBindingEnergies ep z') /\
  ep_init ep' = ep_init ep /\ ep_labels ep' = ep_labels ep /\ ep_index ep' = ep_index ep /\ ep_values ep' = ep_values ep /\ ep_energy ep' = ep_energy ep.
Proof.
  unfold setBindingEnergies. destruct (Z.ltb_spec z 1); [discriminate|]. destruct (Nat.ltb_spec (Z.to_nat (z - 1)) (length (ep_binding ep))) as [L|]; [|discriminate].
  intros H0. injection H0 as <-.
  assert (VL : forall {A} (l : list A) i x, length (vset l i x) = length l) by (induction l as [|a l IH]; intros [|i] x; cbn; try reflexivity; now rewrite IH).
  assert (VS : forall {A} (l : list A) i x, (i < length l)%nat -> nth_error (vset l i x) i = Some x) by (induction l as [|a l IH]; intros [|i] x Hi; cbn in *; try lia; [reflexivity|apply IH; lia]).
  assert (VO : forall {A} (l : list A) i j x, i <> j -> nth_error (vset l i x) j = nth_error l j) by (induction l as [|a l IH]; intros [|i] [|j] x Hi; cbn in *; try reflexivity; [congruence|apply IH; congruence]).
  split; [|split; [lia|split; [|repeat split]]].
  - unfold getBindingEnergies. destruct (Z.ltb_spec z 1); [lia|]. cbv zeta. cbn [ep_binding]. rewrite VL.
    destruct (Z.geb_spec z (Z.of_nat (length (ep_binding ep)))); (match goal with |- vgetZ _ ?e = _ => replace e with (z - 1)%Z by lia end; unfold vgetZ; destruct (Z.ltb_spec (z - 1) 0); [lia|]; unfold vget; rewrite VS by exact L; reflexivity).
  - intros z' NZ LZ. unfold getBindingEnergies. destruct (Z.ltb_spec z' 1); [reflexivity|]. cbv zeta. cbn [ep_binding]. rewrite VL.
    destruct (Z.geb_spec z' (Z.of_nat (length (ep_binding ep)))); unfold vgetZ; (match goal with |- (if ?c then _ else _) = _ => destruct c; [reflexivity|] end); unfold vget; rewrite VO by lia; reflexivity.
Qed.
Print Assumptions C70_set.

(** A query for several energies gives for each quantity of the first answer the values of the
    successive queries for one energy, in the order of the energies. *)
Theorem C70_vectors {N : Num} (ep : @epdl N) z energies last last' r :
  (getMassAttenuationCoefficients_vec last ep z energies = (last', Ok r) ->
   exists ts, successive (fun l e => getMassAttenuationCoefficients l ep z e) last energies ts last' /\
     match ts with [] => r = [] | first :: _ =>
       forall k col, mfind sltb k r = Some col <-> (exists v, mfind sltb k first = Some v) /\ col = map (fun t => match mfind sltb k t with Some v => v | None => n0 end) ts end) /\
  (getPhotoelectricWeights_vec last ep z energies = (last', Ok r) ->
   exists ts, successive (fun l e => getPhotoelectricWeights l ep z e) last energies ts last' /\
     match ts with [] => r = [] | first :: _ =>
       forall k col, mfind sltb k r = Some col <-> (exists v, mfind sltb k first = Some v) /\ col = map (fun t => match mfind sltb k t with Some v => v | None => n0 end) ts end).
Proof.
  split.
  - unfold getMassAttenuationCoefficients_vec. destruct (queries _ last energies) as [l [ts| | |]] eqn:Q; try discriminate. intros H. injection H as <- H. exists ts. apply queries_spec in Q. split; [exact Q|]. apply columns_spec. exact H.
  - unfold getPhotoelectricWeights_vec. destruct (queries _ last energies) as [l [ts| | |]] eqn:Q; try discriminate. intros H. injection H as <- H. exists ts. apply queries_spec in Q. split; [exact Q|]. apply columns_spec. exact H.
Qed.
Print Assumptions C70_vectors.

(** Examples: the labels of the data files; a second file replaces the K binding energies only. *)
Example C70_labels : as_shell "K(eV)" "K" /\ as_shell "L1(eV)" "L1" /\ as_shell "P11(eV)" "P11" /\ ~ as_shell "L1(eV)" "L".
Proof.
  repeat split; try (apply bindingKey_iff; reflexivity). intros H. apply bindingKey_iff in H. discriminate.
Qed.
Section Example.
Local Existing Instance RNum.
Definition two_lines (l : list string) : text := flat_map (fun s => list_ascii_of_string s ++ [newline])%list l.
Theorem C70_example (strtod : text -> R) : exists ep1 ep2,
  loadBindingEnergies strtod epdl_new (Some (two_lines ["#S 1 b"; "#L Z  K(eV)  L1(eV)"; "1 7 3"])) = (ep1, Ok tt) /\
  loadBindingEnergies strtod ep1 (Some (two_lines ["#S 1 b"; "#L Z  K(eV)"; "1 8"])) = (ep2, Ok tt) /\
  getBindingEnergies ep2 1 = Ok [("K", strtod (list_ascii_of_string "8")); ("L1", strtod (list_ascii_of_string "3"))] /\
  snd (loadBindingEnergies strtod ep2 None) = Throw IosFailure.
Proof. eexists. eexists. split; [vm_compute; reflexivity|]. split; [vm_compute; reflexivity|]. split; reflexivity. Qed.
End Example.
Print Assumptions C70_example.
