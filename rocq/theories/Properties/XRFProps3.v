(** C57: composition, attenuation, transmission and peak families of a layer, asked from the
    configuration with the class Elements as library. *)
From Coq Require Import String List ZArith Reals Bool Lia Lra Sorted.
From Verif Require Import Base.Num Base.Res Base.RSum Base.SMap Base.Str Base.ListLemmas Model.Beam Model.Material Model.TransmissionTable Model.Shell Model.Element
  Model.Formula Model.Elements Model.Layer Model.XRF Model.XRFLibrary
  Spec.MaterialSpec Spec.ShellSpec Spec.ElementSpec Spec.FormulaSpec Spec.BeamSpec Spec.ElementsSpec Spec.LayerSpec
  Proofs.ElementProofs Proofs.BeamProofs Proofs.LayerProofs Proofs.LayerProofs2 Proofs.ElementsProofs Proofs.ElementsProofs2 Proofs.ElementsProofs3 Proofs.ElementsProofs4 Proofs.ElementsProofs5 Proofs.ElementsProofs6
  Properties.ElementProps Properties.ElementsProps2 Properties.ElementsProps3.
Import ListNotations.
Local Open Scope string_scope.
Local Existing Instance RNum.
Local Open Scope R_scope.
Local Notation tbl := (list (string * R)).
Ltac toR := change (@num RNum) with R in *.

(** ** C57 Layers as seen by the configuration *)
(** After every history of the library: the composition of a layer is that of the material object
    it was given (a mixture of its constituents), or of the name it was given. [enough]: depth of
    recursion. The materials of the configuration come before those of the library. *)
Theorem C57_composition (tostr : R -> string) (depth fuel0 : nat) (lf : bool) (ops : list es_op) sortf (c : @config RNum) (l : @layer RNum) :
  let es := es_run tostr (S depth) fuel0 lf elements_empty ops in
  proper_elements lf ops ->
  (forall f, l_hasMaterial l = true -> good_amounts (Material.getComposition (l_material l)) ->
     (forall k w, In (k, w) (Material.getComposition (l_material l)) -> resolves_with tostr (S depth) es (c_materials c) k (f k)) ->
     exists (enough : nat) (k : tbl), mass_fractions (registered lf ops) k (mixture (Material.getComposition (l_material l)) f) /\
       forall fuel, (enough <= fuel)%nat -> getLayerComposition (xlib_of tostr (S depth) fuel sortf es) c l = Ok k) /\
  (forall f, l_hasMaterial l = false -> resolves_with tostr (S depth) es (c_materials c) (l_materialName l) f ->
     exists (enough : nat) (k : tbl), mass_fractions (registered lf ops) k f /\
       forall fuel, (enough <= fuel)%nat -> getLayerComposition (xlib_of tostr (S depth) fuel sortf es) c l = Ok k).
Proof.
  intros es PE. unfold getLayerComposition. split; intros f HM.
  - intros GA RS. rewrite HM. destruct (C34_map tostr depth fuel0 lf ops (c_materials c) _ f PE GA RS) as (n & k & A & B). exists n, k. split; [exact B|exact A].
  - intros RS. rewrite HM. destruct (C34_additional tostr depth fuel0 lf ops (c_materials c) _ f PE RS) as (n & k & A & B). exists n, k. split; [exact B|exact A].
Qed.

Section Layer.
Variables (tostr : R -> string) (depth fuel : nat) (lf : bool) (ops : list (@es_op RNum)) (sortf : tbl -> tbl) (c : @config RNum) (l : @layer RNum).
Let es := es_run tostr (S depth) (S fuel) lf elements_empty ops.
Let xl := @xlib_of RNum tostr (S depth) (S fuel) sortf es.

(** Coefficients at energies [Es]: those of the composition passed as an argument, if there is
    one, and of the composition [k] of the layer otherwise; both are means of the elements'
    coefficients weighted with the mass fractions. Passing the composition of the layer itself
    makes no difference. *)
Theorem C57_attenuation (k given : tbl) (Es : list R) (mu : R -> string -> tbl) :
  proper_elements lf ops ->
  (given = [] -> getLayerComposition xl c l = Ok k /\ exists f, mass_fractions (registered lf ops) k f) ->
  let used := if given then k else given in
  (forall E s x, In E Es -> In (s, x) used -> mu_at (registered lf ops) s E (mu E s)) ->
  getLayerMu_vec xl c l Es given = Ok (mu_vectors (fun E => weighted used (mu E)) Es) /\
  forall E, In E Es -> getLayerMu xl c l E given = Ok (mu_table (weighted used (mu E)) E).
Proof.
  intros PE HK used HMU. subst used. destruct given as [|g given].
  - destruct (HK eq_refl) as (HC & f & NE & SO & POS & ONE & _). clear HK.
    assert (M : forall E p, mean k (fun s => [(s, 1)]) (mu E) p = weighted k (mu E) p).
    { intros E q. unfold mean, weighted. rewrite ONE. match goal with |- Rsum ?a / 1 = Rsum ?b => replace a with b; [lra|] end.
      apply map_ext. intros [s x]. cbn. lra. }
    destruct (C35_mixture tostr (S depth) (S fuel) lf ops k Es (fun s => [(s, 1)]) mu) as [V S1].
    + intros s x I. destruct (POS s x I) as (Px & e & He). destruct (PE s e He) as (Sy & a & Ha & H0). split; [lra|]. split; [|discriminate].
      rewrite comp_S.
      refine (eq_trans (f_equal (fun z => rbind z _) (symbol_formula tostr (S depth) _ _ (run_reg tostr (S depth) (S fuel) lf ops _ _ empty_reg) s e a _ Sy He Ha H0)) _); [lia|reflexivity].
    + rewrite ONE. lra.
    + intros E s w s' x' IE I [Z|[]]. injection Z as <- <-. exact (HMU E s w IE I).
    + unfold getLayerMu_vec, getLayerMu. toR. rewrite HC. cbn [rbind x_mu x_muv xl xlib_of]. split.
      * refine (eq_trans V _). f_equal. apply mu_vectors_ext. exact M.
      * intros E I. refine (eq_trans (S1 E I) _). f_equal. unfold mu_table. rewrite !M. reflexivity.
  - destruct (C35_as_given tostr (S depth) (S fuel) lf ops (g :: given) Es 1%Z mu) as [V S1]; [discriminate|exact HMU|]. split; [exact V|exact S1].
Qed.
(** The layer lets through what Beer-Lambert's law says for the path at the given angle. *)
Theorem C57_transmission (k given : tbl) (Es : list R) (angle : R) (mu : R -> string -> tbl) :
  proper_elements lf ops ->
  (given = [] -> getLayerComposition xl c l = Ok k /\ exists f, mass_fractions (registered lf ops) k f) ->
  let used := if given then k else given in
  (forall E s x, In E Es -> In (s, x) used -> mu_at (registered lf ops) s E (mu E s)) ->
  let path := l_density l * l_thickness l / sin (Rabs angle * PI / 180) in
  let total := fun E => weighted used (mu E) "coherent" + weighted used (mu E) "compton" + weighted used (mu E) "pair" + weighted used (mu E) "photoelectric" in
  let t := fun E => beer_lambert (l_funnyFactor l) path (total E) in
  (0 < path -> getLayerTransmission_vec xl c l Es angle given = Ok (map t Es) /\
               forall E, In E Es -> getLayerTransmission xl c l E angle given = Ok (t E)) /\
  (path <= 0 -> getLayerTransmission_vec xl c l Es angle given = Throw RuntimeError /\
                forall E, getLayerTransmission xl c l E angle given = Throw RuntimeError).
Proof.
  intros PE HK used HMU path total t.
  assert (A : forall l' : list R, (forall E, In E l' -> In E Es) -> 0 < path -> getLayerTransmission_vec xl c l l' angle given = Ok (map t l')).
  { intros l' SUB PP. unfold getLayerTransmission_vec. rewrite pathThickness_R. fold path. rnorm. destruct (Rleb_spec path 0); [lra|].
    destruct (C57_attenuation k given l' mu PE HK) as [V _]; [intros E s x I; apply HMU, SUB, I|]. fold used in V. toR. rewrite V. cbn [rbind].
    f_equal. change (vval (mu_vectors (fun E => weighted used (mu E)) l') "total") with (map total l'). rewrite map_map. apply map_ext. intros E. apply attenuate_R. }
  assert (B : forall l', path <= 0 -> getLayerTransmission_vec xl c l l' angle given = Throw RuntimeError).
  { intros l' PP. unfold getLayerTransmission_vec. rewrite pathThickness_R. fold path. rnorm. destruct (Rleb_spec path 0); [reflexivity|lra]. }
  split; intros PP; (split; [auto|]); unfold getLayerTransmission.
  - intros E I. toR. rewrite A; [reflexivity| |exact PP]. intros q [<-|[]]. exact I.
  - intros E. toR. rewrite B by exact PP. reflexivity.
Qed.
(** The peak families are those of the elements of the composition, by ascending energy. *)
Theorem C57_families (k given : tbl) (energy : R) (out : tbl) :
  std_sort_contract (fun a b => Rltb (snd a) (snd b)) sortf ->
  (given = [] -> getLayerComposition xl c l = Ok k) ->
  let used := if given then k else given in
  (forall s x e, In (s, x) used -> registered lf ops s = Some e -> is_map (getBindingEnergies e)) ->
  getLayerPeakFamilies xl c l energy given = Ok out ->
  StronglySorted (fun a b => snd a <= snd b) out /\
  forall f, In f out <-> exists s x e, In (s, x) used /\ s <> "" /\ registered lf ops s = Some e /\ family s e energy f.
Proof.
  intros HS HK used HB H.
  assert (H' : Elements.getPeakFamilies sortf es (fold_left push_new (map fst used) []) energy = Ok out).
  { unfold getLayerPeakFamilies in H. unfold used. destruct given; [rewrite (HK eq_refl) in H; exact H|exact H]. }
  assert (MEM : forall s, In s (fold_left push_new (map fst used) []) <-> exists x, In (s, x) used).
  { intros s. rewrite fold_push_In. split; [intros [[]|I]; apply in_map_iff in I; destruct I as ([s' x] & <- & I); eauto|].
    intros [x I]. right. apply in_map_iff. exists (s, x). auto. }
  destruct (C36_families tostr (S depth) (S fuel) lf ops sortf (fold_left push_new (map fst used) []) energy out HS) as [A B]; [|exact H'|].
  - intros n e I. apply MEM in I. destruct I as [x I]. exact (HB n x e I).
  - split; [exact A|]. intros f. rewrite B. split.
    + intros (n & e & I & K). apply MEM in I. destruct I as [x I]. exists n, x, e. split; [exact I|exact K].
    + intros (n & x & e & I & K). exists n, e. split; [apply MEM; eauto|exact K].
Qed.
End Layer.

(** hypotheses met: a layer made of a material object, 3 parts of iron with 1 of oxygen, at 2 keV;
    it lets through exp(-path * mean coefficient) *)
Example C57_layer : @layer RNum := setMaterial_mat (layer_new "rust" 5 (1 / 100) 1) (mkMaterial "rust" true [("Fe", 3); ("O", 1)] 5 1 "").
Lemma C57_proper lf : proper_elements lf C35_history.
Proof.
  intros s e H. unfold registered, C35_history in H. cbn [fold_left registered_step] in H.
  destruct C35_symbols as [SO SF]. cbn [C35_element el_name with_info] in H.
  change (el_name (C35_element "Fe" 26 56 [2; 7])) with "Fe" in H. change (el_name (C35_element "O" 8 16 [3; 5])) with "O" in H.
  destruct (String.eqb_spec s "Fe") as [->|N1]; [injection H as <-; split; [exact SF|exists 56; split; [reflexivity|lra]]|].
  destruct (String.eqb_spec s "O") as [->|N2]; [injection H as <-; split; [exact SO|exists 16; split; [reflexivity|lra]]|discriminate].
Qed.
Example C57_case (tostr : R -> string) (lf : bool) sortf :
  let es := es_run tostr 1 1 lf elements_empty C35_history in
  let c := @config_new RNum in
  exists tO tFe,
    Element.getMassAttenuationCoefficients (C35_element "O" 8 16 [3; 5]) 2 = Ok tO /\
    Element.getMassAttenuationCoefficients (C35_element "Fe" 26 56 [2; 7]) 2 = Ok tFe /\
    exists fuel k,
      getLayerComposition (xlib_of tostr 1 (S fuel) sortf es) c C57_layer = Ok k /\ value_or_0 "Fe" k = 3 / 4 /\ value_or_0 "O" k = 1 / 4 /\
      getLayerTransmission (xlib_of tostr 1 (S fuel) sortf es) c C57_layer 2 90 [] =
        Ok (exp (- (5 * (1 / 100) * (weighted k (fun s => if String.eqb s "O" then tO else tFe) "coherent" + weighted k (fun s => if String.eqb s "O" then tO else tFe) "compton" +
              weighted k (fun s => if String.eqb s "O" then tO else tFe) "pair" + weighted k (fun s => if String.eqb s "O" then tO else tFe) "photoelectric")))).
Proof.
  intros es c.
  destruct (C35_tables "O" 8 16 [3; 5] eq_refl ltac:(lia)) as [tO HO].
  destruct (C35_tables "Fe" 26 56 [2; 7] eq_refl ltac:(lia)) as [tFe HF]. exists tO, tFe. split; [exact HO|]. split; [exact HF|].
  pose proof (run_reg tostr 1 1 lf C35_history _ _ empty_reg) as Hreg. destruct C35_symbols as [SO SF].
  assert (CO : formula_of tostr 1 es "O" [("O", 1)]).
  { split; [exact (symbol_formula tostr 1 _ _ Hreg "O" (C35_element "O" 8 16 [3; 5]) 16 (le_n 1) SO eq_refl eq_refl ltac:(lra))|].
    split; [discriminate|]. intros s x [Z|[]]. injection Z as <- <-. lra. }
  assert (CF : formula_of tostr 1 es "Fe" [("Fe", 1)]).
  { split; [exact (symbol_formula tostr 1 _ _ Hreg "Fe" (C35_element "Fe" 26 56 [2; 7]) 56 (le_n 1) SF eq_refl eq_refl ltac:(lra))|].
    split; [discriminate|]. intros s x [Z|[]]. injection Z as <- <-. lra. }
  destruct (C57_composition tostr 0 1 lf C35_history sortf c C57_layer (C57_proper lf)) as [CM _].
  destruct (CM (fun k s => value_or_0 s [(k, 1)]) eq_refl) as (n & k & MF & CK).
  { split; [discriminate|]. intros k w [Z|[Z|[]]]; injection Z as <- <-; lra. }
  { intros k w [Z|[Z|[]]]; injection Z as <- <-; apply with_formula; assumption. }
  exists n, k. specialize (CK (S n) ltac:(lia)). split; [exact CK|].
  pose proof MF as (_ & _ & MR & _ & V). split; [rewrite V; unfold mixture; cbn; unfold value_or_0; cbn; lra|].
  split; [rewrite V; unfold mixture; cbn; unfold value_or_0; cbn; lra|].
  destruct (C57_transmission tostr 0 n lf C35_history sortf c C57_layer k [] [2] 90 (fun _ s => if String.eqb s "O" then tO else tFe) (C57_proper lf)) as [T _].
  - intros _. split; [exact CK|]. eexists. exact MF.
  - intros E s x [<-|[]] I. destruct (MR s x I) as (_ & e & He). exists e. split; [exact He|].
    unfold registered, C35_history in He. cbn [fold_left registered_step] in He.
    change (el_name (C35_element "Fe" 26 56 [2; 7])) with "Fe" in He. change (el_name (C35_element "O" 8 16 [3; 5])) with "O" in He.
    destruct (String.eqb_spec s "Fe") as [->|N1]; [injection He as <-; exact HF|].
    destruct (String.eqb_spec s "O") as [->|N2]; [injection He as <-; exact HO|discriminate].
  - assert (LD : l_density C57_layer = 5 /\ l_thickness C57_layer = 1 / 100 /\ l_funnyFactor C57_layer = 1).
    { unfold C57_layer, setMaterial_mat. cbn [layer_new l_density l_thickness l_funnyFactor]. rnorm.
      destruct (Rltb_spec 5 0); [lra|]. destruct (Rleb_spec (1 / 100) 0); [lra|]. auto. }
    destruct LD as (LD1 & LD2 & LD3). rewrite LD1, LD2, LD3 in T.
    assert (S1 : sin (Rabs 90 * PI / 180) = 1) by (rewrite Rabs_pos_eq by lra; replace (90 * PI / 180) with (PI / 2) by field; apply sin_PI2).
    rewrite S1 in T. specialize (T ltac:(lra)). destruct T as [_ T]. specialize (T 2 (or_introl eq_refl)).
    refine (eq_trans T _). f_equal. unfold beer_lambert. replace (5 * (1 / 100) / 1) with (5 * (1 / 100)) by lra. match goal with |- ?a = ?b => change (@eq R a b) end. ring.
Qed.

Print Assumptions C57_composition.
Print Assumptions C57_attenuation.
Print Assumptions C57_transmission.
Print Assumptions C57_families.
