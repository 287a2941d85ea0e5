(** C62-C65: the theorems at work on a file, and what does not hold. *)
From Coq Require Import Ascii String List ZArith QArith Bool Arith Lia.
From Verif Require Import Base.Num Base.Res Base.SMap Base.Str Base.Text Model.SimpleIni Model.Beam Model.Material Model.TransmissionTable Model.Layer Model.XRF Model.Multilayer Model.ConfigFile
  Spec.IniSpec Spec.FieldsSpec Spec.ConfigSpec Proofs.IniProofs Proofs.FieldsProofs Properties.IniProps Proofs.ConfigProofs Proofs.ConfigProofs2 Proofs.ConfigProofs3 Properties.ConfigProps.
Import ListNotations.
Set Implicit Arguments.
Local Close Scope Q_scope.
Local Open Scope string_scope.

(** ** Examples *)
(** rational numbers; the reader of integers stands for operator>> *)
Local Existing Instance QNum.
Definition readZ (t : text) : option Q := option_map inject_Z (readInt t).
Definition L (key value : string) : line := Entry [] (T key) [Plain (T value)] [].
Definition H (name : string) : line := Header [] (T name) [].
Definition same_order (l : list (@ray QNum)) := l.
Definition example : document :=
  [H "fit"; L "energy" "20, 30, 5, -"; L "energyweight" "2, 1, 1, 1"; L "energyscatter" "1, -1, 1, 1"; L "energyflag" "1, 1, 0, 1";
   H "Materials.Steel"; L "Comment" "stainless"; L "Density" "8"; L "Thickness" "2"; L "CompoundList" "Fe,Cr"; L "CompoundFraction" "3, 1";
   H "UserBeamFilters.F1"; L "use" "1"; L "energy" "1, 10"; L "transmission" "0, 1";
   H "UserAttenuators.off"; L "use" "0";
   H "attenuators"; L "BeamFilter0" "1, Al, 3, 1, 1"; L "Detector" "1, Si, 2, 1, 1"; L "Matrix" "1, MULTILAYER, 0, 0, 45, 45, 1, 90";
   L "atmosphere" "0, -, 0, 0, 1"; L "window" "1, Steel, -1, 0, 1";
   H "multilayer"; L "Layer0" "1, Steel, 8, 1"; L "Layer1" "0, -, 1, 1";
   H "concentrations"; L "distance" "5"; L "Area" "3"].
Lemma example_ok : Forall line_ok example.
Proof. apply documentb_ok. vm_compute. reflexivity. Qed.
Local Notation run d := (readConfigurationFromFile readZ same_order (Some (document_text d)) (@config_new QNum)).

(** the entries of a section are those the reader has *)
Lemma entries_of_reader d s m : Forall line_ok d -> snd (readSection (fst (readFileName ini_new (Some (document_text d)))) s true) = m ->
  (m = [] -> Forall (fun x => String.length x <> String.length s \/ same_letters x s) (sections_of d)) -> entries d s m.
Proof.
  intros Hd E HN. destruct (@C40_read d (document_text d) Hd (or_introl eq_refl)) as (_ & _ & H3). specialize (H3 s). cbv zeta in H3. rewrite E in H3. destruct H3. split; [assumption|]. split; assumption.
Qed.
Lemma entry_cases d s m : entries d s m -> forall k v, value_of d s k = Some v -> In (k, v) m.
Proof. intros (H1 & H2 & _) k v E. apply (@in_entry _ _ _ H1 H2), E. Qed.
Ltac section_entries := apply entries_of_reader; [exact example_ok|vm_compute; reflexivity|discriminate].
Definition fitE := [("energy", "20, 30, 5, -"); ("energyflag", "1, 1, 0, 1"); ("energyscatter", "1, -1, 1, 1"); ("energyweight", "2, 1, 1, 1")].
Lemma fit_entries : entries example "fit" fitE. Proof. section_entries. Qed.
Lemma steel_entries : entries example "Materials.Steel" [("Comment", "stainless"); ("CompoundFraction", "3, 1"); ("CompoundList", "Fe,Cr"); ("Density", "8"); ("Thickness", "2")]. Proof. section_entries. Qed.
Lemma f1_entries : entries example "UserBeamFilters.F1" [("energy", "1, 10"); ("transmission", "0, 1"); ("use", "1")]. Proof. section_entries. Qed.
Lemma off_entries : entries example "UserAttenuators.off" [("use", "0")]. Proof. section_entries. Qed.
Definition attE := [("BeamFilter0", "1, Al, 3, 1, 1"); ("Detector", "1, Si, 2, 1, 1"); ("Matrix", "1, MULTILAYER, 0, 0, 45, 45, 1, 90"); ("atmosphere", "0, -, 0, 0, 1"); ("window", "1, Steel, -1, 0, 1")].
Lemma att_entries : entries example "attenuators" attE. Proof. section_entries. Qed.
Definition layE := [("Layer0", "1, Steel, 8, 1"); ("Layer1", "0, -, 1, 1")].
Lemma lay_entries : entries example "multilayer" layE. Proof. section_entries. Qed.
Definition concE := [("Area", "3"); ("distance", "5")].
Lemma conc_entries : entries example "concentrations" concE. Proof. section_entries. Qed.
Lemma listed_by v items l x : list_ascii_of_string v = join ","%char items -> Forall (fun i => ~ In ","%char i) items -> items = (l ++ [x])%list -> x <> [] -> listed v items.
Proof. intros H1 H2 H3 H4. split; [exact H1|]. split; [exact H2|]. right. exists l, x. split; assumption. Qed.
Ltac nocomma := repeat (apply Forall_cons; [vm_compute; intuition discriminate|]); apply Forall_nil.
Lemma listed_last v (l : list text) x : list_ascii_of_string v = join ","%char (l ++ [x]) -> Forall (fun i => ~ In ","%char i) (l ++ [x]) -> x <> [] -> listed v (l ++ [x]).
Proof. intros H1 H2 H3. split; [exact H1|]. split; [exact H2|]. right. exists l, x. split; [reflexivity|exact H3]. Qed.
Ltac listing := match goal with |- listed _ ?it => let r := eval vm_compute in (rev it) in match r with ?x :: ?l => change it with ((rev l) ++ [x])%list; apply listed_last; [vm_compute; reflexivity|nocomma|discriminate] end end.
Ltac one_field E := eexists; split; [vm_compute; reflexivity|]; split; [vm_compute; reflexivity|]; intros k' v' V S; apply (entry_cases E) in V; cbn [In] in V;
  repeat match type of V with _ \/ _ => destruct V as [V|V] end; try contradiction; injection V as <- <-; try reflexivity; vm_compute in S; discriminate S.

Definition exampleRows : list (@beam_row QNum) := [mkBeamRow 1 (inject_Z (20)) (inject_Z (2)) 1; mkBeamRow 1 (inject_Z (30)) (inject_Z (1)) (-1); mkBeamRow 0 (inject_Z (5)) (inject_Z (1)) 1; mkBeamRow 1 (inject_Z (-666)) (inject_Z (1)) 1].
Lemma example_rows : beam_rows readZ example "fit" exampleRows.
Proof.
  exists (map T ["20"; " 30"; " 5"; " -"]), (map T ["2"; " 1"; " 1"; " 1"]), (map T ["1"; " -1"; " 1"; " 1"]), (map T ["1"; " 1"; " 0"; " 1"]).
  split; [unfold list_in; replace (value_of example "fit" "energy") with (Some "20, 30, 5, -") by (vm_compute; reflexivity); listing|].
  split; [unfold list_in; replace (value_of example "fit" "energyweight") with (Some "2, 1, 1, 1") by (vm_compute; reflexivity); listing|].
  split; [unfold list_in; replace (value_of example "fit" "energyscatter") with (Some "1, -1, 1, 1") by (vm_compute; reflexivity); listing|].
  split; [unfold list_in; replace (value_of example "fit" "energyflag") with (Some "1, 1, 0, 1") by (vm_compute; reflexivity); listing|].
  vm_compute. repeat split; reflexivity.
Qed.
Definition exampleBeam : @beam QNum := c_beam (fst (run example)).
Lemma example_beam : beam_read readZ same_order example (@config_new QNum) exampleBeam.
Proof.
  exists fitE, exampleRows. split; [exact fit_entries|]. split; [discriminate|]. split; [exact example_rows|]. split; vm_compute; reflexivity.
Qed.
Definition steel : @material QNum := mkMaterial "Steel" true [("Cr", (1 # 4)%Q); ("Fe", (3 # 4)%Q)] (inject_Z 8) (inject_Z 2) "stainless".
Fixpoint underb (p s : string) : bool := match p, s with EmptyString, _ => true | String a p, String b s => Ascii.eqb (toupper a) (toupper b) && underb p s | _, _ => false end.
Lemma underb_iff p : forall s, underb p s = true <-> exists a b, s = a ++ b /\ same_letters a p.
Proof.
  unfold same_letters. induction p as [|c p IH]; intros s.
  - split; [intros _; exists "", s; split; reflexivity|reflexivity].
  - destruct s as [|e s]; cbn [underb].
    + split; [discriminate|]. intros (a & b & E & S). destruct a; [discriminate S|discriminate E].
    + rewrite andb_true_iff, Ascii.eqb_eq, IH. split.
      * intros (E & a & b & -> & S). exists (String e a), b. split; [reflexivity|]. cbn [smap_chars]. congruence.
      * intros (a & b & E & S). destruct a as [|x a]; [discriminate S|]. cbn [append] in E. injection E as <- ->. cbn [smap_chars] in S. injection S as S1 S2. split; [congruence|]. exists a, b. auto.
Qed.
Ltac sub_sections p := exists (underb p); split; [intros s; apply underb_iff|vm_compute; reflexivity].
Ltac plain_name := apply Forall2_cons; [|apply Forall2_nil]; eexists; split; [vm_compute; reflexivity|]; split; [reflexivity|]; split; [split; [discriminate|repeat constructor; discriminate]|cbn; intuition discriminate].
Lemma example_materials : file_materials readZ example [steel].
Proof.
  exists ["Materials.Steel"], ["Steel"]. split; [sub_sections "Materials."|]. split.
  - apply Forall2_cons; [|apply Forall2_nil]. exists "Materials.". split; [reflexivity|]. split; [reflexivity|]. split; [split; [discriminate|repeat constructor; discriminate]|cbn; intuition discriminate].
  - cbn [combine]. apply Forall2_cons; [|apply Forall2_nil]. cbn [fst snd].
    exists "8", "2", "Fe,Cr", "3, 1", "stainless", (map T ["Fe"; "Cr"]), (map T ["3"; " 1"]), "CompoundFraction", (mkMaterial "Steel" true [] (inject_Z 8) (inject_Z 2) "stainless").
    split; [exists "Density"; split; [vm_compute; reflexivity|]; split; [reflexivity|]; intros k' v' V S; apply (entry_cases steel_entries) in V; cbn [In] in V;
      repeat (destruct V as [V|V]; [injection V as <- <-; try reflexivity; vm_compute in S; discriminate S|]); contradiction|].
    split; [exists "Thickness"; split; [vm_compute; reflexivity|]; split; [reflexivity|]; intros k' v' V S; apply (entry_cases steel_entries) in V; cbn [In] in V;
      repeat (destruct V as [V|V]; [injection V as <- <-; try reflexivity; vm_compute in S; discriminate S|]); contradiction|].
    split; [exists "CompoundList"; split; [vm_compute; reflexivity|]; split; [reflexivity|]; intros k' v' V S; apply (entry_cases steel_entries) in V; cbn [In] in V;
      repeat (destruct V as [V|V]; [injection V as <- <-; try reflexivity; vm_compute in S; discriminate S|]); contradiction|].
    split; [left; reflexivity|].
    split; [exists "CompoundFraction"; split; [vm_compute; reflexivity|]; split; [reflexivity|]; intros k' v' V S; apply (entry_cases steel_entries) in V; cbn [In] in V;
      repeat (destruct V as [V|V]; [injection V as <- <-; try reflexivity; vm_compute in S; discriminate S|]); contradiction|].
    split; [intros k' v' V S; apply (entry_cases steel_entries) in V; cbn [In] in V;
      repeat (destruct V as [V|V]; [injection V as <- <-; try reflexivity; destruct S as [S|S]; vm_compute in S; discriminate S|]); contradiction|].
    split.
    { exists "Comment". split; [vm_compute; reflexivity|]. split.
      - intros (key & I & S). unfold material_keys in I. cbn [In] in I. repeat (destruct I as [<-|I]; [vm_compute in S; discriminate S|]). contradiction.
      - intros k' v' V. apply (entry_cases steel_entries) in V. cbn [In] in V. destruct V as [V|V]; [injection V as <- <-; left; reflexivity|]. right.
        repeat (destruct V as [V|V]; [injection V as <- <-; eexists; (split; [|reflexivity]); unfold material_keys; cbn [In]; tauto|]). contradiction. }
    split; [listing|]. split; [repeat constructor; discriminate|]. split; [listing|]. split; vm_compute; reflexivity.
Qed.
Lemma example_filters : file_tables readZ "UserBeamFilters" example [mkTT "F1" "" [(inject_Z 1, inject_Z 0); (inject_Z 10, inject_Z 1)]].
Proof.
  exists ["UserBeamFilters.F1"], ["F1"], [Some (mkTT "F1" "" [(inject_Z 1, inject_Z 0); (inject_Z 10, inject_Z 1)])]. split; [sub_sections "UserBeamFilters."|]. split.
  - apply Forall2_cons; [|apply Forall2_nil]. exists "UserBeamFilters.". split; [reflexivity|]. split; [reflexivity|]. split; [split; [discriminate|repeat constructor; discriminate]|cbn; intuition discriminate].
  - split; [|reflexivity]. cbn [combine]. apply Forall2_cons; [|apply Forall2_nil]. cbn [fst snd]. right.
    exists "1", "1, 10", "0, 1", "", (map T ["1"; " 10"]), (map T ["0"; " 1"]), (mkTT "F1" "" [(inject_Z 1, inject_Z 0); (inject_Z 10, inject_Z 1)]).
    split; [exists "use"; split; [vm_compute; reflexivity|]; split; [reflexivity|]; intros k' v' V S; apply (entry_cases f1_entries) in V; cbn [In] in V;
      repeat (destruct V as [V|V]; [injection V as <- <-; try reflexivity; vm_compute in S; discriminate S|]); contradiction|].
    split; [vm_compute; reflexivity|].
    split; [exists "energy"; split; [vm_compute; reflexivity|]; split; [reflexivity|]; intros k' v' V S; apply (entry_cases f1_entries) in V; cbn [In] in V;
      repeat (destruct V as [V|V]; [injection V as <- <-; try reflexivity; vm_compute in S; discriminate S|]); contradiction|].
    split; [exists "transmission"; split; [vm_compute; reflexivity|]; split; [reflexivity|]; intros k' v' V S; apply (entry_cases f1_entries) in V; cbn [In] in V;
      repeat (destruct V as [V|V]; [injection V as <- <-; try reflexivity; vm_compute in S; discriminate S|]); contradiction|].
    split. { right. split; [reflexivity|]. intros k' v' V. apply (entry_cases f1_entries) in V. cbn [In] in V.
      repeat (destruct V as [V|V]; [injection V as <- <-; eexists; (split; [|reflexivity]); unfold table_keys; cbn [In]; tauto|]). contradiction. }
    split; [listing|]. split; [listing|]. split; [vm_compute; reflexivity|reflexivity].
Qed.
Lemma example_attenuators : file_tables readZ "UserAttenuators" example [].
Proof.
  exists ["UserAttenuators.off"], ["off"], [None]. split; [sub_sections "UserAttenuators."|]. split.
  - apply Forall2_cons; [|apply Forall2_nil]. exists "UserAttenuators.". split; [reflexivity|]. split; [reflexivity|]. split; [split; [discriminate|repeat constructor; discriminate]|cbn; intuition discriminate].
  - split; [|reflexivity]. cbn [combine]. apply Forall2_cons; [|apply Forall2_nil]. cbn [fst snd]. left. split; [|reflexivity].
    intros k' v' V S. apply (entry_cases off_entries) in V. destruct V as [V|[]]. injection V as <- <-. vm_compute. reflexivity.
Qed.
Definition Qz (z : Z) : @num QNum := inject_Z z.
Definition exampleLines : list (@meaning QNum) :=
  [AFilter (setMaterial_name (layer_new "BeamFilter0" (Qz 3) (Qz 1) (Qz 1)) "Al");
   ADetector (det_setMaterial_name (detector_new "Detector" (Qz 2) (Qz 1) (Qz 1)) "Si");
   AMultilayer (Qz 45) (Qz 45) (Qz 90);
   Nothing;
   AnAttenuator (setMaterial_mat (setMaterial_name (layer_new "window" (Qz (-1)) (Qz 0) (Qz 1)) "Steel") steel)].
Definition exampleLayers : list (option (@layer QNum)) := [Some (setMaterial_mat (setMaterial_name (layer_new "Layer0" (Qz 8) (Qz 1) n1) "Steel") steel); None].
Ltac num_at := eexists; split; [reflexivity|vm_compute; reflexivity].
Lemma word_at_blank items i (a w : text) : nth_error items i = Some (a ++ w ++ [])%list -> Forall space a -> w <> [] -> Forall (fun c => ~ space c) w -> item_word items i (str w).
Proof. intros E A N B. exists (a ++ w ++ [])%list, w. split; [exact E|]. split; [|reflexivity]. right. exists a, []. split; [reflexivity|]. repeat split; auto. Qed.
Ltac word a w := apply (@word_at_blank _ _ (T a) (T w)); [reflexivity|repeat constructor|discriminate|repeat constructor; discriminate].
Ltac first_on := eexists; split; [num_at|vm_compute; reflexivity].
Lemma example_lines : Forall2 (describes_line readZ [steel]) attE exampleLines.
Proof.
  assert (NB : forall n, Forall (fun m : @material QNum => m_name m <> n) [steel] <-> n <> "Steel").
  { intros n. split; [intros F; inversion F; subst; cbn in *; congruence|]. intros Q. apply Forall_cons; [cbn; congruence|apply Forall_nil]. }
  assert (NF : forall k, String.eqb (withoutLast k) "BeamFilter" = false -> ~ filter_key k). { intros k Q K. apply withoutLast_key in K. congruence. }
  unfold attE, exampleLines. repeat apply Forall2_cons; [| | | | |apply Forall2_nil].
  - exists (map T ["1"; " Al"; " 3"; " 1"; " 1"]). split; [listing|]. split; [first_on|]. split; [exists "0"%char; reflexivity|]. exists (Qz 1). split; [num_at|]. exists (Qz 3), (Qz 1), "Al". split; [num_at|]. split; [num_at|]. split; [word " " "Al"|]. left. split; [apply NB; discriminate|reflexivity].
  - exists (map T ["1"; " Si"; " 2"; " 1"; " 1"]). split; [listing|]. split; [first_on|]. split; [apply NF; reflexivity|]. split; [discriminate|]. split; [exists ""; reflexivity|]. exists (Qz 2), (Qz 1), "Si", (Qz 1). split; [num_at|]. split; [num_at|]. split; [num_at|]. split; [word " " "Si"|]. left. split; [apply NB; discriminate|reflexivity].
  - exists (map T ["1"; " MULTILAYER"; " 0"; " 0"; " 45"; " 45"; " 1"; " 90"]). split; [listing|]. split; [first_on|]. split; [apply NF; reflexivity|]. split; [reflexivity|]. split; [exists (Qz 1), (Qz 90); repeat (split; [num_at|]); reflexivity|word " " "MULTILAYER"].
  - exists (map T ["0"; " -"; " 0"; " 0"; " 1"]). split; [listing|]. right. eexists. split; [num_at|vm_compute; reflexivity].
  - exists (map T ["1"; " Steel"; " -1"; " 0"; " 1"]). split; [listing|]. split; [first_on|]. split; [apply NF; reflexivity|]. split; [discriminate|]. split; [intros [r Q]; discriminate|]. exists (Qz 1). split; [num_at|]. exists (Qz (-1)), (Qz 0), "Steel". split; [num_at|]. split; [num_at|]. split; [word " " "Steel"|].
    right. exists [], steel, []. repeat split. apply Forall_nil.
Qed.
Lemma example_layers : Forall2 (describes_layer readZ [steel]) layE exampleLayers.
Proof.
  unfold layE, exampleLayers. repeat apply Forall2_cons; [| |apply Forall2_nil].
  - exists (map T ["1"; " Steel"; " 8"; " 1"]). split; [listing|]. split; [first_on|]. exists (Qz 8), (Qz 1), "Steel". split; [num_at|]. split; [num_at|]. split; [word " " "Steel"|]. right. exists [], steel, []. repeat split. apply Forall_nil.
  - exists (map T ["0"; " -"; " 1"; " 1"]). split; [listing|]. right. eexists. split; [num_at|vm_compute; reflexivity].
Qed.
Lemma example_distance : value_in readZ example "distance" (Some (Qz 5)).
Proof.
  exists "5". split; [|vm_compute; reflexivity]. exists "distance". split; [vm_compute; reflexivity|]. split; [reflexivity|]. intros k' v' V S. apply (entry_cases conc_entries) in V. cbn [In] in V.
  repeat (destruct V as [V|V]; [injection V as <- <-; try reflexivity; vm_compute in S; discriminate S|]); contradiction.
Qed.
Lemma example_area : value_in readZ example "area" (Some (Qz 3)).
Proof.
  exists "3". split; [|vm_compute; reflexivity]. exists "Area". split; [vm_compute; reflexivity|]. split; [reflexivity|]. intros k' v' V S. apply (entry_cases conc_entries) in V. cbn [In] in V.
  repeat (destruct V as [V|V]; [injection V as <- <-; try reflexivity; vm_compute in S; discriminate S|]); contradiction.
Qed.
(** all the hypotheses of C64_file (and those of C62_beam and C63) hold of this file *)
Example C64_nonvacuous : exists det,
  run example = (mkConfig exampleBeam [steel] [setMaterial_name (layer_new "BeamFilter0" (Qz 3) (Qz 1) (Qz 1)) "Al"]
    [setMaterial_mat (setMaterial_name (layer_new "Layer0" (Qz 8) (Qz 1) n1) "Steel") steel]
    [setMaterial_mat (setMaterial_name (layer_new "window" (Qz (-1)) (Qz 0) (Qz 1)) "Steel") steel]
    [mkTT "F1" "" [(inject_Z 1, inject_Z 0); (inject_Z 10, inject_Z 1)]] [] (Some 0%Z) (Qz 45) (Qz 45) (Qz 90) det, Ok tt) /\ d_distance det = Qz 5.
Proof.
  eexists. split.
  - refine (@C64_file QNum readZ same_order eq_refl example (@config_new QNum) exampleBeam [steel] _ _ attE exampleLines layE exampleLayers concE (Some (Qz 5)) (Some (Qz 3)) _
      example_ok example_beam example_materials example_filters example_attenuators att_entries example_lines (conj lay_entries example_layers) conc_entries example_distance example_area _).
    eexists. split; vm_compute; reflexivity.
  - reflexivity.
Qed.

(** ** What does not hold *)
(** A file without a section [fit] or [result.config] (in any letter case) need not be rejected: another section whose
    name is as long is read in its place (C41). *)
Theorem C62_unrecognised_refuted :
  ~ forall d : document, Forall line_ok d -> (forall s, In s (sections_of d) -> ~ same_letters s "fit" /\ ~ same_letters s "result.config") -> snd (run d) = Throw InvalidArgument.
Proof.
  intros A. specialize (A [H "abc"; L "energy" "5"]). assert (Q : Ok tt = Throw InvalidArgument :> res unit); [|discriminate].
  rewrite <- A; [vm_compute; reflexivity|apply documentb_ok; vm_compute; reflexivity|]. intros s [<-|[]]. split; intros E; discriminate E.
Qed.
(** A section that says no thickness: the first one leaves it indeterminate, a later one takes that of the material before;
    likewise the composition. *)
Definition silicon : document := [H "fit"; L "energy" "20"; H "Materials.Si"; L "Density" "2"; L "Thickness" "1"; L "CompoundList" "Si"; L "CompoundFraction" "1"].
Theorem C63_uninitialised_refuted :
  ~ forall d : document, Forall line_ok d -> snd (run d) <> UB.
Proof.
  intros A. apply (A [H "fit"; L "energy" "20"; H "Materials.Air"; L "Density" "1"; L "CompoundList" "N"; L "CompoundFraction" "1"]); [apply documentb_ok; vm_compute; reflexivity|vm_compute; reflexivity].
Qed.
Theorem C63_own_section_refuted :
  ~ forall (d : document) (m : @material QNum) (k : string) (x : Q), Forall line_ok d -> snd (run d) = Ok tt -> In m (c_materials (fst (run d))) -> In (k, x) (m_composition m) ->
      exists v, value_of d ("Materials." ++ m_name m) "CompoundList" = Some v.
Proof.
  intros A. specialize (A (silicon ++ [H "Materials.Air"; L "Density" "1"; L "Thickness" "1"])%list (mkMaterial "Air" true [("Si", inject_Z 1)] (inject_Z 1) (inject_Z 1) "") "Si" (inject_Z 1)).
  destruct A as [v E]; [apply documentb_ok; vm_compute; reflexivity|vm_compute; reflexivity|vm_compute; right; left; reflexivity|left; reflexivity|].
  vm_compute in E. discriminate.
Qed.
(** The eleventh filter is not a filter, *)
Theorem C64_filters_refuted :
  ~ forall (d : document) (k v : string), Forall line_ok d -> snd (run d) = Ok tt -> String.prefix "BeamFilter" k = true -> value_of d "attenuators" k = Some ("1, " ++ v) ->
      exists l, In l (c_filters (fst (run d))) /\ l_name l = k.
Proof.
  intros A. destruct (A [H "fit"; L "energy" "20"; H "attenuators"; L "BeamFilter10" "1, Al, 1, 1, 1"] "BeamFilter10" "Al, 1, 1, 1") as (l & I & _);
    [apply documentb_ok; vm_compute; reflexivity|vm_compute; reflexivity|reflexivity|vm_compute; reflexivity|]. vm_compute in I. exact I.
Qed.
(** and the eleventh layer of a sample comes before the third. *)
Definition layered : document :=
  [H "fit"; L "energy" "20"; H "attenuators"; L "Matrix" "1, MULTILAYER, 0, 0, 45, 45, 0, 90"; H "multilayer"; L "Layer2" "1, Fe, 1, 1"; L "Layer10" "1, Cr, 1, 1"].
Theorem C64_order_refuted :
  ~ forall (d : document) a b (c' : list line), Forall line_ok d -> snd (run d) = Ok tt ->
      d = (c' ++ [H "multilayer"; L "Layer2" a; L "Layer10" b])%list -> map (@l_name QNum) (c_sample (fst (run d))) = ["Layer2"; "Layer10"].
Proof.
  intros A. specialize (A layered "1, Fe, 1, 1" "1, Cr, 1, 1" [H "fit"; L "energy" "20"; H "attenuators"; L "Matrix" "1, MULTILAYER, 0, 0, 45, 45, 0, 90"]).
  assert (Q : ["Layer10"; "Layer2"] = ["Layer2"; "Layer10"]); [|discriminate]. rewrite <- A; [vm_compute; reflexivity|apply documentb_ok; vm_compute; reflexivity|vm_compute; reflexivity|reflexivity].
Qed.
(** After an exception the object need not be what it was: here the beam is new, the materials are gone. *)
Theorem C65_exception_refuted :
  ~ forall (t : text) (c : @config QNum), snd (readConfigurationFromFile readZ same_order (Some t) c) <> Ok tt -> fst (readConfigurationFromFile readZ same_order (Some t) c) = c.
Proof.
  intros A. specialize (A (document_text [H "fit"; L "energy" "20"; H "Materials.X"; L "Density" "0"; L "Thickness" "1"]) (fst (run silicon))).
  assert (Q : @c_materials QNum (fst (run silicon)) = []); [|vm_compute in Q; discriminate]. rewrite <- A; [vm_compute; reflexivity|vm_compute; discriminate].
Qed.
(** hypotheses of C62_result and C62_rejected met *)
Definition resultFile : document := [H "result.config"; L "energy" "20"].
Example C62_nonvacuous : beam_outcome same_order (@config_new QNum) [mkBeamRow 1 (Qz 20) n1 1] (run resultFile) /\ run [H "peaks"] = (@config_new QNum, Throw InvalidArgument).
Proof.
  assert (RO : Forall line_ok resultFile) by (apply documentb_ok; vm_compute; reflexivity).
  split.
  - refine (@C62_result QNum readZ same_order resultFile [("energy", "20")] [mkBeamRow 1 (Qz 20) n1 1] (@config_new QNum) RO _ _ _ _).
    + apply entries_of_reader; [exact RO|vm_compute; reflexivity|]. intros _. apply Forall_cons; [left; discriminate|apply Forall_nil].
    + apply entries_of_reader; [exact RO|vm_compute; reflexivity|discriminate].
    + discriminate.
    + exists [T "20"], [], [], []. split; [unfold list_in; replace (value_of resultFile "result.config" "energy") with (Some "20") by (vm_compute; reflexivity); listing|]. repeat split; vm_compute; reflexivity.
  - apply C62_rejected; [apply documentb_ok; vm_compute; reflexivity| |];
      (apply entries_of_reader; [apply documentb_ok; vm_compute; reflexivity|vm_compute; reflexivity|]; intros _; apply Forall_cons; [left; discriminate|apply Forall_nil]).
Qed.
Example C65_nonvacuous : snd (run example) = Ok tt /\ geometry (fst (run silicon)) = geometry (@config_new QNum).
Proof. split; vm_compute; reflexivity. Qed.
Print Assumptions C62_unrecognised_refuted.
Print Assumptions C63_uninitialised_refuted.
Print Assumptions C63_own_section_refuted.
Print Assumptions C64_filters_refuted.
Print Assumptions C64_order_refuted.
Print Assumptions C65_exception_refuted.
