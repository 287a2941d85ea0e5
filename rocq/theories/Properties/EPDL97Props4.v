(** C67: loading the cross sections. *)
From Coq Require Import Ascii String List ZArith QArith Reals Bool Arith Lia Lra Permutation.
From Verif Require Import Base.Num Base.Res Base.SMap Base.Str Base.Text Base.ListLemmas Base.RSum Model.Specfile Model.EPDL97 Spec.EPDL97Spec
  Proofs.MathProofs Proofs.EPDL97Proofs Proofs.EPDL97Proofs2 Proofs.EPDL97Proofs3 Proofs.EPDL97Proofs4 Proofs.EPDL97Proofs5 Proofs.EPDL97Proofs6 Proofs.EPDL97Proofs7 Proofs.EPDL97Proofs8
  Properties.EPDL97Props2.
Import ListNotations.
Set Implicit Arguments.
Local Close Scope Q_scope.
Local Open Scope string_scope.
Local Open Scope R_scope.
Local Existing Instance RNum.

(** A data directory that loads: every scan of the cross sections file has the labels of the first;
    each quantity has a column, the first whose label names it; the energies are stored as they are,
    and the rows with photoelectric and all other recomputed. Nothing is assumed of the object before
    the call. *)
Theorem C67_loaded (strtod : text -> R) fs directory ep ep' :
  setDataDirectory strtod fs directory ep = (ep', Ok tt) ->
  let sf := setFileName (fs (directory ++ "//EPDL97_CrossSections.dat")%string) in let n := getNumberOfScans sf in
  exists labels (col : string -> nat), (99 <= n)%nat /\
    (forall q, In q quantities -> column_of labels q (col q)) /\
    (forall q i, In (q, i) (ep_index ep') <-> In q quantities /\ i = Z.of_nat (col q)) /\
    ep_init ep' = true /\ length (ep_values ep') = n /\ length (ep_energy ep') = n /\
    forall i, (i < n)%nat -> getScanLabels sf i = Ok labels /\ exists file rows, getScanData strtod sf i = Ok file /\ nth_error (ep_values ep') i = Some rows /\
      nth_error (ep_energy ep') i = Some (map (fun r => at_col r (col "energy")) file) /\
      ((forall q q', In q quantities -> In q' quantities -> col q = col q' -> q = q') -> Forall2 (stored col (i + 1)) file rows).
Proof.
  intros E sf n. destruct (directory_split strtod fs directory ep E) as (ep1 & ep2 & _ & C & A & B & D & ->).
  destruct (@cross_stored strtod ep1 _ ep2 A B D C) as (labels & col & _ & N & _ & _ & CO & IX & L1 & L2 & _ & ROWS).
  exists labels, col. cbn [ep_init ep_index ep_values ep_energy]. do 6 (split; [first [assumption|reflexivity]|]). intros i Hi. replace (i + 1)%nat with (S i) by lia. exact (ROWS i Hi).
Qed.
Print Assumptions C67_loaded.
(** A quantity that no label names: the directory is refused. *)
Theorem C67_missing_label (strtod : text -> R) fs directory ep q labels :
  let sf := setFileName (fs (directory ++ "//EPDL97_CrossSections.dat")%string) in
  directory <> "" -> snd (loadBindingEnergies strtod epdl_new (fs (directory ++ "//EADL97_BindingEnergies.dat")%string)) = Ok tt ->
  getScanLabels sf 0 = Ok labels -> In q quantities -> (forall l, In l labels -> ~ names q l) ->
  snd (setDataDirectory strtod fs directory ep) = Throw IosFailure.
Proof.
  intros sf DN LB LA Q NO. unfold setDataDirectory. cbv zeta. destruct (Nat.eqb_spec (String.length directory) 0) as [Z0|_]; [destruct directory; [congruence|discriminate]|].
  change ("//" ++ "EADL97_BindingEnergies.dat")%string with "//EADL97_BindingEnergies.dat". change ("//" ++ "EPDL97_CrossSections.dat")%string with "//EPDL97_CrossSections.dat".
  destruct (loadBindingEnergies strtod epdl_new (fs (directory ++ "//EADL97_BindingEnergies.dat")%string)) as [ep1 r1]. cbn [snd] in LB. subst r1.
  unfold loadCrossSections. fold sf. destruct (Nat.ltb _ 99); [reflexivity|]. rewrite LA. cbv zeta. destruct (Nat.ltb _ 15); [reflexivity|].
  pose proof (@buildIndex_fails interestingLabels labels (ep_index ep1)) as BF. destruct (buildIndex interestingLabels labels (ep_index ep1)) as [index r]. cbn [snd] in BF. rewrite BF; [reflexivity|].
  exists q. split; [exact Q|]. apply labelIndex_none. intros l Hl. destruct (labelMatches (searchKey q) l) eqn:M; [|reflexivity]. exfalso. apply (NO l Hl). apply (@labelMatches_iff q l Q). exact M.
Qed.
Print Assumptions C67_missing_label.
(** A directory whose files have everything needed loads, whatever the object held before. *)
Theorem C67_loads (strtod : text -> R) fs directory ep labels :
  let sf := setFileName (fs (directory ++ "//EPDL97_CrossSections.dat")%string) in let n := getNumberOfScans sf in
  directory <> "" -> snd (loadBindingEnergies strtod epdl_new (fs (directory ++ "//EADL97_BindingEnergies.dat")%string)) = Ok tt ->
  (99 <= n)%nat -> (15 <= length labels)%nat -> (forall q, In q quantities -> exists l, In l labels /\ names q l) ->
  (forall i, (i < n)%nat -> getScanLabels sf i = Ok labels /\ exists file, getScanData strtod sf i = Ok file /\ Forall (fun r => length r = length labels) file) ->
  snd (setDataDirectory strtod fs directory ep) = Ok tt.
Proof.
  intros sf n DN LB N L15 NM SC. unfold setDataDirectory. cbv zeta. destruct (Nat.eqb_spec (String.length directory) 0) as [Z0|_]; [destruct directory; [congruence|discriminate]|].
  change ("//" ++ "EADL97_BindingEnergies.dat")%string with "//EADL97_BindingEnergies.dat". change ("//" ++ "EPDL97_CrossSections.dat")%string with "//EPDL97_CrossSections.dat".
  pose proof (binding_empty strtod (fs (directory ++ "//EADL97_BindingEnergies.dat")%string)) as BE.
  destruct (loadBindingEnergies strtod epdl_new (fs (directory ++ "//EADL97_BindingEnergies.dat")%string)) as [ep1 r1]. cbn [snd fst] in LB, BE. subst r1.
  destruct (@cross_loads strtod ep1 (fs (directory ++ "//EPDL97_CrossSections.dat")%string) labels) as [ep2 C]; [apply BE|exact N|exact L15|exact NM|exact SC|].
  rewrite C. reflexivity.
Qed.
Print Assumptions C67_loads.

(** *** Totals of the tables *)
Lemma index_perm (index : list (string * Z)) (col : string -> nat) : msorted sltb index -> (forall q i, In (q, i) index <-> In q quantities /\ i = Z.of_nat (col q)) ->
  Permutation index (map (fun q => (q, Z.of_nat (col q))) quantities).
Proof.
  intros S H. apply NoDup_Permutation.
  - apply (NoDup_map_inv fst). apply smsorted_NoDup, S.
  - apply FinFun.Injective_map_NoDup; [intros a c Q; injection Q; auto|apply quantities_NoDup].
  - intros [q i]. rewrite H, in_map_iff. split.
    + intros [Q ->]. exists q. auto.
    + intros (q' & Q & I). injection Q as <- <-. auto.
Qed.
Lemma columns_sum_shells index col rows i : msorted sltb index -> (forall q i, In (q, i) index <-> In q quantities /\ i = Z.of_nat (col q)) ->
  let v q := entry rows i (Z.of_nat (col q)) in
  columns_sum index rows i shells = v "K" + v "L1" + v "L2" + v "L3" + v "M1" + v "M2" + v "M3" + v "M4" + v "M5" + v "all other" /\
  columns_sum index rows i (shells ++ ["coherent"; "compton"; "pair"]) = v "K" + v "L1" + v "L2" + v "L3" + v "M1" + v "M2" + v "M3" + v "M4" + v "M5" + v "all other" + v "coherent" + v "compton".
Proof.
  intros S H v.
  assert (P : forall keys, columns_sum index rows i keys = Rsum (map (fun q => if in_dec string_dec q keys then v q else 0) quantities)).
  { intros keys. unfold columns_sum. rewrite (@Rsum_perm _ _ (Permutation_map (fun kv : string * Z => if in_dec string_dec (fst kv) keys then entry rows i (snd kv) else 0) (index_perm col S H))).
    rewrite map_map. reflexivity. }
  rewrite !P. unfold quantities, Rsum. cbn [map fold_right].
  split; repeat match goal with |- context [in_dec string_dec ?q ?l] => let J := fresh in destruct (in_dec string_dec q l) as [J|J]; [try (exfalso; clear - J; cbn in J; intuition discriminate)|try (exfalso; apply J; cbn; tauto)] end; ring.
Qed.

(** From potassium on, where the file has a positive all other and its subshells do not exceed total -
    compton - coherent, the tables of the element give back the total of the file, and photoelectric is
    what is left of it by scattering. *)
Theorem C67_totals (strtod : text -> R) fs directory ep ep' (z : nat) labels (col : string -> nat) file :
  let sf := setFileName (fs (directory ++ "//EPDL97_CrossSections.dat")%string) in
  setDataDirectory strtod fs directory ep = (ep', Ok tt) ->
  (19 <= z <= getNumberOfScans sf)%nat -> (exists b, nth_error (ep_binding ep') (z - 1) = Some b) ->
  getScanLabels sf 0 = Ok labels -> (forall q, In q quantities -> column_of labels q (col q)) ->
  (forall q q', In q quantities -> In q' quantities -> col q = col q' -> q = q') ->
  getScanData strtod sf (z - 1) = Ok file -> Forall (fun r => length r = length labels) file ->
  exists t, getMassAttenuationTables ep' (Z.of_nat z) = Ok t /\ forall j r, nth_error file j = Some r ->
    let v q := at_col r (col q) in
    0 < v "all other" -> v "K" + v "L1" + v "L2" + v "L3" + v "M1" + v "M2" + v "M3" + v "M4" + v "M5" <= v "total" - v "compton" - v "coherent" -> 0 < v "total" - v "compton" - v "coherent" ->
    exists total photo, mfind sltb "total" t = Some total /\ mfind sltb "photoelectric" t = Some photo /\ at_col total j = v "total" /\ at_col photo j = v "total" - v "compton" - v "coherent".
Proof.
  intros sf E Hz (b & BZ) LA CO INJ GD LF. destruct (directory_split strtod fs directory ep E) as (ep1 & ep2 & _ & C & A & B & D & ->).
  destruct (@cross_stored strtod ep1 _ ep2 A B D C) as (labels' & col' & LA' & N & _ & SI & CO' & IX & L1 & L2 & _ & ROWS). cbn [ep_binding] in BZ.
  change (fs (cross_sections_file directory)) with (fs (directory ++ "//EPDL97_CrossSections.dat")%string) in *. fold sf in LA', N, L1, L2, ROWS.
  rewrite LA in LA'. injection LA' as <-.
  assert (CE : forall q, In q quantities -> col' q = col q).
  { intros q Q. destruct (CO q Q) as [(l & X1 & X2) X3]. destruct (CO' q Q) as [(l' & Y1 & Y2) Y3]. destruct (Nat.lt_trichotomy (col' q) (col q)) as [W|[W|W]]; [exfalso|exact W|exfalso].
    - exact (X3 _ _ W Y1 Y2).
    - exact (Y3 _ _ W X1 X2). }
  assert (INJ' : forall q q', In q quantities -> In q' quantities -> col' q = col' q' -> q = q') by (intros q q' Q Q'; rewrite !CE by assumption; apply INJ; assumption).
  destruct (ROWS (z - 1)%nat) as (_ & file' & rows & GD' & NV & NE & ST); [lia|]. rewrite GD in GD'. injection GD' as <-. specialize (ST INJ'). replace (S (z - 1)) with z in ST by lia.
  set (ep2' := mkEpdl true (ep_binding ep2) (ep_labels ep2) (ep_index ep2) (ep_values ep2) (ep_energy ep2)). set (g := map (fun r : list R => at_col r (col' "energy")) file) in *.
  assert (DA : data_of ep2' (Z.of_nat z) g rows b).
  { split; [reflexivity|]. split; [lia|]. cbn [ep2' ep_energy ep_values ep_binding]. rewrite L2. replace (Nat.min (Z.to_nat (Z.of_nat z - 1)) (getNumberOfScans sf - 1)) with (z - 1)%nat by lia. auto. }
  assert (LR : length rows = length file) by (clear - ST; induction ST as [|? ? ? ? _ _ IH]; [reflexivity|cbn [length]; f_equal; exact IH]).
  assert (T : table_ok (ep_index ep2) g rows).
  { split; [unfold g; rewrite map_length; exact LR|]. intros key idx K. apply IX in K. destruct K as [Q ->]. split; [lia|]. rewrite Nat2Z.id. intros r Hr.
    pose proof (column_bound (CO' key Q)) as CB.
    assert (LEN : length r = length labels). { clear - ST LF Hr. induction ST as [|f r' fs rs H _ IH]; [destruct Hr|]. inversion LF as [|? ? F1 F2]; subst. destruct Hr as [<-|Hr]; [destruct H as [H _]; toR; lia|exact (IH F2 Hr)]. }
    lia. }
  destruct (@C48_tables ep2' (Z.of_nat z) g rows b DA T SI) as (t & ET & PH & TO & _ & _). cbn [ep2' ep_index] in PH, TO. exists t. split; [exact ET|].
  intros j r Hj v OP SUM PP. eexists. eexists. split; [exact TO|]. split; [exact PH|].
  assert (JL : (j < length file)%nat) by (apply nth_error_Some; congruence).
  assert (SJ : exists r', nth_error rows j = Some r' /\ stored col' z r r').
  { clear - ST Hj. revert j Hj. induction ST as [|f r' fs rs H _ IH]; intros j Hj; destruct j as [|j]; try discriminate; cbn in Hj |- *; [injection Hj as <-; exists r'; auto|exact (IH j Hj)]. }
  destruct SJ as (r' & NJ & SR).
  assert (VE : forall q, In q quantities -> at_col r (col' q) = v q) by (intros q Q; unfold v; rewrite CE by exact Q; reflexivity).
  assert (EN : forall q, entry rows j (Z.of_nat (col' q)) = at_col r' (col' q)).
  { intros q. unfold entry. rewrite Nat2Z.id, (nth_error_nth _ _ _ NJ). reflexivity. }
  destruct SR as (_ & _ & SO & SU). rewrite !VE in SO by (cbn; tauto). destruct (Rlt_dec 0 (v "total" - v "compton" - v "coherent")) as [_|n]; [|contradiction].
  destruct (Rlt_dec 0 (v "all other")) as [_|n]; [|contradiction]. destruct (lt_dec 18 z) as [_|n]; [|lia]. rewrite Rmax_right in SO by lra.
  assert (KEEP : forall q, In q quantities -> q <> "photoelectric" -> q <> "all other" -> at_col r' (col' q) = v q).
  { intros q Q N1 N2. rewrite SU; [apply VE, Q|intros W; apply N1; apply INJ'; [exact Q|cbn; tauto|exact W]|intros W; apply N2; apply INJ'; [exact Q|cbn; tauto|exact W]]. }
  assert (NTH : forall F : nat -> R, at_col (map F (seq 0 (length g))) j = F j).
  { intros F. unfold at_col. rewrite (nth_indep _ 0 (F 0%nat)) by (rewrite map_length, seq_length; unfold g; rewrite map_length; exact JL).
    rewrite map_nth, seq_nth by (unfold g; rewrite map_length; exact JL). reflexivity. }
  destruct (@columns_sum_shells (ep_index ep2) col' rows j SI IX) as [S1 S2]. cbv zeta in S1, S2. rewrite !EN in S1, S2. rewrite SO in S1, S2. rewrite !KEEP in S1, S2 by (try (cbn; tauto); discriminate).
  rewrite !NTH. split; [rewrite S2, !EN, !KEEP by (try (cbn; tauto); discriminate); ring|rewrite S1; ring].
Qed.
Print Assumptions C67_totals.

(** *** Example: the files of EPDL97Props2 load over the reals, whatever the reading of numbers *)
Definition ex_labels : list string := ["energy"; "compton"; "coherent"; "photoelectric"; "total"; "K"; "L1"; "L2"; "L3"; "M1"; "M2"; "M3"; "M4"; "M5"; "allother"].
Example C67_example (strtod : text -> R) : snd (setDataDirectory strtod (files "allother") "d" epdl_new) = Ok tt.
Proof.
  apply C67_loads with (labels := ex_labels).
  - discriminate.
  - vm_compute. reflexivity.
  - apply Nat.leb_le. vm_compute. reflexivity.
  - cbn; lia.
  - assert (OC : forall a, occurs a a) by (intros a; exists "", ""; cbn [append]; induction a as [|c a IH]; [reflexivity|cbn [append]; f_equal; exact IH]).
    intros q Q. cbn in Q. repeat (destruct Q as [<-|Q]; [match goal with |- exists l, In l _ /\ names ?q l => first [exists q; split; [cbn; tauto|] | exists "allother"; split; [cbn; tauto|]] end; unfold names;
      repeat match goal with |- context [in_dec string_dec ?a ?l] => let J := fresh in destruct (in_dec string_dec a l) as [J|J]; [try (exfalso; clear - J; cbn in J; intuition discriminate)|try (exfalso; apply J; cbn; tauto)] end;
      repeat match goal with |- context [string_dec ?a ?c] => let J := fresh in destruct (string_dec a c) as [J|J]; [try discriminate J|try (exfalso; apply J; reflexivity)] end;
      first [exists ""; reflexivity | apply OC | split; [apply OC|intros C; apply contains_iff in C; vm_compute in C; discriminate]]|]). destruct Q.
  - set (sf := setFileName (files "allother" ("d" ++ "//EPDL97_CrossSections.dat")%string)). intros i Hi.
    assert (CH : forallb (fun i => match getScanLabels sf i, getScanData strtod sf i with Ok l, Ok f => if list_eq_dec string_dec l ex_labels then forallb (fun r => Nat.eqb (length r) 15) f else false | _, _ => false end) (seq 0 (getNumberOfScans sf)) = true) by (vm_compute; reflexivity).
    clearbody sf. assert (II : In i (seq 0 (getNumberOfScans sf))) by (apply in_seq; lia).
    rewrite forallb_forall in CH. specialize (CH i II). cbv beta in CH. clear II.
    destruct (getScanLabels sf i) as [l| | |]; try (exfalso; discriminate CH).
    destruct (getScanData strtod sf i) as [f| | |]; try (exfalso; discriminate CH). destruct (list_eq_dec string_dec l ex_labels) as [->|]; [|exfalso; discriminate CH].
    split; [reflexivity|]. exists f. split; [reflexivity|]. apply Forall_forall. intros r Hr. apply Nat.eqb_eq. rewrite forallb_forall in CH. exact (CH r Hr).
Qed.
