(** C67: loading the cross sections (2): rows and scans. *)
From Coq Require Import Ascii String List ZArith Reals Bool Arith Lia Lra.
From Verif Require Import Base.Num Base.Res Base.SMap Base.Str Base.Text Base.ListLemmas Base.RSum Model.Specfile Model.EPDL97 Spec.EPDL97Spec
  Proofs.MathProofs Proofs.EPDL97Proofs Proofs.EPDL97Proofs2 Proofs.EPDL97Proofs3 Proofs.EPDL97Proofs4 Proofs.EPDL97Proofs5 Proofs.EPDL97Proofs6 Proofs.EPDL97Proofs7.
Import ListNotations.
Set Implicit Arguments.
Local Open Scope string_scope.
Local Open Scope R_scope.
Local Existing Instance RNum.

Lemma vset_nth {A} (d x : A) : forall v i n, nth n (vset v i x) d = if (Nat.eqb n i && Nat.ltb i (length v))%bool then x else nth n v d.
Proof.
  induction v as [|a v IH]; intros i n.
  - cbn [vset length]. replace (Nat.ltb i 0) with false by (symmetry; apply Nat.ltb_ge; lia). rewrite andb_false_r. reflexivity.
  - destruct i as [|i]; cbn [vset]; destruct n as [|n]; cbn [nth]; try reflexivity. rewrite IH. reflexivity.
Qed.
Lemma vgetZ_at (v : list R) n x : vgetZ v (Z.of_nat n) = Ok x -> (n < length v)%nat /\ x = at_col v n.
Proof.
  unfold vgetZ. destruct (Z.ltb_spec (Z.of_nat n) 0); [lia|]. rewrite Nat2Z.id. unfold vget. destruct (nth_error v n) as [y|] eqn:E; [|discriminate].
  intros Q. injection Q as <-. split; [apply nth_error_Some; congruence|]. symmetry. apply nth_error_nth. exact E.
Qed.
Lemma at_col_vset (v : list R) i x n : (i < length v)%nat -> at_col (vset v i x) n = if Nat.eqb n i then x else at_col v n.
Proof. intros H. unfold at_col. rewrite vset_nth. destruct (Nat.ltb_spec i (length v)); [|lia]. rewrite andb_true_r. reflexivity. Qed.

Tactic Notation "step" hyp(H) ident(x) ident(E) := match type of H with rbind ?t _ = Ok _ => destruct t as [x| | |] eqn:E; try discriminate H; cbn [rbind] in H end.

Lemma normalize_stored index (col : string -> nat) i file row :
  (forall q, In q quantities -> ix index q = Z.of_nat (col q)) ->
  (forall q q', In q quantities -> In q' quantities -> col q = col q' -> q = q') ->
  normalize index i file = Ok row -> stored col (S i) file row.
Proof.
  intros IX INJ E. unfold normalize in E. rewrite !IX in E by (cbn; tauto). cbv zeta in E. rewrite ?Nat2Z.id in E.
  assert (DIFF : forall q q', In q quantities -> In q' quantities -> q <> q' -> Nat.eqb (col q) (col q') = false).
  { intros q q' H H' N. apply Nat.eqb_neq. intros Q. apply N. apply INJ; assumption. }
  step E total E1. step E compton E2. step E coherent E3. step E old E4. step E photo E5. toR.
  apply vgetZ_at in E1, E2, E3, E4, E5. destruct E1 as [L1 ->], E2 as [L2 ->], E3 as [L3 ->], E4 as [L4 ->], E5 as [L5 ->].
  set (ph := at_col file (col "total") - at_col file (col "compton") - at_col file (col "coherent")) in *.
  change (@nsub RNum) with Rminus in E. toR. fold ph in E. rewrite at_col_vset in E by exact L4. rewrite Nat.eqb_refl in E.
  set (row1 := vset file (col "photoelectric") ph) in *.
  assert (LR1 : length row1 = length file) by apply vset_length.
  assert (A1 : forall n, at_col row1 n = if Nat.eqb n (col "photoelectric") then ph else at_col file n) by (intros n; apply at_col_vset; exact L4).
  assert (NP : forall q, In q quantities -> q <> "photoelectric" -> at_col row1 (col q) = at_col file (col q)).
  { intros q H N. rewrite A1. rewrite DIFF; [reflexivity|exact H|cbn; tauto|exact N]. }
  set (SUM := at_col file (col "K") + at_col file (col "L1") + at_col file (col "L2") + at_col file (col "L3") + at_col file (col "M1") + at_col file (col "M2") + at_col file (col "M3") + at_col file (col "M4") + at_col file (col "M5")).
  (* the row before the last correction *)
  assert (MID : forall row2, length row2 = length file -> at_col row2 (col "photoelectric") = Rmax 0 ph ->
     (forall n, n <> col "photoelectric" -> n <> col "all other" -> at_col row2 n = at_col file n) ->
     (col "all other" < length row2)%nat ->
     Rmax 0 (at_col row2 (col "all other")) = (if Rlt_dec 0 ph then if Rlt_dec 0 (at_col file (col "all other")) then if lt_dec 18 (S i) then Rmax 0 (ph - SUM) else 0 else 0 else Rmax 0 (at_col file (col "all other"))) ->
     stored col (S i) file (if Rltb (at_col row2 (col "all other")) 0 then vset row2 (col "all other") 0 else row2)).
  { intros row2 L P O LO M. unfold stored. fold ph. fold SUM. cbv zeta. rewrite <- M. clear M.
    destruct (Rltb_spec (at_col row2 (col "all other")) 0) as [C|C].
    - split; [rewrite vset_length; exact L|]. rewrite !at_col_vset by exact LO. rewrite Nat.eqb_refl. rewrite DIFF by (try (cbn; tauto); discriminate).
      split; [exact P|]. split; [rewrite Rmax_left by lra; reflexivity|]. intros n N1 N2. rewrite at_col_vset by exact LO. destruct (Nat.eqb_spec n (col "all other")); [contradiction|]. apply O; assumption.
    - split; [exact L|]. split; [exact P|]. split; [rewrite Rmax_right by lra; reflexivity|]. exact O. }
  step E row2 E6. step E other E7. apply vgetZ_at in E7. destruct E7 as [L7 ->]. injection E as <-.
  change (@nltb RNum) with Rltb. change (@n0 RNum) with 0. toR. change (@nltb RNum) with Rltb in E6. change (@n0 RNum) with 0 in E6. toR.
  assert (ALL : forall v, (col "all other" < length file)%nat -> Rltb 0 ph = true ->
      let r := vset row1 (col "all other") v in
      length r = length file /\ at_col r (col "photoelectric") = Rmax 0 ph /\ (forall n, n <> col "photoelectric" -> n <> col "all other" -> at_col r n = at_col file n) /\ at_col r (col "all other") = v).
  { intros v LA P r. apply Rltb_true in P. assert (LA1 : (col "all other" < length row1)%nat) by lia. split; [unfold r; rewrite vset_length; exact LR1|]. unfold r. split; [|split].
    - rewrite at_col_vset by exact LA1. rewrite DIFF by (try (cbn; tauto); discriminate). rewrite A1, Nat.eqb_refl. rewrite Rmax_right by lra. reflexivity.
    - intros n N1 N2. rewrite at_col_vset by exact LA1. destruct (Nat.eqb_spec n (col "all other")); [contradiction|]. rewrite A1. destruct (Nat.eqb_spec n (col "photoelectric")); [contradiction|]. reflexivity.
    - rewrite at_col_vset by exact LA1. rewrite Nat.eqb_refl. reflexivity. }
  destruct (Rltb 0 ph) eqn:P.
  - step E6 o E8. apply vgetZ_at in E8. destruct E8 as [L8 ->]. rewrite LR1 in L8. rewrite NP in E6 by (try (cbn; tauto); discriminate).
    destruct (Rltb 0 (at_col file (col "all other")) && Nat.ltb 17 i)%bool eqn:B.
    + apply andb_prop in B. destruct B as [B1 B2]. apply Rltb_true in B1. apply Nat.ltb_lt in B2.
      step E6 k X1. step E6 l1 X2. step E6 l2 X3. step E6 l3 X4. step E6 m1 X5. step E6 m2 X6. step E6 m3 X7. step E6 m4 X8. step E6 m5 X9.
      apply vgetZ_at in X1, X2, X3, X4, X5, X6, X7, X8, X9.
      destruct X1 as [_ X1], X2 as [_ X2], X3 as [_ X3], X4 as [_ X4], X5 as [_ X5], X6 as [_ X6], X7 as [_ X7], X8 as [_ X8], X9 as [_ X9].
      rewrite NP in X1, X2, X3, X4, X5, X6, X7, X8, X9 by (try (cbn; tauto); discriminate). injection E6 as <-.
      destruct (ALL (ph - k - l1 - l2 - l3 - m1 - m2 - m3 - m4 - m5) L8 eq_refl) as (R1 & R2 & R3 & R4). apply Rltb_true in P.
      apply MID; auto. rewrite R4. destruct (Rlt_dec 0 ph); [|lra]. destruct (Rlt_dec 0 (at_col file (col "all other"))); [|lra]. destruct (lt_dec 18 (S i)); [|lia].
      f_equal. unfold SUM. rewrite <- X1, <- X2, <- X3, <- X4, <- X5, <- X6, <- X7, <- X8, <- X9. ring.
    + injection E6 as <-. destruct (ALL 0 L8 eq_refl) as (R1 & R2 & R3 & R4). apply Rltb_true in P. apply MID; auto. rewrite R4.
      destruct (Rlt_dec 0 ph); [|lra]. rewrite Rmax_left by lra. apply andb_false_iff in B.
      destruct (Rlt_dec 0 (at_col file (col "all other"))) as [Y|Y]; [|reflexivity]. destruct (lt_dec 18 (S i)) as [W|W]; [|reflexivity].
      exfalso. destruct B as [B|B]; [apply Rltb_false in B; contradiction|apply Nat.ltb_ge in B; lia].
  - injection E6 as <-. apply Rltb_false in P. assert (LP : (col "photoelectric" < length row1)%nat) by lia.
    assert (V : forall n, at_col (vset row1 (col "photoelectric") 0) n = if Nat.eqb n (col "photoelectric") then 0 else at_col file n).
    { intros n. rewrite at_col_vset by exact LP. rewrite A1. destruct (Nat.eqb n (col "photoelectric")); reflexivity. }
    apply MID.
    + rewrite vset_length. exact LR1.
    + rewrite V, Nat.eqb_refl, Rmax_left by lra. reflexivity.
    + intros n N1 _. rewrite V. destruct (Nat.eqb_spec n (col "photoelectric")); [contradiction|reflexivity].
    + exact L7.
    + rewrite V. rewrite DIFF by (try (cbn; tauto); discriminate). destruct (Rlt_dec 0 ph); [contradiction|reflexivity].
Qed.

(** *** Scans *)
Section Scans.
Variable strtod : text -> R.
Variables (sf : specfile) (labels : list string) (index : list (string * Z)) (col : string -> nat).
Hypothesis IX : forall q, In q quantities -> ix index q = Z.of_nat (col q).
Lemma loadScan_stored i rows en : loadScan strtod sf labels index i = Ok (rows, en) ->
  getScanLabels sf i = Ok labels /\
  exists file, getScanData strtod sf i = Ok file /\ en = map (fun r => at_col r (col "energy")) file /\
    ((forall q q', In q quantities -> In q' quantities -> col q = col q' -> q = q') -> Forall2 (stored col (S i)) file rows).
Proof.
  intros E. unfold loadScan in E. destruct (getScanLabels sf i) as [lab| | |]; try discriminate. cbn [rbind] in E.
  destruct (Nat.eqb_spec (length lab) (length labels)) as [LL|]; [|discriminate]. cbn [negb] in E.
  match type of E with (if negb ?c then _ else _) = _ => destruct c eqn:FA; [|discriminate] end. cbn [negb] in E.
  assert (lab = labels) as ->.
  { clear - LL FA. revert labels LL FA. induction lab as [|a lab IH]; intros [|c labels] LL FA; try discriminate; [reflexivity|]. cbn in FA. apply andb_prop in FA. destruct FA as [Q FA].
    apply String.eqb_eq in Q. subst. f_equal. apply IH; [cbn in LL; lia|exact FA]. }
  split; [reflexivity|]. destruct (getScanData strtod sf i) as [file| | |]; try discriminate. cbn [rbind] in E. exists file. split; [reflexivity|].
  match type of E with rbind ?t _ = _ => destruct t as [es| | |] eqn:EN; try discriminate end. cbn [rbind] in E.
  match type of E with rbind ?t _ = _ => destruct t as [ns| | |] eqn:NO; try discriminate end. cbn [rbind] in E. injection E as <- <-.
  apply rmapM_inv in EN. apply rmapM_inv in NO. split.
  - rewrite IX in EN by (cbn; tauto). clear - EN. induction EN as [|r e rs es H _ IH]; [reflexivity|]. cbn [map]. apply vgetZ_at in H. destruct H as [_ ->]. f_equal. exact IH.
  - intros INJ. clear EN. induction NO as [|r r' rs rs' H _ IH]; [constructor|]. constructor; [|exact IH]. eapply normalize_stored; eassumption.
Qed.
Lemma loadScans_stored : forall todo values energy values' energy', NoDup todo -> (forall i, In i todo -> (i < length values)%nat /\ (i < length energy)%nat) ->
  loadScans strtod sf labels index todo values energy = (values', energy', Ok tt) ->
  length values' = length values /\ length energy' = length energy /\
  (forall i, In i todo -> exists rows en, nth_error values' i = Some rows /\ nth_error energy' i = Some en /\ loadScan strtod sf labels index i = Ok (rows, en)) /\
  (forall i, ~ In i todo -> nth_error values' i = nth_error values i /\ nth_error energy' i = nth_error energy i).
Proof.
  assert (NE : forall A (v : list A) i n x, (i < length v)%nat -> nth_error (vset v i x) n = if Nat.eqb n i then Some x else nth_error v n).
  { intros A. induction v as [|a v IH]; intros i n x H; [cbn in H; lia|]. destruct i as [|i]; cbn [vset]; destruct n as [|n]; cbn; try reflexivity. apply IH. cbn in H. lia. }
  induction todo as [|i todo IH]; intros values energy values' energy' ND B E; cbn [loadScans] in E.
  - injection E as <- <-. repeat split; try reflexivity. intros i [].
  - inversion ND as [|? ? N1 N2]; subst. destruct (loadScan strtod sf labels index i) as [[v e]| | |] eqn:L; try discriminate.
    destruct (B i (or_introl eq_refl)) as [B1 B2].
    destruct (IH (vset values i v) (vset energy i e) values' energy' N2) as (L1 & L2 & A & C); [|exact E|].
    { intros j J. rewrite !vset_length. apply B. right. exact J. }
    split; [rewrite L1; apply vset_length|]. split; [rewrite L2; apply vset_length|]. split.
    + intros j [<-|J]; [|exact (A j J)]. exists v, e. destruct (C i N1) as [C1 C2]. rewrite C1, C2. toR. rewrite !NE by assumption. rewrite Nat.eqb_refl. auto.
    + intros j J. destruct (C j) as [C1 C2]; [intros Q; apply J; right; exact Q|]. rewrite C1, C2. toR. rewrite !NE by assumption. destruct (Nat.eqb_spec j i) as [->|]; [exfalso; apply J; left; reflexivity|auto].
Qed.
End Scans.

Lemma resize_length {A} (d : A) n l : length (resize d n l) = n.
Proof. unfold resize. rewrite app_length, firstn_length, repeat_length. lia. Qed.
Lemma quantities_NoDup : NoDup quantities.
Proof. unfold quantities. repeat constructor; cbn; intuition discriminate. Qed.
Lemma binding_empty (strtod : text -> R) f : let ep' := fst (loadBindingEnergies strtod epdl_new f) in ep_index ep' = [] /\ ep_values ep' = [] /\ ep_energy ep' = [].
Proof. exact (binding_keeps strtod epdl_new f). Qed.

Definition cross_sections_file (directory : string) : string := (directory ++ "//" ++ "EPDL97_CrossSections.dat")%string.
Definition binding_energies_file (directory : string) : string := (directory ++ "//" ++ "EADL97_BindingEnergies.dat")%string.
Lemma directory_split (strtod : text -> R) fs directory ep ep' : setDataDirectory strtod fs directory ep = (ep', Ok tt) ->
  exists ep1 ep2, loadBindingEnergies strtod epdl_new (fs (binding_energies_file directory)) = (ep1, Ok tt) /\ loadCrossSections strtod ep1 (fs (cross_sections_file directory)) = (ep2, Ok tt) /\
    ep_index ep1 = [] /\ ep_values ep1 = [] /\ ep_energy ep1 = [] /\ ep' = mkEpdl true (ep_binding ep2) (ep_labels ep2) (ep_index ep2) (ep_values ep2) (ep_energy ep2).
Proof.
  intros E. unfold setDataDirectory in E. cbv zeta in E. destruct (Nat.eqb _ 0); [discriminate|].
  pose proof (binding_empty strtod (fs (binding_energies_file directory))) as BE. fold (binding_energies_file directory) in E. fold (cross_sections_file directory) in E.
  destruct (loadBindingEnergies strtod epdl_new (fs (binding_energies_file directory))) as [ep1 [[]| | |]]; try discriminate.
  destruct (loadCrossSections strtod ep1 (fs (cross_sections_file directory))) as [ep2 [[]| | |]] eqn:C; try discriminate.
  exists ep1, ep2. cbn [fst] in BE. destruct BE as (A & B & D). repeat split; auto. injection E as <-. reflexivity.
Qed.
Lemma cross_stored (strtod : text -> R) ep f ep' : ep_index ep = [] -> ep_values ep = [] -> ep_energy ep = [] -> loadCrossSections strtod ep f = (ep', Ok tt) ->
  let sf := setFileName f in let n := getNumberOfScans sf in
  exists labels (col : string -> nat), getScanLabels sf 0 = Ok labels /\ (99 <= n)%nat /\ (15 <= length labels)%nat /\ msorted sltb (ep_index ep') /\
    (forall q, In q quantities -> column_of labels q (col q)) /\
    (forall q i, In (q, i) (ep_index ep') <-> In q quantities /\ i = Z.of_nat (col q)) /\
    length (ep_values ep') = n /\ length (ep_energy ep') = n /\ ep_binding ep' = ep_binding ep /\
    forall i, (i < n)%nat -> getScanLabels sf i = Ok labels /\ exists file rows, getScanData strtod sf i = Ok file /\ nth_error (ep_values ep') i = Some rows /\
      nth_error (ep_energy ep') i = Some (map (fun r => at_col r (col "energy")) file) /\
      ((forall q q', In q quantities -> In q' quantities -> col q = col q' -> q = q') -> Forall2 (stored col (S i)) file rows).
Proof.
  intros EI EV EE E sf n. unfold loadCrossSections in E. fold sf in E. fold n in E. destruct (Nat.ltb_spec n 99) as [|N]; [discriminate|].
  destruct (getScanLabels sf 0) as [labels| | |] eqn:LA; try discriminate. cbv zeta in E. destruct (Nat.ltb_spec (length labels) 15) as [|L15]; [discriminate|].
  rewrite EI, EV, EE in E. destruct (buildIndex interestingLabels labels []) as [index r] eqn:B. destruct r as [[]| | |]; try discriminate.
  pose proof (@buildIndex_sorted _ _ _ _ _ (@smsorted_nil Z) B) as SI.
  destruct (@buildIndex_ok interestingLabels labels quantities_NoDup [] index (@smsorted_nil Z) B) as [BI BN].
  destruct (loadScans strtod sf labels index (seq 0 n) (resize [] n []) (resize [] n [])) as [[values energy] r] eqn:LS. destruct r as [[]| | |]; try discriminate. injection E as <-.
  set (col := fun q => Z.to_nat (ix index q)).
  assert (IX : forall q, In q quantities -> ix index q = Z.of_nat (col q) /\ mfind sltb q index = Some (Z.of_nat (col q)) /\ column_of labels q (col q)).
  { intros q H. destruct (BI q H) as (i & F & LI). destruct (@labelIndex_column q labels i H LI) as (m & -> & CO).
    assert (Q : col q = m) by (unfold col, ix; rewrite F; apply Nat2Z.id). rewrite Q. unfold ix. rewrite F. auto. }
  exists labels, col. cbn [ep_index ep_values ep_energy ep_binding]. split; [reflexivity|]. split; [exact N|]. split; [exact L15|]. split; [exact SI|]. split; [intros q H; apply IX, H|]. split.
  { intros q i. rewrite <- (smfind_In q i SI). split.
    - intros F. destruct (in_dec string_dec q quantities) as [H|H]; [|rewrite BN in F by exact H; discriminate]. split; [exact H|]. destruct (IX q H) as (_ & F' & _). rewrite F in F'. injection F' as ->. reflexivity.
    - intros [H ->]. apply IX, H. }
  destruct (fun A => @loadScans_stored strtod sf labels index (seq 0 n) (resize [] n []) (resize [] n []) values energy (seq_NoDup n 0) A LS) as (L1 & L2 & A & _).
  { intros i Hi. apply in_seq in Hi. rewrite !resize_length. lia. }
  split; [rewrite L1; apply resize_length|]. split; [rewrite L2; apply resize_length|]. split; [reflexivity|]. intros i Hi.
  destruct (A i) as (rows & en & V & EN & LO); [apply in_seq; lia|].
  destruct (@loadScan_stored strtod sf labels index col (fun q H => proj1 (IX q H)) i rows en LO) as (GL & file & GD & -> & ST).
  split; [exact GL|]. exists file, rows. auto.
Qed.

(** *** Files that load *)
Lemma vgetZ_total (v : list R) n : (n < length v)%nat -> vgetZ v (Z.of_nat n) = Ok (at_col v n).
Proof. intros H. unfold vgetZ. destruct (Z.ltb_spec (Z.of_nat n) 0); [lia|]. rewrite Nat2Z.id. apply vget_nth. exact H. Qed.
Lemma normalize_total index (col : string -> nat) i file : (forall q, In q quantities -> ix index q = Z.of_nat (col q)) ->
  (forall q, In q quantities -> (col q < length file)%nat) -> exists row, normalize index i file = Ok row.
Proof.
  intros IX L. unfold normalize. cbv zeta. rewrite !IX by (cbn; tauto). rewrite ?Nat2Z.id. toR.
  assert (G : forall q v, In q quantities -> length v = length file -> vgetZ v (Z.of_nat (col q)) = Ok (at_col v (col q))) by (intros q v H LV; apply vgetZ_total; rewrite LV; apply L, H).
  rewrite !(G _ file) by (try reflexivity; cbn; tauto). cbn [rbind].
  match goal with |- context [vset file (col "photoelectric") ?v] => set (row1 := vset file (col "photoelectric") v) end.
  assert (L1 : length row1 = length file) by apply vset_length.
  rewrite !(G _ row1) by (try exact L1; cbn; tauto). cbn [rbind].
  match goal with |- exists row, rbind ?t _ = _ => assert (S2 : exists row2, t = Ok row2 /\ length row2 = length file) end.
  { match goal with |- exists row2, (if ?c then _ else _) = _ /\ _ => destruct c end.
    - cbn [rbind]. match goal with |- exists row2, (if ?c then _ else _) = _ /\ _ => destruct c end; cbn [rbind]; (eexists; split; [reflexivity|rewrite vset_length; exact L1]).
    - eexists; split; [reflexivity|rewrite vset_length; exact L1]. }
  destruct S2 as (row2 & E2 & L2). rewrite E2. cbn [rbind]. rewrite (G _ row2) by (try exact L2; cbn; tauto). cbn [rbind]. eexists. reflexivity.
Qed.
Lemma buildIndex_total ns labels : (forall q, In q ns -> labelIndex (searchKey q) labels 0 <> None) -> forall m, exists m', buildIndex ns labels m = (m', Ok tt).
Proof.
  induction ns as [|n ns IH]; intros H m; cbn [buildIndex]; [eexists; reflexivity|].
  destruct (labelIndex (searchKey n) labels 0) eqn:E; [|exfalso; apply (H n); [left; reflexivity|exact E]]. apply IH. intros q Q. apply H. right. exact Q.
Qed.
Lemma loadScans_total (strtod : text -> R) sf labels index : forall todo values energy, (forall i, In i todo -> exists p, loadScan strtod sf labels index i = Ok p) ->
  exists values' energy', loadScans strtod sf labels index todo values energy = (values', energy', Ok tt).
Proof.
  induction todo as [|i todo IH]; intros values energy H; cbn [loadScans]; [eexists; eexists; reflexivity|].
  destruct (H i (or_introl eq_refl)) as [[v e] ->]. apply IH. intros j J. apply H. right. exact J.
Qed.
Lemma column_bound labels q n : column_of labels q n -> (n < length labels)%nat.
Proof. intros [(l & E & _) _]. apply nth_error_Some. congruence. Qed.
Lemma cross_loads (strtod : text -> R) ep f labels : ep_index ep = [] ->
  let sf := setFileName f in let n := getNumberOfScans sf in
  (99 <= n)%nat -> (15 <= length labels)%nat -> (forall q, In q quantities -> exists l, In l labels /\ names q l) ->
  (forall i, (i < n)%nat -> getScanLabels sf i = Ok labels /\ exists file, getScanData strtod sf i = Ok file /\ Forall (fun r => length r = length labels) file) ->
  exists ep', loadCrossSections strtod ep f = (ep', Ok tt).
Proof.
  intros EI sf n N L15 NM SC. unfold loadCrossSections. fold sf. fold n. destruct (Nat.ltb_spec n 99) as [|_]; [lia|].
  destruct (SC 0%nat) as [L0 _]; [lia|]. rewrite L0. cbv zeta. destruct (Nat.ltb_spec (length labels) 15) as [|_]; [lia|]. rewrite EI.
  destruct (@buildIndex_total interestingLabels labels) with (m := @nil (string * Z)) as [index B].
  { intros q Q C. destruct (NM q Q) as (l & Hl & NA). apply (@labelMatches_iff q l Q) in NA. rewrite (proj1 (labelIndex_none (searchKey q) labels 0) C l Hl) in NA. discriminate. }
  rewrite B. destruct (@buildIndex_ok interestingLabels labels quantities_NoDup [] index (@smsorted_nil Z) B) as [BI _].
  set (col := fun q => Z.to_nat (ix index q)).
  assert (IX : forall q, In q quantities -> ix index q = Z.of_nat (col q) /\ (col q < length labels)%nat).
  { intros q H. destruct (BI q H) as (i & F & LI). destruct (@labelIndex_column q labels i H LI) as (m & -> & CO).
    assert (Q : col q = m) by (unfold col, ix; rewrite F; apply Nat2Z.id). rewrite Q. unfold ix. rewrite F. split; [reflexivity|]. eapply column_bound; eauto. }
  match goal with |- context [loadScans strtod sf labels index (seq 0 n) ?v ?e] => destruct (@loadScans_total strtod sf labels index (seq 0 n) v e) as (v' & e' & LS) end.
  { intros i Hi. apply in_seq in Hi. destruct (SC i) as [GL (file & GD & FA)]; [lia|]. unfold loadScan. rewrite GL. cbn [rbind]. rewrite Nat.eqb_refl. cbn [negb].
    replace (forallb _ (combine labels labels)) with true.
    2: { symmetry. clear. induction labels as [|a l IH]; [reflexivity|]. cbn. rewrite String.eqb_refl. exact IH. }
    cbn [negb]. rewrite GD. cbn [rbind]. rewrite (proj1 (IX "energy" ltac:(cbn; tauto))).
    assert (R1 : exists es, rmapM (fun r : list R => vgetZ r (Z.of_nat (col "energy"))) file = Ok es).
    { exists (map (fun r => at_col r (col "energy")) file). apply rmapM_Ok. intros r Hr. apply vgetZ_total. rewrite Forall_forall in FA. pose proof (FA r Hr) as FR. pose proof (proj2 (IX "energy" ltac:(cbn; tauto))) as IE. toR. lia. }
    destruct R1 as [es R1]. toR. rewrite R1. cbn [rbind].
    assert (R2 : exists ns, rmapM (normalize index i) file = Ok ns).
    { clear R1 GD. induction file as [|r file IH]; [eexists; reflexivity|]. inversion FA as [|? ? F1 F2]; subst. destruct (IH F2) as [ns R2].
      destruct (@normalize_total index col i r) as [r' R3]; [intros q H; apply IX, H|intros q H; pose proof (proj2 (IX q H)); toR; lia|].
      exists (r' :: ns). cbn [rmapM]. toR. rewrite R3. cbn [rbind]. rewrite R2. reflexivity. }
    destruct R2 as [ns R2]. toR. rewrite R2. cbn [rbind]. eexists. reflexivity. }
  rewrite LS. eexists. reflexivity.
Qed.
