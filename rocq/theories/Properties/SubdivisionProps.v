(** C77: a layer may be described as two layers of the same material. *)
From Coq Require Import Ascii String List ZArith Reals Bool Arith Lia Lra Permutation.
From Verif Require Import Base.Num Base.Res Base.RSum Base.SMap Base.Str Base.ListLemmas Model.Beam Model.Material Model.TransmissionTable Model.Math Model.Shell Model.Element Model.Elements Model.Layer Model.XRF Model.Multilayer Model.XRFLibrary
  Spec.ShellSpec Spec.ElementSpec Spec.ElementsSpec Spec.BeamSpec Spec.MaterialSpec Spec.LayerSpec Spec.MultilayerSpec Spec.SecondarySpec Spec.LibrarySpec Spec.SuperpositionSpec Spec.SubdivisionSpec Proofs.MathProofs Proofs.BeamProofs Proofs.LayerProofs Proofs.MultilayerProofs Proofs.SuperpositionProofs
  Proofs.ElementsProofs6 Proofs.LibraryProofs Proofs.LibraryProofs2 Proofs.LibraryProofs3 Proofs.LibraryProofs4 Proofs.LibraryExample Properties.LibraryProps
  Properties.MultilayerProps Properties.SuperpositionProps.
Import ListNotations.
Local Open Scope string_scope.
Local Open Scope R_scope.
Local Existing Instance RNum.
Local Ltac toR := change (@num RNum) with R in *.

(** sums and products over the layers when one is split *)
Section Folds.
Variables (k : nat) (g g' : nat -> R).
Hypothesis Below : forall j, (j < k)%nat -> g' j = g j.
Hypothesis Above : forall j, (k < j)%nat -> g' (S j) = g j.
Lemma sum_below i : (i <= k)%nat -> Rsum (map g' (seq 0 i)) = Rsum (map g (seq 0 i)).
Proof. intros H. apply Rsum_ext. intros j J. apply in_seq in J. apply Below. lia. Qed.
Lemma prod_below i : (i <= k)%nat -> Rprod (map g' (seq 0 i)) = Rprod (map g (seq 0 i)).
Proof. intros H. f_equal. apply map_ext_in. intros j J. apply in_seq in J. apply Below. lia. Qed.
Lemma Rprod_app a b : Rprod (a ++ b) = Rprod a * Rprod b.
Proof. induction a as [|x a IH]; cbn; [ring|rewrite IH; ring]. Qed.
Lemma sum_above i : g' k + g' (S k) = g k -> (k < i)%nat -> Rsum (map g' (seq 0 (S i))) = Rsum (map g (seq 0 i)).
Proof.
  intros AT. induction i as [|i IH]; intros H; [lia|]. destruct (Nat.eq_dec i k) as [->|N].
  - rewrite !seq_S, !map_app, !Rsum_app. cbn [map Rsum plus]. rewrite (sum_below k) by lia. rewrite <- AT. ring.
  - assert (Q : forall (h : nat -> R) n, Rsum (map h (seq 0 (S n))) = Rsum (map h (seq 0 n)) + h n) by (intros h n; rewrite seq_S, map_app, Rsum_app; cbn [map Rsum plus]; ring).
    rewrite (Q g' (S i)), (Q g i), IH by lia. rewrite Above by lia. reflexivity.
Qed.
Lemma prod_above i : g' k * g' (S k) = g k -> (k < i)%nat -> Rprod (map g' (seq 0 (S i))) = Rprod (map g (seq 0 i)).
Proof.
  intros AT. induction i as [|i IH]; intros H; [lia|]. destruct (Nat.eq_dec i k) as [->|N].
  - rewrite !seq_S, !map_app, !Rprod_app. cbn [map Rprod plus]. rewrite (prod_below k) by lia. rewrite <- AT. ring.
  - assert (Q : forall (h : nat -> R) n, Rprod (map h (seq 0 (S n))) = Rprod (map h (seq 0 n)) * h n) by (intros h n; rewrite seq_S, map_app, Rprod_app; cbn [map Rprod plus]; ring).
    rewrite (Q g' (S i)), (Q g i), IH by lia. rewrite Above by lia. reflexivity.
Qed.
End Folds.

Lemma one_each {A B} (P : A -> B -> Prop) a l : Forall2 P [a] l -> exists b, l = [b] /\ P a b.
Proof. intros F. inversion F as [|x y l0 l' H F0]; subst. inversion F0. eauto. Qed.

Section Subdivision.
Variables (sortf : list R -> list R) (debug lf : bool) (xl : @xlib RNum) (c : @config RNum).
Variables (top rest : list (@layer RNum)) (X : @layer RNum) (tA tB : R) (reference : option Z).
Hypothesis SAMPLE : c_sample c = (top ++ X :: rest)%list.
Hypothesis SPLIT : tA + tB = l_thickness X.
Hypothesis (PA : 0 < tA) (PB : 0 < tB) (PD : 0 < l_density X) (FF : l_funnyFactor X = 1).
Hypothesis (OUT : 0 < c_alphaOut c < 180).
Local Notation c' := (with_sample c (top ++ of_thickness X tA :: of_thickness X tB :: rest) reference).
Local Notation k := (length top).
Local Notation comps := (sample_compositions xl c).
Local Notation comps' := (sample_compositions xl c').
(** the library knows the coefficients of the layer *)
Hypothesis KNOWN : forall E, exists m, getLayerMu_vec xl c X [E] (comp_at comps k) = Ok m.
Hypothesis AE : answers_each xl.

Lemma layer_below i : (i < k)%nat -> layer_at c' i = layer_at c i.
Proof. intros H. unfold layer_at. rewrite SAMPLE. cbn [c_sample with_sample]. rewrite !app_nth1 by exact H. reflexivity. Qed.
Lemma layer_k : layer_at c k = X.
Proof. unfold layer_at. rewrite SAMPLE, app_nth2, Nat.sub_diag by lia. reflexivity. Qed.
Lemma layer_A : layer_at c' k = of_thickness X tA.
Proof. unfold layer_at. cbn [c_sample with_sample]. rewrite app_nth2, Nat.sub_diag by lia. reflexivity. Qed.
Lemma layer_B : layer_at c' (S k) = of_thickness X tB.
Proof. unfold layer_at. cbn [c_sample with_sample]. rewrite app_nth2 by lia. replace (S k - k)%nat with 1%nat by lia. reflexivity. Qed.
Lemma layer_above i : (k < i)%nat -> layer_at c' (S i) = layer_at c i.
Proof.
  intros H. unfold layer_at. rewrite SAMPLE. cbn [c_sample with_sample]. rewrite !app_nth2 by lia.
  assert (Q : exists j, (i - k)%nat = S j /\ (S i - k)%nat = S (S j)) by (exists (i - k - 1)%nat; lia). destruct Q as (j & -> & ->). reflexivity.
Qed.
Lemma comps_split : exists ct x cr, length ct = k /\ comps = (ct ++ x :: cr)%list /\ comps' = (ct ++ x :: x :: cr)%list.
Proof.
  unfold sample_compositions. rewrite SAMPLE. cbn [c_sample with_sample]. rewrite !map_app. cbn [map].
  eexists. eexists. eexists. split; [|split; reflexivity]. rewrite map_length. reflexivity.
Qed.
Lemma comp_below i : (i <= k)%nat -> comp_at comps' i = comp_at comps i.
Proof.
  intros H. destruct comps_split as (ct & x & cr & L & -> & ->). unfold comp_at. destruct (Nat.eq_dec i k) as [->|N].
  - rewrite !app_nth2 by lia. rewrite L, Nat.sub_diag. reflexivity.
  - rewrite !app_nth1 by lia. reflexivity.
Qed.
Lemma comp_above i : (k <= i)%nat -> comp_at comps' (S i) = comp_at comps i.
Proof.
  intros H. destruct comps_split as (ct & x & cr & L & -> & ->). unfold comp_at. rewrite !app_nth2 by lia.
  replace (S i - length ct)%nat with (S (i - k)) by lia. replace (i - length ct)%nat with (i - k)%nat by lia. cbn [nth]. destruct (i - k)%nat; reflexivity.
Qed.
Lemma mu_below i E : (i <= k)%nat -> mu_at xl c' comps' i E = mu_at xl c comps i E.
Proof.
  intros H. unfold mu_at. rewrite comp_below by exact H. destruct (Nat.eq_dec i k) as [->|N].
  - rewrite layer_k, layer_A. reflexivity.
  - rewrite layer_below by lia. reflexivity.
Qed.
Lemma mu_above i E : (k <= i)%nat -> mu_at xl c' comps' (S i) E = mu_at xl c comps i E.
Proof.
  intros H. unfold mu_at. rewrite comp_above by exact H. destruct (Nat.eq_dec i k) as [->|N].
  - rewrite layer_k, layer_B. reflexivity.
  - rewrite layer_above by lia. reflexivity.
Qed.
Lemma mass_below i : (i < k)%nat -> mass_thickness c' i = mass_thickness c i.
Proof. intros H. unfold mass_thickness. rewrite layer_below by exact H. reflexivity. Qed.
Lemma mass_above i : (k < i)%nat -> mass_thickness c' (S i) = mass_thickness c i.
Proof. intros H. unfold mass_thickness. rewrite layer_above by exact H. reflexivity. Qed.
Lemma mass_split : mass_thickness c' k + mass_thickness c' (S k) = mass_thickness c k.
Proof. unfold mass_thickness. rewrite layer_A, layer_B, layer_k. cbn [l_density l_thickness of_thickness]. rewrite <- SPLIT. toR. ring. Qed.

(** the beam above and below *)
Local Notation part E := (fun j => mass_thickness c j * mu_at xl c comps j E / sin_degrees (c_alphaIn c)).
Local Notation part' E := (fun j => mass_thickness c' j * mu_at xl c' comps' j E / sin_degrees (c_alphaIn c)).
Lemma beam_below i E : (i <= k)%nat -> beam_at xl c' comps' i E = beam_at xl c comps i E.
Proof.
  intros H. unfold beam_at. do 2 f_equal. apply (sum_below k (part E) (part' E)); [|exact H]. intros j J. rewrite mass_below, mu_below by lia. reflexivity.
Qed.
Lemma beam_above i E : (k < i)%nat -> beam_at xl c' comps' (S i) E = beam_at xl c comps i E.
Proof.
  intros H. unfold beam_at. do 2 f_equal. apply (sum_above k (part E) (part' E)); [| | |exact H].
  - intros j J. rewrite mass_below, mu_below by lia. reflexivity.
  - intros j J. rewrite mass_above, mu_above by lia. reflexivity.
  - rewrite (mu_below k), (mu_above k) by lia. rewrite <- mass_split. unfold Rdiv. ring.
Qed.
Lemma beam_middle E : beam_at xl c' comps' (S k) E = beam_at xl c comps k E * exp (- (mass_thickness c' k * (mu_at xl c comps k E / sin_degrees (c_alphaIn c)))).
Proof.
  rewrite <- (beam_below k) by lia. unfold beam_at. rewrite seq_S, map_app, Rsum_app. cbn [map Rsum plus]. rewrite Ropp_plus_distr, exp_plus. f_equal. f_equal.
  rewrite (mu_below k) by lia. cbn [c_alphaIn with_sample]. unfold Rdiv. ring.
Qed.

(** what leaves the sample *)
Lemma transmission_X t comp E : 0 < t -> comp = comp_at comps k ->
  getLayerTransmission xl c' (of_thickness X t) E (c_alphaOut c) comp = Ok (exp (- (l_density X * t * (mu_at xl c comps k E / sin_degrees (c_alphaOut c))))).
Proof.
  intros T ->. assert (S : 0 < sin (c_alphaOut c * PI / 180)). { apply sin_gt_0; [|].
    - pose proof PI_RGT_0. apply Rdiv_lt_0_compat; [|lra]. apply Rmult_lt_0_compat; [exact (proj1 OUT)|assumption].
    - pose proof PI_RGT_0 as P. destruct OUT as [O1 O2]. assert (Q : c_alphaOut c * PI < 180 * PI) by (apply Rmult_lt_compat_r; assumption). toR. lra. }
  unfold getLayerTransmission, getLayerTransmission_vec. rewrite pathThickness_R. rewrite (Rabs_pos_eq (c_alphaOut c)) by lra. cbn [l_density l_thickness of_thickness].
  cbn [nleb RNum n0]. destruct (Rleb_spec (l_density X * t / sin (c_alphaOut c * PI / 180)) 0) as [Q|_].
  { exfalso. assert (0 < l_density X * t / sin (c_alphaOut c * PI / 180)) by (apply Rdiv_lt_0_compat; [apply Rmult_lt_0_compat|]; assumption). toR. lra. }
  change (getLayerMu_vec xl c' (of_thickness X t) [E] (comp_at comps k)) with (getLayerMu_vec xl c X [E] (comp_at comps k)). destruct (KNOWN E) as [m M]. 
  assert (V : vval m "total" = [mu_at xl c comps k E]).
  { unfold mu_at. rewrite layer_k. unfold getLayerMu_vec, getLayerMu in *. destruct (comp_at comps k) as [|x0 l0].
    - destruct (getLayerComposition xl c X) as [kc| | |]; try discriminate. cbn [rbind] in *. pose proof (proj1 (AE kc [E] m "total" (or_introl eq_refl)) M) as F.
      apply one_each in F as (v & -> & t0 & T0 & <-). rewrite T0. reflexivity.
    - pose proof (proj2 (AE (x0 :: l0) [E] m "total" (or_introl eq_refl)) M) as F.
      apply one_each in F as (v & -> & t0 & T0 & <-). rewrite T0. reflexivity. }
  rewrite M. cbn [rbind]. rewrite V. cbn [map vget nth_error]. rewrite attenuate_R. cbn [l_funnyFactor of_thickness]. rewrite FF. unfold beer_lambert.
  cbn. f_equal. unfold sin_degrees. unfold Rdiv. rewrite (Rmult_assoc (c_alphaOut c)). match goal with |- 1 - 1 + 1 * exp ?a = exp ?b => replace a with b by ring end. ring.
Qed.

Local Notation trans EE := (fun j => match getLayerTransmission xl c (layer_at c j) EE (c_alphaOut c) (comp_at comps j) with Ok v => v | _ => 0 end).
Local Notation trans' EE := (fun j => match getLayerTransmission xl c' (layer_at c' j) EE (c_alphaOut c') (comp_at comps' j) with Ok v => v | _ => 0 end).
Lemma trans_below E j : (j < k)%nat -> trans' E j = trans E j.
Proof. intros H. cbn beta. rewrite layer_below by exact H. rewrite comp_below by lia. reflexivity. Qed.
Lemma trans_above E j : (k < j)%nat -> trans' E (S j) = trans E j.
Proof. intros H. cbn beta. rewrite layer_above by exact H. rewrite comp_above by lia. reflexivity. Qed.
Lemma trans_A E : trans' E k = exp (- (l_density X * tA * (mu_at xl c comps k E / sin_degrees (c_alphaOut c)))).
Proof. cbn beta. rewrite layer_A. change (c_alphaOut c') with (c_alphaOut c). rewrite transmission_X; [reflexivity|exact PA|apply comp_below; lia]. Qed.
Lemma trans_B E : trans' E (S k) = exp (- (l_density X * tB * (mu_at xl c comps k E / sin_degrees (c_alphaOut c)))).
Proof. cbn beta. rewrite layer_B. change (c_alphaOut c') with (c_alphaOut c). rewrite transmission_X; [reflexivity|exact PB|apply comp_above; lia]. Qed.
Lemma trans_X E : trans E k = exp (- (l_density X * (tA + tB) * (mu_at xl c comps k E / sin_degrees (c_alphaOut c)))).
Proof.
  cbn beta. rewrite layer_k. assert (Q : X = of_thickness X (tA + tB)) by (rewrite SPLIT; destruct X; reflexivity).
  change (getLayerTransmission xl c X E (c_alphaOut c) (comp_at comps k)) with (getLayerTransmission xl c' X E (c_alphaOut c) (comp_at comps k)).
  pose proof (@transmission_X (tA + tB) (comp_at comps k) E ltac:(lra) eq_refl) as T. rewrite <- Q in T. rewrite T. reflexivity.
Qed.
Lemma leave_below i E : (i <= k)%nat -> leave_at xl c' comps' i E = leave_at xl c comps i E.
Proof. intros H. apply (prod_below k (trans E) (trans' E)); [|exact H]. intros j J. apply trans_below, J. Qed.
Lemma leave_above i E : (k < i)%nat -> leave_at xl c' comps' (S i) E = leave_at xl c comps i E.
Proof.
  intros H. apply (prod_above k (trans E) (trans' E)); [intros j J; apply trans_below, J|intros j J; apply trans_above, J| |exact H].
  rewrite trans_A, trans_B, trans_X, <- exp_plus. f_equal. toR. ring.
Qed.
Lemma leave_middle E : leave_at xl c' comps' (S k) E = leave_at xl c comps k E * exp (- (mass_thickness c' k * (mu_at xl c comps k E / sin_degrees (c_alphaOut c)))).
Proof.
  rewrite <- (leave_below k) by lia. unfold leave_at at 1. rewrite seq_S, map_app, Rprod_app. cbn [map plus]. cbn [Rprod]. rewrite Rmult_1_r. apply Rmult_eq_compat_l. rewrite (trans_A E).
  unfold mass_thickness. rewrite layer_A. reflexivity.
Qed.

(** the detection and the primary photons *)
Lemma detection_split i i' E : nth i' (solid_angles c' 0) 0 = nth i (solid_angles c 0) 0 -> forall x, leave_at xl c' comps' i' E = leave_at xl c comps i E * x ->
  detection xl c' comps' (solid_angles c' 0) i' E = x * detection xl c comps (solid_angles c 0) i E.
Proof.
  intros G x H. unfold detection. rewrite H, G. cbn [c_detector c_attenuators c_userAttenuators with_sample].
  change (fun l => filter_transmission xl c' l E) with (fun l => filter_transmission xl c l E). cbv zeta. toR. ring.
Qed.
Lemma length_split : length (c_sample c') = S (length (c_sample c)).
Proof. rewrite SAMPLE. cbn [c_sample with_sample]. rewrite !app_length. cbn [length]. lia. Qed.
Lemma solid_one c0 i : (i < length (c_sample c0))%nat -> nth i (solid_angles c0 0) 0 = 1.
Proof.
  intros H. unfold solid_angles. change (0 =? 0)%Z with true. rewrite (nth_indep _ 0 1) by (rewrite map_length, seq_length; exact H).
  generalize (seq 0 (length (c_sample c0))). intros l. revert i H. clear. intros i _. revert i. induction l as [|x l IH]; intros [|i]; cbn; auto.
Qed.
Lemma solid_split i i' : ((i < length (c_sample c)) <-> (i' < length (c_sample c')))%nat -> nth i' (solid_angles c' 0) 0 = nth i (solid_angles c 0) 0.
Proof.
  intros H. destruct (Nat.lt_ge_cases i (length (c_sample c))) as [L|L].
  - rewrite (solid_one c i L), (solid_one c' i' (proj1 H L)). reflexivity.
  - rewrite !nth_overflow; [reflexivity| |]; unfold solid_angles; rewrite map_length, seq_length; [exact L|]. apply Nat.nlt_ge. intros Q. apply H in Q. lia.
Qed.

(** ** The calculation, without secondary excitation *)
Variable EL : string -> string -> R.
Hypothesis WF : well_formed xl.
Hypothesis PW : pointwise xl.
Hypothesis LE : line_energies xl EL.
Variables (elements families : list string) (layers : list Z) (useMass : Z) (limit : R) (over : @beam RNum).
Hypothesis WORDS : forall e, In e elements -> one_word e.
Hypothesis POS : forall n, (n < length elements)%nat -> 0 <= threshold xl elements families n.
Hypothesis ALL : forall n, (n < length elements)%nat -> (layer_of layers n < 0)%Z.
Local Notation run c0 := (@getMultilayerFluorescence RNum sortf debug lf xl c0 elements families layers 0 0 useMass limit over).
Local Notation rays := (sample_rays xl c over).

Lemma amount_primary c0 r key i L : one_word L -> run c0 = Ok r ->
  amount r key i L "primary" = Rsum (map (ray_sum xl c0 elements families layers useMass (sample_compositions xl c0) (fun n E w => primary_of xl c0 elements useMass (sample_compositions xl c0) n E w i L (EL (element_of elements n) L)) key i L) (sample_rays xl c0 over)).
Proof.
  intros O R. destruct (@C49_primary sortf debug lf xl c0 EL elements families layers 0 0 useMass limit over r WF PW LE WORDS POS R key i L O) as [EX B].
  unfold amount. destruct (line_entry r key i L) as [t|] eqn:T.
  - exact (proj1 (B t eq_refl)).
  - symmetry. apply not_excited. intros Q. apply (proj2 EX) in Q. congruence.
Qed.
Lemma amount_rate c0 r key i L : one_word L -> run c0 = Ok r -> amount r key i L "rate" = detected xl c0 0 EL key i L * amount r key i L "primary".
Proof.
  intros O R. rewrite (@rate_detected sortf debug lf xl c0 elements families layers 0 0 useMass limit EL WF PW LE WORDS POS over r key i L ltac:(lia) R O).
  assert (Z : amount r key i L "secondary" = 0); [|rewrite Z; ring].
  destruct (@C49_primary sortf debug lf xl c0 EL elements families layers 0 0 useMass limit over r WF PW LE WORDS POS R key i L O) as [_ B].
  unfold amount. destruct (line_entry r key i L) as [t|] eqn:T; [|reflexivity]. destruct (B t eq_refl) as (_ & n & _ & _ & _ & _ & _ & _ & _ & _ & Z). exact (Z ltac:(lia)).
Qed.
(** layer [i] of the sample and layer [i'] of the split one *)
Definition matches (i i' : nat) : Prop := comp_at comps' i' = comp_at comps i /\ ((i < length (c_sample c)) <-> (i' < length (c_sample c')))%nat.
Lemma excites_split i i' n E w key L : matches i i' -> (n < length elements)%nat ->
  excites xl c' elements families layers useMass comps' n E w key i' L = excites xl c elements families layers useMass comps n E w key i L.
Proof.
  intros [H1 H2] N. unfold excites. rewrite H1. rewrite (proj2 (Z.ltb_lt _ _) (ALL n N)). cbn [orb].
  assert (Q : Nat.ltb i' (length (c_sample c')) = Nat.ltb i (length (c_sample c))) by (destruct (Nat.ltb_spec i' (length (c_sample c'))), (Nat.ltb_spec i (length (c_sample c))); try reflexivity; lia).
  rewrite Q. reflexivity.
Qed.
Lemma matches_below i : (i <= k)%nat -> matches i i.
Proof. intros H. split; [apply comp_below, H|]. rewrite length_split, SAMPLE, app_length. cbn [length]. lia. Qed.
Lemma matches_above i : (k <= i)%nat -> matches i (S i).
Proof. intros H. split; [apply comp_above, H|]. rewrite length_split. lia. Qed.
Lemma sum_split (f f' : nat -> R -> R -> R) x i i' key L : matches i i' -> (forall n E w, (n < length elements)%nat -> key = element_of elements n ++ " " ++ family_of families n -> f' n E w = x * f n E w) ->
  Rsum (map (ray_sum xl c' elements families layers useMass comps' f' key i' L) (sample_rays xl c' over)) = x * Rsum (map (ray_sum xl c elements families layers useMass comps f key i L) rays).
Proof.
  intros M F. change (sample_rays xl c' over) with rays. rewrite <- Rsum_mult_l. apply Rsum_ext. intros ray _. unfold ray_sum. rewrite <- Rsum_mult_l. apply Rsum_ext. intros n N. apply in_seq in N.
  rewrite (excites_split i i') by (try assumption; lia). destruct (excites _ _ _ _ _ _ _ _ _ _ _ _ _) eqn:Q; [|ring].
  apply F; [lia|]. unfold excites in Q. repeat (apply andb_prop in Q as [Q _]). apply String.eqb_eq in Q. exact Q.
Qed.
Lemma entry_split r r' key i i' L : matches i i' -> one_word L -> run c = Ok r -> run c' = Ok r' -> (line_entry r' key i' L <> None <-> line_entry r key i L <> None).
Proof.
  intros M O R R'. 
  rewrite (proj1 (@C49_primary sortf debug lf xl c' EL elements families layers 0 0 useMass limit over r' WF PW LE WORDS POS R' key i' L O)).
  rewrite (proj1 (@C49_primary sortf debug lf xl c EL elements families layers 0 0 useMass limit over r WF PW LE WORDS POS R key i L O)).
  split; intros (ray & n & I & N & Q); exists ray, n; (split; [exact I|split; [exact N|]]); [rewrite (excites_split i i') in Q by assumption|rewrite (excites_split i i') by assumption]; exact Q.
Qed.
(** the same primary photons and the same detection: layers other than the one split *)
Lemma other_layer r r' key i i' L : matches i i' -> (forall E, mu_at xl c' comps' i' E = mu_at xl c comps i E) -> mass_thickness c' i' = mass_thickness c i ->
  (forall E, beam_at xl c' comps' i' E = beam_at xl c comps i E) -> (forall E, leave_at xl c' comps' i' E = leave_at xl c comps i E) ->
  one_word L -> run c = Ok r -> run c' = Ok r' ->
  amount r' key i' L "primary" = amount r key i L "primary" /\ amount r' key i' L "rate" = amount r key i L "rate".
Proof.
  intros M MU MT BE LV O R R'.
  assert (P : amount r' key i' L "primary" = amount r key i L "primary").
  { rewrite (amount_primary c' r' key i' L O R'), (amount_primary c r key i L O R).
    rewrite (sum_split (fun n E w => primary_of xl c elements useMass comps n E w i L (EL (element_of elements n) L)) _ 1 i i'); [ring|exact M|].
    intros n E w N _. unfold primary_of. rewrite !MU, MT, BE, (proj1 M). change (c_alphaIn c') with (c_alphaIn c). change (c_alphaOut c') with (c_alphaOut c). cbv zeta. toR. ring. }
  split; [exact P|]. rewrite (amount_rate c' r' key i' L O R'), (amount_rate c r key i L O R), P. f_equal. unfold detected.
  rewrite (detection_split i i' (EL (first_word key) L) (solid_split i i' (proj2 M)) 1) by (rewrite LV; ring). cbv zeta. change (c_detector c') with (c_detector c). toR. ring.
Qed.
(** the two halves *)
Lemma split_layer r r' key L : one_word L -> run c = Ok r -> run c' = Ok r' ->
  amount r' key k L "rate" + amount r' key (S k) L "rate" = amount r key k L "rate".
Proof.
  intros O R R'. set (e := EL (first_word key) L).
  rewrite (amount_rate c' r' key k L O R'), (amount_rate c' r' key (S k) L O R'), (amount_rate c r key k L O R). unfold detected. fold e. cbv zeta.
  rewrite (detection_split k k e (solid_split k k (proj2 (matches_below k (le_n _)))) 1) by (rewrite leave_below by lia; ring).
  rewrite (detection_split k (S k) e (solid_split k (S k) (proj2 (matches_above k (le_n _)))) _ (leave_middle e)). change (c_detector c') with (c_detector c).
  set (esc := 1 - _). set (D := detection _ _ _ _ _ _). set (y := exp _).
  assert (G : amount r' key k L "primary" + y * amount r' key (S k) L "primary" = amount r key k L "primary").
  { rewrite (amount_primary c' r' key k L O R'), (amount_primary c' r' key (S k) L O R'), (amount_primary c r key k L O R).
    set (fX := fun n E w => primary_of xl c elements useMass comps n E w k L (EL (element_of elements n) L)).
    set (fA := fun n E w => primary_of xl c' elements useMass comps' n E w k L (EL (element_of elements n) L)).
    set (fB := fun n E w => primary_of xl c' elements useMass comps' n E w (S k) L (EL (element_of elements n) L)).
    rewrite (sum_split fA fA 1 k k key L (matches_below k (le_n _))) by (intros; ring).
    rewrite (sum_split fB fB 1 k (S k) key L (matches_above k (le_n _))) by (intros; ring). rewrite !Rmult_1_l, <- Rsum_mult_l, <- Rsum_plus. apply Rsum_ext. intros ray _.
    unfold ray_sum. rewrite <- Rsum_mult_l, <- Rsum_plus. apply Rsum_ext. intros n N. apply in_seq in N.
    destruct (excites _ _ _ _ _ _ _ _ _ _ _ _ _) eqn:Q; [|ring].
    unfold excites in Q. repeat (apply andb_prop in Q as [Q _]). apply String.eqb_eq in Q.
    assert (FW : first_word key = element_of elements n) by (rewrite Q; apply first_word_cut, WORDS; unfold element_of; apply nth_In; lia).
    unfold fX, fA, fB, primary_of. subst y. subst e. rewrite FW. set (e := EL (element_of elements n) L). set (E := fst ray).
    rewrite (beam_below k) by lia. rewrite beam_middle. rewrite !(mu_below k), !(mu_above k) by lia. rewrite (comp_below k), (comp_above k) by lia.
    change (c_alphaIn c') with (c_alphaIn c). change (c_alphaOut c') with (c_alphaOut c). cbv zeta.
    rewrite <- mass_split. set (mA := mass_thickness c' k). set (mB := mass_thickness c' (S k)). set (u := mu_at xl c comps k E / _). set (v := mu_at xl c comps k e / _).
    assert (X1 : exp (- (u + v) * (mA + mB)) = exp (- (mA * v)) * exp (- (mA * u)) * exp (- (u + v) * mB)) by (rewrite <- !exp_plus; f_equal; toR; ring).
    assert (X2 : exp (- (u + v) * mA) = exp (- (mA * v)) * exp (- (mA * u))) by (rewrite <- exp_plus; f_equal; toR; ring).
    toR. rewrite X1, X2. unfold Rdiv. ring. }
  rewrite <- G. toR. ring.
Qed.

(** The layers above and below are not touched, the rates of the two halves add up to that of the layer, and
    so do the rates of the whole sample; the lines are the same. *)
Theorem C77_subdivision r r' : run c = Ok r -> run c' = Ok r' ->
  forall key L, one_word L ->
  (forall i, (i < k)%nat -> amount r' key i L "rate" = amount r key i L "rate" /\ amount r' key i L "primary" = amount r key i L "primary") /\
  amount r' key k L "rate" + amount r' key (S k) L "rate" = amount r key k L "rate" /\
  (forall i, (k < i)%nat -> amount r' key (S i) L "rate" = amount r key i L "rate" /\ amount r' key (S i) L "primary" = amount r key i L "primary") /\
  Rsum (map (fun i => amount r' key i L "rate") (seq 0 (length (c_sample c')))) = Rsum (map (fun i => amount r key i L "rate") (seq 0 (length (c_sample c)))) /\
  (forall i, (i <= k)%nat -> (line_entry r' key i L <> None <-> line_entry r key i L <> None)) /\
  (forall i, (k <= i)%nat -> (line_entry r' key (S i) L <> None <-> line_entry r key i L <> None)).
Proof.
  intros R R' key L O.
  assert (BELOW : forall i, (i < k)%nat -> amount r' key i L "rate" = amount r key i L "rate" /\ amount r' key i L "primary" = amount r key i L "primary").
  { intros i I. apply and_comm. apply (other_layer r r' key i i L); try assumption.
    - apply matches_below; lia.
    - intros E. apply mu_below; lia.
    - apply mass_below; exact I.
    - intros E. apply beam_below; lia.
    - intros E. apply leave_below; lia. }
  assert (ABOVE : forall i, (k < i)%nat -> amount r' key (S i) L "rate" = amount r key i L "rate" /\ amount r' key (S i) L "primary" = amount r key i L "primary").
  { intros i I. apply and_comm. apply (other_layer r r' key i (S i) L); try assumption.
    - apply matches_above; lia.
    - intros E. apply mu_above; lia.
    - apply mass_above; exact I.
    - intros E. apply beam_above; exact I.
    - intros E. apply leave_above; exact I. }
  pose proof (split_layer r r' key L O R R') as AT.
  split; [exact BELOW|]. split; [exact AT|]. split; [exact ABOVE|]. split; [|split].
  - rewrite length_split. apply (sum_above k (fun i => amount r key i L "rate") (fun i => amount r' key i L "rate")).
    + intros j J. exact (proj1 (BELOW j J)).
    + intros j J. exact (proj1 (ABOVE j J)).
    + exact AT.
    + rewrite SAMPLE, app_length. cbn [length]. lia.
  - intros i I. apply (entry_split r r' key i i L); try assumption. apply matches_below, I.
  - intros i I. apply (entry_split r r' key i (S i) L); try assumption. apply matches_above, I.
Qed.
End Subdivision.
Print Assumptions C77_subdivision.

(** The same with the class Elements as library: with complete data both calculations answer. *)
Theorem C77_library (tostr : R -> string) (depth fuel : nat) (lf : bool) (ops : list (@es_op RNum)) (sortf : list (string * R) -> list (string * R))
  (sortr : list R -> list R) (debug lfd : bool) (c : @config RNum) top X rest (tA tB : R) reference elements families layers useMass limit over :
  let es := es_run tostr depth fuel lf elements_empty ops in let xl := @xlib_of RNum tostr depth fuel sortf es in
  let c' := with_sample c (top ++ of_thickness X tA :: of_thickness X tB :: rest) reference in let k := length top in
  let run c0 := @getMultilayerFluorescence RNum sortr debug lfd xl c0 elements families layers 0 0 useMass limit over in
  plain_library es -> complete_library tostr depth fuel es -> std_sort_contract (fun a b : string * R => Rltb (snd a) (snd b)) sortf ->
  complete_config tostr depth fuel sortf es c elements families layers 0 ->
  c_sample c = (top ++ X :: rest)%list -> l_funnyFactor X = 1 -> 0 < tA -> 0 < tB -> tA + tB = l_thickness X -> 0 < c_alphaOut c < 180 ->
  (forall n, (n < length elements)%nat -> (layer_of layers n < 0)%Z) ->
  exists r r', run c = Ok r /\ run c' = Ok r' /\ forall key L, one_word L ->
  (forall i, (i < k)%nat -> amount r' key i L "rate" = amount r key i L "rate" /\ amount r' key i L "primary" = amount r key i L "primary") /\
  amount r' key k L "rate" + amount r' key (S k) L "rate" = amount r key k L "rate" /\
  (forall i, (k < i)%nat -> amount r' key (S i) L "rate" = amount r key i L "rate" /\ amount r' key (S i) L "primary" = amount r key i L "primary") /\
  Rsum (map (fun i => amount r' key i L "rate") (seq 0 (length (c_sample c')))) = Rsum (map (fun i => amount r key i L "rate") (seq 0 (length (c_sample c)))) /\
  (forall i, (i <= k)%nat -> (line_entry r' key i L <> None <-> line_entry r key i L <> None)) /\
  (forall i, (k <= i)%nat -> (line_entry r' key (S i) L <> None <-> line_entry r key i L <> None)).
Proof.
  intros es xl c' k run PL CL SORT CC SAMPLE FF PA PB SPLIT OUT ALL.
  assert (KN : 0 < l_density X /\ 0 < l_thickness X /\ exists k, getLayerComposition xl c X = Ok k /\ known es k).
  { apply (cc_known _ _ _ _ _ _ _ _ _ _ CC). apply in_or_app. left. rewrite SAMPLE. apply in_or_app. right. left. reflexivity. }
  assert (CC' : complete_config tostr depth fuel sortf es c' elements families layers 0).
  { destruct CC as [A B C D E F G H I]. constructor; try assumption; [left; reflexivity|].
    intros l J. destruct KN as (K1 & _ & K3). assert (Q : l = of_thickness X tA \/ l = of_thickness X tB \/ In l (c_sample c ++ c_filters c ++ c_attenuators c)%list).
    { apply in_app_or in J as [J|J]; [|right; right; apply in_or_app; right; exact J]. cbn [c_sample with_sample c'] in J. apply in_app_or in J as [J|[J|[J|J]]]; auto;
      right; right; apply in_or_app; left; rewrite SAMPLE; apply in_or_app; [left|right; right]; exact J. }
    destruct Q as [->|[->|Q]]; [split; [exact K1|split; [exact PA|exact K3]]|split; [exact K1|split; [exact PB|exact K3]]|exact (F l Q)]. }
  destruct (C53_answers tostr depth fuel lf ops sortf sortr debug lfd c elements families layers 0 0 useMass limit over PL CL SORT CC (or_introl (Z.le_refl 0))) as [r R].
  destruct (C53_answers tostr depth fuel lf ops sortf sortr debug lfd c' elements families layers 0 0 useMass limit over PL CL SORT CC' (or_introl (Z.le_refl 0))) as [r' R'].
  exists r, r'. split; [exact R|]. split; [exact R'|]. destruct KN as (PD & _ & kc & HK & KK).
  assert (WORDS : forall e, In e elements -> one_word e) by (intros e I; exact (proj1 (cc_elements _ _ _ _ _ _ _ _ _ _ CC e I))).
  refine (@C77_subdivision sortr debug lfd xl c top rest X tA tB reference SAMPLE SPLIT PA PB PD FF OUT _ (library_answers_each _ _ _ _ _) (line_energy_in es)
    (library_well_formed _ _ _ _ PL) (library_pointwise _ _ _ _ _) (library_line_energies _ _ _ _ PL) elements families layers useMass limit over WORDS
    (fun n _ => thresholds_nonneg tostr depth fuel lf ops sortf elements families n PL) ALL r r' R R').
  intros E. assert (CK : comp_at (sample_compositions xl c) (length top) = kc).
  { unfold comp_at, sample_compositions. rewrite SAMPLE, map_app. cbn [map]. rewrite app_nth2; rewrite map_length; [|lia]. rewrite Nat.sub_diag. cbn [nth]. toR. rewrite HK. reflexivity. }
  rewrite CK. destruct (@layer_muv_total tostr depth fuel sortf es PL CL c X kc [E]) as (m & HM & _); [intros _; exists kc; auto|intros _; exact KK|]. exists m. exact HM.
Qed.
Print Assumptions C77_library.

(** The iron sample of C53 (10 thick) as a layer of 4 and one of 6. *)
Section Example77.
Variables (tostr : R -> string) (lf : bool) (sortf : list (string * R) -> list (string * R)).
Hypothesis SORT : std_sort_contract (fun a b : string * R => Rltb (snd a) (snd b)) sortf.
Local Notation es := (es_run tostr 1 1 lf elements_empty C53_history).
Local Notation xl := (@xlib_of RNum tostr 1 1 sortf es).
Theorem C77_example sortr debug lfd limit :
  let run c := @getMultilayerFluorescence RNum sortr debug lfd xl c ["Fe"] ["K"] [(-1)%Z] 0 0 0 limit beam_init in
  let Fe t := @layer_new RNum "Fe" 1 t 1 in
  c_sample C53_config = [Fe 10] /\
  exists r r', run C53_config = Ok r /\ run (with_sample C53_config [Fe 4; Fe 6] (Some 0%Z)) = Ok r' /\
    line_entry r "Fe K" 0 "KL3" <> None /\ line_entry r' "Fe K" 0 "KL3" <> None /\ line_entry r' "Fe K" 1 "KL3" <> None /\
    amount r' "Fe K" 0 "KL3" "rate" + amount r' "Fe K" 1 "KL3" "rate" = amount r "Fe K" 0 "KL3" "rate".
Proof.
  intros run Fe. split; [reflexivity|].
  destruct (C53_example tostr lf sortf SORT sortr debug lfd 0%Z limit) as (PL & CL & CC & r0 & H0 & L0).
  assert (CC0 : complete_config tostr 1 1 sortf es C53_config ["Fe"] ["K"] [(-1)%Z] 0).
  { destruct CC as [CA CB CN CE CS CK CO CD CF]. constructor; try assumption; left; reflexivity. }
  destruct (C77_library tostr 1 1 lf C53_history sortf sortr debug lfd C53_config [] (Fe 10) [] 4 6 (Some 0%Z) ["Fe"] ["K"] [(-1)%Z] 0 limit beam_init PL CL SORT CC0) as (r & r' & R & R' & H).
  - reflexivity.
  - reflexivity.
  - lra.
  - lra.
  - unfold Fe. cbn [l_thickness layer_new]. toR. lra.
  - cbn [c_alphaOut C53_config]. toR. lra.
  - intros n N. cbn in N. assert (n = 0%nat) by lia. subst n. reflexivity.
  - exists r, r'. split; [exact R|]. split; [exact R'|]. destruct (H "Fe K" "KL3" eq_refl) as (_ & SUM & _ & _ & EA & EB).
    assert (L : line_entry r "Fe K" 0 "KL3" <> None).
    { assert (W : forall e, In e ["Fe"] -> one_word e) by (intros e [<-|[]]; reflexivity).
      apply (C53_primary tostr 1 1 lf C53_history sortf sortr debug lfd C53_config ["Fe"] ["K"] [0%Z] 0 1 0 limit beam_init r0 PL W H0 "Fe K" 0%nat "KL3" eq_refl) in L0.
      apply (C53_primary tostr 1 1 lf C53_history sortf sortr debug lfd C53_config ["Fe"] ["K"] [(-1)%Z] 0 0 0 limit beam_init r PL W R "Fe K" 0%nat "KL3" eq_refl).
      destruct L0 as (ray & n & I & N & X). exists ray, n. split; [exact I|]. split; [exact N|]. cbn in N. assert (n = 0%nat) by lia. subst n. exact X. }
    split; [exact L|]. split; [apply EA; [apply Nat.le_refl|exact L]|]. split; [apply EB; [apply Nat.le_refl|exact L]|]. exact SUM.
Qed.
End Example77.
Print Assumptions C77_example.
