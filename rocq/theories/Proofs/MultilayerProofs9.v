(** Multilayer: beam filters. *)
From Coq Require Import Ascii String List ZArith Reals Bool Arith Lia Lra Permutation.
From Verif Require Import Base.Num Base.Res Base.RSum Base.SMap Base.Str Base.ListLemmas Model.Beam Model.Material Model.TransmissionTable
  Model.Math Model.Shell Model.Element Model.Layer Model.XRF Model.Multilayer Spec.MultilayerSpec Proofs.MultilayerProofs Proofs.MultilayerProofs2 Proofs.MultilayerProofs3.
Import ListNotations.
Set Implicit Arguments.
Local Open Scope string_scope.
Local Open Scope R_scope.
Local Existing Instance RNum.

Lemma mulVec_Ok (w v : list R) : (length w <= length v)%nat -> mulVec w v = Ok (map (fun p => fst p * snd p) (combine w v)).
Proof.
  revert v. induction w as [|a w IH]; intros v H; [reflexivity|]. destruct v as [|b v]; cbn in H; [lia|]. cbn [mulVec combine map]. 
  toR. rewrite IH by lia. reflexivity.
Qed.
Lemma mulVec_inv (w v r : list R) : mulVec w v = Ok r -> (length w <= length v)%nat /\ length r = length w /\
  forall k, nth k r 0 = nth k w 0 * nth k v 0.
Proof.
  revert v r. induction w as [|a w IH]; intros v r H; cbn in H.
  - injection H as <-. cbn. repeat split; [lia|]. intros [|k]; lra.
  - destruct v as [|b v]; [discriminate|]. obind H x X. injection H as <-. destruct (IH _ _ X) as (A & B & C). cbn. repeat split; [lia|lia|].
    intros [|k]; [reflexivity|apply C].
Qed.
Lemma list_ext (a b : list R) : length a = length b -> (forall k, nth k a 0 = nth k b 0) -> a = b.
Proof.
  revert b. induction a as [|x a IH]; intros [|y b] L H; try discriminate; [reflexivity|]. f_equal; [exact (H 0%nat)|].
  apply IH; [cbn in L; lia|]. intros k. exact (H (S k)).
Qed.
Lemma mulVec_swap (w a b w1 w2 : list R) : mulVec w a = Ok w1 -> mulVec w1 b = Ok w2 -> exists w1', mulVec w b = Ok w1' /\ mulVec w1' a = Ok w2.
Proof.
  intros H1 H2. destruct (mulVec_inv _ _ H1) as (A & B & C). destruct (mulVec_inv _ _ H2) as (A' & B' & C').
  assert (L : (length w <= length b)%nat) by lia. rewrite mulVec_Ok by exact L. eexists. split; [reflexivity|].
  set (w1' := map (fun p => fst p * snd p) (combine w b)).
  assert (Q : mulVec w b = Ok w1') by (apply mulVec_Ok, L). destruct (mulVec_inv _ _ Q) as (D & E & F). clearbody w1'.
  assert (L2 : (length w1' <= length a)%nat) by lia. rewrite mulVec_Ok by exact L2. f_equal.
  set (r := map _ _). assert (Q2 : mulVec w1' a = Ok r) by (apply mulVec_Ok, L2). destruct (mulVec_inv _ _ Q2) as (G & H & K). clearbody r.
  apply list_ext; [lia|]. intros k. rewrite K, F, C', C. ring.
Qed.
Lemma fold_mul_perm {A} (T : A -> res (list R)) l l' : Permutation l l' -> forall w w',
  rfold (fun w x => rbind (T x) (mulVec w)) l w = Ok w' -> rfold (fun w x => rbind (T x) (mulVec w)) l' w = Ok w'.
Proof.
  induction 1 as [|x l l' P IH|x y l|l1 l2 l3 P1 IH1 P2 IH2]; intros w w' H.
  - exact H.
  - cbn [rfold] in *. obind H w1 W1. cbn [rbind]. apply IH, H.
  - cbn [rfold] in *. obind H w1 W1. obind H w2 W2. destruct (T y) as [ty| | |]; try discriminate. destruct (T x) as [tx| | |]; try discriminate.
    cbn [rbind] in *. destruct (mulVec_swap _ _ _ W1 W2) as (w1' & Q1 & Q2). rewrite Q1. cbn [rbind]. rewrite Q2. cbn [rbind]. exact H.
  - apply IH2, IH1, H.
Qed.

Lemma filtered_perm xl c F U Es ws w' : Permutation (c_filters c) F -> Permutation (c_userFilters c) U ->
  filteredWeights xl c Es ws = Ok w' -> filteredWeights xl (setBeamFilters (setUserBeamFilters c U) F) Es ws = Ok w'.
Proof.
  intros PF PU H. unfold filteredWeights in *. obind H w1 W1. cbn [c_filters c_userFilters setBeamFilters setUserBeamFilters].
  assert (A := @fold_mul_perm _ (fun l => getLayerTransmission_vec xl c l Es (nlit 90 0) []) _ _ PF _ _ W1).
  refine (eq_trans (f_equal (fun z => rbind z _) A) _). cbn [rbind].
  exact (@fold_mul_perm _ (fun t => Ok (TransmissionTable.getTransmission_vec t Es)) _ _ PU _ _ H).
Qed.

(** ** The product *)
Lemma fold_mul_product {A} (T : A -> res (list R)) (f : A -> R -> R) Es : (forall x v, T x = Ok v -> v = map (f x) Es) -> forall l w w',
  rfold (fun w x => rbind (T x) (mulVec w)) l w = Ok w' ->
  length w' = length w /\ forall k E, nth_error Es k = Some E -> nth k w' 0 = nth k w 0 * Rprod (map (fun x => f x E) l).
Proof.
  intros HT. induction l as [|x l IH]; intros w w' H; cbn [rfold] in H.
  - injection H as <-. split; [reflexivity|]. intros. cbn. ring.
  - obind H w1 W1. destruct (T x) as [v| | |] eqn:TX; try discriminate. cbn [rbind] in W1. destruct (mulVec_inv _ _ W1) as (A1 & B1 & C1).
    destruct (IH _ _ H) as [A2 B2]. split; [exact (eq_trans A2 B1)|]. intros k E HE. rewrite (B2 k E HE), C1. rewrite (HT _ _ TX).
    assert (N : nth k (map (f x) Es) 0 = f x E) by (apply nth_error_nth; rewrite nth_error_map, HE; reflexivity).
    rewrite N. cbn [map Rprod]. rring.
Qed.

Lemma transmission_pointwise xl c l Es v : pointwise xl -> getLayerTransmission_vec xl c l Es (nlit 90 0) [] = Ok v ->
  v = map (filter_transmission xl c l) Es.
Proof.
  intros PW H. unfold filter_transmission, getLayerTransmission, getLayerTransmission_vec in *.
  destruct (pathThickness l (nlit 90 0) <=? n0)%num; [discriminate|]. unfold getLayerMu_vec in *.
  obind H m M. injection H as <-. obind M k K.
  pose proof (PW k Es m (or_introl M)) as F.
  assert (G : forall E v0, (exists m', x_muv xl k [E] = Ok m' /\ vval m' "total" = [v0]) ->
     match rbind (rbind (x_muv xl k [E]) (fun m0 => Ok (map (attenuate l (pathThickness l (nlit 90 0))) (vval m0 "total")))) (fun v1 => vget v1 0) with Ok v1 => v1 | _ => 0 end
     = attenuate l (pathThickness l (nlit 90 0)) v0).
  { intros E v0 (m' & A & B). toR. rewrite A. cbn [rbind]. rewrite B. reflexivity. }
  assert (F' : Forall2 (fun E v0 => exists m', x_muv xl k [E] = Ok m' /\ vval m' "total" = [v0]) Es (vval m "total")).
  { clear - F M. induction F; constructor; [apply H, M|assumption]. }
  clear - F' G. induction F' as [|E v0 Es' vs A F IH]; [reflexivity|]. cbn [map]. f_equal; [symmetry; apply G, A|exact IH].
Qed.

Lemma filtered_product xl c Es ws w' : pointwise xl -> filteredWeights xl c Es ws = Ok w' ->
  length w' = length ws /\
  forall k E, nth_error Es k = Some E ->
    nth k w' 0 = nth k ws 0 * Rprod (map (fun l => filter_transmission xl c l E) (c_filters c)) *
                 Rprod (map (fun t => TransmissionTable.getTransmission t E) (c_userFilters c)).
Proof.
  intros PW H. unfold filteredWeights in H. obind H w1 W1.
  destruct (@fold_mul_product _ (fun l => getLayerTransmission_vec xl c l Es (nlit 90 0) []) (filter_transmission xl c) Es
              (fun l v => @transmission_pointwise xl c l Es v PW) _ _ _ W1) as [A B].
  destruct (@fold_mul_product _ (fun t => Ok (TransmissionTable.getTransmission_vec t Es)) (fun t E => TransmissionTable.getTransmission t E) Es) with (l := c_userFilters c) (w := w1) (w' := w') as [A2 B2].
  { intros x v Q. injection Q as <-. reflexivity. }
  { exact H. }
  split; [exact (eq_trans A2 A)|]. intros k E HE. rewrite (B2 k E HE), (B k E HE). rring.
Qed.

(** ** The filters act through the weights only *)
Lemma filters_only_weights sortf debug lf xl c F U elements families layers secondary useGeo useMass limit over over' w' r :
  map Beam.r_energy (rays_of c over) = map Beam.r_energy (rays_of c over') ->
  filteredWeights xl c (map Beam.r_energy (rays_of c over)) (map Beam.r_weight (rays_of c over)) = Ok w' ->
  filteredWeights xl (setBeamFilters (setUserBeamFilters c U) F) (map Beam.r_energy (rays_of c over')) (map Beam.r_weight (rays_of c over')) = Ok w' ->
  @getMultilayerFluorescence RNum sortf debug lf xl c elements families layers secondary useGeo useMass limit over = r ->
  @getMultilayerFluorescence RNum sortf debug lf xl (setBeamFilters (setUserBeamFilters c U) F) elements families layers secondary useGeo useMass limit over' = r.
Proof.
  intros HE HW HW' H. rewrite <- H. clear H r. unfold getMultilayerFluorescence.
  fold (rays_of c over). change (match b_rays over' with [] => b_rays (c_beam (setBeamFilters (setUserBeamFilters c U) F)) | r => r end) with (rays_of c over').
  cbv zeta. rewrite HE in *. 
  change (rmapM (getLayerComposition xl (setBeamFilters (setUserBeamFilters c U) F)) (c_sample (setBeamFilters (setUserBeamFilters c U) F)))
    with (rmapM (getLayerComposition xl c) (c_sample c)).
  destruct (rmapM (getLayerComposition xl c) (c_sample c)) as [comps| | |]; [|reflexivity..]. cbn [rbind].
  toR. rewrite HW, HW'. cbn [rbind].
  change (geometricEfficiencies (setBeamFilters (setUserBeamFilters c U) F) useGeo) with (geometricEfficiencies c useGeo).
  destruct (geometricEfficiencies c useGeo) as [geo| | |]; reflexivity.
Qed.
