(** C37: geometric efficiency. *)
From Coq Require Import String List ZArith Reals Bool Lia Lra.
From Verif Require Import Base.Num Base.Res Base.RSum Base.SMap Model.Beam Model.Material Model.TransmissionTable Model.Layer Model.XRF
  Spec.XRFSpec Proofs.XRFProofs.
Import ListNotations.
Local Existing Instance RNum.
Local Open Scope R_scope.

(** ** C37 Geometric efficiency is a solid-angle fraction *)
(** After every history of configuration calls whose sample was set with a reference layer that is
    not negative: 1 for a detector of zero diameter; otherwise the fraction of the sphere that the
    detector covers seen from the surface of the layer (the index may also be that of the surface
    below the last layer). *)
Theorem C37_efficiency (ops : list xrf_op) (index ref : Z) :
  let c := xrf_run ops in
  let d := distance_to (c_sample c) (sinDegrees (c_alphaOut c)) (getDistance (c_detector c)) ref index in
  (getDiameter (c_detector c) = 0 -> getGeometricEfficiency c index = Ok 1) /\
  (c_reference c = Some ref -> (0 <= ref)%Z -> (0 <= index <= Z.of_nat (length (c_sample c)))%Z ->
   0 < getDiameter (c_detector c) -> 0 < getDistance (c_detector c) ->
   getGeometricEfficiency c index = Ok (sphere_fraction (getDiameter (c_detector c)) d)).
Proof.
  intros c d. split.
  - intros H. unfold getGeometricEfficiency. cbv zeta. rnorm. destruct (Reqb_spec (getDiameter (c_detector c)) 0); [reflexivity|contradiction].
  - intros Hr H0 Hi HD Hd.
    assert (Hlt : (ref <= Z.of_nat (length (c_sample c)))%Z).
    { assert (G : forall l c0, (forall r, c_reference c0 = Some r -> (r < Z.of_nat (length (c_sample c0)))%Z) ->
        forall r, c_reference (fold_left (fun c o => fst (xrf_call c o)) l c0) = Some r ->
          (r < Z.of_nat (length (c_sample (fold_left (fun c o => fst (@xrf_call RNum c o)) l c0))))%Z).
      { induction l as [|o l IH]; intros c0 H; [exact H|]. cbn [fold_left]. apply IH. intros r Hr'. 
        destruct o; cbn [xrf_call fst] in *; try exact (H r Hr').
        - revert Hr'. unfold setGeometry. destruct (_ <? _)%num; exact (H r).
        - revert Hr'. unfold xrf_setBeam_vectors, xrf_setBeam_result. destruct (setBeam _ _ _ _ _ _); exact (H r).
        - revert Hr'. unfold xrf_setSingleEnergyBeam, xrf_setBeam_result. destruct (setSingleEnergyBeam _ _ _ _); exact (H r).
        - revert Hr'. unfold setSample. destruct (Z.leb_spec (Z.of_nat (length l0)) reference); cbn; [exact (H r)|]. intros E; injection E as <-. lia.
        - cbn in *. injection Hr' as <-. lia.
        - cbn in *. injection Hr' as <-. lia. }
      specialize (G ops config_new). cbn in G. specialize (G ltac:(discriminate) ref Hr). fold (@xrf_run RNum ops) in G. fold c in G. lia. }
    apply efficiency_spec; [lra|left; lra|exact Hr|lia|lia].
Qed.
(** Whatever the distance, the fraction is between 0 and 1; at most one half in front of the
    detector, one half in contact; it decreases with the distance and increases with the diameter. *)
Theorem C37_fraction_laws (D d : R) : 0 < D ->
  0 < sphere_fraction D d < 1 /\ (0 <= d -> sphere_fraction D d <= 1 / 2) /\ sphere_fraction D 0 = 1 / 2 /\
  (forall d', d < d' -> sphere_fraction D d' < sphere_fraction D d) /\
  (forall D', D < D' -> 0 < d -> sphere_fraction D d < sphere_fraction D' d).
Proof.
  intros H. split; [apply fraction_bounds; lra|]. split; [apply fraction_half; lra|]. split; [apply fraction_contact; lra|].
  split; [intros d' L; apply fraction_farther; lra|]. intros D' L Hd. apply fraction_larger; assumption.
Qed.
(** so for two configurations that differ in the detector distance only, the farther one has the
    smaller efficiency for every layer; and for two that differ in the diameter only, the larger *)
Theorem C37_monotonic (ops ops' : list xrf_op) (index ref : Z) (e e' : R) :
  let c := xrf_run ops in let c' := xrf_run ops' in
  c_sample c' = c_sample c -> c_alphaOut c' = c_alphaOut c -> c_reference c = Some ref -> c_reference c' = Some ref ->
  (0 <= ref)%Z -> (0 <= index <= Z.of_nat (length (c_sample c)))%Z ->
  0 < getDiameter (c_detector c) -> 0 < getDistance (c_detector c) -> 0 < getDistance (c_detector c') ->
  getGeometricEfficiency c index = Ok e -> getGeometricEfficiency c' index = Ok e' ->
  (getDiameter (c_detector c') = getDiameter (c_detector c) -> getDistance (c_detector c) < getDistance (c_detector c') -> e' < e) /\
  (getDistance (c_detector c') = getDistance (c_detector c) -> getDiameter (c_detector c) < getDiameter (c_detector c') ->
   0 < distance_to (c_sample c) (sinDegrees (c_alphaOut c)) (getDistance (c_detector c)) ref index -> e < e').
Proof.
  intros c c' Hs Ha Hr Hr' H0 Hi HD Hd Hd' E E'.
  assert (V : e = sphere_fraction (getDiameter (c_detector c)) (distance_to (c_sample c) (sinDegrees (c_alphaOut c)) (getDistance (c_detector c)) ref index)).
  { destruct (C37_efficiency ops index ref) as [_ K]. fold c in K. rewrite K in E by assumption. now injection E. }
  assert (V' : 0 < getDiameter (c_detector c') -> e' = sphere_fraction (getDiameter (c_detector c')) (distance_to (c_sample c) (sinDegrees (c_alphaOut c)) (getDistance (c_detector c')) ref index)).
  { intros HD'. destruct (C37_efficiency ops' index ref) as [_ K]. fold c' in K. rewrite Hs, Ha in K. rewrite K in E' by assumption. now injection E'. }
  split.
  - intros Q L. rewrite V' by lra. rewrite V, Q. apply fraction_farther; [lra|]. unfold distance_to. destruct (ref <=? index)%Z; lra.
  - intros Q L P. rewrite V' by lra. rewrite V, Q. apply fraction_larger; assumption.
Qed.
(** A negative layer index is refused (for a detector with a diameter). *)
Theorem C37_negative_index (N : Num) (c : @config N) (index : Z) :
  (index < 0)%Z -> neqb (getDiameter (c_detector c)) n0 = false -> getGeometricEfficiency c index = Throw InvalidArgument.
Proof.
  intros H HD. unfold getGeometricEfficiency. rewrite HD. destruct (Z.eqb_spec index 0) as [Q|_]; [lia|]. rewrite andb_false_r.
  destruct (Z.ltb_spec index 0); [reflexivity|lia].
Qed.
(** setSample refuses a reference layer outside the sample without changing anything, but accepts a
    negative one. Before any setSample call the efficiency of a detector with a diameter is
    undefined: the reference layer is not initialised. *)
Theorem C37_sample_reference (N : Num) (c : @config N) (l : list layer) (ref : Z) :
  ((Z.of_nat (length l) <= ref)%Z -> setSample c l ref = (c, Throw InvalidArgument)) /\
  ((ref < Z.of_nat (length l))%Z -> snd (setSample c l ref) = Ok tt /\ c_sample (fst (setSample c l ref)) = l /\ c_reference (fst (setSample c l ref)) = Some ref).
Proof. unfold setSample. destruct (Z.leb_spec (Z.of_nat (length l)) ref); split; intros K; try lia; auto. Qed.
Theorem C37_no_sample_undefined_refuted (N : Num) (d : @detector N) :
  neqb (getDiameter d) n0 = false -> neqb (getDistance d) n0 = false -> getGeometricEfficiency (xrf_run [XDetector d]) 0 = UB.
Proof. intros H1 H2. unfold getGeometricEfficiency. cbn [xrf_run fold_left xrf_call fst setDetector c_detector]. cbn. rewrite H1, H2. reflexivity. Qed.

(** hypotheses met: two layers 1 and 2 cm thick, reference layer 0, exit angle 90 degrees,
    detector of diameter 6 at distance 3: the surface of layer 1 is at distance 4, and the
    efficiency is (1 - 4/5) / 2 = 1/10 *)
Example C37_config : list (@xrf_op RNum) :=
  [XGeometry 45 90 90; XSample [layer_new "a" 1 1 1; layer_new "b" 1 2 1] 0;
   XDetector (fst (setDistance (fst (setDiameter (detector_new "Si" 1 1 1) 6)) 3))].
Example C37_nonvacuous : getGeometricEfficiency (xrf_run C37_config) 1 = Ok (1 / 10).
Proof.
  assert (A : fst (setDistance (fst (setDiameter (@detector_new RNum "Si" 1 1 1) 6)) 3) =
              mkDetector (layer_new "Si" 1 1 1) 6 3 (nlit 10 (-3)) (nlit 1 (-7)) 4 (nlit 90 0) []).
  { unfold setDiameter, setDistance. rnorm. destruct (Rltb_spec 6 0); [lra|]. cbn [fst]. destruct (Rleb_spec 3 0); [lra|]. reflexivity. }
  assert (Cc : exists ai s, xrf_run C37_config =
    mkConfig beam_init [] [] [layer_new "a" 1 1 1; layer_new "b" 1 2 1] [] [] [] (Some 0%Z) ai 90 s
       (mkDetector (layer_new "Si" 1 1 1) 6 3 (nlit 10 (-3)) (nlit 1 (-7)) 4 (nlit 90 0) [])).
  { unfold xrf_run, C37_config. cbn [fold_left xrf_call fst]. rewrite A. unfold setGeometry. rnorm. destruct (Rltb_spec 90 0); [lra|].
    eexists _, _. reflexivity. }
  destruct (C37_efficiency C37_config 1 0) as [_ H]. cbv zeta in H. destruct Cc as (ai & s & Cc). rewrite Cc in *. 
  cbn [c_reference c_sample c_detector c_alphaOut getDiameter getDistance d_diameter d_distance length] in H.
  rewrite H; [|reflexivity|lia|lia|lra|lra]. f_equal.
  assert (S1 : @sinDegrees RNum 90 = 1).
  { unfold sinDegrees. assert (L : @nlit RNum 180 0 = 180) by (change (Rlit 180 0 = 180); unfold Rlit; simpl; lra). rewrite L. rnorm.
    replace (90 * (PI / 180)) with (PI / 2) by field. apply sin_PI2. }
  assert (D : distance_to [@layer_new RNum "a" 1 1 1; layer_new "b" 1 2 1] 1 3 0 1 = 4) by (change (3 + (1 + 0) / 1 = 4); lra).
  rewrite S1, D. unfold sphere_fraction. replace (4 ^ 2 + (6 / 2) ^ 2) with (5 * 5) by (cbn; field). rewrite sqrt_square by lra. field.
Qed.

Print Assumptions C37_efficiency.
Print Assumptions C37_fraction_laws.
Print Assumptions C37_monotonic.
Print Assumptions C37_negative_index.
Print Assumptions C37_sample_reference.
Print Assumptions C37_no_sample_undefined_refuted.
