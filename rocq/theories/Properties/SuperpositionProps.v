(** C75: a beam of several energies gives the weighted sum of what its energies give. *)
From Coq Require Import Ascii String List ZArith Reals Bool Arith Lia Lra Permutation.
From Verif Require Import Base.Num Base.Res Base.RSum Base.SMap Base.Str Base.ListLemmas Model.Beam Model.Material Model.TransmissionTable Model.Math Model.Shell Model.Element Model.Elements Model.Layer Model.XRF Model.Multilayer Model.XRFLibrary
  Spec.ShellSpec Spec.ElementSpec Spec.ElementsSpec Spec.BeamSpec Spec.MaterialSpec Spec.MultilayerSpec Spec.SecondarySpec Spec.LibrarySpec Spec.SuperpositionSpec Proofs.MathProofs Proofs.BeamProofs Proofs.MultilayerProofs Proofs.SuperpositionProofs
  Proofs.ElementsProofs6 Proofs.LibraryProofs Proofs.LibraryProofs2 Proofs.LibraryProofs3 Proofs.LibraryProofs4 Proofs.LibraryExample Properties.LibraryProps
  Properties.BeamProps Properties.MultilayerProps Properties.SecondaryProps.
Import ListNotations.
Local Open Scope string_scope.
Local Open Scope R_scope.
Local Existing Instance RNum.
Local Ltac toR := change (@num RNum) with R in *.

Section Superposition.
Variables (sortf : list R -> list R) (debug lf : bool) (xl : @xlib RNum) (c : @config RNum).
Local Notation calculate := (@getMultilayerFluorescence RNum sortf debug lf xl c).
Variables (elements families : list string) (layers : list Z) (secondary useGeo useMass : Z) (limit : R).
Local Notation run := (calculate elements families layers secondary useGeo useMass limit).
Local Notation comps := (sample_compositions xl c).
Local Notation rsum := (ray_sum xl c elements families layers useMass comps).
Variable EL : string -> string -> R.
Hypothesis WF : well_formed xl.
Hypothesis PW : pointwise xl.
Hypothesis AE : answers_each xl.
Hypothesis LE : line_energies xl EL.
Hypothesis WORDS : forall e, In e elements -> one_word e.
Hypothesis POS : forall n, (n < length elements)%nat -> 0 <= threshold xl elements families n.
Hypothesis PLAIN : forall j E f, (j < length (c_sample c))%nat -> In f (families_at xl c comps j E) -> first_word (fst f) <> "dummytext".
Hypothesis WS : weights_scale xl.

(** a field that is a sum over the rays, of terms in proportion to their weights *)
Definition linear_field (key : string) (i : nat) (L name : string) : Prop :=
  exists f : nat -> R -> R -> R, (forall n E w u, f n E (w * u) = w * f n E u) /\
    forall over r, run over = Ok r -> amount r key i L name = Rsum (map (rsum f key i L) (sample_rays xl c over)).

Lemma entry_excited over r key i L : run over = Ok r -> one_word L -> (line_entry r key i L <> None <-> excited xl c elements families layers useMass comps (sample_rays xl c over) key i L).
Proof. intros H O. exact (proj1 (@C49_primary sortf debug lf xl c EL elements families layers secondary useGeo useMass limit over r WF PW LE WORDS POS H key i L O)). Qed.
Lemma not_excited f key i L rays : ~ excited xl c elements families layers useMass comps rays key i L -> Rsum (map (rsum f key i L) rays) = 0.
Proof.
  intros NE. apply Rsum_zero. intros ray I. unfold ray_sum. apply Rsum_zero. intros n J. apply in_seq in J.
  destruct (excites _ _ _ _ _ _ _ _ _ _ _ _ _) eqn:X; [|reflexivity]. exfalso. apply NE. exists ray, n. split; [exact I|]. split; [lia|exact X].
Qed.
Lemma linear_by f key i L name : one_word L -> (forall n E w u, f n E (w * u) = w * f n E u) ->
  (forall over r t, run over = Ok r -> line_entry r key i L = Some t -> field t name = Rsum (map (rsum f key i L) (sample_rays xl c over))) -> linear_field key i L name.
Proof.
  intros O F H. exists f. split; [exact F|]. intros over r R. unfold amount. destruct (line_entry r key i L) as [t|] eqn:T; [exact (H over r t R T)|].
  symmetry. apply not_excited. intros X. apply (proj2 (entry_excited over r key i L R O)) in X. congruence.
Qed.
Lemma linear_primary key i L : one_word L -> linear_field key i L "primary".
Proof.
  intros O. apply (linear_by (fun n E w => primary_of xl c elements useMass comps n E w i L (EL (element_of elements n) L))); [exact O|intros; apply primary_times, WS|].
  intros over r t R T. destruct (@C49_primary sortf debug lf xl c EL elements families layers secondary useGeo useMass limit over r WF PW LE WORDS POS R key i L O) as [_ B]. destruct (B t T) as [P _]. exact P.
Qed.
Lemma linear_zero key i L name : one_word L -> (forall over r t, run over = Ok r -> line_entry r key i L = Some t -> field t name = 0) -> linear_field key i L name.
Proof.
  intros O H. apply (linear_by (fun _ _ _ => 0)); [exact O|intros; ring|]. intros over r t R T. rewrite (H over r t R T). symmetry. apply Rsum_zero. intros ray _. apply Rsum_zero. intros n _. destruct (excites _ _ _ _ _ _ _ _ _ _ _ _ _); reflexivity.
Qed.
Lemma linear_secondary key i L : one_word L -> linear_field key i L "secondary".
Proof.
  intros O. destruct (Z.ltb_spec 0 secondary) as [S|S].
  - apply (linear_by (fun n E w => Rsum (map snd (gains debug xl c elements families useMass limit comps n E w i L (EL (element_of elements n) L))))); [exact O|intros; rewrite gains_times; apply sum_times|].
    intros over r t R T. exact (proj1 (proj1 (@C58_secondary sortf debug lf xl c elements families layers secondary useGeo useMass limit over EL r WF PW AE LE WORDS POS PLAIN R key i L t O T) S)).
  - apply linear_zero; [exact O|]. intros over r t R T. exact (proj1 (proj2 (@C58_secondary sortf debug lf xl c elements families layers secondary useGeo useMass limit over EL r WF PW AE LE WORDS POS PLAIN R key i L t O T) S)).
Qed.
Lemma linear_part key i L name : one_word L -> has_space name = true -> linear_field key i L name.
Proof.
  intros O HS. destruct (Z.ltb_spec 0 secondary) as [S|S].
  - apply (linear_by (fun n E w => Rsum (map snd (filter (fun x => String.eqb (fst x) name) (gains debug xl c elements families useMass limit comps n E w i L (EL (element_of elements n) L)))))); [exact O| |].
    + intros. rewrite gains_times, (filter_times _ (fun x => String.eqb x name)). apply sum_times.
    + intros over r t R T. exact (proj2 (proj1 (@C58_secondary sortf debug lf xl c elements families layers secondary useGeo useMass limit over EL r WF PW AE LE WORDS POS PLAIN R key i L t O T) S) name HS).
  - apply linear_zero; [exact O|]. intros over r t R T. exact (proj2 (proj2 (@C58_secondary sortf debug lf xl c elements families layers secondary useGeo useMass limit over EL r WF PW AE LE WORDS POS PLAIN R key i L t O T) S) name HS).
Qed.
(** detection does not depend on the beam *)
Lemma first_word_cut a b : one_word a -> first_word (a ++ " " ++ b) = a.
Proof. induction a as [|x a IH]; intros O; [reflexivity|]. cbn in *. unfold one_word in *. cbn in O. apply orb_false_iff in O as [A B]. rewrite A. f_equal. apply IH, B. Qed.
Definition detected (key : string) (i : nat) (L : string) : R :=
  let E := EL (first_word key) L in
  (1 - Rsum (map peak_rate (match escape_peaks xl (c_detector c) E with Ok l => l | _ => [] end))) * detection xl c comps (solid_angles c useGeo) i E.
Lemma rate_detected over r key i L : (secondary <= 1)%Z -> run over = Ok r -> one_word L ->
  amount r key i L "rate" = detected key i L * (amount r key i L "primary" + amount r key i L "secondary").
Proof.
  intros S R O. unfold amount. destruct (line_entry r key i L) as [t|] eqn:T; [|ring].
  destruct (@C49_primary sortf debug lf xl c EL elements families layers secondary useGeo useMass limit over r WF PW LE WORDS POS R key i L O) as [_ B].
  destruct (B t T) as (_ & n & LN & K & _ & EN & _ & EF & _).
  assert (FW : first_word key = element_of elements n). { rewrite K. apply first_word_cut, WORDS. unfold element_of. apply nth_In, LN. }
  destruct (@C38_line sortf debug lf xl c elements families layers secondary useGeo useMass limit over r key i L t WF ltac:(lia) R O T) as (esc & E1 & E2 & _).
  rewrite E2. unfold detected. cbv zeta. rewrite FW, <- EN, E1. unfold arriving. rewrite EF, EN. destruct (Z.ltb_spec 1 secondary) as [Q|_]; [lia|]. ring.
Qed.

(** Primary and secondary excitation, the photons that cause the latter one by one, and (without tertiary
    excitation) the rate: each is the sum over the rays of the beam of the weight times what a beam of that
    energy alone gives. A line is in the answer exactly when some energy of positive weight gives it. *)
Theorem C75_superposition over r answers :
  (forall ray, In ray (rays_of c over) -> 0 <= Beam.r_weight ray) -> run over = Ok r ->
  Forall2 (fun ray ans => exists b, one_energy b (Beam.r_energy ray) /\ run b = Ok ans) (rays_of c over) answers ->
  forall key i L, one_word L ->
  let mix name := Rsum (map (fun ra => Beam.r_weight (fst ra) * amount (snd ra) key i L name) (combine (rays_of c over) answers)) in
  (line_entry r key i L <> None <-> exists ray ans, In (ray, ans) (combine (rays_of c over) answers) /\ 0 < Beam.r_weight ray /\ line_entry ans key i L <> None) /\
  amount r key i L "primary" = mix "primary" /\ amount r key i L "secondary" = mix "secondary" /\
  (forall name, has_space name = true -> amount r key i L name = mix name) /\
  ((secondary <= 1)%Z -> amount r key i L "rate" = mix "rate").
Proof.
  intros NN R AN key i L O mix.
  set (u := fun ray : @ray RNum => 1 * Rprod (map (fun l => filter_transmission xl c l (Beam.r_energy ray)) (c_filters c)) * Rprod (map (fun t => TransmissionTable.getTransmission t (Beam.r_energy ray)) (c_userFilters c))).
  assert (SR : sample_rays xl c over = map (fun ray => (Beam.r_energy ray, Beam.r_weight ray * u ray)) (rays_of c over)).
  { unfold sample_rays. apply map_ext. intros ray. f_equal. unfold u. ring. }
  assert (S1 : forall b ray, one_energy b (Beam.r_energy ray) -> sample_rays xl c b = [(Beam.r_energy ray, u ray)]).
  { intros b ray (x & B & E & W). unfold sample_rays, rays_of. rewrite B. cbn [map]. rewrite E, W. reflexivity. }
  assert (LF : forall name, linear_field key i L name -> amount r key i L name = mix name).
  { intros name (f & F & H). rewrite (H over r R), SR. unfold mix. revert NN AN. generalize (rays_of c over) answers. clear -H S1 F WS. intros l. induction l as [|ray l IH]; intros [|ans m] NN AN; inversion AN; subst; [reflexivity|]. cbn [map combine].
    change (Rsum (?a :: ?b)) with (a + Rsum b). rewrite (IH m) by (try assumption; intros x I; apply NN; right; exact I). f_equal. cbn [fst snd].
    match goal with Q : exists b, _ |- _ => destruct Q as (b & OB & RB) end. rewrite (H b ans RB), (S1 b ray OB). cbn [map Rsum].
    rewrite (ray_times xl c elements families layers useMass comps WS f F key i L) by (apply NN; left; reflexivity). exact (f_equal (Rmult _) (eq_sym (Rplus_0_r _))). }
  pose proof (LF "primary" (linear_primary key i L O)) as MP. pose proof (LF "secondary" (linear_secondary key i L O)) as MS.
  split; [|split; [exact MP|split; [exact MS|split; [intros name HS; apply LF, linear_part; assumption|]]]].
  - rewrite (entry_excited over r key i L R O). unfold excited. rewrite SR. split.
    + intros (ray0 & n & I & LN & X). apply in_map_iff in I as (ray & <- & I). cbn [fst snd] in X. apply In_nth_error in I as [k K].
      destruct (Rle_lt_or_eq_dec 0 (Beam.r_weight ray) (NN ray (nth_error_In _ _ K))) as [W|W]; [|exfalso; rewrite <- W, Rmult_0_l in X; rewrite (excites_zero xl c elements families layers useMass comps WS) in X; discriminate].
      rewrite (excites_times xl c elements families layers useMass comps WS) in X by exact W.
      assert (Q : exists ans, In (ray, ans) (combine (rays_of c over) answers) /\ exists b, one_energy b (Beam.r_energy ray) /\ run b = Ok ans).
      { clear -AN K. revert answers AN k K. generalize (rays_of c over). induction l as [|x l IH]; intros m AN [|k] K; cbn in K; try discriminate; inversion AN; subst.
        - injection K as ->. exists y. split; [left; reflexivity|assumption].
        - destruct (IH l' H3 k K) as (a & A & B). exists a. split; [right; exact A|exact B]. }
      destruct Q as (ans & IA & b & OB & RB). exists ray, ans. split; [exact IA|]. split; [exact W|]. apply (entry_excited b ans key i L RB O). exists (Beam.r_energy ray, u ray), n. rewrite (S1 b ray OB). split; [left; reflexivity|]. split; [exact LN|exact X].
    + intros (ray & ans & I & W & X).
      assert (Q : exists b, one_energy b (Beam.r_energy ray) /\ run b = Ok ans).
      { clear -AN I. revert answers AN I. generalize (rays_of c over). induction l as [|x l IH]; intros [|a m] AN I; inversion AN; subst; [destruct I|]. destruct I as [I|I]; [injection I as -> ->; assumption|]. exact (IH m H4 I). }
      destruct Q as (b & OB & RB). apply (entry_excited b ans key i L RB O) in X. destruct X as (ray0 & n & J & LN & X). rewrite (S1 b ray OB) in J. destruct J as [<-|[]]. cbn [fst snd] in X.
      exists (Beam.r_energy ray, Beam.r_weight ray * u ray), n. split; [apply in_map_iff; exists ray; split; [reflexivity|apply in_combine_l in I; exact I]|]. split; [exact LN|]. cbn [fst snd]. rewrite (excites_times xl c elements families layers useMass comps WS) by exact W. exact X.
  - intros S. rewrite (rate_detected over r key i L S R O), MP, MS. unfold mix. rewrite <- Rsum_plus, <- Rsum_mult_l. apply Rsum_ext. intros [ray ans] I. cbn [fst snd].
    assert (Q : exists b, run b = Ok ans).
    { clear -AN I. revert answers AN I. generalize (rays_of c over). induction l as [|x l IH]; intros [|a m] AN I; inversion AN; subst; [destruct I|]. destruct I as [I|I]; [injection I as -> ->; destruct H2 as (b & _ & Q); eauto|]. exact (IH m H4 I). }
    destruct Q as [b RB]. rewrite (rate_detected b ans key i L S RB O). ring.
Qed.
End Superposition.
Print Assumptions C75_superposition.

(** The same with the class Elements as library. *)
Theorem C75_library (tostr : R -> string) (depth fuel : nat) (lf : bool) (ops : list (@es_op RNum)) (sortf : list (string * R) -> list (string * R))
  (sortr : list R -> list R) (debug lfd : bool) (c : @config RNum) elements families layers secondary useGeo useMass limit over r answers :
  let es := es_run tostr depth fuel lf elements_empty ops in let xl := @xlib_of RNum tostr depth fuel sortf es in
  let run b := @getMultilayerFluorescence RNum sortr debug lfd xl c elements families layers secondary useGeo useMass limit b in
  plain_library es -> std_sort_contract (fun a b : string * R => Rltb (snd a) (snd b)) sortf ->
  (forall name e, Elements.getElement es name = Ok e -> first_word name <> "dummytext") -> (forall e, In e elements -> one_word e) ->
  (forall ray, In ray (rays_of c over) -> 0 <= Beam.r_weight ray) -> run over = Ok r ->
  Forall2 (fun ray ans => exists b, one_energy b (Beam.r_energy ray) /\ run b = Ok ans) (rays_of c over) answers ->
  forall key i L, one_word L ->
  let mix name := Rsum (map (fun ra => Beam.r_weight (fst ra) * amount (snd ra) key i L name) (combine (rays_of c over) answers)) in
  (line_entry r key i L <> None <-> exists ray ans, In (ray, ans) (combine (rays_of c over) answers) /\ 0 < Beam.r_weight ray /\ line_entry ans key i L <> None) /\
  amount r key i L "primary" = mix "primary" /\ amount r key i L "secondary" = mix "secondary" /\
  (forall name, has_space name = true -> amount r key i L name = mix name) /\
  ((secondary <= 1)%Z -> amount r key i L "rate" = mix "rate").
Proof.
  intros es xl run PL SORT ND WORDS NN R AN key i L O.
  refine (C75_superposition sortr debug lfd xl c elements families layers secondary useGeo useMass limit (line_energy_in es)
    (library_well_formed _ _ _ _ PL) (library_pointwise _ _ _ _ _) (library_answers_each _ _ _ _ _) (library_line_energies _ _ _ _ PL) WORDS (fun n _ => thresholds_nonneg tostr depth fuel lf ops sortf elements families n PL) _
    (library_scales _ _ _ _ _ PL) over r answers NN R AN key i L O).
  intros j E f _. apply (library_plain_families tostr depth fuel sortf es c (sample_compositions xl c) j E); [|exact ND]. intros l. exact (proj1 (SORT l (by_energy_swo l))).
Qed.
Print Assumptions C75_library.

(** such beams are made by Beam::setBeam(energy, divergency) *)
Theorem C75_one_energy sortf (b : @beam RNum) (E d : R) : std_sort_contract ray_ltb sortf -> exists b', setSingleEnergyBeam sortf b E d = Ok b' /\ one_energy b' E.
Proof.
  intros SORT. unfold setSingleEnergyBeam, normalizeBeam. rewrite sortable_R. eexists. split; [reflexivity|].
  match goal with |- one_energy (@Beam.mkBeam _ (sortf ?l) _) _ => assert (Q : exists w, l = [@Beam.mkRay RNum E w 1%Z d] /\ w = 1) end.
  { cbn [map Beam.r_weight]. match goal with |- context [if ?b then _ else _] => destruct b end; eexists; (split; [reflexivity|]); [cbn; field; lra|reflexivity]. }
  destruct Q as (w & -> & W). destruct (SORT [@Beam.mkRay RNum E w 1%Z d] (swo_R _)) as [P _]. apply Permutation_length_1_inv in P. rewrite P. exists (@Beam.mkRay RNum E w 1%Z d). auto.
Qed.
Print Assumptions C75_one_energy.

(** Only the ratios of the weights count: the beam stored is the same. *)
Theorem C75_scale sortf (b : @beam RNum) (k : R) (E W : list R) F D : 0 < k -> length W = length E -> length F = length E -> length D = length E -> 0 < Rsum W ->
  setBeam sortf b E (map (fun w => k * w) W) F D = setBeam sortf b E W F D.
Proof.
  intros K LW LF LD T. destruct (list_eq_dec Req_EM_T E []) as [->|NE]; [reflexivity|].
  rewrite !setBeam_usable; try assumption; try (apply usable_full; rewrite ?map_length; assumption).
  rewrite !column_full by (rewrite ?map_length; assumption).
  change (combine (combine (combine E (map (fun w => k * w) W)) F) D) with (table E (map (fun w => k * w) W) F D). change (combine (combine (combine E W) F) D) with (table E W F D).
  rewrite <- (table_map_weight (fun w => k * w)). unfold normalizeBeam. rewrite !sortable_R.
  assert (EW : nsum (map Beam.r_weight (map mk4 (table E W F D))) = Rsum W).
  { rewrite map_map. rewrite nsum_R. f_equal. exact (@table_weights E W F D (length E) eq_refl LW LF LD). }
  assert (EK : nsum (map Beam.r_weight (map mk4 (map (fun r => (row_energy r, k * row_weight r, row_flag r, row_div r)) (table E W F D)))) = k * Rsum W).
  { rewrite table_map_weight, map_map, nsum_R, <- Rsum_scale. f_equal. refine (@table_weights E (map (fun w => k * w) W) F D (length E) eq_refl _ LF LD). rewrite map_length. exact LW. }
  rewrite EK, EW. cbn [nltb RNum n0].
  assert (P : 0 < k * Rsum W) by (apply Rmult_lt_0_compat; assumption).
  rewrite !(proj2 (Rltb_true _ _)) by assumption. do 3 f_equal. rewrite !map_map. apply map_ext. intros r. unfold mk4. cbn. f_equal. assert (X : forall w : R, k * w / (k * Rsum W) = w / Rsum W) by (intros; field; lra). exact (X (row_weight r)).
Qed.
Print Assumptions C75_scale.

(** Iron alone, as in C53: two energies of weights 1 and 3, with secondary excitation. *)
Section Example75.
Variables (tostr : R -> string) (lf : bool) (sortf : list (string * R) -> list (string * R)).
Hypothesis SORT : std_sort_contract (fun a b : string * R => Rltb (snd a) (snd b)) sortf.
Local Notation es := (es_run tostr 1 1 lf elements_empty C53_history).
Local Notation xl := (@xlib_of RNum tostr 1 1 sortf es).
Theorem C75_example sortr debug lfd limit :
  let run b := @getMultilayerFluorescence RNum sortr debug lfd xl C53_config ["Fe"] ["K"] [0%Z] 1 1 0 limit b in
  exists r r10 r20, run beam_init = Ok r /\ run (@mkBeam RNum [@Beam.mkRay RNum 10 1 1%Z 0] true) = Ok r10 /\ run (@mkBeam RNum [@Beam.mkRay RNum 20 1 1%Z 0] true) = Ok r20 /\
    line_entry r "Fe K" 0 "KL3" <> None /\
    amount r "Fe K" 0 "KL3" "rate" = amount r10 "Fe K" 0 "KL3" "rate" + 3 * amount r20 "Fe K" 0 "KL3" "rate" /\
    amount r "Fe K" 0 "KL3" "Fe KL3 00" = amount r10 "Fe K" 0 "KL3" "Fe KL3 00" + 3 * amount r20 "Fe K" 0 "KL3" "Fe KL3 00".
Proof.
  intros run. destruct (C53_example tostr lf sortf SORT sortr debug lfd 1%Z limit) as (PL & CL & CC & r & HR & HL).
  assert (ANS : forall b, exists a, run b = Ok a) by (intros b; exact (C53_answers tostr 1 1 lf C53_history sortf sortr debug lfd C53_config ["Fe"] ["K"] [0%Z] 1 1 0 limit b PL CL SORT CC (or_intror (C53_thick tostr lf sortf)))).
  destruct (ANS (@mkBeam RNum [@Beam.mkRay RNum 10 1 1%Z 0] true)) as [r10 H10]. destruct (ANS (@mkBeam RNum [@Beam.mkRay RNum 20 1 1%Z 0] true)) as [r20 H20].
  exists r, r10, r20. split; [exact HR|]. split; [exact H10|]. split; [exact H20|]. split; [exact HL|].
  assert (ND : forall name e, Elements.getElement es name = Ok e -> first_word name <> "dummytext") by (intros name e H; apply C53_elements in H; destruct H as [-> _]; discriminate).
  assert (W : forall e, In e ["Fe"] -> one_word e) by (intros e [<-|[]]; reflexivity).
  destruct (C75_library tostr 1 1 lf C53_history sortf sortr debug lfd C53_config ["Fe"] ["K"] [0%Z] 1 1 0 limit beam_init r [r10; r20] PL SORT ND W) with (key := "Fe K") (i := 0%nat) (L := "KL3") as (_ & _ & _ & PART & RATE).
  - intros ray I. cbn [rays_of b_rays beam_init c_beam C53_config] in I. destruct I as [<-|[<-|[]]]; cbn; toR; lra.
  - exact HR.
  - assert (ON : forall E : R, one_energy (@mkBeam RNum [@Beam.mkRay RNum E 1 1%Z 0] true) E) by (intros E; eexists; split; [reflexivity|split; reflexivity]).
    apply Forall2_cons; [eexists; split; [apply ON|exact H10]|]. apply Forall2_cons; [eexists; split; [apply ON|exact H20]|]. apply Forall2_nil.
  - reflexivity.
  - split; [rewrite (RATE ltac:(lia))|rewrite (PART "Fe KL3 00" eq_refl)]; cbn [rays_of b_rays beam_init c_beam C53_config combine map fst snd Beam.r_weight Rsum]; toR; ring.
Qed.
End Example75.
Print Assumptions C75_example.
