(** Multilayer: what the detector remembers from earlier calculations does not matter. *)
From Coq Require Import Ascii String List ZArith Reals Bool Arith Lia Lra.
From Verif Require Import Base.Num Base.Res Base.RSum Base.SMap Base.Str Base.ListLemmas Model.Beam Model.Material Model.TransmissionTable
  Model.Math Model.Shell Model.Element Model.Layer Model.XRF Model.Multilayer Spec.MultilayerSpec Proofs.MultilayerProofs Proofs.MultilayerProofs2.
Import ListNotations.
Set Implicit Arguments.
Local Open Scope string_scope.
Local Open Scope R_scope.
Local Existing Instance RNum.

Definition sim {A B} (P : A -> B -> Prop) (x : res A) (y : res B) : Prop :=
  match x, y with
  | Ok a, Ok b => P a b
  | Throw e, Throw e' => e = e'
  | UB, UB => True
  | Diverge, Diverge => True
  | _, _ => False
  end.
Lemma sim_bind {A B A' B'} (P : A -> B -> Prop) (Q : A' -> B' -> Prop) x y f g : sim P x y -> (forall a b, P a b -> sim Q (f a) (g b)) -> sim Q (rbind x f) (rbind y g).
Proof. intros H F. destruct x, y; cbn in *; try contradiction; auto. Qed.
Lemma sim_eq {A} (x y : res A) : x = y -> sim eq x y.
Proof. intros ->. destruct y; cbn; reflexivity. Qed.
Lemma sim_refl {A} (P : A -> A -> Prop) (x : res A) : (forall a, P a a) -> sim P x x.
Proof. intros H. destruct x; cbn; auto. Qed.

Section Cache.
Variable lf debug : bool.
Variable xl : @xlib RNum.
(** two configurations that differ at most in the cache of the detector *)
Variables c c' : @config RNum.
Hypothesis CC : c' = setDetector c (c_detector c').
Hypothesis CD : with_cache (c_detector c) [] = with_cache (c_detector c') [].

Definition Res (es es' : @escState RNum) : Prop :=
  es = es' \/ (snd es = snd es' /\ snd es <> 0%Z /\ with_cache (fst es) [] = with_cache (fst es') []).
Lemma Res_det es es' : Res es es' -> with_cache (fst es) [] = with_cache (fst es') [].
Proof. intros [->|(_ & _ & H)]; [reflexivity|exact H]. Qed.
Lemma Res_defined es es' : Res es es' -> detectorDefined (fst es) = detectorDefined (fst es').
Proof. intros H. apply detectorDefined_det, Res_det, H. Qed.
Lemma askEscape_same es es' (E : R) label : Res es es' -> label <> "" -> askEscape lf xl es E label = askEscape lf xl es' E label.
Proof.
  intros [->|(H1 & H2 & H3)] HL; [reflexivity|]. destruct es as [d u], es' as [d' u']. cbn [fst snd] in *. subst u'.
  unfold askEscape, det_getEscape. cbn [fst snd]. assert (L0 : Nat.ltb 0 (String.length label) = true) by (destruct label; [congruence|reflexivity]). rewrite L0.
  destruct (Z.eqb_spec u 0); [contradiction|]. rewrite H3. reflexivity.
Qed.

Lemma c_sample_same : c_sample c' = c_sample c. Proof. rewrite CC. reflexivity. Qed.
Lemma layerMu_same l E comp : getLayerMu xl c' l E comp = getLayerMu xl c l E comp. Proof. rewrite CC. reflexivity. Qed.
Lemma muTotal_same l comp E : muTotal xl c' l comp E = muTotal xl c l comp E. Proof. rewrite CC. reflexivity. Qed.
Lemma efficiency_same env i g d d' E : with_cache d [] = with_cache d' [] -> detectionEfficiency xl c env i g d E = detectionEfficiency xl c' env i g d' E.
Proof. intros H. rewrite (@detectionEfficiency_det xl c env i g d d' E H). rewrite CC. reflexivity. Qed.

Definition Rcollect (x y : list (string * tbl) * @escState RNum * list (string * @rline RNum)) : Prop :=
  fst (fst x) = fst (fst y) /\ Res (snd (fst x)) (snd (fst y)) /\ snd x = snd y /\ forall L, In L (map fst (snd x)) -> L <> "".
Lemma collect_sim env i s element family thr : actualFamily family <> "" -> forall factors ls es es', Res es es' ->
  sim Rcollect (collect lf xl c env i s element family thr factors ls es) (collect lf xl c' env i s element family thr factors ls es').
Proof.
  intros HF. induction factors as [|[line t] r IH]; intros ls es es' H; cbn [collect].
  { cbn. split; [reflexivity|split; [exact H|split; [reflexivity|intros L []]]]. }
  destruct (lineSelected family line) eqn:SEL; [|apply IH, H]. assert (NE := @lineSelected_nonempty family line HF SEL).
  apply (@sim_bind _ _ _ _ eq); [apply sim_eq; reflexivity|]. intros f ? <-. match goal with |- context [if ?b then _ else _] => destruct b end; [apply IH, H|].
  apply (@sim_bind _ _ _ _ eq); [apply sim_eq; reflexivity|]. intros E ? <-. apply (@sim_bind _ _ _ _ eq); [apply sim_eq; reflexivity|]. intros rt ? <-.
  destruct (mfind sltb line ls).
  - eapply sim_bind; [apply IH, H|]. intros [[l1 e1] r1] [[l2 e2] r2] (A & B & C0 & D). cbn [fst snd] in *. subst. cbn. split; [reflexivity|split; [exact B|split; [reflexivity|]]].
    intros L [<-|I]; [exact NE|apply D, I].
  - rewrite muTotal_same. apply (@sim_bind _ _ _ _ eq); [apply sim_eq; reflexivity|]. intros mu ? <-.
    apply (@sim_bind _ _ _ _ eq); [apply sim_eq, efficiency_same, Res_det, H|]. intros eff ? <-.
    eapply (@sim_bind _ _ _ _ Res).
    + rewrite (Res_defined H). destruct (detectorDefined (fst es')); [|exact H]. unfold rmap. rewrite (@askEscape_same es es' E (element ++ line) H) by (destruct element; [exact NE|discriminate]).
      apply (@sim_bind _ _ _ _ eq); [apply sim_eq; reflexivity|]. intros x ? <-. cbn. left. reflexivity.
    + intros e1 e2 H1. eapply sim_bind; [apply IH, H1|]. intros [[l1 f1] r1] [[l2 f2] r2] (A & B & C0 & D). cbn [fst snd] in *. subst. cbn. split; [reflexivity|split; [exact B|split; [reflexivity|]]].
      intros L [<-|I]; [exact NE|apply D, I].
Qed.

Definition Rlines (x y : list (string * tbl) * @escState RNum) : Prop := fst x = fst y /\ Res (snd x) (snd y).
Lemma finishLine_sim element mf ls es es' L x : Res es es' -> L <> "" ->
  sim Rlines (@finishLine RNum lf xl element mf ls es (L, x)) (@finishLine RNum lf xl element mf ls es' (L, x)).
Proof.
  intros H NE. unfold finishLine. apply sim_bind with (P := fun a b => fst a = fst b /\ Res (snd a) (snd b)).
  - rewrite (Res_defined H). destruct (detectorDefined (fst es')); [|split; [reflexivity|exact H]].
    rewrite (@askEscape_same es es' (r_energy x) (element ++ L) H) by (destruct element; [exact NE|discriminate]).
    apply (@sim_bind _ _ _ _ eq); [apply sim_eq; reflexivity|]. intros y ? <-. unfold rmap. apply (@sim_bind _ _ _ _ eq); [apply sim_eq; reflexivity|]. intros z ? <-. cbn.
    split; [reflexivity|]. left. destruct (snd y); [|reflexivity]. destruct H as [->|(Q & _)]; [reflexivity|rewrite Q; reflexivity].
  - intros [[l1 t1] e1] [[l2 t2] e2] [A B]. cbn [fst snd] in *. injection A as <- <-. cbn. split; [reflexivity|exact B].
Qed.
Lemma finishLines_sim element mf : forall rs a b, (forall L, In L (map fst rs) -> L <> "") -> Rlines a b ->
  sim Rlines (rfold (fun a lx => @finishLine RNum lf xl element mf (fst a) (snd a) lx) rs a) (rfold (fun a lx => @finishLine RNum lf xl element mf (fst a) (snd a) lx) rs b).
Proof.
  induction rs as [|[L x] rs IH]; intros a b NE H; cbn [rfold]; [exact H|]. destruct a as [l1 e1], b as [l2 e2]. destruct H as [A B]. cbn [fst snd] in *. subst.
  eapply sim_bind; [apply finishLine_sim; [exact B|apply NE; left; reflexivity]|]. intros a b H. apply IH; [intros; apply NE; right; assumption|exact H].
Qed.

Definition Rst (s s' : @state RNum) : Prop := st_ar s = st_ar s' /\ Res (st_esc s) (st_esc s') /\ st_fc s = st_fc s' /\ st_thr s = st_thr s'.
Lemma withPrimary_same s mu1 mf factors x : withPrimary c' s mu1 mf factors x = withPrimary c s mu1 mf factors x.
Proof. rewrite CC. reflexivity. Qed.
Lemma excite_names (term : R -> @rline RNum -> res (option R)) name factors : forall rs ls rs' ls', @excite RNum term name factors rs ls = Ok (rs', ls') -> map fst rs' = map fst rs.
Proof.
  induction rs as [|[L x] rs IH]; intros ls rs' ls' H; cbn [excite] in H; [injection H as <- <-; reflexivity|].
  obind H o HO. destruct o; unfold rmap in H; obind H y HY; destruct y as [r1 l1]; injection H as <- <-; cbn; f_equal; exact (IH _ _ _ HY).
Qed.
Lemma exciteAll_names term j s2 element thr : forall em k fc rs ls fc' rs' ls', exciteAll xl term j s2 element thr k em fc rs ls = Ok (fc', rs', ls') -> map fst rs' = map fst rs.
Proof.
  induction em as [|[[e er] name] em IH]; intros k fc rs ls fc' rs' ls' H; cbn [exciteAll] in H; [injection H as <- <- <-; reflexivity|].
  match type of H with (if ?b then _ else _) = _ => destruct b end; [eapply IH, H|]. obind H fl HF. obind H y HY. destruct y as [r1 l1]. cbn [fst snd] in H.
  rewrite (IH _ _ _ _ _ _ _ H). exact (excite_names _ _ _ _ _ HY).
Qed.
Lemma secondaryLoop_names env i s mu1 mf element thr : forall slabs j fc rs ls fc' rs' ls', secondaryLoop debug xl c env i s mu1 mf element thr j slabs fc rs ls = Ok (fc', rs', ls') -> map fst rs' = map fst rs.
Proof.
  induction slabs as [|s2 r IH]; intros j fc rs ls fc' rs' ls' H; cbn [secondaryLoop] in H; [injection H as <- <- <-; reflexivity|].
  match type of H with (if ?b then _ else _) = _ => destruct b end; [eapply IH, H|]. obind H y HY. destruct y as [[f1 r1] l1].
  rewrite (IH _ _ _ _ _ _ _ H). exact (exciteAll_names _ _ _ _ _ _ _ _ _ _ HY).
Qed.
Lemma secondaryLoop_same env i s mu1 mf element thr : forall slabs j fc rs ls,
  secondaryLoop debug xl c' env i s mu1 mf element thr j slabs fc rs ls = secondaryLoop debug xl c env i s mu1 mf element thr j slabs fc rs ls.
Proof. rewrite CC. reflexivity. Qed.

Lemma elementLayer_sim secondary useMass env element family cl thr factors i s st st' : actualFamily family <> "" -> Rst st st' ->
  sim Rst (elementLayer debug lf xl c secondary useMass env element family cl thr factors i s st)
          (elementLayer debug lf xl c' secondary useMass env element family cl thr factors i s st').
Proof.
  intros HF (H1 & H2 & H3 & H4). unfold elementLayer. destruct ((0 <=? cl)%Z && negb (Z.of_nat i =? cl)%Z)%bool; [split; auto|]. cbv zeta.
  match goal with |- sim _ (if ?b then _ else _) _ => destruct b end; [split; auto|].
  rewrite H1. eapply sim_bind; [apply collect_sim; [exact HF|exact H2]|].
  intros [[l1 e1] r1] [[l2 e2] r2] (A & B & C0 & D). cbn [fst snd] in *. subst l2 r2. destruct r1 as [|r0 r1]; [cbn; split; auto|].
  rewrite muTotal_same. apply (@sim_bind _ _ _ _ eq); [apply sim_eq; reflexivity|]. intros mu1 ? <-.
  rewrite (map_ext _ _ (withPrimary_same s mu1 _ factors)). rewrite H3.
  set (rs := map _ (r0 :: r1)). assert (MF : map fst rs = map fst (r0 :: r1)) by (unfold rs; rewrite map_map; apply map_ext; reflexivity). clearbody rs.
  apply sim_bind with (P := fun a b => a = b /\ map fst (snd (fst a)) = map fst rs).
  - destruct (0 <? secondary)%Z; [|split; reflexivity]. rewrite secondaryLoop_same.
    match goal with |- sim _ ?x _ => destruct x as [[[fc2 rs2] ls2]| | |] eqn:Q end; cbn; try reflexivity; try exact Logic.I. split; [reflexivity|]. exact (secondaryLoop_names _ _ _ _ _ _ _ _ _ _ _ _ Q).
  - intros [[fc2 rs2] ls2] ? [<- NM]. cbn [fst snd] in NM. eapply sim_bind; [apply finishLines_sim|].
    + intros L IL. rewrite NM, MF in IL. apply D, IL.
    + split; [reflexivity|exact B].
    + intros [l3 e3] [l4 e4] [Q1 Q2]. cbn [fst snd] in *. subst. cbn. split; [reflexivity|split; [exact Q2|split; [reflexivity|exact H4]]].
Qed.
Lemma elementLayers_sim secondary useMass env element family cl thr factors : actualFamily family <> "" -> forall slabs i st st', Rst st st' ->
  sim Rst (elementLayers debug lf xl c secondary useMass env element family cl thr factors i slabs st)
          (elementLayers debug lf xl c' secondary useMass env element family cl thr factors i slabs st').
Proof.
  intros HF. induction slabs as [|s r IH]; intros i st st' H; cbn [elementLayers]; [exact H|].
  eapply sim_bind; [apply elementLayer_sim; [exact HF|exact H]|]. intros a b. apply IH.
Qed.
Lemma elementStep_sim families layers secondary useMass env n element st st' : Rst st st' ->
  sim Rst (@elementStep RNum debug lf xl c families layers secondary useMass env st n element) (@elementStep RNum debug lf xl c' families layers secondary useMass env st' n element).
Proof.
  intros H. unfold elementStep. apply (@sim_bind _ _ _ _ eq); [apply sim_eq; reflexivity|]. intros fa ? <-. apply (@sim_bind _ _ _ _ eq); [apply sim_eq; reflexivity|]. intros cl ? <-.
  destruct (String.eqb_spec (actualFamily fa) "") as [|HF]; [reflexivity|]. apply sim_bind with (P := fun a b => fst a = fst b /\ Rst (snd a) (snd b)).
  - destruct H as (H1 & H2 & H3 & H4). rewrite H4. destruct (nth_error (st_thr st') n); [cbn; split; [reflexivity|split; auto]|].
    unfold rmap. apply (@sim_bind _ _ _ _ eq); [apply sim_eq; reflexivity|]. intros t ? <-. cbn. split; [reflexivity|]. split; [exact H1|split; [exact H2|split; [exact H3|reflexivity]]].
  - intros [t1 s1] [t2 s2] [A B]. cbn [fst snd] in *. subst t2. match goal with |- context [if ?b then _ else _] => destruct b end; [exact B|].
    apply (@sim_bind _ _ _ _ eq); [apply sim_eq; reflexivity|]. intros factors ? <-. apply elementLayers_sim; [exact HF|exact B].
Qed.
Lemma elementSteps_sim families layers secondary useMass env : forall l n st st', Rst st st' ->
  sim Rst (@elementSteps RNum debug lf xl c families layers secondary useMass env n l st) (@elementSteps RNum debug lf xl c' families layers secondary useMass env n l st').
Proof.
  induction l as [|e l IH]; intros n st st' H; cbn [elementSteps]; [exact H|]. eapply sim_bind; [apply elementStep_sim, H|]. intros a b. apply IH.
Qed.
Lemma rays_sim sortf elements families layers secondary useMass limit base : forall rays a b, Rst (fst a) (fst b) /\ snd a = snd b ->
  sim (fun a b => Rst (fst a) (fst b) /\ snd a = snd b)
    (rfold (@rayStep RNum sortf debug lf xl c elements families layers secondary useMass limit base) rays a)
    (rfold (@rayStep RNum sortf debug lf xl c' elements families layers secondary useMass limit base) rays b).
Proof.
  induction rays as [|r rays IH]; intros [s1 m1] [s2 m2] [H HM]; cbn [rfold]; [split; assumption|]. cbn [fst snd] in *. subst m2.
  eapply sim_bind; [|intros a b; apply IH]. unfold rayStep. assert (T : st_thr s1 = st_thr s2) by apply H. rewrite T.
  match goal with |- context [if ?b then _ else _] => destruct b end; [split; [exact H|reflexivity]|].
  apply (@sim_bind _ _ _ _ eq); [apply sim_eq; rewrite CC; reflexivity|]. intros env ? <-. unfold rmap. eapply sim_bind; [apply elementSteps_sim, H|].
  intros a b Q. cbn. split; [exact Q|reflexivity].
Qed.
Theorem cache_irrelevant sortf elements families layers secondary useGeo useMass limit over :
  @getMultilayerFluorescence RNum sortf debug lf xl c elements families layers secondary useGeo useMass limit over =
  @getMultilayerFluorescence RNum sortf debug lf xl c' elements families layers secondary useGeo useMass limit over.
Proof.
  assert (EQ : forall A (x y : res A), sim eq x y -> x = y) by (intros A [?|?| |] [?|?| |]; cbn; intros Q; try contradiction; congruence).
  apply EQ. unfold getMultilayerFluorescence. cbv zeta.
  replace (b_rays (c_beam c')) with (b_rays (c_beam c)) by (rewrite CC; reflexivity).
  apply (@sim_bind _ _ _ _ eq); [apply sim_eq; rewrite CC; reflexivity|]. intros comps ? <-.
  apply (@sim_bind _ _ _ _ eq); [apply sim_eq; rewrite CC; reflexivity|]. intros ws ? <-.
  apply (@sim_bind _ _ _ _ eq).
  { apply sim_eq. unfold geometricEfficiencies. rewrite c_sample_same.
    assert (G : forall i, getGeometricEfficiency c i = getGeometricEfficiency c' i).
    { intros i. unfold getGeometricEfficiency, getDiameter, getDistance. rewrite c_sample_same. replace (c_alphaOut c') with (c_alphaOut c) by (rewrite CC; reflexivity).
      replace (c_reference c') with (c_reference c) by (rewrite CC; reflexivity).
      destruct (c_detector c), (c_detector c'). cbn in CD. injection CD as -> -> -> -> -> -> ->. reflexivity. }
    apply rmapM_ext. intros i _. rewrite (G (Z.of_nat i)). reflexivity. }
  intros geo ? <-. rewrite c_sample_same.
  eapply sim_bind; [apply rays_sim|].
  - cbn. split; [|reflexivity]. split; [reflexivity|split; [right|split; reflexivity]]. cbn. split; [reflexivity|split; [lia|exact CD]].
  - intros [s1 m1] [s2 m2] [(Q & _) _]. cbn [fst snd] in *. destruct (1 <? secondary)%Z; [apply sim_eq; rewrite Q; reflexivity|cbn; exact Q].
Qed.
End Cache.
