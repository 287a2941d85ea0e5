(** Multilayer: what is known of the layers while treating one ray; the detection efficiency. *)
From Coq Require Import Ascii String List ZArith Reals Bool Arith Lia Lra.
From Verif Require Import Base.Num Base.Res Base.RSum Base.SMap Base.Str Base.ListLemmas Model.Beam Model.Material Model.TransmissionTable
  Model.Math Model.Shell Model.Element Model.Layer Model.XRF Model.Multilayer Spec.MultilayerSpec Proofs.MultilayerProofs Proofs.MultilayerProofs2 Proofs.MultilayerProofs3.
Import ListNotations.
Set Implicit Arguments.
Local Open Scope string_scope.
Local Open Scope R_scope.
Local Existing Instance RNum.

Lemma F2_length {A B} (P : A -> B -> Prop) l l' : Forall2 P l l' -> length l = length l'.
Proof. induction 1; cbn; congruence. Qed.

Section Env.
Variable xl : @xlib RNum.
Variable c : @config RNum.
Variable comps : list tbl.
Variable geo : list R.
Hypothesis LC : length comps = length (c_sample c).
Hypothesis LG : length geo = length (c_sample c).

Definition slab_ok (E : R) (i : nat) (s : @slab RNum) : Prop :=
  sl_layer s = layer_at c i /\ sl_comp s = comp_at comps i /\ sl_geo s = nth i geo 0 /\ sl_weight s = beam_at xl c comps i E.
Definition env_ok (env : @ray_env RNum) : Prop :=
  length (e_slabs env) = length (c_sample c) /\ forall i s, nth_error (e_slabs env) i = Some s -> slab_ok (e_energy env) i s.

Definition base : list (@layer RNum * tbl * R) := combine (combine (c_sample c) comps) geo.
Lemma base_length : length base = length (c_sample c).
Proof. unfold base. rewrite !combine_length. lia. Qed.
Lemma base_nth i : (i < length (c_sample c))%nat -> nth_error base i = Some (layer_at c i, comp_at comps i, nth i geo 0).
Proof.
  intros H. unfold base, layer_at, comp_at. rewrite (nth_error_nth' _ (layer_new "" 0 0 0, [], 0)); [|fold base; rewrite base_length; exact H].
  rewrite combine_nth by (rewrite combine_length; lia). rewrite combine_nth by lia. reflexivity.
Qed.

Lemma muTotal_at i E v : muTotal xl c (layer_at c i) (comp_at comps i) E = Ok v -> v = mu_at xl c comps i E.
Proof. unfold muTotal, mu_at. intros H. obind H t T. injection H as <-. reflexivity. Qed.

Definition bterm (E : R) (b : @layer RNum * tbl * R) : R := l_density (fst (fst b)) * l_thickness (fst (fst b)) *
  match muTotal xl c (fst (fst b)) (snd (fst b)) E with Ok v => v | _ => 0 end / sin_degrees (c_alphaIn c).
Lemma incident_spec E : forall bs first tmp slabs, (first = true -> tmp = 0) -> incident xl c E first tmp bs = Ok slabs ->
  length slabs = length bs /\ forall i l comp g s, nth_error bs i = Some (l, comp, g) -> nth_error slabs i = Some s ->
    sl_layer s = l /\ sl_comp s = comp /\ sl_geo s = g /\
    sl_weight s = exp (- (tmp + Rsum (map (bterm E) (firstn i bs)))).
Proof.
  induction bs as [|[[l comp] g] bs IH]; intros first tmp slabs HF H; cbn [incident] in H.
  { injection H as <-. split; [reflexivity|]. intros [|i]; discriminate. }
  obind H mu MU. obind H r RR. injection H as <-. edestruct IH as [A B]; [|exact RR|]; [intros Q; discriminate Q|]. split; [cbn; f_equal; exact A|].
  intros [|i] l' comp' g' s H1 H2; cbn [nth_error] in H1, H2.
  - injection H1 as <- <- <-. injection H2 as <-. cbn [sl_layer sl_comp sl_geo sl_weight]. repeat (split; [reflexivity|]).
    cbn [firstn map Rsum]. rnorm. destruct first; [rewrite HF by reflexivity; rewrite Rplus_0_r, Ropp_0, exp_0; reflexivity|]. f_equal. rring.
  - destruct (B i l' comp' g' s H1 H2) as (C1 & C2 & C3 & C4). repeat (split; [assumption|]). rewrite C4. f_equal.
    cbn [firstn map Rsum]. unfold bterm at 2. cbn [fst snd]. rewrite MU. unfold sin_degrees, sinDegrees. rnorm. change (@nlit RNum 180 0) with (Rlit 180 0).
    replace (Rlit 180 0) with 180 by (unfold Rlit; simpl; lra). rring.
Qed.

Lemma base_sum i E : (i <= length (c_sample c))%nat ->
  map (bterm E) (firstn i base) =
  map (fun j => mass_thickness c j * mu_at xl c comps j E / sin_degrees (c_alphaIn c)) (seq 0 i).
Proof.
  induction i as [|i IH]; intros H; [reflexivity|].
  assert (N := @base_nth i ltac:(lia)).
  assert (F : forall A (l : list A) n x, nth_error l n = Some x -> firstn (S n) l = (firstn n l ++ [x])%list).
  { clear. induction l as [|a l IH]; intros [|n] x Hx; try discriminate; cbn in *; [injection Hx as <-; reflexivity|]. rewrite (IH n x Hx). reflexivity. }
  rewrite (F _ _ _ _ N), map_app, IH by lia. rewrite seq_S, map_app. f_equal. cbn [map plus]. f_equal. unfold bterm. cbn [fst snd]. f_equal. f_equal.
  unfold muTotal, mu_at. destruct (getLayerMu xl c (layer_at c i) E (comp_at comps i)); reflexivity.
Qed.

Lemma emit_ok E w mn lim s s' : emit xl c E w mn lim s = Ok s' -> sl_layer s' = sl_layer s /\ sl_comp s' = sl_comp s /\ sl_geo s' = sl_geo s /\ sl_weight s' = sl_weight s.
Proof.
  unfold emit. intros H. obind H fams FA. obind H em EM. obind H m M. obind H coh CO. injection H as <-. repeat split.
Qed.

Lemma rayEnv_ok sortf secondary limit mn E w env : rayEnv sortf xl c secondary limit mn base E w = Ok env ->
  e_energy env = E /\ e_weight env = w /\ env_ok env.
Proof.
  unfold rayEnv. intros H. obind H slabs SL. obind H slabs' SL'. obind H cache CA. injection H as <-. cbn [e_energy e_weight].
  split; [reflexivity|split; [reflexivity|]].
  destruct (@incident_spec E base true 0 slabs ltac:(reflexivity) SL) as [A0 B]. pose proof (eq_trans A0 base_length) as A. clear A0. toR.
  assert (OK : forall i s, nth_error slabs i = Some s -> slab_ok E i s).
  { intros i s Hs. assert (Hi : (i < length (c_sample c))%nat) by (rewrite <- A; apply nth_error_Some; congruence).
    destruct (B i _ _ _ s (@base_nth i Hi) Hs) as (C1 & C2 & C3 & C4). repeat (split; [assumption|]). rewrite C4. unfold beam_at. f_equal. f_equal.
    rewrite base_sum by lia. rring. }
  unfold env_ok. cbn [e_slabs e_energy]. destruct (0 <? secondary)%Z; [|injection SL' as <-; split; assumption].
  apply rmapM_inv in SL'. split; [rewrite <- A; symmetry; eapply F2_length, SL'|].
  intros i s Hs. assert (exists s0, nth_error slabs i = Some s0 /\ emit xl c E w mn limit s0 = Ok s).
  { clear - SL' Hs. revert i Hs. induction SL' as [|a b l l' AB F IH]; intros [|i] Hs; try discriminate; cbn in *; [injection Hs as <-; exists a; auto|apply IH, Hs]. }
  destruct H as (s0 & H0 & EM). destruct (OK i s0 H0) as (C1 & C2 & C3 & C4). apply emit_ok in EM. destruct EM as (D1 & D2 & D3 & D4).
  unfold slab_ok. rewrite D1, D2, D3, D4. auto.
Qed.

(** ** Detection efficiency *)
Lemma rfold_mul {A} (T : A -> res R) : forall l a r, rfold (fun a x => rmap (@nmul RNum a) (T x)) l a = Ok r ->
  r = a * Rprod (map (fun x => match T x with Ok v => v | _ => 0 end) l).
Proof.
  induction l as [|x l IH]; intros a r H; cbn [rfold] in H; [injection H as <-; cbn; rring|].
  obind H a1 HA1. obind HA1 v V. injection HA1 as <-. rewrite (IH _ _ H). cbn [map Rprod]. rewrite V. rnorm. rring.
Qed.
Lemma Rprod_app a b : Rprod (a ++ b) = Rprod a * Rprod b.
Proof. induction a as [|x a IH]; cbn; [ring|]. rewrite IH. ring. Qed.
Lemma Rprod_rev a : Rprod (rev a) = Rprod a.
Proof. induction a as [|x a IH]; cbn; [reflexivity|]. rewrite Rprod_app, IH. cbn. ring. Qed.
Lemma fold_mul_R {A} (f : A -> R) : forall l a, fold_left (fun a x => a * f x) l a = a * Rprod (map f l).
Proof. induction l as [|x l IH]; intros a; cbn [fold_left map Rprod]; [ring|]. rewrite IH. ring. Qed.

Lemma detection_ok env i EL e : env_ok env -> (i < length (c_sample c))%nat ->
  detectionEfficiency xl c env i (nth i geo 0) (c_detector c) EL = Ok e -> e = detection xl c comps geo i EL.
Proof.
  intros (HL & HO) Hi H. unfold detectionEfficiency in H. obind H a1 HA1. apply rfold_mul in HA1. obind H a2 HA2. apply rfold_mul in HA2.
  cbv zeta in H. rewrite map_rev, Rprod_rev in HA1.
  assert (L1 : Rprod (map (fun x => match getLayerTransmission xl c (sl_layer x) EL (c_alphaOut c) (sl_comp x) with Ok v => v | _ => 0 end) (firstn i (e_slabs env)))
     = leave_at xl c comps i EL).
  { unfold leave_at. f_equal. assert (Q : forall n, (n <= i)%nat -> map (fun x => match getLayerTransmission xl c (sl_layer x) EL (c_alphaOut c) (sl_comp x) with Ok v => v | _ => 0 end) (firstn n (e_slabs env)) =
        map (fun j => match getLayerTransmission xl c (layer_at c j) EL (c_alphaOut c) (comp_at comps j) with Ok v => v | _ => 0 end) (seq 0 n)).
    { induction n as [|n IH]; intros Hn; [reflexivity|].
      assert (F : forall A (l : list A) n x, nth_error l n = Some x -> firstn (S n) l = (firstn n l ++ [x])%list).
      { clear. induction l as [|a l IH]; intros [|n] x Hx; try discriminate; cbn in *; [injection Hx as <-; reflexivity|]. rewrite (IH n x Hx). reflexivity. }
      destruct (nth_error (e_slabs env) n) as [s|] eqn:ES; [|apply nth_error_None in ES; lia].
      rewrite (F _ _ _ _ ES), map_app, IH by lia. rewrite seq_S, map_app. f_equal. cbn [map plus].
      destruct (HO n s ES) as (C1 & C2 & _). rewrite C1, C2. reflexivity. }
    apply Q. lia. }
  assert (HA1' : a1 = leave_at xl c comps i EL) by (refine (eq_trans HA1 _); rewrite <- L1; rnorm; rring). clear HA1 L1.
  assert (HA2' : a2 = leave_at xl c comps i EL * Rprod (map (fun l => filter_transmission xl c l EL) (c_attenuators c))).
  { refine (eq_trans HA2 _). rewrite HA1'. reflexivity. }
  clear HA2. pose proof (@fold_mul_R _ (fun t => TransmissionTable.getTransmission t EL) (c_userAttenuators c) a2) as A3. toR.
  unfold detection. 
  set (u := fold_left _ _ _) in H. change u with (fold_left (fun a t => a * TransmissionTable.getTransmission t EL) (c_userAttenuators c) a2) in H. clear u.
  rewrite A3 in H. rewrite HA2' in H.
  unfold detectorDefined, nonemptyName in H. rnorm_in H. replace (@nlit RNum 90 0) with 90 in H by (change (@nlit RNum 90 0) with (Rlit 90 0); unfold Rlit; simpl; lra).
  destruct ((l_hasMaterial (d_layer (c_detector c)) || negb (String.eqb (l_materialName (d_layer (c_detector c))) "")) && Rltb 0 (l_density (d_layer (c_detector c))) &&
        Rltb 0 (l_thickness (d_layer (c_detector c))))%bool eqn:B.
  - obind H t T. injection H as <-. rring.
  - injection H as <-. rring.
Qed.
End Env.
