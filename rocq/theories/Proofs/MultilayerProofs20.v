(** Multilayer, secondary excitation: one term. *)
From Coq Require Import Ascii String List ZArith Reals Bool Arith Lia Lra.
From Verif Require Import Base.Num Base.Res Base.RSum Base.SMap Base.Str Base.ListLemmas Model.Beam Model.Material Model.TransmissionTable
  Model.Math Model.Shell Model.Element Model.Layer Model.XRF Model.Multilayer Spec.MultilayerSpec Spec.SecondarySpec Proofs.MultilayerProofs Proofs.MultilayerProofs2
  Proofs.MultilayerProofs3 Proofs.MultilayerProofs10 Proofs.ElementProofs Proofs.MultilayerProofs19.
Import ListNotations.
Set Implicit Arguments.
Local Open Scope string_scope.
Local Open Scope R_scope.
Local Existing Instance RNum.

Lemma sinDegrees_R (a : R) : @sinDegrees RNum a = sin_degrees a.
Proof. unfold sinDegrees, sin_degrees. rnorm. change (@nlit RNum 180 0) with (Rlit 180 0). replace (Rlit 180 0) with 180 by (unfold Rlit; simpl; lra). reflexivity. Qed.

Section Term.
Variable sortf : list R -> list R.
Variable debug : bool.
Variable xl : @xlib RNum.
Variable c : @config RNum.
Hypothesis AE : answers_each xl.
Variable comps : list tbl.
Variable geo : list R.
Hypothesis LC : length comps = length (c_sample c).
Hypothesis LG : length geo = length (c_sample c).
Variable limit : R.
Local Notation mu := (mu_at xl c comps).
Local Notation n := (length (c_sample c)).

Lemma incident_mu E : forall bs first tmp slabs, incident xl c E first tmp bs = Ok slabs ->
  forall i l comp g s, nth_error bs i = Some (l, comp, g) -> nth_error slabs i = Some s -> muTotal xl c l comp E = Ok (sl_mu s).
Proof.
  induction bs as [|[[l comp] g] bs IH]; intros first tmp slabs H; cbn [incident] in H.
  { apply Ok_inj in H. subst. intros [|i]; discriminate. }
  obind H m MU. obind H r RR. apply Ok_inj in H. subst slabs. intros [|i] l' comp' g' s H1 H2; cbn [nth_error] in H1, H2.
  - injection H1 as <- <- <-. injection H2 as <-. exact MU.
  - eapply IH; eassumption.
Qed.

(** what is known while treating a ray with secondary excitation *)
Definition env_full (mn : R) (env : @ray_env RNum) : Prop :=
  (forall j s, nth_error (e_slabs env) j = Some s ->
     sl_mu s = mu j (e_energy env) /\ sl_em s = filter (above mn) (photons xl c limit comps j (e_energy env) (e_weight env)) /\
     sl_muj s = map (fun ph => mu j (fst (fst ph))) (sl_em s)) /\
  e_cache env = map (fun k => map (mu k) (e_cacheE env)) (seq 0 n).

Lemma F2_nth {A B} (P : A -> B -> Prop) l l' : Forall2 P l l' -> forall i y, nth_error l' i = Some y -> exists x, nth_error l i = Some x /\ P x y.
Proof. induction 1 as [|a b l l' AB F IH]; intros [|i] y Hy; try discriminate; cbn in *; [injection Hy as <-; exists a; auto|apply IH, Hy]. Qed.
Lemma nth_ext_error {A} (l l' : list A) : (forall i, nth_error l i = nth_error l' i) -> l = l'.
Proof.
  revert l'. induction l as [|a l IH]; intros [|b l'] H; [reflexivity|discriminate (H 0%nat)|discriminate (H 0%nat)|].
  pose proof (H 0%nat) as Q. cbn in Q. injection Q as ->. f_equal. apply IH. intros i. exact (H (S i)).
Qed.

Lemma rayEnv_full secondary mn E w env : (0 < secondary)%Z -> (forall j, (j < n)%nat -> plain_families xl c comps j E) -> Rltb E mn = false ->
  rayEnv sortf xl c secondary limit mn (base c comps geo) E w = Ok env -> env_full mn env.
Proof.
  intros SEC PF NM H. destruct (@rayEnv_ok xl c comps geo LC LG _ _ _ _ _ _ _ H) as (EE & EW & EL & EO).
  unfold rayEnv in H. obind H slabs SL. destruct (Z.ltb_spec 0 secondary) as [_|]; [|lia]. obind H slabs' SL'. obind H cache CA. apply Ok_inj in H. subst env.
  cbn [e_energy e_weight e_slabs e_cacheE e_cache] in *. unfold env_full. cbn [e_energy e_weight e_slabs e_cacheE e_cache].
  pose proof (@incident_mu E (base c comps geo) true _ slabs SL) as IM.
  destruct (@incident_spec xl c E (base c comps geo) true 0 slabs ltac:(reflexivity) SL) as [IL _].
  apply rmapM_inv in SL'. split.
  - intros j s' Hs. destruct (F2_nth SL' j Hs) as (s & Hs0 & EM).
    assert (Hj : (j < n)%nat).
    { rewrite <- EL. apply nth_error_Some. intros Q. discriminate (eq_trans (eq_sym Hs) Q). }
    pose proof (IM j _ _ _ s (@base_nth c comps geo LC LG j Hj) Hs0) as MU. apply muTotal_at in MU.
    destruct (EO j s' Hs) as (S1 & S2 & S3 & S4). pose proof (@emit_ok xl c _ _ _ _ _ _ EM) as (D1 & D2 & D3 & D4).
    assert (OK : slab_ok xl c comps geo E j s) by (unfold slab_ok; rewrite <- D1, <- D2, <- D3, <- D4; auto).
    destruct (@emit_spec xl c AE comps geo LC LG limit j E w mn s s' OK (PF j Hj) NM EM) as (R1 & R2 & R3).
    split; [rewrite R3; exact MU|split; [exact R1|exact R2]].
  - set (es := unique _) in *. apply rmapM_inv in CA.
    assert (LCA : length cache = n) by (rewrite <- (F2_length CA); exact EL).
    apply nth_ext_error. intros k. destruct (nth_error cache k) as [v|] eqn:Hv.
    + assert (Hk : (k < n)%nat) by (rewrite <- LCA; apply nth_error_Some; congruence).
      destruct (F2_nth CA k Hv) as (s & Hs & Q). destruct (EO k s Hs) as (S1 & S2 & _). rewrite S1, S2 in Q. obind Q m M. apply Ok_inj in Q. subst v.
      rewrite (@layer_total xl c AE comps k es m M). symmetry. refine (map_nth_error (fun k => map (mu k) es) k (seq 0 n) (d := k) _).
      rewrite (nth_error_nth' _ 0%nat) by (rewrite seq_length; exact Hk). rewrite seq_nth by exact Hk. reflexivity.
    + apply nth_error_None in Hv. symmetry. apply nth_error_None. rewrite map_length, seq_length. toR. lia.
Qed.

Lemma cachePos_find (e : R) : forall l p, @cachePos RNum e l = Some p -> nth_error l p = Some e.
Proof.
  induction l as [|a l IH]; intros p H; cbn [cachePos] in H; [discriminate|]. rnorm_in H. destruct (Rltb_spec a e) as [A|A].
  - destruct (cachePos e l) as [q|] eqn:Q; [|discriminate]. cbn in H. injection H as <-. cbn [nth_error]. apply IH. reflexivity.
  - destruct (Rltb_spec e a) as [B|B]; [discriminate|]. injection H as <-. cbn. f_equal. lra.
Qed.

Section Env.
Variable mn : R.
Variable env : @ray_env RNum.
Hypothesis EO : env_ok xl c comps geo env.
Hypothesis EF : env_full mn env.
Local Notation E := (e_energy env).

Lemma muCached_spec k e v : (k < n)%nat -> muCached xl c env k e = Ok v -> v = mu k e.
Proof.
  intros Hk H. unfold muCached in H. destruct (cachePos e (e_cacheE env)) as [p|] eqn:P.
  - apply cachePos_find in P. destruct EF as [_ EC]. rewrite EC in H. obind H u U.
    unfold vget in U. assert (NK : nth_error (map (fun k => map (mu k) (e_cacheE env)) (seq 0 n)) k = Some (map (mu k) (e_cacheE env))).
    { refine (map_nth_error (fun k => map (mu k) (e_cacheE env)) k (seq 0 n) (d := k) _). rewrite (nth_error_nth' _ 0%nat) by (rewrite seq_length; exact Hk). rewrite seq_nth by exact Hk. reflexivity. }
    toR. rewrite NK in U. cbn in U. apply Ok_inj in U. subst u. unfold vget in H. toR. rewrite (map_nth_error (mu k) p (e_cacheE env) P) in H. cbn in H. apply Ok_inj in H. congruence.
  - obind H s HS0. unfold vget in HS0. destruct (nth_error (e_slabs env) k) as [s'|] eqn:Q; [|discriminate]. cbn in HS0. apply Ok_inj in HS0. subst s'.
    destruct (proj2 EO k s Q) as (S1 & S2 & _). rewrite S1, S2 in H. apply muTotal_at in H. exact H.
Qed.
Lemma slab_mass j s : nth_error (e_slabs env) j = Some s -> massThickness s = mass_thickness c j.
Proof. intros H. destruct (proj2 EO j s H) as (S1 & _). unfold massThickness, mass_thickness. rewrite S1. reflexivity. Qed.

Lemma between_spec lo hi e v : (hi <= n)%nat -> between xl c env lo hi e = Ok v -> v = absorbed_between xl c comps lo hi e.
Proof.
  intros Hh H. unfold between in H. unfold absorbed_between.
  assert (G : forall l acc v, (forall b, In b l -> (b < n)%nat) ->
     rfold (fun acc b => rbind (vget (e_slabs env) b) (fun s => rbind (muCached xl c env b e) (fun m => Ok (acc + massThickness s * m)))) l acc = Ok v ->
     v = acc + Rsum (map (fun b => mass_thickness c b * mu b e) l)).
  { clear H v. induction l as [|b l IH]; intros acc v HB H; cbn [rfold] in H; [apply Ok_inj in H; subst; cbn; rring|].
    obind H a1 HA. obind HA s HS0. obind HA m HM0. apply Ok_inj in HA. subst a1. 
    assert (Hb := HB b (or_introl eq_refl)). apply (@muCached_spec b e m Hb) in HM0. subst m.
    unfold vget in HS0. destruct (nth_error (e_slabs env) b) as [s'|] eqn:Q; [|discriminate]. cbn in HS0. apply Ok_inj in HS0. subst s'.
    rewrite (@slab_mass b s Q) in H. apply IH in H; [|intros b' I; apply HB; right; exact I]. cbn [map Rsum]. rewrite H. rring. }
  specialize (G (seq (S lo) (hi - S lo)) 0 v). rnorm_in H. rewrite G; [rring| |exact H]. intros b I. apply in_seq in I. lia.
Qed.

(** one term, for a line whose own coefficient in the layer is [mu i e'] *)
Lemma term_spec i j s s2 massFactor e number rate x e' o :
  nth_error (e_slabs env) i = Some s -> nth_error (e_slabs env) j = Some s2 -> r_mu x = mu i e' ->
  secondaryTerm debug xl c env i j s s2 (mu i E) massFactor e (mu j e) number rate x = Ok o ->
  o = if neglected xl c comps i j rate e' then None
      else Some (geometry debug xl c comps i j E e' e * (massFactor * (Rlit 5 (-1) / sin_degrees (c_alphaIn c))) * rate * number).
Proof.
  intros Hs Hs2 HX H. unfold secondaryTerm in H. unfold neglected, geometry.
  assert (Hi : (i < n)%nat) by (rewrite <- (proj1 EO); apply nth_error_Some; intros Q; discriminate (eq_trans (eq_sym Hs) Q)).
  assert (Hj : (j < n)%nat) by (rewrite <- (proj1 EO); apply nth_error_Some; intros Q; discriminate (eq_trans (eq_sym Hs2) Q)).
  pose proof (@slab_mass i s Hs) as M1. pose proof (@slab_mass j s2 Hs2) as M2.
  destruct (proj2 EO i s Hs) as (S1 & S2 & _). destruct (proj2 EO j s2 Hs2) as (T1 & T2 & _).
  destruct (proj1 EF j s2 Hs2) as (MJ & _).
  destruct (Nat.eqb_spec i j) as [<-|NE]; cbn [negb andb].
  - unfold intraTerm in H. rewrite HX, S1, !sinDegrees_R in H. obind H v V. apply Ok_inj in H. subst o. f_equal.
    obind V a HA. obind V b HB. apply Ok_inj in V. subst v. rnorm_all. unfold L0. toR. rewrite HA.
    unfold sin_in. match type of HB with (if ?b then _ else _) = _ => destruct b eqn:B end.
    + change (@nlit RNum) with Rlit in *. toR. rewrite HB. rring.
    + change (@nlit RNum) with Rlit in *. toR. rewrite HB. rring.
  - destruct (Nat.ltb_spec i j) as [LT|GE]; cbn [andb].
    + unfold interTermA in H. change (@nlit RNum) with Rlit in *. rnorm_in H. destruct (Rltb rate (Rlit 1 (-30))); [apply Ok_inj in H; subst; reflexivity|]. cbn [orb].
      obind H m1 HM1. obind H mb HMB. apply (@muCached_spec i e m1 Hi) in HM1. apply (@between_spec i j e mb ltac:(lia)) in HMB. subst m1 mb.
      rewrite HX, M1, M2, MJ, S1, !sinDegrees_R in H.
      assert (EQ : nexp (- mu i e' * l_density (layer_at c i) * l_thickness (layer_at c i) / sin_degrees (c_alphaOut c)) = leaving xl c comps i e').
      { unfold leaving. rnorm. f_equal. unfold mass_thickness. unfold Rdiv. rring. }
      rnorm_in EQ. toR. rewrite EQ in H. destruct (Rltb (leaving xl c comps i e') (Rlit 1 (-3))); [apply Ok_inj in H; subst; reflexivity|].
      obind H X HXX. apply Ok_inj in H. subst o. f_equal. unfold XX, sin_in. 
      destruct (Reqb (- (mu j E / sin_degrees (c_alphaIn c))) (mu j e)) eqn:B; toR; rewrite HXX; rring.
    + unfold interTermB in H. cbv zeta in H. change (@nlit RNum) with Rlit in *. rnorm_in H. destruct (Rltb rate (Rlit 1 (-30))); [apply Ok_inj in H; subst; reflexivity|]. cbn [orb].
      obind H m1 HM1. obind H mb HMB. apply (@muCached_spec i e m1 Hi) in HM1. apply (@between_spec j i e mb ltac:(lia)) in HMB. subst m1 mb.
      rewrite HX, M1, M2, MJ, T1, !sinDegrees_R in H.
      assert (EQ : nexp (- mu j E * l_density (layer_at c j) * l_thickness (layer_at c j) / sin_degrees (c_alphaIn c)) = exp (- (mu j E * mass_thickness c j / sin_degrees (c_alphaIn c)))).
      { rnorm. f_equal. unfold mass_thickness. unfold Rdiv. rring. }
      rnorm_in EQ. toR. rewrite EQ in H.
      obind H X HXX. apply Ok_inj in H. subst o. f_equal. unfold XX, sin_in.
      destruct (Reqb (mu j E / sin_degrees (c_alphaIn c)) (mu j e)) eqn:B; toR; rewrite HXX; rring.
Qed.
End Env.
End Term.
