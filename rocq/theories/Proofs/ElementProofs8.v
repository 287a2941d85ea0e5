(** End-to-end statements about Element. *)
From Coq Require Import Ascii String List ZArith Bool Reals Lra Lia Sorted.
From Verif Require Import Base.Num Base.Res Base.RSum Base.SMap Base.Str Base.ListLemmas
  Model.Shell Model.Element Spec.ShellSpec Spec.ElementSpec Proofs.ShellProofs
  Proofs.ElementProofs Proofs.ElementProofs2 Proofs.ElementProofs3 Proofs.ElementProofs4.
Import ListNotations.
Local Open Scope string_scope.
Local Open Scope R_scope.
Local Existing Instance RNum.
Notation tab := (list (string * R)).

(** ** The interpolation *)
Lemma good_grid_interp (b : bool) g y (E : R) : good_grid g y -> 0 < E -> exists v, otherValue b g y E = Ok v /\ partialShell g y E = Ok v /\ interpolates g y E v.
Proof.
  intros (Hs & Hn & Hl & Hg & Hy) HE.
  destruct (otherValue_spaced b g y E Hs Hn Hl Hy) as (i & x0 & x1 & y0 & y1 & _ & _ & _ & _ & _ & _ & O & P).
  set (v := loglog E x0 x1 y0 y1) in *. exists v. split; [exact O|]. split; [exact P|]. split; [|split; [|split]].
  - intros j w Hj Hw. destruct (grid_exact b g y j E w Hs Hn Hl Hg Hy Hj Hw) as [A _]. rewrite O in A. apply Ok_inj in A. exact A.
  - intros j a0 a1 b0 b1 H0 H1 H2 H3 H4. destruct (grid_between b g y j E a0 a1 b0 b1 Hs Hl Hg Hy H0 H1 H2 H3 H4) as (A & _ & B).
    rewrite O in A. apply Ok_inj in A. split; [exact A|]. rewrite A. exact B.
  - intros a0 a1 b0 b1 H0 H1 H2 H3 H4. destruct (grid_outside b g y E Hs Hn Hl Hg Hy HE) as [A _].
    destruct (A a0 a1 b0 b1 H0 H1 H2 H3) as [B _]; [lra|]. rewrite O in B. apply Ok_inj in B. exact B.
  - intros a0 a1 b0 b1 n Hln H0 H1 H2 H3 H4. destruct (grid_outside b g y E Hs Hn Hl Hg Hy HE) as [_ A].
    destruct (A a0 a1 b0 b1 n Hln H0 H1 H2 H3 H4) as [B _]. rewrite O in B. apply Ok_inj in B. exact B.
Qed.

Lemma empty_cache_mu (e : el) (E : R) t : el_muCache e = [] -> getMassAttenuationCoefficients e E = Ok t -> computeMu e E = Ok t.
Proof.
  unfold getMassAttenuationCoefficients. intros H. rewrite H. destruct (Nat.ltb _ _); [discriminate|]. cbn [mfind].
  destruct (el_cacheFlag e); auto.
Qed.
Lemma setMu_Ok (e e' : el) g ph co cp pr : setMassAttenuationCoefficients e g ph co cp pr = (e', Ok tt) ->
  el_muCache e' = [] /\ el_muE e' = g /\ vlookup "coherent" (el_mu e') = Ok co /\ vlookup "compton" (el_mu e') = Ok cp /\
  vlookup "pair" (el_mu e') = Ok (if Nat.ltb 0 (length pr) then pr else repeat 0 (length g)) /\
  (length pr = 0%nat \/ length pr = length g) /\ el_ppE e' = el_ppE e.
Proof.
  unfold setMassAttenuationCoefficients. intros H.
  destruct (negb (Nat.eqb (length ph) (length g))); [discriminate|]. destruct (negb (Nat.eqb (length cp) (length g))); [discriminate|].
  destruct (negb (Nat.eqb (length co) (length g))); [discriminate|].
  destruct (Nat.ltb 0 (length pr) && negb (Nat.eqb (length pr) (length g))) eqn:P; [discriminate|].
  match type of H with (if ?c then _ else _) = _ => destruct c; [discriminate|] end.
  injection H as <-. split; [reflexivity|]. split; [reflexivity|]. split; [reflexivity|]. split; [reflexivity|]. split; [reflexivity|].
  split; [|reflexivity]. apply andb_false_iff in P as [P|P].
  - left. apply Nat.ltb_ge in P. lia.
  - right. apply negb_false_iff, Nat.eqb_eq in P. exact P.
Qed.
Lemma scattering_end_to_end (e e' : el) g ph co cp pr k y (E : R) t :
  setMassAttenuationCoefficients e g ph co cp pr = (e', Ok tt) ->
  In (k, y) [("coherent", co); ("compton", cp); ("pair", pr)] -> good_grid g y -> 0 < E ->
  getMassAttenuationCoefficients e' E = Ok t -> interpolates g y E (value_or_0 k t).
Proof.
  intros H Hk Hg HE Ht. destruct (setMu_Ok _ _ _ _ _ _ _ H) as (C & G & V1 & V2 & V3 & _ & _). apply empty_cache_mu in Ht; [|exact C].
  apply computeMu_spec in Ht as (_ & _ & S & _). rewrite G in S.
  assert (L : vlookup k (el_mu e') = Ok y /\ In k scattering_names).
  { destruct Hk as [Hk|[Hk|[Hk|[]]]]; injection Hk as <- <-; split; try assumption; try (cbn; tauto).
    rewrite V3. destruct Hg as (_ & Hn & Hl & _). destruct (Nat.ltb_spec 0 (length pr)); [reflexivity|]. rnorm_all. lia. }
  destruct L as [L1 L2]. destruct (S k L2) as (y' & v & A & B & D). rewrite L1 in A. apply Ok_inj in A. subst y'.
  destruct (good_grid_interp true g y E Hg HE) as (w & O & _ & I). rewrite (vSome _ _ _ D).
  assert (X : Ok w = Ok v) by (rewrite <- O; exact B). apply Ok_inj in X. subst w. exact I.
Qed.
(** without a pair column the pair coefficient is 0 *)
Lemma repeat_nth {A} (a b : A) n i : nth_error (repeat a n) i = Some b -> b = a.
Proof. intros H. apply nth_error_In in H. apply repeat_spec in H. exact H. Qed.

Lemma mfind_some_In {A} k (v : A) (m : list (string * A)) : mfind sltb k m = Some v -> exists k', In (k', v) m.
Proof.
  induction m as [|[q w] m IH]; [discriminate|]. cbn. destruct (sltb q k); [intros H; destruct (IH H) as [k' X]; exists k'; right; exact X|].
  destruct (sltb k q); [discriminate|]. intros H; injection H as <-. exists q. left. reflexivity.
Qed.
Lemma edgeFix_id (b : R) l : forall pe pv : R, StronglySorted Rlt (pe :: map fst l) -> Forall (fun x => b <= fst x) l -> edgeFix b pe pv l = (pe, pv) :: l.
Proof.
  induction l as [|[e v] l IH]; intros pe pv Hs Hb; [reflexivity|]. cbn [map fst] in Hs. inversion Hs as [|? ? Hs' Hf]; subst.
  inversion Hb as [|? ? H1 H2]; subst. inversion Hf as [|? ? F1 F2]; subst. cbn [fst] in H1. cbn [edgeFix].
  change (nltb e b) with (Rltb e b). change (neqb e pe) with (Reqb e pe).
  destruct (Rltb_spec e b); [lra|]. destruct (Reqb_spec e pe); [lra|]. f_equal. apply IH; assumption.
Qed.
Lemma combine_split_eq {A B} (a : list A) (b : list B) : length a = length b -> map fst (combine a b) = a /\ map snd (combine a b) = b.
Proof.
  revert b; induction a as [|x a IH]; intros [|y b] H; try discriminate; [split; reflexivity|]. cbn in *.
  destruct (IH b) as [E1 E2]; [lia|]. rewrite E1, E2. split; reflexivity.
Qed.
Lemma partial_stored (e e' : el) k (g y : list R) : setPartialPhotoelectric e k g y = (e', Ok tt) -> good_grid g y ->
  k = "all other" \/ (exists b, mfind sltb k (el_binding e) = Some b /\ Forall (fun x => b <= x) g) ->
  mfind sltb k (el_ppE e') = Some g /\ mfind sltb k (el_ppV e') = Some y /\ el_muCache e' = [] /\
  (forall b, mfind sltb k (el_binding e) = Some b -> mfind sltb k (el_binding e') = Some b).
Proof.
  intros H Hg Hk. unfold setPartialPhotoelectric in H.
  do 3 (match type of H with (if ?c then _ else _) = _ => destruct c; [discriminate|] end).
  destruct (String.eqb_spec k "all other") as [->|Hn].
  - injection H as <-. cbn. rewrite !sfind_same. auto.
  - destruct Hk as [|(b & Hb & Hf)]; [contradiction|].
    destruct Hg as (Hs & Hl2 & Hl & _ & _). pose proof (combine_split_eq g y (eq_sym Hl)) as [C1 C2].
    change (@combine (@num RNum) (@num RNum) g y) with (@combine R R g y) in H.
    destruct (@combine R R g y) as [|[e0 v0] [|p l]] eqn:CB.
    { exfalso. cbn in C1. rewrite <- C1 in Hl2. cbn in Hl2. lia. }
    { exfalso. cbn in C1. rewrite <- C1 in Hl2. cbn in Hl2. lia. }
    cbn [el_binding clearCache with_cache] in H.
    assert (Bt : mtouch (el_binding e) k = el_binding e).
    { unfold mtouch, mmem. 
      rewrite Hb. reflexivity. }
    rewrite Bt in H. assert (Vb : val0 (el_binding e) k = b).
    { unfold val0.  rewrite Hb. reflexivity. }
    rewrite Vb in H. rewrite edgeFix_id in H.
    + injection H as <-. cbn [el_ppE el_ppV with_binding with_pp el_binding el_muCache clearCache with_cache].
      rewrite !sfind_same. split; [f_equal; exact C1|]. split; [f_equal; exact C2|]. split; [reflexivity|auto].
    + pose proof (spaced_ascending _ Hs) as Hi. unfold strictly_increasing in Hi. cbn [map fst] in C1. rewrite <- C1 in Hi. exact Hi.
    + rewrite <- C1 in Hf. rewrite Forall_map in Hf. apply Forall_inv_tail in Hf. exact Hf.
Qed.
Lemma partial_end_to_end (e e' : el) k (g y : list R) (E : R) t : In k photo_names ->
  setPartialPhotoelectric e k g y = (e', Ok tt) -> good_grid g y -> 0 < E ->
  k = "all other" \/ (exists b, mfind sltb k (el_binding e) = Some b /\ b <> 0 /\ b <= E /\ Forall (fun x => b <= x) g) ->
  getMassAttenuationCoefficients e' E = Ok t -> interpolates g y E (value_or_0 k t).
Proof.
  intros Hk H Hg HE Hb Ht. destruct (partial_stored e e' k g y H Hg) as (P1 & P2 & P3 & P4).
  { destruct Hb as [|(b & B1 & _ & _ & B2)]; [left; assumption|right; exists b; auto]. }
  apply empty_cache_mu in Ht; [|exact P3]. apply computeMu_spec in Ht as (_ & (part & Hp & Hv) & _).
  specialize (Hv k Hk). rewrite (vSome _ _ _ Hv).
  assert (X : existsb (fun kv => Nat.ltb 0 (length (snd kv))) (el_ppE e') = true).
  { destruct (mfind_some_In _ _ _ P1) as [k' I]. apply existsb_exists. exists (k', g). split; [exact I|]. cbn [snd].
    destruct Hg as (_ & Hn & _). apply Nat.ltb_lt. rnorm_all. lia. }
  rewrite X in Hp. destruct (getPartial_lookup _ _ Hp Hk) as (v & A & B). rewrite val0_R, (vSome _ _ _ B).
  unfold partialValue, vlookup in A. destruct (good_grid_interp false g y E Hg HE) as (w & O1 & O2 & I).
  rewrite P1, P2 in A. cbn [of_opt rbind] in A. unfold finite_or in A.
  destruct (String.eqb_spec k "all other") as [->|Hn].
  - change (@otherValue RNum false g y E) with (otherValue false g y E) in A. rewrite O1 in A. cbn in A. apply Ok_inj in A. subst v. exact I.
  - destruct Hb as [|(b & B1 & B2 & B3 & B4)]; [contradiction|]. apply P4 in B1.
    rewrite B1 in A. cbn [of_opt rbind] in A.
    change (neqb b n0) with (Reqb b 0) in A. change (nltb E b) with (Rltb E b) in A.
    destruct (Reqb_spec b 0); [contradiction|]. destruct (Rltb_spec E b); [lra|]. cbn [orb] in A.
    rewrite O2 in A. cbn in A. apply Ok_inj in A. subst v. exact I.
Qed.

(** ** Sums in every history *)
Definition sums (t : tab) : Prop :=
  mfind sltb "photoelectric" t = Some (photo_sum t) /\
  mfind sltb "total" t = Some (value_or_0 "photoelectric" t + value_or_0 "coherent" t + value_or_0 "compton" t + value_or_0 "pair" t).
Definition sums_inv (e : el) : Prop := Forall (fun kv => sums (snd kv)) (el_muCache e).
Lemma Forall_mset_gen {A} (P : R * A -> Prop) k v m : (forall k', P (k', v)) -> Forall P m -> Forall P (mset Rltb k v m).
Proof.
  intros Hv. induction 1 as [|[q w] m Hq Hm IH]; cbn; [constructor; [apply Hv|constructor]|].
  destruct (Rltb q k); [constructor; assumption|]. destruct (Rltb k q); [constructor; [apply Hv|constructor; assumption]|constructor; [apply Hv|assumption]].
Qed.
Lemma assign_sums k (r : res tab) c c' s : (forall t, r = Ok t -> sums t) -> @cacheAssign RNum tab false k [] r c = (c', s) ->
  Forall (fun kv => sums (snd kv)) c -> Forall (fun kv => sums (snd kv)) c'.
Proof.
  intros Hr H Hc. unfold cacheAssign in H. destruct r as [t| | |]; injection H as <- <-; try exact Hc.
  apply Forall_mset_gen; [intros; apply Hr; reflexivity|exact Hc].
Qed.
Lemma mu_sums_uncached (e : el) (E : R) t : getMassAttenuationCoefficients (uncached e) E = Ok t -> sums t.
Proof.
  unfold getMassAttenuationCoefficients. destruct (Nat.ltb _ _); [discriminate|]. cbn [el_cacheFlag uncached setCacheEnabled with_cache Z.eqb negb].
  intros H. apply computeMu_sums in H. exact H.
Qed.
Lemma fillLoop_sums (e : el) ens : forall mc xc mc' xc' r, fillLoop false (uncached e) ens mc xc = (mc', xc', r) ->
  Forall (fun kv => sums (snd kv)) mc -> Forall (fun kv => sums (snd kv)) mc'.
Proof.
  induction ens as [|en ens IH]; intros mc xc mc' xc' r H Hm; cbn [fillLoop] in H; [injection H as <- <- <-; exact Hm|].
  unfold fillOne in H. destruct (cacheAssign false en [] (getMassAttenuationCoefficients (uncached e) en) mc) as [mc1 r1] eqn:E1.
  assert (H1 : Forall (fun kv => sums (snd kv)) mc1) by (eapply assign_sums; [|exact E1|exact Hm]; intros t Ht; eapply mu_sums_uncached, Ht).
  destruct r1 as [u| | |]; try (injection H as <- <- <-; exact H1).
  destruct (cacheAssign false en [] (getPhotoelectricExcitationFactors (uncached e) en n1) xc) as [xc1 r2].
  destruct r2 as [u'| | |]; try (injection H as <- <- <-; exact H1). eapply IH; [exact H|exact H1].
Qed.
Lemma updateLoop_sums (e : el) ens : forall mc xc mc' xc' r, updateLoop false (uncached e) ens mc xc = (mc', xc', r) ->
  Forall (fun kv => sums (snd kv)) mc -> Forall (fun kv => sums (snd kv)) mc'.
Proof.
  induction ens as [|en ens IH]; intros mc xc mc' xc' r H Hm; cbn [updateLoop] in H; [injection H as <- <- <-; exact Hm|].
  unfold updateOne in H. destruct (Nat.ltb (length mc) cacheMaximumSize); [|eapply IH; eassumption].
  destruct (if mmem nltb en mc then _ else _) as [mc1 r1] eqn:E1.
  assert (H1 : Forall (fun kv => sums (snd kv)) mc1).
  { destruct (mmem nltb en mc); [injection E1 as <- <-; exact Hm|]. eapply assign_sums; [|exact E1|exact Hm]. intros t Ht; eapply mu_sums_uncached, Ht. }
  destruct r1 as [u| | |]; try (injection H as <- <- <-; exact H1).
  destruct (mmem nltb en xc); [eapply IH; eassumption|].
  destruct (cacheAssign false en [] (getPhotoelectricExcitationFactors (uncached e) en n1) xc) as [xc1 r2].
  destruct r2 as [u'| | |]; try (injection H as <- <- <-; exact H1). eapply IH; [exact H|exact H1].
Qed.
Lemma sums_step (e : el) o : sums_inv e -> sums_inv (fst (el_call false e o)).
Proof.
  intros H. assert (D : is_fill o \/ ~ is_fill o) by (destruct o; cbn; tauto). destruct D as [D|D].
  - destruct o; try destruct D; cbn [el_call].
    + unfold fillCache. destruct (fillLoop _ _ _ _ _) as [[mc xc] r] eqn:E. cbn [fst]. unfold sums_inv. cbn [el_muCache with_cache].
      eapply fillLoop_sums; [exact E|constructor].
    + unfold updateCache. destruct (updateLoop _ _ _ _ _) as [[mc xc] r] eqn:E. cbn [fst]. unfold sums_inv. cbn [el_muCache with_cache].
      eapply updateLoop_sums; [exact E|exact H].
  - destruct (call_caches false e o D) as [[A _]|[A _]]; unfold sums_inv; rewrite A; [exact H|constructor].
Qed.
Lemma sums_run ops : forall e : el, sums_inv e -> sums_inv (el_run false e ops).
Proof.
  induction ops as [|o ops IH]; intros e H; [exact H|].
  change (el_run false e (o :: ops)) with (el_run false (fst (el_call false e o)) ops). apply IH, sums_step, H.
Qed.
Lemma fresh_sums (e : el) : fresh e -> sums_inv e.
Proof.
  intros H. assert (A : el_muCache e = []).
  { destruct H as [->|(name & z & H)]; [reflexivity|]. unfold element_new in H. destruct (z <? 1)%Z; [discriminate|]. injection H as <-. reflexivity. }
  unfold sums_inv. rewrite A. constructor.
Qed.
Lemma rfind_In {A} (E : R) (t : A) m : mfind Rltb E m = Some t -> exists k, In (k, t) m.
Proof.
  induction m as [|[q w] m IH]; [discriminate|]. cbn. destruct (Rltb q E); [intros H; destruct (IH H) as [k' X]; exists k'; right; exact X|].
  destruct (Rltb E q); [discriminate|]. intros H; injection H as <-. exists q. left. reflexivity.
Qed.
Lemma history_sums (e0 : el) ops (E : R) t : fresh e0 -> getMassAttenuationCoefficients (el_run false e0 ops) E = Ok t -> sums t.
Proof.
  intros F H. pose proof (sums_run ops e0 (fresh_sums e0 F)) as S. set (e := el_run false e0 ops) in *.
  unfold getMassAttenuationCoefficients in H. destruct (Nat.ltb _ _); [discriminate|].
  destruct (if el_cacheFlag e then mfind nltb E (el_muCache e) else None) as [t'|] eqn:C.
  - injection H as <-. destruct (el_cacheFlag e); [|discriminate]. apply (rfind_In E t') in C as [k I].
    unfold sums_inv in S. rewrite Forall_forall in S. exact (S _ I).
  - apply computeMu_sums in H. exact H.
Qed.

(** ** The evaluation order does not matter while no call throws *)
Lemma assign_lf {A} lf k (d : A) r (c c' : list (R * A)) : @cacheAssign RNum A lf k d r c = (c', Ok tt) -> @cacheAssign RNum A false k d r c = (c', Ok tt).
Proof. unfold cacheAssign. destruct r; intros H; try discriminate; exact H. Qed.
Lemma fillLoop_lf lf (e : el) ens : forall mc xc mc' xc', fillLoop lf e ens mc xc = (mc', xc', Ok tt) -> fillLoop false e ens mc xc = (mc', xc', Ok tt).
Proof.
  induction ens as [|en ens IH]; intros mc xc mc' xc' H; cbn [fillLoop] in *; [exact H|]. unfold fillOne in *.
  destruct (cacheAssign lf en [] (getMassAttenuationCoefficients e en) mc) as [mc1 r1] eqn:E1. destruct r1 as [[]| | |]; try discriminate.
  rewrite (assign_lf _ _ _ _ _ _ E1).
  destruct (cacheAssign lf en [] (getPhotoelectricExcitationFactors e en n1) xc) as [xc1 r2] eqn:E2. destruct r2 as [[]| | |]; try discriminate.
  rewrite (assign_lf _ _ _ _ _ _ E2). apply IH, H.
Qed.
Lemma updateLoop_lf lf (e : el) ens : forall mc xc mc' xc', updateLoop lf e ens mc xc = (mc', xc', Ok tt) -> updateLoop false e ens mc xc = (mc', xc', Ok tt).
Proof.
  induction ens as [|en ens IH]; intros mc xc mc' xc' H; cbn [updateLoop] in *; [exact H|]. unfold updateOne in *.
  destruct (Nat.ltb (length mc) cacheMaximumSize); [|apply IH, H].
  destruct (mmem nltb en mc).
  - destruct (mmem nltb en xc); [apply IH, H|].
    destruct (cacheAssign lf en [] (getPhotoelectricExcitationFactors e en n1) xc) as [xc1 r2] eqn:E2. destruct r2 as [[]| | |]; try discriminate.
    rewrite (assign_lf _ _ _ _ _ _ E2). apply IH, H.
  - destruct (cacheAssign lf en [] (getMassAttenuationCoefficients e en) mc) as [mc1 r1] eqn:E1. destruct r1 as [[]| | |]; try discriminate.
    rewrite (assign_lf _ _ _ _ _ _ E1). destruct (mmem nltb en xc); [apply IH, H|].
    destruct (cacheAssign lf en [] (getPhotoelectricExcitationFactors e en n1) xc) as [xc1 r2] eqn:E2. destruct r2 as [[]| | |]; try discriminate.
    rewrite (assign_lf _ _ _ _ _ _ E2). apply IH, H.
Qed.
Lemma fillCasc_lf lf (e : el) subs : forall c c', fillCascLoop lf e subs c = (c', Ok tt) -> fillCascLoop false e subs c = (c', Ok tt).
Proof.
  induction subs as [|s subs IH]; intros c c' H; cbn [fillCascLoop] in *; [exact H|].
  destruct (getXRayLinesFromVacancyDistribution _ _ _ _); try discriminate. apply IH, H.
Qed.
Lemma call_lf lf (e e' : el) o : el_call lf e o = (e', Ok tt) -> el_call false e o = (e', Ok tt).
Proof.
  destruct o; cbn [el_call]; try (intros H; exact H).
  - unfold setCascadeCacheEnabled, fillCascadeCache. destruct (flag =? 0)%Z; [intros H; exact H|].
    destruct (Nat.ltb _ _); [|intros H; exact H]. destruct (fillCascLoop lf e (map fst (el_shells e)) []) as [c [[]| | |]] eqn:F; try discriminate.
    rewrite (fillCasc_lf _ _ _ _ _ F). intros H; exact H.
  - unfold fillCascadeCache. destruct (fillCascLoop lf e (map fst (el_shells e)) []) as [c [[]| | |]] eqn:F; try discriminate.
    rewrite (fillCasc_lf _ _ _ _ _ F). intros H; exact H.
  - unfold fillCache. destruct (fillLoop lf _ _ _ _) as [[mc xc] [[]| | |]] eqn:F; try discriminate.
    rewrite (fillLoop_lf _ _ _ _ _ _ _ F). intros H; exact H.
  - unfold updateCache. destruct (updateLoop lf _ _ _ _) as [[mc xc] [[]| | |]] eqn:F; try discriminate.
    rewrite (updateLoop_lf _ _ _ _ _ _ _ F). intros H; exact H.
Qed.
Lemma run_lf lf ops : forall e : el, all_ok lf e ops -> el_run lf e ops = el_run false e ops /\ (disciplined lf e ops -> disciplined false e ops).
Proof.
  induction ops as [|o ops IH]; intros e H; [split; [reflexivity|auto]|]. destruct H as [H1 H2].
  destruct (el_call lf e o) as [e' r] eqn:C. cbn [fst snd] in *. subst r. apply call_lf in C as C'.
  change (el_run lf e (o :: ops)) with (el_run lf (fst (el_call lf e o)) ops). change (el_run false e (o :: ops)) with (el_run false (fst (el_call false e o)) ops).
  rewrite C, C'. cbn [fst]. destruct (IH e' H2) as [I1 I2]. split; [exact I1|]. cbn [disciplined]. rewrite C, C'. cbn [fst].
  intros [D1 D2]. split; [|apply I2, D2]. intros U. apply D1. destruct o; cbn [unsafe] in *; try exact U; rewrite C' in U; rewrite C; exact U.
Qed.

(** ** Queries succeed on an element with scattering tables and no partial coefficients *)
Lemma otherValue_total b (g y : list R) (E : R) : spaced g -> (2 <= length g)%nat -> length y = length g -> exists v, otherValue b g y E = Ok v.
Proof.
  intros Hs Hn Hl. destruct (bracket_spaced g E Hs Hn) as (i & x0 & x1 & B & G0 & G1 & _). unfold otherValue. rewrite B. cbn [rbind].
  assert (L : (S i < length g)%nat) by (apply nth_error_Some; rewrite G1; discriminate).
  destruct (nth_error y i) as [y0|] eqn:Y0; [|exfalso; apply nth_error_None in Y0; rnorm_all; lia].
  destruct (nth_error y (S i)) as [y1|] eqn:Y1; [|exfalso; apply nth_error_None in Y1; rnorm_all; lia].
  assert (Z0 : zget y (Z.of_nat i) = Ok y0) by (rewrite zget_nat; unfold vget; rewrite Y0; reflexivity).
  assert (Z1 : zget y (Z.of_nat (S i)) = Ok y1) by (rewrite zget_nat; unfold vget; rewrite Y1; reflexivity).
  destruct (_ || _); [destruct b; eexists; eassumption|].
  rnorm_in Z0. rnorm_in Z1. rnorm.
  change (@zget (@num RNum)) with (@zget R). rewrite Z0. cbn [rbind]. rewrite Z1. cbn [rbind]. destruct (_ && _); [eexists; reflexivity|]. destruct (_ && _); eexists; reflexivity.
Qed.
Definition no_partials (e : el) : Prop := Forall (fun kv => snd kv = []) (el_ppE e).
Lemma mu_defined (e e' : el) g ph co cp pr (E : R) : no_partials e -> spaced g -> (2 <= length g)%nat ->
  setMassAttenuationCoefficients e g ph co cp pr = (e', Ok tt) -> exists t, getMassAttenuationCoefficients e' E = Ok t.
Proof.
  intros Hp Hs Hn H. assert (LC : length co = length g /\ length cp = length g).
  { clear - H. unfold setMassAttenuationCoefficients in H.
    match type of H with (if ?c then _ else _) = _ => destruct c; [discriminate|] end.
    match type of H with (if negb ?c then _ else _) = _ => destruct c eqn:C1; [|discriminate] end. cbn [negb] in H.
    match type of H with (if negb ?c then _ else _) = _ => destruct c eqn:C2; [|discriminate] end.
    apply Nat.eqb_eq in C1. apply Nat.eqb_eq in C2. split; assumption. }
  destruct (setMu_Ok _ _ _ _ _ _ _ H) as (C & G & V1 & V2 & V3 & V4 & V5).
  unfold getMassAttenuationCoefficients. rewrite G, C.
  match goal with |- context [if Nat.ltb ?a 1 then _ else _] => destruct (Nat.ltb_spec a 1) as [L|L]; [exfalso; rnorm_all; lia|] end.
  assert (X : existsb (fun kv => Nat.ltb 0 (length (snd kv))) (el_ppE e') = false).
  { rewrite V5. clear - Hp. induction Hp as [|kv l Hkv _ IH]; [reflexivity|]. destruct kv as [q w]. cbn in Hkv. subst w. exact IH. }
  assert (Q : exists t, computeMu e' E = Ok t).
  { unfold computeMu. rewrite X. cbn [rbind rmapM]. rewrite V1, V2, V3, G. cbn [rbind].
    destruct LC as [L1 L2].
    destruct (otherValue_total true g co E Hs Hn L1) as [v1 ->]. cbn [rbind].
    destruct (otherValue_total true g cp E Hs Hn L2) as [v2 ->]. cbn [rbind].
    match goal with |- context [otherValue true g ?y E] => destruct (otherValue_total true g y E Hs Hn) as [v3 ->] end.
    - destruct (Nat.ltb_spec 0 (length pr)) as [P|P]; [destruct V4 as [V4|V4]; [exfalso; rnorm_all; lia|exact V4]|apply repeat_length].
    - cbn [rbind]. eexists. reflexivity. }
  cbn [mfind]. destruct (el_cacheFlag e'); exact Q.
Qed.
Lemma fresh_no_partials (e : el) : fresh e -> no_partials e.
Proof.
  intros H. assert (A : el_ppE e = emptyPartials).
  { destruct H as [->|(name & z & H)]; [reflexivity|]. unfold element_new in H. destruct (z <? 1)%Z; [discriminate|]. injection H as <-. reflexivity. }
  unfold no_partials. rewrite A. repeat constructor.
Qed.
(** a one-point (or empty) column cannot be queried: undefined behaviour *)
Lemma one_point_UB (N : Num) (e e' : @element N) x ph co cp pr E : Forall (fun kv => snd kv = []) (el_ppE e) ->
  setMassAttenuationCoefficients e [x] ph co cp pr = (e', Ok tt) -> getMassAttenuationCoefficients e' E = UB.
Proof.
  intros Hp H. unfold setMassAttenuationCoefficients in H.
  repeat match type of H with (if ?c then _ else _) = _ => destruct c; [discriminate|] end. injection H as <-.
  assert (X : existsb (fun kv => Nat.ltb 0 (length (snd kv))) (el_ppE e) = false).
  { clear - Hp. induction Hp as [|kv l Hkv _ IH]; [reflexivity|]. destruct kv as [q w]. cbn in Hkv. subst w. exact IH. }
  assert (Q : forall y, otherValue true [x] y E = UB).
  { intros y. unfold otherValue. rewrite indices_short; [reflexivity|]. cbn. lia. }
  match goal with |- getMassAttenuationCoefficients ?x E = UB => set (e1 := x) end.
  assert (CM : computeMu e1 E = UB).
  { unfold computeMu. change (el_ppE e1) with (el_ppE e). rewrite X. cbn [rbind rmapM].
    change (vlookup "coherent" (el_mu e1)) with (Ok co). cbn [rbind]. change (el_muE e1) with [x]. rewrite Q. reflexivity. }
  unfold getMassAttenuationCoefficients. change (el_muE e1) with [x]. change (el_muCache e1) with (@nil (num * list (string * num))).
  cbn [length Nat.ltb Nat.leb mfind]. destruct (el_cacheFlag e1); exact CM.
Qed.
