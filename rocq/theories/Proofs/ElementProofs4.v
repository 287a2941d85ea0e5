(** The calculation cache of Element. *)
From Coq Require Import Ascii String List ZArith Bool Reals Lra Lia Sorted.
From Verif Require Import Base.Num Base.Res Base.RSum Base.SMap Base.Str Base.ListLemmas
  Model.Shell Model.Element Spec.ShellSpec Spec.ElementSpec Proofs.ElementProofs.
Import ListNotations.
Local Open Scope string_scope.

(** ** Map laws that need no sortedness *)
Section MapLaws.
Context {K V : Type} (ltb : K -> K -> bool) {ST : StrictTotal ltb}.
Lemma mfind_mset_other' k k' (v : V) m : k <> k' -> mfind ltb k' (mset ltb k v m) = mfind ltb k' m.
Proof.
  intros Hn. induction m as [|[q w] m IH]; cbn.
  - destruct (ltb k k') eqn:E1; [reflexivity|]. destruct (ltb k' k) eqn:E2; [reflexivity|].
    exfalso. apply Hn. apply (st_total (ltb:=ltb)); assumption.
  - destruct (ltb q k) eqn:E1; cbn.
    + rewrite IH. reflexivity.
    + destruct (ltb k q) eqn:E2; cbn.
      * destruct (ltb k k') eqn:E3; [reflexivity|]. destruct (ltb k' k) eqn:E4.
        -- assert (ltb k' q = true) by (eapply st_trans; eassumption). rewrite H.
           rewrite (st_asym _ _ H). reflexivity.
        -- exfalso. apply Hn. apply (st_total (ltb:=ltb)); assumption.
      * assert (q = k) as -> by (apply (st_total (ltb:=ltb)); assumption).
        destruct (ltb k k') eqn:E3; [reflexivity|]. destruct (ltb k' k) eqn:E4; [reflexivity|].
        exfalso. apply Hn. apply (st_total (ltb:=ltb)); assumption.
Qed.
Lemma mset_mset_same k (v v' : V) m : mset ltb k v (mset ltb k v' m) = mset ltb k v m.
Proof.
  induction m as [|[q w] m IH]; cbn.
  - rewrite st_irrefl. reflexivity.
  - destruct (ltb q k) eqn:E1; cbn; [rewrite E1, IH; reflexivity|].
    destruct (ltb k q) eqn:E2; cbn; [rewrite st_irrefl; reflexivity|]. rewrite E1, E2. reflexivity.
Qed.
Lemma mset_comm_lt k1 k2 (v1 v2 : V) m : ltb k1 k2 = true ->
  mset ltb k1 v1 (mset ltb k2 v2 m) = mset ltb k2 v2 (mset ltb k1 v1 m).
Proof.
  intros L. assert (L' := st_asym _ _ L). induction m as [|[q w] m IH]; cbn.
  - rewrite L, L'. reflexivity.
  - destruct (ltb q k1) eqn:E1.
    + assert (ltb q k2 = true) by (eapply st_trans; eassumption). rewrite H. cbn. rewrite E1, H, IH. reflexivity.
    + destruct (ltb k1 q) eqn:E2.
      * destruct (ltb q k2) eqn:E3; cbn.
        -- rewrite E1, E2, L, E3. reflexivity.
        -- destruct (ltb k2 q) eqn:E4; cbn; rewrite ?E1, ?E2, ?L, ?L', ?E3, ?E4; reflexivity.
      * assert (q = k1) as -> by (apply (st_total (ltb:=ltb)); assumption).
        rewrite L. cbn. rewrite st_irrefl, L. reflexivity.
Qed.
Lemma mset_comm k1 k2 (v1 v2 : V) m : k1 <> k2 ->
  mset ltb k1 v1 (mset ltb k2 v2 m) = mset ltb k2 v2 (mset ltb k1 v1 m).
Proof.
  intros Hn. destruct (ltb k1 k2) eqn:E1; [apply mset_comm_lt; assumption|].
  destruct (ltb k2 k1) eqn:E2; [symmetry; apply mset_comm_lt; assumption|].
  exfalso. apply Hn. apply (st_total (ltb:=ltb)); assumption.
Qed.
End MapLaws.
Lemma sfind_other {V} k k' (v : V) m : k <> k' -> mfind sltb k' (mset sltb k v m) = mfind sltb k' m.
Proof. apply (@mfind_mset_other' string V sltb sltb_total). Qed.
Lemma sset_same {V} k (v v' : V) m : mset sltb k v (mset sltb k v' m) = mset sltb k v m.
Proof. apply (@mset_mset_same string V sltb sltb_total). Qed.
Lemma sset_comm {V} k1 k2 (v1 v2 : V) m : k1 <> k2 -> mset sltb k1 v1 (mset sltb k2 v2 m) = mset sltb k2 v2 (mset sltb k1 v1 m).
Proof. apply (@mset_comm string V sltb sltb_total). Qed.
Lemma sfind_same {V} k (v : V) m : mfind sltb k (mset sltb k v m) = Some v.
Proof. apply (@mfind_mset_same string V sltb sltb_total). Qed.

Local Existing Instance RNum.
Local Open Scope R_scope.
Notation el := (@element RNum).

Lemma mset_mtouch {N : Num} (t : list (string * num)) k v : mset sltb k v (mtouch t k) = mset sltb k v t.
Proof. unfold mtouch. destruct (mmem sltb k t); [reflexivity|]. rewrite sset_same. reflexivity. Qed.
Lemma scale_factor_gen {N : Num} w p (t : list (string * num)) :
  scaleLine w (factorLine n1 p t) =
  mset sltb "rate" (nmul (nmul (nmul (val0 t "rate") n1) p) w) (mset sltb "factor" (nmul (nmul (val0 t "rate") n1) w) t).
Proof.
  unfold scaleLine, factorLine. set (r := val0 t "rate"). set (f := nmul r n1).
  set (t1 := mset sltb "rate" (nmul f p) (mset sltb "factor" f (mtouch t "rate"))).
  assert (F : val0 t1 "factor" = f).
  { unfold val0, t1. rewrite sfind_other by discriminate. rewrite sfind_same. reflexivity. }
  rewrite F. assert (Q : val0 (mset sltb "factor" (nmul f w) t1) "rate" = nmul f p).
  { unfold val0. rewrite sfind_other by discriminate. unfold t1. rewrite sfind_same. reflexivity. }
  rewrite Q. unfold t1.
  rewrite (sset_comm "factor" "rate") by discriminate. rewrite !sset_same.
  rewrite (sset_comm "rate" "factor") by discriminate. rewrite mset_mtouch.
  rewrite (sset_comm "factor" "rate") by discriminate. reflexivity.
Qed.
Lemma factorLine_gen {N : Num} w p (t : list (string * num)) :
  factorLine w p t = mset sltb "rate" (nmul (nmul (val0 t "rate") w) p) (mset sltb "factor" (nmul (val0 t "rate") w) t).
Proof.
  unfold factorLine. rewrite (sset_comm "rate" "factor") by discriminate. rewrite mset_mtouch.
  rewrite (sset_comm "factor" "rate") by discriminate. reflexivity.
Qed.
Lemma scale_factor (w p : R) (t : list (string * R)) : scaleLine w (factorLine n1 p t) = factorLine w p t.
Proof.
  etransitivity; [apply scale_factor_gen|]. etransitivity; [|symmetry; apply factorLine_gen].
  f_equal; [rnorm; ring|]. f_equal. rnorm. ring.
Qed.

(** ** Queries do not read the cache fields, except through the lookups *)
Lemma computeMu_cache (e : el) f a b E : computeMu (with_cache e f a b) E = computeMu e E.
Proof. reflexivity. Qed.
Lemma lines_cache (e : el) f a b d c y :
  getXRayLinesFromVacancyDistribution (with_cache e f a b) d c y = getXRayLinesFromVacancyDistribution e d c y.
Proof. reflexivity. Qed.

Lemma factors_scale (e : el) E w : el_cacheFlag e = false ->
  computeFactors e E w = rmap (map (fun kv => (fst kv, scaleLine w (snd kv)))) (computeFactors e E n1).
Proof.
  intros _. unfold computeFactors, rmap. destruct (getInitialPhotoelectricVacancyDistribution e E); cbn [rbind]; try reflexivity.
  destruct (getXRayLinesFromVacancyDistribution e a 1 1); cbn [rbind]; try reflexivity.
  destruct (getMassAttenuationCoefficients e E); cbn [rbind]; try reflexivity. f_equal.
  rewrite map_map. apply map_ext. intros [k t]. cbn [fst snd]. f_equal. symmetry. apply scale_factor.
Qed.

(** ** Invariant *)
Definition mu_now (e : el) (E : R) : res (list (string * R)) := getMassAttenuationCoefficients (uncached e) E.
Definition ex_now (e : el) (E : R) : res (list (string * list (string * R))) := getPhotoelectricExcitationFactors (uncached e) E 1.
Definition cache_inv (e : el) : Prop :=
  (forall E t, mfind Rltb E (el_muCache e) = Some t -> mu_now e E = Ok t) /\
  (forall E l, mfind Rltb E (el_exCache e) = Some l -> ex_now e E = Ok l).

Lemma inv_transparent (e : el) : cache_inv e ->
  forall E, getMassAttenuationCoefficients e E = getMassAttenuationCoefficients (uncached e) E /\
  forall w, getPhotoelectricExcitationFactors e E w = getPhotoelectricExcitationFactors (uncached e) E w.
Proof.
  intros [H1 H2] E.
  assert (M : getMassAttenuationCoefficients e E = getMassAttenuationCoefficients (uncached e) E).
  { specialize (H1 E). unfold mu_now in H1.
    change (getMassAttenuationCoefficients e E) with (if Nat.ltb (length (el_muE e)) 1 then Throw RuntimeError else
      match (if el_cacheFlag e then mfind Rltb E (el_muCache e) else None) with Some t => Ok t | None => computeMu e E end).
    change (getMassAttenuationCoefficients (uncached e) E) with (if Nat.ltb (length (el_muE e)) 1 then Throw RuntimeError else computeMu e E) in H1 |- *.
    destruct (Nat.ltb _ _); [reflexivity|]. destruct (el_cacheFlag e); [|reflexivity].
    destruct (mfind Rltb E (el_muCache e)); [|reflexivity]. symmetry. apply H1. reflexivity. }
  split; [assumption|]. intros w. specialize (H2 E). unfold ex_now in H2.
  assert (U : computeFactors e E w = computeFactors (uncached e) E w).
  { unfold computeFactors, getInitialPhotoelectricVacancyDistribution. rewrite M. reflexivity. }
  change (getPhotoelectricExcitationFactors e E w) with
    (match (if el_cacheFlag e then mfind Rltb E (el_exCache e) else None) with
     | Some l => Ok (map (fun kv => (fst kv, scaleLine w (snd kv))) l) | None => computeFactors e E w end).
  change (getPhotoelectricExcitationFactors (uncached e) E w) with (computeFactors (uncached e) E w).
  change (getPhotoelectricExcitationFactors (uncached e) E 1) with (computeFactors (uncached e) E 1) in H2.
  destruct (el_cacheFlag e); [|exact U]. destruct (mfind Rltb E (el_exCache e)) as [l|]; [|exact U].
  rewrite (factors_scale (uncached e) E w) by reflexivity. change (@n1 RNum) with 1. rewrite (H2 l eq_refl). reflexivity.
Qed.

Lemma inv_empty (e : el) : el_muCache e = [] -> el_exCache e = [] -> cache_inv e.
Proof. intros H1 H2. split; intros E v; rewrite ?H1, ?H2; discriminate. Qed.

(** preservation when the answers that were Ok stay the same and the caches are kept *)
Lemma inv_same (e e' : el) : cache_inv e -> el_muCache e' = el_muCache e -> el_exCache e' = el_exCache e ->
  (forall E t, mu_now e E = Ok t -> mu_now e' E = Ok t) -> (forall E l, ex_now e E = Ok l -> ex_now e' E = Ok l) -> cache_inv e'.
Proof.
  intros [H1 H2] M X Hm Hx. split; intros E v; [rewrite M|rewrite X]; intros H.
  - apply Hm, H1, H.
  - apply Hx, H2, H.
Qed.

(** ** Binding energies completed with zeros *)
Definition zero_ext (b b' : list (string * @num RNum)) : Prop :=
  forall k, mfind sltb k b' = mfind sltb k b \/ (mfind sltb k b = None /\ mfind sltb k b' = Some n0).
Lemma zero_ext_refl b : zero_ext b b.
Proof. intros k; left; reflexivity. Qed.
Lemma zero_ext_touch b b' k : zero_ext b b' -> zero_ext b (mtouch b' k).
Proof.
  intros H q. unfold mtouch, mmem. destruct (mfind sltb k b') eqn:E; [apply H|].
  destruct (String.string_dec k q) as [->|Hn].
  - rewrite sfind_same. right. split; [|reflexivity]. destruct (H q) as [G|[G _]]; [rewrite <- G; exact E|exact G].
  - rewrite sfind_other by assumption. apply H.
Qed.
Lemma edgeLoop_ext cands keys b0 b out : zero_ext b0 b -> zero_ext b0 (fst (edgeLoop cands keys b out)).
Proof.
  revert keys b out; induction cands as [|[en i] cands IH]; intros [|k keys] b out H; cbn [edgeLoop fst]; try assumption.
  apply IH. apply zero_ext_touch, H.
Qed.
Lemma zero_ext_val b b' k : zero_ext b b' -> val0 b' k = val0 b k.
Proof. intros H. unfold val0. destruct (H k) as [->|[-> ->]]; reflexivity. Qed.

Section Ext.
Variables (e : el) (b' : list (string * @num RNum)) (m' : list (string * list (@num RNum))).
Hypothesis HB : zero_ext (el_binding e) b'.
Hypothesis HM : forall k, In k ["coherent"; "compton"; "pair"] -> mfind sltb k m' = mfind sltb k (el_mu e).
Let e' : el := with_mu (with_binding e b') m' (el_muE e).

Lemma ext_partialValue E k v : partialValue e E k = Ok v -> partialValue e' E k = Ok v.
Proof.
  unfold partialValue. destruct (String.eqb k "all other"); [auto|].
  change (el_binding e') with b'. destruct (HB k) as [->|[G ->]]; [auto|]. rewrite G. discriminate.
Qed.
Lemma ext_getPartial E t : getPartialPhotoelectric e E = Ok t -> getPartialPhotoelectric e' E = Ok t.
Proof.
  unfold getPartialPhotoelectric. intros H. apply rbind_Ok in H as (l & Hl & H).
  assert (G : rmapM (fun s => rbind (partialValue e' E s) (fun v => Ok (s, v))) photoShells = Ok l).
  { apply rmapM_Ok. apply rmapM_Ok in Hl. clear -Hl HB. induction Hl as [|a b l l' H _ IH]; constructor; [|assumption].
    apply rbind_Ok in H as (v & Hv & H). rewrite (ext_partialValue _ _ _ Hv). exact H. }
  rewrite G. exact H.
Qed.
Lemma ext_computeMu E t : computeMu e E = Ok t -> computeMu e' E = Ok t.
Proof.
  unfold computeMu. change (el_ppE e') with (el_ppE e).
  assert (S : rmapM (fun k => rbind (vlookup k (el_mu e')) (fun y => rbind (otherValue true (el_muE e') y E) (fun v => Ok (k, v)))) ["coherent"; "compton"; "pair"] =
              rmapM (fun k => rbind (vlookup k (el_mu e)) (fun y => rbind (otherValue true (el_muE e) y E) (fun v => Ok (k, v)))) ["coherent"; "compton"; "pair"]).
  { cbn [rmapM]. unfold vlookup. change (el_mu e') with m'. change (el_muE e') with (el_muE e). rewrite !HM by (cbn; tauto). reflexivity. }
  rewrite S. destruct (existsb _ _).
  - intros H. apply rbind_Ok in H as (p & Hp & H). rewrite (ext_getPartial _ _ Hp). exact H.
  - auto.
Qed.
Lemma ext_mu_now E t : mu_now e E = Ok t -> mu_now e' E = Ok t.
Proof.
  change (mu_now e E) with (if Nat.ltb (length (el_muE e)) 1 then Throw RuntimeError else computeMu e E).
  change (mu_now e' E) with (if Nat.ltb (length (el_muE e)) 1 then Throw RuntimeError else computeMu e' E).
  destruct (Nat.ltb _ _); [auto|]. apply ext_computeMu.
Qed.
Lemma ext_fromEnergy k : fromEnergy e' k = fromEnergy e k.
Proof. unfold fromEnergy. change (el_binding e') with b'. rewrite (zero_ext_val _ _ _ HB). reflexivity. Qed.
Lemma ext_lineStep y k v sh out kv : lineStep e' y k v sh out kv = lineStep e y k v sh out kv.
Proof.
  unfold lineStep. change (el_binding e') with b'.
  destruct (if y then _ else _) as [r| | |]; cbn [rbind]; try reflexivity. destruct (nltb n0 r); [|reflexivity].
  destruct (HB k) as [->|[G1 G2]].
  - destruct (mfind sltb k (el_binding e)) as [en|]; [|reflexivity]. destruct (nleb en n0); [reflexivity|].
    destruct (lastTwo (fst kv)); cbn [rbind]; try reflexivity. rewrite ext_fromEnergy. reflexivity.
  - rewrite G1, G2. rnorm. destruct (Rleb_spec 0 0); [reflexivity|lra].
Qed.
Lemma rfold_ext {A B} (f g : B -> A -> res B) l b : (forall b a, f b a = g b a) -> rfold f l b = rfold g l b.
Proof. intros H. revert b; induction l as [|a l IH]; intros b; cbn; [reflexivity|]. rewrite H. destruct (g b a); cbn; auto. Qed.
Lemma ext_directLines y l : directLines e' y l = directLines e y l.
Proof.
  unfold directLines. apply rfold_ext. intros out kv. change (el_shells e') with (el_shells e).
  destruct (of_opt _); cbn; try reflexivity. apply rfold_ext. intros. apply ext_lineStep.
Qed.
Lemma ext_lines d c y : getXRayLinesFromVacancyDistribution e' d c y = getXRayLinesFromVacancyDistribution e d c y.
Proof.
  unfold getXRayLinesFromVacancyDistribution.
  change (cascadeList e' d) with (cascadeList e d). change (initialDistribution e' d) with (initialDistribution e d).
  change (cachedLines e' d) with (cachedLines e d). change (el_cascFlag e') with (el_cascFlag e). change (el_cascCache e') with (el_cascCache e).
  rewrite ext_directLines. destruct (negb (c =? 0)%Z); [|reflexivity]. destruct (_ && _); [reflexivity|].
  destruct (cascadeList e d); cbn; try reflexivity. apply ext_directLines.
Qed.
Lemma ext_ex_now E l : ex_now e E = Ok l -> ex_now e' E = Ok l.
Proof.
  assert (X : forall e : el, ex_now e E = rbind (rmap vacancies (mu_now e E)) (fun d =>
    rbind (getXRayLinesFromVacancyDistribution e d 1 1) (fun l => rbind (mu_now e E) (fun mu =>
    Ok (map (fun kv => (fst kv, factorLine 1 (val0 mu "photoelectric") (snd kv))) l))))) by reflexivity.
  rewrite !X. intros H. apply rbind_Ok in H as (d & Hd & H). unfold rmap in Hd. apply rbind_Ok in Hd as (mu & Hm & Hd).
  injection Hd as <-. rewrite Hm in H. rewrite (ext_mu_now _ _ Hm). cbn [rmap rbind] in H |- *. rewrite ext_lines. exact H.
Qed.
End Ext.

(** ** Filling *)
Lemma assign_inv {A} k (d : A) r (c c' : list (R * A)) s (P : R -> A -> Prop) :
  cacheAssign false k d r c = (c', s) -> (forall E v, mfind Rltb E c = Some v -> P E v) ->
  (forall v, r = Ok v -> P k v) -> forall E v, mfind Rltb E c' = Some v -> P E v.
Proof.
  unfold cacheAssign. intros H Hc Hr E v. destruct r as [w| | |]; injection H as <- <-; try apply Hc.
  destruct (st_eq_dec (ltb:=Rltb) k E) as [->|Hn].
  - rnorm. rewrite (@mfind_mset_same R A Rltb Rltb_total). intros G; injection G as <-. apply Hr. reflexivity.
  - rnorm. rewrite (@mfind_mset_other' R A Rltb Rltb_total) by assumption. apply Hc.
Qed.

Definition mc_ok (e : el) (mc : list (R * list (string * R))) : Prop := forall E t, mfind Rltb E mc = Some t -> mu_now e E = Ok t.
Definition xc_ok (e : el) (xc : list (R * list (string * list (string * R)))) : Prop := forall E l, mfind Rltb E xc = Some l -> ex_now e E = Ok l.

Lemma fillLoop_inv (e : el) ens mc xc mc' xc' r : fillLoop false (uncached e) ens mc xc = (mc', xc', r) ->
  mc_ok e mc -> xc_ok e xc -> mc_ok e mc' /\ xc_ok e xc'.
Proof.
  revert mc xc; induction ens as [|en ens IH]; intros mc xc H Hm Hx; cbn [fillLoop] in H.
  - injection H as <- <- <-. auto.
  - unfold fillOne in H.
    destruct (cacheAssign false en [] (getMassAttenuationCoefficients (uncached e) en) mc) as [mc1 r1] eqn:E1.
    assert (Hm1 : mc_ok e mc1). { refine (assign_inv _ _ _ _ _ _ (fun E t => mu_now e E = Ok t) E1 Hm _). intros v Hv; exact Hv. }
    destruct r1 as [u| | |]; try (injection H as <- <- <-; auto; fail).
    destruct (cacheAssign false en [] (getPhotoelectricExcitationFactors (uncached e) en n1) xc) as [xc1 r2] eqn:E2.
    assert (Hx1 : xc_ok e xc1). { refine (assign_inv _ _ _ _ _ _ (fun E t => ex_now e E = Ok t) E2 Hx _). intros v Hv; exact Hv. }
    destruct r2 as [u'| | |]; try (injection H as <- <- <-; auto; fail). eapply IH; eassumption.
Qed.
Lemma updateLoop_inv (e : el) ens mc xc mc' xc' r : updateLoop false (uncached e) ens mc xc = (mc', xc', r) ->
  mc_ok e mc -> xc_ok e xc -> mc_ok e mc' /\ xc_ok e xc'.
Proof.
  revert mc xc; induction ens as [|en ens IH]; intros mc xc H Hm Hx; cbn [updateLoop] in H.
  - injection H as <- <- <-. auto.
  - unfold updateOne in H. destruct (Nat.ltb (length mc) cacheMaximumSize); [|eapply IH; eassumption].
    destruct (if mmem nltb en mc then _ else _) as [mc1 r1] eqn:E1.
    assert (Hm1 : mc_ok e mc1).
    { destruct (mmem nltb en mc); [injection E1 as <- <-; assumption|].
      refine (assign_inv _ _ _ _ _ _ (fun E t => mu_now e E = Ok t) E1 Hm _). intros v Hv; exact Hv. }
    destruct r1 as [u| | |]; try (injection H as <- <- <-; auto; fail).
    destruct (mmem nltb en xc); [eapply IH; eassumption|].
    destruct (cacheAssign false en [] (getPhotoelectricExcitationFactors (uncached e) en n1) xc) as [xc1 r2] eqn:E2.
    assert (Hx1 : xc_ok e xc1). { refine (assign_inv _ _ _ _ _ _ (fun E t => ex_now e E = Ok t) E2 Hx _). intros v Hv; exact Hv. }
    destruct r2 as [u'| | |]; try (injection H as <- <- <-; auto; fail). eapply IH; eassumption.
Qed.

(** ** Steps *)
Lemma onShell_caches (e : el) sub s f fin : (forall e0 : el, el_muCache (fin e0) = el_muCache e0 /\ el_exCache (fin e0) = el_exCache e0 \/ el_muCache (fin e0) = [] /\ el_exCache (fin e0) = []) ->
  let e' := fst (onShell e sub s f fin) in
  (el_muCache e' = el_muCache e /\ el_exCache e' = el_exCache e) \/ (el_muCache e' = [] /\ el_exCache e' = []).
Proof.
  intros Hf. cbn zeta. unfold onShell. destruct s as [s| | |]; cbn [fst]; auto.
  destruct (f s) as [s' [u| | |]]; cbn [fst]; auto.
  match goal with |- context [fin ?x] => destruct (Hf x) as [[-> ->]|[-> ->]] end; auto.
Qed.
Lemma onShell_clear_ok (e : el) sub s f : snd (onShell e sub s f clearCache) = Ok tt ->
  el_muCache (fst (onShell e sub s f clearCache)) = [] /\ el_exCache (fst (onShell e sub s f clearCache)) = [].
Proof.
  unfold onShell. destruct s as [s| | |]; cbn; try discriminate. destruct (f s) as [s' [u| | |]]; cbn; try discriminate. auto.
Qed.

Definition is_fill (o : @el_op RNum) : Prop := match o with EFillCache _ | EUpdateCache _ => True | _ => False end.
Lemma call_caches lf (e : el) o : ~ is_fill o ->
  let e' := fst (el_call lf e o) in
  (el_muCache e' = el_muCache e /\ el_exCache e' = el_exCache e) \/ (el_muCache e' = [] /\ el_exCache e' = []).
Proof.
  intros Hf. cbn zeta.
  destruct o; cbn [el_call]; try (left; split; reflexivity).
  - unfold setAtomicMass. destruct (nltb a n0); left; split; reflexivity.
  - unfold setAtomicNumber. destruct (z <? 1)%Z; left; split; reflexivity.
  - unfold setBindingEnergies. destruct (bindingLoop m [] []) as [[b s] r]. left; split; reflexivity.
  - unfold setBindingEnergies_vec, setBindingEnergies. destruct (negb _); [left; split; reflexivity|].
    destruct (bindingLoop _ [] []) as [[b s] r]. left; split; reflexivity.
  - unfold setMassAttenuationCoefficients. repeat (destruct (_ : bool); [left; split; reflexivity|]). right; split; reflexivity.
  - unfold setPartialPhotoelectric. repeat (match goal with |- context [if negb ?c then _ else _] => destruct (negb c); [left; split; reflexivity|] end).
    destruct (not_ascending _ _); [left; split; reflexivity|]. destruct (String.eqb _ _); [right; split; reflexivity|].
    destruct (combine _ _) as [|[a b] [|p l]]; right; split; reflexivity.
  - apply onShell_caches. intros; left; auto.
  - apply onShell_caches. intros; right; auto.
  - apply onShell_caches. intros; right; auto.
  - apply onShell_caches. intros; right; auto.
  - apply onShell_caches. intros; right; auto.
  - unfold extractEdges, extractEdges_from. left.
    destruct (mmem sltb "photoelectric" (el_mu e)).
    + destruct (mfind sltb "photoelectric" (el_mu e)) as [[|p ps]|]; [split; reflexivity| |split; reflexivity].
      destruct (mfind sltb "energy" (el_mu e)); repeat (destruct (_ : bool); [split; reflexivity|]);
        destruct (edgeLoop _ _ _ _); split; reflexivity.
    + cbn zeta. destruct (mfind sltb "photoelectric" _) as [[|p ps]|]; [split; reflexivity| |split; reflexivity].
      destruct (mfind sltb "energy" _); repeat (destruct (_ : bool); [split; reflexivity|]);
        destruct (edgeLoop _ _ _ _); split; reflexivity.
  - unfold extractEdges_from. left. repeat (destruct (_ : bool); [split; reflexivity|]). destruct (edgeLoop _ _ _ _); split; reflexivity.
  - unfold setCascadeCacheEnabled, fillCascadeCache. left. destruct (flag =? 0)%Z; [split; reflexivity|].
    destruct (Nat.ltb _ _); [|split; reflexivity]. destruct (fillCascLoop _ _ _ _) as [c [u| | |]]; split; reflexivity.
  - unfold fillCascadeCache. left. destruct (fillCascLoop _ _ _ _) as [c [u| | |]]; split; reflexivity.
  - right; split; reflexivity.
  - exfalso. apply Hf. exact I.
  - exfalso. apply Hf. exact I.
Qed.

Lemma fill_inv (e : el) l : cache_inv e -> cache_inv (fst (fillCache false e l)).
Proof.
  intros _. unfold fillCache. destruct (fillLoop false (setCacheEnabled e 0) (firstn cacheMaximumSize l) [] []) as [[mc xc] r] eqn:E.
  apply fillLoop_inv in E; [exact E| |]; intros E0 v; discriminate.
Qed.
Lemma update_inv (e : el) l : cache_inv e -> cache_inv (fst (updateCache false e l)).
Proof.
  intros [H1 H2]. unfold updateCache. destruct (updateLoop false (setCacheEnabled e 0) l (el_muCache e) (el_exCache e)) as [[mc xc] r] eqn:E.
  apply updateLoop_inv in E; [exact E|exact H1|exact H2].
Qed.
Lemma edges_from_inv (e : el) en p : cache_inv e -> cache_inv (fst (extractEdges_from e en p)).
Proof.
  intros H. unfold extractEdges_from. cbn zeta.
  repeat (match goal with |- context [if ?c then (e, Throw RuntimeError) else _] => destruct c; [exact H|] end).
  destruct (edgeLoop _ _ _ _) as [b out] eqn:E. cbn [fst].
  assert (Z : zero_ext (el_binding e) b).
  { replace b with (fst (edgeLoop (rev (edgeCandidates 0 en p [])) shellKeys (el_binding e) [])) by (rewrite E; reflexivity).
    apply edgeLoop_ext, zero_ext_refl. }
  apply (inv_same e); [exact H|reflexivity|reflexivity| |].
  - intros E0 t. exact (ext_mu_now e b (el_mu e) Z (fun _ _ => eq_refl) E0 t).
  - intros E0 t. exact (ext_ex_now e b (el_mu e) Z (fun _ _ => eq_refl) E0 t).
Qed.
Lemma mu_ext_inv (e : el) k v : ~ In k ["coherent"; "compton"; "pair"] -> cache_inv e -> cache_inv (with_mu e (mset sltb k v (el_mu e)) (el_muE e)).
Proof.
  intros Hk H.
  assert (M : forall q, In q ["coherent"; "compton"; "pair"] -> mfind sltb q (mset sltb k v (el_mu e)) = mfind sltb q (el_mu e)).
  { intros q Hq. apply sfind_other. intros ->. contradiction. }
  apply (inv_same e); [exact H|reflexivity|reflexivity| |].
  - intros E0 t. exact (ext_mu_now e (el_binding e) _ (zero_ext_refl _) M E0 t).
  - intros E0 t. exact (ext_ex_now e (el_binding e) _ (zero_ext_refl _) M E0 t).
Qed.
Lemma edges_inv (e : el) : cache_inv e -> cache_inv (fst (extractEdges e)).
Proof.
  intros H. unfold extractEdges.
  set (e1 := if mmem sltb "photoelectric" (el_mu e) then e else with_mu e (mset sltb "photoelectric" [] (el_mu e)) (el_muE e)).
  assert (H1 : cache_inv e1).
  { unfold e1. destruct (mmem _ _ _); [exact H|]. apply mu_ext_inv; [|exact H]. cbn. intuition discriminate. }
  clearbody e1. destruct (mfind sltb "photoelectric" (el_mu e1)) as [[|p ps]|]; [exact H1| |exact H1].
  destruct (mfind sltb "energy" (el_mu e1)); apply edges_from_inv; [exact H1|].
  apply mu_ext_inv; [|exact H1]. cbn. intuition discriminate.
Qed.

Lemma safe_step (e : el) o : cache_inv e -> (unsafe false e o -> el_muCache e = [] /\ el_exCache e = []) ->
  cache_inv (fst (el_call false e o)).
Proof.
  intros H D.
  assert (U : unsafe false e o -> ~ is_fill o -> cache_inv (fst (el_call false e o))).
  { intros Hu Hf. destruct (D Hu) as [M X]. destruct (call_caches false e o Hf) as [[A B]|[A B]]; apply inv_empty; congruence. }

  destruct o; try (apply U; [exact I|intros []]); try exact H; cbn [el_call].
  - unfold setAtomicMass. destruct (nltb a n0); exact H.
  - unfold setAtomicNumber. destruct (z <? 1)%Z; exact H.
  - unfold setMassAttenuationCoefficients. cbn zeta.
    repeat (match goal with |- context [if ?c then (e, Throw InvalidArgument) else _] => destruct c; [exact H|] end). apply inv_empty; reflexivity.
  - unfold setPartialPhotoelectric. repeat (match goal with |- context [if negb ?c then _ else _] => destruct (negb c); [exact H|] end).
    destruct (not_ascending _ _); [exact H|]. destruct (String.eqb _ _); [apply inv_empty; reflexivity|].
    destruct (combine _ _) as [|[a b] [|p l]]; apply inv_empty; reflexivity.
  - destruct (snd (setRadiativeTransitions_map e shell m)) eqn:E.
    1: { destruct a. apply onShell_clear_ok in E as [A B]. apply inv_empty; [exact A|exact B]. }
    all: apply U; [cbn; rewrite E; discriminate|intros []].
  - destruct (snd (setNonradiativeTransitions_vec e shell labels values)) eqn:E.
    1: { destruct a. apply onShell_clear_ok in E as [A B]. apply inv_empty; [exact A|exact B]. }
    all: apply U; [cbn; rewrite E; discriminate|intros []].
  - destruct (snd (setNonradiativeTransitions_map e shell m)) eqn:E.
    1: { destruct a. apply onShell_clear_ok in E as [A B]. apply inv_empty; [exact A|exact B]. }
    all: apply U; [cbn; rewrite E; discriminate|intros []].
  - destruct (snd (setShellConstants e shell m)) eqn:E.
    1: { unfold setShellConstants, onShell in E |- *. destruct (getShell e shell); cbn in E |- *; try discriminate.
         destruct (Shell.setShellConstants a0 m) as [s' [u| | |]]; cbn in E |- *; try discriminate. apply inv_empty; reflexivity. }
    all: apply U; [cbn; rewrite E; discriminate|intros []].
  - destruct (extractEdges e) eqn:E. cbn. replace e0 with (fst (extractEdges e)) by (rewrite E; reflexivity). apply edges_inv, H.
  - destruct (extractEdges_from e energies photo) eqn:E. cbn. replace e0 with (fst (extractEdges_from e energies photo)) by (rewrite E; reflexivity). apply edges_from_inv, H.
  - apply inv_empty; reflexivity.
  - apply fill_inv, H.
  - apply update_inv, H.
Qed.

Lemma run_inv ops : forall e : el, cache_inv e -> disciplined false e ops -> cache_inv (el_run false e ops).
Proof.
  induction ops as [|o ops IH]; intros e H D; [exact H|]. destruct D as [D1 D2].
  change (el_run false e (o :: ops)) with (el_run false (fst (el_call false e o)) ops). apply IH; [|exact D2]. apply safe_step; assumption.
Qed.
Lemma fresh_inv (e : el) : fresh e -> cache_inv e.
Proof.
  intros [->|(name & z & H)]; [apply inv_empty; reflexivity|]. unfold element_new in H. destruct (z <? 1)%Z; [discriminate|].
  injection H as <-. apply inv_empty; reflexivity.
Qed.

(** ** Size *)
Definition keys_le {A B} (xc : list (R * A)) (mc : list (R * B)) : Prop := forall E, In E (mkeys xc) -> In E (mkeys mc).
Definition size_inv (e : el) : Prop :=
  (length (el_muCache e) <= cacheMaximumSize)%nat /\ msorted Rltb (el_muCache e) /\ msorted Rltb (el_exCache e) /\
  keys_le (el_exCache e) (el_muCache e).
Lemma mset_length {A} k (v : A) m : (length (mset Rltb k v m) <= S (length m))%nat.
Proof. induction m as [|[q w] m IH]; cbn; [lia|]. destruct (Rltb q k); cbn; [lia|]. destruct (Rltb k q); cbn; lia. Qed.
Lemma assign_size {A} lf k (d : A) r (c c' : list (R * A)) s : @cacheAssign RNum A lf k d r c = (c', s) -> msorted Rltb c ->
  msorted Rltb c' /\ (length c' <= S (length c))%nat /\ (forall E, In E (mkeys c') -> E = k \/ In E (mkeys c)) /\
  (forall E, In E (mkeys c) -> In E (mkeys c')) /\ (s = Ok tt -> In k (mkeys c')).
Proof.
  intros H Hs. unfold cacheAssign in H.
  assert (S1 : forall v, msorted Rltb (mset Rltb k v c)) by (intros; apply (@mset_sorted R A Rltb Rltb_total), Hs).
  assert (S2 : forall v E, In E (mkeys (mset Rltb k v c)) <-> E = k \/ In E (mkeys c)) by (intros; apply (@mset_keys_In R A Rltb Rltb_total), Hs).
  assert (S3 : forall v, (length (mset Rltb k v c) <= S (length c))%nat) by (intros; apply mset_length).
  destruct r as [v| | |]; [|destruct lf| |]; injection H as <- <-; rnorm.
  all: try (split; [exact Hs|]; split; [lia|]; split; [auto|]; split; [auto|discriminate]).
  - split; [apply S1|]. split; [apply S3|]. split; [intros E; apply S2|]. split; [intros E HE; apply S2; right; exact HE|].
    intros _. apply S2. left. reflexivity.
  - split; [apply S1|]. split; [apply S3|]. split; [intros E; apply S2|]. split; [intros E HE; apply S2; right; exact HE|discriminate].
Qed.
Lemma fillLoop_size lf (e : el) ens mc xc mc' xc' r : fillLoop lf e ens mc xc = (mc', xc', r) ->
  msorted Rltb mc -> msorted Rltb xc -> keys_le xc mc ->
  (length mc' <= length mc + length ens)%nat /\ msorted Rltb mc' /\ msorted Rltb xc' /\ keys_le xc' mc'.
Proof.
  revert mc xc; induction ens as [|en ens IH]; intros mc xc H Hm Hx Hk; cbn [fillLoop length] in H |- *.
  - injection H as <- <- <-. rnorm_all. split; [lia|split; [assumption|split; assumption]].
  - unfold fillOne in H.
    destruct (cacheAssign lf en [] (getMassAttenuationCoefficients e en) mc) as [mc1 r1] eqn:E1.
    destruct (assign_size _ _ _ _ _ _ _ E1 Hm) as (A1 & A2 & A3 & A4 & A5).
    assert (K1 : keys_le xc mc1) by (intros E HE; apply A4, Hk, HE).
    destruct r1 as [[]| | |]; try (injection H as <- <- <-; rnorm_all; split; [lia|split; [assumption|split; assumption]]).
    destruct (cacheAssign lf en [] (getPhotoelectricExcitationFactors e en n1) xc) as [xc1 r2] eqn:E2.
    destruct (assign_size _ _ _ _ _ _ _ E2 Hx) as (B1 & B2 & B3 & B4 & B5).
    assert (K2 : keys_le xc1 mc1).
    { intros E HE. apply B3 in HE as [->|HE]; [apply A5; reflexivity|apply K1, HE]. }
    destruct r2 as [u'| | |]; try (injection H as <- <- <-; rnorm_all; split; [lia|split; [assumption|split; assumption]]).
    apply IH in H; [|assumption|assumption|assumption]. destruct H as (H & H'). split; [rnorm_all; lia|exact H'].
Qed.
Lemma mmem_In {A} k (m : list (R * A)) : msorted Rltb m -> mmem Rltb k m = true -> In k (mkeys m).
Proof.
  intros Hs H. unfold mmem in H. destruct (mfind Rltb k m) eqn:E; [|discriminate].
  apply (@mfind_In R A Rltb Rltb_total) in E; [|assumption]. apply (in_map fst) in E. exact E.
Qed.
Lemma updateLoop_size lf (e : el) ens mc xc mc' xc' r : updateLoop lf e ens mc xc = (mc', xc', r) ->
  (length mc <= cacheMaximumSize)%nat -> msorted Rltb mc -> msorted Rltb xc -> keys_le xc mc ->
  (length mc' <= cacheMaximumSize)%nat /\ msorted Rltb mc' /\ msorted Rltb xc' /\ keys_le xc' mc'.
Proof.
  revert mc xc; induction ens as [|en ens IH]; intros mc xc H Hl Hm Hx Hk; cbn [updateLoop] in H.
  - injection H as <- <- <-. split; [assumption|split; [assumption|split; assumption]].
  - unfold updateOne in H. destruct (Nat.ltb_spec (length mc) cacheMaximumSize) as [L|L]; [|eapply IH; eassumption].
    destruct (if mmem nltb en mc then _ else _) as [mc1 r1] eqn:E1.
    assert (A : msorted Rltb mc1 /\ (length mc1 <= cacheMaximumSize)%nat /\ (forall E, In E (mkeys mc) -> In E (mkeys mc1)) /\ (r1 = Ok tt -> In en (mkeys mc1))).
    { destruct (mmem nltb en mc) eqn:Q.
      - injection E1 as <- <-. split; [assumption|]. split; [assumption|]. split; [auto|]. intros _. apply mmem_In; assumption.
      - destruct (assign_size _ _ _ _ _ _ _ E1 Hm) as (A1 & A2 & A3 & A4 & A5). split; [assumption|]. split; [|auto].
        exact (Nat.le_trans _ _ _ A2 L). }
    destruct A as (A1 & A2 & A3 & A4).
    assert (K1 : keys_le xc mc1) by (intros E HE; apply A3, Hk, HE).
    destruct r1 as [[]| | |]; try (injection H as <- <- <-; split; [assumption|split; [assumption|split; assumption]]).
    destruct (mmem nltb en xc); [eapply IH; eassumption|].
    destruct (cacheAssign lf en [] (getPhotoelectricExcitationFactors e en n1) xc) as [xc1 r2] eqn:E2.
    destruct (assign_size _ _ _ _ _ _ _ E2 Hx) as (B1 & B2 & B3 & B4 & B5).
    assert (K2 : keys_le xc1 mc1).
    { intros E HE. apply B3 in HE as [->|HE]; [apply A4; reflexivity|apply K1, HE]. }
    destruct r2 as [u'| | |]; try (injection H as <- <- <-; split; [assumption|split; [assumption|split; assumption]]). eapply IH; eassumption.
Qed.
Lemma size_step lf (e : el) o : size_inv e -> size_inv (fst (el_call lf e o)).
Proof.
  intros H.
  assert (D : is_fill o \/ ~ is_fill o) by (destruct o; cbn; tauto).
  destruct D as [D|D].
  - destruct o; try destruct D; cbn [el_call].
    + unfold fillCache. destruct (fillLoop _ _ _ _ _) as [[mc xc] r] eqn:E. apply fillLoop_size in E.
      * destruct E as (E1 & E2). split; [|exact E2]. cbn [fst el_muCache with_cache]. cbn [length] in E1. rewrite firstn_length in E1. lia.
      * apply (@msorted_nil R _ Rltb).
      * apply (@msorted_nil R _ Rltb).
      * intros x Hx. destruct Hx.
    + unfold updateCache. destruct (updateLoop _ _ _ _ _) as [[mc xc] r] eqn:E. destruct H as (H1 & H2 & H3 & H4).
      apply updateLoop_size in E; assumption.
  - destruct (call_caches lf e o D) as [[A B]|[A B]]; unfold size_inv; rewrite A, B; [exact H|].
    split; [apply Nat.le_0_l|]. split; [apply (@msorted_nil R _ Rltb)|]. split; [apply (@msorted_nil R _ Rltb)|]. intros x [].
Qed.
Lemma size_run lf ops : forall e : el, size_inv e -> size_inv (el_run lf e ops).
Proof.
  induction ops as [|o ops IH]; intros e H; [exact H|].
  change (el_run lf e (o :: ops)) with (el_run lf (fst (el_call lf e o)) ops). apply IH, size_step, H.
Qed.
Lemma size_fresh (e : el) : fresh e -> size_inv e.
Proof.
  intros H. assert (A : el_muCache e = [] /\ el_exCache e = []).
  { destruct H as [->|(name & z & H)]; [split; reflexivity|]. unfold element_new in H. destruct (z <? 1)%Z; [discriminate|].
    injection H as <-. split; reflexivity. }
  destruct A as [A B]. unfold size_inv. rewrite A, B.
  split; [apply Nat.le_0_l|]. split; [apply (@msorted_nil R _ Rltb)|]. split; [apply (@msorted_nil R _ Rltb)|]. intros x [].
Qed.
Lemma size_both (e : el) : size_inv e -> (length (el_muCache e) <= cacheMaximumSize)%nat /\ (length (el_exCache e) <= cacheMaximumSize)%nat.
Proof.
  intros (H1 & H2 & H3 & H4). split; [exact H1|].
  assert (length (mkeys (el_exCache e)) <= length (mkeys (el_muCache e)))%nat.
  { apply NoDup_incl_length; [|exact H4]. exact (@msorted_NoDup R _ Rltb Rltb_total _ H3). }
  unfold mkeys in H. rewrite !map_length in H. etransitivity; eassumption.
Qed.
