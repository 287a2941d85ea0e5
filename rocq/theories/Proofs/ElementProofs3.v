(** Vacancies, excited shells, emitted lines, transition energies. *)
From Coq Require Import Ascii String List ZArith Bool Reals Lra Lia Sorted.
From Verif Require Import Base.Num Base.Res Base.RSum Base.SMap Base.Str Base.ListLemmas
  Model.Shell Model.Element Spec.ShellSpec Spec.ElementSpec Proofs.ElementProofs Proofs.ElementProofs2 Proofs.LayerProofs Proofs.MathProofs.
Import ListNotations.
Local Existing Instance RNum.
Local Open Scope R_scope.
Local Open Scope string_scope.

Lemma val0_R (m : list (string * R)) k : val0 m k = value_or_0 k m.
Proof. reflexivity. Qed.

Lemma vSome (m : list (string * R)) k (v : R) : mfind sltb k m = Some v -> value_or_0 k m = v.
Proof. intros H. unfold value_or_0. rewrite H. reflexivity. Qed.

(** ** C21 over the reals *)
Definition photo_sum (t : list (string * R)) : R := Rsum (map (fun k => value_or_0 k t) photo_names).
Lemma computeMu_sums (e : @element RNum) (E : R) t : computeMu e E = Ok t ->
  mfind sltb "photoelectric" t = Some (photo_sum t) /\
  mfind sltb "total" t = Some (value_or_0 "photoelectric" t + value_or_0 "coherent" t + value_or_0 "compton" t + value_or_0 "pair" t).
Proof.
  intros H. apply computeMu_spec in H as (_ & _ & _ & _ & H1 & H2 & _). split.
  - rewrite H1. f_equal. unfold photo_sum. cbn [map photo_names Rsum]. rewrite !val0_R. rnorm. lra.
  - rewrite H2. reflexivity.
Qed.

(** ** Non-negativity of the partial coefficients *)
Lemma zget_In {A} (v : list A) i a : zget v i = Ok a -> In a v.
Proof.
  unfold zget, vget. destruct (i <? 0)%Z; [discriminate|]. destruct (nth_error v (Z.to_nat i)) eqn:E; cbn; [|discriminate].
  intros H; injection H as <-. eapply nth_error_In, E.
Qed.
Lemma partialShell_nonneg (g y : list R) (E v : R) : partialShell g y E = Ok v -> 0 < v.
Proof.
  unfold partialShell. intros H. apply rbind_Ok in H as ([[[i1 i2] x0] x1] & _ & H).
  destruct (_ || _).
  - apply rbind_Ok in H as (y0 & _ & H). rnorm_in H. destruct (Rltb_spec 0 y0) as [P|P].
    + injection H as <-. assumption.
    + apply rbind_Ok in H as (y1 & _ & H). destruct (Rltb (x1 - x0) _ && Rltb 0 y1) eqn:C.
      * apply andb_prop in C as [_ C]. apply Rltb_true in C. injection H as <-. assumption.
      * repeat (apply rbind_Ok in H as (? & _ & H)). injection H as <-. apply exp_pos.
  - apply rbind_Ok in H as (y0 & _ & H). apply rbind_Ok in H as (y1 & _ & H). destruct (nltb n0 y0).
    + injection H as <-. apply exp_pos.
    + repeat (apply rbind_Ok in H as (? & _ & H)). injection H as <-. apply exp_pos.
Qed.
Lemma otherValue_nonneg b (g y : list R) (E v : R) : Forall (fun x => 0 <= x) y -> otherValue b g y E = Ok v -> 0 <= v.
Proof.
  intros Hy H. unfold otherValue in H. apply rbind_Ok in H as ([[[i1 i2] x0] x1] & _ & H). destruct (_ || _).
  - apply zget_In in H. rewrite Forall_forall in Hy. apply Hy, H.
  - apply rbind_Ok in H as (y0 & _ & H). apply rbind_Ok in H as (y1 & _ & H).
    destruct (_ && _); [injection H as <-; left; apply exp_pos|].
    destruct (_ && _); [injection H as <-; left; apply exp_pos|]. injection H as <-. right; reflexivity.
Qed.
Definition others_nonneg (e : @element RNum) : Prop :=
  forall y, mfind sltb "all other" (el_ppV e) = Some y -> Forall (fun x => 0 <= x) y.
Lemma partialValue_nonneg (e : @element RNum) (E v : R) k : others_nonneg e -> partialValue e E k = Ok v -> 0 <= v.
Proof.
  intros Ho. unfold partialValue, finite_or, vlookup. destruct (String.eqb_spec k "all other") as [->|Hk]; intros H.
  - apply rbind_Ok in H as (g & _ & H). apply rbind_Ok in H as (y & Hy & H). apply rbind_Ok in H as (w & Hw & H).
    injection H as <-. eapply otherValue_nonneg; [|exact Hw]. apply Ho.
    destruct (mfind sltb "all other" (el_ppV e)); cbn in Hy; [injection Hy as <-; reflexivity|discriminate].
  - apply rbind_Ok in H as (b & _ & H). destruct (_ || _); [injection H as <-; right; reflexivity|].
    apply rbind_Ok in H as (g & _ & H). apply rbind_Ok in H as (y & _ & H). apply rbind_Ok in H as (w & Hw & H).
    injection H as <-. left. eapply partialShell_nonneg, Hw.
Qed.
Lemma computeMu_nonneg (e : @element RNum) (E : R) t k : others_nonneg e -> computeMu e E = Ok t -> In k photo_names -> 0 <= value_or_0 k t.
Proof.
  intros Ho H Hk. apply computeMu_spec in H as (_ & (part & Hp & H) & _). specialize (H k Hk).
  rewrite (vSome _ _ _ H). destruct (existsb _ _).
  - destruct (getPartial_lookup _ _ Hp Hk) as (v & Hv & Hf). rewrite val0_R, (vSome _ _ _ Hf). eapply partialValue_nonneg; eassumption.
  - subst part. right; reflexivity.
Qed.
(** below its binding energy a shell does not contribute *)
Lemma computeMu_below (e : @element RNum) (E : R) t k b : computeMu e E = Ok t -> In k shell_names ->
  mfind sltb k (el_binding e) = Some b -> b = 0 \/ E < b -> value_or_0 k t = 0.
Proof.
  intros H Hk Hb HE. apply computeMu_spec in H as (_ & (part & Hp & H) & _).
  assert (Hk' : In k photoShells) by (unfold photoShells; apply in_or_app; left; exact Hk).
  specialize (H k Hk'). rewrite (vSome _ _ _ H). destruct (existsb _ _).
  - destruct (getPartial_lookup _ _ Hp Hk') as (v & Hv & Hf). rewrite val0_R, (vSome _ _ _ Hf). unfold partialValue in Hv.
    destruct (String.eqb_spec k "all other") as [->|_].
    { exfalso. cbn in Hk. repeat (destruct Hk as [Hk|Hk]; [discriminate|]). destruct Hk. }
    rewrite Hb in Hv. cbn [of_opt rbind] in Hv.
    assert (C : Reqb b 0 || Rltb E b = true).
    { apply orb_true_iff. destruct HE as [HE|HE]; [left; apply Reqb_true, HE|right; apply Rltb_true, HE]. }
    rnorm_in Hv. rewrite C in Hv. injection Hv as <-. reflexivity.
  - subst part. reflexivity.
Qed.

(** ** C24 *)
Lemma vacancies_lookup (t : list (string * R)) k : In k photo_names ->
  mfind sltb k (vacancies t) = Some (if Rltb 0 (value_or_0 "photoelectric" t) then value_or_0 k t / value_or_0 "photoelectric" t else 0).
Proof.
  intros Hk. unfold vacancies. apply mset_all_In.
  - rewrite map_map. cbn. repeat constructor; cbn; intuition discriminate.
  - apply in_map_iff. exists k. split; [reflexivity|exact Hk].
Qed.
Lemma vacancies_keys (t : list (string * R)) k : In k (map fst (vacancies t)) -> In k photo_names.
Proof.
  intros H. change (In k (mkeys (vacancies t))) in H. unfold vacancies in H. apply mset_all_keys_In in H; [|apply smsorted_nil].
  destruct H as [H|[]]. rewrite map_map in H. cbn [fst] in H. rewrite map_id in H. exact H.
Qed.
Lemma vacancies_sum (t : list (string * R)) : mfind sltb "photoelectric" t = Some (photo_sum t) -> 0 < photo_sum t ->
  Rsum (map (fun k => value_or_0 k (vacancies t)) photo_names) = 1.
Proof.
  intros Hp Hpos.
  assert (Hv : value_or_0 "photoelectric" t = photo_sum t) by (unfold value_or_0; rewrite Hp; reflexivity).
  rewrite (Rsum_ext _ (fun k => / photo_sum t * value_or_0 k t)).
  - rewrite Rsum_mult_l. fold (photo_sum t). field. lra.
  - intros k Hk. unfold value_or_0 at 1. rewrite vacancies_lookup by assumption. rewrite Hv.
    destruct (Rltb_spec 0 (photo_sum t)); [|contradiction]. unfold Rdiv. ring.
Qed.
Lemma vacancies_zero (t : list (string * R)) k : value_or_0 "photoelectric" t <= 0 -> In k photo_names -> value_or_0 k (vacancies t) = 0.
Proof.
  intros H Hk. unfold value_or_0 at 1. rewrite vacancies_lookup by assumption.
  destruct (Rltb_spec 0 (value_or_0 "photoelectric" t)); [lra|reflexivity].
Qed.
Lemma vacancies_nonneg (t : list (string * R)) k : (forall k, In k photo_names -> 0 <= value_or_0 k t) -> 0 <= value_or_0 k (vacancies t).
Proof.
  intros H. destruct (in_dec String.string_dec k photo_names) as [Hk|Hk].
  - unfold value_or_0 at 1. rewrite vacancies_lookup by assumption. destruct (Rltb_spec 0 (value_or_0 "photoelectric" t)); [|lra].
    apply Rmult_le_pos; [apply H, Hk|]. left. apply Rinv_0_lt_compat. assumption.
  - unfold value_or_0. destruct (@mfind string R sltb k (vacancies t)) eqn:E; [|lra]. exfalso. apply Hk, (vacancies_keys t).
    apply smfind_In in E; [|apply smset_all_sorted, smsorted_nil]. apply (in_map fst) in E. exact E.
Qed.

(** ** C25 *)
Lemma excited_spec (e : @element RNum) (E : R) k :
  In k (getExcitedShells e E) <-> exists b, In (k, b) (getBindingEnergies e) /\ 0 < b < E.
Proof.
  unfold getExcitedShells, getBindingEnergies. rewrite in_map_iff. split.
  - intros [[k' b] [<- H]]. apply filter_In in H as [H C]. apply andb_prop in C as [C1 C2].
    apply Rltb_true in C1. apply Rltb_true in C2. exists b. cbn in *. auto.
  - intros (b & H & Hb). exists (k, b). split; [reflexivity|]. apply filter_In. split; [assumption|].
    apply andb_true_intro. split; apply Rltb_true; cbn; lra.
Qed.

Section Emitted.
Variables (e : @element RNum) (E : R).
Definition consistent (out : list (string * R)) : Prop := forall l en, mfind sltb l out = Some en -> getTransitionEnergy e l = Ok en.
Lemma emitFold_spec sh (fl : list (string * R)) out out' : msorted sltb out -> consistent out ->
  rfold (fun out (kv : string * R) => rbind (getFluorescenceYield sh) (fun w =>
     if nltb n0 w then rbind (getTransitionEnergy e (fst kv)) (fun t => Ok (mset sltb (fst kv) t out)) else Ok out)) fl out = Ok out' ->
  msorted sltb out' /\ consistent out' /\
  forall l, mmem sltb l out' = true <-> mmem sltb l out = true \/ (In l (map fst fl) /\ exists w, getFluorescenceYield sh = Ok w /\ 0 < w).
Proof.
  revert out; induction fl as [|[k r] fl IH]; intros out Hs Hc H; cbn [rfold map fst] in H |- *.
  - injection H as <-. split; [assumption|]. split; [assumption|]. intros l. cbn. intuition.
  - apply rbind_Ok in H as (o1 & H1 & H). apply rbind_Ok in H1 as (w & Hw & H1). rnorm_in H1.
    destruct (Rltb_spec 0 w) as [Pw|Pw].
    + apply rbind_Ok in H1 as (t & Ht & H1). injection H1 as <-. apply IH in H.
      2: apply smset_sorted, Hs.
      2: { intros l en. destruct (String.string_dec k l) as [->|Hn].
           - rewrite smfind_mset_same. intros G; injection G as <-. exact Ht.
           - rewrite smfind_mset_other by assumption. apply Hc. }
      destruct H as (H1 & H2 & H3). split; [assumption|]. split; [assumption|]. intros l. rewrite H3.
      unfold mmem at 1. destruct (String.string_dec k l) as [->|Hn].
      * rewrite smfind_mset_same. split; [|left; reflexivity]. intros _. right. split; [left; reflexivity|eauto].
      * rewrite smfind_mset_other by assumption. unfold mmem. cbn. intuition congruence.
    + injection H1 as <-. apply IH in H; [|assumption|assumption]. destruct H as (H1 & H2 & H3).
      split; [assumption|]. split; [assumption|]. intros l. rewrite H3. split.
      * intros [G|[G1 G2]]; [left; assumption|right; split; [right; assumption|assumption]].
      * intros [G|[G1 [w' [G2 G3]]]]; [left; assumption|]. exfalso. rewrite Hw in G2. injection G2 as <-. lra.
Qed.
(** shells that emit *)
Definition emits (k l : string) : Prop :=
  exists sh b w, mfind sltb k (el_shells e) = Some sh /\ mfind sltb k (getBindingEnergies e) = Some b /\ b < E /\
    getFluorescenceYield sh = Ok w /\ 0 < w /\ In l (map fst (Shell.getFluorescenceRatios sh)).
Lemma emittedLoop_spec keys out out' : msorted sltb out -> consistent out -> emittedLoop e E keys out = Ok out' ->
  msorted sltb out' /\ consistent out' /\
  forall l, mmem sltb l out' = true <-> mmem sltb l out = true \/
    exists pre k post, keys = (pre ++ k :: post)%list /\ (forall k', In k' pre -> mmem sltb k' (el_shells e) = true) /\ emits k l.
Proof.
  revert out; induction keys as [|k keys IH]; intros out Hs Hc H; cbn [emittedLoop] in H.
  - injection H as <-. split; [assumption|]. split; [assumption|]. intros l. split; [tauto|].
    intros [G|(pre & k & post & G & _)]; [assumption|]. destruct pre; discriminate.
  - destruct (mfind sltb k (el_shells e)) as [sh|] eqn:Hsh.
    + destruct (mfind sltb k (el_binding e)) as [b|] eqn:Hb; [|discriminate]. rnorm_in H.
      assert (Sp : forall l, (exists pre k' post, k :: keys = (pre ++ k' :: post)%list /\ (forall q, In q pre -> mmem sltb q (el_shells e) = true) /\ emits k' l) <->
         (emits k l \/ exists pre k' post, keys = (pre ++ k' :: post)%list /\ (forall q, In q pre -> mmem sltb q (el_shells e) = true) /\ emits k' l)).
      { intros l. split.
        - intros (pre & k' & post & G1 & G2 & G3). destruct pre as [|q pre]; cbn in G1; injection G1 as -> G1.
          + left. assumption.
          + right. exists pre, k', post. split; [assumption|]. split; [|assumption]. intros q' Hq. apply G2. right. assumption.
        - intros [G|(pre & k' & post & G1 & G2 & G3)].
          + exists [], k, keys. split; [reflexivity|]. split; [intros q []|assumption].
          + exists (k :: pre), k', post. rewrite G1. split; [reflexivity|]. split; [|assumption].
            intros q [<-|Hq]; [unfold mmem; rewrite Hsh; reflexivity|apply G2, Hq]. }
      destruct (Rleb_spec E b) as [Le|Le].
      * apply IH in H; [|assumption|assumption]. destruct H as (H1 & H2 & H3). split; [assumption|]. split; [assumption|].
        intros l. rewrite H3, Sp. assert (~ emits k l); [|tauto].
        intros (sh' & b' & w & G1 & G2 & G3 & _). unfold getBindingEnergies in G2. rewrite Hb in G2. injection G2 as <-. lra.
      * apply rbind_Ok in H as (o1 & H1 & H). apply emitFold_spec in H1; [|assumption|assumption]. destruct H1 as (A1 & A2 & A3).
        apply IH in H; [|assumption|assumption]. destruct H as (H1 & H2 & H3). split; [assumption|]. split; [assumption|].
        intros l. rewrite H3, A3, Sp.
        assert (G : emits k l <-> In l (map fst (sh_fluo sh)) /\ exists w, getFluorescenceYield sh = Ok w /\ 0 < w).
        { split.
          - intros (sh' & b' & w & G1 & G2 & G3 & G4 & G5 & G6). rewrite Hsh in G1. injection G1 as <-. split; [assumption|eauto].
          - intros (G1 & w & G2 & G3). exists sh, b, w. split; [assumption|]. split; [assumption|]. split; [lra|]. auto. }
        rewrite G. tauto.
    + injection H as <-. split; [assumption|]. split; [assumption|]. intros l. split; [tauto|].
      intros [G|(pre & k' & post & G1 & G2 & G3)]; [assumption|]. exfalso. destruct pre as [|q pre]; cbn in G1; injection G1 as -> G1.
      * destruct G3 as (sh' & b' & w & G3 & _). rewrite Hsh in G3. discriminate.
      * specialize (G2 q (or_introl eq_refl)). unfold mmem in G2. rewrite Hsh in G2. discriminate.
Qed.
End Emitted.

(** ** C28 *)
Definition edge (e : @element RNum) (k : string) : R := value_or_0 k (getBindingEnergies e).
Lemma lit3 : nlit 3 (-3) = 3 / 1000.
Proof. change (Rlit 3 (-3) = 3 / 1000). unfold Rlit. simpl. lra. Qed.
Lemma fromEnergy_spec (e : @element RNum) from :
  fromEnergy e from = if Rltb (edge e from) 0 then Throw RuntimeError else Ok (if Reqb (edge e from) 0 then 3 / 1000 else edge e from).
Proof.
  unfold fromEnergy. rewrite val0_R. rewrite lit3. unfold edge, getBindingEnergies. rnorm. generalize (value_or_0 from (el_binding e)). intros x.
  destruct (Rleb_spec x 0); destruct (Rltb_spec x 0); destruct (Reqb_spec x 0); try reflexivity;
    exfalso; first [lra | match goal with H : _ <> _ |- _ => apply H; lra end].
Qed.
Lemma substring_prefix a b : substring 0 (String.length a) (a ++ b) = a.
Proof. induction a; cbn; [destruct b; reflexivity|]. f_equal. exact IHa. Qed.
Lemma substring_all b : substring 0 (String.length b) b = b.
Proof. induction b; cbn; [reflexivity|]. f_equal. exact IHb. Qed.
Lemma substring_suffix a b : substring (String.length a) (String.length b) (a ++ b) = b.
Proof. induction a; cbn; [apply substring_all|exact IHa]. Qed.
Lemma transition_split (e : @element RNum) to from : String.length from = 2%nat -> (1 <= String.length to <= 2)%nat ->
  getTransitionEnergy e (to ++ from) = transitionEnergy e to from.
Proof.
  intros Hf Ht. unfold getTransitionEnergy. rewrite str_app_length, Hf.
  pose proof (substring_prefix to from) as P. pose proof (substring_suffix to from) as Q. rewrite Hf in Q.
  destruct (String.length to) as [|[|[|n]]]; try lia; cbn [Nat.eqb Nat.add]; rewrite P, Q; reflexivity.
Qed.
Lemma transitionEnergy_spec (e : @element RNum) to from :
  transitionEnergy e to from =
    if Rleb (edge e to) 0 then Throw DomainError
    else if Rltb (edge e from) 0 then Throw RuntimeError
    else Ok (edge e to - (if Reqb (edge e from) 0 then 3 / 1000 else edge e from)).
Proof.
  unfold transitionEnergy. rewrite fromEnergy_spec. generalize (edge e from). intros f.
  unfold edge, value_or_0, getBindingEnergies.
  change (@mfind string (@num RNum) sltb to (el_binding e)) with (@mfind string R sltb to (el_binding e)).
  rnorm. destruct (@mfind string R sltb to (el_binding e)) as [b|]; rnorm.
  - destruct (Rleb_spec b 0); [reflexivity|]. destruct (Rltb f 0); reflexivity.
  - destruct (Rleb_spec 0 0); [reflexivity|lra].
Qed.
