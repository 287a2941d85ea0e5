(** Line rates of a vacancy distribution, and success of setCascadeCacheEnabled. *)
From Coq Require Import Ascii String List ZArith Bool Reals Lra Lia Sorted.
From Verif Require Import Base.Num Base.Res Base.RSum Base.SMap Base.Str Base.ListLemmas
  Model.Shell Model.Element Spec.ShellSpec Spec.ElementSpec Proofs.ShellProofs Proofs.ShellProofs2 Proofs.ShellProofs3
  Proofs.ElementProofs Proofs.ElementProofs3 Proofs.ElementProofs4 Proofs.ElementProofs5 Proofs.ElementProofs6 Proofs.ElementProofs7.
Import ListNotations.
Local Open Scope string_scope.
Local Open Scope R_scope.
Local Existing Instance RNum.

Lemma line_energy_ok (e : el) k lab : good_shells e -> line_energies_defined e -> In k (cascadeKeys e) -> In lab (map fst (fluo_table e k)) ->
  exists en, lineEnergy e k lab = Ok en.
Proof.
  intros G [H1 H2] Hk Hl. rewrite (good_names e G) in Hk. destruct (good_find e k G Hk) as (sh & Hsh & _).
  unfold fluo_table in Hl. rewrite Hsh in Hl. apply smfind_In in Hsh; [|apply good_sorted, G].
  rewrite Forall_forall in H1. specialize (H1 _ Hsh) as [Hb Hf]. cbn [fst snd] in Hb, Hf.
  unfold lineEnergy. unfold value_or_0, getBindingEnergies in Hb.
  change (@mfind string (@num RNum) sltb k (el_binding e)) with (@mfind string R sltb k (el_binding e)).
  destruct (@mfind string R sltb k (el_binding e)) as [b|]; [|lra].
  destruct (Rleb_spec b 0); [lra|]. apply in_map_iff in Hl as ([l r] & El & Hl). cbn in El. subst l.
  rewrite Forall_forall in Hf. specialize (Hf _ Hl). cbn [fst] in Hf. unfold lastTwo.
  destruct (Nat.ltb_spec (String.length lab) 2); [lia|]. cbn [rbind]. rewrite fromEnergy_spec.
  destruct (Rltb_spec (edge e (substring (String.length lab - 2) 2 lab)) 0) as [C|C].
  - exfalso. unfold edge in C. pose proof (dist_nonneg (substring (String.length lab - 2) 2 lab) _ H2). lra.
  - cbn [rbind]. eexists. reflexivity.
Qed.
Lemma energies_defined (e : el) A : good_shells e -> line_energies_defined e -> energies_for e A.
Proof. intros G H lab k Ow _. apply own_Some in Ow as [O1 O2]. apply line_energy_ok; assumption. Qed.

Lemma unit_lines_ok (e : el) s : good_shells e -> own_labels e -> line_energies_defined e -> exists L, unit_lines e s = Ok L.
Proof.
  intros G O H. unfold unit_lines. rewrite (cascadeList_eq e (unit_of s) G (unit_nonneg s)). cbn [rbind].
  apply (direct_ok e (out e (unit_of s)) G (own_labels_disjoint e G O)). apply energies_defined; assumption.
Qed.
Lemma fillCasc_succeeds lf (e : el) subs : good_shells e -> own_labels e -> line_energies_defined e ->
  forall c, exists c', fillCascLoop lf e subs c = (c', Ok tt).
Proof.
  intros G O H. induction subs as [|s subs IH]; intros c; cbn [fillCascLoop]; [eauto|].
  change (getXRayLinesFromVacancyDistribution (with_casc e false c) [(s, n1)] 1 1) with (unit_lines e s).
  destruct (unit_lines_ok e s G O H) as [L ->]. apply IH.
Qed.
Lemma enable_ok lf (e : el) : good_shells e -> own_labels e -> line_energies_defined e ->
  exists e', setCascadeCacheEnabled lf e 1 = (e', Ok tt).
Proof.
  intros G O H. unfold setCascadeCacheEnabled. cbn [Z.eqb]. destruct (Nat.ltb _ _); [|eauto].
  unfold fillCascadeCache. destruct (fillCasc_succeeds lf e (map fst (el_shells e)) G O H []) as [c ->]. eauto.
Qed.

(** energy of a line "shell + origin" *)
Lemma lineEnergy_transition (e : el) k from : String.length from = 2%nat -> (1 <= String.length k <= 2)%nat ->
  lineEnergy e k (k ++ from) = getTransitionEnergy e (k ++ from).
Proof.
  intros Hf Hk. rewrite transition_split by assumption. unfold lineEnergy, transitionEnergy, lastTwo.
  rewrite str_app_length, Hf. replace (String.length k + 2 - 2)%nat with (String.length k) by lia.
  pose proof (substring_suffix k from) as Q. rewrite Hf in Q. rewrite Q.
  destruct (Nat.ltb_spec (String.length k + 2) 2); [lia|]. cbn [rbind]. reflexivity.
Qed.
Lemma fluo_NoDup (e : el) k : good_shells e -> In k (cascadeKeys e) -> NoDup (map fst (fluo_table e k)).
Proof. intros G Hk. destruct (fluo_sorted e k G Hk) as (S & _). exact (smsorted_NoDup S). Qed.
Lemma own_is (e : el) k lab : good_shells e -> own_labels e -> In k (cascadeKeys e) -> In lab (map fst (fluo_table e k)) -> own e lab = Some k.
Proof.
  intros G O Hk Hl. destruct (own e lab) as [k'|] eqn:Ow.
  - apply own_Some in Ow as [O1 O2]. f_equal. apply (own_labels_disjoint e G O k' k lab); assumption.
  - exfalso. exact (own_None e lab k Ow Hk Hl).
Qed.

(** the rates of all lines *)
Theorem line_rates (e : el) (d : tab) : good_shells e -> own_labels e -> line_energies_defined e -> nonneg_dist d -> el_cascFlag e = false ->
  exists (l : linesR) (c : tab), getXRayLinesFromVacancyDistribution e d 1 1 = Ok l /\ getCascadeModifiedVacancyDistribution e d = Ok c /\
    (forall lab t, mfind sltb lab l = Some t -> exists k sh, mfind sltb k (el_shells e) = Some sh /\ In lab (map fst (Shell.getFluorescenceRatios sh))) /\
    forall k sh lab r, mfind sltb k (el_shells e) = Some sh -> In (lab, r) (Shell.getFluorescenceRatios sh) ->
      let rate := r * value_or_0 k c * value_or_0 "omega" (Shell.getShellConstants sh) in
      0 <= rate /\
      (rate = 0 -> mfind sltb lab l = None) /\
      (0 < rate -> exists en, mfind sltb lab l = Some [("energy", en); ("rate", rate)] /\
                   forall from, lab = (k ++ from)%string -> String.length from = 2%nat -> getTransitionEnergy e lab = Ok en).
Proof.
  intros G O H Hd Hf. pose proof (own_labels_disjoint e G O) as D.
  destruct (direct_ok e (out e d) G D (energies_defined e _ G H)) as [l El].
  destruct (direct_matches e (out e d) l G D El) as [[S M] _].
  exists l, (map (fun k => (k, out e d k)) (cascadeKeys e)).
  split.
  { unfold getXRayLinesFromVacancyDistribution. cbn [Z.eqb negb]. rewrite Hf. cbn [andb].
    rewrite (cascadeList_eq e d G Hd). exact El. }
  split; [apply cascade_eq; assumption|]. split.
  { intros lab t F. rewrite M in F. destruct (Rltb_spec 0 (rho e (out e d) lab)) as [P|]; [|discriminate].
    unfold rho in P. destruct (own e lab) as [k|] eqn:Ow; [|lra]. apply own_Some in Ow as [O1 O2].
    rewrite (good_names e G) in O1. destruct (good_find e k G O1) as (sh & Hsh & _). exists k, sh. split; [exact Hsh|].
    unfold fluo_table in O2. rewrite Hsh in O2. exact O2. }
  intros k sh lab r Hsh Hl rate.
  assert (Hk : In k (cascadeKeys e)).
  { rewrite (good_names e G). apply smfind_In in Hsh; [|apply good_sorted, G]. apply (in_map fst) in Hsh. exact Hsh. }
  assert (Ft : fluo_table e k = sh_fluo sh) by (unfold fluo_table; rewrite Hsh; reflexivity).
  assert (Hl' : In lab (map fst (fluo_table e k))) by (rewrite Ft; apply (in_map fst) in Hl; exact Hl).
  assert (Vr : value_or_0 lab (fluo_table e k) = r).
  { rewrite Ft. apply value_of_In; [|exact Hl]. rewrite <- Ft. apply (fluo_sorted e k G Hk). }
  assert (Yd : yield e k = value_or_0 "omega" (Shell.getShellConstants sh)) by (unfold yield; rewrite Hsh; reflexivity).
  assert (Vc : value_or_0 k (map (fun k => (k, out e d k)) (cascadeKeys e)) = out e d k).
  { rewrite table_value by exact G.
    assert (existsb (String.eqb k) (cascadeKeys e) = true) as -> by (apply existsb_exists; exists k; split; [exact Hk|apply String.eqb_refl]). reflexivity. }
  assert (R : rho e (out e d) lab = rate).
  { unfold rho. rewrite (own_is e k lab G O Hk Hl'), Vr, Yd. unfold rate. rewrite Vc. reflexivity. }
  assert (NN : 0 <= rate). { rewrite <- R. apply rho_nonneg; [exact G|]. intros x Hx. apply out_nonneg; assumption. }
  split; [exact NN|]. specialize (M lab). rewrite R in M. clearbody rate. split.
  - intros ->. rewrite M. destruct (Rltb_spec 0 0); [lra|reflexivity].
  - intros P. exists (en_of e lab). split.
    + rewrite M. destruct (Rltb_spec 0 rate); [reflexivity|lra].
    + intros from -> Hf2. unfold en_of. rewrite (own_is e k _ G O Hk Hl').
      destruct (line_energy_ok e k _ G H Hk Hl') as [en En]. rewrite <- lineEnergy_transition; [rewrite En; reflexivity|exact Hf2|].
      pose proof (keys_names e k Hk) as Kn. cbn in Kn. decompose [or] Kn; subst; cbn; try lia; contradiction.
Qed.
