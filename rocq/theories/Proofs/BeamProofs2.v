From Coq Require Import List ZArith Reals Lra Lia Sorted Permutation Bool Arith.
From Verif Require Import Base.Num Base.Res Base.RSum Base.ListLemmas Model.Beam Spec.BeamSpec Proofs.BeamProofs.
Import ListNotations.

Lemma setBeam_R : forall sortf, std_sort_contract (@ray_ltb RNum) sortf ->
  forall (b : @beam RNum) (E W : list R) (F : list Z) (D : list R),
  E <> [] -> length W = length E -> length F = length E -> length D = length E ->
  exists b' rows,
    setBeam sortf b E W F D = Ok b' /\
    getBeamAsDoubleVectors b' = columns rows /\
    StronglySorted Rle (map row_energy rows) /\
    Permutation rows (table E (if Rlt_dec 0 (Rsum W) then map (fun w => w / Rsum W)%R W else W) F D) /\
    (0 < Rsum W -> Rsum (map row_weight rows) = 1)%R.
Proof.
  intros sortf Hc b E W F D HE HW HF HD.
  rewrite (@setBeam_usable RNum) by (auto using usable_full).
  rewrite !column_full by assumption.
  exact (normalize_correct sortf E W F D (length E) Hc eq_refl HW HF HD).
Qed.

Lemma setBeam_empty_R : forall sortf (b : @beam RNum) (W : list R) F D,
  exists b', setBeam sortf b [] W F D = Ok b' /\ getBeamAsDoubleVectors b' = [[]; []; []; []].
Proof. intros. eexists; split; reflexivity. Qed.

Lemma setSingle_R : forall sortf, std_sort_contract (@ray_ltb RNum) sortf ->
  forall (b : @beam RNum) (e d : R), exists b',
  setSingleEnergyBeam sortf b e d = Ok b' /\ getBeamAsDoubleVectors b' = [[e]; [1%R]; [1%R]; [d]].
Proof.
  intros sortf Hc b e d. unfold setSingleEnergyBeam.
  destruct (normalize_correct sortf [e] [1%R] [1%Z] [d] 1 Hc eq_refl eq_refl eq_refl eq_refl)
    as (b' & rows & Hb & Hg & _ & Hp & _).
  exists b'. split; [exact Hb|]. rewrite Hg. cbn [Rsum] in Hp.
  destruct (Rlt_dec 0 (1 + 0)) as [H|H]; [|lra]. cbn in Hp.
  symmetry in Hp; apply Permutation_length_1_inv in Hp.
  subst rows. unfold columns, row_energy, row_weight, row_flag, row_div; cbn. repeat f_equal; lra.
Qed.

Lemma setBeam_UB_iff : forall sortf (b : @beam RNum) E W F D,
  (setBeam sortf b E W F D = UB <->
     E <> [] /\ ~ (usable (length E) W /\ usable (length E) F /\ usable (length E) D)) /\
  (setBeam sortf b E W F D <> UB -> exists b', setBeam sortf b E W F D = Ok b').
Proof.
  intros sortf b E W F D.
  destruct E as [|e0 E'].
  - cbn. split; [split; [discriminate|intros [H _]; congruence]|eauto].
  - set (E := e0 :: E'). assert (HE : E <> []) by discriminate.
    destruct (usable_dec (length E) W) as [HW|HW]; [|rewrite setBeam_short by tauto; split; [|congruence]; split; [|reflexivity]; intros _; split; [assumption|]; unfold usable; lia].
    destruct (usable_dec (length E) F) as [HF|HF]; [|rewrite setBeam_short by tauto; split; [|congruence]; split; [|reflexivity]; intros _; split; [assumption|]; unfold usable; lia].
    destruct (usable_dec (length E) D) as [HD|HD]; [|rewrite setBeam_short by tauto; split; [|congruence]; split; [|reflexivity]; intros _; split; [assumption|]; unfold usable; lia].
    rewrite setBeam_usable by assumption. unfold normalizeBeam. rewrite sortable_R. split.
    + split; [discriminate|tauto].
    + intros _; eexists; reflexivity.
Qed.

Lemma null_UB : forall (N : Num) sortf toint (b : @beam N) n W F D E C, (0 < n)%Z ->
  snd (setBeam_ptr sortf b n None W F D) = UB /\
  snd (setBeam_ptr_double sortf toint b n E W None C) = UB.
Proof.
  intros N sortf toint b n W F D E C Hn. split.
  - unfold setBeam_ptr. destruct (Z.ltb_spec n 0); [lia|].
    destruct (Z.to_nat n) as [|k] eqn:Ek; [lia|]. reflexivity.
  - unfold setBeam_ptr_double. destruct (Z.ltb_spec n 0); [lia|].
    destruct (Z.eqb_spec n 0); [lia|].
    destruct (Z.to_nat n) as [|k] eqn:Ek; [lia|]. reflexivity.
Qed.

Section Any.
Context {N : Num}.
Lemma map_mk4_proj E W F D n : length E = n -> length W = n -> length F = n -> length D = n ->
  map (fun r : ray => (r_energy r, r_char r, r_div r)) (map mk4 (combine (combine (combine E W) F) D)) = combine (combine E F) D /\
  map r_weight (map mk4 (combine (combine (combine E W) F) D)) = W /\
  map r_energy (map mk4 (combine (combine (combine E W) F) D)) = E.
Proof.
  revert W F D n. induction E as [|e E IH]; intros [|w W] [|f F] [|d D] n H1 H2 H3 H4; cbn in *; subst; try discriminate; auto.
  destruct (IH W F D (length E)) as (A & B & C); try congruence. rewrite A, B, C. auto.
Qed.

Lemma setBeam_any sortf b E W F D : std_sort_contract (@ray_ltb N) sortf ->
  E <> [] -> length W = length E -> length F = length E -> length D = length E ->
  Forall (fun e => neqb e e = true) E ->
  (forall l, Forall (fun r => In (r_energy r) E) l -> strict_weak_order (@ray_ltb N) l) ->
  exists b', setBeam sortf b E W F D = Ok b' /\
    StronglySorted (fun x y => nltb (r_energy y) (r_energy x) = false) (getBeam b') /\
    Permutation (map (fun r => (r_energy r, r_char r, r_div r)) (getBeam b'))
                (combine (combine E F) D) /\
    Permutation (map r_weight (getBeam b'))
                (if nltb n0 (nsum W) then map (fun w => ndiv w (nsum W)) W else W).
Proof.
  intros Hc HE HW HF HD Hn Hw. rewrite setBeam_usable by (auto using usable_full).
  rewrite !column_full by assumption.
  destruct (map_mk4_proj E W F D (length E) eq_refl HW HF HD) as (P1 & P2 & P3).
  unfold normalizeBeam. set (rays := map mk4 _) in *. rewrite P2.
  set (rays' := if nltb n0 (nsum W) then _ else _).
  assert (Q1 : map (fun r : ray => (r_energy r, r_char r, r_div r)) rays' = combine (combine E F) D).
  { unfold rays'. destruct (nltb n0 (nsum W)); [|exact P1]. rewrite map_map. exact P1. }
  assert (Q2 : map r_weight rays' = if nltb n0 (nsum W) then map (fun w => ndiv w (nsum W)) W else W).
  { unfold rays'. destruct (nltb n0 (nsum W)); [|exact P2]. transitivity (map (fun w => ndiv w (nsum W)) (map r_weight rays)); [rewrite !map_map; reflexivity|rewrite P2; reflexivity]. }
  assert (Q3 : map r_energy rays' = E).
  { unfold rays'. destruct (nltb n0 (nsum W)); [|exact P3]. rewrite map_map. exact P3. }
  assert (Q4 : sortable rays' = true).
  { unfold sortable. apply orb_true_iff. right. apply forallb_forall. intros r Hr.
    rewrite Forall_forall in Hn. apply Hn. rewrite <- Q3. apply in_map, Hr. }
  rewrite Q4. eexists; split; [reflexivity|]. unfold getBeam; cbn [b_rays].
  destruct (Hc rays') as [Hp Hs].
  { apply Hw. apply Forall_forall. intros r Hr. rewrite <- Q3. apply in_map, Hr. }
  split; [exact Hs|]. split.
  - rewrite <- Q1. apply Permutation_map. symmetry. exact Hp.
  - rewrite <- Q2. apply Permutation_map. symmetry. exact Hp.
Qed.
End Any.
