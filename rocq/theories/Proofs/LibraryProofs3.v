(** Excitation factors of an element: rates of the lines after the cascade, times the photoelectric coefficient. *)
From Coq Require Import Ascii String List ZArith Reals Bool Arith Lia Lra Permutation.
From Verif Require Import Base.Num Base.Res Base.RSum Base.SMap Base.Str Base.ListLemmas Model.Shell Model.Element
  Spec.ShellSpec Spec.ElementSpec Spec.MultilayerSpec Spec.LibrarySpec Proofs.ElementProofs Proofs.ElementProofs3 Proofs.ElementProofs7 Proofs.ElementProofs10.
Import ListNotations.
Local Open Scope string_scope.
Local Open Scope R_scope.
Local Existing Instance RNum.
Local Ltac toR := change (@num RNum) with R in *.

Lemma mfind_map_snd {A B} (f : A -> B) k (m : list (string * A)) : mfind sltb k (map (fun kv => (fst kv, f (snd kv))) m) = option_map f (mfind sltb k m).
Proof. induction m as [|[k' v] m IH]; cbn; [reflexivity|]. repeat match goal with |- context [if ?b then _ else _] => destruct b end; cbn; auto. Qed.
Lemma field_value t k : field t k = value_or_0 k t.
Proof. reflexivity. Qed.
Theorem excitation_rates (e : @element RNum) (E w : R) mu : good_shells e -> own_labels e -> line_energies_defined e -> el_cascFlag e = false -> el_cacheFlag e = false ->
  getMassAttenuationCoefficients e E = Ok mu -> (forall k, In k photo_names -> 0 <= field mu k) ->
  exists l d c, getPhotoelectricExcitationFactors e E w = Ok l /\ getInitialPhotoelectricVacancyDistribution e E = Ok d /\ getCascadeModifiedVacancyDistribution e d = Ok c /\
    (forall k, In k photo_names -> field d k = if Rltb 0 (field mu "photoelectric") then field mu k / field mu "photoelectric" else 0) /\
    (forall line t, mfind sltb line l = Some t -> exists k sh, mfind sltb k (el_shells e) = Some sh /\ In line (map fst (Shell.getFluorescenceRatios sh))) /\
    forall k sh line ratio, mfind sltb k (el_shells e) = Some sh -> In (line, ratio) (Shell.getFluorescenceRatios sh) ->
      let r := ratio * field c k * field (Shell.getShellConstants sh) "omega" in
      0 <= r /\ (r = 0 -> mfind sltb line l = None) /\
      (0 < r -> exists energy, mfind sltb line l = Some [("energy", energy); ("factor", r * w); ("rate", r * w * field mu "photoelectric")] /\
                forall from, line = (k ++ from)%string -> String.length from = 2%nat -> getTransitionEnergy e line = Ok energy).
Proof.
  intros G OL LE CF CA HM NN.
  assert (HD : getInitialPhotoelectricVacancyDistribution e E = Ok (vacancies mu)) by (unfold getInitialPhotoelectricVacancyDistribution; toR; rewrite HM; reflexivity).
  assert (LK : forall k, In k photo_names -> field (vacancies mu) k = if Rltb 0 (field mu "photoelectric") then field mu k / field mu "photoelectric" else 0).
  { intros k Hk. assert (OP : forall (o : option R) x, o = Some x -> match o with Some v => v | None => 0 end = x) by (intros ? ? ->; reflexivity).
    exact (OP _ _ (vacancies_lookup mu k Hk)). }
  assert (ND : nonneg_dist (vacancies mu)).
  { assert (V : vacancies mu = map (fun k => (k, field (vacancies mu) k)) photo_names) by reflexivity. unfold nonneg_dist. rewrite V. apply Forall_forall. intros x Ix.
    apply in_map_iff in Ix. destruct Ix as (k & <- & Ik). cbn [snd]. rewrite LK by exact Ik. destruct (Rltb_spec 0 (field mu "photoelectric")); [|lra].
    apply Rmult_le_pos; [apply NN, Ik|]. apply Rlt_le, Rinv_0_lt_compat. assumption. }
  destruct (line_rates e (vacancies mu) G OL LE ND CF) as (l & c & HL & HC & NM & RT).
  exists (map (fun kv => (fst kv, factorLine w (val0 mu "photoelectric") (snd kv))) l), (vacancies mu), c.
  split; [|split; [exact HD|split; [exact HC|split; [exact LK|split]]]].
  - unfold getPhotoelectricExcitationFactors. rewrite CA. unfold computeFactors. toR. rewrite HD. cbn [rbind]. toR. rewrite HL. cbn [rbind]. toR. rewrite HM. reflexivity.
  - intros line t H. rewrite mfind_map_snd in H. toR. revert H. match goal with |- option_map _ ?o = _ -> _ => destruct o as [t0|] eqn:F end; [|intros Q; discriminate Q]. intros _. exact (NM _ _ F).
  - intros k sh line ratio HS HI. cbv zeta. destruct (RT k sh line ratio HS HI) as (A & B & C0). cbv zeta in *. rewrite mfind_map_snd.
    split; [exact A|]. split; [intros Z; exact (f_equal (option_map _) (B Z))|]. intros P. destruct (C0 P) as (energy & F & K). exists energy. split; [|exact K]. exact (f_equal (option_map _) F).
Qed.
