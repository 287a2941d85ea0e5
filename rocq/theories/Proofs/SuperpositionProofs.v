(** Answers are linear in the weights of the beam. *)
From Coq Require Import Ascii String List ZArith Reals Bool Arith Lia Lra.
From Verif Require Import Base.Num Base.Res Base.RSum Base.SMap Base.Str Base.ListLemmas Model.Beam Model.Material Model.TransmissionTable Model.Math Model.Shell Model.Element Model.Elements Model.Layer Model.XRF Model.Multilayer Model.XRFLibrary
  Spec.ShellSpec Spec.ElementSpec Spec.ElementsSpec Spec.MultilayerSpec Spec.LibrarySpec Spec.SecondarySpec Spec.SuperpositionSpec Proofs.MathProofs Proofs.ElementProofs Proofs.ElementProofs4.
Import ListNotations.
Local Open Scope string_scope.
Local Open Scope R_scope.
Local Existing Instance RNum.

Lemma flat_map_map {A B C} (g : B -> C) (f : A -> list B) l : flat_map (fun a => map g (f a)) l = map g (flat_map f l).
Proof. induction l as [|a l IH]; [reflexivity|]. cbn. rewrite IH, map_app. reflexivity. Qed.
Lemma flat_map_eq {A B} (f g : A -> list B) l : (forall a, In a l -> f a = g a) -> flat_map f l = flat_map g l.
Proof. induction l as [|a l IH]; intros H; [reflexivity|]. cbn. rewrite (H a) by (left; reflexivity). rewrite IH; [reflexivity|]. intros b I. apply H. right. exact I. Qed.
Local Ltac one := match goal with |- [(?a, ?x, ?b)] = [(_, ?y, _)] => replace x with y by ring; reflexivity | |- [(?a, ?x)] = [(_, ?y)] => replace x with y by ring; reflexivity end.
Definition times (w : R) (x : string * R) : string * R := (fst x, w * snd x).
Definition times_photon (w : R) (x : R * R * string) : R * R * string := (fst (fst x), w * snd (fst x), snd x).
Lemma sum_times w l : Rsum (map snd (map (times w) l)) = w * Rsum (map snd l).
Proof. rewrite map_map. unfold times. cbn. apply Rsum_mult_l. Qed.
Lemma filter_times w (P : string -> bool) l : filter (fun x => P (fst x)) (map (times w) l) = map (times w) (filter (fun x => P (fst x)) l).
Proof. induction l as [|x l IH]; [reflexivity|]. cbn. destruct (P (fst x)); cbn; rewrite IH; reflexivity. Qed.

Section S.
Variable debug : bool.
Variables (xl : @xlib RNum) (c : @config RNum).
Variables (elements families : list string) (layers : list Z) (useMass : Z) (limit : R).
Variable comps : list (list (string * R)).
Hypothesis WS : weights_scale xl.

Lemma photons_times j E w u : photons xl c limit comps j E (w * u) = map (times_photon w) (photons xl c limit comps j E u).
Proof.
  unfold photons. rewrite map_app. f_equal.
  - unfold fluorescent. rewrite <- flat_map_map. apply flat_map_eq. intros fam _. cbv zeta. rewrite <- flat_map_map. apply flat_map_eq. intros row _.
    destruct (_ && _)%bool; [|reflexivity]. cbn. unfold times_photon. cbn. one.
  - cbn. unfold scattered, times_photon. cbn. one.
Qed.
Lemma gains_times n E w u i line EL : gains debug xl c elements families useMass limit comps n E (w * u) i line EL = map (times w) (gains debug xl c elements families useMass limit comps n E u i line EL).
Proof.
  unfold gains. rewrite <- flat_map_map. apply flat_map_eq. intros j _. destruct (neglected_layer _ _ _ _ _ _); [reflexivity|]. rewrite photons_times.
  rewrite <- flat_map_map. induction (photons xl c limit comps j E u) as [|[[e k] nm] l IH]; [reflexivity|]. cbn [map flat_map]. rewrite IH. f_equal.
  unfold times_photon, gain_from. cbn [fst snd]. destruct (factor_row _ _ _ _ _) as [row|]; [|reflexivity]. cbv zeta. destruct (_ && _)%bool; [|reflexivity]. cbn. unfold times. cbn. one.
Qed.
Lemma excites_times n E w u key i L : 0 < w -> excites xl c elements families layers useMass comps n E (w * u) key i L = excites xl c elements families layers useMass comps n E u key i L.
Proof.
  intros W. unfold excites. f_equal. pose proof (WS (element_of elements n) E (w * u) L) as A. pose proof (WS (element_of elements n) E u L) as B.
  destruct (factor_row xl (element_of elements n) L E (w * u)) as [t|], (factor_row xl (element_of elements n) L E u) as [t'|], (factor_row xl (element_of elements n) L E 1) as [t1|]; try contradiction; [|reflexivity].
  destruct A as [-> _]. destruct B as [-> _]. unfold Rltb. destruct (Rlt_dec 0 (w * u * field t1 "factor")) as [P|P], (Rlt_dec 0 (u * field t1 "factor")) as [Q|Q]; try reflexivity; exfalso.
  - apply Q. rewrite Rmult_assoc in P. apply (Rmult_lt_reg_l w); [exact W|]. lra.
  - apply P. rewrite Rmult_assoc. apply Rmult_lt_0_compat; assumption.
Qed.
Lemma excites_zero n E key i L : excites xl c elements families layers useMass comps n E 0 key i L = false.
Proof.
  unfold excites. pose proof (WS (element_of elements n) E 0 L) as A. destruct (factor_row xl (element_of elements n) L E 0) as [t|]; [|apply andb_false_r].
  destruct (factor_row xl (element_of elements n) L E 1) as [t1|]; [|contradiction]. destruct A as [-> _]. rewrite Rmult_0_l. unfold Rltb. destruct (Rlt_dec 0 0); [lra|apply andb_false_r].
Qed.
Lemma primary_times n E w u i L EL : primary_of xl c elements useMass comps n E (w * u) i L EL = w * primary_of xl c elements useMass comps n E u i L EL.
Proof.
  unfold primary_of. cbv zeta. pose proof (WS (element_of elements n) E (w * u) L) as A. pose proof (WS (element_of elements n) E u L) as B.
  destruct (factor_row xl (element_of elements n) L E (w * u)) as [t|], (factor_row xl (element_of elements n) L E u) as [t'|], (factor_row xl (element_of elements n) L E 1) as [t1|]; try contradiction; [|ring].
  destruct A as [_ ->]. destruct B as [_ ->]. unfold Rdiv. ring.
Qed.
(** one ray (E, w u) against the ray (E, u) *)
Section Sum.
Variable f : nat -> R -> R -> R.
Hypothesis F : forall n E w u, f n E (w * u) = w * f n E u.
Definition ray_sum key i L (ray : R * R) : R := Rsum (map (fun n => if excites xl c elements families layers useMass comps n (fst ray) (snd ray) key i L then f n (fst ray) (snd ray) else 0) (seq 0 (length elements))).
Lemma ray_times key i L E w u : 0 <= w -> ray_sum key i L (E, w * u) = w * ray_sum key i L (E, u).
Proof.
  intros W. unfold ray_sum. rewrite <- Rsum_mult_l. apply Rsum_ext. intros n _. cbn [fst snd]. destruct (Rle_lt_or_eq_dec 0 w W) as [P|<-].
  - rewrite excites_times by exact P. destruct (excites _ _ _ _ _ _ _ _ _ _ _ _ _); [apply F|ring].
  - rewrite Rmult_0_l, excites_zero. ring.
Qed.
End Sum.
End S.

(** The library of elements answers in proportion to the weights. *)
Lemma mfind_map_snd {A} (g : A -> A) k (l : list (string * A)) : mfind sltb k (map (fun kv => (fst kv, g (snd kv))) l) = match mfind sltb k l with Some v => Some (g v) | None => None end.
Proof. induction l as [|[k' v] l IH]; [reflexivity|]. cbn [map fst snd mfind]. destruct (sltb k k'), (sltb k' k); try exact IH; reflexivity. Qed.
Lemma factorLine_fields (w p : R) (t : list (string * R)) :
  field (@factorLine RNum w p t) "factor" = @val0 RNum t "rate" * w /\ field (@factorLine RNum w p t) "rate" = @val0 RNum t "rate" * w * p.
Proof.
  rewrite factorLine_gen. unfold field. split.
  - rewrite sfind_other by discriminate. rewrite sfind_same. reflexivity.
  - rewrite sfind_same. reflexivity.
Qed.
Lemma scaled_pair (w p : R) (m o o1 : option (list (string * R))) :
  o = match m with Some v => Some (@factorLine RNum w p v) | None => None end -> o1 = match m with Some v => Some (@factorLine RNum 1 p v) | None => None end ->
  match o, o1 with
  | Some t, Some t1 => field t "factor" = w * field t1 "factor" /\ field t "rate" = w * field t1 "rate"
  | None, None => True
  | _, _ => False
  end.
Proof.
  intros -> ->. destruct m as [t|]; [|exact I]. destruct (factorLine_fields w p t) as [C D]. destruct (factorLine_fields 1 p t) as [C1 D1]. split; [rewrite C, C1|rewrite D, D1]; ring.
Qed.
Lemma scaled_rows (w p : R) line (l : list (string * list (string * R))) :
  match mfind sltb line (map (fun kv => (fst kv, @factorLine RNum w p (snd kv))) l), mfind sltb line (map (fun kv => (fst kv, @factorLine RNum 1 p (snd kv))) l) with
  | Some t, Some t1 => field t "factor" = w * field t1 "factor" /\ field t "rate" = w * field t1 "rate"
  | None, None => True
  | _, _ => False
  end.
Proof.
  exact (scaled_pair w p _ _ _ (mfind_map_snd (@factorLine RNum w p) line l) (mfind_map_snd (@factorLine RNum 1 p) line l)).
Qed.
Lemma library_scales tostr depth fuel sortf (es : @elements RNum) : plain_library es -> weights_scale (@xlib_of RNum tostr depth fuel sortf es).
Proof.
  intros PL element E w line. unfold factor_row. cbn [x_factors xlib_of]. unfold Elements.getExcitationFactors.
  destruct (Elements.getElement es element) as [e| | |] eqn:GE; cbn [rbind]; try exact I.
  unfold getPhotoelectricExcitationFactors_vec. cbn [rmapM rbind]. unfold getPhotoelectricExcitationFactors. rewrite (pe_cache _ (pl_elements _ PL _ _ GE)).
  unfold computeFactors. destruct (getInitialPhotoelectricVacancyDistribution e E) as [d| | |]; cbn [rbind]; try exact I.
  destruct (getXRayLinesFromVacancyDistribution e d 1 1) as [l| | |]; cbn [rbind]; try exact I.
  destruct (Element.getMassAttenuationCoefficients e E) as [mu| | |]; cbn [rbind]; try exact I.
  unfold vget. cbn [nth_error of_opt]. exact (scaled_rows w (val0 mu "photoelectric") line l).
Qed.
