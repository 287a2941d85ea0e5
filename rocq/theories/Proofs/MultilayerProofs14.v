(** Multilayer: with complete data the calculation ends normally (continued). *)
From Coq Require Import Ascii String List ZArith Reals Bool Arith Lia Lra Permutation.
From Verif Require Import Base.Num Base.Res Base.RSum Base.SMap Base.Str Base.ListLemmas Model.Beam Model.Material Model.TransmissionTable
  Model.Math Model.Shell Model.Element Model.Layer Model.XRF Model.Multilayer Spec.MultilayerSpec Proofs.MathProofs Proofs.MultilayerProofs Proofs.MultilayerProofs2
  Proofs.MultilayerProofs3 Proofs.MultilayerProofs4 Proofs.MultilayerProofs5 Proofs.MultilayerProofs6 Proofs.MultilayerProofs7 Proofs.MultilayerProofs8
  Proofs.MultilayerProofs9 Proofs.MultilayerProofs10 Proofs.MultilayerProofs11 Proofs.MultilayerProofs12 Proofs.MultilayerProofs13.
Import ListNotations.
Set Implicit Arguments.
Local Open Scope string_scope.
Local Open Scope R_scope.
Local Existing Instance RNum.

Lemma sinDegrees_R (a : R) : @sinDegrees RNum a = sin_degrees a.
Proof. unfold sinDegrees, sin_degrees. rnorm. change (@nlit RNum 180 0) with (Rlit 180 0). replace (Rlit 180 0) with 180 by (unfold Rlit; simpl; lra). reflexivity. Qed.

(** ** Secondary excitation in one thick layer *)
Section Bulk.
Variable debug : bool.
Variable xl : @xlib RNum.
Variable c : @config RNum.
Hypothesis BK : bulk_sample xl c.
Local Notation comps := (sample_compositions xl c).
Local Notation mu0 := (mu_at xl c comps 0).

Lemma intraTerm_total s mf muj emRate rate (x : @rline RNum) E E' : sl_layer s = layer_at c 0 -> r_mu x = mu0 E' -> 0 < muj ->
  exists v, intraTerm debug c s (mu0 E) mf muj emRate rate x = Ok v.
Proof.
  intros SL HX HM. unfold intraTerm. rewrite SL, HX, !sinDegrees_R. rnorm. toR.
  pose proof (@bk_in xl c BK) as SI. pose proof (@bk_out xl c BK) as SO. pose proof (@bk_mu xl c BK E) as ME. pose proof (@bk_mu xl c BK E') as ME'.
  pose proof (@bk_thick xl c BK E E') as TH. unfold mass_thickness in TH.
  set (a := mu0 E / sin_degrees (c_alphaIn c)) in *. set (b := mu0 E' / sin_degrees (c_alphaOut c)) in *.
  assert (HA : 0 < a) by (apply Rdiv_lt_0_compat; assumption). assert (HB : 0 < b) by (apply Rdiv_lt_0_compat; assumption).
  assert (DD : 0 < l_density (layer_at c 0) * l_thickness (layer_at c 0)).
  { apply Rnot_le_lt. intros Q. assert (0 <= (a + b) * - (l_density (layer_at c 0) * l_thickness (layer_at c 0))) by (apply Rmult_le_pos; lra). toR. lra. }
  rewrite (@deBoerL0_thick debug a b muj (l_density (layer_at c 0)) (l_thickness (layer_at c 0)) HA HB HM) by (rewrite (Rmult_comm (l_thickness _)); exact TH).
  cbn [rbind]. rnorm. destruct (Reqb_spec a muj) as [EQ|NE].
  - change (@nlit RNum 99999 (-5)) with (Rlit 99999 (-5)). set (a' := mu0 E / (Rlit 99999 (-5) * sin_degrees (c_alphaIn c))).
    assert (L5 : 0 < Rlit 99999 (-5) < 1) by (unfold Rlit; simpl; lra).
    assert (LA : a <= a').
    { unfold a, a'. apply Rmult_le_compat_l; [lra|]. apply Rinv_le_contravar; [apply Rmult_lt_0_compat; lra|]. rewrite <- (Rmult_1_l (sin_degrees _)) at 2. apply Rmult_le_compat_r; lra. }
    rewrite (@deBoerL0_thick debug b a' muj (l_density (layer_at c 0)) (l_thickness (layer_at c 0)) HB) ; [cbn; eauto|lra|exact HM|].
    rewrite (Rmult_comm (l_thickness _)). eapply Rlt_le_trans; [exact TH|]. apply Rmult_le_compat_r; [toR; lra|]. toR. lra.
  - rewrite (@deBoerL0_thick debug b a muj (l_density (layer_at c 0)) (l_thickness (layer_at c 0)) HB HA HM); [cbn; eauto|].
    rewrite (Rmult_comm (l_thickness _)), (Rplus_comm b a). exact TH.
Qed.

Definition goodLines (rs : rlns) : Prop := forall L x, In (L, x) rs -> exists E', r_mu x = mu0 E'.
Lemma excite_total (term : R -> @rline RNum -> res (option R)) name factors : (forall rate x E', r_mu x = mu0 E' -> exists o, term rate x = Ok o) ->
  forall rs ls, goodLines rs -> exists rs' ls', @excite RNum term name factors rs ls = Ok (rs', ls') /\ goodLines rs'.
Proof.
  intros HT. induction rs as [|[L x] rs IH]; intros ls G; cbn [excite]; [eexists _, _; split; [reflexivity|exact G]|].
  destruct (G L x (or_introl eq_refl)) as [E' HE]. assert (G' : goodLines rs) by (intros L' x' I'; apply (G L' x'); right; exact I').
  assert (A : exists o, match mfind sltb L factors with None => Ok None | Some t => term (val0 t "rate") x end = Ok o) by (destruct (mfind sltb L factors); [apply (HT _ _ _ HE)|eauto]).
  destruct A as [o HA]. toR. rewrite HA. cbn [rbind].
  destruct o as [v|].
  - match goal with |- context [excite term name factors rs ?l] => destruct (IH l G') as (rs' & ls' & HI & GI) end. toR. rewrite HI. cbn.
    eexists _, _. split; [reflexivity|]. intros L' x' [Q|Q]; [injection Q as <- <-; exists E'; exact HE|apply (GI L' x' Q)].
  - destruct (IH ls G') as (rs' & ls' & HI & GI). toR. rewrite HI. cbn. eexists _, _. split; [reflexivity|]. intros L' x' [Q|Q]; [injection Q as <- <-; exists E'; exact HE|apply (GI L' x' Q)].
Qed.
Lemma cachedFactors_total fc element (E : R) : (forall E, exists l, x_factors xl element E 1 = Ok l) -> exists y, cachedFactors xl fc element E = Ok y.
Proof.
  intros XF. unfold cachedFactors. cbv zeta. match goal with |- context [mfind nltb E ?m] => destruct (mfind nltb E m) end; [eauto|].
  destruct (XF E) as [l HL]. change (@n1 RNum) with 1. toR. rewrite HL. cbn. eauto.
Qed.
Lemma exciteAll_total (env : @ray_env RNum) s mf element thr E : (forall E, exists l, x_factors xl element E 1 = Ok l) -> sl_layer s = layer_at c 0 -> (forall v, In v (sl_muj s) -> 0 < v) ->
  forall em k fc rs ls, (k + length em <= length (sl_muj s))%nat -> goodLines rs ->
  exists fc' rs' ls', exciteAll xl (secondaryTerm debug xl c env 0 0 s s (mu0 E) mf) 0 s element thr k em fc rs ls = Ok (fc', rs', ls') /\ goodLines rs'.
Proof.
  intros XF SL PM. induction em as [|[[e er] name] em IH]; intros k fc rs ls HK G; cbn [exciteAll]; [eexists _, _, _; split; [reflexivity|exact G]|].
  cbn [length] in HK. match goal with |- context [if ?b then _ else _] => destruct b end; [apply IH; [lia|exact G]|].
  destruct (@cachedFactors_total fc element e XF) as [fl HF]. toR. rewrite HF. cbn [rbind].
  match goal with |- context [excite ?t ?n (snd fl) rs ls] => destruct (@excite_total t n (snd fl)) with (rs := rs) (ls := ls) as (rs1 & ls1 & HX & GX) end; [|exact G|].
  - intros rate x E' HE. assert (HV : exists m, nth_error (sl_muj s) k = Some m) by (destruct (nth_error (sl_muj s) k) eqn:Q; [eauto|apply nth_error_None in Q; toR; lia]).
    destruct HV as [m HV]. unfold vget. toR. rewrite HV. cbn [of_opt rbind]. unfold secondaryTerm. cbn [Nat.eqb].
    destruct (@intraTerm_total s mf m er rate x E E' SL HE (PM m (nth_error_In _ _ HV))) as [v HI]. toR. rewrite HI. cbn. eauto.
  - toR. rewrite HX. cbn [rbind fst snd]. apply IH; [lia|exact GX].
Qed.
Lemma secondaryLoop_total (env : @ray_env RNum) s mf element thr fc rs ls E : (forall E, exists l, x_factors xl element E 1 = Ok l) -> e_slabs env = [s] -> sl_layer s = layer_at c 0 ->
  (forall v, In v (sl_muj s) -> 0 < v) -> length (sl_em s) = length (sl_muj s) -> goodLines rs ->
  exists y, secondaryLoop debug xl c env 0 s (mu0 E) mf element thr 0 (e_slabs env) fc rs ls = Ok y.
Proof.
  intros XF ES SL PM LM G. rewrite ES. cbn [secondaryLoop Nat.eqb negb andb].
  destruct (@exciteAll_total env s mf element thr E XF SL PM (sl_em s) 0 fc rs ls) as (fc' & rs' & ls' & HX & _); [toR; lia|exact G|].
  toR. rewrite HX. cbn. eauto.
Qed.
End Bulk.
