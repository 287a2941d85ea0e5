(** The library Elements answers vectors energy by energy, and names its peak families after its elements. *)
From Coq Require Import Ascii String List ZArith Reals Bool Arith Lia Lra Permutation.
From Verif Require Import Base.Num Base.Res Base.RSum Base.SMap Base.Str Base.ListLemmas Model.Beam Model.Material Model.TransmissionTable
  Model.Math Model.Shell Model.Element Model.Formula Model.Elements Model.Layer Model.XRF Model.Multilayer Model.XRFLibrary Spec.ShellSpec Spec.ElementSpec
  Spec.MaterialSpec Spec.BeamSpec Spec.ElementsSpec Spec.MultilayerSpec Spec.SecondarySpec Spec.LibrarySpec Proofs.ElementProofs Proofs.MultilayerProofs Proofs.MultilayerProofs2 Proofs.MultilayerProofs19 Proofs.LibraryProofs.
Import ListNotations.
Local Open Scope string_scope.
Local Open Scope R_scope.
Local Existing Instance RNum.
Local Ltac toR := change (@num RNum) with R in *.

Section Library.
Variables (tostr : R -> string) (depth fuel : nat) (sortf : list (string * R) -> list (string * R)) (es : @elements RNum).
Local Notation xl := (@xlib_of RNum tostr depth fuel sortf es).

Lemma map_list_each comp Es flag m name : name = "total" \/ name = "coherent" -> getMu_map_vec tostr depth fuel es comp Es flag = Ok m ->
  Forall2 (fun E v => exists t, getMu_map tostr depth fuel es comp E flag = Ok t /\ field t name = v) Es (vval m name).
Proof.
  intros N. unfold getMu_map_vec, getMu_map, getMu_map_list. intros H. obind H l HL. obind HL at_ HA. apply Ok_inj in H. subst m.
  assert (V : vval (transpose_mu l) name = map (fun t => field t name) l) by (destruct N as [-> | ->]; reflexivity). rewrite V.
  apply rmapM_inv in HL. clear - HA HL. induction HL as [|E t Es ts HT F2 IH]; [constructor|]. constructor; [|exact IH].
  exists t. cbn [rmap rbind rmapM]. unfold rmap. rewrite HT. cbn [rbind]. split; reflexivity.
Qed.
Theorem library_answers_each : answers_each xl.
Proof. intros comp Es m name N. split; intros H; apply map_list_each; assumption. Qed.

Lemma first_word_app a b : first_word (a ++ " " ++ b) = first_word a.
Proof. induction a as [|x a IH]; [reflexivity|]. cbn [append first_word]. destruct (Ascii.eqb x " "); [reflexivity|]. f_equal; exact IH. Qed.
Lemma familiesOf_names name e : forall shells l f, familiesOf name e shells = Ok l -> In f l -> exists s, fst f = name ++ " " ++ s.
Proof.
  induction shells as [|s r IH]; intros l f H I; cbn [familiesOf] in H; [apply Ok_inj in H; subst l; contradiction|].
  destruct (isKLM s); [|exact (IH _ _ H I)]. obind H k HK. match type of H with (if ?b then _ else _) = _ => destruct b end; [|exact (IH _ _ H I)].
  obind H b HB. obind H out HO. apply Ok_inj in H. subst l. destruct I as [<-|I]; [exists s; reflexivity|exact (IH _ _ eq_refl I)].
Qed.
Theorem library_plain_families c comps j E : (forall l, Permutation l (sortf l)) ->
  (forall name e, Elements.getElement es name = Ok e -> first_word name <> "dummytext") -> plain_families xl c comps j E.
Proof.
  intros SP NE f I. unfold families_at in I. destruct (getLayerPeakFamilies _ _ _ _ _) as [l| | |] eqn:H; try contradiction.
  unfold getLayerPeakFamilies in H. obind H k HK. cbn [x_families xlib_of] in H. unfold Elements.getPeakFamilies in H. obind H l0 H0. apply Ok_inj in H. subst l.
  apply (Permutation_in _ (Permutation_sym (SP l0))) in I.
  assert (G : forall names acc out, rfold (fun out name => rbind (Elements.getElement es name) (fun e => rbind (familiesOf name e (getExcitedShells e E)) (fun f => Ok (out ++ f)%list))) names acc = Ok out ->
     In f out -> In f acc \/ first_word (fst f) <> "dummytext").
  { clear - NE. induction names as [|n names IH]; intros acc out H I; cbn [rfold] in H; [apply Ok_inj in H; subst; auto|].
    obind H a HA. obind HA e HE. obind HA fs HF. apply Ok_inj in HA. subst a. destruct (IH _ _ H I) as [I1|]; [|auto].
    apply in_app_or in I1. destruct I1 as [I1|I1]; [auto|]. right. destruct (familiesOf_names _ _ _ _ _ HF I1) as [s QS]. toR. rewrite QS, first_word_app. eapply NE; eassumption. }
  destruct (G _ _ _ H0 I) as [[]|Q]. exact Q.
Qed.
End Library.
