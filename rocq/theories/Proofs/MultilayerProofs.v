(** Multilayer: names, fields, the local loops. *)
From Coq Require Import Ascii String List ZArith Reals Bool Arith Lia Lra.
From Verif Require Import Base.Num Base.Res Base.RSum Base.SMap Base.Str Base.ListLemmas Model.Beam Model.Material Model.TransmissionTable
  Model.Math Model.Shell Model.Element Model.Layer Model.XRF Model.Multilayer Spec.MultilayerSpec.
Import ListNotations.
Set Implicit Arguments.
Local Open Scope string_scope.
Local Open Scope R_scope.
Local Existing Instance RNum.

Ltac toR := change (@num RNum) with R in *.
Notation tbl := (list (string * R)).
Notation lns := (list (string * tbl)).

(** ** Names *)
Lemma has_space_app a b : has_space (a ++ b) = (has_space a || has_space b)%bool.
Proof. induction a as [|x a IH]; cbn; [reflexivity|]. rewrite IH. apply orb_assoc. Qed.
Lemma has_space_mid a b : has_space (a ++ " " ++ b) = true.
Proof. rewrite has_space_app. cbn. apply orb_true_r. Qed.
Lemma word_inj a : forall a' b b', one_word a -> one_word a' -> a ++ " " ++ b = a' ++ " " ++ b' -> a = a' /\ b = b'.
Proof.
  unfold one_word. induction a as [|x a IH]; intros [|y a'] b b' H H' E; cbn in *.
  - injection E as ->. auto.
  - injection E as <- E. cbn in H'. discriminate.
  - injection E as -> E. cbn in H. discriminate.
  - injection E as <- E. apply orb_false_iff in H, H'. destruct (IH a' b b') as [-> ->]; tauto.
Qed.

(** ** Fields *)
Lemma val0_field (t : tbl) k : @val0 RNum t k = field t k.
Proof. reflexivity. Qed.
Lemma field_mset (t : tbl) k v q : msorted sltb t -> field (mset sltb k v t) q = if String.eqb k q then v else field t q.
Proof.
  intros H. unfold field. destruct (String.eqb_spec k q) as [->|Hn].
  - rewrite smfind_mset_same. reflexivity.
  - rewrite smfind_mset_other by assumption. reflexivity.
Qed.
Lemma addField_sorted (t : tbl) k v : msorted sltb t -> msorted sltb (@addField RNum t k v).
Proof. intros. apply smset_sorted. assumption. Qed.
Lemma field_addField (t : tbl) k v q : msorted sltb t ->
  field (@addField RNum t k v) q = field t q + if String.eqb k q then v else 0.
Proof.
  intros H. unfold addField. toR. rewrite field_mset by assumption. rewrite val0_field. rnorm.
  destruct (String.eqb_spec k q) as [->|]; [reflexivity|ring].
Qed.

Lemma contributions_cons k v (t : tbl) : contributions ((k, v) :: t) = (if has_space k then v else 0) + contributions t.
Proof. unfold contributions. cbn [filter fst]. destruct (has_space k); cbn [map Rsum snd]; toR; ring. Qed.
Lemma field_cons_lt q w k (t : tbl) : sltb q k = true -> field ((q, w) :: t) k = field t k.
Proof. intros H. unfold field. cbn [mfind]. rewrite H. reflexivity. Qed.
Lemma contributions_mset k v (t : tbl) : msorted sltb t ->
  contributions (mset sltb k v t) = contributions t + if has_space k then v - field t k else 0.
Proof.
  induction t as [|[q w] t IH]; intros H.
  - cbn [mset]. rewrite contributions_cons. unfold contributions at 1. cbn. destruct (has_space k); cbn; unfold contributions; cbn; lra.
  - assert (H' := H). apply msorted_cons_inv in H. destruct H as [H F]. cbn [mset].
    destruct (sltb q k) eqn:E1.
    + rewrite !contributions_cons, IH by assumption. rewrite field_cons_lt by assumption. ring.
    + destruct (sltb k q) eqn:E2.
      * rewrite (contributions_cons k). unfold field. cbn [mfind]. rewrite E1, E2. destruct (has_space k); ring.
      * assert (q = k) by (apply (st_total (StrictTotal := sltb_total)); assumption). subst q.
        rewrite !contributions_cons. unfold field. cbn [mfind]. rewrite E1. destruct (has_space k); ring.
Qed.
Lemma contributions_addField k v (t : tbl) : msorted sltb t ->
  contributions (@addField RNum t k v) = contributions t + if has_space k then v else 0.
Proof.
  intros H. unfold addField. toR. rewrite contributions_mset by assumption. rewrite val0_field. rnorm.
  destruct (has_space k); ring.
Qed.

(** ** Tables of lines *)
Definition sorted2 (ls : lns) : Prop := msorted sltb ls /\ forall L t, mfind sltb L ls = Some t -> msorted sltb t.
Lemma sorted2_nil : sorted2 [].
Proof. split; [apply smsorted_nil|discriminate]. Qed.
Lemma sorted2_set ls L (t : tbl) : sorted2 ls -> msorted sltb t -> sorted2 (mset sltb L t ls).
Proof.
  intros [A B] C. split; [apply smset_sorted, A|]. intros L' t' H. destruct (string_dec L L') as [<-|Hn].
  - rewrite smfind_mset_same in H. injection H as <-. exact C.
  - rewrite smfind_mset_other in H by assumption. eapply B, H.
Qed.
Lemma sorted2_lineOf ls L : sorted2 ls -> msorted sltb (@lineOf RNum ls L).
Proof.
  intros [A B]. unfold lineOf. toR. destruct (mfind sltb L ls) eqn:E; [eapply B, E|apply smsorted_nil].
Qed.
Lemma find_set_same (ls : lns) L t : mfind sltb L (mset sltb L t ls) = Some t.
Proof. apply smfind_mset_same. Qed.
Lemma find_set_other (ls : lns) L L' t : sorted2 ls -> L <> L' -> mfind sltb L' (mset sltb L t ls) = mfind sltb L' ls.
Proof. intros [A _] H. apply smfind_mset_other; assumption. Qed.
