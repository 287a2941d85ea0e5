(** C67: loading the cross sections. *)
From Coq Require Import Ascii String List ZArith Reals Bool Arith Lia Lra.
From Verif Require Import Base.Num Base.Res Base.SMap Base.Str Base.Text Base.ListLemmas Base.RSum Model.Specfile Model.EPDL97 Spec.EPDL97Spec
  Proofs.MathProofs Proofs.EPDL97Proofs Proofs.EPDL97Proofs2 Proofs.EPDL97Proofs3 Proofs.EPDL97Proofs4 Proofs.EPDL97Proofs5 Proofs.EPDL97Proofs6.
Import ListNotations.
Set Implicit Arguments.
Local Open Scope string_scope.
Local Open Scope R_scope.
Local Existing Instance RNum.

(** *** Labels *)
Lemma prefix_iff k : forall s, String.prefix k s = true <-> exists c, s = (k ++ c)%string.
Proof.
  induction k as [|a k IH]; intros s.
  - cbn. destruct s; split; try reflexivity; intros _; eexists; reflexivity.
  - destruct s as [|x s]; cbn [String.prefix].
    + split; [discriminate|]. intros (c & Q). discriminate.
    + destruct (ascii_dec a x) as [<-|N].
      * rewrite IH. split; intros (c & Q); exists c; cbn [append]; [congruence|]. cbn [append] in Q. congruence.
      * split; [discriminate|]. intros (c & Q). cbn [append] in Q. congruence.
Qed.
Lemma contains_iff k : forall s, contains k s = true <-> occurs k s.
Proof.
  induction s as [|x s IH]; cbn [contains].
  - rewrite orb_false_r, prefix_iff. split.
    + intros (c & Q). exists "", c. exact Q.
    + intros (a & c & Q). destruct a; [exists c; exact Q|discriminate].
  - rewrite orb_true_iff, prefix_iff, IH. split.
    + intros [(c & Q)|(a & c & Q)]; [exists "", c; exact Q|]. exists (String x a), c. cbn [append]. congruence.
    + intros (a & c & Q). destruct a as [|y a]; [left; exists c; exact Q|]. right. exists a, c. cbn [append] in Q. congruence.
Qed.
Lemma substr_prefix k s : String.eqb k (substr s 0 (String.length k)) = true <-> exists c, s = (k ++ c)%string.
Proof.
  rewrite String.eqb_eq. unfold substr. split.
  - intros Q. apply prefix_iff. rewrite prefix_correct. auto.
  - intros H. apply prefix_iff in H. rewrite prefix_correct in H. auto.
Qed.
Lemma labelMatches_iff q label : In q quantities -> labelMatches (searchKey q) label = true <-> names q label.
Proof.
  intros H. unfold labelMatches. change (upper label) with (capitals label). set (u := capitals label).
  assert (P : forall k, contains k u = true /\ String.eqb k (substr u 0 (String.length k)) = true <-> exists c, u = (k ++ c)%string).
  { intros k. rewrite substr_prefix, contains_iff. split; [tauto|]. intros (c & Q). split; [exists "", c; exact Q|exists c; exact Q]. }
  unfold names. fold u. cbn in H.
  repeat (destruct H as [<-|H]; [|]); [..|destruct H];
    match goal with |- context [searchKey ?q] =>
      let k := eval vm_compute in (searchKey q) in change (searchKey q) with k;
      try (let k' := eval vm_compute in (capitals q) in change (capitals q) with k');
      destruct (in_dec string_dec q subshells) as [J|J]; [try (exfalso; cbn in J; intuition discriminate)|try (exfalso; apply J; cbn; tauto)];
      try (destruct (string_dec q "coherent") as [W|W]; [try discriminate W|try congruence]);
      try (destruct (string_dec q "all other") as [W'|W']; [try discriminate W'|try congruence])
    end;
    match goal with |- context [String.eqb ?a "COHERENT"] => let v := eval vm_compute in (String.eqb a "COHERENT") in change (String.eqb a "COHERENT") with v;
      let w := eval vm_compute in (Nat.ltb (String.length a) 3) in change (Nat.ltb (String.length a) 3) with w end; cbv iota; rewrite ?andb_true_r, ?andb_true_iff, ?negb_true_iff, ?contains_iff; try reflexivity.
  1: { split; intros [A B]; split; auto. - intros C. apply contains_iff in C. congruence. - destruct (contains "INCOHERENT" u) eqn:C; [|reflexivity]. apply contains_iff in C. contradiction. }
  all: match goal with |- _ /\ String.eqb ?k _ = true <-> _ => rewrite <- (P k), contains_iff; reflexivity end.
Qed.
Lemma labelIndex_from key labels : forall n i, labelIndex key labels n = Some i -> exists m, i = (n + Z.of_nat m)%Z /\
  (exists l, nth_error labels m = Some l /\ labelMatches key l = true) /\ forall j l, (j < m)%nat -> nth_error labels j = Some l -> labelMatches key l = false.
Proof.
  induction labels as [|l labels IH]; intros n i E; cbn [labelIndex] in E; [discriminate|].
  destruct (labelMatches key l) eqn:M.
  - injection E as <-. exists 0%nat. split; [lia|]. split; [exists l; split; [reflexivity|exact M]|intros; lia].
  - destruct (IH _ _ E) as (m & Q & A & B). exists (S m). split; [lia|]. split; [exact A|]. intros j l' J F. destruct j as [|j]; [cbn in F; injection F as <-; exact M|]. apply (B j); [lia|exact F].
Qed.
Lemma labelIndex_column q labels i : In q quantities -> labelIndex (searchKey q) labels 0 = Some i -> exists m, i = Z.of_nat m /\ column_of labels q m.
Proof.
  intros H E. destruct (labelIndex_from _ _ _ E) as (m & Q & (l & A & M) & B). exists m. split; [lia|]. split.
  - exists l. split; [exact A|]. apply labelMatches_iff; assumption.
  - intros j l' J F N. apply (@labelMatches_iff q l' H) in N. rewrite (B j l' J F) in N. discriminate.
Qed.
Lemma labelIndex_none key labels : forall n, labelIndex key labels n = None <-> forall l, In l labels -> labelMatches key l = false.
Proof.
  induction labels as [|l labels IH]; intros n; cbn [labelIndex]; [split; [intros _ ? []|reflexivity]|].
  destruct (labelMatches key l) eqn:M.
  - split; [discriminate|]. intros H. rewrite (H l) in M by (left; reflexivity). discriminate.
  - rewrite IH. split; [intros H l' [<-|L]; [exact M|exact (H l' L)]|intros H l' L; apply H; right; exact L].
Qed.
Lemma buildIndex_ok ns labels : NoDup ns -> forall m m', msorted sltb m -> buildIndex ns labels m = (m', Ok tt) ->
  (forall q, In q ns -> exists i, mfind sltb q m' = Some i /\ labelIndex (searchKey q) labels 0 = Some i) /\ (forall q, ~ In q ns -> mfind sltb q m' = mfind sltb q m).
Proof.
  induction ns as [|n ns IH]; intros ND m m' S E; cbn [buildIndex] in E.
  - injection E as <-. split; [intros ? []|reflexivity].
  - inversion ND as [|? ? N1 N2]; subst. destruct (labelIndex (searchKey n) labels 0) as [i|] eqn:L; [|discriminate].
    destruct (IH N2 _ _ (smset_sorted _ _ S) E) as [A B]. split.
    + intros q [<-|Q]; [|exact (A q Q)]. exists i. split; [|exact L]. rewrite B by exact N1. apply smfind_mset_same.
    + intros q Q. rewrite B by (intros C; apply Q; right; exact C). apply smfind_mset_other; [intros ->; apply Q; left; reflexivity|exact S].
Qed.
Lemma buildIndex_fails ns labels : forall m, (exists q, In q ns /\ labelIndex (searchKey q) labels 0 = None) -> snd (buildIndex ns labels m) = Throw IosFailure.
Proof.
  induction ns as [|n ns IH]; intros m (q & H & L); [destruct H|]. cbn [buildIndex].
  destruct (labelIndex (searchKey n) labels 0) as [i|] eqn:E; [|reflexivity]. apply IH. destruct H as [<-|H]; [congruence|]. exists q. auto.
Qed.
