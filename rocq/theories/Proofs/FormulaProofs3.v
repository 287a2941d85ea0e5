(** Rejected formulas and the formula that makes the parser recurse forever. *)
From Coq Require Import Ascii String List ZArith Reals Bool Lia Lra.
From Verif Require Import Base.Num Base.Res Base.RSum Base.SMap Base.Str Base.ListLemmas
  Model.Formula Spec.FormulaSpec Proofs.MathProofs Proofs.FormulaProofs Proofs.FormulaProofs2.
Import ListNotations.
Local Open Scope string_scope.
Local Existing Instance RNum.

Lemma positions_nonempty n s i : (exists c, In c (chars s) /\ eqc c n = true) -> positions n i s <> [].
Proof.
  revert i. induction s as [|c s IH]; intros i (d & Hd & E); [destruct Hd|]. cbn. destruct Hd as [->|Hd].
  - rewrite E. discriminate.
  - destruct (eqc c n); [discriminate|]. apply IH. exists d. split; assumption.
Qed.
Lemma occ_count n s : occ n s = length (filter (fun c => eqc c n) (chars s)).
Proof.
  unfold occ. generalize 0%nat at 1. induction s as [|c s IH]; intros i; [reflexivity|]. cbn. destruct (eqc c n); cbn; rewrite IH; reflexivity.
Qed.

Lemma two_lit : @stringToDouble RNum "2" = Some 2%R.
Proof. exact (stringToDouble_dec 2). Qed.

Lemma parse_C tostr fuel : @parseFormula RNum tostr (S fuel) "C" = Ok [("C", 1%R)].
Proof. reflexivity. Qed.

Section Diverge.
Variable tostr : R -> string.
Hypothesis tostr2 : tostr (IZR 2) = "2".
Definition bad (X : string) : string := "A)2" ++ X ++ "(C".
Lemma bad_step fuel X Y : X = String "B" Y -> every flatc X ->
  @parseFormula RNum tostr (S (S fuel)) (bad X) = @parseFormula RNum tostr (S fuel) (bad (X ++ "C2" ++ X)).
Proof.
  intros E Hf. set (k := String.length X).
  assert (H40 : positions 40 0 (bad X) = [(3 + k)%nat]).
  { unfold bad. rewrite positions_app, positions_app. rewrite (positions_none 40 X) by (apply flat_no; auto). reflexivity. }
  assert (H41 : positions 41 0 (bad X) = [1%nat]).
  { unfold bad. rewrite positions_app, positions_app. rewrite (positions_none 41 X) by (apply flat_no; auto). reflexivity. }
  assert (H32 : has_space (bad X) = false).
  { unfold has_space, bad. rewrite positions_app, positions_app. rewrite (positions_none 32 X) by (apply flat_no; auto). reflexivity. }
  assert (Hsize : String.length (bad X) = (5 + k)%nat).
  { unfold bad. rewrite !str_app_length. cbn. fold k. lia. }
  remember (S fuel) as f eqn:Ef. remember (3 + k)%nat as p1 eqn:Ep1. remember (5 + k)%nat as sz eqn:Esz.
  cbn [parseFormula]. rewrite H40, H41, H32, Hsize. change (start_ok (bad X)) with true.
  change (Nat.ltb 0 (length (@nil nat))) with false. change (length [p1] =? length [1])%nat with true. cbn [negb]. cbv iota.
  replace (1 =? S p1)%nat with false by (symmetry; apply Nat.eqb_neq; lia). cbv iota.
  replace (p1 <? 1)%nat with false by (symmetry; apply Nat.ltb_ge; lia). cbv iota.
  assert (Hsub : substr (bad X) (p1 + 1) (Nat.min sz (sz - (p1 + 1))) = "C").
  { replace (Nat.min sz (sz - (p1 + 1))) with 1%nat by lia. unfold substr.
    replace (bad X) with (("A)2" ++ X ++ "(") ++ "C") by (unfold bad; rewrite !sapp_assoc; reflexivity).
    replace (p1 + 1)%nat with (String.length ("A)2" ++ X ++ "(") + 0)%nat by (rewrite !str_app_length; cbn; fold k; lia).
    rewrite sub_skip. reflexivity. }
  rewrite Hsub. rewrite Ef at 1. rewrite parse_C. cbn [rbind].
  replace (1 + 1 =? sz)%nat with false by (symmetry; apply Nat.eqb_neq; lia). cbv iota.
  assert (Hfrom : from (bad X) (1 + 1) = "2" ++ X ++ "(C").
  { replace (bad X) with ("A)" ++ ("2" ++ X ++ "(C")) by reflexivity. exact (from_app "A)" ("2" ++ X ++ "(C")). }
  rewrite Hfrom.
  assert (Hstop : scan_stop ("2" ++ X ++ "(C") (1 + 1) = 3%nat).
  { rewrite E. reflexivity. }
  rewrite Hstop.
  assert (Hnum : substr (bad X) (1 + 1) (3 - (1 + 1)) = "2") by (rewrite E; reflexivity).
  rewrite Hnum, two_lit.
  replace (3 <? sz - 1)%nat with true by (symmetry; apply Nat.ltb_lt; rewrite Esz; unfold k; rewrite E; cbn; lia). cbv iota.
  assert (Hpre : substr (bad X) 0 p1 = "A)2" ++ X).
  { unfold substr. replace (bad X) with (("A)2" ++ X) ++ "(C") by (unfold bad; rewrite !sapp_assoc; reflexivity).
    replace p1 with (String.length ("A)2" ++ X)) by (rewrite str_app_length; cbn; fold k; lia). apply sub_pre. }
  rewrite Hpre.
  assert (Hfrom3 : from (bad X) 3 = X ++ "(C") by (exact (from_app "A)2" (X ++ "(C"))).
  rewrite Hfrom3.
  assert (Hexp : @expand RNum tostr 2%R [("C", 1%R)] = "C2").
  { unfold expand. cbn [fold_left fst snd append]. rnorm. replace (1 * 2)%R with (IZR 2) by lra. rewrite tostr2. reflexivity. }
  rewrite Hexp. f_equal. unfold bad. rewrite !sapp_assoc. reflexivity.
Qed.
Lemma bad_diverges fuel : forall X Y, X = String "B" Y -> every flatc X -> @parseFormula RNum tostr fuel (bad X) = Diverge.
Proof.
  induction fuel as [|fuel IH]; intros X Y E Hf; [reflexivity|].
  destruct fuel as [|fuel].
  - (* depth 1: the inner call has no fuel *)
    assert (H40 : positions 40 0 (bad X) = [(3 + String.length X)%nat]).
    { unfold bad. rewrite positions_app, positions_app. rewrite (positions_none 40 X) by (apply flat_no; auto). reflexivity. }
    assert (H41 : positions 41 0 (bad X) = [1%nat]).
    { unfold bad. rewrite positions_app, positions_app. rewrite (positions_none 41 X) by (apply flat_no; auto). reflexivity. }
    assert (H32 : has_space (bad X) = false).
    { unfold has_space, bad. rewrite positions_app, positions_app. rewrite (positions_none 32 X) by (apply flat_no; auto). reflexivity. }
    cbn [parseFormula]. rewrite H40, H41, H32. reflexivity.
  - rewrite (bad_step fuel X Y E Hf). apply (IH _ (Y ++ "C2" ++ X)); [rewrite E; reflexivity|].
    apply every_app. split; [exact Hf|]. apply every_app. split; [|exact Hf].
    intros c [<-|[<-|[]]]; reflexivity.
Qed.
End Diverge.
