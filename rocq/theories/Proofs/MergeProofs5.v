(** The answers of an element at the energies given. *)
From Coq Require Import Ascii String List ZArith Reals Bool Arith Lia Lra Sorted.
From Verif Require Import Base.Num Base.Res Base.SMap Base.Str Base.Text Model.Shell Model.Specfile Model.EPDL97 Model.Element Model.Elements Model.ElementsFiles
  Spec.ShellSpec Spec.MaterialSpec Spec.ElementSpec Spec.MergeSpec Proofs.MathProofs Proofs.ElementProofs Proofs.ElementProofs2 Proofs.ElementProofs3 Proofs.ElementProofs4 Proofs.ElementProofs8 Proofs.ElementsProofs Proofs.InitProofs Proofs.InitProofs4 Proofs.EPDL97Proofs9 Proofs.MergeProofs Proofs.MergeProofs2 Proofs.MergeProofs3 Proofs.MergeProofs4.
Import ListNotations.
Set Implicit Arguments.
Local Open Scope string_scope.
Local Open Scope R_scope.
Local Existing Instance RNum.

Lemma sorted_nth (l : list R) : StronglySorted Rlt l -> forall i j a b, (i < j)%nat -> nth_error l i = Some a -> nth_error l j = Some b -> a < b.
Proof.
  induction 1 as [|x l S IH F]; intros i j a b L A B; [destruct i; discriminate|]. destruct j as [|j]; [lia|]. cbn in B. destruct i as [|i]; cbn in A.
  - injection A as <-. rewrite Forall_forall in F. apply F. eapply nth_error_In, B.
  - apply (IH i j); [lia|assumption|assumption].
Qed.
Lemma suffix_bracket (pre energy : list R) (e0 d : R) k x : apart energy -> nth_error energy 0 = Some e0 -> 0 < e0 -> 0 < d <= 1 / 100000 ->
  Forall (fun a => 0 < a /\ a + d < e0) pre -> nth_error energy k = Some x -> (S k < length energy)%nat -> (0 < k)%nat \/ (0 < length pre)%nat ->
  exists i x0 c, S i = (length pre + k)%nat /\ bracket (pre ++ energy)%list x = Ok (Z.of_nat i, Z.of_nat (S i), x0, x) /\ 0 < x0 /\ x0 + d < x /\
    nth_error (pre ++ energy) (S i) = Some x /\ nth_error (pre ++ energy) (S (S i)) = Some c /\ x + 1 / 100000 < c.
Proof.
  intros AP E0 P0 D F K SK NZ. pose proof (apart_sorted AP) as ST. destruct (length pre + k)%nat as [|i] eqn:I; [lia|].
  assert (X1 : nth_error (pre ++ energy) (S i) = Some x). { rewrite nth_error_app2 by lia. replace (S i - length pre)%nat with k by lia. exact K. }
  destruct (nth_error energy (S k)) as [c|] eqn:C; [|apply nth_error_None in C; lia].
  assert (X2 : nth_error (pre ++ energy) (S (S i)) = Some c). { rewrite nth_error_app2 by lia. replace (S (S i) - length pre)%nat with (S k) by lia. exact C. }
  pose proof (AP k x c K C) as XC.
  assert (LE : forall m a, (m <= i)%nat -> nth_error (pre ++ energy) m = Some a -> 0 < a /\ a < x).
  { intros m a Hm A. destruct (Nat.lt_ge_cases m (length pre)) as [L|L].
    - rewrite nth_error_app1 in A by exact L. rewrite Forall_forall in F. destruct (F a (nth_error_In _ _ A)) as [Q R].
      destruct k as [|k]; [assert (e0 = x) by congruence; subst; lra|]. pose proof (sorted_nth ST (i := 0) (j := S k) ltac:(lia) E0 K). lra.
    - rewrite nth_error_app2 in A by exact L. assert (L2 : (m - length pre < k)%nat) by lia. pose proof (sorted_nth ST L2 A K). split; [|assumption].
      destruct (m - length pre)%nat as [|q]; [assert (a = e0) by congruence; subst; assumption|]. pose proof (sorted_nth ST (i := 0) (j := S q) ltac:(lia) E0 A). lra. }
  destruct (nth_error (pre ++ energy) i) as [x0|] eqn:X0; [|apply nth_error_None in X0; assert (nth_error (pre ++ energy) (S i) <> None) as Y by congruence; apply nth_error_Some in Y; lia].
  exists i, x0, c. split; [reflexivity|]. split; [|split; [apply (LE i x0); [lia|exact X0]|split; [|auto]]].
  - apply bracket_at; [exact X0|exact X1|intros m a Hm A; apply (LE m a Hm A)|]. intros c' C'. rewrite X2 in C'. injection C' as <-. lra.
  - destruct k as [|k].
    + rewrite nth_error_app1 in X0 by lia. rewrite Forall_forall in F. destruct (F x0 (nth_error_In _ _ X0)) as [_ Q]. assert (e0 = x) by congruence. subst. exact Q.
    + rewrite nth_error_app2 in X0 by lia. replace (i - length pre)%nat with k in X0 by lia. pose proof (AP k x0 x X0 K). lra.
Qed.
Lemma combine_app {A B} (a c : list A) (b d : list B) : length a = length b -> combine (a ++ c) (b ++ d) = (combine a b ++ combine c d)%list.
Proof. revert b. induction a as [|x a IH]; intros [|y b] H; try discriminate; [reflexivity|]. cbn. f_equal. apply IH. cbn in H. lia. Qed.

(** the table a shell stores *)
Lemma stored_shape (ea eb : element) s (pre energy wp ws : list R) (e0 : R) : setPartialPhotoelectric ea s (pre ++ energy)%list (wp ++ ws)%list = (eb, Ok tt) -> s <> "all other" ->
  length wp = length pre -> length ws = length energy -> (2 <= length energy)%nat -> apart energy -> nth_error energy 0 = Some e0 ->
  Forall (fun a => 0 < a /\ a + 1 / 100000 < e0) pre -> Forall (fun gw => fst gw < val0 (el_binding ea) s -> snd gw = 0) (combine energy ws) ->
  exists pre' wp', mfind sltb s (el_ppE eb) = Some (pre' ++ energy)%list /\ mfind sltb s (el_ppV eb) = Some (wp' ++ ws)%list /\
    length pre' = length pre /\ length wp' = length pre /\ Forall (fun a => 0 < a /\ a + 1 / 1000000 < e0) pre'.
Proof.
  intros H NS LP LW L2 AP E0 F Z. unfold setPartialPhotoelectric in H. do 3 (match type of H with (if ?c then _ else _) = _ => destruct c; [discriminate|] end). cbv zeta in H.
  destruct (String.eqb_spec s "all other"); [contradiction|]. toR. change (@combine (@num RNum) (@num RNum)) with (@combine R R) in H. rewrite combine_app in H by congruence.
  pose proof (apart_sorted AP) as ST. destruct energy as [|f es]; [discriminate|]. cbn in E0. injection E0 as ->. destruct ws as [|vf ws]; [discriminate|]. cbn [combine] in H, Z.
  assert (CS : map fst (combine es ws) = es /\ map snd (combine es ws) = ws) by (apply combine_split_eq; cbn in LW; lia). destruct CS as [CS1 CS2].
  assert (B : val0 (mtouch (el_binding (clearCache ea)) s) s = val0 (el_binding ea) s) by apply mtouch_val0.
  destruct pre as [|p pre].
  - destruct wp; [|discriminate]. cbn [combine app] in H. destruct (combine es ws) as [|q l] eqn:C; [exfalso; cbn in CS1; subst es; cbn in L2; lia|]. rewrite B in H.
    rewrite edgeFix_keep in H; [|change (map fst (q :: l)) with (map fst (q :: l)); rewrite CS1; exact ST|inversion Z; subst; assumption].
    injection H as <-. exists [], []. cbn [el_ppE el_ppV with_binding with_pp]. rewrite !sfind_same. cbn [map fst snd app]. change (@num RNum) with R in *.
    split; [f_equal; f_equal; exact CS1|]. split; [f_equal; f_equal; exact CS2|]. split; [reflexivity|]. split; [reflexivity|constructor].
  - destruct wp as [|w wp]; [discriminate|]. cbn [combine app] in H. inversion F as [|? ? F1 F2]; subst.
    assert (CP : map fst (combine pre wp) = pre) by (apply combine_split_eq; cbn in LP; lia).
    destruct (combine pre wp ++ (e0, vf) :: combine es ws)%list as [|q l] eqn:C; [destruct (combine pre wp); discriminate|]. rewrite B in H.
    destruct (@edgeFix_suffix (val0 (el_binding ea) s) (e0 - 2 / 1000000) e0 vf (combine es ws)) with (pre := combine pre wp) (pe := p) (pv := w) as (P & A & LL & FF).
    + lra.
    + rewrite CS1. exact ST.
    + exact Z.
    + lra.
    + rewrite <- CP in F2. rewrite Forall_map in F2. eapply Forall_impl; [|exact F2]. intros [a b]; cbn. lra.
    + lra.
    + rewrite C in A. toR. rewrite A in H. injection H as <-. exists (map fst P), (map snd P). cbn [el_ppE el_ppV with_binding with_pp]. rewrite !sfind_same, !map_app. cbn [map fst snd]. toR. rewrite CS1, CS2.
      split; [reflexivity|]. split; [reflexivity|]. rewrite !map_length, LL, combine_length. cbn [length] in *. split; [lia|]. split; [lia|]. rewrite Forall_map. eapply Forall_impl; [|exact FF]. cbn. intros; lra.
Qed.
Lemma stored_other (ea eb : element) (g w : list R) : setPartialPhotoelectric ea "all other" g w = (eb, Ok tt) -> mfind sltb "all other" (el_ppE eb) = Some g /\ mfind sltb "all other" (el_ppV eb) = Some w.
Proof.
  intros H. unfold setPartialPhotoelectric in H. do 3 (match type of H with (if ?c then _ else _) = _ => destruct c; [discriminate|] end). cbv zeta in H. cbn [String.eqb] in H.
  injection H as <-. cbn [el_ppE el_ppV with_pp]. rewrite !sfind_same. split; reflexivity.
Qed.
