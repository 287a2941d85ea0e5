(** The answers of an element at isolated energies of data with edges. *)
From Coq Require Import Ascii String List ZArith Reals Bool Arith Lia Lra Sorted.
From Verif Require Import Base.Num Base.Res Base.SMap Base.Str Base.Text Model.Shell Model.Specfile Model.EPDL97 Model.Element Model.Elements Model.ElementsFiles
  Spec.ShellSpec Spec.MaterialSpec Spec.ElementSpec Spec.MergeSpec Spec.EdgeSpec Proofs.MathProofs Proofs.ElementProofs Proofs.ElementProofs2 Proofs.ElementProofs3 Proofs.ElementProofs4 Proofs.ElementProofs8 Proofs.ElementsProofs Proofs.InitProofs Proofs.InitProofs4 Proofs.EPDL97Proofs9 Proofs.MergeProofs Proofs.MergeProofs2 Proofs.MergeProofs3 Proofs.MergeProofs4 Proofs.MergeProofs5 Proofs.MergeProofs6 Proofs.MergeProofs7 Proofs.EdgeProofs Proofs.MergeProofs9 Proofs.MergeProofs10.
Import ListNotations.
Set Implicit Arguments.
Local Open Scope string_scope.
Local Open Scope R_scope.
Local Existing Instance RNum.

(** ** the table a shell stores *)
Definition dE : R := 1 / 1000000.
Lemma edgeFix_step b pe pv (e v : R) r : edgeFix b pe pv ((e, v) :: r) = if Rltb e b then (pe, pv) :: edgeFix b e 0 r else if Reqb e pe then (pe, v) :: edgeFix b (e + dE) v r else (pe, pv) :: edgeFix b e v r.
Proof. assert (D : @nlit RNum 1 (-6) = dE) by (unfold nlit, RNum, Rlit, dE; simpl; lra). cbn [edgeFix]. rewrite D. reflexivity. Qed.
Lemma edgeFix_len b : forall l pe pv, length (edgeFix b pe pv l) = S (length l).
Proof. induction l as [|[e v] l IH]; intros pe pv; [reflexivity|]. rewrite edgeFix_step. destruct (Rltb e b); [|destruct (Reqb e pe)]; cbn [length]; now rewrite IH. Qed.
Lemma edgeFix_energies b : forall l pe pv q m z, pe = q \/ pe = q + dE -> nth_error (edgeFix b pe pv l) m = Some z ->
  exists o, nth_error (q :: map fst l) m = Some o /\ (fst z = o \/ fst z = o + dE).
Proof.
  induction l as [|[e v] l IH]; intros pe pv q m z Q H.
  - destruct m; [|destruct m; discriminate]. cbn in H. injection H as <-. exists q. split; [reflexivity|exact Q].
  - rewrite edgeFix_step in H. destruct m as [|m].
    + exists q. split; [reflexivity|]. destruct (Rltb e b); [|destruct (Reqb e pe)]; cbn in H; injection H as <-; exact Q.
    + cbn [map fst]. destruct (Rltb e b); [|destruct (Reqb e pe)]; cbn [nth_error] in H; refine (IH _ _ e m z _ H); auto.
Qed.
Lemma edgeFix_at b : forall l pe pv q i a x v c w, pe = q \/ pe = q + dE -> nth_error (q :: map fst l) i = Some a -> nth_error l i = Some (x, v) -> nth_error l (S i) = Some (c, w) ->
  a + 1 / 100000 < x -> x < c -> nth_error (edgeFix b pe pv l) (S i) = Some (x, if Rltb x b then 0 else v).
Proof.
  induction l as [|[e v0] l IH]; intros pe pv q i a x v c w Q A X C G1 G2; [destruct i; discriminate|]. rewrite edgeFix_step. destruct i as [|i].
  - cbn in A, X. injection A as <-. injection X as -> ->. destruct l as [|[c' w'] l]; [discriminate|]. cbn in C. injection C as -> ->. rewrite !edgeFix_step.
    destruct (Rltb_spec x b) as [L|L].
    + cbn [nth_error]. destruct (Rltb_spec c b); [reflexivity|]. destruct (Reqb_spec c x); [lra|reflexivity].
    + destruct (Reqb_spec x pe) as [E|E]; [exfalso; unfold dE in Q; lra|]. cbn [nth_error]. destruct (Rltb_spec c b); [reflexivity|]. destruct (Reqb_spec c x); [lra|reflexivity].
  - cbn [map fst] in A. assert (R : forall pe' pv', pe' = e \/ pe' = e + dE -> nth_error (edgeFix b pe' pv' l) (S i) = Some (x, if Rltb x b then 0 else v)) by (intros pe' pv' Q'; exact (IH pe' pv' e i a x v c w Q' A X C G1 G2)).
    destruct (Rltb e b); [|destruct (Reqb e pe)]; cbn [nth_error]; apply R; auto.
Qed.
Lemma nth_error_combine {A B} : forall (a : list A) (b : list B) m x y, nth_error a m = Some x -> nth_error b m = Some y -> nth_error (combine a b) m = Some (x, y).
Proof. induction a as [|p a IH]; intros [|q b] [|m] x y H K; try discriminate; cbn in *; [injection H as ->; injection K as ->; reflexivity|apply IH; assumption]. Qed.
Lemma map_combine_fst {A B} : forall (a : list A) (b : list B), length a = length b -> map fst (combine a b) = a.
Proof. induction a as [|p a IH]; intros [|q b] H; try discriminate; [reflexivity|]. cbn. f_equal. apply IH. cbn in H. lia. Qed.

Lemma sorted_le_nth (l : list R) : StronglySorted Rle l -> forall i j a b, (i <= j)%nat -> nth_error l i = Some a -> nth_error l j = Some b -> a <= b.
Proof.
  induction 1 as [|x l S IH F]; intros i j a b L A B; [destruct i; discriminate|]. destruct i as [|i]; cbn in A.
  - injection A as <-. destruct j as [|j]; cbn in B; [injection B as <-; lra|]. rewrite Forall_forall in F. apply F. eapply nth_error_In, B.
  - destruct j as [|j]; [lia|]. cbn in B. apply (IH i j); [lia|assumption|assumption].
Qed.
Section Stored.
Variables (g : list R) (i : nat) (a x c : R).
Hypothesis A : nth_error g i = Some a.
Hypothesis C : nth_error g (S (S i)) = Some c.
Hypothesis G1 : a + 1 / 100000 < x.
Hypothesis G2 : x + 1 / 100000 < c.
Hypothesis SG : StronglySorted Rle g.
Lemma iso_bracket (v : list R) x0 : nth_error v i = Some x0 -> nth_error v (S i) = Some x -> (forall m z, nth_error v m = Some z -> exists o, nth_error g m = Some o /\ (z = o \/ z = o + dE)) -> bracket v x = Ok (Z.of_nat i, Z.of_nat (S i), x0, x).
Proof.
  intros V0 V1 V. apply bracket_at; [exact V0|exact V1| |].
  - intros m z Lm Z. destruct (V m z Z) as (o & O & Q). pose proof (sorted_le_nth SG Lm O A). unfold dE in Q. lra.
  - intros z Z. destruct (V _ z Z) as (o & O & Q). assert (o = c) by congruence. unfold dE in Q. lra.
Qed.
End Stored.
Lemma stored_iso (ea eb : @element RNum) (s : string) (g w : list R) (i : nat) (a x c : R) y : setPartialPhotoelectric ea s g w = (eb, Ok tt) -> nth_error g i = Some a -> nth_error g (S i) = Some x -> nth_error g (S (S i)) = Some c ->
  0 < a -> a + 1 / 100000 < x -> x + 1 / 100000 < c -> StronglySorted Rle g -> s <> "all other" -> nth_error w (S i) = Some y -> val0 (el_binding ea) s <= x -> 0 < y ->
  exists G W, mfind sltb s (el_ppE eb) = Some G /\ mfind sltb s (el_ppV eb) = Some W /\ partialShell G W x = Ok y.
Proof.
  intros SP A X C P G1 G2 SG NS Y LB PY. unfold setPartialPhotoelectric in SP. toR. destruct (negb (mmem _ _ _)); [discriminate|]. destruct (Nat.eqb_spec (length g) (length w)) as [LW|LW]; [|discriminate].
  destruct (not_ascending _ _); [discriminate|]. cbn [negb] in SP. cbv zeta in SP. destruct (String.eqb_spec s "all other") as [|_]; [contradiction|].
  destruct g as [|g0 [|g1 gr]]; [destruct i; discriminate|destruct i; discriminate|]. destruct w as [|w0 [|w1 wr]]; try discriminate. cbn [combine] in SP. injection SP as <-.
  change (el_binding (clearCache ea)) with (el_binding ea) in *. rewrite mtouch_val0. set (l := (g1, w1) :: combine gr wr). set (fixed := edgeFix (val0 (el_binding ea) s) g0 w0 l).
  exists (map fst fixed), (map snd fixed). cbn [el_ppE el_ppV with_pp with_binding]. rewrite !sfind_same. split; [reflexivity|]. split; [reflexivity|].
  assert (ML : g0 :: map fst l = g0 :: g1 :: gr) by (unfold l; cbn [map fst]; rewrite map_combine_fst; [reflexivity|cbn in LW; toR; lia]).
  destruct (nth_error (w0 :: w1 :: wr) (S (S i))) as [w2|] eqn:W2; [|exfalso; apply nth_error_None in W2; assert (S (S i) < length (g0 :: g1 :: gr))%nat by (apply nth_error_Some; toR; congruence); toR; lia].
  assert (FX : nth_error fixed (S i) = Some (x, y)).
  { unfold fixed. rewrite (@edgeFix_at (val0 (el_binding ea) s) l g0 w0 g0 i a x y c w2); [f_equal; f_equal; destruct (Rltb_spec x (val0 (el_binding ea) s)); [lra|reflexivity]|left; reflexivity|exact (eq_trans (f_equal (fun z => nth_error z i) ML) A)| | |exact G1|lra].
    - change l with (combine (g1 :: gr) (w1 :: wr)). apply nth_error_combine; [exact X|exact Y].
    - change l with (combine (g1 :: gr) (w1 :: wr)). apply nth_error_combine; [exact C|exact W2]. }
  assert (LF : length fixed = length (g0 :: g1 :: gr)) by (unfold fixed; rewrite edgeFix_len, <- ML; cbn [length]; rewrite map_length; reflexivity).
  assert (EN : forall m z, nth_error (map fst fixed) m = Some z -> exists o, nth_error (g0 :: g1 :: gr) m = Some o /\ (z = o \/ z = o + dE)).
  { intros m z Z. destruct (nth_error fixed m) as [zz|] eqn:F; [|exfalso; apply nth_error_None in F; assert (m < length (map fst fixed))%nat by (apply nth_error_Some; congruence); rewrite map_length in *; lia].
    rewrite (map_nth_error fst _ _ F) in Z. injection Z as <-. rewrite <- ML. exact (edgeFix_energies _ _ _ _ (or_introl eq_refl) F). }
  assert (LT : (S (S i) < length fixed)%nat) by (rewrite LF; apply nth_error_Some; toR; congruence).
  destruct (nth_error fixed i) as [[x0 y0]|] eqn:F0; [|apply nth_error_None in F0; lia]. destruct (nth_error fixed (S (S i))) as [[x2 y2]|] eqn:F2; [|apply nth_error_None in F2; lia].
  pose proof (map_nth_error fst _ _ F0) as E0. pose proof (map_nth_error fst _ _ FX) as E1. pose proof (map_nth_error fst _ _ F2) as E2.
  pose proof (map_nth_error snd _ _ F0) as V0. pose proof (map_nth_error snd _ _ FX) as V1. pose proof (map_nth_error snd _ _ F2) as V2. cbn [fst snd] in *.
  destruct (EN _ _ E0) as (o0 & O0 & Q0). destruct (EN _ _ E2) as (o2 & O2 & Q2). assert (o0 = a) by (toR; congruence). assert (o2 = c) by (toR; congruence). subst o0 o2. unfold dE in Q0, Q2.
  pose proof (@iso_bracket _ i a x c A C G1 G2 SG _ _ E0 E1 EN) as BR. apply (@shell_at _ _ _ _ _ _ _ BR ltac:(lra) V0 V1 x2 y2 E1 E2 V2); lra.
Qed.
Lemma other_iso (g : list R) (i : nat) (a x c : R) (y : list R) y1 b : nth_error g i = Some a -> nth_error g (S i) = Some x -> nth_error g (S (S i)) = Some c ->
  0 < a -> a + 1 / 100000 < x -> x + 1 / 100000 < c -> StronglySorted Rle g -> nth_error y (S i) = Some y1 -> 0 <= y1 -> otherValue b g y x = Ok y1.
Proof.
  intros A X C P G1 G2 SG Y NN. assert (BR : bracket g x = Ok (Z.of_nat i, Z.of_nat (S i), a, x)) by (apply (@iso_bracket _ i a x c A C G1 G2 SG); [exact A|exact X|intros m z Z; exists z; auto]).
  destruct (nth_error y i) as [y0|] eqn:Y0; [|exfalso; apply nth_error_None in Y0; assert (S i < length y)%nat by (apply nth_error_Some; toR; congruence); toR; lia].
  exact (@other_at _ _ _ _ _ _ _ BR P Y0 Y b G1 NN).
Qed.

(** ** the binding energies found while looking for edges *)
Lemma partial_more (e : @element RNum) b2 E s v : (forall k b, mfind sltb k (el_binding e) = Some b -> mfind sltb k b2 = Some b) -> partialValue e E s = Ok v -> partialValue (with_binding e b2) E s = Ok v.
Proof.
  intros H P. unfold partialValue in *. destruct (String.eqb s "all other"); [exact P|]. apply rbind_Ok in P as (b & Hb & P). destruct (mfind sltb s (el_binding e)) eqn:F; [|discriminate]. cbn [el_binding with_binding]. rewrite (H _ _ F). apply Ok_inj in Hb. subst. exact P.
Qed.
Lemma rmapM_weaken {A B} (f g : A -> res B) : forall l v, (forall a b, f a = Ok b -> g a = Ok b) -> rmapM f l = Ok v -> rmapM g l = Ok v.
Proof.
  induction l as [|a l IH]; intros v H R; cbn in *; [exact R|]. apply rbind_Ok in R as (b & F & R). apply rbind_Ok in R as (r & R & Q). rewrite (H _ _ F). cbn. rewrite (IH r H R). exact Q.
Qed.
Lemma query_more (e : @element RNum) b2 E mu : (forall k b, mfind sltb k (el_binding e) = Some b -> mfind sltb k b2 = Some b) -> el_muCache e = [] ->
  Element.getMassAttenuationCoefficients e E = Ok mu -> Element.getMassAttenuationCoefficients (with_binding e b2) E = Ok mu.
Proof.
  intros H CA Q. pose proof (empty_cache_mu _ _ _ CA Q) as CM. unfold Element.getMassAttenuationCoefficients in *. cbn [el_muE el_cacheFlag el_muCache with_binding]. destruct (Nat.ltb (length (el_muE e)) 1); [discriminate|]. rewrite CA.
  assert (R : computeMu (with_binding e b2) E = Ok mu).
  { unfold computeMu in *. apply rbind_Ok in CM as (part & P & CM).
    assert (P' : (if existsb (fun kv => Nat.ltb 0 (length (snd kv))) (el_ppE e) then getPartialPhotoelectric (with_binding e b2) E else Ok []) = Ok part).
    { destruct (existsb _ _); [|exact P]. unfold getPartialPhotoelectric in *. apply rbind_Ok in P as (l & L & P). rewrite (@rmapM_weaken _ _ (fun s => rbind (partialValue e E s) (fun v => Ok (s, v))) (fun s => rbind (partialValue (with_binding e b2) E s) (fun v => Ok (s, v))) photoShells l); [exact P| |exact L].
      intros s r Q0. apply rbind_Ok in Q0 as (v & V & Q0). rewrite (@partial_more e b2 E s v H V). exact Q0. }
    refine (eq_trans (f_equal (fun p => rbind p _) P') _). exact CM. }
  destruct (el_cacheFlag e); exact R.
Qed.
