(** Data without edges: the tables made, over the reals. *)
From Coq Require Import Ascii String List ZArith Reals Bool Arith Lia Lra Sorted.
From Verif Require Import Base.Num Base.Res Base.SMap Base.Str Base.Text Model.Shell Model.Specfile Model.EPDL97 Model.Element Model.Elements Model.ElementsFiles
  Spec.MaterialSpec Spec.ElementSpec Spec.MergeSpec Proofs.MathProofs Proofs.ElementProofs Proofs.ElementProofs2 Proofs.ElementProofs3 Proofs.ElementProofs4 Proofs.ElementProofs8 Proofs.ElementsProofs Proofs.InitProofs Proofs.InitProofs4 Proofs.EPDL97Proofs9 Proofs.MergeProofs Proofs.MergeProofs2 Proofs.MergeProofs3.
Import ListNotations.
Set Implicit Arguments.
Local Open Scope string_scope.
Local Open Scope R_scope.
Local Existing Instance RNum.

Lemma apart_cons a l : apart (a :: l) -> apart l.
Proof. intros H i x y A B. exact (H (S i) x y A B). Qed.
Lemma apart_sorted : forall l, apart l -> StronglySorted Rlt l.
Proof.
  induction l as [|a l IH]; intros H; constructor; [apply IH, (apart_cons H)|]. specialize (IH (apart_cons H)). destruct l as [|b l]; [constructor|]. pose proof (H 0%nat a b eq_refl eq_refl) as G.
  inversion IH; subst. constructor; [lra|]. eapply Forall_impl; [|eassumption]. cbn. intros; lra.
Qed.
Lemma candidates_none : forall (energy photo : list R) i m, apart energy -> edgeCandidates i energy photo m = m.
Proof.
  induction energy as [|a [|b l] IH]; intros [|p [|q photo]] i m H; try reflexivity.
  transitivity (edgeCandidates (i + 1)%Z (b :: l) (q :: photo) (if (neqb a b && nltb p q)%bool then mset nltb a i m else m)); [reflexivity|]. rewrite (IH (q :: photo) (i + 1)%Z) by exact (apart_cons H).
  pose proof (H 0%nat a b eq_refl eq_refl) as G. change (neqb a b) with (Reqb a b). destruct (Reqb_spec a b); [lra|]. reflexivity.
Qed.
Lemma extract_none (e e2 : element) (energy photo : list R) ed : apart energy -> extractEdges_from e energy photo = (e2, Ok ed) -> e2 = e /\ ed = [] /\ length photo = length energy.
Proof.
  intros H. unfold extractEdges_from. destruct (Nat.ltb _ _); [discriminate|]. destruct (Nat.ltb _ _); [discriminate|]. toR. destruct (Nat.eqb_spec (length energy) (length photo)) as [L|]; cbn [negb]; [|discriminate].
  destruct (Nat.ltb _ _); [discriminate|]. cbv zeta. rewrite candidates_none by exact H. cbn [rev edgeLoop]. intros Q. injection Q as <- <-. split; [|split; [reflexivity|congruence]]. destruct e. reflexivity.
Qed.
Lemma countBelow_spec (x : R) : forall (G : list R) j j0, countBelow G x j = Ok j0 -> (j <= j0)%nat /\ (j0 - j < length G)%nat /\ forall m g, (m < j0 - j)%nat -> nth_error G m = Some g -> g < x.
Proof.
  induction G as [|g G IH]; intros j j0 H; cbn [countBelow] in H; [discriminate|]. change (nltb g x) with (Rltb g x) in H. destruct (Rltb_spec g x) as [L|L].
  - destruct (IH _ _ H) as (A & B & C). split; [lia|]. split; [cbn [length]; lia|]. intros [|m] y Hm Hy; cbn in Hy; [injection Hy as <-; exact L|]. apply (C m); [lia|exact Hy].
  - injection H as <-. rewrite Nat.sub_diag. split; [lia|]. split; [cbn; lia|]. intros m y Hm. lia.
Qed.
Lemma gridLoop_none b ext : forall (es : list R) k prev, StronglySorted Rlt es -> (ext = true -> match es with [] => True | x :: _ => prev <= x end) -> gridLoop [] b ext k prev es = es.
Proof.
  induction es as [|x es IH]; intros k prev S P; [reflexivity|]. cbn [gridLoop]. rewrite raised_none. inversion S as [|? ? S' F]; subst.
  assert (X : ext && nltb x prev = false). { destruct ext; [|reflexivity]. cbn [andb]. change (nltb x prev) with (Rltb x prev). specialize (P eq_refl). destruct (Rltb_spec x prev); [lra|reflexivity]. }
  rewrite X. f_equal. apply IH; [exact S'|]. intros _. destruct es as [|y es]; [exact I|]. inversion F; subst. lra.
Qed.
Lemma overwrite_ok j n (given old v : list R) : overwrite j n given old = Ok v -> (n - j <= length given)%nat /\ v = (firstn j old ++ firstn (n - j) given)%list.
Proof. unfold overwrite. toR. destruct (Nat.ltb_spec (length given) (n - j)) as [|L]; [discriminate|]. intros H. apply Ok_inj in H. auto. Qed.

Lemma merge_ok (e1 e' : element) t (energy photo co cp pr : list R) e0 : mergeTables e1 t energy photo co cp pr = (e', Ok tt) -> apart energy -> nth_error energy 0 = Some e0 ->
  exists j0 t2 T, countBelow (vat t "energy") e0 0 = Ok j0 /\ let j := (j0 - 1)%nat in let G := (vat t "energy") in let n := length energy in
    (j < length G)%nat /\ getMassAttenuationCoefficients_vec e1 (firstn j G ++ energy)%list = Ok t2 /\ length photo = n /\ (n <= length co)%nat /\ (n <= length cp)%nat /\ (n <= length pr)%nat /\
    putTables T e1 = (e', Ok tt) /\ vat T "energy" = vat t2 "energy" /\
    vat T "coherent" = (firstn j (vat t2 "coherent") ++ firstn n co)%list /\ vat T "compton" = (firstn j (vat t2 "compton") ++ firstn n cp)%list /\ vat T "pair" = (firstn j (vat t2 "pair") ++ firstn n pr)%list /\
    vat T "photoelectric" = (firstn j (vat t2 "photoelectric") ++ firstn n photo)%list /\
    forall s, In s photoShells -> vat T s = shared false j j (j + n) photo (vat t2 "photoelectric") (vat t2 s).
Proof.
  intros H AP E0. destruct energy as [|x0 es]; [discriminate|]. cbn in E0. injection E0 as ->. unfold mergeTables in H.
  destruct (countBelow (vat t "energy") e0 0) as [j0| | |] eqn:CB; try (injection H; discriminate). destruct (countBelow_spec _ _ _ CB) as (_ & LJ & BEL). rewrite Nat.sub_0_r in LJ, BEL.
  destruct (extractEdges_from e1 (e0 :: es) photo) as [ea [ed| | |]] eqn:X; try (injection H; discriminate). destruct (extract_none _ _ AP X) as (-> & -> & LP). cbv zeta in H.
  assert (NG : newGrid [] (Element.getBindingEnergies e1) (j0 - 1) (vat t "energy") (e0 :: es) = (firstn (j0 - 1) (vat t "energy") ++ e0 :: es)%list).
  { unfold newGrid. f_equal. apply gridLoop_none; [apply apart_sorted, AP|]. intros J. apply Nat.ltb_lt in J.
    destruct (nth_error (vat t "energy") (j0 - 1 - 1)) as [g|] eqn:Q; [|apply nth_error_None in Q; unfold vat in *; toR; lia]. rewrite (nth_error_nth _ _ _ Q). left. apply (BEL (j0 - 1 - 1)%nat); [lia|exact Q]. }
  rewrite NG in H. set (grid := (firstn (j0 - 1) (vat t "energy") ++ e0 :: es)%list) in *.
  assert (LG : length grid = ((j0 - 1) + length (e0 :: es))%nat) by (unfold grid; rewrite app_length, firstn_length; unfold vat in *; toR; lia).
  assert (LN : (length grid - (j0 - 1))%nat = length (e0 :: es)) by lia.
  match type of H with (match ?q with Ok _ => _ | Throw _ => _ | UB => _ | Diverge => _ end) = _ => destruct q as [[total t3]| | |] eqn:Q end; try (injection H; discriminate).
  rewrite X in H.
  apply rbind_Ok in Q as (t2 & V & Q). apply rbind_Ok in Q as (h & Oh & Q). apply rbind_Ok in Q as (k & Ok1 & Q). apply rbind_Ok in Q as (p & Op & Q). apply rbind_Ok in Q as (f & Of & Q).
  apply overwrite_ok in Oh as (Lh & Eh). apply overwrite_ok in Ok1 as (Lk & Ek). apply overwrite_ok in Op as (Lp & Ep). apply overwrite_ok in Of as (Lf & Ef).
  rewrite LN in Lh, Eh. rewrite LN in Lk, Ek. rewrite LN in Lp, Ep. rewrite LN in Lf, Ef. apply Ok_inj in Q. injection Q as <- <-.
  destruct (sharedShells_none (j0 - 1) (length grid) photo (vat t2 "photoelectric") (mset_all sltb [("coherent", h); ("compton", k); ("pair", p); ("photoelectric", f)] t2)) as [SH OT].
  exists j0, t2, (sharedShells [] (j0 - 1) (length grid) photo (vat t2 "photoelectric") (mset_all sltb [("coherent", h); ("compton", k); ("pair", p); ("photoelectric", f)] t2)).
  split; [reflexivity|]. cbv zeta. split; [unfold vat in *; toR; lia|]. split; [exact V|]. split; [exact LP|]. do 3 (split; [assumption|]). split; [exact H|].
  set (t3 := mset_all sltb _ t2) in *.
  assert (NS : forall q, In q ["energy"; "coherent"; "compton"; "pair"; "photoelectric"] -> ~ In q photoShells) by (cbn; intros q Hq; intuition (subst; discriminate)).
  do 5 (rewrite OT by (apply NS; cbn; tauto)).
  assert (V3 : forall q, ~ In q ["coherent"; "compton"; "pair"; "photoelectric"] -> vat t3 q = vat t2 q).
  { intros q Hq. unfold t3. cbn [mset_all fold_left fst snd]. rewrite !vat_other; [reflexivity|..]; intros ->; apply Hq; cbn; tauto. }
  split; [apply V3; cbn; intuition discriminate|].
  assert (W : vat t3 "coherent" = h /\ vat t3 "compton" = k /\ vat t3 "pair" = p /\ vat t3 "photoelectric" = f).
  { unfold t3. cbn [mset_all fold_left fst snd]. repeat split; repeat (rewrite vat_other by discriminate); apply vat_same. }
  destruct W as (W1 & W2 & W3 & W4). split; [rewrite W1; exact Eh|]. split; [rewrite W2; exact Ek|]. split; [rewrite W3; exact Ep|]. split; [rewrite W4; exact Ef|]. intros s Hs. rewrite (SH s Hs). rewrite LG, V3; [reflexivity|].
  intros Q. apply (NS s); [right; exact Q|exact Hs].
Qed.
