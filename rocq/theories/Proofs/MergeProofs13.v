(** Data with edges are accepted. *)
From Coq Require Import Ascii String List ZArith Reals Bool Arith Lia Lra Sorted.
From Verif Require Import Base.Num Base.Res Base.SMap Base.Str Base.Text Model.Shell Model.Specfile Model.EPDL97 Model.Element Model.Elements Model.ElementsFiles
  Spec.ShellSpec Spec.MaterialSpec Spec.ElementSpec Spec.MergeSpec Spec.EdgeSpec Proofs.MathProofs Proofs.ElementProofs Proofs.ElementProofs2 Proofs.ElementProofs3 Proofs.ElementProofs4 Proofs.ElementProofs8 Proofs.ElementsProofs Proofs.InitProofs Proofs.InitProofs4 Proofs.EPDL97Proofs9 Proofs.MergeProofs Proofs.MergeProofs2 Proofs.MergeProofs3 Proofs.MergeProofs4 Proofs.MergeProofs5 Proofs.MergeProofs6 Proofs.MergeProofs7 Proofs.MergeProofs8 Proofs.EdgeProofs Proofs.MergeProofs9 Proofs.MergeProofs10 Proofs.MergeProofs11.
Import ListNotations.
Set Implicit Arguments.
Local Open Scope string_scope.
Local Open Scope R_scope.
Local Existing Instance RNum.

Lemma rising_app_le (a b : list R) e0 : rising a -> rising b -> nth_error b 0 = Some e0 -> (forall x, In x a -> x <= e0) -> rising (a ++ b).
Proof.
  intros H A E F i x y X Y. destruct (Nat.lt_ge_cases (S i) (length a)) as [L|L].
  - rewrite nth_error_app1 in X by lia. rewrite nth_error_app1 in Y by lia. exact (H i x y X Y).
  - rewrite nth_error_app2 in Y by lia. destruct (Nat.lt_ge_cases i (length a)) as [L'|L'].
    + rewrite nth_error_app1 in X by lia. replace (S i - length a)%nat with 0%nat in Y by lia. assert (y = e0) by congruence. subst. apply F. eapply nth_error_In, X.
    + rewrite nth_error_app2 in X by lia. replace (S i - length a)%nat with (S (i - length a)) in Y by lia. exact (A _ _ _ X Y).
Qed.
Lemma merge_accept_edges (e e1 e2 : @element RNum) t (energy photo co cp pr : list R) e0 edges : putTables t e = (e1, Ok tt) -> rising energy -> nth_error energy 0 = Some e0 ->
  extractEdges_from e1 energy photo = (e2, Ok edges) -> (forall s en idx, mfind sltb s edges = Some (en, idx) -> val0 (el_binding e1) s <= en) ->
  length photo = length energy -> (length energy <= length co)%nat -> (length energy <= length cp)%nat -> (length energy <= length pr)%nat ->
  0 < e0 -> rising (0 :: vat t "energy") -> (exists g, In g (vat t "energy") /\ e0 <= g) ->
  (forall x, In x (vat t "energy") /\ x < e0 \/ In x energy -> exists mu, getMassAttenuationCoefficients e1 x = Ok mu) ->
  exists e', mergeTables e1 t energy photo co cp pr = (e', Ok tt).
Proof.
  intros PT AP E0 XE EB LF LC LK LP P0 RS UP ANS0. destruct (putTables_state _ _ PT) as (CA1 & ME1 & _ & _ & BI & ST1).
  destruct (countBelow_ok (vat t "energy") 0 UP) as [j0 CB]. destruct (countBelow_spec _ _ _ CB) as (_ & LJ0 & BEL). rewrite Nat.sub_0_r in LJ0, BEL. set (j := (j0 - 1)%nat) in *.
  destruct (extract_again _ _ _ XE) as [e3 XE2]. pose proof (extract_inv _ _ _ XE) as (_ & _ & _ & X'). cbv zeta in X'. destruct X' as [E2 _]. pose proof (extract_inv _ _ _ XE2) as (_ & _ & _ & X'). cbv zeta in X'. destruct X' as [E3 _].
  assert (CA2 : el_muCache e2 = []) by (rewrite E2; exact CA1).
  assert (ANS : forall x, In x (vat t "energy") /\ x < e0 \/ In x energy -> exists mu, getMassAttenuationCoefficients e2 x = Ok mu).
  { intros x I. destruct (ANS0 x I) as [mu M]. exists mu. rewrite E2. apply query_more; [|exact CA1|exact M]. intros s b. apply edgeLoop_mfind. }
  destruct energy as [|x0 es]; [discriminate|]. cbn in E0. injection E0 as ->. unfold mergeTables. rewrite CB. fold j. rewrite XE. cbv zeta.
  assert (NG : newGrid edges (Element.getBindingEnergies e2) j (vat t "energy") (e0 :: es) = (firstn j (vat t "energy") ++ e0 :: es)%list).
  { unfold newGrid. f_equal. apply gridLoop_id.
    - intros s en idx F. assert (V : val0 (getBindingEnergies e2) s = val0 (el_binding e1) s) by (rewrite E2; apply edgeLoop_val0). rewrite V. exact (EB s en idx F).
    - intros J. apply Nat.ltb_lt in J. intros [|i] a c A C; [|exact (AP i a c A C)]. cbn in A, C. injection A as <-. injection C as <-.
      destruct (nth_error (vat t "energy") (j - 1)) as [g|] eqn:Q; [|apply nth_error_None in Q; unfold vat in *; toR; lia]. toR. rewrite (nth_error_nth _ _ _ Q). left. apply (BEL (j - 1)%nat); [lia|exact Q]. }
  rewrite NG. set (pre := firstn j (vat t "energy")) in *. assert (LPRE : length pre = j) by (unfold pre; rewrite firstn_length; toR; lia).
  assert (INPRE : forall a, In a pre -> In a (vat t "energy") /\ a < e0).
  { intros a A. apply In_nth_error in A as [m A]. assert (Lm : (m < j)%nat) by (rewrite <- LPRE; apply nth_error_Some; toR; congruence).
    assert (A' : nth_error (vat t "energy") m = Some a). { rewrite <- (firstn_skipn j (vat t "energy")). rewrite nth_error_app1; [exact A|]. fold pre. lia. }
    split; [eapply nth_error_In, A'|]. apply (BEL m); [lia|exact A']. }
  set (n := length (e0 :: es)) in *. assert (LG : length (pre ++ e0 :: es) = (j + n)%nat) by (rewrite app_length; toR; lia).
  destruct (@vec_ok e2 (pre ++ e0 :: es)%list CA2) as [t2 VEC]. { intros x I. apply in_app_or in I as [I|I]; [|apply ANS; right; exact I]. apply ANS. left. apply INPRE, I. }
  rewrite VEC. cbn [rbind]. destruct (vec_columns _ _ VEC) as (ts & RM & COL). pose proof (rmapM_nth _ _ RM) as [LT GET'].
  assert (KEYS : forall q, In q (photoShells ++ ["coherent"; "compton"; "pair"; "energy"; "photoelectric"])%list -> vat t2 q = map (fun t => val0 t q) ts).
  { intros q Q. apply COL. intros mu I. apply In_nth_error in I as [m I]. destruct (GET' m mu I) as (y & _ & Y). apply (empty_cache_mu _ _ _ CA2) in Y. exact (@computeMu_keys RNum e2 y mu Y q Q). }
  assert (LTS : length ts = (j + n)%nat) by (rewrite LT; toR; exact LG).
  assert (LQ : forall q, In q (photoShells ++ ["coherent"; "compton"; "pair"; "energy"; "photoelectric"])%list -> length (vat t2 q) = (j + n)%nat) by (intros q Q; rewrite (KEYS q Q), map_length; exact LTS).
  assert (EN : vat t2 "energy" = (pre ++ e0 :: es)%list).
  { rewrite KEYS by (apply in_or_app; right; cbn; tauto). apply nth_ext with (d := 0) (d' := 0); [rewrite map_length, LT; reflexivity|]. intros m Hm. rewrite map_length in Hm.
    destruct (nth_error ts m) as [mu|] eqn:I; [|apply nth_error_None in I; toR; lia]. rewrite (map_nth_val _ _ _ I). destruct (GET' m mu I) as (y & Y & C). apply (empty_cache_mu _ _ _ CA2) in C.
    apply computeMu_spec in C as (_ & _ & _ & EN & _). toR. rewrite (nth_error_nth _ _ 0 Y). rewrite val0_R. exact (vSome _ _ _ EN). }
  assert (OV : forall given old, (n <= length given)%nat -> overwrite j (length (pre ++ e0 :: es)) given old = Ok (firstn j old ++ firstn n given)%list).
  { intros given old L. unfold overwrite. toR. rewrite LG. replace (j + n - j)%nat with n by lia. destruct (Nat.ltb_spec (length given) n); [toR; lia|reflexivity]. }
  rewrite (OV co _ LC). cbn [rbind]. rewrite (OV cp _ LK). cbn [rbind]. rewrite (OV pr _ LP). cbn [rbind]. rewrite (OV photo) by (toR; lia). cbn [rbind]. rewrite XE2.
  set (h := (firstn j (vat t2 "coherent") ++ firstn n co)%list). set (k := (firstn j (vat t2 "compton") ++ firstn n cp)%list). set (p := (firstn j (vat t2 "pair") ++ firstn n pr)%list). set (f := (firstn j (vat t2 "photoelectric") ++ firstn n photo)%list).
  destruct (sharedShells_any edges j (length (pre ++ e0 :: es)) photo (vat t2 "photoelectric") (mset_all sltb [("coherent", h); ("compton", k); ("pair", p); ("photoelectric", f)] t2)) as [SH OT].
  set (t3 := mset_all sltb _ t2) in *. set (T := sharedShells _ _ _ _ _ t3) in *.
  assert (NS : forall q, In q ["energy"; "coherent"; "compton"; "pair"; "photoelectric"] -> ~ In q photoShells) by (cbn; intros q Hq; intuition (subst; discriminate)).
  assert (V3 : forall q, ~ In q ["coherent"; "compton"; "pair"; "photoelectric"] -> vat t3 q = vat t2 q).
  { intros q Hq. unfold t3. cbn [mset_all fold_left fst snd]. rewrite !vat_other; [reflexivity|..]; intros ->; apply Hq; cbn; tauto. }
  assert (W : vat t3 "coherent" = h /\ vat t3 "compton" = k /\ vat t3 "pair" = p /\ vat t3 "photoelectric" = f).
  { unfold t3. cbn [mset_all fold_left fst snd]. repeat split; repeat (rewrite vat_other by discriminate); apply vat_same. }
  destruct W as (W1 & W2 & W3 & W4).
  assert (TE : vat T "energy" = (pre ++ e0 :: es)%list) by (rewrite OT by (apply NS; cbn; tauto); rewrite V3 by (cbn; intuition discriminate); exact EN).
  assert (LEN : forall q given, In q ["coherent"; "compton"; "pair"; "photoelectric"] -> (n <= length given)%nat -> length (firstn j (vat t2 q) ++ firstn n given)%list = (j + n)%nat).
  { intros q given Q L. rewrite app_length, !firstn_length, LQ by (apply in_or_app; right; cbn in Q |- *; tauto). toR. lia. }
  apply tables_accept.
  - rewrite TE. assert (RP : rising (pre ++ e0 :: es)).
    { apply rising_app_le with (e0 := e0); [|exact AP|reflexivity|intros a A; left; apply INPRE, A]. unfold pre. apply rising_firstn. intros i a b A B. exact (RS (S i) a b A B). }
    intros [|i] a b A B; [|exact (RP i a b A B)]. cbn in A. injection A as <-. cbn [nth_error] in B. destruct pre as [|q pr'] eqn:PR; cbn in B; injection B as <-; [lra|]. apply (RS 0%nat); [reflexivity|]. change (nth_error (vat t "energy") 0 = Some q).
    assert (H0 : nth_error (firstn j (vat t "energy")) 0 = Some q) by (unfold pre in PR; toR; rewrite PR; reflexivity). rewrite <- (firstn_skipn j (vat t "energy")). rewrite nth_error_app1; [exact H0|]. apply nth_error_Some. toR. congruence.
  - intros q Q. rewrite TE. toR. rewrite LG. cbn in Q. destruct Q as [<-|[<-|[<-|[<-|[]]]]]; rewrite OT by (apply NS; cbn; tauto); [rewrite W4|rewrite W1|rewrite W2|rewrite W3]; (apply LEN; [cbn; tauto|toR; lia]).
  - intros s Hs. split.
    + destruct (ST1 s Hs) as (ea & eb & _ & SP & Q1 & _). assert (PP : el_ppE e3 = el_ppE e1) by (rewrite E3, E2; reflexivity). rewrite PP. unfold mmem. rewrite Q1. clear - SP. unfold setPartialPhotoelectric in SP. destruct (negb _); [discriminate|]. destruct (negb _); [discriminate|]. destruct (not_ascending _ _); [discriminate|]. cbv zeta in SP.
      destruct (String.eqb s "all other"); [injection SP as <-; cbn; now rewrite sfind_same|].
      destruct (combine _ _) as [|[e0 v0] [|x l]]; injection SP as <-; cbn [el_ppE with_pp with_binding]; now rewrite sfind_same.
    + rewrite TE, (SH s Hs). toR. rewrite LG. assert (L3 : length (vat t3 s) = (j + n)%nat). { rewrite V3, LQ; [reflexivity|apply in_or_app; left; exact Hs|]. intros Q. apply (NS s); [right; exact Q|exact Hs]. }
      unfold replaced. destruct edges as [|q ed]; [unfold shared; rewrite map_length, seq_length; reflexivity|]. match goal with |- context [match ?m with Some _ => _ | None => _ end] => destruct m as [[y z]|] end; [unfold shared; rewrite map_length, seq_length; reflexivity|symmetry; exact L3].
Qed.
