(** The answers of an element at the energies given: when the data are accepted. *)
From Coq Require Import Ascii String List ZArith Reals Bool Arith Lia Lra Sorted.
From Verif Require Import Base.Num Base.Res Base.SMap Base.Str Base.Text Model.Shell Model.Specfile Model.EPDL97 Model.Element Model.Elements Model.ElementsFiles
  Spec.ShellSpec Spec.MaterialSpec Spec.ElementSpec Spec.MergeSpec Proofs.MathProofs Proofs.ElementProofs Proofs.ElementProofs2 Proofs.ElementProofs3 Proofs.ElementProofs4 Proofs.ElementProofs8 Proofs.ElementsProofs Proofs.InitProofs Proofs.InitProofs4 Proofs.EPDL97Proofs9 Proofs.MergeProofs Proofs.MergeProofs2 Proofs.MergeProofs3 Proofs.MergeProofs4 Proofs.MergeProofs5 Proofs.MergeProofs6 Proofs.MergeProofs7.
Import ListNotations.
Set Implicit Arguments.
Local Open Scope string_scope.
Local Open Scope R_scope.
Local Existing Instance RNum.

Lemma putTables_back {N : Num} lf t : forall (e : @element N), all_ok lf e (table_calls t) -> putTables t e = (el_run lf e (table_calls t), Ok tt).
Proof.
  assert (P : forall shells e, all_ok lf e (map (fun s => ESetPartial s (vat t "energy") (vat t s)) shells) -> putPartials t shells e = (el_run lf e (map (fun s => ESetPartial s (vat t "energy") (vat t s)) shells), Ok tt)).
  { induction shells as [|s r IH]; intros e H; [reflexivity|]. cbn [map all_ok el_call] in H. destruct H as [A B]. cbn [putPartials map]. unfold seqOk, el_run. cbn [fold_left el_call].
    destruct (setPartialPhotoelectric e s (vat t "energy") (vat t s)) as [e1 r1]. cbn [fst snd] in *. subst r1. apply IH, B. }
  intros e H. unfold table_calls in *. revert H P. unfold putTables. generalize photoShells. intros sh H P. cbn [all_ok el_call] in H. destruct H as [A B]. unfold el_run. cbn [fold_left el_call]. unfold seqOk.
  destruct (Element.setMassAttenuationCoefficients e _ _ _ _ _) as [e1 r1]. cbn [fst snd] in *. subst r1. apply P, B.
Qed.
Definition rising (l : list R) : Prop := forall i a b, nth_error l i = Some a -> nth_error l (S i) = Some b -> a <= b.
Lemma rising_ok : forall (l : list R) (last : R), rising (last :: l) -> not_ascending last l = false.
Proof.
  induction l as [|a l IH]; intros last H; [reflexivity|]. cbn [not_ascending]. pose proof (H 0%nat last a eq_refl eq_refl) as L. change (nltb a last) with (Rltb a last). destruct (Rltb_spec a last); [lra|]. cbn [orb].
  apply IH. intros i x y A B. exact (H (S i) x y A B).
Qed.
Lemma partial_accept (e : @element RNum) s (g v : list R) : mmem sltb s (el_ppE e) = true -> length g = length v -> rising (0 :: g) -> exists e', setPartialPhotoelectric e s g v = (e', Ok tt) /\ forall q, mmem sltb q (el_ppE e) = true -> mmem sltb q (el_ppE e') = true.
Proof.
  intros M L H. unfold setPartialPhotoelectric. rewrite M. cbn [negb]. toR. rewrite L, Nat.eqb_refl. cbn [negb]. change (@n0 RNum) with 0. rewrite (rising_ok H). cbv zeta.
  assert (Q : forall q (w : list R), mmem sltb q (el_ppE e) = true -> mmem sltb q (mset sltb s w (el_ppE e)) = true).
  { intros q w K. unfold mmem in *. destruct (string_dec s q) as [->|D]; [now rewrite sfind_same|]. now rewrite sfind_other. }
  destruct (String.eqb s "all other"); [eexists; split; [reflexivity|]; intros q K; cbn; apply Q, K|].
  destruct (combine g v) as [|[e0 v0] [|x l]]; (eexists; split; [reflexivity|]; intros q K; cbn [el_ppE with_pp with_binding clearCache with_cache]; apply Q, K).
Qed.
Lemma partials_accept t : rising (0 :: vat t "energy") -> forall shells (e : @element RNum), (forall s, In s shells -> mmem sltb s (el_ppE e) = true /\ length (vat t "energy") = length (vat t s)) ->
  exists e', putPartials t shells e = (e', Ok tt).
Proof.
  intros H. induction shells as [|s r IH]; intros e Q; [eexists; reflexivity|]. cbn [putPartials]. unfold seqOk. destruct (Q s (or_introl eq_refl)) as [M L]. destruct (@partial_accept e s (vat t "energy") (vat t s) M L H) as (e1 & -> & K).
  apply IH. intros q I. destruct (Q q (or_intror I)) as [A B]. auto.
Qed.
Lemma tables_accept t (e : @element RNum) : rising (0 :: vat t "energy") -> (forall q, In q ["photoelectric"; "coherent"; "compton"; "pair"] -> length (vat t q) = length (vat t "energy")) ->
  (forall s, In s photoShells -> mmem sltb s (el_ppE e) = true /\ length (vat t "energy") = length (vat t s)) -> exists e', putTables t e = (e', Ok tt).
Proof.
  intros H L Q. unfold putTables, Element.setMassAttenuationCoefficients. cbv zeta. rewrite (L "photoelectric"), (L "compton"), (L "coherent"), (L "pair") by (cbn; tauto). rewrite !Nat.eqb_refl. cbn [negb]. rewrite andb_false_r.
  assert (N : match vat t "energy" with [] => false | x :: r => not_ascending x r end = false).
  { destruct (vat t "energy") as [|x r]; [reflexivity|]. apply rising_ok. intros i a b A B. exact (H (S i) a b A B). }
  rewrite N. unfold seqOk. apply partials_accept; [exact H|]. intros s I. destruct (Q s I). split; assumption.
Qed.
Lemma countBelow_ok (x : R) : forall (G : list R) j, (exists g, In g G /\ x <= g) -> exists j0, countBelow G x j = Ok j0.
Proof.
  induction G as [|g G IH]; intros j (y & I & L); [destruct I|]. cbn [countBelow]. change (nltb g x) with (Rltb g x). destruct (Rltb_spec g x) as [Q|Q]; [|eexists; reflexivity].
  apply IH. exists y. destruct I as [->|I]; [lra|auto].
Qed.
Lemma rising_app (a b : list R) e0 : rising a -> apart b -> nth_error b 0 = Some e0 -> (forall x, In x a -> x <= e0) -> rising (a ++ b).
Proof.
  intros H A E F i x y X Y. destruct (Nat.lt_ge_cases (S i) (length a)) as [L|L].
  - rewrite nth_error_app1 in X by lia. rewrite nth_error_app1 in Y by lia. exact (H i x y X Y).
  - rewrite nth_error_app2 in Y by lia. destruct (Nat.lt_ge_cases i (length a)) as [L'|L'].
    + rewrite nth_error_app1 in X by lia. replace (S i - length a)%nat with 0%nat in Y by lia. assert (y = e0) by congruence. subst. apply F. eapply nth_error_In, X.
    + rewrite nth_error_app2 in X by lia. replace (S i - length a)%nat with (S (i - length a)) in Y by lia. pose proof (A _ _ _ X Y). lra.
Qed.
Lemma rising_firstn j (l : list R) : rising l -> rising (firstn j l).
Proof.
  intros H i x y X Y. apply (H i x y); rewrite <- (firstn_skipn j l); (rewrite nth_error_app1; [assumption|]); apply nth_error_Some; congruence.
Qed.
Lemma vec_ok (e : @element RNum) grid : el_muCache e = [] -> (forall x, In x grid -> exists mu, getMassAttenuationCoefficients e x = Ok mu) -> exists t2, getMassAttenuationCoefficients_vec e grid = Ok t2.
Proof.
  intros CA H. assert (R : exists ts, rmapM (getMassAttenuationCoefficients e) grid = Ok ts).
  { clear CA. induction grid as [|x g IH]; [eexists; reflexivity|]. destruct (H x (or_introl eq_refl)) as [mu M]. destruct IH as [ts T]; [intros y I; apply H; right; exact I|]. cbn [rmapM]. rewrite M. cbn [rbind]. rewrite T. eexists. reflexivity. }
  destruct R as [ts R]. unfold getMassAttenuationCoefficients_vec. rewrite R. cbn [rbind]. destruct ts as [|t0 ts]; [eexists; reflexivity|].
  pose proof (rmapM_nth _ _ R) as [_ GET].
  assert (CO : forall mu, In mu (t0 :: ts) -> exists x, computeMu e x = Ok mu). { intros mu I. apply In_nth_error in I as [m I]. destruct (GET m mu I) as (x & _ & C). exists x. exact (empty_cache_mu _ _ _ CA C). }
  assert (F : forallb (fun t => forallb (fun kv => mmem sltb (fst kv) t0) t) (t0 :: ts) = true).
  { apply forallb_forall. intros mu I. apply forallb_forall. intros [k v] KV. cbn [fst]. destruct (CO mu I) as [x C]. destruct (CO t0 (or_introl eq_refl)) as [y C0].
    apply computeMu_spec in C as (_ & _ & _ & _ & _ & _ & KS). specialize (KS k (in_map fst _ _ KV)).
    assert (X : exists w, mfind sltb k t0 = Some w).
    { apply in_app_or in KS as [KS|KS]; [apply (@computeMu_keys RNum e y t0 C0); apply in_or_app; left; exact KS|].
      destruct (string_dec k "total") as [->|NT]; [apply computeMu_spec in C0 as (_ & _ & _ & _ & _ & TT & _); eexists; exact TT|].
      apply (@computeMu_keys RNum e y t0 C0). apply in_or_app. right. cbn in KS |- *. intuition congruence. }
    destruct X as [w X]. unfold mmem. rewrite X. reflexivity. }
  rewrite F. eexists. reflexivity.
Qed.
Lemma extract_ok (e : @element RNum) (energy photo : list R) : apart energy -> length photo = length energy -> (1 <= length energy)%nat -> (1 <= length (el_binding e))%nat -> extractEdges_from e energy photo = (e, Ok []).
Proof.
  intros AP L LE LB. unfold extractEdges_from. toR. rewrite L, Nat.eqb_refl. cbn [negb].
  repeat match goal with |- context [Nat.ltb ?a 1] => destruct (Nat.ltb_spec a 1); [toR; lia|] end.
  rewrite candidates_none by exact AP. cbn [rev edgeLoop]. destruct e. reflexivity.
Qed.
Lemma merge_accept (e e1 : @element RNum) t (energy photo co cp pr : list R) e0 : putTables t e = (e1, Ok tt) -> apart energy -> nth_error energy 0 = Some e0 ->
  length photo = length energy -> (length energy <= length co)%nat -> (length energy <= length cp)%nat -> (length energy <= length pr)%nat -> el_binding e <> [] ->
  0 < e0 -> rising (0 :: vat t "energy") -> (exists g, In g (vat t "energy") /\ e0 <= g) ->
  (forall x, In x (vat t "energy") /\ x < e0 \/ In x energy -> exists mu, getMassAttenuationCoefficients e1 x = Ok mu) ->
  exists e', mergeTables e1 t energy photo co cp pr = (e', Ok tt).
Proof.
  intros PT AP E0 LF LC LK LP BD P0 RS UP ANS. destruct (putTables_state _ _ PT) as (CA1 & ME1 & _ & _ & BI & ST1).
  destruct (countBelow_ok (vat t "energy") 0 UP) as [j0 CB]. destruct (countBelow_spec _ _ _ CB) as (_ & LJ0 & BEL). rewrite Nat.sub_0_r in LJ0, BEL. set (j := (j0 - 1)%nat) in *.
  assert (BD1 : (1 <= length (el_binding e1))%nat).
  { destruct (el_binding e) as [|[k b] r] eqn:B; [contradiction|]. specialize (BI k b). cbn [mfind] in BI. rewrite (@st_irrefl _ _ sltb_total k) in BI. specialize (BI eq_refl). destruct (el_binding e1); [discriminate|cbn; lia]. }
  destruct energy as [|x0 es]; [discriminate|]. cbn in E0. injection E0 as ->. unfold mergeTables. rewrite CB. fold j.
  assert (XE : extractEdges_from e1 (e0 :: es) photo = (e1, Ok [])).
  { apply extract_ok; [exact AP|toR; congruence|cbn; lia|exact BD1]. }
  rewrite XE. cbv zeta.
  assert (NG : newGrid [] (Element.getBindingEnergies e1) j (vat t "energy") (e0 :: es) = (firstn j (vat t "energy") ++ e0 :: es)%list).
  { unfold newGrid. f_equal. apply gridLoop_none; [apply apart_sorted, AP|]. intros J. apply Nat.ltb_lt in J.
    destruct (nth_error (vat t "energy") (j - 1)) as [g|] eqn:Q; [|apply nth_error_None in Q; unfold vat in *; toR; lia]. rewrite (nth_error_nth _ _ _ Q). left. apply (BEL (j - 1)%nat); [lia|exact Q]. }
  rewrite NG. set (pre := firstn j (vat t "energy")) in *. assert (LPRE : length pre = j) by (unfold pre; rewrite firstn_length; toR; lia).
  assert (INPRE : forall a, In a pre -> In a (vat t "energy") /\ a < e0).
  { intros a A. apply In_nth_error in A as [m A]. assert (Lm : (m < j)%nat) by (rewrite <- LPRE; apply nth_error_Some; toR; congruence).
    assert (A' : nth_error (vat t "energy") m = Some a). { rewrite <- (firstn_skipn j (vat t "energy")). rewrite nth_error_app1; [exact A|]. fold pre. lia. }
    split; [eapply nth_error_In, A'|]. apply (BEL m); [lia|exact A']. }
  set (n := length (e0 :: es)) in *. assert (LG : length (pre ++ e0 :: es) = (j + n)%nat) by (rewrite app_length; toR; lia).
  destruct (@vec_ok e1 (pre ++ e0 :: es)%list CA1) as [t2 VEC]. { intros x I. apply in_app_or in I as [I|I]; [|apply ANS; right; exact I]. apply ANS. left. apply INPRE, I. }
  rewrite VEC. cbn [rbind]. destruct (vec_columns _ _ VEC) as (ts & RM & COL). pose proof (rmapM_nth _ _ RM) as [LT GET'].
  assert (KEYS : forall q, In q (photoShells ++ ["coherent"; "compton"; "pair"; "energy"; "photoelectric"])%list -> vat t2 q = map (fun t => val0 t q) ts).
  { intros q Q. apply COL. intros mu I. apply In_nth_error in I as [m I]. destruct (GET' m mu I) as (y & _ & Y). apply (empty_cache_mu _ _ _ CA1) in Y. exact (@computeMu_keys RNum e1 y mu Y q Q). }
  assert (LTS : length ts = (j + n)%nat) by (rewrite LT; toR; exact LG).
  assert (LQ : forall q, In q (photoShells ++ ["coherent"; "compton"; "pair"; "energy"; "photoelectric"])%list -> length (vat t2 q) = (j + n)%nat) by (intros q Q; rewrite (KEYS q Q), map_length; exact LTS).
  assert (EN : vat t2 "energy" = (pre ++ e0 :: es)%list).
  { rewrite KEYS by (apply in_or_app; right; cbn; tauto). apply nth_ext with (d := 0) (d' := 0); [rewrite map_length, LT; reflexivity|]. intros m Hm. rewrite map_length in Hm.
    destruct (nth_error ts m) as [mu|] eqn:I; [|apply nth_error_None in I; toR; lia]. rewrite (map_nth_val _ _ _ I). destruct (GET' m mu I) as (y & Y & C). apply (empty_cache_mu _ _ _ CA1) in C.
    apply computeMu_spec in C as (_ & _ & _ & EN & _). toR. rewrite (nth_error_nth _ _ 0 Y). rewrite val0_R. exact (vSome _ _ _ EN). }
  assert (OV : forall given old, (n <= length given)%nat -> overwrite j (length (pre ++ e0 :: es)) given old = Ok (firstn j old ++ firstn n given)%list).
  { intros given old L. unfold overwrite. toR. rewrite LG. replace (j + n - j)%nat with n by lia. destruct (Nat.ltb_spec (length given) n); [toR; lia|reflexivity]. }
  rewrite (OV co _ LC). cbn [rbind]. rewrite (OV cp _ LK). cbn [rbind]. rewrite (OV pr _ LP). cbn [rbind]. rewrite (OV photo) by (toR; lia). cbn [rbind]. rewrite XE.
  set (h := (firstn j (vat t2 "coherent") ++ firstn n co)%list). set (k := (firstn j (vat t2 "compton") ++ firstn n cp)%list). set (p := (firstn j (vat t2 "pair") ++ firstn n pr)%list). set (f := (firstn j (vat t2 "photoelectric") ++ firstn n photo)%list).
  destruct (sharedShells_none j (length (pre ++ e0 :: es)) photo (vat t2 "photoelectric") (mset_all sltb [("coherent", h); ("compton", k); ("pair", p); ("photoelectric", f)] t2)) as [SH OT].
  set (t3 := mset_all sltb _ t2) in *. set (T := sharedShells _ _ _ _ _ t3) in *.
  assert (NS : forall q, In q ["energy"; "coherent"; "compton"; "pair"; "photoelectric"] -> ~ In q photoShells) by (cbn; intros q Hq; intuition (subst; discriminate)).
  assert (V3 : vat t3 "energy" = vat t2 "energy") by (unfold t3; cbn [mset_all fold_left fst snd]; rewrite !vat_other by discriminate; reflexivity).
  assert (W : vat t3 "coherent" = h /\ vat t3 "compton" = k /\ vat t3 "pair" = p /\ vat t3 "photoelectric" = f).
  { unfold t3. cbn [mset_all fold_left fst snd]. repeat split; repeat (rewrite vat_other by discriminate); apply vat_same. }
  destruct W as (W1 & W2 & W3 & W4).
  assert (TE : vat T "energy" = (pre ++ e0 :: es)%list) by (rewrite OT by (apply NS; cbn; tauto); rewrite V3; exact EN).
  assert (LEN : forall q given, In q ["coherent"; "compton"; "pair"; "photoelectric"] -> (n <= length given)%nat -> length (firstn j (vat t2 q) ++ firstn n given)%list = (j + n)%nat).
  { intros q given Q L. rewrite app_length, !firstn_length, LQ by (apply in_or_app; right; cbn in *; tauto). toR. lia. }
  apply tables_accept.
  - rewrite TE. assert (RP : rising (pre ++ e0 :: es)).
    { apply rising_app with (e0 := e0); [|exact AP|reflexivity|intros a A; left; apply INPRE, A]. unfold pre. apply rising_firstn. intros i a b A B. exact (RS (S i) a b A B). }
    intros [|i] a b A B; [|exact (RP i a b A B)]. cbn in A. injection A as <-. cbn [nth_error] in B. destruct pre as [|q pr'] eqn:PR; cbn in B; injection B as <-; [lra|]. apply (RS 0%nat); [reflexivity|]. change (nth_error (vat t "energy") 0 = Some q).
    assert (H0 : nth_error (firstn j (vat t "energy")) 0 = Some q) by (unfold pre in PR; toR; rewrite PR; reflexivity). rewrite <- (firstn_skipn j (vat t "energy")). rewrite nth_error_app1; [exact H0|]. apply nth_error_Some. toR. congruence.
  - intros q Q. rewrite TE. toR. rewrite LG. cbn in Q. destruct Q as [<-|[<-|[<-|[<-|[]]]]]; rewrite OT by (apply NS; cbn; tauto); [rewrite W4|rewrite W1|rewrite W2|rewrite W3]; (apply LEN; [cbn; tauto|toR; lia]).
  - intros s Hs. split.
    + destruct (ST1 s Hs) as (ea & eb & _ & SP & Q1 & _). unfold mmem. rewrite Q1. clear - SP. unfold setPartialPhotoelectric in SP. destruct (negb _); [discriminate|]. destruct (negb _); [discriminate|]. destruct (not_ascending _ _); [discriminate|]. cbv zeta in SP.
      destruct (String.eqb s "all other"); [injection SP as <-; cbn; now rewrite sfind_same|].
      destruct (combine _ _) as [|[e0 v0] [|x l]]; injection SP as <-; cbn [el_ppE with_pp with_binding]; now rewrite sfind_same.
    + rewrite TE, (SH s Hs). unfold shared. rewrite map_length, seq_length. reflexivity.
Qed.
