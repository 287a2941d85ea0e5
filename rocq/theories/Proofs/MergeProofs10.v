(** The table after data with edges were given. *)
From Coq Require Import Ascii String List ZArith Reals Bool Arith Lia Lra Sorted.
From Verif Require Import Base.Num Base.Res Base.SMap Base.Str Base.Text Model.Shell Model.Specfile Model.EPDL97 Model.Element Model.Elements Model.ElementsFiles
  Spec.ShellSpec Spec.MaterialSpec Spec.ElementSpec Spec.MergeSpec Spec.EdgeSpec Proofs.MathProofs Proofs.ElementProofs Proofs.ElementProofs2 Proofs.ElementProofs3 Proofs.ElementProofs4 Proofs.ElementProofs8 Proofs.ElementsProofs Proofs.InitProofs Proofs.InitProofs4 Proofs.EPDL97Proofs9 Proofs.MergeProofs Proofs.MergeProofs2 Proofs.MergeProofs3 Proofs.MergeProofs4 Proofs.MergeProofs5 Proofs.MergeProofs6 Proofs.MergeProofs7 Proofs.MergeProofs8 Proofs.EdgeProofs Proofs.MergeProofs9.
Import ListNotations.
Set Implicit Arguments.
Local Open Scope string_scope.
Local Open Scope R_scope.
Local Existing Instance RNum.

Lemma nth_error_firstn_lt {A} : forall (l : list A) i n, (i < n)%nat -> nth_error (firstn n l) i = nth_error l i.
Proof. induction l as [|a l IH]; intros i n H; [now rewrite firstn_nil|]. destruct n; [lia|]. destruct i; cbn; [reflexivity|]. apply IH. lia. Qed.
Lemma raised_entry (edges : list (string * (R * Z))) (b : list (string * R)) k (x : R) : let y := raised edges b k x in
  y = x \/ exists s en idx, mfind sltb s edges = Some (en, idx) /\ Z.of_nat k = (idx + 1)%Z /\ en < val0 b s /\ y = val0 b s.
Proof.
  cbv zeta. unfold raised. set (P := fun y : R => y = x \/ exists s en idx, mfind sltb s edges = Some (en, idx) /\ Z.of_nat k = (idx + 1)%Z /\ en < val0 b s /\ y = val0 b s).
  match goal with |- context [fold_left ?f _ _] => set (f0 := f) end. change (P (fold_left f0 photoShells x)). assert (P0 : P x) by (left; reflexivity).
  assert (ST : forall y s, P y -> P (f0 y s)).
  { intros y s Y. unfold f0. match goal with |- context [match ?m with Some _ => _ | None => _ end] => destruct m as [[en idx]|] eqn:F end; [|exact Y]. destruct (Z.eqb_spec (Z.of_nat k) (idx + 1)%Z) as [E|E]; [|exact Y]. cbn [andb]. change (nltb en (val0 b s)) with (Rltb en (val0 b s)).
    destruct (Rltb_spec en (val0 b s)); [|exact Y]. right. exists s, en, idx. auto. }
  clearbody f0 P. revert x P0. generalize photoShells. intros l. induction l as [|s l IH]; intros y Y; [exact Y|]. cbn [fold_left]. apply IH, ST, Y.
Qed.
Lemma gridLoop_entry (edges : list (string * (R * Z))) (b : list (string * R)) ext : forall es k0 prev k x y, nth_error es k = Some x -> nth_error (gridLoop edges b ext k0 prev es) k = Some y ->
  y = x \/ (exists s en idx, mfind sltb s edges = Some (en, idx) /\ Z.of_nat (k0 + k) = (idx + 1)%Z /\ en < val0 b s /\ y = val0 b s) \/
  (ext = true /\ exists p, nth_error (prev :: gridLoop edges b ext k0 prev es) k = Some p /\ y = p + 1 / 1000000).
Proof.
  induction es as [|x0 es IH]; intros k0 prev k x y X Y; [destruct k; discriminate|]. cbn [gridLoop] in Y |- *. cbv zeta in Y |- *. set (r := raised edges b k0 x0) in *.
  set (y0 := if ext && nltb r prev then nadd prev (nlit 1 (-6)) else r) in *. destruct k as [|k].
  - cbn in X, Y. injection X as ->. injection Y as <-. destruct ext.
    + cbn [andb] in y0. change (nltb r prev) with (Rltb r prev) in y0. unfold y0. destruct (Rltb_spec r prev).
      * right. right. split; [reflexivity|]. exists prev. split; [reflexivity|]. unfold nadd, nlit, RNum, Rlit. simpl. lra.
      * destruct (raised_entry edges b k0 x) as [E|E]; [left; exact E|right; left; rewrite Nat.add_0_r; exact E].
    + cbn [andb] in y0. unfold y0. destruct (raised_entry edges b k0 x) as [E|E]; [left; exact E|right; left; rewrite Nat.add_0_r; exact E].
  - cbn in X, Y. destruct (IH (S k0) y0 k x y X Y) as [E|[E|(E & p & Pp & Q)]]; [left; exact E|right; left; replace (k0 + S k)%nat with (S k0 + k)%nat by lia; exact E|].
    right. right. split; [exact E|]. exists p. split; [|exact Q]. cbn [nth_error]. exact Pp.
Qed.
Lemma putTables_rising t (e e' : @element RNum) : putTables t e = (e', Ok tt) -> not_ascending 0 (vat t "energy") = false.
Proof.
  intros H. destruct (putTables_state _ _ H) as (_ & _ & _ & _ & _ & ST). destruct (ST "all other") as (ea & eb & _ & SP & _); [cbn; tauto|]. unfold setPartialPhotoelectric in SP.
  destruct (negb (mmem _ _ _)); [discriminate|]. destruct (negb (Nat.eqb _ _)); [discriminate|]. change (@n0 RNum) with 0 in SP. destruct (not_ascending 0 (vat t "energy")); [discriminate|reflexivity].
Qed.
Lemma not_ascending_sorted : forall (l : list R) last, not_ascending last l = false -> StronglySorted Rle (last :: l).
Proof.
  induction l as [|x l IH]; intros last H; cbn [not_ascending] in H; [repeat constructor|]. apply orb_false_iff in H as [A B]. change (nltb x last) with (Rltb x last) in A. destruct (Rltb_spec x last) as [|A']; [discriminate|].
  specialize (IH _ B). constructor; [exact IH|]. inversion IH as [|? ? S F]; subst. constructor; [lra|]. revert F. apply Forall_impl. intros; lra.
Qed.

Lemma raised_id (edges : list (string * (R * Z))) (b : list (string * R)) k (x : R) : (forall s en idx, mfind sltb s edges = Some (en, idx) -> val0 b s <= en) -> raised edges b k x = x.
Proof.
  intros H. unfold raised. match goal with |- fold_left ?f _ _ = _ => assert (ST : forall y s, f y s = y) end.
  { intros y s. match goal with |- match ?m with Some _ => _ | None => _ end = _ => destruct m as [[en idx]|] eqn:F end; [|reflexivity]. change (nltb en (val0 b s)) with (Rltb en (val0 b s)). destruct (Rltb_spec en (val0 b s)) as [L|L]; [specialize (H s en idx F); lra|]. now rewrite andb_false_r. }
  revert ST. generalize photoShells. intros l ST. induction l as [|s l IH]; [reflexivity|]. cbn [fold_left]. refine (eq_trans (f_equal (fun y => fold_left _ l y) (ST x s)) _). exact IH.
Qed.
Lemma gridLoop_id (edges : list (string * (R * Z))) (b : list (string * R)) ext : (forall s en idx, mfind sltb s edges = Some (en, idx) -> val0 b s <= en) ->
  forall es k prev, (ext = true -> rising (prev :: es)) -> gridLoop edges b ext k prev es = es.
Proof.
  intros H. induction es as [|x es IH]; intros k prev RS; [reflexivity|]. cbn [gridLoop]. cbv zeta. rewrite (@raised_id edges b k x H).
  assert (Y : (if ext && nltb x prev then nadd prev (nlit 1 (-6)) else x) = x).
  { destruct ext; [|reflexivity]. cbn [andb]. change (nltb x prev) with (Rltb x prev). destruct (Rltb_spec x prev) as [L|L]; [|reflexivity]. pose proof (RS eq_refl 0%nat prev x eq_refl eq_refl). lra. }
  toR. rewrite Y. f_equal. apply IH. intros E i a c A C. exact (RS E (S i) a c A C).
Qed.
Section T.
Variables (e e1 e' : @element RNum) (t : list (string * list R)) (energy photo co cp pr : list R).
Hypothesis PT : putTables t e = (e1, Ok tt).
Hypothesis MG : mergeTables e1 t energy photo co cp pr = (e', Ok tt).
Lemma merge_table : exists e0 e2 e3 edges pre g rest grid ts T, nth_error energy 0 = Some e0 /\ extractEdges_from e1 energy photo = (e2, Ok edges) /\
  vat t "energy" = (pre ++ g :: rest)%list /\ Forall (fun x => x < e0) pre /\ (pre = [] \/ g < e0) /\ (g < e0 -> forall g', hd_error rest = Some g' -> ~ g' < e0) /\
  length grid = length energy /\
  (forall k x y, nth_error energy k = Some x -> nth_error grid k = Some y -> y = x \/
     (exists s en idx, mfind sltb s edges = Some (en, idx) /\ Z.of_nat k = (idx + 1)%Z /\ en < val0 (el_binding e1) s /\ y = val0 (el_binding e1) s) \/
     exists p, nth_error (pre ++ grid) (length pre + k - 1) = Some p /\ (0 < length pre + k)%nat /\ y = p + 1 / 1000000) /\
  rmapM (Element.getMassAttenuationCoefficients e2) (pre ++ grid) = Ok ts /\ el_muCache e2 = [] /\
  info_same e1 e3 /\ (forall s b, mfind sltb s (el_binding e1) = Some b -> mfind sltb s (el_binding e3) = Some b) /\ putTables T e3 = (e', Ok tt) /\
  vat T "energy" = (pre ++ grid)%list /\
  (forall k v, In (k, v) [("coherent", co); ("compton", cp); ("pair", pr); ("photoelectric", photo)] -> (length energy <= length v)%nat /\ vat T k = (firstn (length pre) (map (fun t => val0 t k) ts) ++ firstn (length energy) v)%list) /\
  (forall s, In s photoShells -> vat T s = match replaced edges (length pre) (length pre + length energy) photo (map (fun t => val0 t "photoelectric") ts) s with Some f => f (map (fun t => val0 t s) ts) | None => map (fun t => val0 t s) ts end) /\
  ((forall s en idx, mfind sltb s edges = Some (en, idx) -> val0 (el_binding e1) s <= en) -> rising energy -> grid = energy).
Proof.
  destruct (@merge_gen RNum e1 e' t energy photo co cp pr MG) as (e0 & j0 & e2 & e3 & edges & t2 & T & E0 & CB & X & X2 & H). cbv zeta in H.
  set (j := (j0 - 1)%nat) in *. set (pre := firstn j (vat t "energy")) in *. set (grid := gridLoop _ _ _ _ _ _) in *. destruct H as (VEC & PT' & TE & TV & TS).
  destruct (countBelow_spec _ _ _ CB) as (_ & LJ0 & BEL). rewrite Nat.sub_0_r in LJ0, BEL. destruct (countBelow_stop _ _ _ CB) as (y & Y & NY). rewrite Nat.sub_0_r in Y.
  assert (LPRE : length pre = j) by (unfold pre; rewrite firstn_length; unfold j; toR; lia).
  destruct (nth_error (vat t "energy") j) as [g|] eqn:GJ; [|apply nth_error_None in GJ; unfold j in GJ; toR; lia].
  destruct (nth_error_split _ _ GJ) as (a & rest & EQ & LA).
  assert (PA : pre = a). { unfold pre. rewrite EQ, <- LA. rewrite firstn_app, Nat.sub_diag, firstn_all, app_nil_r. reflexivity. }
  assert (LG : length grid = length energy) by apply gridLoop_length.
  destruct (putTables_state _ _ PT) as (CA1 & _).
  pose proof (extract_inv _ _ _ X) as (_ & _ & _ & X'). cbv zeta in X'. destruct X' as [E2 ED].
  assert (CA2 : el_muCache e2 = []) by (rewrite E2; exact CA1).
  destruct (vec_columns _ _ VEC) as (ts & RM & COL). pose proof (rmapM_nth _ _ RM) as [LT GET'].
  assert (KEYS : forall q, In q (photoShells ++ ["coherent"; "compton"; "pair"; "energy"; "photoelectric"])%list -> vat t2 q = map (fun t => val0 t q) ts).
  { intros q Q. apply COL. intros mu I. apply In_nth_error in I as [m I]. destruct (GET' m mu I) as (z & _ & Z). apply (empty_cache_mu _ _ _ CA2) in Z. exact (@computeMu_keys RNum e2 z mu Z q Q). }
  assert (TE' : vat T "energy" = (pre ++ grid)%list).
  { rewrite TE, KEYS by (apply in_or_app; right; cbn; tauto). apply nth_ext with (d := 0) (d' := 0); [rewrite map_length, LT; reflexivity|]. intros m Hm. rewrite map_length in Hm.
    destruct (nth_error ts m) as [mu|] eqn:I; [|apply nth_error_None in I; toR; lia]. rewrite (map_nth_val _ _ _ I). destruct (GET' m mu I) as (z & Z & C). apply (empty_cache_mu _ _ _ CA2) in C.
    apply computeMu_spec in C as (_ & _ & _ & EN & _). toR. rewrite (nth_error_nth _ _ 0 Z). rewrite val0_R. exact (vSome _ _ _ EN). }
  assert (LM : length (pre ++ grid) = (j + length energy)%nat) by (rewrite app_length, LPRE, LG; reflexivity). toR. rewrite LM in TV, TS. replace (j + length energy - j)%nat with (length energy) in TV by lia.
  pose proof (extract_inv _ _ _ X2) as (_ & _ & _ & X2'). cbv zeta in X2'. destruct X2' as [E3 _].
  exists e0, e2, e3, edges, pre, g, rest, grid, ts, T. split; [exact E0|]. split; [exact X|]. split; [rewrite PA; exact EQ|]. split.
  { rewrite PA, Forall_forall. intros x I. apply In_nth_error in I as [m I]. assert (Lm : (m < length a)%nat) by (apply nth_error_Some; toR; congruence). apply (BEL m); [unfold j in LA; toR; lia|]. rewrite EQ. rewrite nth_error_app1; [exact I|exact Lm]. }
  split. { destruct j0 as [|j0']; [left; destruct pre; [reflexivity|cbn in LPRE; unfold j in LPRE; lia]|right]. apply (BEL j); [unfold j; lia|exact GJ]. }
  split.
  { intros Lg g' HR. assert (J : j0 <> 0%nat). { intros ->. apply NY. change j with 0%nat in GJ. toR. congruence. }
    assert (S1 : nth_error (vat t "energy") (S j) = Some g'). { rewrite EQ, nth_error_app2 by (toR; lia). replace (S j - length a)%nat with 1%nat by (toR; lia). destruct rest; [discriminate|]. exact HR. }
    replace (S j) with j0 in S1 by (unfold j; lia). assert (y = g') by (toR; congruence). subst. exact NY. }
  split; [exact LG|]. split.
  { intros k x z Kx Kz. destruct (gridLoop_entry _ _ _ _ _ _ _ Kx Kz) as [Q|[(s & en & idx & Q1 & Q2 & Q3 & Q4)|(Q & p & Q1 & Q2)]]; [left; exact Q|right; left|right; right].
    - exists s, en, idx. assert (V : val0 (getBindingEnergies e2) s = val0 (el_binding e1) s) by (rewrite E2; apply edgeLoop_val0). rewrite <- V. auto.
    - apply Nat.ltb_lt in Q. exists p. split; [|split; [toR; lia|exact Q2]]. rewrite LPRE. destruct k as [|k].
      + cbn in Q1. injection Q1 as <-. rewrite nth_error_app1 by (toR; lia). rewrite Nat.add_0_r. unfold pre. rewrite nth_error_firstn_lt by lia. toR. apply nth_error_nth'. unfold j in *. toR. lia.
      + rewrite nth_error_app2 by (toR; lia). rewrite LPRE. replace (j + S k - 1 - j)%nat with k by lia. exact Q1. }
  split; [exact RM|]. split; [exact CA2|]. split.
  { apply (@info_trans _ e1 e2 e3); [pose proof (extract_any e1 energy photo) as I; rewrite X in I; exact I|pose proof (extract_any e2 energy photo) as I; rewrite X2 in I; exact I]. }
  split. { intros s b F. rewrite E3. cbn [el_binding with_binding]. apply edgeLoop_mfind. rewrite E2. cbn [el_binding with_binding]. apply edgeLoop_mfind, F. }
  split; [exact PT'|]. split; [exact TE'|]. toR. rewrite LPRE. split.
  - intros k v I. destruct (TV k v I) as [A B]. split; [exact A|]. rewrite B, KEYS; [reflexivity|]. apply in_or_app. right. cbn in I. intuition (match goal with H : _ = _ |- _ => injection H as <- <- end; cbn; tauto).
  - split; [intros s Hs; rewrite (TS s Hs); rewrite !KEYS; [reflexivity|apply in_or_app; left; exact Hs|apply in_or_app; right; cbn; tauto]|].
    intros EB RE. unfold grid. apply gridLoop_id.
    + intros s en idx F. assert (V : val0 (getBindingEnergies e2) s = val0 (el_binding e1) s) by (rewrite E2; apply edgeLoop_val0). rewrite V. exact (EB s en idx F).
    + intros J. apply Nat.ltb_lt in J. intros [|i] q c Q C; [|exact (RE i q c Q C)]. cbn in Q. injection Q as <-. cbn [nth_error] in C. assert (c = e0) by (pose proof (eq_trans (eq_sym C) E0) as Z; injection Z; auto). subst c.
      destruct (nth_error (vat t "energy") (j - 1)) as [w|] eqn:W; [|apply nth_error_None in W; unfold vat in *; toR; lia]. toR. rewrite (nth_error_nth _ _ _ W). left. apply (BEL (j - 1)%nat); [lia|exact W].
Qed.
End T.
