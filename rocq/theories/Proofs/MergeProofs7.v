(** The answers of an element at the energies given: the theorem. *)
From Coq Require Import Ascii String List ZArith Reals Bool Arith Lia Lra Sorted.
From Verif Require Import Base.Num Base.Res Base.SMap Base.Str Base.Text Model.Shell Model.Specfile Model.EPDL97 Model.Element Model.Elements Model.ElementsFiles
  Spec.ShellSpec Spec.MaterialSpec Spec.ElementSpec Spec.MergeSpec Proofs.MathProofs Proofs.ElementProofs Proofs.ElementProofs2 Proofs.ElementProofs3 Proofs.ElementProofs4 Proofs.ElementProofs8 Proofs.ElementsProofs Proofs.InitProofs Proofs.InitProofs4 Proofs.EPDL97Proofs9 Proofs.MergeProofs Proofs.MergeProofs2 Proofs.MergeProofs3 Proofs.MergeProofs4 Proofs.MergeProofs5 Proofs.MergeProofs6.
Import ListNotations.
Set Implicit Arguments.
Local Open Scope string_scope.
Local Open Scope R_scope.
Local Existing Instance RNum.

Lemma map_nth_val (ts : list (list (string * R))) k i mu : nth_error ts i = Some mu -> nth i (map (fun t => val0 t k) ts) 0 = val0 mu k.
Proof. intros H. apply (map_nth_error (fun t => val0 t k)) in H. apply (nth_error_nth _ _ 0) in H. exact H. Qed.

Lemma combine_nth_error {A B} : forall (a : list A) (b : list B) m x y, nth_error (combine a b) m = Some (x, y) -> nth_error a m = Some x /\ nth_error b m = Some y.
Proof. induction a as [|p a IH]; intros [|q b] [|m] x y H; try discriminate; cbn in *; [injection H as -> ->; auto|apply IH, H]. Qed.

Section Supplied.
Variables (e e1 e' : @element RNum) (t : list (string * list R)) (energy photo co cp pr : list R) (e0 : R).
Hypothesis PT : putTables t e = (e1, Ok tt).
Hypothesis MG : mergeTables e1 t energy photo co cp pr = (e', Ok tt).
Hypothesis AP : apart energy.
Hypothesis E0 : nth_error energy 0 = Some e0.
Hypothesis P0 : 0 < e0.
Hypothesis PG : Forall (fun g => 0 < g) (vat t "energy").
Hypothesis GAP : forall g, In g (vat t "energy") -> g < e0 -> g + 1 / 100000 < e0.
Hypothesis PF : Forall (fun y => 0 < y) photo.
Hypothesis NC : Forall (fun y => 0 <= y) co.
Hypothesis NK : Forall (fun y => 0 <= y) cp.
Hypothesis NP : Forall (fun y => 0 <= y) pr.
Hypothesis NO : Forall (fun y => 0 <= y) (vat t "all other").
Variables (k : nat) (x : R).
Hypothesis K : nth_error energy k = Some x.
Hypothesis SK : (S k < length energy)%nat.
Hypothesis POS : (0 < k)%nat \/ exists g0 g1, nth_error (vat t "energy") 0 = Some g0 /\ nth_error (vat t "energy") 1 = Some g1 /\ g0 < e0 /\ g1 < e0.

Lemma supplied_at : exists mu, getMassAttenuationCoefficients e1 x = Ok mu /\ (0 < value_or_0 "photoelectric" mu ->
  exists mu', getMassAttenuationCoefficients e' x = Ok mu' /\
    value_or_0 "coherent" mu' = nth k co 0 /\ value_or_0 "compton" mu' = nth k cp 0 /\ value_or_0 "pair" mu' = nth k pr 0 /\
    (forall s, In s photo_names -> value_or_0 s mu' = nth k photo 0 * (value_or_0 s mu / value_or_0 "photoelectric" mu)) /\
    value_or_0 "photoelectric" mu' = nth k photo 0).
Proof.
  destruct (merge_ok _ _ _ _ _ _ MG AP E0) as (j0 & t2 & T & CB & H). cbv zeta in H. destruct H as (LJ & VEC & LF & LC & LK & LP & PT' & TE & TC & TK & TP & TF & TS).
  set (j := (j0 - 1)%nat) in *. set (G := vat t "energy") in *. set (n := length energy) in *.
  destruct (putTables_state _ _ PT) as (CA1 & ME1 & _ & _ & _ & ST1). destruct (putTables_state _ _ PT') as (CA & ME & MU & _ & BI & ST).
  destruct (countBelow_spec _ _ _ CB) as (_ & LJ0 & BEL). rewrite Nat.sub_0_r in LJ0, BEL.
  destruct (vec_columns _ _ VEC) as (ts & RM & COL). destruct (rmapM_get _ _ RM) as (LT & GET). pose proof (rmapM_nth _ _ RM) as [_ GET'].
  set (pre := firstn j G) in *. assert (LPRE : length pre = j) by (unfold pre; rewrite firstn_length; toR; lia).
  assert (LTS : length ts = (j + n)%nat) by (rewrite LT; toR; rewrite app_length, LPRE; reflexivity).
  assert (PRE : Forall (fun a => 0 < a /\ a + 1 / 100000 < e0) pre).
  { rewrite Forall_forall. intros a A. apply In_nth_error in A as [m A]. assert (Lm : (m < j)%nat) by (rewrite <- LPRE; apply nth_error_Some; toR; congruence).
    assert (A' : nth_error G m = Some a). { rewrite <- (firstn_skipn j G). rewrite nth_error_app1; [exact A|]. fold pre. lia. }
    split; [rewrite Forall_forall in PG; apply PG; eapply nth_error_In, A'|]. apply GAP; [eapply nth_error_In, A'|]. apply (BEL m); [lia|exact A']. }
  assert (PO : (0 < k)%nat \/ (0 < length pre)%nat).
  { destruct POS as [|(g0 & g1 & G0 & G1 & L0 & L1)]; [left; assumption|right]. rewrite LPRE. destruct (countBelow_stop _ _ _ CB) as (y & Y & NY). rewrite Nat.sub_0_r in Y. fold G in Y. unfold j.
    destruct j0 as [|[|j0]]; [exfalso; apply NY; toR; congruence|exfalso; apply NY; toR; congruence|lia]. }
  assert (KEYS : forall q, In q (photoShells ++ ["coherent"; "compton"; "pair"; "energy"; "photoelectric"])%list -> vat t2 q = map (fun t => val0 t q) ts).
  { intros q Q. apply COL. intros mu I. apply In_nth_error in I as [m I]. destruct (GET' m mu I) as (y & _ & Y). apply (empty_cache_mu _ _ _ CA1) in Y. exact (@computeMu_keys RNum e1 y mu Y q Q). }
  assert (TE' : vat T "energy" = (pre ++ energy)%list).
  { rewrite TE, KEYS by (apply in_or_app; right; cbn; tauto). apply nth_ext with (d := 0) (d' := 0); [rewrite map_length, LT; reflexivity|]. intros m Hm. rewrite map_length in Hm.
    destruct (nth_error ts m) as [mu|] eqn:I; [|apply nth_error_None in I; toR; lia]. rewrite (map_nth_val _ _ _ I). destruct (GET' m mu I) as (y & Y & C). apply (empty_cache_mu _ _ _ CA1) in C.
    apply computeMu_spec in C as (_ & _ & _ & EN & _). toR. rewrite (nth_error_nth _ _ 0 Y). rewrite val0_R. exact (vSome _ _ _ EN). }
  assert (X : nth_error (pre ++ energy) (j + k) = Some x). { rewrite nth_error_app2 by lia. replace (j + k - length pre)%nat with k by lia. exact K. }
  destruct (GET (j + k)%nat x X) as (mu & I & C). exists mu. split; [exact C|]. intros TOT. pose proof (empty_cache_mu _ _ _ CA1 C) as CM.
  pose proof (computeMu_sums _ _ _ CM) as [SUM _].
  set (tot := value_or_0 "photoelectric" mu) in *.
  assert (NTOT : nth (j + k) (vat t2 "photoelectric") 0 = tot). { rewrite KEYS by (apply in_or_app; right; cbn; tauto). rewrite (map_nth_val _ _ _ I). rewrite val0_R. reflexivity. }
  assert (PK : 0 < nth k photo 0). { rewrite Forall_forall in PF. apply PF, nth_In. toR. lia. }
  (* values of the shells before *)
  assert (EX : existsb (fun kv => Nat.ltb 0 (length (snd kv))) (el_ppE e1) = true).
  { pose proof CM as CM'. apply computeMu_spec in CM' as (_ & (part & PP & VP) & _). destruct (existsb _ _); [reflexivity|]. exfalso. subst part.
    assert (ZS : forall s, In s photo_names -> value_or_0 s mu = 0) by (intros s Hs; exact (vSome _ _ _ (VP s Hs))).
    assert (Z0 : tot = 0); [|lra]. unfold tot. rewrite (vSome _ _ _ SUM). unfold photo_sum. rewrite (map_ext_in _ (fun _ => 0) _ ZS). cbn. lra. }
  assert (PV : forall s, In s photoShells -> partialValue e1 x s = Ok (value_or_0 s mu)).
  { intros s Hs. pose proof CM as CM'. apply computeMu_spec in CM' as (_ & (part & PP & VP) & _). specialize (VP s Hs). rewrite EX in PP.
    destruct (getPartial_lookup _ _ PP Hs) as (v & Hv & Hf). rewrite (vSome _ _ _ VP), val0_R, (vSome _ _ _ Hf). exact Hv. }
  assert (NN : forall s, In s photoShells -> 0 <= value_or_0 s mu).
  { intros s Hs. refine (partialValue_nonneg e1 x _ s _ (PV s Hs)). intros y Y. destruct (ST1 "all other") as (ea & eb & _ & SP & _ & Q2); [cbn; tauto|].
    apply stored_other in SP as [_ SP]. rewrite Q2, SP in Y. injection Y as <-. exact NO. }
  (* the tables of the shells after *)
  set (ws := fun s => map (share photo (vat t2 "photoelectric") (vat t2 s) j) (seq 0 n)).
  assert (WK : forall s, In s photoShells -> nth_error (ws s) k = Some (nth k photo 0 * (value_or_0 s mu / tot))).
  { intros s Hs. unfold ws. rewrite nth_seq_map by (toR; lia). f_equal. unfold share. toR. rewrite NTOT. destruct (Rltb_spec 0 tot); [|lra]. do 2 f_equal.
    rewrite KEYS by (apply in_or_app; left; exact Hs). rewrite (map_nth_val _ _ _ I). rewrite val0_R. reflexivity. }
  assert (LWS : forall s, length (ws s) = n) by (intros s; unfold ws; rewrite map_length, seq_length; reflexivity).
  assert (TS' : forall s, In s photoShells -> vat T s = (map (fun i => nth i (vat t2 s) 0) (seq 0 j) ++ ws s)%list).
  { intros s Hs. rewrite (TS s Hs). apply shared_split. }
  assert (WN : forall s, In s photoShells -> 0 <= nth k photo 0 * (value_or_0 s mu / tot)).
  { intros s Hs. apply Rmult_le_pos; [lra|]. apply Rmult_le_pos; [apply NN, Hs|]. left. apply Rinv_0_lt_compat, TOT. }
  assert (PV' : forall s, In s photoShells -> partialValue e' x s = Ok (nth k photo 0 * (value_or_0 s mu / tot))).
  { intros s Hs. pose proof (PV s Hs) as PS. destruct (ST s Hs) as (ea & eb & IN & SP & Q1 & Q2). rewrite TE', (TS' s Hs) in SP.
    unfold partialValue in PS |- *. destruct (String.eqb_spec s "all other") as [->|NS].
    - apply stored_other in SP as [S1 S2]. rewrite S1 in Q1. rewrite S2 in Q2. unfold vlookup. rewrite Q1, Q2. cbn [of_opt rbind].
      destruct (suffix_bracket AP E0 P0 (d := 1 / 100000) ltac:(lra) PRE K SK PO) as (i & x0 & c & Ei & BR & X0 & GX & _). toR. rewrite LPRE in Ei.
      assert (Y1 : nth_error (map (fun i => nth i (vat t2 "all other") 0) (seq 0 j) ++ ws "all other")%list (S i) = Some (nth k photo 0 * (value_or_0 "all other" mu / tot))).
      { rewrite Ei, nth_error_app2 by (rewrite map_length, seq_length; lia). rewrite map_length, seq_length. replace (j + k - j)%nat with k by lia. apply WK, Hs. }
      destruct (nth_error (map (fun i => nth i (vat t2 "all other") 0) (seq 0 j) ++ ws "all other")%list i) as [y0|] eqn:Y0.
      2:{ apply nth_error_None in Y0. assert (Z : nth_error (map (fun i => nth i (vat t2 "all other") 0) (seq 0 j) ++ ws "all other")%list (S i) <> None) by (toR; congruence). apply nth_error_Some in Z. toR. lia. }
      unfold finite_or. toR. rewrite (@other_at _ _ _ _ _ _ _ BR X0 Y0 Y1 false GX (WN _ Hs)). reflexivity.
    - apply rbind_Ok in PS as (b & Hb & PS). destruct (mfind sltb s (el_binding e1)) as [b'|] eqn:FB; [|discriminate]. cbn [of_opt] in Hb. apply Ok_inj in Hb. subst b'.
      rewrite (BI _ _ FB). cbn [of_opt rbind]. destruct (neqb b n0 || nltb x b)%bool.
      + apply Ok_inj in PS. rewrite <- PS. f_equal. rnorm. unfold Rdiv. rewrite Rmult_0_l, Rmult_0_r. reflexivity.
      + apply rbind_Ok in PS as (g & _ & PS). apply rbind_Ok in PS as (y & _ & PS). unfold finite_or in PS. apply rbind_Ok in PS as (w & PS & PW). change (nfinite w) with true in PW. cbn iota in PW. apply Ok_inj in PW. subst w.
        apply partialShell_nonneg in PS.
        assert (BV : val0 (el_binding ea) s = b). { destruct IN as (_ & _ & _ & _ & _ & _ & _ & _ & IN). rewrite IN. unfold val0. rewrite FB. reflexivity. }
        destruct (@stored_shape ea eb s pre energy (map (fun i => nth i (vat t2 s) 0) (seq 0 j)) (ws s) e0 SP NS) as (pre' & wp' & S1 & S2 & L1 & L2 & F').
        * rewrite map_length, seq_length. toR; lia.
        * rewrite LWS. reflexivity.
        * toR. lia.
        * exact AP.
        * exact E0.
        * exact PRE.
        * rewrite BV. rewrite Forall_forall. intros [g0 w0] GW. apply In_nth_error in GW as [m GW]. apply combine_nth_error in GW as [Gm Wm]. cbn [fst snd]. intros LB.
          assert (Lm : (m < n)%nat) by (apply nth_error_Some; toR; congruence). unfold ws in Wm. rewrite nth_seq_map in Wm by exact Lm. injection Wm as <-. unfold share. destruct (Rltb _ _); [|reflexivity].
          assert (Xm : nth_error (pre ++ energy) (j + m) = Some g0). { rewrite nth_error_app2 by lia. replace (j + m - length pre)%nat with m by lia. exact Gm. }
          destruct (GET (j + m)%nat g0 Xm) as (mum & Im & Cm). apply (empty_cache_mu _ _ _ CA1) in Cm. rewrite (KEYS s) by (apply in_or_app; left; exact Hs). rewrite (map_nth_val _ _ _ Im), val0_R.
          assert (SN : In s shell_names). { unfold photoShells in Hs. apply in_app_or in Hs as [Hs|[Hs|[]]]; [exact Hs|]. exfalso. apply NS. symmetry. exact Hs. }
          rewrite (computeMu_below e1 g0 mum s b Cm SN FB (or_intror LB)). unfold Rdiv. rewrite Rmult_0_l, Rmult_0_r. reflexivity.
        * rewrite S1 in Q1. rewrite S2 in Q2. unfold vlookup. rewrite Q1, Q2. cbn [of_opt rbind].
          assert (PO' : (0 < k)%nat \/ (0 < length pre')%nat) by (rewrite L1; exact PO).
          destruct (suffix_bracket AP E0 P0 (d := 1 / 1000000) ltac:(lra) F' K SK PO') as (i & x0 & c & Ei & BR & X0 & GX & X1 & X2 & XC). toR. rewrite L1, LPRE in Ei.
          assert (Y : forall q, nth_error (wp' ++ ws s)%list (j + q) = nth_error (ws s) q). { intros q. rewrite nth_error_app2 by lia. f_equal. lia. }
          assert (Y1 : nth_error (wp' ++ ws s)%list (S i) = Some (nth k photo 0 * (value_or_0 s mu / tot))) by (rewrite Ei, Y; apply WK, Hs).
          destruct (nth_error (wp' ++ ws s)%list (S (S i))) as [y2|] eqn:Y2.
          2:{ exfalso. rewrite Ei in Y2. replace (S (j + k))%nat with (j + S k)%nat in Y2 by lia. rewrite Y in Y2. apply nth_error_None in Y2. rewrite LWS in Y2. toR. lia. }
          destruct (nth_error (wp' ++ ws s)%list i) as [y0|] eqn:Y0.
          2:{ exfalso. apply nth_error_None in Y0. assert (Z : nth_error (wp' ++ ws s)%list (S i) <> None) by (toR; congruence). apply nth_error_Some in Z. toR. lia. }
          unfold finite_or. toR. rewrite (@shell_at _ _ _ _ _ _ _ BR X0 Y0 Y1 c y2 X1 X2 Y2); [reflexivity|lra|exact XC|]. apply Rmult_lt_0_compat; [exact PK|]. apply Rmult_lt_0_compat; [exact PS|]. apply Rinv_0_lt_compat, TOT. }
  (* scattering *)
  assert (LTP : length (vat T "pair") = length (vat T "energy")).
  { rewrite TP, TE'. rewrite !app_length, !firstn_length, LPRE. rewrite KEYS by (apply in_or_app; right; cbn; tauto). rewrite map_length. toR. lia. }
  assert (SC : forall q given, In q ["coherent"; "compton"; "pair"] -> Forall (fun y => 0 <= y) given -> (n <= length given)%nat -> vat T q = (firstn j (vat t2 q) ++ firstn n given)%list ->
    exists y, vlookup q (el_mu e') = Ok y /\ otherValue true (el_muE e') y x = Ok (nth k given 0)).
  { intros q given Q NG LG TQ. exists (vat T q). unfold vlookup. rewrite (MU LTP q) by (cbn in *; intuition (subst; cbn; tauto)). split; [reflexivity|]. rewrite ME, TE', TQ.
    destruct (suffix_bracket AP E0 P0 (d := 1 / 100000) ltac:(lra) PRE K SK PO) as (i & x0 & c & Ei & BR & X0 & GX & _). toR. rewrite LPRE in Ei.
    assert (LQ : length (firstn j (vat t2 q)) = j). { rewrite firstn_length, KEYS by (apply in_or_app; right; cbn in *; intuition (subst; cbn; tauto)). rewrite map_length. toR. lia. }
    assert (Y1 : nth_error (firstn j (vat t2 q) ++ firstn n given)%list (S i) = Some (nth k given 0)).
    { rewrite Ei, nth_error_app2 by (toR; lia). rewrite LQ. replace (j + k - j)%nat with k by lia. rewrite (nth_error_nth' _ 0) by (rewrite firstn_length; toR; lia). f_equal.
      rewrite <- (firstn_skipn n given) at 2. rewrite app_nth1; [reflexivity|]. rewrite firstn_length. toR. lia. }
    destruct (nth_error (firstn j (vat t2 q) ++ firstn n given)%list i) as [y0|] eqn:Y0.
    2:{ exfalso. apply nth_error_None in Y0. assert (Z : nth_error (firstn j (vat t2 q) ++ firstn n given)%list (S i) <> None) by (toR; congruence). apply nth_error_Some in Z. toR. lia. }
    toR. apply (@other_at _ _ _ _ _ _ _ BR X0 Y0 Y1 true GX). rewrite Forall_forall in NG. apply NG, nth_In. toR. lia. }
  assert (EX' : existsb (fun kv => Nat.ltb 0 (length (snd kv))) (el_ppE e') = true).
  { destruct (ST "all other") as (ea & eb & _ & SP & Q1 & _); [cbn; tauto|]. apply stored_other in SP as [S1 _]. rewrite S1 in Q1. apply (existsb_grid _ _ Q1). rewrite TE'. rewrite app_length. toR. lia. }
  destruct (computeMu_build e' x (fun s => nth k photo 0 * (value_or_0 s mu / tot)) EX' PV' (SC "coherent" co ltac:(cbn; tauto) NC LC TC) (SC "compton" cp ltac:(cbn; tauto) NK LK TK) (SC "pair" pr ltac:(cbn; tauto) NP LP TP))
    as (mu' & CM' & V & V1 & V2 & V3).
  exists mu'. split.
  { unfold getMassAttenuationCoefficients. rewrite CA. destruct (Nat.ltb_spec (length (el_muE e')) 1) as [L|L]; [exfalso; rewrite ME, TE', app_length in L; toR; lia|]. destruct (el_cacheFlag e'); exact CM'. }
  split; [exact V1|]. split; [exact V2|]. split; [exact V3|]. split; [exact V|]. destruct (computeMu_sums _ _ _ CM') as [SUM' _]. rewrite (vSome _ _ _ SUM'). unfold photo_sum.
  replace (map (fun k => value_or_0 k mu') photo_names) with (map (fun s => nth k photo 0 * (value_or_0 s mu / tot)) photo_names) by (symmetry; apply map_ext_in; exact V).
  assert (TT : tot = photo_sum mu) by (unfold tot; exact (vSome _ _ _ SUM)). unfold photo_sum in TT. cbn [map photo_names RSum.Rsum] in TT |- *. rewrite TT. rewrite TT in TOT. field. lra.
Qed.
End Supplied.
