(** The answers of an element at isolated energies of data with edges: the theorem. *)
From Coq Require Import Ascii String List ZArith Reals Bool Arith Lia Lra Sorted.
From Verif Require Import Base.Num Base.Res Base.SMap Base.Str Base.Text Model.Shell Model.Specfile Model.EPDL97 Model.Element Model.Elements Model.ElementsFiles
  Spec.ShellSpec Spec.MaterialSpec Spec.ElementSpec Spec.MergeSpec Spec.EdgeSpec Proofs.MathProofs Proofs.ElementProofs Proofs.ElementProofs2 Proofs.ElementProofs3 Proofs.ElementProofs4 Proofs.ElementProofs8 Proofs.ElementsProofs Proofs.InitProofs Proofs.InitProofs4 Proofs.EPDL97Proofs9 Proofs.MergeProofs Proofs.MergeProofs2 Proofs.MergeProofs3 Proofs.MergeProofs4 Proofs.MergeProofs5 Proofs.MergeProofs6 Proofs.MergeProofs7 Proofs.EdgeProofs Proofs.MergeProofs9 Proofs.MergeProofs10 Proofs.MergeProofs11.
Import ListNotations.
Set Implicit Arguments.
Local Open Scope string_scope.
Local Open Scope R_scope.
Local Existing Instance RNum.

Section A.
Variables (e e1 e' e2 e3 : @element RNum) (t T : list (string * list R)) (energy photo co cp pr pre grid : list R) (edges : list (string * (R * Z))) (ts : list (list (string * R))).
Hypothesis PT : putTables t e = (e1, Ok tt).
Hypothesis X : extractEdges_from e1 energy photo = (e2, Ok edges).
Hypothesis LG : length grid = length energy.
Hypothesis RM : rmapM (Element.getMassAttenuationCoefficients e2) (pre ++ grid)%list = Ok ts.
Hypothesis I3 : info_same e1 e3.
Hypothesis B3 : forall s b, mfind sltb s (el_binding e1) = Some b -> mfind sltb s (el_binding e3) = Some b.
Hypothesis PT' : putTables T e3 = (e', Ok tt).
Hypothesis TE : vat T "energy" = (pre ++ grid)%list.
Hypothesis TV : forall k v, In (k, v) [("coherent", co); ("compton", cp); ("pair", pr); ("photoelectric", photo)] -> (length energy <= length v)%nat /\ vat T k = (firstn (length pre) (map (fun t => val0 t k) ts) ++ firstn (length energy) v)%list.
Hypothesis TS : forall s, In s photoShells -> vat T s = match replaced edges (length pre) (length pre + length energy) photo (map (fun t => val0 t "photoelectric") ts) s with Some f => f (map (fun t => val0 t s) ts) | None => map (fun t => val0 t s) ts end.

Lemma col_pair : length (vat T "pair") = length (vat T "energy").
Proof.
  destruct (@TV "pair" pr) as [L ->]; [cbn; tauto|]. rewrite TE. pose proof (rmapM_nth _ _ RM) as [LT _]. rewrite !app_length, !firstn_length, map_length, LG. toR. rewrite LT, app_length. toR. lia.
Qed.
Variables (i k : nat) (a x c : R) (mu : list (string * R)).
Hypothesis A : nth_error (pre ++ grid) i = Some a.
Hypothesis X1 : nth_error (pre ++ grid) (S i) = Some x.
Hypothesis C : nth_error (pre ++ grid) (S (S i)) = Some c.
Hypothesis K : (length pre + k)%nat = S i.
Hypothesis P : 0 < a.
Hypothesis G1 : a + 1 / 100000 < x.
Hypothesis G2 : x + 1 / 100000 < c.
Hypothesis M1 : Element.getMassAttenuationCoefficients e1 x = Ok mu.
Lemma LK : (S k < length energy)%nat.
Proof. assert (S (S i) < length (pre ++ grid))%nat by (apply nth_error_Some; congruence). rewrite app_length, LG in H. lia. Qed.
Lemma SG : StronglySorted Rle (pre ++ grid).
Proof. pose proof (putTables_rising _ _ PT') as N. rewrite TE in N. apply not_ascending_sorted in N. inversion N; assumption. Qed.
Lemma TSI : nth_error ts (S i) = Some mu.
Proof.
  destruct (rmapM_get _ _ RM) as (_ & GET). destruct (GET (S i) x X1) as (m & I & Q).
  destruct (putTables_state _ _ PT) as (CA1 & _). pose proof (extract_inv _ _ _ X) as (_ & _ & _ & X'). cbv zeta in X'. destruct X' as [E2 _].
  assert (Q2 : Element.getMassAttenuationCoefficients e2 x = Ok mu). { rewrite E2. apply query_more; [|exact CA1|exact M1]. intros s b. apply edgeLoop_mfind. }
  assert (m = mu) by (apply Ok_inj; exact (eq_trans (eq_sym Q) Q2)). subst m. exact I.
Qed.
Lemma scatter_at q given : In (q, given) [("coherent", co); ("compton", cp); ("pair", pr)] -> Forall (fun y => 0 <= y) given ->
  exists y, vlookup q (el_mu e') = Ok y /\ otherValue true (el_muE e') y x = Ok (nth k given 0).
Proof.
  intros Q NG. assert (QI : In (q, given) [("coherent", co); ("compton", cp); ("pair", pr); ("photoelectric", photo)]) by (cbn in *; tauto). destruct (@TV _ _ QI) as [L V].
  destruct (putTables_state _ _ PT') as (_ & ME & MU & _). assert (MQ : mfind sltb q (el_mu e') = Some (vat T q)). { apply (MU col_pair). cbn in Q |- *. intuition (match goal with H : _ = _ |- _ => injection H as <- <- end; auto). }
  exists (vat T q). unfold vlookup. rewrite MQ, ME, TE. split; [reflexivity|]. pose proof LK as LK. pose proof (rmapM_nth _ _ RM) as [LT _].
  assert (Y1 : nth_error (vat T q) (S i) = Some (nth k given 0)).
  { rewrite V, <- K. rewrite nth_error_app2; rewrite firstn_length, map_length; toR; rewrite LT, app_length; [|toR; lia]. rewrite Nat.min_l by (toR; lia). replace (length pre + k - length pre)%nat with k by lia.
    rewrite nth_error_firstn_lt by (toR; lia). apply nth_error_nth'. toR. lia. }
  assert (NN : 0 <= nth k given 0) by (rewrite Forall_forall in NG; apply NG, nth_In; toR; lia).
  exact (@other_iso _ _ _ _ _ (vat T q) _ true A X1 C P G1 G2 SG Y1 NN).
Qed.
Lemma other_stored y : nth_error (vat T "all other") (S i) = Some y -> 0 <= y -> partialValue e' x "all other" = Ok y.
Proof.
  intros Y NY. destruct (putTables_state _ _ PT') as (_ & _ & _ & _ & _ & ST). destruct (ST "all other") as (ea & eb & _ & SP & Q1 & Q2); [cbn; tauto|]. rewrite TE in SP.
  apply stored_other in SP as [S1 S2]. rewrite S1 in Q1. rewrite S2 in Q2. unfold partialValue. cbn [String.eqb Ascii.eqb Bool.eqb]. unfold vlookup. rewrite Q1, Q2. cbn [of_opt rbind]. unfold finite_or. toR.
  rewrite (@other_iso _ _ _ _ _ (vat T "all other") _ false A X1 C P G1 G2 SG Y NY). reflexivity.
Qed.
Lemma base_cm : computeMu e1 x = Ok mu.
Proof. destruct (putTables_state _ _ PT) as (CA1 & _). exact (empty_cache_mu _ _ _ CA1 M1). Qed.
Lemma base_partial s : In s photoShells -> 0 < value_or_0 "photoelectric" mu -> partialValue e1 x s = Ok (value_or_0 s mu).
Proof.
  intros Hs TOT. pose proof base_cm as CM. pose proof (computeMu_sums _ _ _ CM) as [SUM _]. apply computeMu_spec in CM as (_ & (part & PP & VP) & _).
  destruct (existsb _ _).
  - specialize (VP s Hs). destruct (getPartial_lookup _ _ PP Hs) as (v & Hv & Hf). rewrite (vSome _ _ _ VP), val0_R, (vSome _ _ _ Hf). exact Hv.
  - exfalso. subst part. assert (ZS : forall s, In s photo_names -> value_or_0 s mu = 0) by (intros s' Hs'; exact (vSome _ _ _ (VP s' Hs'))).
    assert (Z0 : value_or_0 "photoelectric" mu = 0); [|lra]. rewrite (vSome _ _ _ SUM). unfold photo_sum. rewrite (map_ext_in _ (fun _ => 0) _ ZS). cbn. lra.
Qed.
(** a shell has no coefficient before exactly when it has none after *)
Lemma shell_stored s y : In s photoShells -> s <> "all other" -> 0 < value_or_0 "photoelectric" mu -> nth_error (vat T s) (S i) = Some y -> (0 < value_or_0 s mu -> 0 < y) ->
  0 <= value_or_0 s mu /\ partialValue e' x s = Ok (if Rltb 0 (value_or_0 s mu) then y else 0).
Proof.
  intros Hs NS TOT Y PY. pose proof (base_partial Hs TOT) as PS. destruct (putTables_state _ _ PT') as (_ & _ & _ & _ & BI & ST). destruct (ST s Hs) as (ea & eb & IN & SP & Q1 & Q2). rewrite TE in SP.
  unfold partialValue in PS |- *. destruct (String.eqb_spec s "all other") as [E|_]; [contradiction|].
  apply rbind_Ok in PS as (b & Hb & PS). destruct (mfind sltb s (el_binding e1)) as [b'|] eqn:FB; [|discriminate]. cbn [of_opt] in Hb. apply Ok_inj in Hb. subst b'. rewrite (BI _ _ (B3 _ FB)). cbn [of_opt rbind].
  destruct (neqb b n0 || nltb x b)%bool eqn:BB.
  - apply Ok_inj in PS. change (@n0 RNum) with 0 in PS. rewrite <- PS. split; [lra|]. destruct (Rltb_spec 0 0); [lra|reflexivity].
  - apply rbind_Ok in PS as (g & _ & PS). apply rbind_Ok in PS as (u & _ & PS). unfold finite_or in PS. apply rbind_Ok in PS as (w & PS & PW). change (nfinite w) with true in PW. cbn iota in PW. apply Ok_inj in PW. subst w.
    apply partialShell_nonneg in PS. split; [lra|]. destruct (Rltb_spec 0 (value_or_0 s mu)) as [_|L]; [|lra].
    apply orb_false_elim in BB as [_ BB]. change (nltb x b) with (Rltb x b) in BB. apply Rltb_false in BB.
    assert (BV : val0 (el_binding ea) s = b). { destruct IN as (_ & _ & _ & _ & _ & _ & _ & _ & IN). destruct I3 as (_ & _ & _ & _ & _ & _ & _ & _ & J). rewrite IN, J. unfold val0. rewrite FB. reflexivity. }
    destruct (@stored_iso _ _ _ _ _ _ _ _ _ y SP A X1 C P G1 G2 SG NS Y) as (Ga & W & S1 & S2 & PS'); [rewrite BV; lra|exact (PY PS)|]. rewrite S1 in Q1. rewrite S2 in Q2. unfold vlookup. rewrite Q1, Q2. cbn [of_opt rbind]. unfold finite_or. toR. rewrite PS'. reflexivity.
Qed.
Lemma ts_at s : nth (S i) (map (fun t => val0 t s) ts) 0 = value_or_0 s mu.
Proof. rewrite (map_nth_val _ _ _ TSI). apply val0_R. Qed.
(** the place from which the coefficients of a shell are replaced *)
Definition past s := edges = [] \/ (exists en p, mfind sltb s edges = Some (en, Z.of_nat p) /\ (p < k)%nat).
Definition given_share s := nth k photo 0 * (value_or_0 s mu / value_or_0 "photoelectric" mu).
Hypothesis PTOT : 0 < value_or_0 "photoelectric" mu.
Hypothesis PK : 0 < nth k photo 0.
Lemma shell_entry s : In s photoShells -> exists y, nth_error (vat T s) (S i) = Some y /\ (past s -> y = given_share s) /\ (edges <> [] -> mfind sltb s edges = None -> y = value_or_0 s mu) /\
  (y = given_share s \/ y = value_or_0 s mu \/ exists en z, mfind sltb s edges = Some (en, z) /\ (z < 0 \/ Z.of_nat k <= z)%Z).
Proof.
  intros Hs. pose proof LK as LK. pose proof TSI as TI. rewrite (@TS s Hs). unfold replaced. toR. unfold past.
  assert (SH : forall z start, (start <= S i)%nat -> nth_error (shared z (length pre) start (length pre + length energy) photo (map (fun t => val0 t "photoelectric") ts) (map (fun t => val0 t s) ts)) (S i) = Some (given_share s)).
  { intros z start LS. unfold shared. rewrite nth_seq_map by lia. destruct (Nat.ltb_spec (S i) start); [lia|]. change (@n0 RNum) with 0. rewrite !ts_at. change (nltb 0 (value_or_0 "photoelectric" mu)) with (Rltb 0 (value_or_0 "photoelectric" mu)).
    destruct (Rltb_spec 0 (value_or_0 "photoelectric" mu)); [|lra]. replace (S i - length pre)%nat with k by lia. reflexivity. }
  destruct edges as [|q ed].
  - exists (given_share s). split; [apply SH; lia|]. split; [auto|]. split; [intros N; destruct (N eq_refl)|auto].
  - set (es := q :: ed). assert (NE : es <> []) by discriminate. clearbody es. destruct (mfind sltb s es) as [[en z]|] eqn:F.
    + destruct (Z.lt_ge_cases z 0) as [LZ|LZ]; [|destruct (Z.lt_ge_cases z (Z.of_nat k)) as [L|L]].
      * eexists. split; [unfold shared; rewrite nth_seq_map by lia; reflexivity|]. split; [intros [?|(en' & p & E & _)]; [contradiction|injection E as _ E; lia]|]. split; [discriminate|]. right. right. exists en, z. auto.
      * exists (given_share s). split; [apply SH; lia|]. split; [auto|]. split; [discriminate|auto].
      * eexists. split; [unfold shared; rewrite nth_seq_map by lia; reflexivity|]. split; [intros [?|(en' & p & E & L')]; [contradiction|injection E as _ E; lia]|]. split; [discriminate|]. right. right. exists en, z. auto.
    + exists (value_or_0 s mu). split; [exact (map_nth_error (fun t => val0 t s) _ _ TI)|]. split; [intros [?|(en' & p & E & _)]; [contradiction|discriminate]|]. auto.
Qed.
Hypothesis NO : 0 <= value_or_0 "all other" mu.
Hypothesis NOE : mfind sltb "all other" edges = None.
Hypothesis PAST : forall s en z, mfind sltb s edges = Some (en, z) -> 0 < value_or_0 s mu -> past s.
Hypothesis NG : Forall (fun y => 0 <= y) co /\ Forall (fun y => 0 <= y) cp /\ Forall (fun y => 0 <= y) pr.
Lemma share_pos s : 0 < value_or_0 s mu -> 0 < given_share s.
Proof. intros H. apply Rmult_lt_0_compat; [exact PK|]. apply Rmult_lt_0_compat; [exact H|]. apply Rinv_0_lt_compat, PTOT. Qed.
Lemma share_zero s : value_or_0 s mu = 0 -> given_share s = 0.
Proof. intros H. unfold given_share, Rdiv. rewrite H, Rmult_0_l, Rmult_0_r. reflexivity. Qed.
Lemma shell_after s : In s photoShells -> exists v, partialValue e' x s = Ok v /\ (past s -> v = given_share s) /\ (edges <> [] -> mfind sltb s edges = None -> v = value_or_0 s mu).
Proof.
  intros Hs. destruct (shell_entry Hs) as (y & Y & Y1 & Y2 & Y3). destruct (String.eqb_spec s "all other") as [->|NS].
  - exists y. split; [|auto]. apply other_stored; [exact Y|]. destruct Y3 as [->|[->|(en & z & F & _)]]; [|exact NO|rewrite NOE in F; discriminate].
    destruct (Req_dec (value_or_0 "all other" mu) 0) as [Z|Z]; [rewrite (share_zero _ Z); lra|]. left. apply share_pos. lra.
  - assert (PY : 0 < value_or_0 s mu -> 0 < y).
    { intros H. destruct Y3 as [->|[->|(en & z & F & _)]]; [apply share_pos, H|exact H|]. rewrite (Y1 (@PAST _ _ _ F H)). apply share_pos, H. }
    destruct (shell_stored Hs NS PTOT Y PY) as [NN V]. eexists. split; [exact V|]. destruct (Rltb_spec 0 (value_or_0 s mu)) as [L|L]; [auto|].
    assert (Z : value_or_0 s mu = 0) by lra. split; [intros _; symmetry; apply share_zero, Z|intros _ _; symmetry; exact Z].
Qed.
Lemma answer_at : exists mu', Element.getMassAttenuationCoefficients e' x = Ok mu' /\ value_or_0 "coherent" mu' = nth k co 0 /\ value_or_0 "compton" mu' = nth k cp 0 /\ value_or_0 "pair" mu' = nth k pr 0 /\
  (forall s, In s photoShells -> (past s -> value_or_0 s mu' = given_share s) /\ (edges <> [] -> mfind sltb s edges = None -> value_or_0 s mu' = value_or_0 s mu)) /\
  value_or_0 "photoelectric" mu' = photo_sum mu' /\ (edges = [] -> value_or_0 "photoelectric" mu' = nth k photo 0).
Proof.
  destruct (putTables_state _ _ PT') as (CA & ME & MU & _ & BI & ST). destruct NG as (NC & NK & NP).
  assert (GL : (S i < length (vat T "energy"))%nat) by (rewrite TE; apply nth_error_Some; toR; congruence).
  assert (EX' : existsb (fun kv => Nat.ltb 0 (length (snd kv))) (el_ppE e') = true).
  { destruct (ST "all other") as (ea & eb & _ & SP & Q1 & _); [cbn; tauto|]. apply stored_other in SP as [S1 _]. rewrite S1 in Q1. apply (existsb_grid _ _ Q1). toR. lia. }
  destruct (@computeMu_build e' x (fun s => match partialValue e' x s with Ok v => v | _ => 0 end) (nth k co 0) (nth k cp 0) (nth k pr 0) EX') as (mu' & CM' & V & V1 & V2 & V3).
  - intros s Hs. destruct (shell_after Hs) as (v & Q & _). rewrite Q. reflexivity.
  - apply scatter_at; [cbn; tauto|exact NC].
  - apply scatter_at; [cbn; tauto|exact NK].
  - apply scatter_at; [cbn; tauto|exact NP].
  - exists mu'. split.
    { unfold Element.getMassAttenuationCoefficients. rewrite CA. destruct (Nat.ltb_spec (length (el_muE e')) 1) as [L|L]; [exfalso; rewrite ME in L; toR; lia|]. destruct (el_cacheFlag e'); exact CM'. }
    split; [exact V1|]. split; [exact V2|]. split; [exact V3|]. split.
    { intros s Hs. destruct (shell_after Hs) as (v & Q & Q1 & Q2). rewrite (V s Hs), Q. auto. }
    destruct (computeMu_sums _ _ _ CM') as [SUM' _]. split; [exact (vSome _ _ _ SUM')|]. intros NE. rewrite (vSome _ _ _ SUM'). unfold photo_sum.
    replace (map (fun k => value_or_0 k mu') photo_names) with (map given_share photo_names).
    2:{ symmetry. apply map_ext_in. intros s Hs. destruct (shell_after Hs) as (v & Q & Q1 & _). rewrite (V s Hs), Q. apply Q1. left. exact NE. }
    pose proof (computeMu_sums _ _ _ base_cm) as [SUM _]. pose proof (vSome _ _ _ SUM) as TT. unfold photo_sum in TT. pose proof PTOT as TOT. unfold given_share. cbn [map photo_names RSum.Rsum] in TT |- *. rewrite TT in TOT |- *. field. lra.
Qed.
End A.
